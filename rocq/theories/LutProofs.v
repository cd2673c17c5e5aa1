(** The stretch and squash tables: the model equals the lean version, and what follows from the sweeps. *)
From Verif Require Import Base BaseFacts FixedModel FixedSpec FixedProofs UtilProofs EstProofs LogModel LogProofs
  LutModel LutTable.

Lemma nearest_away_neg x d : 0 <= x -> 0 < d -> Z.even d = true ->
  nearest_away (- x) d (- ((x + d / 2) / d)).
Proof.
  intros X D E. apply Z.even_spec in E. destruct E as (h & ->).
  rewrite (Z.mul_comm 2 h), Z.div_mul by lia.
  pose proof (div_bounds (x + h) (h * 2) ltac:(lia)) as B.
  set (q := (x + h) / (h * 2)) in *. assert (0 <= q) by (subst q; apply Z.div_pos; lia). clearbody q.
  unfold nearest_away. destruct (Z.eq_dec x 0) as [->|].
  - assert (q = 0) by nia. subst. cbn. lia.
  - nia.
Qed.

(** Product of a non-positive number and a fraction, as a stretched probability. *)
Lemma mul_to_st A x b : 0 <= f_frac A <= 32 -> 0 <= x < 2 ^ 31 -> 0 <= b < 2 ^ 31 ->
  (x * b + 2 ^ (f_frac A + 9)) / 2 ^ (f_frac A + 10) <= 12 * 2 ^ 21 ->
  fix_mul i64 A fract_only_i32 stretched_d (- x) b = Ok (- ((x * b + 2 ^ (f_frac A + 9)) / 2 ^ (f_frac A + 10))).
Proof.
  intros F X B L.
  pose proof (fix_mul_spec i32 i64 A fract_only_i32 stretched_d (- x) b (or_introl (conj eq_refl eq_refl))
    eq_refl ltac:(cbn; lia) ltac:(intros ?; reflexivity)
    ltac:(apply inb_true; ib; pow2; lia) ltac:(apply inb_true; ib; pow2; lia) F ltac:(cbn; lia) ltac:(cbn; lia) ltac:(cbn; lia)) as H.
  cbv zeta in H. cbn [f_frac fract_only_i32 stretched_d] in H.
  assert (T : (21 <? f_frac A + 31) = true) by lia. rewrite T in H. destruct H as (q & _ & N & E).
  specialize (N eq_refl). replace (f_frac A + 31 - 21) with (f_frac A + 10) in N by lia.
  set (d := 2 ^ (f_frac A + 10)) in *.
  assert (D2 : d = 2 * 2 ^ (f_frac A + 9)).
  { unfold d. replace (f_frac A + 10) with (1 + (f_frac A + 9)) by lia. now rewrite Z.pow_add_r by lia. }
  set (h := 2 ^ (f_frac A + 9)) in *. assert (H0 : 0 < h) by (apply Z.pow_pos_nonneg; lia).
  assert (Q : q = - ((x * b + h) / d)).
  { apply (nearest_away_unique (- x * b) d); [lia | exact N|].
    replace (- x * b) with (- (x * b)) by ring. replace h with (d / 2) by (rewrite D2, Z.mul_comm, Z.div_mul; lia).
    apply nearest_away_neg; [nia | lia | rewrite D2; now rewrite Z.even_mul]. }
  rewrite E, Q. set (r := (x * b + h) / d) in *. assert (0 <= r) by (unfold r; apply Z.div_pos; nia). clearbody r.
  unfold fits. cbn [f_ty f_within stretched_d].
  assert (W : inb i32 (- r) && ((- (12 * 2 ^ 21) <=? - r) && (- r <=? 12 * 2 ^ 21)) = true).
  { unfold inb. ib. pow2. lia. }
  now rewrite W.
Qed.

(** ** The table *)
Lemma log2_bounds x n : 0 <= n -> 2 ^ n <= x < 2 ^ (n + 1) -> Z.log2 x = n.
Proof. intros N X. apply Z.log2_unique; [exact N|]. now rewrite <- Z.add_1_r. Qed.

Lemma lean_log_range x : 0 < x < 2 ^ 31 -> - 32 * 2 ^ 25 <= lean_log x <= 0.
Proof.
  intros X. unfold lean_log. 
  assert (L0 : 0 <= Z.log2 x <= 30).
  { split; [apply Z.log2_nonneg|]. assert (Z.log2 x < 31) by (apply Z.log2_lt_pow2; lia). lia. }
  pose proof (Z.log2_spec x ltac:(lia)) as L. set (e := Z.log2 x) in *. clearbody e.
  rewrite Z.shiftl_mul_pow2 by lia.
  destruct (one_plus_log2_lean (x * 2 ^ (30 - e))) as (_ & B).
  { assert (P : 2 ^ 30 = 2 ^ e * 2 ^ (30 - e)) by (rewrite <- Z.pow_add_r by lia; f_equal; lia).
    rewrite Z.pow_succ_r in L by lia. change (2 ^ 31) with (2 * 2 ^ 30). rewrite P. nia. }
  revert B. generalize (lean_loop 31 (x * 2 ^ (30 - e)) 0). intros l B.
  rewrite Z.shiftr_div_pow2 by lia. change (2 ^ 6) with 64. change (2 ^ 25) with 33554432. pow2. lia.
Qed.

Lemma stretch_log2_lean x : 0 < x < 2 ^ 31 -> stretch_log2 x = Ok (lean_log x).
Proof.
  intros X. pose proof (lean_log_range x X) as R. revert R. unfold stretch_log2, lean_log.
  assert (E0 : (x =? 0) = false) by lia. unfold leading_zeros. rewrite E0. cbn [negb assert_ guard bind ibits u32].
  assert (L0 : 0 <= Z.log2 x <= 30).
  { split; [apply Z.log2_nonneg|]. assert (Z.log2 x < 31) by (apply Z.log2_lt_pow2; lia). lia. }
  pose proof (Z.log2_spec x ltac:(lia)) as L. set (e := Z.log2 x) in *. clearbody e.
  assert (E1 : (0 <? 32 - 1 - e) = true) by lia. rewrite E1. cbn [assert_ guard bind].
  assert (P : 2 ^ 30 = 2 ^ e * 2 ^ (30 - e)) by (rewrite <- Z.pow_add_r by lia; f_equal; lia).
  assert (S : 2 ^ 30 <= x * 2 ^ (30 - e) < 2 ^ 31).
  { rewrite Z.pow_succ_r in L by lia. change (2 ^ 31) with (2 * 2 ^ 30). rewrite P. nia. }
  replace (32 - 1 - e - 1) with (30 - e) by lia. rewrite shl_ok by (cbn [ibits u32]; lia). cbn [bind].
  rewrite Z.shiftl_mul_pow2 by lia.
  destruct (one_plus_log2_lean (x * 2 ^ (30 - e)) S) as (O & B).
  set (y := x * 2 ^ (30 - e)) in *. clearbody y. clear P L.
  rewrite wrap_id by (cbn [ibits u32]; ib; pow2; lia).
  change 31 with (f_frac fract_only_u32) at 1. rewrite fix_new_exact by (intros ?; reflexivity).
  cbn [f_within fract_only_u32]. assert (W : (y / 2 ^ 31 =? 0) = true) by (apply Z.eqb_eq, Z.div_small; lia). rewrite W. cbn [bind]. rewrite O. cbn [bind].
  revert B. generalize (lean_loop 31 y 0). intros l B R.
  rewrite wrap_id by (cbn [ibits i32]; ib; pow2; lia).
  change 31 with (f_frac fract_only_i32) at 1. rewrite fix_new_exact by (intros ?; reflexivity). cbn [f_within fract_only_i32].
  assert (W1 : (0 <=? l) = true) by lia. rewrite W1. cbn [bind].
  assert (T1 : to_fix i32 fract_only_i32 stretch_helper l = Ok (Z.min 2147483647 (l + 32) / 64)).
  { unfold to_fix. cbn [f_frac fract_only_i32 stretch_helper plain]. change (25 <? 31) with true. cbv iota. change (31 - 25) with 6.
    assert (SD : scaled_down i32 l 6 = Ok (Z.min 2147483647 (l + 32) / 64)).
    { unfold scaled_down, scaled_down_s. cbn [isigned i32]. change (negb (6 =? 0)) with true. cbn [assert_ guard bind].
      destruct (Z.eq_dec l 0) as [->|]; [reflexivity|].
      rewrite Z.sgn_pos by lia. change (shl i32 1 (6 - 1)) with (@Ok Z 32). cbn [bind].
      change (shl i32 1 6) with (@Ok Z 64). cbn [bind]. unfold divt. change (64 =? 0) with false. cbv iota.
      unfold sat. ib. rewrite Z.quot_div_nonneg by lia.
      replace (Z.max (Z.max (-2147483648) (Z.min 2147483647 (l + 32))) (-2147483648 + 1)) with (Z.min 2147483647 (l + 32)) by lia.
      apply chk_ok. ib. pow2. lia. }
    rewrite SD. cbn [bind]. unfold narrow_to. cbn [ibits f_ty stretch_helper plain i32]. reflexivity. }
  rewrite T1. cbn [bind]. 
  rewrite (wrap_id i32) by (cbn [ibits i32]; ib; lia). rewrite add_ok by (ib; lia). cbn [bind].
  rewrite sub_ok by (ib; lia). cbn [bind].
  replace (1 + (32 - 1 - e) - (32 - 31)) with (30 - e + 1) by lia.
  set (k := 30 - e + 1) in *. assert (K : 1 <= k <= 31) by lia. clearbody k.
  change (fix_new no_fract_i32 k 0) with (@Ok Z k). cbn [bind].
  assert (T2 : to_fix i32 no_fract_i32 stretch_helper k = Ok (k * 33554432)).
  { rewrite to_fix_up; [| unfold conv_ok, ity_ok; cbn; repeat split; lia | cbn; lia | cbn; lia].
    cbn [f_frac stretch_helper no_fract_i32 plain]. change (2 ^ (25 - 0)) with 33554432. unfold fits.
    cbn [f_ty f_within stretch_helper plain].
    assert (I : inb i32 (k * 33554432) = true) by (apply inb_true; ib; lia). now rewrite I. }
  rewrite T2. cbn [bind]. rewrite Z.shiftr_div_pow2 in * by lia. change (2 ^ 6) with 64 in *.
  change (2 ^ 25) with 33554432 in R.
  rewrite fix_sub_spec by (intros ?; reflexivity). cbn [f_ty f_within stretch_helper plain].
  assert (I : inb i32 (Z.min 2147483647 (l + 32) / 64 - k * 33554432) = true) by (apply inb_true; ib; lia). now rewrite I.
Qed.

Lemma list_check_at f l : forall c, list_check f c l = true ->
  forall i v, znth l i = Some v -> f (c + i) = v.
Proof.
  induction l as [|w r IH]; intros c H i v E; [discriminate|]. cbn [list_check] in H. apply andb_prop in H as (H1 & H2).
  cbn [znth] in E. destruct (Z.eqb_spec i 0) as [->|N].
  - injection E as <-. rewrite Z.add_0_r. now apply Z.eqb_eq.
  - specialize (IH _ H2 _ _ E). replace (c + i) with (c + 1 + (i - 1)) by lia. exact IH.
Qed.
Lemma tree_check_at f l : forall c prev, tree_check f c prev l = true ->
  (forall i v, znth l i = Some v -> f (c + i) = v /\ 0 <= v <= prev) /\
  (forall i j v w, 0 <= i <= j -> znth l i = Some v -> znth l j = Some w -> w <= v).
Proof.
  induction l as [|x r IH]; intros c prev H; [split; intros; discriminate|]. cbn [tree_check] in H.
  apply andb_prop in H as (H & H4). apply andb_prop in H as (H & H3). apply andb_prop in H as (H1 & H2).
  apply Z.eqb_eq in H1. apply Z.leb_le in H2, H3. destruct (IH _ _ H4) as (A & B). split.
  - intros i v E. cbn [znth] in E. destruct (Z.eqb_spec i 0) as [->|N].
    + injection E as <-. rewrite Z.add_0_r. lia.
    + destruct (A _ _ E) as (A1 & A2). replace (c + i) with (c + 1 + (i - 1)) by lia. lia.
  - intros i j v w I E1 E2. cbn [znth] in E1, E2. destruct (Z.eqb_spec j 0) as [->|Nj].
    + assert (i = 0) by lia. subst. cbn in E1. assert (v = w) by congruence. lia.
    + destruct (Z.eqb_spec i 0) as [->|Ni].
      * injection E1 as <-. destruct (A _ _ E2). lia.
      * apply (B (i - 1) (j - 1)); [lia | exact E1 | exact E2].
Qed.
Lemma znth_removelast {A} (l : list A) : forall i, i < zlen l - 1 -> znth (removelast l) i = znth l i.
Proof.
  induction l as [|x r IH]; intros i I; [reflexivity|]. destruct r as [|y r].
  - change (zlen [x]) with 1 in I. cbn. destruct (Z.eqb_spec i 0); [lia|reflexivity].
  - change (removelast (x :: y :: r)) with (x :: removelast (y :: r)). cbn [znth].
    destruct (Z.eqb_spec i 0); [reflexivity|]. apply IH. rewrite !zlen_cons in *. lia.
Qed.

Lemma mags_length : zlen mags = 4097.
Proof. vm_compute. reflexivity. Qed.
Lemma mag_at c : 0 <= c <= 4096 -> znth mags c = Some (mag c).
Proof.
  intros C. destruct (znth_lt mags c) as (v & E); [rewrite mags_length; lia|].
  destruct (proj1 (tree_check_at _ _ _ _ tree_sweep) c v E) as (M & _). cbn [Z.add] in M. now rewrite M.
Qed.
Lemma mag_range c : 0 <= c <= 4096 -> 0 <= mag c <= 24711779.
Proof. intros C. exact (proj2 (proj1 (tree_check_at _ _ _ _ tree_sweep) c _ (mag_at c C))). Qed.
Lemma mag_mono c d : 0 <= c <= d -> d <= 4096 -> mag d <= mag c.
Proof.
  intros C D. apply (proj2 (tree_check_at _ _ _ _ tree_sweep) c d); [lia| |]; apply mag_at; lia.
Qed.
Lemma mag_0 : mag 0 = mag 1. Proof. vm_compute. reflexivity. Qed.
Lemma mag_end : mag 4096 = 0. Proof. vm_compute. reflexivity. Qed.
Lemma mag_4095 : mag 4095 = 4096. Proof. vm_compute. reflexivity. Qed.
Lemma mag_lean c : 1 <= c <= 4095 -> lean_mag c = mag c.
Proof.
  intros C. pose proof (list_check_at _ _ _ mags_sweep (c - 1) (mag c)) as H.
  replace (1 + (c - 1)) with c in H by lia. apply H. clear H.
  assert (T : forall i, 0 <= i -> znth (tl mags) i = znth mags (i + 1)).
  { intros i I. generalize mags. intros [|x r]; [reflexivity|]. cbn [tl znth]. 
    destruct (Z.eqb_spec (i + 1) 0); [lia|]. f_equal. lia. }
  rewrite znth_removelast. 2: { assert (L : zlen (tl mags) = 4096) by (vm_compute; reflexivity). lia. }
  rewrite T by lia. replace (c - 1 + 1) with c by lia. apply mag_at. lia.
Qed.

Lemma shiftr_512 c : Z.shiftr c 9 = c / 512. Proof. now rewrite Z.shiftr_div_pow2. Qed.
Lemma land_511 c : Z.land c 511 = c mod 512. Proof. exact (Z.land_ones c 9 ltac:(lia)). Qed.
Lemma cell_start_high c : 512 <= c -> cell_start c = (512 + c mod 512) * 2 ^ (13 + c / 512).
Proof.
  intros C. unfold cell_start. destruct (Z.ltb_spec c 512); [lia|]. rewrite shiftr_512, land_511.
  apply Z.shiftl_mul_pow2. lia.
Qed.

Lemma cell_start_range c : 1 <= c <= 4095 -> 0 < cell_start c < 2 ^ 30.
Proof.
  intros C. destruct (Z.lt_ge_cases c 512).
  - unfold cell_start. destruct (Z.ltb_spec c 512); [|lia]. pow2. lia.
  - rewrite cell_start_high by lia. assert (Q : 1 <= c / 512 <= 7) by lia.
    assert (R : 0 <= c mod 512 < 512) by lia. set (q := c / 512) in *. set (r := c mod 512) in *. clearbody q r.
    assert (P : 2 ^ (13 + q) <= 2 ^ 20) by (apply Z.pow_le_mono_r; lia). pose proof (pow2_pos (13 + q) ltac:(lia)).
    change (2 ^ 20) with 1048576 in P. change (2 ^ 30) with (1024 * 1048576). nia.
Qed.

Lemma stretch_entry_lean start step index c : 0 <= start -> 0 <= step -> 0 <= index < 512 ->
  0 <= step * index < 2 ^ 31 -> step < 2 ^ 31 ->
  1 <= c <= 4095 -> start + step * index = cell_start c ->
  stretch_entry start step index = Ok (- mag c).
Proof.
  intros S0 ST0 I SI ST C E. unfold stretch_entry.
  pose proof (cell_start_range c C) as R. rewrite <- (mag_lean c C).
  assert (MR : 1 <= lean_mag c <= 24711779).
  { rewrite (mag_lean c C). pose proof (mag_range c ltac:(lia)). pose proof (mag_mono c 4095 ltac:(lia) ltac:(lia)).
    rewrite mag_4095 in *. lia. }
  rewrite wrap_id by (cbn [ibits u32]; ib; lia).
  change (fix_new no_fract_u32 index 0) with (@Ok Z index). cbn [bind].
  assert (M : fix_mul u64 fract_only_u32 no_fract_u32 fract_only_u32 step index = Ok (step * index)).
  { pose proof (fix_mul_spec u32 u64 fract_only_u32 no_fract_u32 fract_only_u32 step index (or_intror (conj eq_refl eq_refl))
      eq_refl ltac:(cbn; lia) ltac:(intros ?; reflexivity)
      ltac:(apply inb_true; ib; pow2; lia) ltac:(apply inb_true; ib; pow2; lia) ltac:(cbn; lia) ltac:(cbn; lia) ltac:(cbn; lia) ltac:(cbn; lia)) as H.
    cbv zeta in H. cbn [f_frac fract_only_u32 no_fract_u32 plain] in H. change (31 <? 31 + 0) with false in H. cbv iota in H.
    rewrite H. change (2 ^ (31 - (31 + 0))) with 1. rewrite Z.mul_1_r. unfold fits. cbn [f_ty f_within fract_only_u32].
    set (z := step * index) in *. clearbody z.
    assert (I1 : inb u32 z = true) by (apply inb_true; ib; pow2; lia). rewrite I1, Z.div_small by lia. reflexivity. }
  rewrite M. cbn [bind]. rewrite fix_add_spec by (intros ?; reflexivity). rewrite E. cbn [f_ty f_within fract_only_u32].
  clear E M. revert MR. unfold lean_mag. set (x := cell_start c) in *. clearbody x. intros MR.
  assert (I1 : inb u32 x = true) by (apply inb_true; ib; pow2; lia). rewrite I1, Z.div_small by (pow2; lia).
  change (0 =? 0) with true. cbv iota. cbn [bind].
  destruct (flip_u fract_only_u32 (or_introl eq_refl) x) as (F & _); [cbn [f_frac fract_only_u32]; pow2; lia|].
  cbn [f_frac fract_only_u32] in F. change (2 ^ 31 - x) with (2147483648 - x) in F.
  rewrite stretch_log2_lean by (pow2; lia). cbn [bind]. rewrite F. cbn [bind].
  pose proof (lean_log_range x ltac:(pow2; lia)) as R1.
  assert (X2 : 0 < 2147483648 - x < 2 ^ 31) by (pow2; lia).
  pose proof (lean_log_range (2147483648 - x) X2) as R2.
  rewrite (stretch_log2_lean (2147483648 - x) X2). cbn [bind]. clear F X2. revert R1 R2 MR.
  generalize (lean_log x) (lean_log (2147483648 - x)). intros a b R1 R2 MR. change (2 ^ 25) with 33554432 in *.
  rewrite Z.shiftr_div_pow2 in * by lia. change (2 ^ 35) with 34359738368 in *.
  assert (B : 0 <= b - a) by lia.
  rewrite fix_sub_spec by (intros ?; reflexivity). cbn [f_ty f_within stretch_helper plain].
  assert (I2 : inb i32 (a - b) = true) by (apply inb_true; ib; lia). rewrite I2. cbn [bind].
  change (fix_new fract_only_i32 1488522236 31) with (@Ok Z 1488522236). cbn [bind].
  replace (a - b) with (- (b - a)) by ring.
  rewrite mul_to_st; cbn [f_frac stretch_helper plain]; change (25 + 9) with 34; change (25 + 10) with 35;
    change (2 ^ 34) with 17179869184; change (2 ^ 35) with 34359738368; pow2; try lia. reflexivity.
Qed.

Definition stretch_lut_ok (lut : list (list Z)) : Prop :=
  forall level index, 0 <= level <= 7 -> 0 <= index < 512 -> 1 <= (7 - level) * 512 + index ->
    get2 lut level index = Ok (- mag ((7 - level) * 512 + index)).

Lemma stretch_level_lean level : 0 <= level <= 7 ->
  exists row, stretch_level level = Ok row /\
    forall index, 0 <= index < 512 -> 1 <= (7 - level) * 512 + index ->
      znth row index = Some (- mag ((7 - level) * 512 + index)).
Proof.
  intros L. unfold stretch_level. destruct (Z.eqb_spec level 7) as [->|N].
  - change (level_start_fract 7) with (@Ok Z 0). change (level_step_fract 7) with (@Ok Z 16384). cbn [bind].
    change (fix_add fract_only_u32 0 16384) with (@Ok Z 16384). cbn [bind].
    change minimum_accurately_mapped_input with (@Ok Z 16384). cbn [bind]. change (16384 =? 16384) with true. cbn [assert_ guard bind].
    assert (G : forall i, 1 <= i < 512 -> stretch_entry 0 16384 i = Ok (- mag i)).
    { intros i I. apply stretch_entry_lean; try lia; try (pow2; lia). unfold cell_start.
      destruct (Z.ltb_spec i 512); lia. }
    destruct (mmap_ok (stretch_entry 0 16384) (zseq 1 511)) as (ys & E).
    { intros i I. apply zseq_In in I. eexists. apply G. lia. }
    rewrite E. cbn [bind]. eexists. split; [reflexivity|]. intros i I C.
    cbn [znth]. destruct (Z.eqb_spec i 0); [lia|]. 
    destruct (mmap_znth _ _ _ E (i - 1) i) as (y & Y & ZY); [rewrite znth_zseq by lia; f_equal; lia|].
    rewrite G in Y by lia. rewrite ZY. replace ((7 - 7) * 512 + i) with i by lia. congruence.
  - assert (S : level_start_fract level = Ok (2 ^ (29 - level)) /\ level_step_fract level = Ok (2 ^ (20 - level))).
    { assert (Lc : level = 0 \/ level = 1 \/ level = 2 \/ level = 3 \/ level = 4 \/ level = 5 \/ level = 6) by lia.
      destruct Lc as [->|[->|[->|[->|[->|[->| ->]]]]]]; split; reflexivity. }
    destruct S as (-> & ->). cbn [bind].
    assert (P : 2 ^ (29 - level) = 512 * 2 ^ (20 - level)).
    { replace (29 - level) with (9 + (20 - level)) by lia. rewrite Z.pow_add_r by lia. reflexivity. }
    assert (P2 : 0 < 2 ^ (20 - level) <= 2 ^ 20) by (split; [apply pow2_pos; lia | apply Z.pow_le_mono_r; lia]).
    assert (G : forall i, 0 <= i < 512 -> stretch_entry (2 ^ (29 - level)) (2 ^ (20 - level)) i = Ok (- mag ((7 - level) * 512 + i))).
    { intros i I. apply stretch_entry_lean; try lia.
      - clear - P2 I. change (2 ^ 20) with 1048576 in *. pow2. nia.
      - rewrite cell_start_high by lia.
        assert (Q : ((7 - level) * 512 + i) / 512 = 7 - level) by lia.
        assert (M : ((7 - level) * 512 + i) mod 512 = i) by lia. rewrite Q, M.
        replace (13 + (7 - level)) with (20 - level) by lia. rewrite P. ring. }
    destruct (mmap_ok (stretch_entry (2 ^ (29 - level)) (2 ^ (20 - level))) (zseq 0 512)) as (ys & E).
    { intros i I. apply zseq_In in I. eexists. apply G. lia. }
    exists ys. split; [exact E|]. intros i I C.
    destruct (mmap_znth _ _ _ E i i) as (y & Y & ZY); [rewrite znth_zseq by lia; f_equal; lia|].
    rewrite G in Y by lia. rewrite ZY. congruence.
Qed.

Lemma stretch_new_ok : exists lut, stretch_new = Ok lut /\ stretch_lut_ok lut.
Proof.
  unfold stretch_new. destruct (mmap_ok stretch_level (zseq 0 8)) as (ys & E).
  { intros l I. apply zseq_In in I. destruct (stretch_level_lean l ltac:(lia)) as (row & R & _). eauto. }
  exists ys. split; [exact E|]. intros level index L I C.
  destruct (mmap_znth _ _ _ E level level) as (y & Y & ZY); [rewrite znth_zseq by lia; f_equal; lia|].
  destruct (stretch_level_lean level L) as (row & R & V). assert (y = row) by congruence. subst y.
  unfold get2, get. rewrite ZY. cbn [bind]. now rewrite (V index I C).
Qed.

(** ** Interpolation *)
Lemma rhu_div x n : 1 <= n -> rhu x n = (x + 2 ^ (n - 1)) / 2 ^ n.
Proof. intros N. unfold rhu. now rewrite Z.shiftr_div_pow2, Z.shiftl_mul_pow2, Z.mul_1_l by lia. Qed.
Lemma rhu_bounds x n : 1 <= n -> 2 * x - 2 ^ n < 2 * (rhu x n * 2 ^ n) <= 2 * x + 2 ^ n.
Proof.
  intros N. rewrite rhu_div by exact N. pose proof (div_bounds (x + 2 ^ (n - 1)) (2 ^ n) (pow2_pos n ltac:(lia))).
  rewrite (pow2_half n N) in *. set (h := 2 ^ (n - 1)) in *. clearbody h.
  set (q := (x + h) / (2 * h)) in *. clearbody q. nia.
Qed.
Lemma rhu_mono x y n : 1 <= n -> x <= y -> rhu x n <= rhu y n.
Proof. intros N H. rewrite !rhu_div by exact N. apply Z.div_le_mono; [apply pow2_pos; lia | lia]. Qed.
Lemma rhu_shift x m n : 1 <= n -> rhu (x + m * 2 ^ n) n = rhu x n + m.
Proof.
  intros N. rewrite !rhu_div by exact N. replace (x + m * 2 ^ n + 2 ^ (n - 1)) with (x + 2 ^ (n - 1) + m * 2 ^ n) by ring.
  apply Z.div_add. pose proof (pow2_pos n ltac:(lia)). lia.
Qed.

Lemma cell_bits_range c : 0 <= c <= 4095 -> 14 <= cell_bits c <= 20.
Proof. intros C. unfold cell_bits. destruct (Z.ltb_spec c 512); [lia|]. rewrite shiftr_512. lia. Qed.

(** Interpolation stays between the two entries and is within one unit of the exact line. *)
Lemma interp_range l m n k : 1 <= n -> 0 <= m <= l -> 0 <= k <= 2 ^ n ->
  - l <= rhu (l * k) n - rhu (m * k) n - l <= - m.
Proof.
  intros N M K. pose proof (rhu_mono (m * k) (l * k) n N ltac:(nia)).
  pose proof (rhu_mono (l * k) (m * k + (l - m) * 2 ^ n) n N ltac:(nia)). rewrite rhu_shift in * by exact N. lia.
Qed.
Lemma interp_near l m n k : 1 <= n -> 
  Z.abs ((rhu (l * k) n - rhu (m * k) n) * 2 ^ n - (l - m) * k) < 2 ^ n.
Proof.
  intros N. pose proof (rhu_bounds (l * k) n N). pose proof (rhu_bounds (m * k) n N). lia.
Qed.
Lemma interp_almost_mono l m n k k' : 1 <= n -> m <= l -> k <= k' ->
  rhu (l * k) n - rhu (m * k) n <= rhu (l * k') n - rhu (m * k') n + 1.
Proof.
  intros N M K. pose proof (interp_near l m n k N) as A. pose proof (interp_near l m n k' N) as B.
  assert ((l - m) * k <= (l - m) * k') by nia. pose proof (pow2_pos n ltac:(lia)).
  set (a := rhu (l * k) n - rhu (m * k) n) in *. set (b := rhu (l * k') n - rhu (m * k') n) in *. clearbody a b.
  set (p := 2 ^ n) in *. clearbody p. nia.
Qed.

(** ** stretch *)
Lemma cell_value_range c k : 0 <= c <= 4095 -> 0 <= k <= 2 ^ cell_bits c -> - mag c <= cell_value c k <= - mag (c + 1).
Proof.
  intros C K. unfold cell_value. apply interp_range; [pose proof (cell_bits_range c C); lia | | exact K].
  pose proof (mag_range (c + 1) ltac:(lia)). pose proof (mag_mono c (c + 1) ltac:(lia) ltac:(lia)). lia.
Qed.

Lemma weight_scale l k n : 1 <= n <= 31 -> (l * (k * 2 ^ (31 - n)) + 2 ^ 30) / 2 ^ 31 = rhu (l * k) n.
Proof.
  intros N. rewrite rhu_div by lia.
  assert (E1 : 2 ^ 31 = 2 ^ n * 2 ^ (31 - n)) by (rewrite <- Z.pow_add_r by lia; f_equal; lia).
  assert (E2 : 2 ^ 30 = 2 ^ (n - 1) * 2 ^ (31 - n)) by (rewrite <- Z.pow_add_r by lia; f_equal; lia).
  rewrite E1, E2. replace (l * (k * 2 ^ (31 - n)) + 2 ^ (n - 1) * 2 ^ (31 - n)) with ((l * k + 2 ^ (n - 1)) * 2 ^ (31 - n)) by ring.
  apply Z.div_mul_cancel_r; pose proof (pow2_pos n ltac:(lia)); pose proof (pow2_pos (31 - n) ltac:(lia)); lia.
Qed.

(** The interpolation part of [stretch]. *)
Lemma stretch_tail c k : 0 <= c <= 4095 -> 0 <= k < 2 ^ cell_bits c ->
  (let* weight_right := fix_new fract_only_i32 (wrap i32 (k * 2 ^ (31 - cell_bits c))) 31 in
   let* lw := fix_mul i64 stretched_d fract_only_i32 stretched_d (- mag c) weight_right in
   let* result_left := fix_sub stretched_d (- mag c) lw in
   let* result_right := fix_mul i64 stretched_d fract_only_i32 stretched_d (- mag (c + 1)) weight_right in
   fix_add stretched_d result_left result_right) = Ok (cell_value c k).
Proof.
  intros C K. pose proof (cell_bits_range c C) as N. pose proof (cell_value_range c k C ltac:(lia)) as V.
  pose proof (mag_range c ltac:(lia)) as M0. pose proof (mag_range (c + 1) ltac:(lia)) as M1.
  unfold cell_value in *. set (n := cell_bits c) in *. set (l := mag c) in *. set (m := mag (c + 1)) in *. clearbody n l m.
  set (w := k * 2 ^ (31 - n)).
  assert (W : 0 <= w < 2 ^ 31).
  { assert (E1 : 2 ^ 31 = 2 ^ n * 2 ^ (31 - n)) by (rewrite <- Z.pow_add_r by lia; f_equal; lia).
    pose proof (pow2_pos (31 - n) ltac:(lia)). unfold w. rewrite E1. nia. }
  rewrite wrap_id by (cbn [ibits i32]; ib; pow2; lia).
  change 31 with (f_frac fract_only_i32) at 1. rewrite fix_new_exact by (intros ?; reflexivity). cbn [f_within fract_only_i32].
  assert (W0 : (0 <=? w) = true) by lia. rewrite W0. cbn [bind].
  assert (SB : forall z, 0 <= z <= 24711779 -> 0 <= rhu (z * k) n <= z).
  { intros z Z0. split.
    - rewrite rhu_div by lia. apply Z.div_pos; [|apply pow2_pos; lia]. pose proof (pow2_pos (n - 1) ltac:(lia)). nia.
    - pose proof (rhu_mono (z * k) (0 + z * 2 ^ n) n ltac:(lia) ltac:(nia)) as R. rewrite rhu_shift in R by lia.
      assert (Z00 : rhu 0 n = 0).
      { rewrite rhu_div by lia. apply Z.div_small. rewrite (pow2_half n) by lia. pose proof (pow2_pos (n - 1) ltac:(lia)). lia. }
      lia. }
  pose proof (SB l M0) as SL. pose proof (SB m M1) as SM.
  assert (MS : forall z, 0 <= z <= 24711779 -> 0 <= rhu (z * k) n <= z ->
    fix_mul i64 stretched_d fract_only_i32 stretched_d (- z) w = Ok (- rhu (z * k) n)).
  { intros z Z0 Z1. rewrite mul_to_st; cbn [f_frac stretched_d]; change (21 + 9) with 30; change (21 + 10) with 31; try (pow2; lia).
    - unfold w. now rewrite weight_scale by lia.
    - unfold w. rewrite weight_scale by lia. pow2. lia. }
  rewrite (MS l M0 SL), (MS m M1 SM). cbn [bind]. clear MS SB.
  set (a := rhu (l * k) n) in *. set (b := rhu (m * k) n) in *. clearbody a b.
  rewrite fix_sub_spec by (intros ?; reflexivity). cbn [f_ty f_within stretched_d].
  assert (I1 : inb i32 (- l - - a) = true) by (apply inb_true; ib; lia). rewrite I1.
  assert (W1 : (- (12 * 2 ^ 21) <=? - l - - a) && (- l - - a <=? 12 * 2 ^ 21) = true) by (pow2; lia). rewrite W1. cbn [bind].
  assert (I2 : inb i32 (- l - - a + - b) = true) by (apply inb_true; ib; lia). rewrite fix_add_spec by (intros ?; reflexivity).
  cbn [f_ty f_within stretched_d]. rewrite I2.
  assert (W2 : (- (12 * 2 ^ 21) <=? - l - - a + - b) && (- l - - a + - b <=? 12 * 2 ^ 21) = true) by (pow2; lia). rewrite W2.
  f_equal. lia.
Qed.

Lemma high_cell x : 2 ^ 23 <= x < 2 ^ 30 -> exists n h k, 14 <= n <= 20 /\ 512 <= h < 1024 /\ 0 <= k < 2 ^ n /\
  x = h * 2 ^ n + k /\ Z.log2 x = n + 9 /\ Z.shiftr x n = h /\
  cell_bits ((n - 13) * 512 + h - 512) = n /\ cell_start ((n - 13) * 512 + h - 512) = h * 2 ^ n.
Proof.
  intros X.
  assert (L0 : 23 <= Z.log2 x <= 29).
  { split; [apply Z.log2_le_pow2; pow2; lia|]. assert (Z.log2 x < 30) by (apply Z.log2_lt_pow2; pow2; lia). lia. }
  pose proof (Z.log2_spec x ltac:(pow2; lia)) as L. set (e := Z.log2 x) in *. clearbody e.
  assert (P : 2 ^ e = 512 * 2 ^ (e - 9)) by (replace e with (9 + (e - 9)) at 1 by lia; now rewrite Z.pow_add_r by lia).
  rewrite Z.pow_succ_r in L by lia. rewrite P in L. pose proof (pow2_pos (e - 9) ltac:(lia)) as PP.
  pose proof (div_bounds x (2 ^ (e - 9)) PP) as D.
  assert (H : 512 <= x / 2 ^ (e - 9) < 1024).
  { split; [apply Z.div_le_lower_bound; lia | apply Z.div_lt_upper_bound; lia]. }
  exists (e - 9), (x / 2 ^ (e - 9)), (x - x / 2 ^ (e - 9) * 2 ^ (e - 9)).
  rewrite Z.shiftr_div_pow2 by lia. set (h := x / 2 ^ (e - 9)) in *. clearbody h.
  set (n := e - 9) in *. assert (N : 14 <= n <= 20) by lia. assert (En : e = n + 9) by lia. clearbody n.
  repeat split; try lia.
  - unfold cell_bits. destruct (Z.ltb_spec ((n - 13) * 512 + h - 512) 512); [lia|]. rewrite shiftr_512.
    replace (((n - 13) * 512 + h - 512) / 512) with (n - 13) by lia. lia.
  - rewrite cell_start_high by lia. replace (((n - 13) * 512 + h - 512) / 512) with (n - 13) by lia.
    replace (((n - 13) * 512 + h - 512) mod 512) with (h - 512) by lia. f_equal; [lia | f_equal; lia].
Qed.

Lemma low_cell x : 0 < x < 2 ^ 23 -> let c := x / 2 ^ 14 in let k := x mod 2 ^ 14 in
  0 <= c < 512 /\ 0 <= k < 2 ^ 14 /\ cell_bits c = 14 /\ cell_start c = c * 16384 /\ Z.log2 x <= 22.
Proof.
  intros X c k. assert (C : 0 <= c < 512) by (unfold c; change (2 ^ 14) with 16384; pow2; lia).
  split; [exact C|]. split; [unfold k; change (2 ^ 14) with 16384; lia|].
  unfold cell_bits, cell_start. destruct (Z.ltb_spec c 512); [|lia]. repeat split.
  assert (Z.log2 x < 23) by (apply Z.log2_lt_pow2; lia). lia.
Qed.

Lemma lean_low_cell x : 0 < x < 2 ^ 30 -> exists c k, 0 <= c <= 4095 /\ 0 <= k < 2 ^ cell_bits c /\
  x = cell_start c + k /\ lean_stretch_low x = cell_value c k.
Proof.
  intros X. unfold lean_stretch_low. destruct (Z.ltb_spec x 8388608) as [L|L].
  - destruct (low_cell x ltac:(pow2; lia)) as (C & K & B & S & _). exists (x / 2 ^ 14), (x mod 2 ^ 14).
    rewrite B, S. repeat split; try lia.
    rewrite Z.shiftr_div_pow2 by lia. f_equal. exact (Z.land_ones x 14 ltac:(lia)).
  - destruct (high_cell x ltac:(pow2; lia)) as (n & h & k & N & H & K & E & LG & SH & B & S).
    exists ((n - 13) * 512 + h - 512), k. rewrite B, S. repeat split; try lia. rewrite LG.
    replace (n + 9 - 9) with n by lia. rewrite SH, Z.shiftl_mul_pow2 by lia. f_equal. lia.
Qed.

Ltac mageq := match goal with |- Ok (- mag ?a) = Ok (- mag ?b) => replace b with a by lia; reflexivity end.

Lemma mod_shift a n m : 0 <= n <= m -> 0 <= a -> (a * 2 ^ n) mod 2 ^ m = (a mod 2 ^ (m - n)) * 2 ^ n.
Proof.
  intros N A. replace (2 ^ m) with (2 ^ (m - n) * 2 ^ n) by (rewrite <- Z.pow_add_r by lia; f_equal; lia).
  apply Z.mul_mod_distr_r; pose proof (pow2_pos n ltac:(lia)); pose proof (pow2_pos (m - n) ltac:(lia)); lia.
Qed.

Lemma stretch_low lut x (flipped : bool) : stretch_lut_ok lut -> 0 < x < 2 ^ 30 ->
  (assert_ (negb (x =? 0)) ;;
   let* l := sub usize (leading_zeros u32 x) 2 in
   let level := Z.min 7 l in
   let* shift := (if level =? 7 then add usize level 2 else add usize level 3) in
   let* s := shl u32 x shift in
   let* left := shr u32 s (32 - 9) in
   let* left_bound := (if negb (left =? 0) || negb (level =? 7) then get2 lut level left else get2 lut level 1) in
   let* right_bound := (if negb (left =? 511) then let* i := add usize left 1 in get2 lut level i
       else if 0 <? level then get2 lut (level - 1) 0 else Ok 0) in
   let* sh2 := add usize shift 9 in
   let* w := shl u32 x sh2 in
   let* w := shr u32 w 1 in
   let* weight_right := fix_new fract_only_i32 (wrap i32 w) 31 in
   let* lw := fix_mul i64 stretched_d fract_only_i32 stretched_d left_bound weight_right in
   let* result_left := fix_sub stretched_d left_bound lw in
   let* result_right := fix_mul i64 stretched_d fract_only_i32 stretched_d right_bound weight_right in
   let* result := fix_add stretched_d result_left result_right in
   if flipped then fix_neg stretched_d result else Ok result) =
  Ok (if flipped then - lean_stretch_low x else lean_stretch_low x).
Proof.
  intros LUT X.
  assert (TAIL : forall c k, 0 <= c <= 4095 -> 0 <= k < 2 ^ cell_bits c ->
    (let* weight_right := fix_new fract_only_i32 (wrap i32 (k * 2 ^ (31 - cell_bits c))) 31 in
     let* lw := fix_mul i64 stretched_d fract_only_i32 stretched_d (- mag c) weight_right in
     let* result_left := fix_sub stretched_d (- mag c) lw in
     let* result_right := fix_mul i64 stretched_d fract_only_i32 stretched_d (- mag (c + 1)) weight_right in
     let* result := fix_add stretched_d result_left result_right in
     if flipped then fix_neg stretched_d result else Ok result) = Ok (if flipped then - cell_value c k else cell_value c k)).
  { intros c k C K. pose proof (stretch_tail c k C K) as T. pose proof (cell_value_range c k C ltac:(lia)) as V.
    pose proof (mag_range c ltac:(lia)). pose proof (mag_range (c + 1) ltac:(lia)).
    inv_bind T. rewrite E. cbn [bind]. inv_bind T. rewrite E0. cbn [bind]. inv_bind T. rewrite E1. cbn [bind].
    inv_bind T. rewrite E2. cbn [bind]. rewrite T. cbn [bind]. destruct flipped; [|reflexivity].
    rewrite fix_neg_spec by (intros ?; reflexivity). cbn [f_ty f_within stretched_d].
    set (v := cell_value c k) in *. clearbody v.
    assert (I1 : inb i32 (- v) = true) by (apply inb_true; ib; lia). rewrite I1.
    assert (W1 : (- (12 * 2 ^ 21) <=? - v) && (- v <=? 12 * 2 ^ 21) = true) by (pow2; lia). now rewrite W1. }
  assert (E0 : (x =? 0) = false) by lia. unfold leading_zeros. rewrite E0. cbn [negb assert_ guard bind ibits u32].
  destruct (Z.lt_ge_cases x (2 ^ 23)) as [LO|HI].
  - destruct (low_cell x ltac:(lia)) as (C & K & B & S & LG). cbv zeta in *.
    pose proof (Z.log2_nonneg x) as L0. rewrite sub_ok by (ib; lia). cbn [bind]. cbv zeta.
    replace (Z.min 7 (32 - 1 - Z.log2 x - 2)) with 7 by lia. change (7 =? 7) with true. cbv iota.
    change (add usize 7 2) with (@Ok Z 9). cbn [bind]. rewrite shl_ok by (cbn; lia). cbn [bind].
    rewrite (wrap_id u32) by (cbn [ibits u32]; ib; change (2 ^ 9) with 512; pow2; lia).
    rewrite shr_ok by (cbn; lia). cbn [bind].
    assert (LF : x * 2 ^ 9 / 2 ^ (32 - 9) = x / 2 ^ 14).
    { change (32 - 9) with 23. change (2 ^ 9) with 512. change (2 ^ 14) with 16384. pow2. lia. }
    rewrite LF. set (c := x / 2 ^ 14) in *.
    assert (GL : (if negb (c =? 0) || negb true then get2 lut 7 c else get2 lut 7 1) = Ok (- mag c)).
    { destruct (Z.eqb_spec c 0) as [->|NZ]; cbn [negb orb].
      - rewrite (LUT 7 1) by lia. change ((7 - 7) * 512 + 1) with 1. now rewrite mag_0.
      - rewrite (LUT 7 c) by lia. mageq. }
    rewrite GL. cbn [bind].
    assert (GR : (if negb (c =? 511) then let* i := add usize c 1 in get2 lut 7 i
       else if 0 <? 7 then get2 lut (7 - 1) 0 else Ok 0) = Ok (- mag (c + 1))).
    { destruct (Z.eqb_spec c 511) as [->|NZ]; cbn [negb].
      - change (0 <? 7) with true. cbv iota. rewrite (LUT (7 - 1) 0) by lia. reflexivity.
      - rewrite add_ok by (ib; lia). cbn [bind]. rewrite (LUT 7 (c + 1)) by lia. mageq. }
    rewrite GR. cbn [bind]. change (add usize 9 9) with (@Ok Z 18). cbn [bind]. rewrite shl_ok by (cbn; lia). cbn [bind].
    rewrite shr_ok by (cbn; lia). cbn [bind].
    assert (WE : wrap u32 (x * 2 ^ 18) / 2 ^ 1 = (x mod 2 ^ 14) * 2 ^ (31 - cell_bits c)).
    { unfold wrap. cbn [isigned u32 ibits andb]. rewrite mod_shift by lia. change (32 - 18) with 14. rewrite B.
      change (2 ^ 18) with (2 ^ (31 - 14) * 2 ^ 1). rewrite Z.mul_assoc. apply Z.div_mul. discriminate. }
    rewrite WE. rewrite TAIL by (rewrite ?B; lia).
    assert (LS : lean_stretch_low x = cell_value c (x mod 2 ^ 14)).
    { unfold lean_stretch_low. assert (Q : (x <? 8388608) = true) by (pow2; lia). rewrite Q.
      rewrite Z.shiftr_div_pow2 by lia. f_equal. exact (Z.land_ones x 14 ltac:(lia)). }
    now rewrite LS.
  - destruct (high_cell x ltac:(lia)) as (n & h & k & N & H & K & E & LG & SH & B & S).
    rewrite LG. rewrite sub_ok by (ib; lia). cbn [bind]. cbv zeta.
    replace (Z.min 7 (32 - 1 - (n + 9) - 2)) with (20 - n) by lia.
    assert (NL : (20 - n =? 7) = false) by lia. rewrite NL.
    rewrite add_ok by (ib; lia). cbn [bind]. replace (20 - n + 3) with (23 - n) by lia.
    rewrite shl_ok by (cbn [ibits u32]; lia). cbn [bind].
    assert (XM : x = (h - 512) * 2 ^ n + k + 1 * 2 ^ (n + 9)).
    { rewrite (Z.add_comm n 9), Z.pow_add_r by lia. change (2 ^ 9) with 512. lia. }
    assert (RM : 0 <= (h - 512) * 2 ^ n + k < 2 ^ (n + 9)).
    { rewrite (Z.add_comm n 9), Z.pow_add_r by lia. change (2 ^ 9) with 512. nia. }
    assert (S1 : wrap u32 (x * 2 ^ (23 - n)) = ((h - 512) * 2 ^ n + k) * 2 ^ (23 - n)).
    { unfold wrap. cbn [isigned u32 ibits andb]. rewrite mod_shift by lia. f_equal.
      replace (32 - (23 - n)) with (n + 9) by lia. rewrite XM, Z.mod_add by lia. now apply Z.mod_small. }
    rewrite S1. rewrite shr_ok by (cbn; lia). cbn [bind].
    assert (LF : ((h - 512) * 2 ^ n + k) * 2 ^ (23 - n) / 2 ^ (32 - 9) = h - 512).
    { change (32 - 9) with 23. replace (2 ^ 23) with (2 ^ n * 2 ^ (23 - n)) by (rewrite <- Z.pow_add_r by lia; f_equal; lia).
      pose proof (pow2_pos n ltac:(lia)). pose proof (pow2_pos (23 - n) ltac:(lia)).
      rewrite Z.div_mul_cancel_r by lia. rewrite Z.add_comm, Z.div_add by lia. rewrite Z.div_small by lia. lia. }
    rewrite LF. set (c := (n - 13) * 512 + h - 512) in *.
    assert (GL : (if negb (h - 512 =? 0) || negb false then get2 lut (20 - n) (h - 512) else get2 lut (20 - n) 1) = Ok (- mag c)).
    { rewrite orb_true_r. rewrite (LUT (20 - n) (h - 512)) by lia. unfold c; mageq. }
    rewrite GL. cbn [bind].
    assert (GR : (if negb (h - 512 =? 511) then let* i := add usize (h - 512) 1 in get2 lut (20 - n) i
       else if 0 <? 20 - n then get2 lut (20 - n - 1) 0 else Ok 0) = Ok (- mag (c + 1))).
    { destruct (Z.eqb_spec (h - 512) 511) as [H5|NZ]; cbn [negb].
      - destruct (Z.ltb_spec 0 (20 - n)).
        + rewrite (LUT (20 - n - 1) 0) by lia. unfold c; mageq.
        + assert (c + 1 = 4096) by (unfold c; lia). rewrite H1, mag_end. reflexivity.
      - rewrite add_ok by (ib; lia). cbn [bind]. rewrite (LUT (20 - n) (h - 512 + 1)) by lia. unfold c; mageq. }
    rewrite GR. cbn [bind]. rewrite add_ok by (ib; lia). cbn [bind]. replace (23 - n + 9) with (32 - n) by lia.
    rewrite shl_ok by (cbn [ibits u32]; lia). cbn [bind]. rewrite shr_ok by (cbn; lia). cbn [bind].
    assert (WE : wrap u32 (x * 2 ^ (32 - n)) / 2 ^ 1 = k * 2 ^ (31 - cell_bits c)).
    { unfold wrap. cbn [isigned u32 ibits andb]. rewrite mod_shift by lia. replace (32 - (32 - n)) with n by lia. rewrite B.
      rewrite E, Z.add_comm, Z.mod_add by lia. rewrite Z.mod_small by lia.
      replace (2 ^ (32 - n)) with (2 ^ (31 - n) * 2 ^ 1) by (rewrite <- Z.pow_add_r by lia; f_equal; lia).
      rewrite Z.mul_assoc. apply Z.div_mul. discriminate. }
    rewrite WE. rewrite TAIL by (rewrite ?B; unfold c; lia).
    assert (LS : lean_stretch_low x = cell_value c k).
    { unfold lean_stretch_low. assert (Q : (x <? 8388608) = false) by (pow2; lia). rewrite Q. rewrite LG.
      replace (n + 9 - 9) with n by lia. rewrite SH, Z.shiftl_mul_pow2 by lia. unfold c. f_equal. lia. }
    now rewrite LS.
Qed.

Lemma stretch_lean lut x : stretch_lut_ok lut -> 0 < x < 2 ^ 31 -> stretch lut x = Ok (lean_stretch x).
Proof.
  intros LUT X. unfold stretch, lean_stretch. change 1073741824 with (2 ^ 30).
  destruct (Z.eqb_spec x (2 ^ 30)) as [|NE]; [reflexivity|].
  destruct (flip_u fract_only_u32 (or_introl eq_refl) x X) as (F & _).
  rewrite F. cbn [bind f_frac fract_only_u32]. cbv zeta. change 2147483648 with (2 ^ 31).
  destruct (Z.ltb_spec (2 ^ 30) x) as [H|H].
  - exact (stretch_low lut (2 ^ 31 - x) true LUT ltac:(pow2; lia)).
  - exact (stretch_low lut x false LUT ltac:(pow2; lia)).
Qed.
