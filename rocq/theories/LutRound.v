(** Facts about stretch and squash: oddness, almost-monotonicity, bounds, round trip. *)
From Coq Require Import ZifyBool.
From Verif Require Import Base BaseFacts FixedModel FixedProofs UtilProofs EstProofs LogProofs LutModel LutTable LutProofs.
Ltac Zify.zify_post_hook ::= Z.div_mod_to_equations.

Lemma cell_start_next c : 0 <= c <= 4095 -> cell_start (c + 1) = cell_start c + 2 ^ cell_bits c.
Proof.
  intros C. destruct (Z.lt_ge_cases c 511) as [L|L].
  - unfold cell_start, cell_bits. destruct (Z.ltb_spec (c + 1) 512), (Z.ltb_spec c 512); try lia.
  - destruct (Z.eq_dec c 511) as [->|]; [reflexivity|].
    rewrite !cell_start_high by lia. unfold cell_bits. destruct (Z.ltb_spec c 512); [lia|].
    rewrite shiftr_512. destruct (Z.eq_dec (c mod 512) 511) as [E|E].
    + replace ((c + 1) / 512) with (c / 512 + 1) by lia. replace ((c + 1) mod 512) with 0 by lia. rewrite E.
      rewrite Z.add_assoc, Z.pow_add_r by lia. change (2 ^ 1) with 2. set (p := 2 ^ (13 + c / 512)). clearbody p. lia.
    + replace ((c + 1) / 512) with (c / 512) by lia. replace ((c + 1) mod 512) with (c mod 512 + 1) by lia.
      set (p := 2 ^ (13 + c / 512)). clearbody p. lia.
Qed.
Lemma cell_start_mono c d : 0 <= c <= d -> d <= 4096 -> cell_start c <= cell_start d.
Proof.
  intros C D. remember (Z.to_nat (d - c)) as n eqn:N. revert d C D N. induction n; intros d C D N.
  - replace d with c by lia. lia.
  - specialize (IHn (d - 1) ltac:(lia) ltac:(lia) ltac:(lia)).
    pose proof (cell_start_next (d - 1) ltac:(lia)) as E. replace (d - 1 + 1) with d in E by lia.
    pose proof (pow2_pos (cell_bits (d - 1)) (ltac:(pose proof (cell_bits_range (d - 1) ltac:(lia)); lia))). lia.
Qed.

Lemma low_range x : 0 < x < 2 ^ 30 -> - 24711779 <= lean_stretch_low x <= 0.
Proof.
  intros X. destruct (lean_low_cell x X) as (c & k & C & K & E & V). rewrite V.
  pose proof (cell_value_range c k C ltac:(lia)). pose proof (mag_range c ltac:(lia)).
  pose proof (mag_range (c + 1) ltac:(lia)). lia.
Qed.

Lemma low_almost_mono x y : 0 < x <= y -> y < 2 ^ 30 -> lean_stretch_low x <= lean_stretch_low y + 1.
Proof.
  intros X Y. destruct (lean_low_cell x ltac:(lia)) as (c & k & C & K & E & V).
  destruct (lean_low_cell y ltac:(lia)) as (d & k' & D & K' & E' & V'). rewrite V, V'.
  destruct (Z.lt_trichotomy c d) as [L|[L|L]].
  - pose proof (cell_value_range c k C ltac:(lia)). pose proof (cell_value_range d k' D ltac:(lia)).
    pose proof (mag_mono (c + 1) d ltac:(lia) ltac:(lia)). lia.
  - subst d. unfold cell_value. cbv zeta.
    pose proof (interp_almost_mono (mag c) (mag (c + 1)) (cell_bits c) k k'
      ltac:(pose proof (cell_bits_range c ltac:(lia)); lia) (mag_mono c (c + 1) ltac:(lia) ltac:(lia)) ltac:(lia)). lia.
  - exfalso. pose proof (cell_start_next d ltac:(lia)). pose proof (cell_start_mono (d + 1) c ltac:(lia) ltac:(lia)). lia.
Qed.

Lemma stretch_odd x : 0 < x < 2 ^ 31 -> lean_stretch (2 ^ 31 - x) = - lean_stretch x.
Proof.
  intros X. unfold lean_stretch. pow2.
  destruct (Z.eqb_spec (2147483648 - x) 1073741824), (Z.eqb_spec x 1073741824),
    (Z.ltb_spec 1073741824 (2147483648 - x)), (Z.ltb_spec 1073741824 x); try lia.
  - replace (2147483648 - (2147483648 - x)) with x by lia. reflexivity.
Qed.

Lemma stretch_range x : 0 < x < 2 ^ 31 -> Z.abs (lean_stretch x) <= 24711779.
Proof.
  intros X. unfold lean_stretch. pow2.
  destruct (Z.eqb_spec x 1073741824); [lia|]. destruct (Z.ltb_spec 1073741824 x).
  - pose proof (low_range (2147483648 - x) ltac:(pow2; lia)). lia.
  - pose proof (low_range x ltac:(pow2; lia)). lia.
Qed.

Lemma stretch_sign x : 0 < x < 2 ^ 31 -> (x <= 2 ^ 30 -> lean_stretch x <= 0) /\ (2 ^ 30 <= x -> 0 <= lean_stretch x).
Proof.
  intros X. unfold lean_stretch. pow2.
  destruct (Z.eqb_spec x 1073741824); [lia|]. destruct (Z.ltb_spec 1073741824 x).
  - pose proof (low_range (2147483648 - x) ltac:(pow2; lia)). lia.
  - pose proof (low_range x ltac:(pow2; lia)). lia.
Qed.

Lemma stretch_almost_mono x y : 0 < x <= y -> y < 2 ^ 31 -> lean_stretch x <= lean_stretch y + 1.
Proof.
  intros X Y. destruct (Z.le_gt_cases x (2 ^ 30)) as [A|A], (Z.le_gt_cases (2 ^ 30) y) as [B|B].
  - pose proof (proj1 (stretch_sign x ltac:(lia)) A). pose proof (proj2 (stretch_sign y ltac:(lia)) B). lia.
  - unfold lean_stretch. pow2. destruct (Z.eqb_spec x 1073741824), (Z.eqb_spec y 1073741824),
      (Z.ltb_spec 1073741824 x), (Z.ltb_spec 1073741824 y); try lia. apply low_almost_mono; pow2; lia.
  - unfold lean_stretch. pow2. destruct (Z.eqb_spec x 1073741824), (Z.eqb_spec y 1073741824),
      (Z.ltb_spec 1073741824 x), (Z.ltb_spec 1073741824 y); try lia.
    pose proof (low_almost_mono (2147483648 - y) (2147483648 - x) ltac:(lia) ltac:(pow2; lia)). lia.
  - pow2. lia.
Qed.

(** ** Squash table *)
Lemma find_loop_lean lut t n : stretch_lut_ok lut -> forall lo hi, 0 < lo < hi -> hi < 2 ^ 31 -> hi - lo <= 2 ^ Z.of_nat n ->
  find_loop lut (S n) t lo hi = Ok (lean_find (S n) t lo hi).
Proof.
  intros LUT. induction n; intros lo hi B H W.
  - cbn [find_loop lean_find]. rewrite sub_ok by (ib; lia). cbn [bind].
    change (2 ^ Z.of_nat 0) with 1 in W. destruct (Z.ltb_spec 1 (hi - lo)); [lia|reflexivity].
  - remember (S n) as m eqn:M. cbn [find_loop lean_find].
    rewrite sub_ok by (ib; lia). cbn [bind]. destruct (Z.ltb_spec 1 (hi - lo)) as [D|D]; [|reflexivity].
    rewrite Z.shiftr_div_pow2 by lia. change (2 ^ 1) with 2.
    rewrite add_ok by (ib; pow2; lia). cbn [bind]. set (k := (hi - lo) / 2) in *.
    assert (KB : 1 <= k /\ 2 * k <= hi - lo <= 2 * k + 1) by (unfold k; lia). clearbody k.
    rewrite (stretch_lean lut (lo + k) LUT) by lia. cbn [bind].
    assert (PW : 2 ^ Z.of_nat m = 2 * 2 ^ Z.of_nat n) by (rewrite M, Nat2Z.inj_succ, Z.pow_succ_r by lia; reflexivity).
    pose proof (pow2_pos (Z.of_nat n) ltac:(lia)).
    rewrite M in *.
    destruct (t <? lean_stretch (lo + k)); [apply IHn; lia|].
    destruct (lean_stretch (lo + k) <? t); [apply IHn; lia|reflexivity].
Qed.

Lemma lean_find_inr n t : forall lo hi a b, 0 < lo < hi -> hi < 2 ^ 31 -> hi - lo <= 2 ^ Z.of_nat n ->
  lean_find (S n) t lo hi = inr (a, b) -> 0 < a /\ b < 2 ^ 31 /\ b = a + 1.
Proof.
  induction n; intros lo hi a b B H W E.
  - cbn [lean_find] in E. change (2 ^ Z.of_nat 0) with 1 in W. destruct (Z.ltb_spec 1 (hi - lo)); [lia|].
    injection E as <- <-. lia.
  - remember (S n) as m eqn:M. cbn [lean_find] in E.
    destruct (Z.ltb_spec 1 (hi - lo)) as [D|D]; [|injection E as <- <-; lia].
    rewrite Z.shiftr_div_pow2 in E by lia. change (2 ^ 1) with 2 in E. set (k := (hi - lo) / 2) in *.
    assert (KB : 1 <= k /\ 2 * k <= hi - lo <= 2 * k + 1) by (unfold k; lia). clearbody k.
    assert (PW : 2 ^ Z.of_nat m = 2 * 2 ^ Z.of_nat n) by (rewrite M, Nat2Z.inj_succ, Z.pow_succ_r by lia; reflexivity).
    pose proof (pow2_pos (Z.of_nat n) ltac:(lia)). rewrite M in *.
    destruct (t <? lean_stretch (lo + k)); [eapply IHn; [| | |exact E]; lia|].
    destruct (lean_stretch (lo + k) <? t); [eapply IHn; [| | |exact E]; lia|discriminate].
Qed.

Lemma fract_within v : 0 <= v < 2 ^ 31 -> f_within fract_only_u32 v = true.
Proof. intros V. cbn [f_within fract_only_u32]. pow2. lia. Qed.
Lemma new_fract v : 0 <= v < 2 ^ 31 -> fix_new fract_only_u32 v 31 = Ok v.
Proof.
  intros V. change 31 with (f_frac fract_only_u32) at 1. rewrite fix_new_exact by (intros ?; reflexivity).
  now rewrite fract_within.
Qed.

Lemma find_body lut t r v : stretch_lut_ok lut -> 0 <= t <= 12 * 2 ^ 21 -> find_loop lut 33 t 1 2147483647 = Ok r ->
  (forall lo hi, r = inr (lo, hi) -> 0 < lo /\ hi < 2 ^ 31 /\ hi = lo + 1) -> pick t r = v -> 0 < v < 2 ^ 31 ->
  find_squashed_prob lut t = Ok v.
Proof.
  intros LUT T FL INR E V.
  unfold find_squashed_prob. change (fix_add fract_only_u32 0 1) with (@Ok Z 1).
  change (one_unsafe fract_only_u32) with (@Ok Z 2147483648). cbn [bind].
  change (fix_sub fract_only_u32 2147483648 1) with (@Ok Z 2147483647). cbn [bind].
  rewrite FL. cbn [bind].
  unfold pick in E. destruct r as [m|(lo & hi)]; [congruence|].
  destruct (INR lo hi eq_refl) as (L & H & A). clear INR FL.
  rewrite add_ok by (ib; lia). cbn [bind]. assert (Q : (lo + 1 =? hi) = true) by lia. rewrite Q. cbn [assert_ guard bind].
  rewrite !new_fract by lia. cbn [bind]. rewrite !(stretch_lean lut _ LUT) by lia. cbn [bind].
  pose proof (stretch_range lo ltac:(lia)) as R1. pose proof (stretch_range hi ltac:(lia)) as R2.
  cbv zeta in E. set (a := lean_stretch lo) in *. set (b := lean_stretch hi) in *. clearbody a b.
  destruct (Z.eqb_spec a b) as [AB|AB]; cbn [negb] in *.
  - unfold minimum_accurately_mapped_input. change (shl u32 1 (31 - 1 - 7 - 9)) with (@Ok Z 16384). cbn [bind].
    change (fix_new fract_only_u32 16384 31) with (@Ok Z 16384). cbn [bind].
    change (flip fract_only_u32 16384) with (@Ok Z 2147467264). cbn [bind]. now rewrite E.
  - destruct (Z.leb_spec a t), (Z.leb_spec t b), (Z.leb_spec (b - a) 25165824); cbn [andb] in E; try (exfalso; lia). cbn [assert_ guard bind].
    rewrite !fix_sub_spec by (intros ?; reflexivity). cbn [f_ty f_within stretched_d].
    assert (I1 : inb i32 (t - a) = true) by (apply inb_true; ib; pow2; lia). rewrite I1.
    assert (I2 : inb i32 (b - t) = true) by (apply inb_true; ib; pow2; lia). rewrite I2.
    assert (W : (- (12 * 2 ^ 21) <=? t - a) && (t - a <=? 12 * 2 ^ 21) = true) by (pow2; lia). rewrite W. cbn [bind].
    assert (W' : (- (12 * 2 ^ 21) <=? b - t) && (b - t <=? 12 * 2 ^ 21) = true) by (pow2; lia). rewrite W'. cbn [bind].
    now rewrite E.
Qed.

Lemma squash_entry_find lut i : 0 <= i <= 1536 -> squash_entry lut (1536 + i) = find_squashed_prob lut (i * 16384).
Proof.
  intros I. unfold squash_entry.
  rewrite (wrap_id i32) by (cbn [ibits i32]; ib; pow2; lia). change (array_size / 2) with 1536. rewrite sub_ok by (ib; pow2; lia). cbn [bind].
  replace (1536 + i - 1536) with i by lia. change (21 - 7) with 14. rewrite shl_ok by (cbn; lia). cbn [bind].
  change (2 ^ 14) with 16384. rewrite (wrap_id i32) by (cbn [ibits i32]; ib; pow2; lia).
  change (fix_new stretched_d (i * 16384) 21) with (fix_new stretched_d (i * 16384) (f_frac stretched_d)).
  rewrite fix_new_exact by (intros ?; reflexivity). cbn [f_within stretched_d].
  assert (W : (- (12 * 2 ^ 21) <=? i * 16384) && (i * 16384 <=? 12 * 2 ^ 21) = true) by (pow2; lia).
  rewrite W. cbn [bind]. rewrite fix_neg_spec by (intros ?; reflexivity). cbn [f_ty f_within stretched_d].
  assert (I1 : inb i32 (- (i * 16384)) = true) by (apply inb_true; ib; lia). rewrite I1.
  assert (W' : (- (12 * 2 ^ 21) <=? - (i * 16384)) && (- (i * 16384) <=? 12 * 2 ^ 21) = true) by (pow2; lia).
  rewrite W'. cbn [bind].
  reflexivity.
Qed.

Lemma find_lean lut i v : stretch_lut_ok lut -> 0 <= i <= 1536 -> lean_squash_entry (i * 16384) = v -> 0 < v < 2 ^ 31 ->
  squash_entry lut (1536 + i) = Ok v.
Proof.
  intros LUT I E V. rewrite squash_entry_find by exact I. revert E V.
  assert (T : 0 <= i * 16384 <= 12 * 2 ^ 21) by (pow2; lia). revert T. generalize (i * 16384). intros t T.
  pose proof (find_loop_lean lut t 32 LUT 1 2147483647 ltac:(lia) ltac:(pow2; lia) ltac:(pow2; lia)) as FL.
  pose proof (fun lo hi => lean_find_inr 32 t 1 2147483647 lo hi ltac:(lia) ltac:(pow2; lia) ltac:(pow2; lia)) as INR.
  unfold lean_squash_entry.
  revert FL INR. generalize (lean_find 33 t 1 2147483647). intros r FL INR P V.
  exact (find_body lut _ r v LUT T FL INR P V).
Qed.

Lemma rising_check_at f l : forall c prev, rising_check f c prev l = true ->
  (forall i v, znth l i = Some v -> f (c + i) = v /\ prev <= v <= 2147467264) /\
  (forall i j v w, 0 <= i <= j -> znth l i = Some v -> znth l j = Some w -> v <= w).
Proof.
  induction l as [|x r IH]; intros c prev H; [split; intros; discriminate|]. cbn [rising_check] in H.
  apply andb_prop in H as (H & H4). apply andb_prop in H as (H & H3). apply andb_prop in H as (H1 & H2).
  apply Z.eqb_eq in H1. apply Z.leb_le in H2, H3. destruct (IH _ _ H4) as (A & B). split.
  - intros i v E. cbn [znth] in E. destruct (Z.eqb_spec i 0) as [->|N].
    + injection E as <-. rewrite Z.add_0_r. lia.
    + destruct (A _ _ E) as (A1 & A2). replace (c + i) with (c + 1 + (i - 1)) by lia. lia.
  - intros i j v w I E1 E2. cbn [znth] in E1, E2. destruct (Z.eqb_spec j 0) as [->|Nj].
    + assert (i = 0) by lia. subst. cbn in E1. assert (v = w) by congruence. lia.
    + destruct (Z.eqb_spec i 0) as [->|Ni].
      * injection E1 as <-. destruct (A _ _ E2). lia.
      * eapply B; [|exact E1|exact E2]. lia.
Qed.

Lemma squashes_length : zlen squashes = 1537. Proof. vm_compute. reflexivity. Qed.
Lemma sq_at i : 0 <= i <= 1536 -> znth squashes i = Some (sq (1536 + i)).
Proof.
  intros I. assert (L : i < zlen squashes) by (rewrite squashes_length; lia).
  destruct (znth squashes i) as [v|] eqn:E; [|apply znth_None in E; lia].
  destruct (proj1 (rising_check_at _ _ _ _ rising_sweep) i v E) as (M & _). rewrite Z.add_0_l in M. now rewrite M.
Qed.
Lemma sq_mirror j : 0 <= j <= 3072 -> sq (3072 - j) = 2 ^ 31 - sq j.
Proof.
  intros J. unfold sq. pow2. destruct (Z.leb_spec 1536 (3072 - j)), (Z.leb_spec 1536 j); try lia.
  - assert (j = 1536) by lia. subst. vm_compute. reflexivity.
  - replace (3072 - j - 1535) with (1537 - j) by lia. lia.
  - replace (1537 - (3072 - j)) with (j - 1535) by lia. lia.
Qed.
Lemma sq_upper j : 1536 <= j <= 3072 -> 2 ^ 30 <= sq j <= 2 ^ 31 - 16384.
Proof.
  intros J. pose proof (sq_at (j - 1536) ltac:(lia)) as E. 
  destruct (proj1 (rising_check_at _ _ _ _ rising_sweep) _ _ E) as (_ & M).
  replace (1536 + (j - 1536)) with j in M by lia. pow2. lia.
Qed.
Lemma sq_range j : 0 <= j <= 3072 -> 16384 <= sq j <= 2 ^ 31 - 16384.
Proof.
  intros J. destruct (Z.le_gt_cases 1536 j) as [H|H].
  - pose proof (sq_upper j ltac:(lia)). pow2. lia.
  - pose proof (sq_upper (3072 - j) ltac:(lia)) as U. rewrite sq_mirror in U by lia. pow2. lia.
Qed.
Lemma sq_upper_mono i j : 1536 <= i <= j -> j <= 3072 -> sq i <= sq j.
Proof.
  intros I J. pose proof (sq_at (i - 1536) ltac:(lia)) as E. pose proof (sq_at (j - 1536) ltac:(lia)) as E'.
  pose proof (proj2 (rising_check_at _ _ _ _ rising_sweep) (i - 1536) (j - 1536) _ _ ltac:(lia) E E') as M.
  replace (1536 + (i - 1536)) with i in M by lia. replace (1536 + (j - 1536)) with j in M by lia. exact M.
Qed.
Lemma sq_mono i j : 0 <= i <= j -> j <= 3072 -> sq i <= sq j.
Proof.
  intros I J. destruct (Z.le_gt_cases 1536 i), (Z.le_gt_cases 1536 j); try lia.
  - apply sq_upper_mono; lia.
  - pose proof (sq_upper j ltac:(lia)). pose proof (sq_upper (3072 - i) ltac:(lia)) as U. rewrite sq_mirror in U by lia. pow2. lia.
  - pose proof (sq_upper_mono (3072 - j) (3072 - i) ltac:(lia) ltac:(lia)) as M. rewrite !sq_mirror in M by lia. lia.
Qed.

Definition squash_lut_ok (lut : list Z) : Prop := zlen lut = 3073 /\ forall j, 0 <= j <= 3072 -> znth lut j = Some (sq j).

Lemma zlen_zseq a n : zlen (zseq a n) = Z.of_nat n.
Proof. revert a. induction n; intros a; [reflexivity|]. cbn [zseq]. rewrite zlen_cons, IHn. lia. Qed.
Lemma in_znth {A} (l : list A) x : In x l -> exists i, 0 <= i < zlen l /\ znth l i = Some x.
Proof.
  intros H. apply In_nth_error in H as (n & E). exists (Z.of_nat n). rewrite znth_nth_error, Nat2Z.id by lia. split; [|exact E].
  assert (L : nth_error l n <> None) by congruence. apply nth_error_Some in L. unfold zlen. lia.
Qed.
Lemma mmap_spec {A B} (f : A -> res B) (g : A -> B) l : (forall x, In x l -> f x = Ok (g x)) -> mmap f l = Ok (map g l).
Proof.
  induction l as [|x l IH]; intros H; [reflexivity|]. cbn [mmap map]. rewrite H by now left. cbn [bind].
  rewrite IH by (intros; apply H; now right). reflexivity.
Qed.
Lemma in_zseq a n x : In x (zseq a n) <-> a <= x < a + Z.of_nat n.
Proof.
  revert a. induction n; intros a; cbn [zseq In]; [lia|]. rewrite IHn. lia.
Qed.

Lemma squash_new_ok lut : stretch_lut_ok lut -> exists sl, squash_new lut = Ok sl /\ squash_lut_ok sl.
Proof.
  intros LUT. unfold squash_new.
  unfold minimum_accurately_mapped_input. change (shl u32 1 (31 - 1 - 7 - 9)) with (@Ok Z 16384). cbn [bind].
  change (fix_new fract_only_u32 16384 31) with (@Ok Z 16384). cbn [bind].
  rewrite (stretch_lean lut 16384 LUT) by (pow2; lia). cbn [bind].
  assert (P : (0 <? - lean_stretch 16384) = true) by (vm_compute; reflexivity). rewrite P. cbn [assert_ guard bind]. clear P.
  assert (U : mmap (squash_entry lut) (zseq 1536 1537) = Ok (map sq (zseq 1536 1537))).
  { apply mmap_spec. intros x X. apply in_zseq in X. replace x with (1536 + (x - 1536)) by lia.
    pose proof (sq_at (x - 1536) ltac:(lia)) as E. pose proof (list_check_at _ _ _ squashes_sweep _ _ E) as L.
    cbv beta in L. rewrite Z.add_0_l in L.
    pose proof (sq_range (1536 + (x - 1536)) ltac:(lia)). apply find_lean; [exact LUT|lia|exact L|pow2; lia]. }
  rewrite U. cbn [bind].
  rewrite (mmap_spec _ sq).
  - cbn [bind]. eexists. split; [reflexivity|]. split.
    + rewrite zlen_app. unfold zlen. rewrite !map_length. fold (zlen (zseq 0 1536)). fold (zlen (zseq 1536 1537)).
      rewrite !zlen_zseq. reflexivity.
    + intros j J. assert (LL : zlen (map sq (zseq 0 1536)) = 1536).
      { unfold zlen. rewrite map_length. fold (zlen (zseq 0 1536)). now rewrite zlen_zseq. }
      destruct (Z.lt_ge_cases j 1536).
      * rewrite znth_app1 by lia. rewrite znth_map, znth_zseq by lia. reflexivity.
      * rewrite znth_app2 by lia. rewrite LL, znth_map, znth_zseq by lia. cbn [option_map]. f_equal. f_equal. lia.
  - intros x X. apply in_zseq in X. change (array_size - x - 1 - 1536) with (3073 - x - 1 - 1536).
    unfold get. rewrite znth_map, znth_zseq by lia. cbn [option_map bind].
    replace (1536 + (3073 - x - 1 - 1536)) with (3072 - x) by lia.
    pose proof (sq_range (3072 - x) ltac:(lia)) as R.
    destruct (flip_u fract_only_u32 (or_introl eq_refl) (sq (3072 - x)) ltac:(cbn [f_frac fract_only_u32]; pow2; lia)) as (F & _).
    rewrite F. cbn [f_frac fract_only_u32]. f_equal. rewrite sq_mirror by lia. lia.
Qed.

(** Position of a stretched value in the squash table. *)
Lemma squash_cell s : - (12 * 2 ^ 21) <= s <= 12 * 2 ^ 21 ->
  exists j w, s = (j - 1536) * 16384 + w /\ 0 <= w < 16384 /\ 0 <= j <= 3072 /\ (j = 3072 -> w = 0) /\
    Z.shiftr s 14 + 1536 = j /\ Z.land s 16383 = w.
Proof.
  intros S. exists (s / 16384 + 1536), (s mod 16384). rewrite Z.shiftr_div_pow2 by lia. change (2 ^ 14) with 16384.
  change 16383 with (Z.ones 14). rewrite Z.land_ones by lia. change (2 ^ 14) with 16384. pow2.
  assert (M : 0 <= s mod 16384 < 16384) by (apply Z.mod_pos_bound; lia).
  pose proof (Z.div_mod s 16384 ltac:(lia)) as E. set (q := s / 16384) in *. set (r := s mod 16384) in *. clearbody q r.
  repeat split; lia.
Qed.
Definition squash_value (j w : Z) : Z := sq j - rhu (sq j * w) 14 + rhu (sq (j + 1) * w) 14.
Lemma rhu_0 n : 1 <= n -> rhu 0 n = 0.
Proof.
  intros N. rewrite rhu_div by lia. rewrite Z.add_0_l. apply Z.div_small. rewrite (pow2_half n N).
  pose proof (pow2_pos (n - 1) ltac:(lia)). lia.
Qed.
Lemma squash_value_0 j : squash_value j 0 = sq j.
Proof. unfold squash_value. rewrite !Z.mul_0_r, rhu_0 by lia. lia. Qed.
Lemma lean_squash_value j w : 0 <= j <= 3072 -> 0 <= w < 16384 -> (j = 3072 -> w = 0) ->
  lean_squash ((j - 1536) * 16384 + w) = squash_value j w.
Proof.
  intros J W E. destruct (squash_cell ((j - 1536) * 16384 + w) ltac:(pow2; lia)) as (j' & w' & S & W' & J' & _ & SH & LA).
  assert (JE : j' = j) by lia. assert (WE : w' = w) by lia. rewrite JE in SH. rewrite WE in LA. unfold lean_squash. rewrite SH, LA. cbv zeta.
  destruct (Z.eqb_spec j 3072) as [->|]; [|reflexivity]. rewrite E by reflexivity. now rewrite squash_value_0.
Qed.
Lemma squash_value_range j w : 0 <= j < 3072 -> 0 <= w < 16384 -> sq j <= squash_value j w <= sq (j + 1).
Proof.
  intros J W. unfold squash_value.
  pose proof (interp_range (sq (j + 1)) (sq j) 14 w ltac:(lia)
    ltac:(pose proof (sq_range j ltac:(lia)); pose proof (sq_mono j (j + 1) ltac:(lia) ltac:(lia)); lia) ltac:(change (2 ^ 14) with 16384; lia)). lia.
Qed.
Lemma lean_squash_range s : - (12 * 2 ^ 21) <= s <= 12 * 2 ^ 21 -> 16384 <= lean_squash s <= 2 ^ 31 - 16384.
Proof.
  intros S. destruct (squash_cell s S) as (j & w & E & W & J & H & _). rewrite E, lean_squash_value by assumption.
  destruct (Z.eq_dec j 3072) as [->|].
  - rewrite H by reflexivity. rewrite squash_value_0. apply sq_range. lia.
  - pose proof (squash_value_range j w ltac:(lia) W). pose proof (sq_range j ltac:(lia)). pose proof (sq_range (j + 1) ltac:(lia)). lia.
Qed.

Lemma squash_lean lut s : squash_lut_ok lut -> - (12 * 2 ^ 21) <= s <= 12 * 2 ^ 21 -> squash lut s = Ok (lean_squash s).
Proof.
  intros (LEN & LUT) S. destruct (squash_cell s S) as (j & w & E & W & J & H & SH & LA).
  unfold squash, lean_squash. change (21 - 7) with 14. rewrite shr_ok by (cbn; lia). cbn [bind].
  change (shl i32 12 7) with (@Ok Z 1536). cbn [bind].
  rewrite Z.shiftr_div_pow2 in * by lia. rewrite SH. rewrite add_ok by (rewrite SH; ib; lia). cbn [bind]. rewrite SH.
  assert (P : (0 <=? j) = true) by lia. rewrite P. cbn [assert_ guard bind]. change (array_size - 1) with 3072.
  unfold get. rewrite (LUT j J). destruct (Z.eqb_spec j 3072) as [|NE]; [reflexivity|].
  rewrite add_ok by (ib; lia). cbn [bind]. rewrite (LUT (j + 1)) by lia. cbn [bind].
  assert (L2 : Z.land (wrap u32 s) (2 ^ 14 - 1) = w).
  { rewrite <- LA. change (2 ^ 14 - 1) with (Z.ones 14). change 16383 with (Z.ones 14). rewrite !Z.land_ones by lia.
    unfold wrap. cbn [isigned u32 ibits andb]. change (2 ^ 32) with (2 ^ 14 * 2 ^ 18).
    rewrite Z.rem_mul_r by lia. rewrite (Z.mul_comm (2 ^ 14) (_ mod _)), Z.mod_add by lia. rewrite ?Z.mod_mod by lia. reflexivity. }
  rewrite L2, LA. change (31 - 14) with 17. rewrite shl_ok by (cbn; lia). cbn [bind].
  rewrite (wrap_id u32) by (cbn [ibits u32]; ib; change (2 ^ 17) with 131072; lia).
  rewrite new_fract by (change (2 ^ 17) with 131072; pow2; lia). cbn [bind].
  pose proof (sq_range j ltac:(lia)) as R1. pose proof (sq_range (j + 1) ltac:(lia)) as R2.
  pose proof (sq_mono j (j + 1) ltac:(lia) ltac:(lia)) as MO.
  pose proof (squash_value_range j w ltac:(lia) W) as V. unfold squash_value in V.
  assert (M : forall v, 16384 <= v <= 2 ^ 31 - 16384 ->
    fix_mul u64 fract_only_u32 fract_only_u32 fract_only_u32 v (w * 2 ^ 17) = Ok (rhu (v * w) 14) /\ 0 <= rhu (v * w) 14 <= v).
  { intros v B. pose proof (weight_scale v w 14 ltac:(lia)) as WS. change (31 - 14) with 17 in WS.
    assert (RB : 0 <= rhu (v * w) 14 <= v).
    { split; [rewrite <- (rhu_0 14) by lia; apply rhu_mono; nia|].
      replace v with (rhu 0 14 + v) at 2 by (rewrite rhu_0; lia). rewrite <- rhu_shift by lia.
      apply rhu_mono; [lia|]. change (2 ^ 14) with 16384. nia. }
    split; [|exact RB]. rewrite mul_fract31; [|pow2; lia|change (2 ^ 17) with 131072; pow2; lia]. rewrite WS.
    destruct (Z.ltb_spec (rhu (v * w) 14) (2 ^ 31)); [reflexivity|]. pow2. lia. }
  destruct (M _ R1) as (M1 & B1). destruct (M _ R2) as (M2 & B2). rewrite M1, M2. cbn [bind].
  rewrite fix_sub_spec by (intros ?; reflexivity).
  assert (I1 : inb (f_ty fract_only_u32) (sq j - rhu (sq j * w) 14) = true) by (cbn [f_ty fract_only_u32]; apply inb_true; ib; pow2; lia).
  rewrite I1, fract_within by (pow2; lia). cbn [bind]. rewrite fix_add_spec by (intros ?; reflexivity).
  assert (I2 : inb (f_ty fract_only_u32) (sq j - rhu (sq j * w) 14 + rhu (sq (j + 1) * w) 14) = true)
    by (cbn [f_ty fract_only_u32]; apply inb_true; ib; pow2; lia).
  rewrite I2, fract_within by (pow2; lia). reflexivity.
Qed.

Lemma lean_squash_mirror s : - (12 * 2 ^ 21) <= s <= 12 * 2 ^ 21 -> lean_squash (- s) = 2 ^ 31 - lean_squash s.
Proof.
  intros S. destruct (squash_cell s S) as (j & w & E & W & J & H & _). rewrite E. rewrite (lean_squash_value j w) by assumption.
  destruct (Z.eq_dec w 0) as [->|NZ].
  - replace (- ((j - 1536) * 16384 + 0)) with ((3072 - j - 1536) * 16384 + 0) by lia.
    rewrite lean_squash_value by lia. rewrite !squash_value_0. now apply sq_mirror.
  - assert (JB : j < 3072) by (destruct (Z.eq_dec j 3072); [specialize (H e)|]; lia).
    replace (- ((j - 1536) * 16384 + w)) with ((3071 - j - 1536) * 16384 + (16384 - w)) by lia.
    rewrite lean_squash_value by lia. unfold squash_value.
    replace (3071 - j + 1) with (3072 - j) by lia. replace (3071 - j) with (3072 - (j + 1)) by lia.
    rewrite !sq_mirror by lia. set (L := sq j). set (R := sq (j + 1)). clearbody L R.
    replace ((2 ^ 31 - R) * (16384 - w)) with (R * w + (2 ^ 31 - 131072 * w - R) * 2 ^ 14) by (change (2 ^ 14) with 16384; pow2; ring).
    replace ((2 ^ 31 - L) * (16384 - w)) with (L * w + (2 ^ 31 - 131072 * w - L) * 2 ^ 14) by (change (2 ^ 14) with 16384; pow2; ring).
    rewrite !rhu_shift by lia. lia.
Qed.

Lemma lean_squash_almost_mono s t : - (12 * 2 ^ 21) <= s <= t -> t <= 12 * 2 ^ 21 -> lean_squash s <= lean_squash t + 1.
Proof.
  intros S T. destruct (squash_cell s ltac:(lia)) as (j & w & E & W & J & H & _).
  destruct (squash_cell t ltac:(lia)) as (j' & w' & E' & W' & J' & H' & _). rewrite E, E', !lean_squash_value by assumption.
  destruct (Z.lt_trichotomy j j') as [L|[L|L]]; [| |lia].
  - pose proof (squash_value_range j w ltac:(lia) W) as V. pose proof (sq_mono (j + 1) j' ltac:(lia) ltac:(lia)).
    destruct (Z.eq_dec j' 3072) as [->|].
    + rewrite H' by reflexivity. rewrite squash_value_0. lia.
    + pose proof (squash_value_range j' w' ltac:(lia) W'). lia.
  - subst j'. destruct (Z.eq_dec j 3072) as [->|].
    + rewrite H, H' by reflexivity. lia.
    + unfold squash_value. pose proof (interp_almost_mono (sq (j + 1)) (sq j) 14 w w' ltac:(lia)
        (sq_mono j (j + 1) ltac:(lia) ltac:(lia)) ltac:(lia)). lia.
Qed.

(** ** Round trip *)
Lemma count_ok_at f n : forall c, count_ok f n c = true -> forall d, c <= d < c + Z.of_nat n -> f d = true.
Proof.
  induction n; intros c H d D; [lia|]. cbn [count_ok] in H. apply andb_prop in H as (H1 & H2).
  destruct (Z.eq_dec d c) as [->|]; [exact H1|]. apply (IHn (c + 1) H2). lia.
Qed.
Lemma pieces_at n : forall c j, pieces_ok n c j = true -> forall i, j <= i < j + Z.of_nat n ->
  piece_ok c i (Z.max (- mag c) (i * 16384)) (Z.min (- mag (c + 1)) ((i + 1) * 16384)) = true.
Proof.
  induction n; intros c j H i I; [lia|]. cbn [pieces_ok] in H. apply andb_prop in H as (H1 & H2).
  destruct (Z.eq_dec i j) as [->|]; [exact H1|]. apply (IHn c (j + 1) H2). lia.
Qed.
Lemma linear_between p q m a b s : a <= s <= b -> Z.abs (p + q * a) <= m -> Z.abs (p + q * b) <= m -> Z.abs (p + q * s) <= m.
Proof. intros S A B. apply Z.abs_le in A, B. apply Z.abs_le. destruct (Z.le_gt_cases 0 q); nia. Qed.

Lemma round_low x : 2 ^ 14 <= x < 2 ^ 30 -> Z.abs (lean_squash (lean_stretch_low x) - x) <= 2147.
Proof.
  intros X. destruct (lean_low_cell x ltac:(change (2 ^ 14) with 16384 in *; lia)) as (c & k & C & K & E & V).
  assert (C1 : 1 <= c).
  { destruct (Z.eq_dec c 0) as [->|]; [|lia]. change (cell_start 0) with 0 in E. change (cell_bits 0) with 14 in K. lia. }
  pose proof (cell_value_range c k ltac:(lia) ltac:(lia)) as S. rewrite V. pose proof (mag_range c ltac:(lia)) as ML.
  pose proof (mag_range (c + 1) ltac:(lia)) as MR.
  pose proof (interp_near (mag c) (mag (c + 1)) (cell_bits c) k ltac:(pose proof (cell_bits_range c ltac:(lia)); lia)) as NEAR.
  assert (VD : rhu (mag c * k) (cell_bits c) - rhu (mag (c + 1) * k) (cell_bits c) = cell_value c k + mag c)
    by (unfold cell_value; lia).
  rewrite VD in NEAR. clear VD V.
  pose proof (count_ok_at _ _ _ round_sweep c ltac:(lia)) as OK. unfold cell_ok in OK. cbv zeta in OK.
  apply andb_prop in OK as (D & OK). apply Z.ltb_lt in D.
  set (s := cell_value c k) in *. clearbody s.
  destruct (squash_cell s ltac:(pow2; lia)) as (j & w & ES & W & J & _ & SH & LA).
  assert (JB : j <= 1536) by lia.
  rewrite ES at 1. rewrite lean_squash_value by lia.
  pose proof (interp_near (sq (j + 1)) (sq j) 14 w ltac:(lia)) as NQ.
  rewrite !Z.shiftr_div_pow2 in OK by lia. change (2 ^ 14) with 16384 in OK, NQ.
  pose proof (pieces_at _ _ _ OK (j - 1536) ltac:(lia)) as P. clear OK.
  unfold piece_ok in P. cbv zeta in P. apply andb_prop in P as (PA & PB). apply Z.leb_le in PA, PB.
  replace (j - 1536 + 1536) with j in * by lia. replace (j - 1536 + 1537) with (j + 1) in * by lia.
  rewrite Z.shiftl_mul_pow2, Z.mul_1_l in PA, PB by (pose proof (cell_bits_range c ltac:(lia)); lia).
  set (n := 2 ^ cell_bits c) in *. set (l := mag c) in *. set (m := mag (c + 1)) in *.
  set (q := sq j) in *. set (q' := sq (j + 1)) in *. set (x0 := cell_start c) in *.
  unfold squash_value. fold q q'. set (r1 := rhu (q * w) 14) in *. set (r2 := rhu (q' * w) 14) in *.
  clearbody n l m q q' x0 r1 r2.
  set (t := (j - 1536) * 16384) in *.
  set (M := (2147 * (l - m) - n - (l - m)) * 16384) in *.
  assert (LIN : Z.abs ((q * 16384 + (q' - q) * (s - t)) * (l - m) - (x0 * (l - m) + (s + l) * n) * 16384) <= M).
  { set (a := Z.max (- l) t) in *. set (b := Z.min (- m) ((j - 1536 + 1) * 16384)) in *.
    assert (AB : a <= s <= b) by (unfold a, b, t; lia). clearbody a b.
    pose proof (linear_between
      ((q * 16384 - (q' - q) * t) * (l - m) - (x0 * (l - m) + l * n) * 16384)
      ((q' - q) * (l - m) - n * 16384) M a b s AB) as LB.
    assert (R : forall y, (q * 16384 + (q' - q) * (y - t)) * (l - m) - (x0 * (l - m) + (y + l) * n) * 16384 =
      (q * 16384 - (q' - q) * t) * (l - m) - (x0 * (l - m) + l * n) * 16384 + ((q' - q) * (l - m) - n * 16384) * y) by (intros; ring).
    rewrite R in PA, PB. rewrite R. exact (LB PA PB). }
  clear PA PB SH LA. replace (s - t) with w in LIN by lia.
  assert (ID : (q - r1 + r2 - x) * ((l - m) * 16384) =
    ((q * 16384 + (q' - q) * w) * (l - m) - (x0 * (l - m) + (s + l) * n) * 16384) +
    ((r2 - r1) * 16384 - (q' - q) * w) * (l - m) + ((s + l) * n - (l - m) * k) * 16384).
  { rewrite E. ring. }
  set (e0 := (q * 16384 + (q' - q) * w) * (l - m) - (x0 * (l - m) + (s + l) * n) * 16384) in *.
  set (e1 := (r2 - r1) * 16384 - (q' - q) * w) in *. set (e2 := (s + l) * n - (l - m) * k) in *.
  set (y := q - r1 + r2 - x) in *. set (d := l - m) in *. assert (DP : 0 < d) by (unfold d; lia).
  clearbody e0 e1 e2 y d. unfold M in LIN. clear M. apply Z.abs_lt in NEAR, NQ. apply Z.abs_le in LIN. apply Z.abs_le.
  clear -ID LIN NEAR NQ DP. nia.
Qed.

Lemma round_trip x : 2 ^ 14 <= x <= 2 ^ 31 - 2 ^ 14 -> Z.abs (lean_squash (lean_stretch x) - x) <= 2147.
Proof.
  intros X. change (2 ^ 14) with 16384 in *. unfold lean_stretch. pow2.
  destruct (Z.eqb_spec x 1073741824) as [->|]; [vm_compute; discriminate|]. destruct (Z.ltb_spec 1073741824 x).
  - pose proof (round_low (2147483648 - x) ltac:(change (2 ^ 14) with 16384; pow2; lia)) as R.
    pose proof (low_range (2147483648 - x) ltac:(pow2; lia)). rewrite lean_squash_mirror by (pow2; lia). pow2. lia.
  - apply round_low. change (2 ^ 14) with 16384. pow2. lia.
Qed.

Lemma round_trip_all x : 0 < x < 2 ^ 31 -> Z.abs (lean_squash (lean_stretch x) - x) <= 16421.
Proof.
  intros X. destruct (Z.le_gt_cases (2 ^ 14) x) as [A|A], (Z.le_gt_cases x (2 ^ 31 - 2 ^ 14)) as [B|B].
  - pose proof (round_trip x ltac:(lia)). lia.
  - change (2 ^ 14) with 16384 in *. pow2.
    assert (E : lean_stretch x = 24711779).
    { rewrite <- (Z.opp_involutive (lean_stretch x)), <- stretch_odd by (pow2; lia). pow2. unfold lean_stretch.
      destruct (Z.eqb_spec (2147483648 - x) 1073741824), (Z.ltb_spec 1073741824 (2147483648 - x)); try lia.
      destruct (lean_low_cell (2147483648 - x) ltac:(pow2; lia)) as (c & k & C & K & E & V). rewrite V.
      assert (c = 0).
      { destruct (Z.eq_dec c 0); [assumption|]. pose proof (cell_start_mono 1 c ltac:(lia) ltac:(lia)) as M.
        change (cell_start 1) with 16384 in M. lia. }
      subst c. unfold cell_value. cbv zeta. rewrite mag_0. rewrite Z.add_0_l. pose proof mag_0. 
      assert (mag 1 = 24711779) by (vm_compute; reflexivity). lia. }
    rewrite E. assert (Q : lean_squash 24711779 = 2147467226) by (vm_compute; reflexivity). rewrite Q. lia.
  - change (2 ^ 14) with 16384 in *. pow2.
    assert (E : lean_stretch x = - 24711779).
    { unfold lean_stretch. destruct (Z.eqb_spec x 1073741824), (Z.ltb_spec 1073741824 x); try lia.
      destruct (lean_low_cell x ltac:(pow2; lia)) as (c & k & C & K & E & V). rewrite V.
      assert (c = 0).
      { destruct (Z.eq_dec c 0); [assumption|]. pose proof (cell_start_mono 1 c ltac:(lia) ltac:(lia)) as M.
        change (cell_start 1) with 16384 in M. lia. }
      subst c. unfold cell_value. cbv zeta. rewrite mag_0. rewrite Z.add_0_l. pose proof mag_0. 
      assert (mag 1 = 24711779) by (vm_compute; reflexivity). lia. }
    rewrite E. assert (Q : lean_squash (-24711779) = 16422) by (vm_compute; reflexivity). rewrite Q. lia.
  - change (2 ^ 14) with 16384 in *. pow2. lia.
Qed.

(** Both tables together. *)
Lemma tables_ok : exists st sq, stretch_new = Ok st /\ squash_new st = Ok sq /\ stretch_lut_ok st /\ squash_lut_ok sq.
Proof.
  destruct stretch_new_ok as (st & E & H). destruct (squash_new_ok st H) as (sq & E' & H').
  exact (ex_intro _ st (ex_intro _ sq (conj E (conj E' (conj H H'))))).
Qed.

Lemma stretch_odd_bounded : exists st, stretch_new = Ok st /\ stretch st 0 = Fail EAssert /\
  forall p, 0 < p < 2 ^ 31 -> exists s, stretch st p = Ok s /\ stretch st (2 ^ 31 - p) = Ok (- s) /\
    - (12 * 2 ^ 21) < s < 12 * 2 ^ 21 /\ (p < 2 ^ 30 -> s <= 0) /\ (2 ^ 30 < p -> 0 <= s).
Proof.
  destruct stretch_new_ok as (st & E & H). exists st. apply (conj E). split; [reflexivity|].
  clear E. intros p P. exists (lean_stretch p). split; [now apply stretch_lean|]. split.
  - rewrite stretch_lean by (assumption || lia). now rewrite stretch_odd.
  - pose proof (stretch_range p P). pose proof (stretch_sign p P). pow2. lia.
Qed.
Lemma stretch_monotone_unit : exists st, stretch_new = Ok st /\ forall p q, 0 < p <= q -> q < 2 ^ 31 ->
  exists s t, stretch st p = Ok s /\ stretch st q = Ok t /\ s <= t + 1.
Proof.
  destruct stretch_new_ok as (st & E & H). exists st. apply (conj E). clear E.
  intros p q P Q. exists (lean_stretch p), (lean_stretch q). rewrite !(stretch_lean st _ H) by lia.
  pose proof (stretch_almost_mono p q P Q). auto.
Qed.
Lemma stretch_not_monotone : exists st p q s t, stretch_new = Ok st /\ 0 < p < q /\ q < 2 ^ 31 /\
  stretch st p = Ok s /\ stretch st q = Ok t /\ t < s.
Proof.
  destruct stretch_new_ok as (st & E & H). exists st, 536870925, 536870926, (-2303956), (-2303957). apply (conj E). clear E.
  rewrite !(stretch_lean st _ H) by (pow2; lia). pow2.
  assert (A : lean_stretch 536870925 = -2303956) by (vm_compute; reflexivity).
  assert (B : lean_stretch 536870926 = -2303957) by (vm_compute; reflexivity). rewrite A, B. clear. repeat split; lia.
Qed.

Lemma squash_symmetric_inside : exists st sq, stretch_new = Ok st /\ squash_new st = Ok sq /\
  forall s, - (12 * 2 ^ 21) <= s <= 12 * 2 ^ 21 -> exists p, squash sq s = Ok p /\ squash sq (- s) = Ok (2 ^ 31 - p) /\ 0 < p < 2 ^ 31.
Proof.
  destruct tables_ok as (st & sq & E & E' & _ & H). exists st, sq. apply (conj E). apply (conj E'). clear E E'.
  intros s S. exists (lean_squash s). rewrite !(squash_lean sq _ H) by lia. rewrite lean_squash_mirror by exact S.
  pose proof (lean_squash_range s S). pow2. repeat split; lia.
Qed.
Lemma squash_monotone_unit : exists st sq, stretch_new = Ok st /\ squash_new st = Ok sq /\
  forall s t, - (12 * 2 ^ 21) <= s <= t -> t <= 12 * 2 ^ 21 -> exists p q, squash sq s = Ok p /\ squash sq t = Ok q /\ p <= q + 1.
Proof.
  destruct tables_ok as (st & sq & E & E' & _ & H). exists st, sq. apply (conj E). apply (conj E'). clear E E'.
  intros s t S T. exists (lean_squash s), (lean_squash t). rewrite !(squash_lean sq _ H) by lia.
  pose proof (lean_squash_almost_mono s t S T). auto.
Qed.
Lemma squash_not_monotone : exists st sq s t p q, stretch_new = Ok st /\ squash_new st = Ok sq /\
  - (12 * 2 ^ 21) <= s < t /\ t <= 12 * 2 ^ 21 /\ squash sq s = Ok p /\ squash sq t = Ok q /\ q < p.
Proof.
  destruct tables_ok as (st & sq & E & E' & _ & H).
  exists st, sq, (-24000000), (-23999999), (lean_squash (-24000000)), (lean_squash (-23999999)).
  apply (conj E). apply (conj E'). clear E E'.
  rewrite !(squash_lean sq _ H) by (pow2; lia). 
  assert (A : (lean_squash (-23999999) <? lean_squash (-24000000)) = true) by (vm_compute; reflexivity).
  apply Z.ltb_lt in A. pow2. repeat split; lia.
Qed.

Lemma squash_of_stretch : exists st sq, stretch_new = Ok st /\ squash_new st = Ok sq /\
  forall p, 0 < p < 2 ^ 31 -> exists s q, stretch st p = Ok s /\ squash sq s = Ok q /\
    (2 ^ 14 <= p <= 2 ^ 31 - 2 ^ 14 -> 1000000 * Z.abs (q - p) < 2 ^ 31) /\ 1000000 * Z.abs (q - p) < 8 * 2 ^ 31.
Proof.
  destruct tables_ok as (st & sq & E & E' & H & H'). exists st, sq. apply (conj E). apply (conj E'). clear E E'.
  intros p P. exists (lean_stretch p), (lean_squash (lean_stretch p)). split; [now apply stretch_lean|]. split.
  - apply squash_lean; [assumption|]. pose proof (stretch_range p P). pow2. lia.
  - split.
    + intros Q. pose proof (round_trip p Q). pow2. lia.
    + pose proof (round_trip_all p P). pow2. lia.
Qed.
Lemma squash_of_stretch_ends : exists st sq s q, stretch_new = Ok st /\ squash_new st = Ok sq /\
  stretch st 1 = Ok s /\ squash sq s = Ok q /\ 7 * 2 ^ 31 < 1000000 * (q - 1).
Proof.
  destruct tables_ok as (st & sq & E & E' & H & H'). exists st, sq, (-24711779), 16422.
  apply (conj E). apply (conj E'). clear E E'. rewrite (stretch_lean st 1 H) by (pow2; lia).
  rewrite (squash_lean sq _ H') by (pow2; lia).
  assert (A : lean_stretch 1 = -24711779) by (vm_compute; reflexivity).
  assert (B : lean_squash (-24711779) = 16422) by (vm_compute; reflexivity). rewrite A, B. pow2. repeat split; lia.
Qed.
