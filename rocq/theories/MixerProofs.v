(** The mixer. *)
From Coq Require Import ZifyBool.
From Verif Require Import Base BaseFacts FixedModel FixedSpec FixedProofs EstModel EstProofs LutModel LutTable LutProofs LutRound ApmProofs
  MixerModel MixerSpec.
Ltac Zify.zify_post_hook ::= Z.div_mod_to_equations.

(** ** Rounding half away from zero *)
Definition rnda (n s : Z) : Z := Z.sgn n * ((Z.abs n + 2 ^ (s - 1)) / 2 ^ s).
Lemma rnda_opp n s : rnda (- n) s = - rnda n s.
Proof. unfold rnda. rewrite Z.abs_opp, Z.sgn_opp. ring. Qed.
Lemma rnda_0 s : rnda 0 s = 0. Proof. reflexivity. Qed.

Lemma rnda_near n s : 1 <= s -> 2 * Z.abs (rnda n s * 2 ^ s - n) <= 2 ^ s.
Proof.
  intros S. unfold rnda. pose proof (pow2_pos s ltac:(lia)) as P. rewrite (pow2_half s) in * by lia.
  set (h := 2 ^ (s - 1)) in *. clearbody h.
  pose proof (Z.div_mod (Z.abs n + h) (2 * h) ltac:(lia)) as D. pose proof (Z.mod_pos_bound (Z.abs n + h) (2 * h) ltac:(lia)) as M.
  set (q := (Z.abs n + h) / (2 * h)) in *. set (r := (Z.abs n + h) mod (2 * h)) in *. clearbody q r.
  destruct (Z.sgn_spec n) as [(A & B) | [(A & B) | (A & B)]]; rewrite B.
  - nia.
  - subst n. cbn [Z.abs] in *. assert (q = 0) by nia. nia.
  - nia.
Qed.
Lemma rnda_sign n s : 1 <= s -> (0 <= n -> 0 <= rnda n s) /\ (n <= 0 -> rnda n s <= 0).
Proof.
  intros S. unfold rnda. pose proof (pow2_pos s ltac:(lia)) as P. pose proof (pow2_pos (s - 1) ltac:(lia)) as P1.
  assert (0 <= (Z.abs n + 2 ^ (s - 1)) / 2 ^ s) by (apply Z.div_pos; lia). split; intros; nia.
Qed.
Lemma rnda_abs n s b : 1 <= s -> Z.abs n <= b * 2 ^ s -> Z.abs (rnda n s) <= b.
Proof.
  intros S H. pose proof (rnda_near n s S) as R. pose proof (pow2_pos s ltac:(lia)) as P. pose proof (rnda_sign n s S) as G.
  set (d := 2 ^ s) in *. set (q := rnda n s) in *. clearbody d q.
  destruct (Z.le_gt_cases (Z.abs q) b); [assumption|]. exfalso.
  assert ((b + 1) * d <= Z.abs q * d) by nia. assert (Z.abs (q * d) = Z.abs q * d) by (rewrite Z.abs_mul; f_equal; lia). lia.
Qed.

Lemma scaled_down_i64 n s : 1 <= s <= 62 -> Z.abs n + 2 ^ (s - 1) < 2 ^ 63 -> scaled_down i64 n s = Ok (rnda n s).
Proof.
  intros S H. unfold scaled_down. change (isigned i64) with true. cbv iota. pose proof (pow2_pos (s - 1) ltac:(lia)) as P1.
  rewrite (scaled_down_s_eq i64) by (try reflexivity; try (cbn [ibits i64]; lia); unfold inb; ib; pow2; lia).
  f_equal. rewrite (pow2_half s) by lia. unfold rnda. rewrite (pow2_half s) by lia. set (h := 2 ^ (s - 1)) in *. clearbody h.
  assert (E : Z.max (sat i64 (n + Z.sgn n * h)) (imin i64 + 1) = n + Z.sgn n * h).
  { unfold sat. ib. pow2. lia. }
  rewrite E. destruct (Z.sgn_spec n) as [(A & B) | [(A & B) | (A & B)]]; rewrite B.
  - rewrite Z.quot_div_nonneg by lia. rewrite !Z.mul_1_l. f_equal. lia.
  - subst n. rewrite Z.mul_0_l. reflexivity.
  - replace (n + - (1) * h) with (- (Z.abs n + h)) by lia. rewrite Z.quot_opp_l by lia. rewrite Z.quot_div_nonneg by lia. lia.
Qed.

Lemma fix_mul_i64 A B R a b : 0 <= f_frac A <= 32 -> 0 <= f_frac B <= 32 -> f_frac R < f_frac A + f_frac B ->
  0 <= f_frac R -> f_ty R = i32 \/ f_ty R = i64 ->
  Z.abs (a * b) + 2 ^ (f_frac A + f_frac B - f_frac R - 1) < 2 ^ 63 -> f_frac A + f_frac B - f_frac R <= 62 ->
  inb (f_ty R) (rnda (a * b) (f_frac A + f_frac B - f_frac R)) = true ->
  fix_mul i64 A B R a b = fix_new R (rnda (a * b) (f_frac A + f_frac B - f_frac R)) (f_frac R).
Proof.
  intros FA FB FR FR0 T H D I. unfold fix_mul. pose proof (pow2_pos (f_frac A + f_frac B - f_frac R - 1) ltac:(lia)) as P.
  unfold mul. rewrite chk_ok by (ib; clear - H P; pow2; lia). cbn [bind].
  rewrite add_ok by (ib; lia). cbn [bind].
  rewrite (proj2 (Z.ltb_lt _ _)) by lia. rewrite scaled_down_i64 by (try lia; exact H). cbn [bind].
  set (q := rnda (a * b) (f_frac A + f_frac B - f_frac R)) in *. clearbody q. clear H P.
  unfold narrow_to. destruct T as [T|T]; rewrite T in *.
  - change (ibits i32 <? ibits i64) with true. cbv iota. rewrite (wrap_id i32) by (try (cbn; lia); unfold inb in I; revert I; ib; lia).
    rewrite wrap_id by (try (cbn; lia); unfold inb in I; revert I; ib; pow2; lia). rewrite Z.eqb_refl. reflexivity.
  - change (ibits i64 <? ibits i64) with false. reflexivity.
Qed.

(** ** Bit masks *)
Lemma land_pow2 a i : 0 <= i -> (Z.land a (2 ^ i) =? 0) = negb (Z.testbit a i).
Proof.
  intros I. assert (E : Z.land a (2 ^ i) = if Z.testbit a i then 2 ^ i else 0).
  { apply Z.bits_inj'. intros j J. rewrite Z.land_spec, Z.pow2_bits_eqb by lia.
    destruct (Z.eqb_spec i j) as [->|N].
    - destruct (Z.testbit a j); [rewrite Z.pow2_bits_true by lia|rewrite Z.bits_0]; reflexivity.
    - rewrite Bool.andb_false_r. destruct (Z.testbit a i); [rewrite Z.pow2_bits_false by lia|rewrite Z.bits_0]; reflexivity. }
  rewrite E. pose proof (pow2_pos i I). destruct (Z.testbit a i); cbn [negb]; lia.
Qed.

Definition tracks (size : Z) (done : list Z) (mask : Z) : Prop :=
  Forall (fun i => 0 <= i < size) done /\ 0 <= mask /\ forall i, 0 <= i -> Z.testbit mask i = member i done.
Lemma member_In i l : member i l = true <-> In i l.
Proof.
  unfold member. rewrite existsb_exists. split; [intros (x & X & E); apply Z.eqb_eq in E; now subst|].
  intros H. exists i. split; [exact H|]. apply Z.eqb_refl.
Qed.
Lemma tracks_nil size : tracks size [] 0.
Proof. split; [constructor|]. split; [lia|]. intros i _. rewrite Z.bits_0. reflexivity. Qed.
Lemma tracks_cons size done mask i : tracks size done mask -> 0 <= i < size -> tracks size (i :: done) (Z.lor mask (2 ^ i)).
Proof.
  intros (F & M & T) I. split; [constructor; assumption|]. split; [apply Z.lor_nonneg; pose proof (pow2_pos i); lia|].
  intros j J. rewrite Z.lor_spec, T, Z.pow2_bits_eqb by lia. unfold member. cbn [existsb]. rewrite Bool.orb_comm. f_equal. apply Z.eqb_sym.
Qed.
Lemma tracks_full size done mask : 0 <= size -> tracks size done mask -> (mask =? 2 ^ size - 1) = all_set size done.
Proof.
  intros S (F & M & T). replace (2 ^ size - 1) with (Z.ones size) by (rewrite Z.ones_equiv; lia).
  destruct (all_set size done) eqn:A.
  - apply Z.eqb_eq. apply Z.bits_inj'. intros i I. rewrite T by lia. rewrite Z.testbit_ones_nonneg by lia.
    destruct (Z.ltb_spec i size).
    + unfold all_set in A. rewrite forallb_forall in A. apply A. apply zseq_In. lia.
    + destruct (member i done) eqn:Q; [|reflexivity]. apply member_In in Q. rewrite Forall_forall in F. specialize (F _ Q). lia.
  - apply Z.eqb_neq. intros ->. rewrite <- Bool.not_true_iff_false in A. apply A. unfold all_set. apply forallb_forall.
    intros i I. apply zseq_In in I. rewrite <- T by lia. rewrite Z.testbit_ones_nonneg by lia. lia.
Qed.

(** ** Invariant *)
Definition input_ok (x : mixer_input) : Prop :=
  - (8 * 2 ^ 21) <= mi_weight x <= 8 * 2 ^ 21 /\ - (12 * 2 ^ 21) <= mi_st x <= 12 * 2 ^ 21.
Definition mixer_inv (size : Z) (done : list Z) (index : Z) (m : mixer) : Prop :=
  mx_size m = size /\ 0 <= size <= 30 /\ tracks size done (mx_mask m) /\ mx_index m = index /\ 0 <= index <= 1000 /\
  Forall input_ok (mx_inputs m).

Lemma full_mask_ok m : 0 <= mx_size m <= 30 -> full_mask m = Ok (2 ^ mx_size m - 1).
Proof.
  intros S. unfold full_mask. rewrite shl_ok by (cbn [ibits u32]; lia). cbn [bind].
  pose proof (pow2_pos (mx_size m) ltac:(lia)) as P.
  assert (2 ^ mx_size m <= 2 ^ 30) by (apply Z.pow_le_mono_r; lia).
  rewrite Z.mul_1_l. rewrite wrap_id by (cbn [ibits u32]; ib; pow2; lia). rewrite sub_ok by (ib; pow2; lia). reflexivity.
Qed.

(** ** Setting inputs *)
Definition lean_set (m : mixer) (i sq st : Z) : mixer :=
  mkMixer (zupd (mx_inputs m) i (mkInput (match znth (mx_inputs m) i with Some x => mi_weight x | None => 0 end) sq st))
    (Z.lor (mx_mask m) (2 ^ i)) (mx_index m).
Lemma set_input_ok size done index m i sq st : mixer_inv size done index m -> 0 <= i < 32 -> - (12 * 2 ^ 21) <= st <= 12 * 2 ^ 21 ->
  set_input m i sq st = (if (i <? size) && negb (member i done) then Ok (lean_set m i sq st) else Fail EAssert) /\
  (i < size -> mixer_inv size (i :: done) index (lean_set m i sq st)).
Proof.
  intros (S & SZ & T & IX & IR & F) I ST. unfold set_input. rewrite S. split.
  - destruct (Z.ltb_spec i size) as [L|L]; cbn [andb assert_ guard bind]; [|reflexivity].
    rewrite shl_ok by (cbn [ibits u32]; lia). cbn [bind]. rewrite Z.mul_1_l.
    assert (2 ^ i <= 2 ^ 30) by (apply Z.pow_le_mono_r; lia). pose proof (pow2_pos i ltac:(lia)).
    rewrite wrap_id by (cbn [ibits u32]; ib; pow2; lia). rewrite land_pow2 by lia. destruct T as (_ & _ & T). rewrite T by lia.
    destruct (member i done); cbn [negb assert_ guard bind]; [reflexivity|].
    destruct (znth_lt (mx_inputs m) i) as (x & X); [unfold mx_size in S; lia|].
    unfold lean_set, get, set. rewrite X. cbn [bind]. reflexivity.
  - intros L. unfold lean_set. unfold mixer_inv, mx_size in *. cbn [mx_inputs mx_mask mx_index].
    rewrite zlen_zupd. split; [exact S|]. split; [exact SZ|]. split; [now apply tracks_cons|]. split; [exact IX|]. split; [exact IR|].
    apply Forall_zupd; [exact F|]. split; [|exact ST]. cbn [mi_weight].
    destruct (znth_lt (mx_inputs m) i ltac:(lia)) as (x & X). rewrite X. exact (proj1 (znth_Forall _ _ _ _ F X)).
Qed.

(** ** Mixing *)
Definition total (xs : list mixer_input) : Z := fold_right Z.add 0 (map (fun x => rnda (mi_weight x * mi_st x) 2) xs).
Definition lean_mix (m : mixer) : Z * Z :=
  let st := rnda (stretched_q_clamped (total (mx_inputs m))) 19 in (lean_squash st, st).

Lemma product_bound a b A B : - A <= a <= A -> - B <= b <= B -> Z.abs (a * b) <= A * B.
Proof. intros. rewrite Z.abs_mul. apply Z.mul_le_mono_nonneg; lia. Qed.
Lemma weighted_ok x : input_ok x -> Z.abs (rnda (mi_weight x * mi_st x) 2) <= 96 * 2 ^ 40 /\
  fix_mul i64 mixer_weight stretched_d stretched_q (mi_weight x) (mi_st x) = Ok (rnda (mi_weight x * mi_st x) 2).
Proof.
  intros (W & S). pose proof (product_bound _ _ _ _ W S) as P. set (n := mi_weight x * mi_st x) in *.
  assert (R : Z.abs (rnda n 2) <= 96 * 2 ^ 40).
  { apply rnda_abs; [lia|]. clear - P. change (2 ^ 2) with 4. change (2 ^ 21) with 2097152 in P. change (2 ^ 40) with 1099511627776. lia. }
  split; [exact R|]. rewrite fix_mul_i64; cbn [f_frac f_ty mixer_weight stretched_d stretched_q plain]; try lia; try tauto; fold n;
    change (21 + 21 - 40) with 2; first [reflexivity | (clear - P; pow2; change (2 ^ (2 - 1)) with 2; lia) |
      (clear - R; unfold inb; ib; pow2; change (2 ^ 40) with 1099511627776 in R; lia)].
Qed.
Lemma mix_fold xs : Forall input_ok xs -> forall acc, Z.abs acc + 96 * 2 ^ 40 * zlen xs < 2 ^ 62 ->
  mfold (fun acc x =>
    let* weighted := fix_mul i64 mixer_weight stretched_d stretched_q (mi_weight x) (mi_st x) in
    fix_add stretched_q acc weighted) xs acc = Ok (acc + total xs).
Proof.
  induction 1 as [|x xs X F IH]; intros acc A; [unfold total; cbn; f_equal; lia|].
  destruct (weighted_ok x X) as (R & E). cbn [mfold]. rewrite E. cbn [bind].
  rewrite zlen_cons in A. pose proof (zlen_nonneg xs) as L.
  unfold total. cbn [map fold_right]. fold (total xs). set (y := rnda _ 2) in *. clearbody y.
  change (2 ^ 40) with 1099511627776 in *. pow2.
  unfold fix_add. rewrite add_ok by (cbn [f_ty stretched_q plain]; ib; pow2; lia). cbn [bind].
  change (fix_new stretched_q (acc + y) (f_frac stretched_q)) with (@Ok Z (acc + y)). cbn [bind].
  rewrite IH by lia. f_equal. lia.
Qed.
Lemma clampq_range x : - (12 * 2 ^ 40) <= stretched_q_clamped x <= 12 * 2 ^ 40.
Proof. unfold stretched_q_clamped. change (2 ^ 40) with 1099511627776. lia. Qed.
Lemma lean_st_range m : - (12 * 2 ^ 21) <= snd (lean_mix m) <= 12 * 2 ^ 21.
Proof.
  cbn [snd lean_mix]. pose proof (clampq_range (total (mx_inputs m))) as C. set (x := stretched_q_clamped _) in *. clearbody x.
  pose proof (rnda_abs x 19 (12 * 2 ^ 21) ltac:(lia)). change (2 ^ 19) with 524288 in *. change (2 ^ 40) with 1099511627776 in *.
  change (2 ^ 21) with 2097152 in *. lia.
Qed.

Lemma mix_ok lut size done index m : squash_lut_ok lut -> mixer_inv size done index m ->
  mix_all lut m = if all_set size done then Ok (lean_mix m) else Fail EAssert.
Proof.
  intros LUT (S & SZ & T & IX & IR & F). unfold mix_all. rewrite full_mask_ok by lia. cbn [bind]. rewrite S.
  rewrite (tracks_full size done) by (lia || exact T). destruct (all_set size done); cbn [assert_ guard bind]; [|reflexivity].
  rewrite mix_fold; [|exact F|unfold mx_size in S; rewrite S; change (2 ^ 40) with 1099511627776; pow2; lia]. cbn [bind]. rewrite Z.add_0_l.
  pose proof (lean_st_range m) as R. cbn [lean_mix snd] in R. unfold lean_mix.
  pose proof (clampq_range (total (mx_inputs m))) as C. set (x := stretched_q_clamped _) in *. clearbody x.
  unfold to_fix. change (f_frac stretched_d <? f_frac stretched_q) with true. cbv iota.
  change (f_frac stretched_q - f_frac stretched_d) with 19.
  rewrite scaled_down_i64; [|lia|change (2 ^ 40) with 1099511627776 in C; change (2 ^ (19 - 1)) with 262144; pow2; lia]. cbn [bind].
  set (y := rnda x 19) in *. clearbody y. change (2 ^ 21) with 2097152 in R.
  unfold narrow_to. change (ibits (f_ty stretched_d) <? ibits i64) with true. cbv iota. change (f_ty stretched_d) with i32.
  rewrite (wrap_id i32) by (try (cbn; lia); ib; pow2; lia). rewrite wrap_id by (try (cbn; lia); ib; pow2; lia).
  rewrite Z.eqb_refl. cbn [assert_ guard bind]. rewrite fix_new_exact by (intros ?; reflexivity).
  replace (f_within stretched_d y) with true by (cbn [f_within stretched_d]; change (2 ^ 21) with 2097152; lia). cbn [bind].
  rewrite squash_lean by (try exact LUT; change (2 ^ 21) with 2097152; lia). reflexivity.
Qed.

(** ** Updating *)
Definition step_factor (rate : Z) (b : bit) (p : Z) : Z := rnda ((if b then p else 2 ^ 31 - p) * rnda (2 ^ 30 * rate) 31) 31.
Definition new_weight (f : Z) (b : bit) (x : mixer_input) : Z :=
  let e := rnda (mi_st x * f) 31 in mixer_weight_clamped (if b then mi_weight x - e else mi_weight x + e).
Definition lean_update (rate : Z) (m : mixer) (b : bit) (p mx : Z) : mixer :=
  mkMixer (map (fun x => mkInput (new_weight (step_factor rate b p) b x) (mi_sq x) (mi_st x)) (mx_inputs m)) 0 (Z.min mx (mx_index m + 1)).

Lemma fract_i32_new x : 0 <= x < 2 ^ 31 -> fix_new fract_only_i32 (wrap i32 x) 31 = Ok x.
Proof.
  intros X. rewrite wrap_id by (try (cbn; lia); ib; pow2; lia). change 31 with (f_frac fract_only_i32).
  rewrite fix_new_exact by (intros ?; reflexivity). replace (f_within fract_only_i32 x) with true by (cbn [f_within fract_only_i32]; lia). reflexivity.
Qed.
Lemma fract_i32_mul a b : 0 <= a < 2 ^ 31 -> 0 <= b <= 2 ^ 30 ->
  fix_mul i64 fract_only_i32 fract_only_i32 fract_only_i32 a b = Ok (rnda (a * b) 31) /\ 0 <= rnda (a * b) 31 <= b.
Proof.
  intros A B. assert (P : 0 <= a * b <= b * 2 ^ 31) by nia. set (n := a * b) in *.
  assert (R : 0 <= rnda n 31 <= b).
  { pose proof (rnda_abs n 31 b ltac:(lia) ltac:(lia)). pose proof (rnda_sign n 31 ltac:(lia)). lia. }
  split; [|exact R]. rewrite fix_mul_i64; cbn [f_frac f_ty fract_only_i32]; try lia; try tauto; fold n; change (31 + 31 - 31) with 31;
    try (clear - P B; change (2 ^ (31 - 1)) with 1073741824; pow2; lia); try (clear - R B; unfold inb; ib; pow2; lia).
    change 31 with (f_frac fract_only_i32) at 2. rewrite fix_new_exact by (intros ?; reflexivity).
    replace (f_within fract_only_i32 (rnda n 31)) with true by (cbn [f_within fract_only_i32]; lia). reflexivity.
Qed.
Lemma weighted_error_ok s f : - (12 * 2 ^ 21) <= s <= 12 * 2 ^ 21 -> 0 <= f <= 2 ^ 30 ->
  fix_mul i64 stretched_d fract_only_i32 mixer_weight s f = Ok (rnda (s * f) 31) /\ Z.abs (rnda (s * f) 31) <= 12 * 2 ^ 21.
Proof.
  intros S F. assert (P : Z.abs (s * f) <= 12 * 2 ^ 21 * 2 ^ 30) by (apply product_bound; lia). set (n := s * f) in *.
  assert (R : Z.abs (rnda n 31) <= 12 * 2 ^ 21) by (apply rnda_abs; [lia|]; clear - P; pow2; lia).
  split; [|exact R]. rewrite fix_mul_i64; cbn [f_frac f_ty fract_only_i32 stretched_d mixer_weight plain]; try lia; try tauto; fold n;
    change (21 + 31 - 21) with 31; first [reflexivity | (clear - P; change (2 ^ (31 - 1)) with 1073741824; pow2; lia) |
      (clear - R; unfold inb; ib; pow2; lia)].
Qed.
Lemma new_weight_range f b x : - (8 * 2 ^ 21) <= new_weight f b x <= 8 * 2 ^ 21.
Proof. unfold new_weight, mixer_weight_clamped. pow2. lia. Qed.
Lemma mmap_map {A B} (f : A -> res B) g l : Forall (fun x => f x = Ok (g x)) l -> mmap f l = Ok (map g l).
Proof. induction 1 as [|x l E F IH]; [reflexivity|]. cbn [mmap map]. rewrite E. cbn [bind]. rewrite IH. reflexivity. Qed.
Lemma step_factor_range rate b p : 0 <= rate <= 2 ^ 30 -> 0 < p < 2 ^ 31 -> 0 <= rnda (2 ^ 30 * rate) 31 <= 2 ^ 30 /\ 0 <= step_factor rate b p <= 2 ^ 30.
Proof.
  intros R P. destruct (fract_i32_mul (2 ^ 30) rate ltac:(lia) R) as (_ & A). unfold step_factor. set (g := rnda (2 ^ 30 * rate) 31) in *. clearbody g.
  assert (G : 0 <= g <= 2 ^ 30) by lia. destruct (fract_i32_mul (if b then p else 2 ^ 31 - p) g ltac:(destruct b; lia) G) as (_ & B). lia.
Qed.

Lemma update_ok rates rate size done index m b p mx : mixer_inv size done index m -> znth rates index = Some rate -> 0 <= rate <= 2 ^ 30 ->
  0 < p < 2 ^ 31 -> 0 <= mx < 2 ^ 16 ->
  update_and_reset rates m b p mx =
    (if all_set size done && (index <=? mx) && (mx <=? 1000) then Ok (lean_update rate m b p mx) else Fail EAssert) /\
  (mx <= 1000 -> mixer_inv size [] (Z.min mx (index + 1)) (lean_update rate m b p mx)).
Proof.
  intros (S & SZ & T & IX & IR & F) RT R P MX. destruct (step_factor_range rate b p R P) as (G & SF). split.
  - unfold update_and_reset. rewrite full_mask_ok by lia. cbn [bind]. rewrite S, IX.
    rewrite (tracks_full size done) by (lia || exact T). destruct (all_set size done); cbn [assert_ guard bind andb]; [|reflexivity].
    unfold get. rewrite RT. cbn [bind]. rewrite fract_i32_new by lia. cbn [bind].
    unfold fixed_update_factor. rewrite (proj1 (fract_i32_mul (2 ^ 30) rate ltac:(lia) R)). cbn [bind].
    unfold lean_update. rewrite IX. set (f := step_factor rate b p) in *.
    assert (U : forall g : Z -> Z -> res Z, (forall w e, Z.abs w <= 8 * 2 ^ 21 -> Z.abs e <= 12 * 2 ^ 21 ->
        g w e = Ok (if b then w - e else w + e)) ->
      mmap (fun x =>
          let* weighted_error := fix_mul i64 stretched_d fract_only_i32 mixer_weight (mi_st x) f in
          let* w := g (mi_weight x) weighted_error in
          Ok (mkInput (mixer_weight_clamped w) (mi_sq x) (mi_st x))) (mx_inputs m) =
        Ok (map (fun x => mkInput (new_weight f b x) (mi_sq x) (mi_st x)) (mx_inputs m))).
    { intros g H. apply mmap_map. revert F. apply Forall_impl. intros x (W & ST).
      destruct (weighted_error_ok (mi_st x) f ST SF) as (E & B). rewrite E. cbn [bind]. rewrite H by lia. reflexivity. }
    assert (LAST : (assert_ (index <=? mx) ;; assert_ (mx <=? index_limit) ;; let* next := add u16 index 1 in
       Ok (mkMixer (map (fun x => mkInput (new_weight f b x) (mi_sq x) (mi_st x)) (mx_inputs m)) 0 (Z.min mx next))) =
      (if (index <=? mx) && (mx <=? 1000) then Ok (mkMixer (map (fun x => mkInput (new_weight f b x) (mi_sq x) (mi_st x)) (mx_inputs m)) 0 (Z.min mx (index + 1)))
       else Fail EAssert)).
    { destruct (index <=? mx); cbn [assert_ guard bind andb]; [|reflexivity]. unfold index_limit.
      destruct (mx <=? 1000); cbn [assert_ guard bind]; [|reflexivity]. rewrite add_ok by (ib; lia). reflexivity. }
    destruct b.
    + rewrite fract_i32_new by lia. cbn [bind]. rewrite (proj1 (fract_i32_mul p _ ltac:(lia) G)). cbn [bind].
      change (rnda (p * rnda (2 ^ 30 * rate) 31) 31) with f. rewrite (U (fix_sub mixer_weight)); [cbn [bind]; exact LAST|].
      intros w e W E. rewrite fix_sub_spec by (intros ?; reflexivity).
      replace (inb (f_ty mixer_weight) (w - e)) with true by (unfold inb; cbn [f_ty mixer_weight plain]; ib; pow2; lia). reflexivity.
    + change (one_unsafe fract_only_u32) with (@Ok Z (2 ^ 31)). cbn [bind].
      rewrite fix_sub_spec by (intros ?; reflexivity).
      replace (inb (f_ty fract_only_u32) (2 ^ 31 - p)) with true by (unfold inb; cbn [f_ty fract_only_u32]; ib; pow2; lia).
      replace (f_within fract_only_u32 (2 ^ 31 - p)) with true by (cbn [f_within fract_only_u32]; pow2; lia). cbn [bind].
      rewrite fract_i32_new by lia. cbn [bind]. rewrite (proj1 (fract_i32_mul (2 ^ 31 - p) _ ltac:(lia) G)). cbn [bind].
      change (rnda ((2 ^ 31 - p) * rnda (2 ^ 30 * rate) 31) 31) with f. rewrite (U (fix_add mixer_weight)); [cbn [bind]; exact LAST|].
      intros w e W E. rewrite fix_add_spec by (intros ?; reflexivity).
      replace (inb (f_ty mixer_weight) (w + e)) with true by (unfold inb; cbn [f_ty mixer_weight plain]; ib; pow2; lia). reflexivity.
  - intros M. unfold lean_update, mixer_inv, mx_size in *. cbn [mx_inputs mx_mask mx_index].
    unfold zlen in *. rewrite map_length. split; [exact S|]. split; [exact SZ|]. split; [apply tracks_nil|].
    split; [now rewrite IX|]. split; [lia|]. rewrite Forall_map. revert F. apply Forall_impl. intros x (_ & ST).
    split; [apply new_weight_range|exact ST].
Qed.

(** ** Sequences of calls *)
Lemma rates_at rates index : rates_ok rates -> 0 <= index <= 1000 -> exists rate, znth rates index = Some rate /\ 0 <= rate <= 2 ^ 30.
Proof. intros R I. destruct (R index I) as (f & E & F & G). exists f. split; [exact E|]. destruct (index =? 0); lia. Qed.

Lemma perform_fails lut rates calls : forall m rs, mfold (perform lut rates) calls (m, rs) =
  let* r := mfold (perform lut rates) calls (m, []) in Ok (fst r, rs ++ snd r).
Proof.
  assert (G : forall m rs rs', mfold (perform lut rates) calls (m, rs ++ rs') =
    let* r := mfold (perform lut rates) calls (m, rs') in Ok (fst r, rs ++ snd r)).
  { induction calls as [|c calls IH]; intros m rs rs'; [reflexivity|]. cbn [mfold perform]. destruct c as [i sq st| |b p mx].
    - destruct (set_input m i sq st); cbn [bind]; [apply IH|reflexivity].
    - destruct (mix_all lut m); cbn [bind]; [rewrite <- app_assoc; apply IH|reflexivity].
    - destruct (update_and_reset rates m b p mx); cbn [bind]; [apply IH|reflexivity]. }
  intros m rs. rewrite <- (app_nil_r rs) at 1. apply G.
Qed.

Definition result_ok (r : Z * Z) : Prop := 0 < fst r < 2 ^ 31 /\ - (12 * 2 ^ 21) <= snd r <= 12 * 2 ^ 21.
Lemma lean_mix_ok m : result_ok (lean_mix m).
Proof.
  pose proof (lean_st_range m) as R. pose proof (lean_squash_range (snd (lean_mix m)) R) as Q. split; [|exact R].
  change (lean_squash (snd (lean_mix m))) with (fst (lean_mix m)) in Q. clear R. set (z := fst (lean_mix m)) in *. clearbody z. pow2. lia.
Qed.

Lemma calls_ok lut rates calls : squash_lut_ok lut -> rates_ok rates -> Forall sane calls ->
  forall size done index m, mixer_inv size done index m ->
  if follows size done index calls then
    exists m' rs done' index', perform_all lut rates calls m = Ok (m', rs) /\ mixer_inv size done' index' m' /\ Forall result_ok rs
  else perform_all lut rates calls m = Fail EAssert.
Proof.
  intros LUT R. unfold perform_all. induction 1 as [|c calls C F IH]; intros size done index m I.
  { cbn [follows mfold]. exists m, [], done, index. repeat split; try apply I. constructor. }
  cbn [mfold perform]. destruct c as [i sq st| |b p mx]; cbn [follows].
  - destruct C as (IR & ST). destruct (set_input_ok size done index m i sq st I IR ST) as (E & I'). rewrite E.
    destruct (Z.ltb_spec i size); cbn [andb bind]; [|reflexivity]. destruct (negb (member i done)); cbn [andb bind]; [|reflexivity].
    apply IH. now apply I'.
  - rewrite (mix_ok lut size done index m LUT I). destruct (all_set size done); cbn [andb bind]; [|reflexivity].
    specialize (IH size done index m I). rewrite perform_fails. destruct (follows size done index calls).
    + destruct IH as (m' & rs & d' & i' & E & I' & RS). rewrite E. cbn [bind fst snd]. do 4 eexists. split; [reflexivity|]. split; [exact I'|].
      apply Forall_app. split; [|exact RS]. constructor; [apply lean_mix_ok|constructor].
    + rewrite IH. reflexivity.
  - destruct C as (P & MX). pose proof I as (_ & _ & _ & _ & IR & _). destruct (rates_at rates index R IR) as (rate & RT & RR).
    destruct (update_ok rates rate size done index m b p mx I RT RR P MX) as (E & I'). rewrite E.
    destruct (all_set size done); cbn [andb bind]; [|reflexivity]. destruct (index <=? mx); cbn [andb bind]; [|reflexivity].
    destruct (Z.leb_spec mx 1000); cbn [andb bind]; [|reflexivity]. apply IH. now apply I'.
Qed.

(** ** Construction *)
Lemma repeat_Forall {A} (P : A -> Prop) x n : P x -> Forall P (repeat x n).
Proof. intros H. induction n; constructor; assumption. Qed.
Lemma neutral_ok : input_ok neutral_input. Proof. unfold input_ok. cbn [mi_weight mi_st neutral_input]. pow2. lia. Qed.

Lemma init_ok size index m mode flat w : 0 <= size <= 30 -> 0 <= index <= 1000 -> neutral_mixer size index = Ok m ->
  (size = 0 -> mode = AllZero) -> (mode = EqualSummingToOne -> flat = Ok w /\ 0 <= w <= 2 ^ 21) ->
  exists m', initialize_weights m mode flat = Ok m' /\ mixer_inv size [] index m' /\
    weights m' = match mode with
      | AllZero => repeat 0 (Z.to_nat size)
      | DominantFirst => 2 ^ 21 :: repeat 0 (Z.to_nat (size - 1))
      | EqualSummingToOne => repeat w (Z.to_nat size) end.
Proof.
  intros S I E Z0 FL. unfold neutral_mixer in E. rewrite (proj2 (Z.leb_le _ _)) in E by exact (proj2 I). cbn [assert_ guard bind] in E. injection E as <-.
  assert (INV : forall xs, zlen xs = size -> Forall input_ok xs -> mixer_inv size [] index (mkMixer xs 0 index)).
  { intros xs L F. unfold mixer_inv, mx_size. cbn [mx_inputs mx_mask mx_index]. pose proof (tracks_nil size). auto 10. }
  assert (L : zlen (repeat neutral_input (Z.to_nat size)) = size) by (unfold zlen; rewrite repeat_length; lia).
  pose proof (repeat_Forall _ _ (Z.to_nat size) neutral_ok) as F.
  destruct mode; cbn [initialize_weights mx_inputs mx_mask mx_index].
  - eexists. split; [reflexivity|]. split; [now apply INV|]. unfold weights. cbn [mx_inputs]. now rewrite map_repeat.
  - assert (size <> 0) by (intros C; specialize (Z0 C); discriminate).
    replace (Z.to_nat size) with (Datatypes.S (Z.to_nat (size - 1))) in * by lia. cbn [repeat get znth set zupd Z.eqb bind].
    eexists. split; [reflexivity|]. cbn [repeat] in L, F. inversion F; subst. split.
    + apply INV; [rewrite zlen_cons in *; exact L|]. constructor; [|assumption]. unfold input_ok, weight_one. cbn [mi_weight mi_st neutral_input]. pow2. lia.
    + unfold weights. cbn [mx_inputs map mi_weight]. now rewrite map_repeat.
  - destruct (FL eq_refl) as (-> & W). cbn [bind]. eexists. split; [reflexivity|]. rewrite map_repeat. split.
    + apply INV; [unfold zlen in *; rewrite repeat_length in *; exact L|]. apply repeat_Forall. unfold input_ok. cbn [mi_weight mi_st neutral_input]. clear - W. pow2. lia.
    + unfold weights. cbn [mx_inputs]. now rewrite map_repeat.
Qed.

Lemma flat_fixed_sweep : forallb (fun n => match fixed_flat_weight n with Ok w => w =? 2 ^ 21 / n | _ => false end) (zseq 1 5) = true.
Proof. vm_compute. reflexivity. Qed.
Lemma flat_n_sweep : forallb (fun n => match flat_mixer_weight n with Ok w => w =? (2 ^ 21 + n / 2) / n | _ => false end) (zseq 1 30) = true.
Proof. vm_compute. reflexivity. Qed.
Lemma flat_fixed n : 1 <= n <= 5 -> fixed_flat_weight n = Ok (2 ^ 21 / n).
Proof.
  intros N. pose proof (proj1 (forallb_forall _ _) flat_fixed_sweep n ltac:(apply zseq_In; lia)) as S. cbv beta in S.
  destruct (fixed_flat_weight n); [|discriminate]. apply Z.eqb_eq in S. now subst.
Qed.
Lemma flat_n n : 1 <= n <= 30 -> flat_mixer_weight n = Ok ((2 ^ 21 + n / 2) / n).
Proof.
  intros N. pose proof (proj1 (forallb_forall _ _) flat_n_sweep n ltac:(apply zseq_In; lia)) as S. cbv beta in S.
  destruct (flat_mixer_weight n); [|discriminate]. apply Z.eqb_eq in S. now subst.
Qed.

Lemma fixed_made size index mode : 1 <= size <= 5 -> 0 <= index <= 1000 ->
  exists m, fixed_mixer_new size index mode = Ok m /\ mixer_inv size [] index m /\ initial_weights size mode (weights m).
Proof.
  intros S I. unfold fixed_mixer_new. destruct (neutral_mixer size index) as [m0|] eqn:E;
    [|unfold neutral_mixer in E; rewrite (proj2 (Z.leb_le _ _)) in E by exact (proj2 I); discriminate].
  cbn [bind]. destruct (init_ok size index m0 mode (fixed_flat_weight size) (2 ^ 21 / size) ltac:(lia) I E ltac:(lia)) as (m & M & INV & W).
  - intros _. split; [now apply flat_fixed|]. clear - S. pow2. split; [apply Z.div_pos; lia|]. apply Z.div_le_upper_bound; nia.
  - exists m. split; [exact M|]. split; [exact INV|]. rewrite W. destruct mode; cbn [initial_weights]; try reflexivity.
    eexists. split; [reflexivity|]. clear - S. pose proof (Z.div_mod (2 ^ 21) size ltac:(lia)). pose proof (Z.mod_pos_bound (2 ^ 21) size ltac:(lia)). lia.
Qed.
Lemma sized_made size index mode : 0 <= size <= 30 -> 0 <= index <= 1000 -> (size = 0 -> mode = AllZero) ->
  exists m, mixer_n_new size index mode = Ok m /\ mixer_inv size [] index m /\ initial_weights size mode (weights m).
Proof.
  intros S I Z0. unfold mixer_n_new. rewrite (proj2 (Z.leb_le _ _)) by exact (proj2 S). cbn [assert_ guard bind].
  destruct (neutral_mixer size index) as [m0|] eqn:E;
    [|unfold neutral_mixer in E; rewrite (proj2 (Z.leb_le _ _)) in E by exact (proj2 I); discriminate].
  assert (L : zlen (mx_inputs m0) = size).
  { unfold neutral_mixer in E. rewrite (proj2 (Z.leb_le _ _)) in E by exact (proj2 I). cbn [assert_ guard bind] in E. injection E as <-.
    cbn [mx_inputs]. unfold zlen. rewrite repeat_length. lia. }
  cbn [bind]. rewrite L, Z.eqb_refl. cbn [assert_ guard bind].
  destruct (init_ok size index m0 mode (flat_mixer_weight size) ((2 ^ 21 + size / 2) / size) S I E Z0) as (m & M & INV & W).
  - intros ->. assert (size <> 0) by (intros C; specialize (Z0 C); discriminate). split; [apply flat_n; lia|]. assert (H1 : 1 <= size <= 30) by lia.
    clear - H1. pow2. split; [apply Z.div_pos; lia|]. apply Z.div_le_upper_bound; [lia|]. nia.
  - exists m. split; [exact M|]. split; [exact INV|]. rewrite W. destruct mode; cbn [initial_weights]; try reflexivity.
    assert (size <> 0) by (intros C; specialize (Z0 C); discriminate). assert (H1 : 1 <= size <= 30) by lia.
    eexists. split; [reflexivity|]. clear - H1. set (a := 2 ^ 21 + size / 2). assert (A : 2 ^ 21 <= a < 2 ^ 21 + size) by (unfold a; clear - H1; lia).
    pose proof (Z.div_mod a size ltac:(lia)). pose proof (Z.mod_pos_bound a size ltac:(lia)). 
    assert (a = 2 ^ 21 + size / 2) by reflexivity. pose proof (Z.div_mod size 2 ltac:(lia)). pose proof (Z.mod_pos_bound size 2 ltac:(lia)).
    set (q := a / size) in *. set (r := a mod size) in *. clearbody a q r. lia.
Qed.
Lemma makes_inv size index mode m : makes size index mode m -> mixer_inv size [] index m /\ initial_weights size mode (weights m).
Proof.
  intros [(S & I & E) | (S & I & Z0 & E)].
  - destruct (fixed_made size index mode S I) as (m' & E' & H). rewrite E in E'. injection E' as ->. exact H.
  - destruct (sized_made size index mode S I Z0) as (m' & E' & H). rewrite E in E'. injection E' as ->. exact H.
Qed.

(** ** What is stored *)
Definition holds (acc : list (Z * (Z * Z))) (m : mixer) : Prop :=
  forall i sq st, In (i, (sq, st)) acc -> exists w, znth (mx_inputs m) i = Some (mkInput w sq st).
Lemma member_fst i acc : member i (map fst acc) = true <-> exists v : Z * Z, In (i, v) acc.
Proof.
  rewrite member_In, in_map_iff. split; [intros ((j & v) & E & I); cbn in E; subst; eauto|]. intros (v & I). exists (i, v). auto.
Qed.
Lemma holds_set size acc index m i sq st : mixer_inv size (map fst acc) index m -> 0 <= i < size -> member i (map fst acc) = false ->
  holds acc m -> holds ((i, (sq, st)) :: acc) (lean_set m i sq st).
Proof.
  intros (S & _ & (F & _) & _) I N H j a b [E|E]; unfold lean_set; cbn [mx_inputs]; unfold mx_size in S.
  - injection E as <- <- <-. rewrite znth_zupd. rewrite Z.eqb_refl.
    destruct (znth_lt (mx_inputs m) i ltac:(lia)) as (x & X). rewrite X.
    replace (true && (0 <=? i) && (i <? zlen (mx_inputs m))) with true by lia. eauto.
  - destruct (H j a b E) as (w & W). exists w. rewrite znth_zupd. destruct (Z.eqb_spec i j) as [<-|]; [|exact W].
    exfalso. rewrite (proj2 (member_fst i acc)) in N by eauto. discriminate.
Qed.

(** After any permitted calls: the state's invariant with the pending inputs. *)
Lemma calls_state lut rates calls : squash_lut_ok lut -> rates_ok rates -> Forall sane calls ->
  forall size acc index m, mixer_inv size (map fst acc) index m -> holds acc m -> follows size (map fst acc) index calls = true ->
  exists m' rs index', perform_all lut rates calls m = Ok (m', rs) /\ Forall result_ok rs /\
    mixer_inv size (map fst (pending acc calls)) index' m' /\ holds (pending acc calls) m'.
Proof.
  intros LUT R. unfold perform_all. induction 1 as [|c calls C F IH]; intros size acc index m I H FO.
  { cbn [mfold pending]. exists m, [], index. auto. }
  cbn [mfold perform pending]. destruct c as [i sq st| |b p mx]; cbn [follows] in FO.
  - destruct C as (IR & ST). destruct (set_input_ok size (map fst acc) index m i sq st I IR ST) as (E & I'). rewrite E.
    apply andb_prop in FO as (A & FO). rewrite A. cbn [bind]. apply andb_prop in A as (A & B). apply Z.ltb_lt in A.
    apply Bool.negb_true_iff in B. apply (IH size ((i, (sq, st)) :: acc) index); [now apply I'| |exact FO].
    eapply holds_set; eauto. lia.
  - apply andb_prop in FO as (A & FO). rewrite (mix_ok lut size (map fst acc) index m LUT I), A. cbn [bind].
    destruct (IH size acc index m I H FO) as (m' & rs & i' & E & RS & I' & H'). rewrite perform_fails, E. cbn [bind fst snd].
    do 3 eexists. split; [reflexivity|]. split; [|eauto]. apply Forall_app. split; [|exact RS]. constructor; [apply lean_mix_ok|constructor].
  - destruct C as (P & MX). pose proof I as (_ & _ & _ & _ & IR & _). destruct (rates_at rates index R IR) as (rate & RT & RR).
    apply andb_prop in FO as (A & FO).
    destruct (update_ok rates rate size (map fst acc) index m b p mx I RT RR P MX) as (E & I'). rewrite E, A. cbn [bind].
    apply andb_prop in A as (A & B). apply Z.leb_le in B.
    apply (IH size [] (Z.min mx (index + 1))); [now apply I'| |exact FO]. intros ? ? ? [].
Qed.

Lemma read_set size acc index m i : mixer_inv size (map fst acc) index m -> holds acc m -> 0 <= i < 32 ->
  if member i (map fst acc) then
    exists sq st, In (i, (sq, st)) acc /\ prediction_sq m i = Ok sq /\ prediction_st m i = Ok st
  else prediction_sq m i = Fail EAssert /\ prediction_st m i = Fail EAssert.
Proof.
  intros (S & SZ & (F & M & T) & _ & _ & _) H I.
  assert (A : assert_input_is_set m i = if (i <? size) && member i (map fst acc) then Ok tt else Fail EAssert).
  { unfold assert_input_is_set. rewrite S. destruct (Z.ltb_spec i size); cbn [assert_ guard bind andb]; [|reflexivity].
    rewrite shl_ok by (cbn [ibits u32]; lia). cbn [bind]. rewrite Z.mul_1_l.
    rewrite wrap_id by (try (cbn [ibits u32]; lia); ib; pose proof (pow2_pos i); pose proof (Z.pow_lt_mono_r 2 i 32 ltac:(lia) ltac:(lia) ltac:(lia)); lia).
    rewrite land_pow2, T by lia. rewrite Bool.negb_involutive. destruct (member i (map fst acc)); reflexivity. }
  unfold prediction_sq, prediction_st. rewrite A. destruct (member i (map fst acc)) eqn:E.
  - pose proof (proj1 (Forall_forall _ _) F i (proj1 (member_In _ _) E)) as R. rewrite (proj2 (Z.ltb_lt _ _)) by (exact (proj2 R)).
    cbn [andb bind]. apply member_fst in E as ((sq & st) & E). destruct (H i sq st E) as (w & W). exists sq, st. split; [exact E|].
    unfold get. rewrite W. cbn [bind mi_sq mi_st]. auto.
  - rewrite Bool.andb_false_r. cbn [bind]. auto.
Qed.

(** ** Mixing is the clamped dot product *)
Lemma total_dot m : Z.abs (4 * total (mx_inputs m) - dot m) <= 2 * zlen (mx_inputs m).
Proof.
  unfold total, dot. induction (mx_inputs m) as [|x l IH]; [cbn; lia|]. cbn [map fold_right]. rewrite zlen_cons.
  pose proof (rnda_near (mi_weight x * mi_st x) 2 ltac:(lia)) as R. change (2 ^ 2) with 4 in R.
  set (a := rnda _ 2) in *. set (n := mi_weight x * mi_st x) in *. set (t := fold_right Z.add 0 (map (fun x => rnda _ 2) l)) in *.
  set (d := fold_right _ _ _) in *. clearbody a n t d. lia.
Qed.
Lemma mix_dot m : Z.abs (snd (lean_mix m) * 2 ^ 21 - clamp (12 * 2 ^ 42) (dot m)) <= 2 ^ 20 + 2 * mx_size m.
Proof.
  unfold lean_mix. cbn [snd]. pose proof (total_dot m) as T. unfold mx_size. set (t := total _) in *. set (d := dot m) in *. set (n := zlen _) in *.
  pose proof (rnda_near (stretched_q_clamped t) 19 ltac:(lia)) as R. set (r := rnda _ 19) in *. clearbody r t d n.
  unfold stretched_q_clamped, clamp in *. change (2 ^ 19) with 524288 in *. change (2 ^ 21) with 2097152 in *.
  change (2 ^ 20) with 1048576 in *. change (2 ^ 42) with 4398046511104 in *. change (2 ^ 40) with 1099511627776 in *. lia.
Qed.

(** ** The direction and size of one update *)
Lemma near_chain st err rate g f e : Z.abs (2 * g - rate) <= 1 -> Z.abs (2 ^ 31 * f - err * g) <= 2 ^ 30 ->
  Z.abs (2 ^ 31 * e - st * f) <= 2 ^ 30 -> 0 <= err <= 2 ^ 31 -> Z.abs st <= 12 * 2 ^ 21 ->
  Z.abs (2 ^ 63 * e - st * err * rate) < 2 ^ 63.
Proof.
  intros G F E R S.
  assert (A : Z.abs (st * (2 ^ 32 * f - 2 * (err * g))) <= 12 * 2 ^ 21 * 2 ^ 31).
  { rewrite Z.abs_mul. apply Z.mul_le_mono_nonneg; try lia. }
  assert (B : Z.abs (st * err * (2 * g - rate)) <= 12 * 2 ^ 21 * 2 ^ 31 * 1).
  { rewrite !Z.abs_mul. apply Z.mul_le_mono_nonneg; try lia. apply Z.mul_le_mono_nonneg; lia. }
  replace (2 ^ 63 * e - st * err * rate) with (2 ^ 32 * (2 ^ 31 * e - st * f) + st * (2 ^ 32 * f - 2 * (err * g)) + st * err * (2 * g - rate)) by ring.
  set (x := 2 ^ 31 * e - st * f) in *. set (y := st * (2 ^ 32 * f - _)) in *. set (z := st * err * (2 * g - rate)) in *. clearbody x y z. lia.
Qed.
Lemma update_step rate b p x : 0 <= rate <= 2 ^ 30 -> 0 < p < 2 ^ 31 -> input_ok x ->
  let w := mi_weight x in let w' := new_weight (step_factor rate b p) b x in
  let towards := if b then - mi_st x else mi_st x in let error := if b then p else 2 ^ 31 - p in
  Z.abs (2 ^ 63 * w' - clamp (8 * 2 ^ 84) (2 ^ 63 * w + towards * error * rate)) < 2 ^ 63 /\
  (0 <= towards -> w <= w') /\ (towards <= 0 -> w' <= w).
Proof.
  intros R P (W & S). cbv zeta. destruct (step_factor_range rate b p R P) as (G0 & F0). unfold new_weight. unfold step_factor in *.
  pose proof (rnda_near (2 ^ 30 * rate) 31 ltac:(lia)) as G. set (g := rnda (2 ^ 30 * rate) 31) in *. clearbody g.
  set (err := if b then p else 2 ^ 31 - p) in *. assert (ER : 0 <= err <= 2 ^ 31) by (unfold err; destruct b; lia). clearbody err.
  pose proof (rnda_near (err * g) 31 ltac:(lia)) as F. set (f := rnda (err * g) 31) in *. clearbody f.
  set (st := mi_st x) in *. set (w := mi_weight x) in *. clearbody st w.
  pose proof (rnda_near (st * f) 31 ltac:(lia)) as E. pose proof (rnda_sign (st * f) 31 ltac:(lia)) as SG. set (e := rnda (st * f) 31) in *. clearbody e.
  assert (N : Z.abs (2 ^ 63 * e - st * err * rate) < 2 ^ 63).
  { apply (near_chain st err rate g f e); [| | |exact ER|]; clear - G F E S;
      change (2 ^ 31) with (2 * 2 ^ 30) in *; set (h := 2 ^ 30) in *; assert (0 < h) by reflexivity; clearbody h; try lia; try nia. }
  assert (S1 : 0 <= st -> 0 <= e) by (intros; apply SG; nia). assert (S2 : st <= 0 -> e <= 0) by (intros; apply SG; nia).
  replace ((if b then - st else st) * err * rate) with ((if b then -1 else 1) * (st * err * rate)) by (destruct b; ring).
  set (t := st * err * rate) in *. clearbody t. clear - N S1 S2 W. unfold mixer_weight_clamped, clamp.
  change (2 ^ 84) with (2 ^ 63 * 2 ^ 21). change (2 ^ 21) with 2097152 in *. change (2 ^ 63) with 9223372036854775808 in *. destruct b; lia.
Qed.

(** ** Symmetry *)
Lemma clampq_opp x : stretched_q_clamped (- x) = - stretched_q_clamped x.
Proof. unfold stretched_q_clamped. set (k := 2 ^ 40). assert (0 < k) by reflexivity. clearbody k. lia. Qed.
Lemma clampw_opp x : mixer_weight_clamped (- x) = - mixer_weight_clamped x.
Proof. unfold mixer_weight_clamped. pow2. lia. Qed.
Definition flip_weight (x : mixer_input) : mixer_input := mkInput (- mi_weight x) (mi_sq x) (mi_st x).
Definition flip_input (x : mixer_input) : mixer_input := mkInput (mi_weight x) (2 ^ 31 - mi_sq x) (- mi_st x).
Definition with_inputs (f : mixer_input -> mixer_input) (m : mixer) : mixer := mkMixer (map f (mx_inputs m)) (mx_mask m) (mx_index m).
Lemma total_flip f l : (forall x, mi_weight (f x) * mi_st (f x) = - (mi_weight x * mi_st x)) -> total (map f l) = - total l.
Proof.
  intros H. unfold total. induction l as [|x l IH]; [reflexivity|]. cbn [map fold_right]. rewrite IH, H, rnda_opp. ring.
Qed.
Lemma mix_flip f m : (forall x, mi_weight (f x) * mi_st (f x) = - (mi_weight x * mi_st x)) ->
  lean_mix (with_inputs f m) = complementary (lean_mix m).
Proof.
  intros H. pose proof (lean_st_range m) as R. unfold lean_mix, with_inputs in *. cbn [mx_inputs snd] in *. rewrite (total_flip f) by exact H. rewrite clampq_opp, rnda_opp.
  unfold complementary. cbn [fst snd]. set (st := rnda _ _) in *. rewrite lean_squash_mirror by exact R. reflexivity.
Qed.
Lemma zlen_map {A B} (f : A -> B) l : zlen (map f l) = zlen l.
Proof. unfold zlen. now rewrite map_length. Qed.
Lemma map_zupd {A B} (f : A -> B) l : forall i x, map f (zupd l i x) = zupd (map f l) i (f x).
Proof. induction l as [|y l IH]; intros i x; [reflexivity|]. cbn [zupd map]. destruct (i =? 0); cbn [map]; [reflexivity|]. now rewrite IH. Qed.
Lemma znth_map {A B} (f : A -> B) l : forall i, znth (map f l) i = option_map f (znth l i).
Proof. induction l as [|y l IH]; intros i; [reflexivity|]. cbn [znth map]. destruct (i =? 0); [reflexivity|]. apply IH. Qed.

(** A change of inputs [f] with a matching change of calls [g] that commutes with every operation. *)
Record mirrors (f : mixer_input -> mixer_input) (g : call -> call) : Prop := mkMirrors {
  mr_product : forall x, mi_weight (f x) * mi_st (f x) = - (mi_weight x * mi_st x);
  mr_inv : forall x, input_ok x -> input_ok (f x);
  mr_set : forall i sq st, exists sq' st', g (SetInput i sq st) = SetInput i sq' st' /\
    (- (12 * 2 ^ 21) <= st <= 12 * 2 ^ 21 -> - (12 * 2 ^ 21) <= st' <= 12 * 2 ^ 21) /\
    forall x, mkInput (mi_weight (f x)) sq' st' = f (mkInput (mi_weight x) sq st);
  mr_mix : g MixAll = MixAll;
  mr_update : forall b p mx, g (Update b p mx) = Update (negb b) (2 ^ 31 - p) mx;
  mr_step : forall e b x, mkInput (new_weight e (negb b) (f x)) (mi_sq (f x)) (mi_st (f x)) = f (mkInput (new_weight e b x) (mi_sq x) (mi_st x))
}.
Lemma step_flip rate b p : step_factor rate (negb b) (2 ^ 31 - p) = step_factor rate b p.
Proof. unfold step_factor. f_equal. f_equal. destruct b; cbn [negb]; ring. Qed.
Lemma mirror_run f g lut rates calls : mirrors f g -> squash_lut_ok lut -> rates_ok rates -> Forall sane calls ->
  forall size done index m, mixer_inv size done index m -> follows size done index calls = true ->
  exists m' rs, perform_all lut rates calls m = Ok (m', rs) /\
    perform_all lut rates (map g calls) (with_inputs f m) = Ok (with_inputs f m', map complementary rs).
Proof.
  intros MR LUT R. unfold perform_all. induction 1 as [|c calls C F IH]; intros size done index m I FO.
  { cbn [mfold map]. exists m, []. auto. }
  assert (I2 : mixer_inv size done index (with_inputs f m)).
  { destruct I as (S & SZ & T & IX & IR & FA). unfold mixer_inv, mx_size, with_inputs in *. cbn [mx_inputs mx_mask mx_index].
    rewrite zlen_map. repeat (split; [assumption|]). apply Forall_map. eapply Forall_impl; [|exact FA]. intros x. apply (mr_inv _ _ MR). }
  cbn [mfold map]. destruct c as [i sq st| |b p mx]; cbn [follows] in FO.
  - destruct C as (IR & ST). destruct (set_input_ok size done index m i sq st I IR ST) as (E & I'). 
    destruct (mr_set _ _ MR i sq st) as (sq' & st' & G & STR & EQ). rewrite G. cbn [perform].
    destruct (set_input_ok size done index (with_inputs f m) i sq' st' I2 IR (STR ST)) as (E2 & _). rewrite E, E2.
    apply andb_prop in FO as (A & FO). rewrite A. cbn [bind]. apply andb_prop in A as (A & _). apply Z.ltb_lt in A.
    replace (lean_set (with_inputs f m) i sq' st') with (with_inputs f (lean_set m i sq st)).
    + apply (IH size (i :: done) index); [now apply I'|exact FO].
    + unfold with_inputs, lean_set. cbn [mx_inputs mx_mask mx_index]. rewrite map_zupd, znth_map. f_equal. f_equal.
      destruct I as (S & _). unfold mx_size in S. destruct (znth_lt (mx_inputs m) i ltac:(lia)) as (x & X). rewrite X. cbn [option_map].
      symmetry. apply EQ.
  - rewrite (mr_mix _ _ MR). cbn [perform]. apply andb_prop in FO as (A & FO).
    rewrite (mix_ok lut size done index m LUT I), (mix_ok lut size done index _ LUT I2), A. cbn [bind].
    destruct (IH size done index m I FO) as (m' & rs & E & E2). rewrite perform_fails, E. rewrite (perform_fails _ _ (map g calls)), E2. cbn [bind fst snd].
    do 2 eexists. split; [reflexivity|]. rewrite map_app. cbn [map]. rewrite (mix_flip f) by apply (mr_product _ _ MR). reflexivity.
  - rewrite (mr_update _ _ MR). cbn [perform]. destruct C as (P & MX). pose proof I as (_ & _ & _ & IX & IR & _). destruct (rates_at rates index R IR) as (rate & RT & RR).
    apply andb_prop in FO as (A & FO).
    destruct (update_ok rates rate size done index m b p mx I RT RR P MX) as (E & I').
    destruct (update_ok rates rate size done index _ (negb b) (2 ^ 31 - p) mx I2 RT RR ltac:(lia) MX) as (E2 & _). rewrite E, E2, A. cbn [bind].
    apply andb_prop in A as (A & B). apply Z.leb_le in B.
    replace (lean_update rate (with_inputs f m) (negb b) (2 ^ 31 - p) mx) with (with_inputs f (lean_update rate m b p mx)).
    + apply (IH size [] (Z.min mx (index + 1))); [now apply I'|exact FO].
    + unfold with_inputs, lean_update. cbn [mx_inputs mx_mask mx_index]. rewrite step_flip. f_equal. rewrite !map_map. apply map_ext. intros x.
      symmetry. apply (mr_step _ _ MR).
Qed.
Lemma mirror_weights : mirrors flip_weight opposite_bit.
Proof.
  constructor; try reflexivity.
  - intros x. cbn [flip_weight mi_weight mi_st]. ring.
  - intros x (A & B). unfold input_ok. cbn [flip_weight mi_weight mi_st]. lia.
  - intros i sq st. exists sq, st. auto.
  - intros e b x. unfold flip_weight, new_weight. cbn [mi_weight mi_sq mi_st]. f_equal. rewrite <- clampw_opp. f_equal. destruct b; cbn [negb]; ring.
Qed.
Lemma mirror_inputs : mirrors flip_input opposite_all.
Proof.
  constructor; try reflexivity.
  - intros x. cbn [flip_input mi_weight mi_st]. ring.
  - intros x (A & B). unfold input_ok. cbn [flip_input mi_weight mi_st]. lia.
  - intros i sq st. exists (2 ^ 31 - sq), (- st). split; [reflexivity|]. split; [lia|]. intros x. reflexivity.
  - intros e b x. unfold flip_input, new_weight. cbn [mi_weight mi_sq mi_st]. f_equal. f_equal.
    replace (- mi_st x * e) with (- (mi_st x * e)) by ring. rewrite rnda_opp. destruct b; cbn [negb]; ring.
Qed.

(** ** Final statements *)
Lemma fresh_inputs size index mode m : makes size index mode m -> Forall (fun x => mi_sq x = 2 ^ 30 /\ mi_st x = 0) (mx_inputs m).
Proof.
  assert (K : forall m0 flat, neutral_mixer size index = Ok m0 -> initialize_weights m0 mode flat = Ok m ->
    Forall (fun x => mi_sq x = 2 ^ 30 /\ mi_st x = 0) (mx_inputs m)).
  { intros m0 flat N E. assert (B : Forall (fun x => mi_sq x = 2 ^ 30 /\ mi_st x = 0) (mx_inputs m0)).
    { unfold neutral_mixer in N. inv_bind N. injection N as <-. cbn [mx_inputs]. apply repeat_Forall. split; reflexivity. }
    destruct mode; cbn [initialize_weights] in E.
    - injection E as <-. exact B.
    - inv_bind E. inv_bind E. injection E as <-. cbn [mx_inputs]. unfold get in *. destruct (znth (mx_inputs m0) 0) eqn:Z0; [|discriminate].
      match goal with H : Ok _ = Ok _ |- _ => injection H as <- end.
      match goal with H : set _ _ _ = Ok _ |- _ => unfold set in H; rewrite Z0 in H; injection H as <- end.
      apply Forall_zupd; [exact B|]. cbn [mi_sq mi_st]. exact (znth_Forall _ _ _ _ B Z0).
    - inv_bind E. injection E as <-. cbn [mx_inputs]. apply Forall_map. eapply Forall_impl; [|exact B]. intros x H. exact H. }
  intros [(S & I & E) | (S & I & Z0 & E)].
  - unfold fixed_mixer_new in E. inv_bind E. eapply K; eassumption.
  - unfold mixer_n_new in E. repeat inv_bind E. eapply K; eassumption.
Qed.
Lemma map_same {A} (f : A -> A) l : Forall (fun x => f x = x) l -> map f l = l.
Proof. induction 1 as [|x l E F IH]; [reflexivity|]. cbn [map]. now rewrite E, IH. Qed.
Lemma fresh_flip_input size index mode m : makes size index mode m -> with_inputs flip_input m = m.
Proof.
  intros M. pose proof (fresh_inputs _ _ _ _ M) as F. destruct m as [xs k i]. unfold with_inputs. cbn [mx_inputs mx_mask mx_index] in *. f_equal.
  apply map_same. eapply Forall_impl; [|exact F]. intros [w q t] (Q & T). cbn [mi_sq mi_st] in *. subst. reflexivity.
Qed.
Lemma fresh_flip_weight size index m : makes size index AllZero m -> with_inputs flip_weight m = m.
Proof.
  intros M. destruct (makes_inv _ _ _ _ M) as (_ & W). cbn [initial_weights] in W. destruct m as [xs k i]. unfold with_inputs, weights in *. cbn [mx_inputs mx_mask mx_index] in *. f_equal.
  apply map_same. assert (Z0 : Forall (fun w => w = 0) (map mi_weight xs)) by (rewrite W; now apply repeat_Forall).
  apply Forall_map in Z0. eapply Forall_impl; [|exact Z0]. intros [w q t] Q. cbn [mi_weight] in *. subst. reflexivity.
Qed.
Lemma holds_nil m : holds [] m. Proof. intros ? ? ? []. Qed.


Lemma rested_inv size index m : rested size index m <-> mixer_inv size [] index m.
Proof.
  unfold rested, mixer_inv, weights_bounded, weights, stretched_inputs. split.
  - intros (S & SZ & K & IX & IR & W & T). repeat (split; [assumption|]). split; [rewrite K; apply tracks_nil|]. repeat (split; [assumption|]).
    apply Forall_map in W. apply Forall_map in T. apply Forall_forall. intros x X. rewrite Forall_forall in W, T. split; [now apply W|now apply T].
  - intros (S & SZ & (F & K & T) & IX & IR & I). repeat (split; [assumption|]). split.
    { apply Z.bits_inj'. intros i H. rewrite T, Z.bits_0 by exact H. reflexivity. }
    repeat (split; [assumption|]). rewrite !Forall_map. split; (eapply Forall_impl; [|exact I]); intros x (A & B); assumption.
Qed.
Lemma znth_ext {A} (l : list A) : forall l', zlen l = zlen l' -> (forall j, 0 <= j < zlen l -> znth l j = znth l' j) -> l = l'.
Proof.
  induction l as [|x l IH]; intros [|y l'] L H; [reflexivity|unfold zlen in L; cbn [length] in L; lia|unfold zlen in L; cbn [length] in L; lia|]. rewrite !zlen_cons in *.
  pose proof (H 0 ltac:(pose proof (zlen_nonneg l); lia)) as H0. cbn in H0. injection H0 as <-. f_equal. apply IH; [lia|].
  intros j J. pose proof (H (j + 1) ltac:(lia)) as HJ. cbn [znth] in HJ. replace (j + 1 =? 0) with false in HJ by lia. now replace (j + 1 - 1) with j in HJ by lia.
Qed.
Lemma tables_use lut rates : tables_for lut rates -> squash_lut_ok lut /\ rates_ok rates.
Proof.
  intros ((st & E & E') & f & a & F & A & FA & FM & R). split.
  - exact (proj2 (built_tables st lut E E')).
  - clear E E'. destruct (rates_make_ok f a F A FA FM) as (rates' & R' & OK). rewrite R in R'. injection R' as ->. exact OK.
Qed.
Lemma bounded_of size done index m : mixer_inv size done index m -> weights_bounded m /\ zlen (weights m) = size.
Proof.
  intros (S & _ & _ & _ & _ & I). unfold weights_bounded, weights. rewrite zlen_map, Forall_map. split; [|exact S].
  eapply Forall_impl; [|exact I]. intros x (A & _). exact A.
Qed.

Lemma tables_exist : exists lut rates, tables_for lut rates.
Proof.
  destruct tables_ok as (st & sq & E & E' & _). destruct (rates_make_ok 1 2 ltac:(lia) ltac:(lia) ltac:(lia) ltac:(lia)) as (rates & R & _). exists sq, rates. split.
  - exists st. apply (conj E). exact E'.
  - clear E E'. exists 1, 2. do 4 (split; [clear; lia|]). exact R.
Qed.

Lemma new_total size index mode : 0 <= index <= 1000 ->
  (1 <= size <= 5 -> exists m, fixed_mixer_new size index mode = Ok m /\ zlen (weights m) = size /\ initial_weights size mode (weights m)) /\
  (0 <= size <= 30 -> (size = 0 -> mode = AllZero) ->
    exists m, mixer_n_new size index mode = Ok m /\ zlen (weights m) = size /\ initial_weights size mode (weights m)).
Proof.
  intros I. split.
  - intros S. destruct (fixed_made size index mode S I) as (m & E & INV & W). exists m. split; [exact E|]. split; [|exact W]. exact (proj2 (bounded_of _ _ _ _ INV)).
  - intros S Z0. destruct (sized_made size index mode S I Z0) as (m & E & INV & W). exists m. split; [exact E|]. split; [|exact W]. exact (proj2 (bounded_of _ _ _ _ INV)).
Qed.
Lemma empty_mixer_fails index : 0 <= index <= 1000 ->
  mixer_n_new 0 index DominantFirst = Fail EIndex /\ mixer_n_new 0 index EqualSummingToOne = Fail EAssert.
Proof.
  intros I. unfold mixer_n_new, neutral_mixer. rewrite (proj2 (Z.leb_le index index_limit)) by exact (proj2 I). split; reflexivity.
Qed.

Lemma never_panics lut rates size index mode m calls : tables_for lut rates -> makes size index mode m -> Forall sane calls ->
  follows size [] index calls = true ->
  exists m' results, perform_all lut rates calls m = Ok (m', results) /\ zlen (weights m') = size /\ weights_bounded m' /\
    Forall probability_inside results.
Proof.
  intros T M S F. destruct (tables_use _ _ T) as (L & R). clear T. destruct (makes_inv _ _ _ _ M) as (I & _).
  destruct (calls_state lut rates calls L R S size [] index m I (holds_nil m) F) as (m' & rs & ix & E & RS & I' & _).
  exists m', rs. destruct (bounded_of _ _ _ _ I') as (B & Z0). auto.
Qed.

Lemma reached_inv lut rates size index mode m calls m' results : tables_for lut rates -> makes size index mode m -> Forall sane calls ->
  perform_all lut rates calls m = Ok (m', results) ->
  squash_lut_ok lut /\ rates_ok rates /\ follows size [] index calls = true /\
  exists index', mixer_inv size (map fst (pending [] calls)) index' m' /\ holds (pending [] calls) m'.
Proof.
  intros T M S E. destruct (tables_use _ _ T) as (L & R). clear T. destruct (makes_inv _ _ _ _ M) as (I & _). do 2 (split; [assumption|]).
  pose proof (calls_ok lut rates calls L R S size [] index m I) as K. destruct (follows size [] index calls) eqn:F; [|rewrite E in K; discriminate].
  split; [reflexivity|]. destruct (calls_state lut rates calls L R S size [] index m I (holds_nil m) F) as (m2 & rs & ix & E' & _ & I' & H').
  rewrite E in E'. injection E' as <- <-. exists ix. auto.
Qed.

Lemma mixing_is_dot lut rates size index mode m calls m' results : tables_for lut rates -> makes size index mode m -> Forall sane calls ->
  perform_all lut rates calls m = Ok (m', results) -> all_set size (map fst (pending [] calls)) = true ->
  exists sq st, mix_all lut m' = Ok (sq, st) /\ squash lut st = Ok sq /\
    Z.abs (st * 2 ^ 21 - clamp (12 * 2 ^ 42) (dot m')) <= 2 ^ 20 + 2 * size.
Proof.
  intros T M S E A. destruct (reached_inv _ _ _ _ _ _ _ _ _ T M S E) as (L & R & F & ix & I & H). clear T.
  exists (fst (lean_mix m')), (snd (lean_mix m')). rewrite (mix_ok lut size _ ix m' L I), A. split; [reflexivity|]. split.
  - rewrite (squash_lean lut _ L) by apply lean_st_range. reflexivity.
  - pose proof (mix_dot m') as D. destruct I as (SZ & _). rewrite SZ in D. exact D.
Qed.

Lemma update_moves lut rates size index mode m calls m' results b p mx m'' : tables_for lut rates -> makes size index mode m ->
  Forall sane calls -> 0 < p < 2 ^ 31 -> 0 <= mx < 2 ^ 16 ->
  perform_all lut rates calls m = Ok (m', results) -> update_and_reset rates m' b p mx = Ok m'' ->
  exists rate, get rates (mx_index m') = Ok rate /\
  forall i w st, 0 <= i < size -> weight m' i = Ok w -> prediction_st m' i = Ok st -> exists w', weight m'' i = Ok w' /\
    let towards := if b then - st else st in let error := if b then p else 2 ^ 31 - p in
    Z.abs (2 ^ 63 * w' - clamp (8 * 2 ^ 84) (2 ^ 63 * w + towards * error * rate)) < 2 ^ 63 /\
    (0 <= towards -> w <= w') /\ (towards <= 0 -> w' <= w).
Proof.
  intros T M S P MX E U. destruct (reached_inv _ _ _ _ _ _ _ _ _ T M S E) as (L & R & F & ix & I & H). clear T.
  pose proof I as (SZ & _ & _ & IX & IR & FI). destruct (rates_at rates ix R IR) as (rate & RT & RR). exists rate.
  split; [unfold get; rewrite IX, RT; reflexivity|]. intros i w st IB W ST.
  destruct (update_ok rates rate size _ ix m' b p mx I RT RR P MX) as (E2 & _). rewrite U in E2. destruct (_ && _ && _) in E2; [|discriminate].
  injection E2 as ->. unfold weight, get in *. unfold mx_size in SZ. destruct (znth_lt (mx_inputs m') i ltac:(lia)) as (x & X). rewrite X in W. cbn [bind] in W.
  injection W as <-. unfold prediction_st in ST. inv_bind ST. unfold get in ST. rewrite X in ST. cbn [bind] in ST. injection ST as <-.
  unfold lean_update. cbn [mx_inputs]. rewrite znth_map, X. cbn [option_map bind mi_weight]. eexists. split; [reflexivity|].
  apply update_step; [exact RR|exact P|]. exact (znth_Forall _ _ _ _ FI X).
Qed.

Lemma protocol_exact lut rates size index mode m calls : tables_for lut rates -> makes size index mode m -> Forall sane calls ->
  (follows size [] index calls = true -> exists m' results, perform_all lut rates calls m = Ok (m', results)) /\
  (follows size [] index calls = false -> perform_all lut rates calls m = Fail EAssert).
Proof.
  intros T M S. destruct (tables_use _ _ T) as (L & R). clear T. destruct (makes_inv _ _ _ _ M) as (I & _).
  pose proof (calls_ok lut rates calls L R S size [] index m I) as K. destruct (follows size [] index calls); split; try discriminate; intros _; [|exact K].
  destruct K as (m' & rs & ? & ? & E & _). eauto.
Qed.
Lemma inputs_readable lut rates size index mode m calls m' results i : tables_for lut rates -> makes size index mode m -> Forall sane calls ->
  perform_all lut rates calls m = Ok (m', results) -> 0 <= i < 32 ->
  if member i (map fst (pending [] calls)) then
    exists sq st, In (i, (sq, st)) (pending [] calls) /\ prediction_sq m' i = Ok sq /\ prediction_st m' i = Ok st
  else prediction_sq m' i = Fail EAssert /\ prediction_st m' i = Fail EAssert.
Proof.
  intros T M S E IB. destruct (reached_inv _ _ _ _ _ _ _ _ _ T M S E) as (_ & _ & _ & ix & I & H). exact (read_set _ _ _ _ i I H IB).
Qed.
Lemma pending_app calls : forall acc b p mx, pending acc (calls ++ [Update b p mx]) = [].
Proof. induction calls as [|[] r IH]; intros; cbn [app pending]; auto. Qed.
Lemma rested_after lut rates size index mode m calls b p mx m' results : tables_for lut rates -> makes size index mode m ->
  Forall sane (calls ++ [Update b p mx]) -> perform_all lut rates (calls ++ [Update b p mx]) m = Ok (m', results) ->
  exists index', rested size index' m'.
Proof.
  intros T M S E. destruct (reached_inv _ _ _ _ _ _ _ _ _ T M S E) as (_ & _ & _ & ix & I & H). rewrite pending_app in I. cbn [map] in I. exists ix.
  now apply rested_inv.
Qed.
Lemma rested_new size index mode m : makes size index mode m -> rested size index m.
Proof. intros M. apply rested_inv. apply (makes_inv _ _ _ _ M). Qed.

(** What unset inputs hold does not matter. *)
Definition agree (done : list Z) (m m2 : mixer) : Prop :=
  mx_mask m = mx_mask m2 /\ mx_index m = mx_index m2 /\ weights m = weights m2 /\ forall i, In i done -> znth (mx_inputs m) i = znth (mx_inputs m2) i.
Lemma agree_all size done index m m2 : mixer_inv size done index m -> agree done m m2 -> all_set size done = true -> m = m2.
Proof.
  intros (S & _) (K & IX & W & A) ALL. destruct m as [xs k i], m2 as [ys k2 i2]. cbn [mx_inputs mx_mask mx_index] in *. subst k2 i2. f_equal.
  unfold weights, mx_size in *. cbn [mx_inputs] in *. assert (LE : zlen ys = size) by (rewrite <- S, <- (zlen_map mi_weight xs), W, zlen_map; reflexivity).
  apply znth_ext; [lia|]. intros j J. apply A. unfold all_set in ALL. rewrite forallb_forall in ALL. apply member_In, ALL, zseq_In. lia.
Qed.
Lemma agree_run lut rates calls : squash_lut_ok lut -> rates_ok rates -> Forall sane calls ->
  forall size done index m m2, mixer_inv size done index m -> mixer_inv size done index m2 -> agree done m m2 -> follows size done index calls = true ->
  exists m' m2' rs, perform_all lut rates calls m = Ok (m', rs) /\ perform_all lut rates calls m2 = Ok (m2', rs) /\ weights m' = weights m2'.
Proof.
  intros LUT R. unfold perform_all. induction 1 as [|c calls C F IH]; intros size done index m m2 I I2 AG FO.
  { cbn [mfold]. exists m, m2, []. destruct AG as (_ & _ & W & _). auto. }
  cbn [mfold perform]. destruct c as [i sq st| |b p mx]; cbn [follows] in FO.
  - destruct C as (IR & ST). destruct (set_input_ok size done index m i sq st I IR ST) as (E & I').
    destruct (set_input_ok size done index m2 i sq st I2 IR ST) as (E2 & I2'). rewrite E, E2.
    apply andb_prop in FO as (A & FO). rewrite A. cbn [bind]. apply andb_prop in A as (A & B). apply Z.ltb_lt in A.
    apply (IH size (i :: done) index); [now apply I'|now apply I2'| |exact FO]. destruct AG as (K & IX & W & AG).
    pose proof (f_equal (fun l => znth l i) W) as WI. cbv beta in WI. unfold weights in WI. rewrite !znth_map in WI.
    destruct I as (S & _), I2 as (S2 & _). unfold mx_size in *. destruct (znth_lt (mx_inputs m) i ltac:(lia)) as (x & X).
    destruct (znth_lt (mx_inputs m2) i ltac:(lia)) as (y & Y). rewrite X, Y in WI. cbn [option_map] in WI. injection WI as WI.
    unfold lean_set. rewrite X, Y, WI. unfold agree, weights. cbn [mx_inputs mx_mask mx_index]. rewrite K. split; [reflexivity|]. split; [exact IX|].
    split; [rewrite !map_zupd; f_equal; exact W|]. intros j [->|J].
    + rewrite !znth_zupd, S, S2. rewrite Z.eqb_refl, X, Y. replace (true && (0 <=? j) && (j <? size)) with true by lia. reflexivity.
    + rewrite !znth_zupd, S, S2, (AG j J). reflexivity.
  - apply andb_prop in FO as (A & FO). assert (m2 = m) as -> by (symmetry; eapply agree_all; eassumption). rewrite (mix_ok lut size done index m LUT I), A. cbn [bind].
    destruct (IH size done index m m I I AG FO) as (m' & m2' & rs & E & E2 & W). rewrite E in E2. injection E2 as <-. rewrite perform_fails, E. cbn [bind fst snd]. eauto 6.
  - destruct C as (P & MX). pose proof I as (_ & _ & _ & _ & IR & _). destruct (rates_at rates index R IR) as (rate & RT & RR).
    apply andb_prop in FO as (A & FO). assert (m2 = m) as -> by (symmetry; eapply agree_all; try eassumption; apply andb_prop in A as (A & _); apply andb_prop in A as (A & _); exact A).
    destruct (update_ok rates rate size done index m b p mx I RT RR P MX) as (E & I'). rewrite E, A. cbn [bind].
    apply andb_prop in A as (A & B). apply Z.leb_le in B. specialize (I' B).
    apply (IH size [] (Z.min mx (index + 1))); [exact I'|exact I'| |exact FO]. repeat split; tauto.
Qed.

Lemma mirror_rested f g lut rates size index m1 m2 calls : mirrors f g ->
  tables_for lut rates -> rested size index m1 -> rested size index m2 -> weights m2 = weights (with_inputs f m1) -> Forall sane calls ->
  Forall sane (map g calls) -> follows size [] index calls = true -> follows size [] index (map g calls) = true ->
  exists m1' m2' results, perform_all lut rates calls m1 = Ok (m1', results) /\
    perform_all lut rates (map g calls) m2 = Ok (m2', map complementary results) /\ weights m2' = weights (with_inputs f m1').
Proof.
  intros MR T R1 R2 W S S2 F F2. destruct (tables_use _ _ T) as (L & R). clear T. apply rested_inv in R1, R2.
  destruct (mirror_run f g lut rates calls MR L R S size [] index m1 R1 F) as (m1' & rs & E & E2).
  assert (R3 : mixer_inv size [] index (with_inputs f m1)).
  { destruct R1 as (SS & SZ & TR & IX & IR & FA). unfold mixer_inv, mx_size, with_inputs in *. cbn [mx_inputs mx_mask mx_index].
    rewrite zlen_map. repeat (split; [assumption|]). apply Forall_map. eapply Forall_impl; [|exact FA]. intros x. apply (mr_inv _ _ MR). }
  destruct (agree_run lut rates (map g calls) L R S2 size [] index m2 (with_inputs f m1) R2 R3) as (m2' & m3' & rs' & E3 & E4 & W'); [|exact F2|].
  - apply rested_inv in R2, R3. destruct R2 as (_ & _ & K & IX & _), R3 as (_ & _ & K3 & IX3 & _). split; [congruence|]. split; [congruence|]. split; [exact W|]. intros ? [].
  - rewrite E2 in E4. injection E4 as <- <-. exists m1', m2', rs. auto.
Qed.
Lemma follows_ext g calls : (forall i sq st, exists sq' st', g (SetInput i sq st) = SetInput i sq' st') -> g MixAll = MixAll ->
  (forall b p mx, g (Update b p mx) = Update (negb b) (2 ^ 31 - p) mx) ->
  forall size done index, follows size done index (map g calls) = follows size done index calls.
Proof.
  intros G1 G2 G3. induction calls as [|[i sq st| |b p mx] r IH]; intros; cbn [map]; [reflexivity| | |].
  - destruct (G1 i sq st) as (? & ? & ->). cbn [follows]. now rewrite IH.
  - rewrite G2. cbn [follows]. now rewrite IH.
  - rewrite G3. cbn [follows]. now rewrite IH.
Qed.
Lemma opposite_bits lut rates size index m1 m2 calls : tables_for lut rates -> rested size index m1 -> rested size index m2 ->
  weights m2 = map Z.opp (weights m1) -> Forall sane calls -> follows size [] index calls = true ->
  exists m1' m2' results, perform_all lut rates calls m1 = Ok (m1', results) /\
    perform_all lut rates (map opposite_bit calls) m2 = Ok (m2', map complementary results) /\ weights m2' = map Z.opp (weights m1').
Proof.
  assert (WF : forall m, weights (with_inputs flip_weight m) = map Z.opp (weights m)).
  { intros m. unfold weights, with_inputs. cbn [mx_inputs]. rewrite !map_map. reflexivity. }
  intros T R1 R2 W S F. destruct (mirror_rested flip_weight opposite_bit lut rates size index m1 m2 calls) as (m1' & m2' & rs & E & E2 & W'); try assumption.
  - apply mirror_weights.
  - rewrite WF. exact W.
  - apply Forall_map. eapply Forall_impl; [|exact S]. intros [] H; cbn [opposite_bit sane] in *; try exact H. lia.
  - rewrite follows_ext; try reflexivity; [exact F|]. intros. cbn [opposite_bit]. eauto.
  - rewrite WF in W'. exists m1', m2', rs. auto.
Qed.
Lemma opposite_everything lut rates size index m1 m2 calls : tables_for lut rates -> rested size index m1 -> rested size index m2 ->
  weights m2 = weights m1 -> Forall sane calls -> follows size [] index calls = true ->
  exists m1' m2' results, perform_all lut rates calls m1 = Ok (m1', results) /\
    perform_all lut rates (map opposite_all calls) m2 = Ok (m2', map complementary results) /\ weights m2' = weights m1'.
Proof.
  assert (WF : forall m, weights (with_inputs flip_input m) = weights m).
  { intros m. unfold weights, with_inputs. cbn [mx_inputs]. rewrite !map_map. reflexivity. }
  intros T R1 R2 W S F. destruct (mirror_rested flip_input opposite_all lut rates size index m1 m2 calls) as (m1' & m2' & rs & E & E2 & W'); try assumption.
  - apply mirror_inputs.
  - rewrite WF. exact W.
  - apply Forall_map. eapply Forall_impl; [|exact S]. intros [] H; cbn [opposite_all sane] in *; try exact H; lia.
  - rewrite follows_ext; try reflexivity; [exact F|]. intros. cbn [opposite_all]. eauto.
  - rewrite WF in W'. exists m1', m2', rs. auto.
Qed.
