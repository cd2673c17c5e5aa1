(** Accuracy of the stretch and squash tables as real functions. *)
From Coq Require Import ZifyBool Reals Lra.
From Verif Require Import Base BaseFacts FixedModel FixedProofs LogModel LogSpec LogProofs LogReal LutModel LutTable LutProofs LutRound RealFacts.
Ltac Zify.zify_post_hook ::= Z.div_mod_to_equations.
Local Open Scope R_scope.

Lemma ln_log2R x : ln x = log2R x * ln 2.
Proof. unfold log2R. field. pose proof ln2_lower. lra. Qed.
Lemma Rabs_intro x b : - b <= x <= b -> Rabs x <= b.
Proof. intros H. apply Rabs_le. lra. Qed.

(** The logarithm of the table builder, in units of 2^-25. *)
Lemma lean_log_accurate x : (0 < x < 2 ^ 31)%Z -> - (11 / 10) <= IZR (lean_log x) - 2 ^ 25 * log2R (IZR x / 2 ^ 31) <= 11 / 10.
Proof.
  intros X. assert (LG : (0 <= Z.log2 x <= 30)%Z).
  { split; [apply Z.log2_nonneg|]. assert (Z.log2 x < 31)%Z by (apply Z.log2_lt_pow2; lia). lia. }
  set (k := (30 - Z.log2 x)%Z). assert (K : (0 <= k <= 30)%Z) by (unfold k; lia).
  assert (S : (2 ^ 30 <= x * 2 ^ k < 2 ^ 31)%Z).
  { destruct (Z.log2_spec x ltac:(lia)) as (A & B). pose proof (pow2_pos k ltac:(lia)).
    replace (2 ^ 30)%Z with (2 ^ Z.log2 x * 2 ^ k)%Z by (rewrite <- Z.pow_add_r by lia; f_equal; unfold k; lia).
    replace (2 ^ 31)%Z with (2 ^ Z.succ (Z.log2 x) * 2 ^ k)%Z by (rewrite <- Z.pow_add_r by lia; f_equal; unfold k; lia). nia. }
  destruct (one_plus_log2_accurate _ S) as (l & E & H). destruct (one_plus_log2_lean _ S) as (E2 & B). rewrite E in E2.
  unfold lean_log. fold k. cbv zeta. rewrite Z.shiftl_mul_pow2 by lia. rewrite Z.shiftr_div_pow2 by lia. change (2 ^ 6)%Z with 64%Z.
  revert E2 B. generalize (lean_loop 31 (x * 2 ^ k) 0). intros l2 E2 B. injection E2 as <-. clear E.
  assert (Xp : 0 < IZR x) by (apply IZR_lt; lia).
  assert (P31 : 0 < 2 ^ 31) by (apply pow_lt; lra).
  assert (Kp : 0 < IZR (2 ^ k)) by (apply IZR_lt, pow2_pos; lia).
  assert (Eq : log2R (IZR (x * 2 ^ k) / 2 ^ 31) = log2R (IZR x / 2 ^ 31) + IZR k).
  { replace (IZR (x * 2 ^ k) / 2 ^ 31) with (IZR x / 2 ^ 31 * IZR (2 ^ k)) by (rewrite mult_IZR; field; lra).
    rewrite log2R_mult; [|apply Rdiv_lt_0_compat; lra | exact Kp]. now rewrite log2R_IZR_pow by lia. }
  rewrite Eq in H. set (y := log2R (IZR x / 2 ^ 31)) in *. clearbody y.
  set (e := (Z.min 2147483647 (l + 32) / 64)%Z).
  assert (EB : (- 63 <= e * 64 - l <= 32)%Z).
  { unfold e. clear - B. pow2. lia. }
  assert (EB2 : - 63 <= IZR e * 64 - IZR l <= 32). { rewrite <- mult_IZR, <- minus_IZR. split; apply IZR_le; lia. }
  clearbody e. rewrite minus_IZR, mult_IZR, plus_IZR. replace (2 ^ 31) with (64 * 33554432) in H by lra. replace (2 ^ 25) with 33554432 by lra. lra.
Qed.

Definition frac (x : Z) : R := IZR x / 2 ^ 31.
Lemma p31_lit : 2 ^ 31 = 2147483648. Proof. lra. Qed.
Lemma frac_inside x : (0 < x < 2 ^ 31)%Z -> 0 < frac x < 1.
Proof.
  intros X. assert (A : 0 < IZR x) by (apply IZR_lt; lia). assert (B : IZR x < 2 ^ 31) by (rewrite <- p31; apply IZR_lt; lia).
  unfold frac. rewrite p31_lit in *. lra.
Qed.
Lemma frac_flip x : frac (2 ^ 31 - x) = 1 - frac x.
Proof. unfold frac. rewrite minus_IZR, p31. field. Qed.
Lemma logit_log2 x : (0 < x < 2 ^ 31)%Z -> logit (frac x) = (log2R (frac x) - log2R (frac (2 ^ 31 - x))) * ln 2.
Proof.
  intros X. pose proof (frac_inside x X). rewrite frac_flip. unfold logit. rewrite ln_frac by lra. rewrite (ln_log2R (frac x)), (ln_log2R (1 - frac x)). ring.
Qed.
Lemma log2R_frac x : (0 < x < 2 ^ 31)%Z -> - 31 <= log2R (frac x) <= 0.
Proof.
  intros X. unfold frac. assert (1 <= IZR x) by (apply IZR_le; lia).
  rewrite log2R_div, log2R_pow; [| lra | apply pow_lt; lra]. replace (INR 31) with 31 by (cbn; lra).
  pose proof (log2R_mono 1 (IZR x) ltac:(lra) H) as A. rewrite log2R_1 in A.
  assert (B : log2R (IZR x) <= log2R (IZR (2 ^ 31))) by (apply log2R_mono; [lra | apply IZR_le; lia]). rewrite log2R_IZR_pow in B by lia. lra.
Qed.

(** Each entry is within 0.65 units of 2^-21. *)
Lemma lean_mag_accurate c : (1 <= c <= 4095)%Z -> Rabs (IZR (mag c) + 2 ^ 21 * logit (frac (cell_start c))) <= 65 / 100.
Proof.
  intros C. rewrite <- (mag_lean c C). pose proof (cell_start_range c C) as X. unfold lean_mag. cbv zeta.
  change 2147483648%Z with (2 ^ 31)%Z. change 17179869184%Z with (2 ^ 34)%Z. rewrite Z.shiftr_div_pow2 by lia.
  set (x := cell_start c) in *. clearbody x. clear c C.
  pose proof (lean_log_accurate x ltac:(lia)) as A. pose proof (lean_log_accurate (2 ^ 31 - x) ltac:(pow2; lia)) as B.
  pose proof (log2R_frac x ltac:(lia)) as RA. pose proof (log2R_frac (2 ^ 31 - x) ltac:(pow2; lia)) as RB.
  rewrite logit_log2 by lia. unfold frac in *.
  set (u := log2R (IZR x / 2 ^ 31)) in *. set (v := log2R (IZR (2 ^ 31 - x) / 2 ^ 31)) in *. clearbody u v.
  set (D := (lean_log (2 ^ 31 - x) - lean_log x)%Z).
  assert (DB : - (22 / 10) <= IZR D - 2 ^ 25 * (v - u) <= 22 / 10) by (unfold D; rewrite minus_IZR; lra). clearbody D. clear A B.
  set (m := ((D * 1488522236 + 2 ^ 34) / 2 ^ 35)%Z).
  assert (MB : (2 * Z.abs (m * 2 ^ 35 - D * 1488522236) <= 2 ^ 35)%Z) by (unfold m; clear; change (2 ^ 35)%Z with 34359738368%Z; change (2 ^ 34)%Z with 17179869184%Z; lia).
  assert (MB2 : - 17179869184 <= IZR m * 34359738368 - IZR D * 1488522236 <= 17179869184).
  { rewrite <- !mult_IZR, <- minus_IZR. change (2 ^ 35)%Z with 34359738368%Z in MB. split; apply IZR_le; lia. }
  clearbody m. clear MB.
  pose proof ln2_value as L2. set (w := ln 2) in *. clearbody w.
  set (e := w - 1488522236 / 2 ^ 31). assert (EB : - (1 / 2 ^ 31) < e < 1 / 2 ^ 31) by (unfold e; lra).
  replace w with (1488522236 / 2 ^ 31 + e) by (unfold e; ring). clearbody e. clear L2.
  assert (Q : - (31 / 2 ^ 31) <= (u - v) * e <= 31 / 2 ^ 31).
  { assert (Rabs ((u - v) * e) <= 31 * (1 / 2 ^ 31)) by (rewrite Rabs_mult; apply Rmult_le_compat; [apply Rabs_pos | apply Rabs_pos | apply Rabs_intro; lra | apply Rabs_intro; lra]).
    apply Rabs_le_inv in H. lra. }
  replace ((u - v) * (1488522236 / 2 ^ 31 + e)) with ((u - v) * (1488522236 / 2 ^ 31) + (u - v) * e) by ring.
  set (q := (u - v) * e) in *. clearbody q. set (d := u - v) in *. replace (v - u) with (- d) in DB by (unfold d; ring). clearbody d.
  rewrite p31_lit in *. replace (2 ^ 25) with 33554432 in * by lra. replace (2 ^ 21) with 2097152 in * by lra.
  apply Rabs_intro. lra.
Qed.
Lemma mag_accurate c : (1 <= c <= 4096)%Z -> Rabs (IZR (mag c) + 2 ^ 21 * logit (frac (cell_start c))) <= 65 / 100.
Proof.
  intros C. destruct (Z.eq_dec c 4096) as [->|]; [|apply lean_mag_accurate; lia].
  rewrite mag_end. replace (cell_start 4096) with (2 ^ 30)%Z by reflexivity. unfold logit, frac. rewrite p30.
  replace (2 ^ 30 / 2 ^ 31 / (1 - 2 ^ 30 / 2 ^ 31)) with 1 by lra. rewrite ln_1. replace (0 + 2 ^ 21 * 0) with 0 by ring. rewrite Rabs_R0. lra.
Qed.

(** The value in a cell against the logit: 1.65 units and the error of the chord. *)
Lemma cell_accurate c k : (1 <= c <= 4095)%Z -> (0 <= k < 2 ^ cell_bits c)%Z ->
  Rabs (IZR (cell_value c k) - 2 ^ 21 * logit (frac (cell_start c + k))) <= 165 / 100 + 2 ^ 21 / 8 * (IZR (2 ^ cell_bits c) / IZR (cell_start c) * (IZR (2 ^ cell_bits c) / IZR (cell_start c))).
Proof.
  intros C K. pose proof (cell_bits_range c ltac:(lia)) as N. pose proof (cell_start_range c ltac:(lia)) as X.
  pose proof (mag_accurate c ltac:(lia)) as A. pose proof (mag_accurate (c + 1) ltac:(lia)) as B. rewrite cell_start_next in B by lia.
  pose proof (interp_near (mag c) (mag (c + 1)) (cell_bits c) k ltac:(lia)) as I.
  assert (Y : (cell_start c + 2 ^ cell_bits c <= 2 ^ 30)%Z).
  { rewrite <- cell_start_next by lia. change (2 ^ 30)%Z with (cell_start 4096). apply cell_start_mono; lia. }
  unfold cell_value. cbv zeta. set (n := cell_bits c) in *. set (x := cell_start c) in *. set (l := mag c) in *. set (m := mag (c + 1)) in *.
  set (r := (rhu (l * k) n - rhu (m * k) n)%Z) in *. clearbody x l m r. pose proof (pow2_pos n ltac:(lia)) as P. set (w := (2 ^ n)%Z) in *. clearbody w. clear n N C c.
  assert (IR : - IZR w <= IZR r * IZR w - (IZR l - IZR m) * IZR k <= IZR w).
  { rewrite <- minus_IZR, <- !mult_IZR, <- minus_IZR, <- opp_IZR. split; apply IZR_le; lia. }
  assert (W : 0 < IZR w) by (apply IZR_lt; lia). assert (XP : 0 < IZR x) by (apply IZR_lt; lia).
  assert (XW : IZR x + IZR w <= 1073741824) by (rewrite <- plus_IZR; apply IZR_le; pow2; lia).
  assert (KK : 0 <= IZR k <= IZR w) by (split; apply IZR_le; lia).
  set (t := IZR k / IZR w).
  assert (T : 0 <= t <= 1).
  { unfold t. split; [apply Rmult_le_pos; [lra | left; apply Rinv_0_lt_compat; lra]|]. apply Rmult_le_reg_r with (IZR w); [lra|]. unfold Rdiv. rewrite Rmult_assoc, Rinv_l by lra. lra. }
  assert (TK : IZR k = t * IZR w) by (unfold t; field; lra).
  pose proof (logit_chord (frac x) (frac (x + w)) t) as CH.
  assert (F1 : 0 < frac x) by (apply Rdiv_lt_0_compat; [lra | apply pow_lt; lra]).
  assert (F2 : frac (x + w) = frac x + IZR w / 2 ^ 31) by (unfold frac; rewrite plus_IZR; field).
  specialize (CH F1). rewrite F2 in CH at 1.
  assert (WP : 0 < IZR w / 2 ^ 31) by (apply Rdiv_lt_0_compat; [lra | apply pow_lt; lra]).
  specialize (CH ltac:(lra)).
  assert (F3 : frac (x + w) <= 1 / 2) by (unfold frac; rewrite plus_IZR, p31_lit; lra). specialize (CH F3 T).
  replace (frac x + t * (frac (x + w) - frac x)) with (frac (x + k)) in CH by (rewrite F2; unfold frac; rewrite plus_IZR, TK; field).
  replace ((frac (x + w) - frac x) / frac x) with (IZR w / IZR x) in CH by (rewrite F2; unfold frac; field; lra).
  set (q := IZR w / IZR x) in *. clearbody q.
  set (gx := logit (frac x)) in *. set (gw := logit (frac (x + w))) in *. set (gk := logit (frac (x + k))) in *. clearbody gx gw gk.
  rewrite minus_IZR. apply Rabs_le_inv in A. apply Rabs_le_inv in B. apply Rabs_le_inv in CH.
  rewrite TK in IR. set (lr := IZR l) in *. set (mr := IZR m) in *. set (rr := IZR r) in *. clearbody lr mr rr.
  assert (IR2 : - 1 <= rr - (lr - mr) * t <= 1).
  { split; apply Rmult_le_reg_r with (IZR w); try lra; replace ((rr - (lr - mr) * t) * IZR w) with (rr * IZR w - (lr - mr) * (t * IZR w)) by ring; lra. }
  replace (2 ^ 21) with 2097152 in * by lra.
  (* the interpolated entries *)
  assert (A2 : - ((1 - t) * (65 / 100)) <= (1 - t) * (lr + 2097152 * gx) <= (1 - t) * (65 / 100)).
  { split; [replace (- ((1 - t) * (65 / 100))) with ((1 - t) * - (65 / 100)) by ring|]; apply Rmult_le_compat_l; lra. }
  assert (B2 : - (t * (65 / 100)) <= t * (mr + 2097152 * gw) <= t * (65 / 100)).
  { split; [replace (- (t * (65 / 100))) with (t * - (65 / 100)) by ring|]; apply Rmult_le_compat_l; lra. }
  apply Rabs_intro.
  replace (rr - lr - 2097152 * gk) with ((rr - (lr - mr) * t) - ((1 - t) * (lr + 2097152 * gx) + t * (mr + 2097152 * gw)) + 2097152 * ((1 - t) * gx + t * gw - gk)) by ring.
  lra.
Qed.

(** ** stretch *)
Lemma cell_narrow c : (1 <= c <= 4095)%Z -> (Z.min c 512 * 2 ^ cell_bits c <= cell_start c)%Z.
Proof.
  intros C. unfold cell_bits. destruct (Z.ltb_spec c 512) as [L|L].
  - unfold cell_start. destruct (Z.ltb_spec c 512); [|lia]. change (2 ^ 14)%Z with 16384%Z. lia.
  - rewrite cell_start_high by lia. rewrite shiftr_512. pose proof (pow2_pos (13 + c / 512) ltac:(lia)). set (p := (2 ^ (13 + c / 512))%Z) in *. clearbody p. nia.
Qed.
Lemma ratio_le c : (1 <= c <= 4095)%Z -> 0 <= IZR (2 ^ cell_bits c) / IZR (cell_start c) <= / IZR (Z.min c 512).
Proof.
  intros C. pose proof (cell_narrow c C) as H. pose proof (cell_start_range c C) as X. pose proof (cell_bits_range c ltac:(lia)). pose proof (pow2_pos (cell_bits c) ltac:(lia)).
  set (w := (2 ^ cell_bits c)%Z) in *. set (x := cell_start c) in *. set (m := Z.min c 512) in *. assert (M : (1 <= m)%Z) by (unfold m; lia). clearbody w x m.
  assert (0 < IZR x) by (apply IZR_lt; lia). assert (0 < IZR w) by (apply IZR_lt; lia). assert (0 < IZR m) by (apply IZR_lt; lia).
  assert (IZR m * IZR w <= IZR x) by (rewrite <- mult_IZR; apply IZR_le; lia).
  split; [left; now apply Rdiv_lt_0_compat|]. apply Rmult_le_reg_r with (IZR x); [lra|]. unfold Rdiv. rewrite Rmult_assoc, Rinv_l by lra.
  apply Rmult_le_reg_l with (IZR m); [lra|]. replace (IZR m * (/ IZR m * IZR x)) with (IZR m * / IZR m * IZR x) by ring. rewrite Rinv_r by lra. lra.
Qed.
(** The bound of the error in units of 2^-21, by the number of the cell among those of the lowest level. *)
Definition error_units (x : Z) : R := 165 / 100 + 2 ^ 21 / 8 * (/ IZR (Z.min (x / 2 ^ 14) 512) * / IZR (Z.min (x / 2 ^ 14) 512)).
Lemma low_accurate x : (2 ^ 14 <= x < 2 ^ 30)%Z -> Rabs (IZR (lean_stretch_low x) - 2 ^ 21 * logit (frac x)) <= error_units x.
Proof.
  intros X. destruct (lean_low_cell x ltac:(pow2; lia)) as (c & k & C & K & E & V). rewrite V, E.
  assert (C1 : (1 <= c)%Z).
  { destruct (Z.eq_dec c 0) as [->|]; [|lia]. unfold cell_start, cell_bits in *. cbn in E, K. pow2. lia. }
  assert (M : (Z.min ((cell_start c + k) / 2 ^ 14) 512 = Z.min c 512)%Z).
  { destruct (Z.lt_ge_cases c 512) as [L|L].
    - unfold cell_start, cell_bits in *. destruct (Z.ltb_spec c 512); [|lia]. change (2 ^ 14)%Z with 16384%Z in *. f_equal. clear - K. lia.
    - assert (cell_start 512 <= cell_start c)%Z by (apply cell_start_mono; lia). change (cell_start 512) with (512 * 16384)%Z in *. change (2 ^ 14)%Z with 16384%Z. clear - H K L. lia. }
  eapply Rle_trans; [apply cell_accurate; [lia | exact K]|]. unfold error_units. rewrite M.
  pose proof (ratio_le c ltac:(lia)) as R. apply Rplus_le_compat_l. apply Rmult_le_compat_l; [lra|]. apply Rmult_le_compat; lra.
Qed.
Lemma logit_flip p : 0 < p < 1 -> logit (1 - p) = - logit p.
Proof. intros P. unfold logit. replace (1 - (1 - p)) with p by ring. rewrite !ln_frac by lra. ring. Qed.
Lemma logit_half : logit (frac (2 ^ 30)) = 0.
Proof. unfold logit, frac. rewrite p30. replace (2 ^ 30 / 2 ^ 31 / (1 - 2 ^ 30 / 2 ^ 31)) with 1 by lra. apply ln_1. Qed.
Lemma error_units_pos x : (2 ^ 14 <= x)%Z -> 0 <= error_units x.
Proof.
  intros X. unfold error_units. assert (0 < IZR (Z.min (x / 2 ^ 14) 512)) by (apply IZR_lt; change (2 ^ 14)%Z with 16384%Z in *; lia).
  assert (0 < / IZR (Z.min (x / 2 ^ 14) 512)) by (now apply Rinv_0_lt_compat). assert (0 < / IZR (Z.min (x / 2 ^ 14) 512) * / IZR (Z.min (x / 2 ^ 14) 512)) by (now apply Rmult_lt_0_compat). lra.
Qed.
Lemma lean_stretch_accurate x : (2 ^ 14 <= x <= 2 ^ 31 - 2 ^ 14)%Z -> Rabs (IZR (lean_stretch x) - 2 ^ 21 * logit (frac x)) <= error_units (Z.min x (2 ^ 31 - x)).
Proof.
  intros X. unfold lean_stretch. destruct (Z.eqb_spec x 1073741824) as [->|N].
  - change 1073741824%Z with (2 ^ 30)%Z. rewrite logit_half. replace (0 - 2 ^ 21 * 0) with 0 by ring. rewrite Rabs_R0. apply error_units_pos. pow2. lia.
  - destruct (Z.ltb_spec 1073741824 x) as [L|L].
    + change 2147483648%Z with (2 ^ 31)%Z. pose proof (low_accurate (2 ^ 31 - x) ltac:(pow2; lia)) as H. rewrite frac_flip in H.
      rewrite logit_flip in H by (apply frac_inside; pow2; lia). rewrite <- Rabs_Ropp. rewrite opp_IZR. replace (Z.min x (2 ^ 31 - x)) with (2 ^ 31 - x)%Z by (pow2; lia).
      match type of H with Rabs ?a <= _ => match goal with |- Rabs ?b <= _ => replace b with a by ring end end. exact H.
    + replace (Z.min x (2 ^ 31 - x)) with x by (pow2; lia). apply low_accurate. pow2. lia.
Qed.
Lemma scale21 a g b : Rabs (a - 2 ^ 21 * g) <= b -> Rabs (a / 2 ^ 21 - g) <= b / 2 ^ 21.
Proof. intros H. apply Rabs_le_inv in H. apply Rabs_intro. replace (2 ^ 21) with 2097152 in * by lra. lra. Qed.
Lemma error_units_high x : (2 ^ 23 <= x)%Z -> error_units x = 265 / 100.
Proof.
  intros X. unfold error_units. replace (Z.min (x / 2 ^ 14) 512) with 512%Z by (change (2 ^ 14)%Z with 16384%Z; pow2; lia). lra.
Qed.
Lemma error_units_low x : (2 ^ 14 <= x < 2 ^ 23)%Z -> error_units x = 165 / 100 + 2 ^ 21 / 8 * (/ IZR (x / 2 ^ 14) * / IZR (x / 2 ^ 14)).
Proof. intros X. unfold error_units. replace (Z.min (x / 2 ^ 14) 512) with (x / 2 ^ 14)%Z by (change (2 ^ 14)%Z with 16384%Z in *; pow2; lia). reflexivity. Qed.

Lemma stretch_accurate : exists st, stretch_new = Ok st /\ forall p, (2 ^ 23 <= p <= 2 ^ 31 - 2 ^ 23)%Z ->
  exists s, stretch st p = Ok s /\ Rabs (IZR s / 2 ^ 21 - ln (IZR p / 2 ^ 31 / (1 - IZR p / 2 ^ 31))) < 0.0000013.
Proof.
  destruct stretch_new_ok as (st & E & H). exists st. split; [exact E|]. intros p P. exists (lean_stretch p). split; [apply stretch_lean; [exact H | clear - P; pow2; lia]|].
  pose proof (scale21 _ _ _ (lean_stretch_accurate p ltac:(pow2; lia))) as A. rewrite error_units_high in A by (pow2; lia). unfold logit, frac in A.
  eapply Rle_lt_trans; [exact A|]. lra.
Qed.
Lemma stretch_accurate_outside : exists st, stretch_new = Ok st /\ forall p, (2 ^ 14 <= p < 2 ^ 23)%Z ->
  let bound := 0.0000008 + 1 / (8 * IZR (p / 2 ^ 14) * IZR (p / 2 ^ 14)) in
  exists s, stretch st p = Ok s /\ Rabs (IZR s / 2 ^ 21 - ln (IZR p / 2 ^ 31 / (1 - IZR p / 2 ^ 31))) < bound /\
    stretch st (2 ^ 31 - p) = Ok (- s)%Z /\ Rabs (IZR (- s) / 2 ^ 21 - ln (IZR (2 ^ 31 - p) / 2 ^ 31 / (1 - IZR (2 ^ 31 - p) / 2 ^ 31))) < bound.
Proof.
  destruct stretch_new_ok as (st & E & H). exists st. split; [exact E|]. intros p P bound. exists (lean_stretch p).
  pose proof (scale21 _ _ _ (lean_stretch_accurate p ltac:(pow2; lia))) as A. pose proof (scale21 _ _ _ (lean_stretch_accurate (2 ^ 31 - p) ltac:(pow2; lia))) as B.
  rewrite stretch_odd in B by (pow2; lia). replace (2 ^ 31 - (2 ^ 31 - p))%Z with p in B by lia.
  replace (Z.min p (2 ^ 31 - p)) with p in A by (pow2; lia). replace (Z.min (2 ^ 31 - p) p) with p in B by (pow2; lia).
  rewrite error_units_low in A, B by exact P.
  assert (X : 1 <= IZR (p / 2 ^ 14)) by (apply IZR_le; clear - P; change (2 ^ 14)%Z with 16384%Z in *; lia).
  assert (U : (165 / 100 + 2 ^ 21 / 8 * (/ IZR (p / 2 ^ 14) * / IZR (p / 2 ^ 14))) / 2 ^ 21 < bound).
  { unfold bound. replace (1 / (8 * IZR (p / 2 ^ 14) * IZR (p / 2 ^ 14))) with (/ IZR (p / 2 ^ 14) * / IZR (p / 2 ^ 14) / 8) by (field; lra).
    set (q := / IZR (p / 2 ^ 14) * / IZR (p / 2 ^ 14)). clearbody q. lra. }
  unfold logit, frac in A, B. repeat split.
  - apply stretch_lean; [exact H | clear - P; pow2; lia].
  - eapply Rle_lt_trans; [exact A | exact U].
  - rewrite <- stretch_odd by (clear - P; pow2; lia). apply stretch_lean; [exact H | clear - P; pow2; lia].
  - eapply Rle_lt_trans; [exact B | exact U].
Qed.
(** Below 2^-17 all probabilities have the same stretched value. *)
Lemma stretch_flat_end : exists st s, stretch_new = Ok st /\ stretch st 1 = Ok s /\ IZR s / 2 ^ 21 - ln (1 / 2 ^ 31 / (1 - 1 / 2 ^ 31)) > 9.
Proof.
  destruct stretch_new_ok as (st & E & H). exists st, (lean_stretch 1). split; [exact E|]. split; [apply stretch_lean; [exact H | clear; pow2; lia]|].
  replace (lean_stretch 1) with (-24711779)%Z by (vm_compute; reflexivity).
  replace (1 / 2 ^ 31 / (1 - 1 / 2 ^ 31)) with (1 / 2147483647) by lra. rewrite ln_frac, ln_1 by lra.
  assert (A : ln (2 ^ 30 * (5 / 4)) <= ln 2147483647) by (apply ln_mono; lra).
  rewrite ln_mult in A by lra. assert (B : ln (2 ^ 30) = 30 * ln 2). { rewrite ln_log2R, log2R_pow. replace (INR 30) with 30 by (cbn; lra). reflexivity. }
  rewrite B in A. pose proof (ln_ge_inv (5 / 4) ltac:(lra)). pose proof ln2_value. lra.
Qed.

(** ** squash *)
Definition target (j : Z) : Z := ((j - 1536) * 16384)%Z.
Definition knot_ok (j : Z) : bool := let d := Z.abs (lean_stretch (sq j) - target j) in ((d <=? 50) && (if sq j <? 8388608 then d * (sq j / 16384 + 1) <=? 500 else d <=? 1))%Z.
Lemma knots_sweep : count_ok knot_ok 1509 28 = true.
Proof. vm_cast_no_check (eq_refl true). Qed.
Lemma knot_at j : (28 <= j <= 1536)%Z -> knot_ok j = true.
Proof. intros J. apply (count_ok_at _ _ _ knots_sweep). lia. Qed.

Definition target_s (j : Z) : R := IZR (target j) / 2 ^ 21.
Lemma low_knot j : (28 <= j <= 1536)%Z -> Rabs (frac (sq j) - sigmoid (target_s j)) <= 0.0000022.
Proof.
  intros J. pose proof (knot_at j J) as K. unfold knot_ok in K. cbv zeta in K.
  assert (Q : (16384 <= sq j <= 2 ^ 30)%Z).
  { pose proof (sq_range j ltac:(lia)). pose proof (sq_mono j 1536 ltac:(lia) ltac:(lia)). change (sq 1536) with (2 ^ 30)%Z in *. lia. }
  pose proof (lean_stretch_accurate (sq j) ltac:(pow2; lia)) as A. replace (Z.min (sq j) (2 ^ 31 - sq j)) with (sq j) in A by (pow2; lia).
  unfold target_s. set (T := target j) in *. set (x := sq j) in *. clearbody T x.
  assert (F : 0 < frac x < 1) by (apply frac_inside; pow2; lia).
  rewrite <- (sigmoid_logit (frac x) F) at 1. set (g := logit (frac x)) in *.
  assert (Dv : forall d, (Z.abs (lean_stretch x - T) <= d)%Z -> Rabs (IZR T / 2 ^ 21 - g) <= (IZR d + error_units x) / 2 ^ 21).
  { intros d D. apply Rabs_le_inv in A. assert (- IZR d <= IZR (lean_stretch x) - IZR T <= IZR d) by (rewrite <- minus_IZR, <- opp_IZR; split; apply IZR_le; lia).
    apply Rabs_intro. replace (2 ^ 21) with 2097152 in * by lra. lra. }
  destruct (Z.ltb_spec x 8388608) as [L|L].
  - set (dz := Z.abs (lean_stretch x - T)) in *. assert (DZ : (0 <= dz <= 50)%Z) by (clear - K; unfold dz in *; lia). pose proof (Dv dz ltac:(apply Z.le_refl)) as B. rewrite error_units_low in B by (pow2; lia). change (2 ^ 14)%Z with 16384%Z in B.
    set (c := (x / 16384)%Z) in *. assert (C : (1 <= c <= 511)%Z) by (unfold c; lia). assert (XC : (x <= (c + 1) * 16384)%Z) by (unfold c; lia).
    assert (DK : IZR dz * (IZR c + 1) <= 500) by (rewrite <- plus_IZR, <- mult_IZR; apply IZR_le; clear - K; lia). assert (DR : 0 <= IZR dz <= 50) by (split; apply IZR_le; lia).
    assert (C1 : 1 <= IZR c <= 511) by (split; apply IZR_le; lia). assert (XR : IZR x <= (IZR c + 1) * 16384) by (rewrite <- plus_IZR, <- mult_IZR; apply IZR_le; lia). clearbody c dz.
    set (dr := IZR dz) in *. clearbody dr. set (cr := IZR c) in *. clearbody cr.
    assert (I1 : 0 < / cr <= 1) by (split; [apply Rinv_0_lt_compat; lra | rewrite <- Rinv_1; apply Rinv_le_contravar; lra]).
    assert (I2 : cr * / cr = 1) by (apply Rinv_r; lra). set (i := / cr) in *. clearbody i.
    assert (II : 0 <= i * i <= 1) by (split; [apply Rle_0_sqr | rewrite <- (Rmult_1_l 1); apply Rmult_le_compat; lra]).
    set (d := (dr + (165 / 100 + 2 ^ 21 / 8 * (i * i))) / 2 ^ 21) in *.
    assert (DE : d = (dr + 1.65) / 2097152 + i * i / 8) by (unfold d; lra). clearbody d.
    assert (D : 0 <= d <= 0.1251) by lra.
    pose proof (sigmoid_small (IZR T / 2 ^ 21) g d ltac:(lra) B) as S. rewrite Rabs_minus_sym. eapply Rle_trans; [exact S|].
    unfold g. rewrite sigmoid_logit by exact F. assert (IV : / (1 - d) <= 1.143). { apply Rmult_le_reg_r with (1 - d); [lra|]. rewrite Rinv_l by lra. lra. }
    assert (IV0 : 0 < / (1 - d)) by (apply Rinv_0_lt_compat; lra).
    assert (FX : frac x <= (cr + 1) * 16384 / 2147483648) by (unfold frac; rewrite p31_lit; lra).
    assert (DX : d * frac x <= d * ((cr + 1) * 16384 / 2147483648)) by (apply Rmult_le_compat_l; lra).
    assert (CI : (cr + 1) * (i * i) <= 2).
    { replace ((cr + 1) * (i * i)) with ((cr * i) * i + i * i) by ring. rewrite I2. lra. }
    assert (DC : d * (cr + 1) <= 0.25065) by (rewrite DE; replace (((dr + 1.65) / 2097152 + i * i / 8) * (cr + 1)) with ((dr * (cr + 1) + 1.65 * (cr + 1)) / 2097152 + (cr + 1) * (i * i) / 8) by field; lra).
    assert (DX2 : 0 <= d * frac x <= 0.0000019124) by (split; [apply Rmult_le_pos; lra|]; replace (d * ((cr + 1) * 16384 / 2147483648)) with (d * (cr + 1) * (16384 / 2147483648)) in DX by field; lra).
    replace (d * (frac x * / (1 - d))) with (d * frac x * / (1 - d)) by ring.
    apply Rle_trans with (0.0000019124 * 1.143); [apply Rmult_le_compat; lra | lra].
  - pose proof (Dv 1%Z ltac:(lia)) as B. rewrite error_units_high in B by (pow2; lia).
    pose proof (sigmoid_quarter g (IZR T / 2 ^ 21)) as S. rewrite (Rabs_minus_sym g) in S. lra.
Qed.
(** The first entries are all 2^-17. *)
Lemma first_sweep : count_ok (fun j => sq j =? 16384)%Z 28 0 = true. Proof. vm_cast_no_check (eq_refl true). Qed.
Lemma first_knot j : (0 <= j <= 27)%Z -> Rabs (frac (sq j) - sigmoid (target_s j)) <= 0.0000022.
Proof.
  intros J. pose proof (count_ok_at _ _ _ first_sweep j ltac:(lia)) as E. apply Z.eqb_eq in E. rewrite E.
  assert (F : 0 < frac 16384 < 1) by (apply frac_inside; pow2; lia).
  pose proof (lean_stretch_accurate 16384 ltac:(pow2; lia)) as A. replace (Z.min 16384 (2 ^ 31 - 16384)) with 16384%Z in A by reflexivity.
  replace (lean_stretch 16384) with (-24711779)%Z in A by (vm_compute; reflexivity). pose proof (mag_accurate 1 ltac:(lia)) as M. change (cell_start 1) with 16384%Z in M. change (mag 1) with 24711779%Z in M. clear A.
  apply Rabs_le_inv in M. set (g := logit (frac 16384)) in *.
  assert (S : sigmoid g = frac 16384) by (apply sigmoid_logit; exact F).
  assert (T : -12 <= target_s j <= - (11.789)). { unfold target_s, target. split; [apply Rmult_le_reg_r with (2 ^ 21); [lra|]|apply Rmult_le_reg_r with (2 ^ 21); [lra|]]; unfold Rdiv; rewrite Rmult_assoc, Rinv_l by lra; rewrite Rmult_1_r; [replace (-12 * 2 ^ 21) with (IZR (-12 * 2 ^ 21)%Z) by (rewrite mult_IZR; lra); apply IZR_le; pow2; lia|].
    apply Rle_trans with (IZR (-24723456)); [apply IZR_le; lia | lra]. }
  assert (G : - 11.7836 <= g <= -11.7834) by lra.
  set (s := target_s j) in *. clearbody s.
  pose proof (sigmoid_mono s g ltac:(lra)) as U. rewrite S in U.
  pose proof (sigmoid_scaled s (g - s) ltac:(lra)) as W. replace (s + (g - s)) with g in W by ring. rewrite S in W.
  destruct (exp_small (g - s) ltac:(lra)) as (X1 & _).
  assert (P : 0 < exp (g - s)) by apply exp_pos. rewrite exp_Ropp in X1.
  assert (Y : frac 16384 * / exp (g - s) <= sigmoid s).
  { apply Rmult_le_reg_l with (exp (g - s)); [exact P|]. replace (exp (g - s) * (frac 16384 * / exp (g - s))) with (frac 16384 * (exp (g - s) * / exp (g - s))) by ring. rewrite Rinv_r by lra. lra. }
  assert (Z : frac 16384 * (1 - (g - s)) <= frac 16384 * / exp (g - s)) by (apply Rmult_le_compat_l; lra).
  assert (FV : frac 16384 = 16384 / 2147483648) by (unfold frac; now rewrite p31_lit).
  assert (Q : frac 16384 * (1 - 0.2166) <= frac 16384 * (1 - (g - s))) by (apply Rmult_le_compat_l; lra).
  rewrite Rabs_right by lra. rewrite FV in *. lra.
Qed.
Lemma knot_accurate j : (0 <= j <= 3072)%Z -> Rabs (frac (sq j) - sigmoid (target_s j)) <= 0.0000022.
Proof.
  assert (L : forall i, (0 <= i <= 1536)%Z -> Rabs (frac (sq i) - sigmoid (target_s i)) <= 0.0000022).
  { intros i I. destruct (Z.le_gt_cases i 27); [apply first_knot | apply low_knot]; lia. }
  intros J. destruct (Z.le_gt_cases j 1536) as [H|H]; [apply L; lia|].
  pose proof (L (3072 - j)%Z ltac:(lia)) as A. rewrite sq_mirror in A by lia. rewrite frac_flip in A.
  replace (target_s (3072 - j)) with (- target_s j) in A by (unfold target_s, target; replace ((3072 - j - 1536) * 16384)%Z with (- ((j - 1536) * 16384))%Z by lia; rewrite opp_IZR; field).
  rewrite sigmoid_opp in A. rewrite <- Rabs_Ropp. replace (- (frac (sq j) - sigmoid (target_s j))) with (1 - frac (sq j) - (1 - sigmoid (target_s j))) by ring. exact A.
Qed.
Lemma lean_squash_accurate s : (- (12 * 2 ^ 21) <= s <= 12 * 2 ^ 21)%Z -> Rabs (frac (lean_squash s) - sigmoid (IZR s / 2 ^ 21)) < 0.000003.
Proof.
  intros S. destruct (squash_cell s S) as (j & w & E & W & J & JW & _). rewrite E, lean_squash_value by assumption.
  destruct (Z.eq_dec w 0) as [->|N].
  - rewrite squash_value_0, Z.add_0_r. pose proof (knot_accurate j J) as K. unfold target_s, target in K. lra.
  - assert (J2 : (j < 3072)%Z) by (destruct (Z.eq_dec j 3072); [exfalso; apply N, JW; assumption | lia]).
    pose proof (knot_accurate j J) as A. pose proof (knot_accurate (j + 1) ltac:(lia)) as B. unfold squash_value.
    pose proof (interp_near (sq (j + 1)) (sq j) 14 w ltac:(lia)) as I. change (2 ^ 14)%Z with 16384%Z in I.
    set (l := sq j) in *. set (m := sq (j + 1)) in *. set (r1 := rhu (m * w) 14) in *. set (r0 := rhu (l * w) 14) in *. clearbody l m r1 r0.
    replace (l - r0 + r1)%Z with (l + (r1 - r0))%Z by lia. set (r := (r1 - r0)%Z) in *. clearbody r. clear r1 r0.
    assert (IR : - 16384 <= IZR r * 16384 - (IZR m - IZR l) * IZR w <= 16384) by (rewrite <- minus_IZR, <- !mult_IZR, <- minus_IZR; split; apply IZR_le; lia).
    set (t := IZR w / 16384). assert (T : 0 <= t <= 1) by (assert (0 <= IZR w <= 16384) by (split; apply IZR_le; lia); unfold t; lra).
    assert (TW : IZR w = t * 16384) by (unfold t; field).
    set (a := target_s j) in *. set (b := target_s (j + 1)) in *.
    assert (AB : b = a + 1 / 128). { unfold a, b, target_s, target. replace ((j + 1 - 1536) * 16384)%Z with ((j - 1536) * 16384 + 16384)%Z by lia. rewrite plus_IZR. lra. }
    pose proof (sigmoid_chord a b t ltac:(lra) T) as CH.
    replace (IZR ((j - 1536) * 16384 + w) / 2 ^ 21) with (a + t * (b - a)) by (rewrite AB; unfold a, target_s, target; rewrite plus_IZR, TW; field).
    set (ga := sigmoid a) in *. set (gb := sigmoid b) in *. set (gz := sigmoid (a + t * (b - a))) in *. clearbody ga gb gz. replace (b - a) with (1 / 128) in CH by lra.
    unfold frac in *. rewrite p31_lit in *. rewrite plus_IZR. set (lr := IZR l) in *. set (mr := IZR m) in *. set (rr := IZR r) in *. clearbody lr mr rr. rewrite TW in IR. clearbody t.
    apply Rabs_le_inv in A. apply Rabs_le_inv in B. apply Rabs_le_inv in CH.
    assert (IR2 : - 1 <= rr - (mr - lr) * t <= 1) by lra.
    assert (A2 : - ((1 - t) * 0.0000022) <= (1 - t) * (lr / 2147483648 - ga) <= (1 - t) * 0.0000022).
    { split; [replace (- ((1 - t) * 0.0000022)) with ((1 - t) * - 0.0000022) by lra|]; apply Rmult_le_compat_l; lra. }
    assert (B2 : - (t * 0.0000022) <= t * (mr / 2147483648 - gb) <= t * 0.0000022).
    { split; [replace (- (t * 0.0000022)) with (t * - 0.0000022) by lra|]; apply Rmult_le_compat_l; lra. }
    replace ((lr + rr) / 2147483648 - gz) with ((rr - (mr - lr) * t) / 2147483648 + ((1 - t) * (lr / 2147483648 - ga) + t * (mr / 2147483648 - gb)) + ((1 - t) * ga + t * gb - gz)) by field.
    apply Rabs_def1; lra.
Qed.
Lemma squash_accurate : exists st sq, stretch_new = Ok st /\ squash_new st = Ok sq /\ forall s, (- (12 * 2 ^ 21) <= s <= 12 * 2 ^ 21)%Z ->
  exists p, squash sq s = Ok p /\ Rabs (IZR p / 2 ^ 31 - 1 / (1 + exp (- (IZR s / 2 ^ 21)))) < 0.000003.
Proof.
  destruct tables_ok as (st & sq & E & E' & _ & H). exists st, sq. split; [exact E|]. split; [exact E'|]. intros s S.
  exists (lean_squash s). split; [now apply squash_lean | now apply lean_squash_accurate].
Qed.
(** The entries of the stretch table, which the constructor compares with the logarithm. *)
Lemma entries_accurate : exists st, stretch_new = Ok st /\ forall level index, (0 <= level <= 7)%Z -> (0 <= index <= 511)%Z -> (level = 7 -> 1 <= index)%Z ->
  let p := IZR (if (level =? 7)%Z then index * 2 ^ 14 else 2 ^ (29 - level) + index * 2 ^ (20 - level)) / 2 ^ 31 in
  exists e, get2 st level index = Ok e /\ Rabs (IZR e / 2 ^ 21 - ln (p / (1 - p))) < 0.0000004.
Proof.
  destruct stretch_new_ok as (st & E & H). exists st. split; [exact E|]. clear E. intros level index L I L7. cbv zeta.
  set (c := ((7 - level) * 512 + index)%Z). assert (C : (1 <= c <= 4095)%Z) by (unfold c; clear - L I L7; lia).
  exists (- mag c)%Z. split; [apply H; [exact L | clear - I; lia | exact (proj1 C)]|]. clear H.
  pose proof (mag_accurate c ltac:(clear - C; lia)) as M. unfold logit in M.
  replace (if (level =? 7)%Z then (index * 2 ^ 14)%Z else (2 ^ (29 - level) + index * 2 ^ (20 - level))%Z) with (cell_start c).
  - fold (frac (cell_start c)). set (g := ln (frac (cell_start c) / (1 - frac (cell_start c)))) in *. clearbody g. apply Rabs_le_inv in M. rewrite opp_IZR.
    replace (2 ^ 21) with 2097152 in * by lra. apply Rabs_def1; lra.
  - clear M. unfold c. destruct (Z.eqb_spec level 7) as [->|N].
    + unfold cell_start. destruct (Z.ltb_spec ((7 - 7) * 512 + index) 512); lia.
    + rewrite cell_start_high by (clear - L I N; lia). replace (((7 - level) * 512 + index) mod 512)%Z with index by (clear - L I N; lia).
      replace (((7 - level) * 512 + index) / 512)%Z with (7 - level)%Z by (clear - L I N; lia).
      replace (13 + (7 - level))%Z with (20 - level)%Z by lia. replace (29 - level)%Z with (9 + (20 - level))%Z by lia. rewrite Z.pow_add_r by lia. change (2 ^ 9)%Z with 512%Z. set (q := (2 ^ (20 - level))%Z). clearbody q. lia.
Qed.
Lemma table_values : exists st sq, stretch_new = Ok st /\ squash_new st = Ok sq /\ stretch st (2 ^ 29) = Ok (-2303957)%Z /\ squash sq (2 ^ 21) = Ok 1569936383%Z.
Proof.
  destruct tables_ok as (st & sq & E & E' & H & H'). exists st, sq. apply (conj E). apply (conj E'). clear E E'.
  rewrite (stretch_lean st _ H) by lia. rewrite (squash_lean sq _ H') by lia. split; vm_compute; reflexivity.
Qed.
