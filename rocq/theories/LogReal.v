(** Accuracy of the logarithm table with respect to the real logarithm. *)
From Coq Require Import Reals Lra.
From Verif Require Import Base BaseFacts FixedModel FixedProofs LogModel LogProofs LogSpec.
Open Scope R_scope.

Lemma ln_le_sub1 x : 0 < x -> ln x <= x - 1.
Proof. intros X. pose proof (exp_ineq1_le (ln x)) as H. rewrite exp_ln in H by exact X. lra. Qed.
Lemma ln_ge_inv x : 0 < x -> 1 - / x <= ln x.
Proof.
  intros X. pose proof (ln_le_sub1 (/ x) (Rinv_0_lt_compat _ X)) as H. rewrite ln_Rinv in H by exact X. lra.
Qed.
Lemma ln_mono x y : 0 < x -> x <= y -> ln x <= ln y.
Proof. intros X [L|<-]; [left; now apply ln_increasing | right; reflexivity]. Qed.

(** ln 2 from below by the product of (k+1)/k, k = 16..31. *)
Lemma ln_step k : 0 < k -> ln (k + 1) >= ln k + / (k + 1).
Proof.
  intros K. pose proof (ln_ge_inv ((k + 1) / k)) as H.
  assert (P : 0 < (k + 1) / k) by (apply Rdiv_lt_0_compat; lra). specialize (H P).
  unfold Rdiv in H. rewrite ln_mult in H; [|lra | now apply Rinv_0_lt_compat]. rewrite ln_Rinv in H by exact K.
  rewrite Rinv_mult, Rinv_inv in H.
  assert (E : 1 - / (k + 1) * k = / (k + 1)) by (field; lra). rewrite E in H. lra.
Qed.
Lemma ln2_lower : 67 / 100 < ln 2.
Proof.
  assert (H : ln 32 = ln 16 + ln 2) by (rewrite <- ln_mult by lra; f_equal; lra).
  pose proof (ln_step 16 ltac:(lra)). pose proof (ln_step 17 ltac:(lra)). pose proof (ln_step 18 ltac:(lra)).
  pose proof (ln_step 19 ltac:(lra)). pose proof (ln_step 20 ltac:(lra)). pose proof (ln_step 21 ltac:(lra)).
  pose proof (ln_step 22 ltac:(lra)). pose proof (ln_step 23 ltac:(lra)). pose proof (ln_step 24 ltac:(lra)).
  pose proof (ln_step 25 ltac:(lra)). pose proof (ln_step 26 ltac:(lra)). pose proof (ln_step 27 ltac:(lra)).
  pose proof (ln_step 28 ltac:(lra)). pose proof (ln_step 29 ltac:(lra)). pose proof (ln_step 30 ltac:(lra)).
  pose proof (ln_step 31 ltac:(lra)).
  replace (16 + 1) with 17 in * by lra. replace (17 + 1) with 18 in * by lra. replace (18 + 1) with 19 in * by lra.
  replace (19 + 1) with 20 in * by lra. replace (20 + 1) with 21 in * by lra. replace (21 + 1) with 22 in * by lra.
  replace (22 + 1) with 23 in * by lra. replace (23 + 1) with 24 in * by lra. replace (24 + 1) with 25 in * by lra.
  replace (25 + 1) with 26 in * by lra. replace (26 + 1) with 27 in * by lra. replace (27 + 1) with 28 in * by lra.
  replace (28 + 1) with 29 in * by lra. replace (29 + 1) with 30 in * by lra. replace (30 + 1) with 31 in * by lra.
  replace (31 + 1) with 32 in * by lra. lra.
Qed.

Lemma log2R_mult x y : 0 < x -> 0 < y -> log2R (x * y) = log2R x + log2R y.
Proof. intros X Y. unfold log2R. rewrite ln_mult by assumption. field. pose proof ln2_lower. lra. Qed.
Lemma log2R_2 : log2R 2 = 1.
Proof. unfold log2R. field. pose proof ln2_lower. lra. Qed.
Lemma log2R_1 : log2R 1 = 0.
Proof. unfold log2R. rewrite ln_1. unfold Rdiv. ring. Qed.
Lemma log2R_div x y : 0 < x -> 0 < y -> log2R (x / y) = log2R x - log2R y.
Proof.
  intros X Y. unfold log2R, Rdiv. rewrite ln_mult; [|assumption | now apply Rinv_0_lt_compat].
  rewrite ln_Rinv by assumption. ring.
Qed.
Lemma log2R_pow n : log2R (2 ^ n) = INR n.
Proof.
  induction n as [|n IH]; [exact log2R_1|]. cbn [pow]. rewrite log2R_mult, IH, log2R_2, S_INR; [ring | lra | apply pow_lt; lra].
Qed.
Lemma log2R_IZR_pow k : (0 <= k)%Z -> log2R (IZR (2 ^ k)) = IZR k.
Proof.
  intros K. rewrite <- (Z2Nat.id k K). rewrite <- pow_IZR, log2R_pow. now rewrite INR_IZR_INZ.
Qed.
Lemma log2R_mono x y : 0 < x -> x <= y -> log2R x <= log2R y.
Proof.
  intros X L. unfold log2R, Rdiv. apply Rmult_le_compat_r; [|now apply ln_mono].
  left. apply Rinv_0_lt_compat. pose proof ln2_lower. lra.
Qed.
Lemma log2R_le x : 0 < x -> log2R x <= (x - 1) / (67 / 100) \/ x < 1.
Proof.
  intros X. destruct (Rlt_or_le x 1) as [L|L]; [now right|left].
  pose proof (ln_le_sub1 x X). pose proof ln2_lower. unfold log2R, Rdiv.
  apply Rle_trans with ((x - 1) * / ln 2).
  - apply Rmult_le_compat_r; [left; apply Rinv_0_lt_compat; lra | assumption].
  - apply Rmult_le_compat_l; [lra|]. apply Rinv_le_contravar; lra.
Qed.
(** |log2 (1 + d)| <= 2 |d| for small d. *)
Lemma log2R_near d : - (1/8) <= d <= 1/8 -> Rabs (log2R (1 + d)) <= 2 * Rabs d.
Proof.
  intros D. pose proof ln2_lower as L2. unfold log2R.
  assert (U : ln (1 + d) <= d) by (pose proof (ln_le_sub1 (1 + d) ltac:(lra)); lra).
  assert (Lo : - (8/7 * Rabs d) <= ln (1 + d)).
  { pose proof (ln_ge_inv (1 + d) ltac:(lra)) as G.
    assert (E : 1 - / (1 + d) = d * / (1 + d)) by (field; lra). rewrite E in G.
    eapply Rle_trans; [|exact G].
    assert (I : 0 < / (1 + d) <= 8/7).
    { split; [apply Rinv_0_lt_compat; lra|]. replace (8/7) with (/ (7/8)) by lra. apply Rinv_le_contravar; lra. }
    unfold Rabs. destruct (Rcase_abs d); nra. }
  assert (I2 : 0 < / ln 2 <= 3/2).
  { split; [apply Rinv_0_lt_compat; lra|]. replace (3/2) with (/ (2/3)) by lra. apply Rinv_le_contravar; lra. }
  unfold Rdiv. rewrite Rabs_mult, (Rabs_right (/ ln 2)) by lra.
  assert (A : Rabs (ln (1 + d)) <= 8/7 * Rabs d).
  { apply Rabs_le. split; [lra|]. pose proof (RRle_abs d). pose proof (Rabs_pos d). lra. }
  pose proof (Rabs_pos (ln (1 + d))). pose proof (Rabs_pos d). nra.
Qed.

Lemma Rabs_le_inv x b : Rabs x <= b -> - b <= x <= b.
Proof. unfold Rabs. destruct (Rcase_abs x); lra. Qed.
Lemma p30 : IZR (2 ^ 30) = 2 ^ 30. Proof. exact (eq_sym (pow_IZR 2 30)). Qed.
Lemma p31 : IZR (2 ^ 31) = 2 ^ 31. Proof. exact (eq_sym (pow_IZR 2 31)). Qed.
Lemma p60 : IZR (2 ^ 60) = 2 ^ 60. Proof. exact (eq_sym (pow_IZR 2 60)). Qed.

(** One round of the loop, in real terms. *)
Lemma round_error a : (2 ^ 30 <= a < 2 ^ 31)%Z ->
  let q := ((a * a + 2 ^ 30) / 2 ^ 31)%Z in
  Rabs (log2R (IZR q) + 31 - 2 * log2R (IZR a)) <= / 2 ^ 29.
Proof.
  intros A q. pose proof (square_range a A) as Q. fold q in Q.
  assert (D : (2 * Z.abs (q * 2 ^ 31 - a * a) <= 2 ^ 31)%Z).
  { clear Q. unfold q. generalize (a * a)%Z. intros m. pow2. lia. }
  assert (AA : (2 ^ 60 <= a * a)%Z) by (change (2 ^ 60)%Z with (2 ^ 30 * 2 ^ 30)%Z; clear - A; pow2; nia).
  assert (Aa : 0 < IZR a) by (apply IZR_lt; clear - A; pow2; lia).
  assert (Qa : 0 < IZR q) by (apply IZR_lt; clear - Q; change (2 ^ 29)%Z with 536870912%Z in Q; lia).
  set (d := (IZR q * 2 ^ 31 - IZR a * IZR a) / (IZR a * IZR a)).
  assert (P2 : 0 < IZR a * IZR a) by (apply Rmult_lt_0_compat; assumption).
  assert (E : IZR q * 2 ^ 31 = (IZR a * IZR a) * (1 + d)) by (unfold d; field; lra).
  assert (DB : Rabs d <= / 2 ^ 30).
  { unfold d, Rdiv. rewrite Rabs_mult, (Rabs_right (/ (IZR a * IZR a))) by (apply Rle_ge; left; now apply Rinv_0_lt_compat).
    assert (N : Rabs (IZR q * 2 ^ 31 - IZR a * IZR a) <= 2 ^ 30).
    { replace (IZR q * 2 ^ 31 - IZR a * IZR a) with (IZR (q * 2 ^ 31 - a * a)) by (rewrite minus_IZR, !mult_IZR, p31; reflexivity).
      rewrite <- abs_IZR. rewrite <- p30.
      apply IZR_le. clear - D. pow2. lia. }
    assert (M : / (IZR a * IZR a) <= / 2 ^ 60).
    { apply Rinv_le_contravar; [apply pow_lt; lra|]. rewrite <- p60.
      rewrite <- mult_IZR. apply IZR_le. exact AA. }
    apply Rle_trans with (2 ^ 30 * / 2 ^ 60); [|right; field].
    apply Rmult_le_compat; [apply Rabs_pos | left; now apply Rinv_0_lt_compat | exact N | exact M]. }
  assert (DS : - (1/8) <= d <= 1/8).
  { assert (/ 2 ^ 30 <= 1/8). { replace (1/8) with (/ 8) by lra. apply Rinv_le_contravar; lra. }
    apply Rabs_le_inv. lra. }
  assert (L : log2R (IZR q) + 31 = 2 * log2R (IZR a) + log2R (1 + d)).
  { assert (LL : log2R (IZR q * 2 ^ 31) = log2R (IZR a * IZR a * (1 + d))) by (now rewrite E).
    rewrite (log2R_mult (IZR q) (2 ^ 31)) in LL by (lra || apply pow_lt; lra).
    rewrite (log2R_mult (IZR a * IZR a)), (log2R_mult (IZR a)) in LL by lra.
    rewrite log2R_pow, INR_IZR_INZ in LL. change (IZR (Z.of_nat 31)) with 31 in LL. lra. }
  rewrite L. replace (2 * log2R (IZR a) + log2R (1 + d) - 2 * log2R (IZR a)) with (log2R (1 + d)) by ring.
  eapply Rle_trans; [apply log2R_near; exact DS|].
  replace (/ 2 ^ 29) with (2 * / 2 ^ 30) by field. lra.
Qed.

(** The loop: 2^n (log2 a - 30) = l' - 2^n l + (log2 a' - 30) up to (2^n - 1) / 2^29. *)
Lemma loop_error n : forall a l, (2 ^ 30 <= a < 2 ^ 31)%Z ->
  IZR (lean_loop n a l) - (2 ^ n - 1) * / 2 ^ 29 <=
  2 ^ n * (IZR l + (log2R (IZR a) - 30)) <=
  IZR (lean_loop n a l) + 1 + (2 ^ n - 1) * / 2 ^ 29.
Proof.
  induction n as [|n IH]; intros a l A.
  - cbn [lean_loop pow].
    assert (B : 30 <= log2R (IZR a) <= 31).
    { assert (H30 : log2R (IZR (2 ^ 30)) = 30) by (rewrite log2R_IZR_pow by lia; reflexivity).
      assert (H31 : log2R (IZR (2 ^ 31)) = 31) by (rewrite log2R_IZR_pow by lia; reflexivity).
      rewrite <- H30 at 1. rewrite <- H31. split; apply log2R_mono; try (apply IZR_le; lia); apply IZR_lt; clear - A; pow2; lia. }
    lra.
  - pose proof (square_range a A) as Q. pose proof (round_error a A) as R. cbv zeta in R.
    cbn [lean_loop]. rewrite Z.square_spec, Z.shiftr_div_pow2 by lia. change 1073741824%Z with (2 ^ 30)%Z.
    set (q := ((a * a + 2 ^ 30) / 2 ^ 31)%Z) in *. clearbody q.
    apply Rabs_le_inv in R.
    assert (P : 0 < 2 ^ n) by (apply pow_lt; lra).
    assert (T : 0 < / 2 ^ 29) by (apply Rinv_0_lt_compat, pow_lt; lra).
    set (eps := / 2 ^ 29) in *. clearbody eps.
    set (p := 2 ^ n) in *. change (2 ^ S n) with (2 * p). 
    assert (G : forall l' v, IZR (lean_loop n v l') - (p - 1) * eps <= p * (IZR l' + (log2R (IZR v) - 30)) <= IZR (lean_loop n v l') + 1 + (p - 1) * eps ->
      - eps <= IZR l' + log2R (IZR v) - 30 - 2 * (IZR l + (log2R (IZR a) - 30)) <= eps ->
      IZR (lean_loop n v l') - (2 * p - 1) * eps <= 2 * p * (IZR l + (log2R (IZR a) - 30)) <= IZR (lean_loop n v l') + 1 + (2 * p - 1) * eps).
    { intros l' v. generalize (IZR (lean_loop n v l')) (log2R (IZR v)) (IZR l') (IZR l + (log2R (IZR a) - 30)).
      intros x y z w (H1 & H2) (H3 & H4).
      assert (p * (- eps) <= p * (z + y - 30 - 2 * w) <= p * eps) by (split; apply Rmult_le_compat_l; lra).
      split; lra. }
    destruct (Z.ltb_spec q (2 ^ 30)) as [S|S].
    + assert (Q2 : (2 ^ 30 <= 2 * q < 2 ^ 31)%Z) by (clear - Q S; change (2 ^ 29)%Z with 536870912%Z in *; pow2; lia).
      apply (G (2 * l)%Z (2 * q)%Z); [apply IH; exact Q2|].
      rewrite !mult_IZR, log2R_mult, log2R_2; [lra | lra | apply IZR_lt; clear - Q; change (2 ^ 29)%Z with 536870912%Z in *; lia].
    + apply (G (2 * l + 1)%Z q); [apply IH; lia|]. rewrite plus_IZR, mult_IZR. lra.
Qed.

Lemma one_plus_log2_accurate x : (2 ^ 30 <= x < 2 ^ 31)%Z ->
  exists l, one_plus_log2_restricted x = Ok l /\
    - 5 < IZR l - 2 ^ 31 * (1 + log2R (IZR x / 2 ^ 31)) < 4.
Proof.
  intros X. destruct (one_plus_log2_lean x X) as (E & B). exists (lean_loop 31 x 0). split; [exact E|].
  pose proof (loop_error 31 x 0 X) as H. clear E. revert B H. generalize (lean_loop 31 x 0). intros l B H.
  rewrite log2R_div, log2R_pow; [| apply IZR_lt; clear - X; pow2; lia | apply pow_lt; lra].
  replace (INR 31) with 31 by (cbn; lra). set (y := log2R (IZR x)) in *. clearbody y.
  assert (C : (2 ^ 31 - 1) * / 2 ^ 29 < 4).
  { apply Rmult_lt_reg_r with (2 ^ 29); [apply pow_lt; lra|]. rewrite Rmult_assoc, Rinv_l by (apply pow_nonzero; lra).
    change (2 ^ 31) with (2 * (2 * 2 ^ 29)). set (z := 2 ^ 29). lra. }
  set (z := 2 ^ 31) in *. split; lra.
Qed.

(** Table entries are within 0.501 of 2048 log2 (t / 2048). *)
Lemma lean_entry_accurate t : (2048 <= t < 4096)%Z ->
  - (501 / 1000) < IZR (lean_entry t) - 2048 * log2R (IZR t / 2048) < 501 / 1000.
Proof.
  intros T. assert (X : (2 ^ 30 <= t * 524288 < 2 ^ 31)%Z) by (pow2; lia).
  destruct (one_plus_log2_accurate _ X) as (l & E & H).
  destruct (one_plus_log2_lean _ X) as (E2 & B). rewrite E in E2.
  pose proof (lean_entry_eq t) as LE.
  revert E2 LE B. generalize (lean_loop 31 (t * 524288) 0). intros l2 E2 LE B. injection E2 as <-.
  rewrite LE. clear E LE.
  assert (Tp : 0 < IZR t) by (apply IZR_lt; lia).
  assert (Eq : 1 + log2R (IZR (t * 524288) / 2 ^ 31) = log2R (IZR t / 2048)).
  { replace (IZR (t * 524288) / 2 ^ 31) with ((IZR t / 2048) / 2) by (rewrite mult_IZR; field).
    rewrite (log2R_div (IZR t / 2048) 2) by lra. rewrite log2R_2. lra. }
  rewrite Eq in H. set (y := log2R (IZR t / 2048)) in *. clearbody y.
  set (e := ((l + 524288) / 1048576)%Z).
  assert (EB : (2 * Z.abs (e * 1048576 - l) <= 1048576)%Z) by (unfold e; clear; lia).
  assert (EB2 : - 524288 <= IZR e * 1048576 - IZR l <= 524288).
  { rewrite <- mult_IZR, <- minus_IZR. split; apply IZR_le; lia. }
  clearbody e. replace (2 ^ 31) with (2048 * 1048576) in H by lra. lra.
Qed.

Lemma log2R_ratio t y : (2048 <= t)%Z -> IZR t / 2048 <= y < (IZR t + 1) / 2048 ->
  0 <= 2048 * (log2R y - log2R (IZR t / 2048)) <= 1493 / 1000.
Proof.
  intros T Y. assert (T0 : 2048 <= IZR t) by (apply IZR_le; exact T).
  assert (P1 : 0 < IZR t / 2048) by lra. split.
  - pose proof (log2R_mono (IZR t / 2048) y P1 ltac:(lra)). lra.
  - rewrite <- log2R_div by lra.
    assert (Q : 1 <= y / (IZR t / 2048) <= 1 + / 2048).
    { split; [apply Rmult_le_reg_r with (IZR t / 2048); [lra|]; unfold Rdiv at 2; rewrite Rmult_assoc, Rinv_l by lra; lra|].
      apply Rmult_le_reg_r with (IZR t / 2048); [lra|]. unfold Rdiv at 1. rewrite Rmult_assoc, Rinv_l by lra. lra. }
    destruct (log2R_le (y / (IZR t / 2048)) ltac:(lra)) as [L|L]; lra.
Qed.

Lemma fix_log2_accurate F lut raw : log_fmt F ->
  (forall t, (2048 <= t < 4096)%Z -> log2_restricted lut t = Ok (lean_entry t)) ->
  (0 < raw <= imax (f_ty F))%Z ->
  exists y, fix_log2 F lut raw = Ok y /\
    - 2 < IZR y - 2048 * log2R (IZR raw / IZR (2 ^ f_frac F)) < 51 / 100.
Proof.
  intros FM H R. exists (lean_entry (top12 raw) + (Z.log2 raw - f_frac F) * 2048)%Z.
  split; [now apply fix_log2_lean|].
  assert (T : (2048 <= top12 raw < 4096)%Z) by (apply top12_range; lia).
  pose proof (lean_entry_accurate _ T) as A.
  pose proof (Z.log2_spec raw ltac:(lia)) as L. pose proof (Z.log2_nonneg raw) as K0.
  assert (PK : (0 < 2 ^ Z.log2 raw)%Z) by (apply pow2_pos; lia).
  assert (TB : (top12 raw * 2 ^ Z.log2 raw <= raw * 2048 < (top12 raw + 1) * 2 ^ Z.log2 raw)%Z).
  { unfold top12. pose proof (div_bounds (raw * 2048) (2 ^ Z.log2 raw) PK). lia. }
  assert (FF : (0 <= f_frac F)%Z) by (destruct FM as (_ & ?); lia).
  pose proof (pow2_pos (f_frac F) FF) as PF.
  assert (Rp : 0 < IZR raw) by (apply IZR_lt; lia).
  rewrite log2R_div by (apply IZR_lt; lia || assumption). rewrite log2R_IZR_pow by exact FF.
  rewrite plus_IZR, mult_IZR, minus_IZR.
  set (t := top12 raw) in *. clearbody t. revert A. generalize (IZR (lean_entry t)). intros e A.
  assert (PKR : 0 < IZR (2 ^ Z.log2 raw)) by (apply IZR_lt; exact PK).
  assert (Yb : IZR t / 2048 <= IZR raw / IZR (2 ^ Z.log2 raw) < (IZR t + 1) / 2048).
  { assert (B1 : IZR t * IZR (2 ^ Z.log2 raw) <= IZR raw * 2048) by (rewrite <- !mult_IZR; apply IZR_le; lia).
    assert (B2 : IZR raw * 2048 < (IZR t + 1) * IZR (2 ^ Z.log2 raw)) by (rewrite <- plus_IZR, <- !mult_IZR; apply IZR_lt; lia).
    set (p := IZR (2 ^ Z.log2 raw)) in *. clearbody p. set (r := IZR raw) in *. clearbody r.
    split.
    - apply Rmult_le_reg_r with p; [exact PKR|]. unfold Rdiv at 2. rewrite Rmult_assoc, Rinv_l by lra. lra.
    - apply Rmult_lt_reg_r with p; [exact PKR|]. unfold Rdiv at 1. rewrite Rmult_assoc, Rinv_l by lra. lra. }
  pose proof (log2R_ratio t _ ltac:(lia) Yb) as RR.
  rewrite log2R_div in RR by assumption. rewrite log2R_IZR_pow in RR by exact K0.
  set (u := log2R (IZR raw)) in *. clearbody u. set (w := log2R (IZR t / 2048)) in *. clearbody w. lra.
Qed.

Lemma log2_accurate : exists lut, log2_new = Ok lut /\ forall F raw, log_fmt F -> (0 < raw <= imax (f_ty F))%Z ->
  exists y, fix_log2 F lut raw = Ok y /\
    - 2 < IZR y - 2048 * log2R (IZR raw / IZR (2 ^ f_frac F)) < 51 / 100.
Proof.
  destruct log2_new_spec as (lut & E & H). exists lut. split; [exact E|].
  intros F raw FM R. now apply fix_log2_accurate.
Qed.
