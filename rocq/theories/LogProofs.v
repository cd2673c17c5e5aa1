(** Integer facts about the logarithm table, final probabilities and cost trackers. *)
From Verif Require Import Base BaseFacts FixedModel FixedSpec FixedProofs UtilProofs EstModel EstSpec EstProofs LogModel LogSpec.

Lemma scaled_down_u32_at x s : 0 <= x < 2 ^ 32 - 2 ^ (s - 1) -> 1 <= s <= 31 ->
  scaled_down u32 x s = Ok ((x + 2 ^ (s - 1)) / 2 ^ s).
Proof.
  intros X S. unfold scaled_down, scaled_down_u. cbn [isigned u32].
  assert (E : negb (s =? 0) = true) by lia. rewrite E. cbn [assert_ guard bind].
  pose proof (pow2_pos (s - 1) ltac:(lia)).
  assert (P31 : 2 ^ (s - 1) <= 2 ^ 30) by (apply Z.pow_le_mono_r; lia).
  rewrite shl_ok by (cbn; lia). cbn [bind].
  rewrite wrap_id; [| cbn; lia | ib; pow2; lia].
  rewrite shr_ok by (cbn; lia). do 2 f_equal.
  unfold sat. ib. pow2. lia.
Qed.
Lemma scaled_down_u64_at x s : 0 <= x < 2 ^ 64 - 2 ^ (s - 1) -> 1 <= s <= 63 ->
  scaled_down u64 x s = Ok ((x + 2 ^ (s - 1)) / 2 ^ s).
Proof.
  intros X S. unfold scaled_down, scaled_down_u. cbn [isigned u64].
  assert (E : negb (s =? 0) = true) by lia. rewrite E. cbn [assert_ guard bind].
  pose proof (pow2_pos (s - 1) ltac:(lia)).
  assert (P31 : 2 ^ (s - 1) <= 2 ^ 62) by (apply Z.pow_le_mono_r; lia).
  rewrite shl_ok by (cbn; lia). cbn [bind].
  rewrite wrap_id; [| cbn; lia | ib; pow2; lia].
  rewrite shr_ok by (cbn; lia). do 2 f_equal.
  unfold sat. ib. pow2. lia.
Qed.

(** Product of two 31-bit fractions. *)
Lemma mul_fract31 a b : 0 <= a < 2 ^ 31 -> 0 <= b <= 2 ^ 31 -> 
  fix_mul u64 fract_only_u32 fract_only_u32 fract_only_u32 a b =
    if (a * b + 2 ^ 30) / 2 ^ 31 <? 2 ^ 31 then Ok ((a * b + 2 ^ 30) / 2 ^ 31) else Fail EAssert.
Proof.
  intros A B. unfold fix_mul.
  assert (P : 0 <= a * b <= 2 ^ 62) by (pow2; nia).
  rewrite mul_ok by (ib; pow2; lia). cbn [bind f_frac fract_only_u32].
  change (add u8 31 31) with (@Ok Z 62). cbn [bind]. change (31 <? 62) with true. cbn [f_frac fract_only_u32].
  rewrite scaled_down_u64_at by (pow2; lia). cbn [bind]. change (62 - 31) with 31. change (31 - 1) with 30.
  set (m := a * b) in *. clearbody m. change (2 ^ 30) with 1073741824 in *. pow2.
  set (q := (m + 1073741824) / 2147483648). assert (Q : 0 <= q <= 2147483648) by lia. clearbody q.
  unfold narrow_to. cbn [ibits f_ty fract_only_u32 u32 u64]. change (32 <? 64) with true. cbv iota.
  rewrite (wrap_id (f_ty fract_only_u32)); [| cbn; lia | cbn [f_ty fract_only_u32]; ib; lia].
  rewrite (wrap_id u64); [| cbn; lia | ib; lia]. rewrite Z.eqb_refl. cbn [assert_ guard bind].
  unfold fix_new. cbn [f_frac f_new f_within fract_only_u32]. cbn [Z.eqb Pos.eqb assert_ guard bind].
  change (2 ^ 31) with 2147483648. unfold assert_, guard.
  destruct (Z.eqb_spec (q / 2147483648) 0), (Z.ltb_spec q 2147483648); try reflexivity; lia.
Qed.

(** ** The squaring loop without machine checks *)
Fixpoint lean_loop (n : nat) (a l : Z) : Z :=
  match n with
  | O => l
  | S m => let a2 := Z.shiftr (Z.square a + 1073741824) 31 in
           if a2 <? 1073741824 then lean_loop m (2 * a2) (2 * l) else lean_loop m a2 (2 * l + 1)
  end.

Lemma square_range a : 2 ^ 30 <= a < 2 ^ 31 -> 2 ^ 29 <= (a * a + 2 ^ 30) / 2 ^ 31 < 2 ^ 31.
Proof.
  intros A. change (2 ^ 29) with 536870912. pow2.
  assert (B : 1073741824 * 1073741824 <= a * a <= 2147483647 * 2147483647) by nia.
  set (m := a * a) in *. clearbody m. lia.
Qed.

Lemma ol2_loop_lean n : forall a l k, 2 ^ 30 <= a < 2 ^ 31 -> 0 <= l < 2 ^ k -> 0 <= k ->
  k + Z.of_nat n <= 31 ->
  exists a', ol2_loop n (a, l) = Ok (a', lean_loop n a l) /\ 0 <= lean_loop n a l < 2 ^ (k + Z.of_nat n).
Proof.
  induction n as [|n IH]; intros a l k A L K N.
  - exists a. cbn [ol2_loop lean_loop]. split; [reflexivity|]. replace (k + Z.of_nat 0) with k by lia. exact L.
  - pose proof (square_range a A) as Q.
    assert (PK : 2 ^ (k + 1) = 2 * 2 ^ k) by (rewrite Z.pow_add_r by lia; lia).
    assert (PB : 2 ^ (k + 1) <= 2 ^ 31) by (apply Z.pow_le_mono_r; lia).
    cbn [ol2_loop lean_loop ol2_round]. rewrite Z.square_spec. rewrite (shl_ok u32 l 1) by (cbn; lia). cbn [bind].
    rewrite (wrap_id u32); [| cbn; lia | ib; change (2 ^ 1) with 2; pow2; lia].
    rewrite mul_fract31 by (pow2; lia). rewrite Z.shiftr_div_pow2 by lia.
    change 1073741824 with (2 ^ 30). change (2 ^ 1) with 2.
    set (q := (a * a + 2 ^ 30) / 2 ^ 31) in *. clearbody q.
    destruct (Z.ltb_spec q (2 ^ 31)); [|lia]. cbn [bind]. rewrite (Z.mul_comm l 2).
    replace (k + Z.of_nat (S n)) with (k + 1 + Z.of_nat n) by lia.
    destruct (Z.ltb_spec q (2 ^ 30)) as [S|S].
    + rewrite mul_ok by (ib; pow2; lia). cbn [bind].
      change (fix_new fract_only_u32 (q * 2) 31) with (fix_new fract_only_u32 (q * 2) (f_frac fract_only_u32)).
      rewrite fix_new_exact by (intros x; reflexivity).
      cbn [f_within fract_only_u32]. pow2.
      assert (W : (q * 2 / 2147483648 =? 0) = true) by lia. rewrite W. cbn [bind].
      replace (q * 2) with (2 * q) by ring. apply (IH (2 * q) (2 * l) (k + 1)); pow2; lia.
    + replace (Z.lor (2 * l) 1) with (2 * l + 1).
      2: { symmetry. apply (lor_disjoint _ _ 1); [lia| |cbn; lia]. change (2 ^ 1) with 2. rewrite Z.mul_comm. apply Z.mod_mul. lia. }
      apply (IH q (2 * l + 1) (k + 1)); lia.
Qed.

Lemma one_plus_log2_lean x : 2 ^ 30 <= x < 2 ^ 31 ->
  one_plus_log2_restricted x = Ok (lean_loop 31 x 0) /\ 0 <= lean_loop 31 x 0 < 2 ^ 31.
Proof.
  intros X. destruct (ol2_loop_lean 31 x 0 0 X) as (a' & E & B); try lia. change (0 + Z.of_nat 31) with 31 in B.
  split; [|exact B]. unfold one_plus_log2_restricted. cbn [f_within fract_only_u32].
  pow2. assert (W : (x / 2147483648 =? 0) = true) by lia. rewrite W. cbn [assert_ guard bind].
  change (fix_new fract_only_u32 1073741824 31) with (@Ok Z 1073741824). cbn [bind].
  unfold fix_trunc. cbn [f_ty f_frac fract_only_u32]. rewrite shr_ok by (cbn; lia). cbn [bind].
  change (2 ^ 31) with 2147483648. rewrite W. cbn [assert_ guard bind].
  assert (W2 : (1073741824 <=? x) = true) by lia. rewrite W2. cbn [assert_ guard bind].
  rewrite E. cbn [bind]. set (l := lean_loop 31 x 0) in *. clearbody l.
  change (fix_new fract_only_u32 l 31) with (fix_new fract_only_u32 l (f_frac fract_only_u32)).
  rewrite fix_new_exact by (intros ?; reflexivity). cbn [f_within fract_only_u32]. change (2 ^ 31) with 2147483648.
  assert (W3 : (l / 2147483648 =? 0) = true) by lia. now rewrite W3.
Qed.

(** ** The table *)
Definition lean_entry (t : Z) : Z := Z.shiftr (lean_loop 31 (t * 524288) 0 + 524288) 20.

(** All 2048 values, checked at once: non-decreasing, within 0..176 above the index, below 2048. *)
Fixpoint table_check (prev t : Z) (n : nat) : bool :=
  match n with
  | O => true
  | S m => let e := lean_entry t in
           (prev <=? e) && (t - 2048 <=? e) && (e <=? t - 2048 + 176) && (e <=? 2047) && table_check e (t + 1) m
  end.
Lemma table_sweep : table_check 0 2048 (Z.to_nat 2048) = true.
Proof. vm_cast_no_check (eq_refl true). Qed.

Lemma table_check_at n : forall prev t, table_check prev t n = true ->
  (forall i, t <= i < t + Z.of_nat n -> prev <= lean_entry i /\ i - 2048 <= lean_entry i <= i - 2048 + 176 /\ lean_entry i <= 2047) /\
  (forall i j, t <= i <= j -> j < t + Z.of_nat n -> lean_entry i <= lean_entry j).
Proof.
  induction n as [|n IH]; intros prev t H; [split; intros; lia|].
  cbn [table_check] in H. cbv zeta in H. set (e := lean_entry t) in *.
  assert (Ee : lean_entry t = e) by reflexivity. clearbody e.
  apply andb_prop in H. destruct H as (H & H2).
  assert (H1 : prev <= e /\ t - 2048 <= e <= t - 2048 + 176 /\ e <= 2047) by lia. clear H.
  destruct (IH e (t + 1) H2) as (A & B). split.
  - intros i I. destruct (Z.eq_dec i t) as [->|NE]; [rewrite Ee; lia|]. specialize (A i ltac:(lia)). lia.
  - intros i j I J. destruct (Z.eq_dec i t) as [->|NE].
    + destruct (Z.eq_dec j t) as [->|NJ]; [lia|]. rewrite Ee. apply A. lia.
    + apply B; lia.
Qed.

Lemma lean_entry_range t : 2048 <= t < 4096 ->
  t - 2048 <= lean_entry t <= t - 2048 + 176 /\ 0 <= lean_entry t <= 2047.
Proof. intros T. destruct (table_check_at _ _ _ table_sweep) as (A & _). specialize (A t ltac:(lia)). lia. Qed.
Lemma lean_entry_mono s t : 2048 <= s <= t -> t < 4096 -> lean_entry s <= lean_entry t.
Proof. intros S T. destruct (table_check_at _ _ _ table_sweep) as (_ & B). apply B; lia. Qed.

Lemma lean_entry_eq t : lean_entry t = (lean_loop 31 (t * 524288) 0 + 524288) / 1048576.
Proof. unfold lean_entry. now rewrite Z.shiftr_div_pow2 by lia. Qed.

Lemma log2_entry_lean t : 2048 <= t < 4096 -> log2_entry t = Ok (lean_entry t - (t - 2048)).
Proof.
  intros T. pose proof (lean_entry_range t T) as R. unfold log2_entry.
  change (31 - 11 - 1) with 19. change (31 - 11) with 20.
  rewrite shl_ok by (cbn; lia). cbn [bind]. change (2 ^ 19) with 524288.
  rewrite wrap_id; [| cbn; lia | ib; lia].
  change (fix_new fract_only_u32 (t * 524288) 31) with (fix_new fract_only_u32 (t * 524288) (f_frac fract_only_u32)).
  rewrite fix_new_exact by (intros ?; reflexivity). cbn [f_within fract_only_u32]. change (2 ^ 31) with 2147483648.
  assert (W : (t * 524288 / 2147483648 =? 0) = true) by lia. rewrite W. cbn [bind].
  destruct (one_plus_log2_lean (t * 524288)) as (E & B); [pow2; lia|]. rewrite E. cbn [bind].
  rewrite lean_entry_eq in *.
  set (l := lean_loop 31 (t * 524288) 0) in *. clearbody l.
  rewrite scaled_down_u32_at by (change (2 ^ (20 - 1)) with 524288; pow2; lia). cbn [bind].
  change (2 ^ (20 - 1)) with 524288. change (2 ^ 20) with 1048576. change (2 ^ 11) with 2048.
  set (e := (l + 524288) / 1048576) in *. clearbody e.
  rewrite sub_ok by (ib; lia). cbn [bind]. rewrite (wrap_id u32); [| cbn; lia | ib; lia].
  rewrite sub_ok by (ib; lia). cbn [bind].
  assert (W2 : (e - (t - 2048) <=? 176) = true) by lia. rewrite W2. cbn [assert_ guard bind].
  rewrite wrap_id; [reflexivity | cbn; lia | ib; lia].
Qed.

Lemma log2_new_spec : exists lut, log2_new = Ok lut /\
  forall t, 2048 <= t < 4096 -> log2_restricted lut t = Ok (lean_entry t).
Proof.
  unfold log2_new. destruct (mmap_ok log2_entry (zseq 2048 (Z.to_nat 2048))) as (lut & E).
  { intros x X. apply zseq_In in X. eexists. apply log2_entry_lean. lia. }
  exists lut. split; [exact E|]. intros t T. pose proof (lean_entry_range t T) as R.
  unfold log2_restricted. change (2 ^ 11) with 2048. rewrite sub_ok by (ib; lia). cbn [bind].
  destruct (mmap_znth _ _ _ E (t - 2048) t) as (y & Y & Z1).
  { rewrite znth_zseq by lia. f_equal. lia. }
  rewrite log2_entry_lean in Y by exact T.
  set (e := lean_entry t) in *. clearbody e. injection Y as <-.
  unfold get. rewrite Z1. cbn [bind]. rewrite add_ok by (ib; lia). f_equal. lia.
Qed.

(** ** log2 of a fixed-point number *)
Definition log_fmt (F : fmt) : Prop := (f_ty F = u32 \/ f_ty F = u64) /\ 0 <= f_frac F <= ibits (f_ty F).

(** Position of the leading bit and the twelve leading bits. *)
Definition top12 (raw : Z) : Z := let k := Z.log2 raw in raw * 2048 / 2 ^ k.

Lemma top12_range raw : 0 < raw -> 2048 <= top12 raw < 4096.
Proof.
  intros R. unfold top12. pose proof (Z.log2_spec raw R) as L. rewrite Z.pow_succ_r in L by apply Z.log2_nonneg.
  pose proof (pow2_pos (Z.log2 raw) (Z.log2_nonneg raw)) as P.
  set (q := 2 ^ Z.log2 raw) in *. clearbody q.
  split; [apply Z.div_le_lower_bound; lia | apply Z.div_lt_upper_bound; lia].
Qed.

Lemma fix_log2_lean F lut raw : log_fmt F ->
  (forall t, 2048 <= t < 4096 -> log2_restricted lut t = Ok (lean_entry t)) ->
  0 < raw <= imax (f_ty F) ->
  fix_log2 F lut raw = Ok (lean_entry (top12 raw) + (Z.log2 raw - f_frac F) * 2048).
Proof.
  intros ((* types *) T & FR) H R. unfold fix_log2.
  pose proof (Z.log2_spec raw ltac:(lia)) as L. pose proof (Z.log2_nonneg raw) as L0.
  pose proof (top12_range raw ltac:(lia)) as TR. pose proof (lean_entry_range _ TR) as ER.
  assert (E : negb (raw =? 0) = true) by lia. rewrite E. cbn [assert_ guard bind].
  assert (N : ibits (f_ty F) = 32 \/ ibits (f_ty F) = 64) by (destruct T as [-> | ->]; cbn; lia).
  assert (SG : isigned (f_ty F) = false) by (destruct T as [-> | ->]; reflexivity).
  set (n := ibits (f_ty F)) in *.
  assert (RM : raw < 2 ^ n).
  { unfold n. destruct T as [E1|E1]; rewrite E1 in *; cbn [ibits u32 u64]; ib; pow2; lia. }
  assert (LN : Z.log2 raw < n) by (apply Z.log2_lt_pow2; lia).
  unfold leading_zeros. assert (E0 : (raw =? 0) = false) by lia. rewrite E0. fold n.
  set (k := Z.log2 raw) in *.
  assert (WR : forall z, 0 <= z < 2 ^ n -> wrap (f_ty F) z = z).
  { intros z Zb. apply wrap_id; [fold n; lia|]. unfold imin, imax. rewrite SG. fold n. lia. }
  rewrite shl_ok by (fold n; lia). cbn [bind].
  assert (PK : 2 ^ n = 2 ^ k * 2 * 2 ^ (n - 1 - k)).
  { replace (2 ^ k * 2) with (2 ^ (k + 1)) by (rewrite Z.pow_add_r by lia; lia).
    rewrite <- Z.pow_add_r by lia. f_equal. lia. }
  pose proof (pow2_pos (n - 1 - k) ltac:(lia)) as P1. pose proof (pow2_pos k L0) as P2.
  rewrite WR by (rewrite Z.pow_succ_r in L by lia; rewrite PK; nia).
  rewrite shr_ok by (fold n; lia). cbn [bind].
  assert (T12 : raw * 2 ^ (n - 1 - k) / 2 ^ (n - 11 - 1) = top12 raw).
  { unfold top12. fold k.
    rewrite <- (Z.div_mul_cancel_r (raw * 2 ^ (n - 1 - k)) (2 ^ (n - 11 - 1)) (2 ^ k)) by lia.
    rewrite <- (Z.div_mul_cancel_r (raw * 2048) (2 ^ k) (2 ^ (n - 11 - 1))) by (apply Z.pow_nonzero; lia).
    f_equal; [|ring]. rewrite <- !Z.mul_assoc. f_equal. change 2048 with (2 ^ 11).
    rewrite <- !Z.pow_add_r by lia. f_equal. lia. }
  rewrite T12. rewrite (wrap_id u32); [| cbn; lia | ib; lia]. rewrite H by exact TR. cbn [bind].
  set (e := lean_entry (top12 raw)) in *. clearbody e.
  rewrite sub_ok by (ib; lia). cbn [bind]. rewrite sub_ok by (ib; lia). cbn [bind].
  rewrite shl_ok by (cbn; lia). cbn [bind]. change (2 ^ 11) with 2048.
  rewrite (wrap_id i32); [| cbn; lia | ib; lia]. rewrite (wrap_id i32); [| cbn; lia | ib; lia].
  rewrite add_ok by (ib; lia). cbn [bind].
  unfold fix_new. cbn. f_equal. lia.
Qed.

Lemma top12_mono x y : 0 < x <= y -> Z.log2 x = Z.log2 y -> top12 x <= top12 y.
Proof.
  intros X L. unfold top12. rewrite L. apply Z.div_le_mono; [apply pow2_pos; apply Z.log2_nonneg | lia].
Qed.
Lemma log_mono x y : 0 < x <= y ->
  lean_entry (top12 x) + Z.log2 x * 2048 <= lean_entry (top12 y) + Z.log2 y * 2048.
Proof.
  intros X. pose proof (top12_range x ltac:(lia)) as Tx. pose proof (top12_range y ltac:(lia)) as Ty.
  pose proof (lean_entry_range _ Tx). pose proof (lean_entry_range _ Ty).
  pose proof (Z.log2_le_mono x y ltac:(lia)) as L.
  destruct (Z.eq_dec (Z.log2 x) (Z.log2 y)) as [E|NE]; [|lia].
  pose proof (lean_entry_mono _ _ (conj (proj1 Tx) (top12_mono x y X E)) (proj2 Ty)). lia.
Qed.

(** ** Final probabilities *)
Lemma final_new raw : 0 <= raw < 2 ^ 32 ->
  fix_new final_probability raw 23 =
    if raw <=? 2 ^ 23 then Ok (Z.max 1 (Z.min raw (2 ^ 23 - 1))) else Fail EAssert.
Proof.
  intros R. unfold fix_new. cbn [f_frac f_new f_within final_probability]. change (23 =? 23) with true.
  cbn [assert_ guard bind]. unfold assert_, guard. destruct (raw <=? 2 ^ 23); cbn [bind]; [f_equal; lia | reflexivity].
Qed.

Lemma final_log_fmt : log_fmt final_probability.
Proof. split; [left; reflexivity | cbn; lia]. Qed.

Definition neg_log (p : Z) : Z := (23 - Z.log2 p) * 2048 - lean_entry (top12 p).

Lemma neg_log_range p : 1 <= p < 2 ^ 23 -> 1 <= neg_log p <= 23 * 2048.
Proof.
  intros P. unfold neg_log. pose proof (top12_range p ltac:(lia)) as T. pose proof (lean_entry_range _ T) as E.
  assert (Z.log2 p < 23) by (apply Z.log2_lt_pow2; lia). pose proof (Z.log2_nonneg p). lia.
Qed.

Lemma neg_log_eq q : - (lean_entry (top12 q) + (Z.log2 q - 23) * 2048) = neg_log q.
Proof. unfold neg_log. generalize (lean_entry (top12 q)). intros e. ring. Qed.
Lemma neg_log_cost lut q :
  (forall t, 2048 <= t < 4096 -> log2_restricted lut t = Ok (lean_entry t)) -> 1 <= q < 2 ^ 23 ->
  (let* l := fix_log2 final_probability lut q in fix_neg log2_d l) = Ok (neg_log q).
Proof.
  intros H Q.
  assert (L : fix_log2 final_probability lut q = Ok (lean_entry (top12 q) + (Z.log2 q - 23) * 2048)).
  { apply (fix_log2_lean final_probability lut q final_log_fmt H). cbn [f_ty final_probability]; ib; pow2; lia. }
  rewrite L. pose proof (neg_log_range q Q) as N. pose proof (neg_log_eq q) as E. revert N E. clear L.
  generalize (lean_entry (top12 q) + (Z.log2 q - 23) * 2048). generalize (neg_log q). intros m l N E. cbn [bind].
  rewrite fix_neg_spec by (intros ?; reflexivity).
  cbn [f_ty f_within log2_d plain]. rewrite E.
  assert (I : inb i32 m = true) by (apply inb_true; ib; lia). now rewrite I.
Qed.

Lemma estimate_cost_lean lut p b :
  (forall t, 2048 <= t < 4096 -> log2_restricted lut t = Ok (lean_entry t)) -> 1 <= p < 2 ^ 23 ->
  estimate_cost lut p b = Ok (neg_log (if b then 2 ^ 23 - p else p)).
Proof.
  intros H P. unfold estimate_cost. destruct b; cbv iota.
  - rewrite sub_ok by (ib; pow2; lia). cbn [bind]. rewrite final_new by (pow2; lia).
    assert (W : (2 ^ 23 - p <=? 2 ^ 23) = true) by lia. rewrite W. cbn [bind].
    assert (M : Z.max 1 (Z.min (2 ^ 23 - p) (2 ^ 23 - 1)) = 2 ^ 23 - p) by lia. rewrite M.
    apply (neg_log_cost lut _ H). lia.
  - cbn [bind]. apply (neg_log_cost lut _ H). exact P.
Qed.

(** ** Cost trackers *)
Lemma cost_updated_at x c : 0 <= x <= 65535 -> 1 <= c <= 65535 ->
  cost_updated x c = Ok (Z.min 65535 (x - Z.min 65535 (x + 8) / 16 + c)).
Proof.
  intros X C. unfold cost_updated, scaled_down, scaled_down_u. cbn [isigned u16].
  change (negb (4 =? 0)) with true. cbn [assert_ guard bind].
  change (shl u16 1 (4 - 1)) with (@Ok Z 8). cbn [bind].
  rewrite shr_ok by (cbn; lia). cbn [bind]. change (2 ^ 4) with 16.
  replace (sat u16 (x + 8)) with (Z.min 65535 (x + 8)) by (unfold sat; ib; lia).
  set (m := Z.min 65535 (x + 8)). assert (M : 0 <= m <= 65535 /\ m <= x + 8) by lia. clearbody m.
  rewrite sub_ok by (ib; lia). cbn [bind].
  assert (W : (0 <? c) = true) by lia. rewrite W. cbn [assert_ guard bind].
  rewrite (wrap_id u16 c); [| cbn; lia | ib; lia]. rewrite (wrap_id i32 c); [| cbn; lia | ib; lia].
  rewrite Z.eqb_refl. cbn [assert_ guard bind]. f_equal. unfold sat. ib. lia.
Qed.

Lemma cost_updated_mono x y c d : 0 <= x <= y -> y <= 65535 -> 1 <= c <= d -> d <= 65535 ->
  exists x' y', cost_updated x c = Ok x' /\ cost_updated y d = Ok y' /\ 0 <= x' <= y' /\ y' <= 65535.
Proof.
  intros X Y C D. rewrite !cost_updated_at by lia. eexists. eexists. split; [reflexivity|]. split; [reflexivity|]. lia.
Qed.

Lemma cost_run_ordered cs : forall ds x y, Forall2 (fun c d => 1 <= c <= d /\ d <= 65535) cs ds ->
  0 <= x <= y -> y <= 65535 ->
  exists x' y', mfold cost_updated cs x = Ok x' /\ mfold cost_updated ds y = Ok y' /\ 0 <= x' <= y' /\ y' <= 65535.
Proof.
  induction cs as [|c cs IH]; intros ds x y F X Y; inversion F as [|c' d cs' ds' CD F']; subst.
  - exists x, y. cbn. repeat split; auto; lia.
  - destruct (cost_updated_mono x y c d X Y) as (x' & y' & E1 & E2 & H1 & H2); try lia.
    cbn [mfold]. rewrite E1, E2. cbn [bind]. now apply IH.
Qed.

Lemma cost_run_bounds lo hi cs x : 1 <= lo -> hi <= 4095 -> Forall (fun c => lo <= c <= hi) cs ->
  16 * lo - 8 <= x <= 16 * hi + 7 ->
  exists x', mfold cost_updated cs x = Ok x' /\ 16 * lo - 8 <= x' <= 16 * hi + 7.
Proof.
  intros L H F. revert x. induction F as [|c cs C F IH]; intros x X; [exists x; cbn; auto|].
  cbn [mfold]. rewrite cost_updated_at by lia. cbn [bind]. apply IH. lia.
Qed.
Lemma cost_run_ones n : mfold cost_updated (repeat 2048 n) cost_initial = Ok cost_initial.
Proof. induction n as [|n IH]; [reflexivity|]. exact IH. Qed.

(** Final probability of an estimator's prediction. *)
Lemma to_final x : 0 <= x < 2 ^ 31 -> 
  to_fix u32 fract_only_u32 final_probability x = Ok (Z.max 1 (Z.min ((x + 128) / 256) (2 ^ 23 - 1))).
Proof.
  intros X. unfold to_fix. cbn [f_frac fract_only_u32 final_probability]. change (23 <? 31) with true. cbv iota.
  change (31 - 23) with 8. rewrite scaled_down_u32_at by (change (2 ^ (8 - 1)) with 128; pow2; lia).
  change (2 ^ (8 - 1)) with 128. change (2 ^ 8) with 256. cbn [bind]. 
  unfold narrow_to. cbn [ibits f_ty final_probability u32]. change (32 <? 32) with false. cbn [bind].
  rewrite final_new by (pow2; lia).
  assert (W : ((x + 128) / 256 <=? 2 ^ 23) = true) by (pow2; lia). now rewrite W.
Qed.

Section CostLut.
  Variables lut rates : list Z.
  Hypothesis HL : forall t, 2048 <= t < 4096 -> log2_restricted lut t = Ok (lean_entry t).
  Hypothesis HR : rates_ok rates.

  Definition pcost (p : Z) (b : bit) : Z := neg_log (if b then 2 ^ 23 - 2 * p else 2 * p).
  Definition next_cost (x p : Z) (b : bit) : Z := Z.min 65535 (x - Z.min 65535 (x + 8) / 16 + pcost p b).

  Lemma pcost_mirror p b : pcost (2 ^ 22 - p) (negb b) = pcost p b.
  Proof. unfold pcost. destruct b; cbn [negb]; f_equal; pow2; lia. Qed.
  Lemma pcost_range p b : 0 < p < 2 ^ 22 -> 1 <= pcost p b <= 23 * 2048.
  Proof. intros P. unfold pcost. apply neg_log_range. destruct b; pow2; lia. Qed.

  Lemma fp_of_prediction p : 0 < p < 2 ^ 22 -> to_fix u32 fract_only_u32 final_probability (p * 512) = Ok (2 * p).
  Proof. intros P. rewrite to_final by (pow2; lia). f_equal. pow2. lia. Qed.

  Lemma cost_of_bit x p b : 0 <= x <= 65535 -> 0 < p < 2 ^ 22 ->
    cost_updated_on_bit lut x (p * 512) b = Ok (next_cost x p b).
  Proof.
    intros X P. unfold cost_updated_on_bit. rewrite fp_of_prediction by exact P. cbn [bind].
    rewrite (estimate_cost_lean lut _ b HL) by (pow2; lia).
    change (neg_log (if b then 2 ^ 23 - 2 * p else 2 * p)) with (pcost p b).
    pose proof (pcost_range p b P) as B. unfold next_cost. revert B. generalize (pcost p b). intros c B. cbn [bind].
    apply cost_updated_at; lia.
  Qed.
  Lemma next_cost_range x p b : 0 <= x <= 65535 -> 0 < p < 2 ^ 22 -> 0 <= next_cost x p b <= 65535.
  Proof. intros X P. unfold next_cost. pose proof (pcost_range p b P). lia. Qed.

  Lemma cost_replay h : exists x p, 0 <= x <= 65535 /\ 0 < p < 2 ^ 22 /\
    (let* e := de_new in mfold (cost_step lut rates) h (cost_initial, e)) = Ok (x, p * 1024 + Z.min (zlen h) 1000) /\
    (let* e := de_new in mfold (cost_step lut rates) (complement h) (cost_initial, e)) = Ok (x, (2 ^ 22 - p) * 1024 + Z.min (zlen h) 1000) /\
    (h = [] -> p = 2 ^ 21).
  Proof.
    rewrite de_new_eq. cbn [bind]. induction h as [|b h IH] using rev_ind.
    - exists cost_initial, (2 ^ 21). cbn. unfold cost_initial. repeat split; try (cbn; lia); reflexivity.
    - destruct IH as (x & p & X & P & E1 & E2 & I). pose proof (zlen_nonneg h) as L.
      assert (I' : Z.min (zlen h) 1000 = 0 -> p = 2 ^ 21).
      { intros Z0. apply I. destruct h; [reflexivity|]. rewrite zlen_cons in Z0. pose proof (zlen_nonneg h). lia. }
      destruct (de_step rates p (Z.min (zlen h) 1000) b HR P ltac:(lia) I') as (f & p' & _ & _ & U & P' & _).
      pose proof (de_mirror_step rates p (Z.min (zlen h) 1000) b p' HR P ltac:(lia) I' U) as M.
      assert (LN : Z.min (zlen (h ++ [b])) 1000 = Z.min (Z.min (zlen h) 1000 + 1) 1000).
      { rewrite zlen_app. change (zlen [b]) with 1. lia. }
      exists (next_cost x p b), p'. split; [now apply next_cost_range|]. split; [exact P'|].
      assert (A2 : forall s, mfold (cost_step lut rates) (complement (h ++ [b])) s =
                let* s' := mfold (cost_step lut rates) (complement h) s in mfold (cost_step lut rates) [negb b] s').
      { intros s. unfold complement. rewrite map_app. apply mfold_app. }
      rewrite mfold_app, A2, E1, E2, LN. clear A2. cbn [bind mfold cost_step].
      rewrite !de_prediction_at by (pow2; lia). cbn [bind]. rewrite !cost_of_bit by (pow2; lia).
      rewrite U, M. cbn [bind]. 
      assert (NC : next_cost x (2 ^ 22 - p) (negb b) = next_cost x p b) by (unfold next_cost; now rewrite pcost_mirror).
      rewrite NC. split; [reflexivity|]. split; [reflexivity|]. intros C. destruct h; discriminate.
  Qed.

  Lemma cost_lut_loop_spec n : forall x s, 0 <= x <= 65535 -> de_valid s ->
    exists l, cost_lut_loop lut rates n x s = Ok l /\
      forall i, 0 <= i < Z.of_nat n ->
        exists c e, mfold (cost_step lut rates) (repeat Zero (Z.to_nat i) ++ [One]) (x, s) = Ok (c, e) /\ znth l i = Some c.
  Proof.
    induction n as [|n IH]; intros x s X V; [exists []; split; [reflexivity | intros; lia]|].
    destruct (de_valid_step rates s Zero HR V) as (s' & ES & V').
    destruct (de_valid_step rates s One HR V) as (s1 & ES1 & _).
    destruct V as (p & m & -> & P & M & _). cbn [cost_lut_loop]. rewrite de_prediction_at by (pow2; lia). cbn [bind].
    pose proof (cost_of_bit x p One X P) as C1. pose proof (cost_of_bit x p Zero X P) as C0.
    pose proof (next_cost_range x p Zero X P) as R0.
    unfold cost_updated_on_bit in C1, C0. rewrite fp_of_prediction in * by exact P. cbn [bind] in *.
    destruct (estimate_cost lut (2 * p) One) as [c1|] eqn:K1; [|discriminate].
    destruct (estimate_cost lut (2 * p) Zero) as [c0|] eqn:K0; [|discriminate]. cbn [bind] in *.
    rewrite C1, C0, ES. cbn [bind]. destruct (IH (next_cost x p Zero) s' R0 V') as (l & EL & H). rewrite EL. cbn [bind].
    eexists. split; [reflexivity|]. intros i I.
    assert (ST : forall b t, de_update rates (p * 1024 + m) b = Ok t ->
      cost_step lut rates (x, p * 1024 + m) b = Ok (next_cost x p b, t)).
    { intros b t Et. cbn [cost_step]. rewrite de_prediction_at by (pow2; lia). cbn [bind]. rewrite cost_of_bit by assumption.
      rewrite Et. reflexivity. }
    destruct (Z.eqb_spec i 0) as [->|NZ].
    - exists (next_cost x p One), s1. split; [|reflexivity]. cbn [Z.to_nat repeat app mfold].
      rewrite (ST One s1 ES1). reflexivity.
    - destruct (H (i - 1)) as (c & e & A & B); [lia|]. exists c, e.
      replace (Z.to_nat i) with (S (Z.to_nat (i - 1))) by lia. cbn [repeat app mfold].
      rewrite (ST Zero s' ES). cbn [bind]. split; [exact A|]. cbn [znth]. destruct (Z.eqb_spec i 0); [lia | exact B].
  Qed.

  Lemma cost_lut_replay b n : 0 <= n <= 1023 ->
    exists clut c e, cost_lut_new lut rates = Ok clut /\ cost_lut_for_new_node clut n = Ok c /\
      (let* s := de_new in mfold (cost_step lut rates) (repeat (negb b) (Z.to_nat n) ++ [b]) (cost_initial, s)) = Ok (c, e).
  Proof.
    intros N. unfold cost_lut_new. rewrite de_new_eq. cbn [bind].
    destruct (cost_lut_loop_spec (Z.to_nat 1024) cost_initial _ ltac:(cbn; lia) de_valid_new) as (l & E & H).
    rewrite E. destruct (H n ltac:(lia)) as (c & e & A & B). 
    unfold cost_lut_for_new_node. exists l, c. replace (Z.min n (1024 - 1)) with n by lia. unfold get. rewrite B.
    destruct (cost_replay (repeat Zero (Z.to_nat n) ++ [One])) as (x & p & _ & _ & E1 & E2 & _).
    rewrite de_new_eq in E1, E2. cbn [bind] in E1, E2. rewrite A in E1. injection E1 as -> ->.
    destruct b.
    - eexists. repeat split. exact A.
    - eexists. split; [reflexivity|]. split; [reflexivity|]. unfold complement in E2. rewrite map_app, map_repeat in E2. exact E2.
  Qed.
End CostLut.

(** ** Statements used by PropLog.v *)
Lemma final_probability_codable raw : 0 <= raw < 2 ^ 32 ->
  (raw <= 2 ^ 23 -> exists p, fix_new final_probability raw 23 = Ok p /\ 1 <= p <= 2 ^ 23 - 1 /\
     (1 <= raw <= 2 ^ 23 - 1 -> p = raw)) /\
  (2 ^ 23 < raw -> fix_new final_probability raw 23 = Fail EAssert).
Proof.
  intros R. rewrite final_new by exact R. destruct (Z.leb_spec raw (2 ^ 23)); split; intros; try lia; [|reflexivity].
  eexists. split; [reflexivity|]. lia.
Qed.

Lemma cost_in_range : exists lut, log2_new = Ok lut /\ forall p b, 1 <= p <= 2 ^ 23 - 1 ->
  exists c, estimate_cost lut p b = Ok c /\ 1 <= c <= 23 * 2048.
Proof.
  destruct log2_new_spec as (lut & E & H). exists lut. split; [exact E|]. intros p b P.
  exists (neg_log (if b then 2 ^ 23 - p else p)). split; [apply estimate_cost_lean; [exact H | lia]|].
  apply neg_log_range. destruct b; lia.
Qed.
Lemma cost_monotone : exists lut, log2_new = Ok lut /\ forall p q, 1 <= p <= q -> q <= 2 ^ 23 - 1 ->
  exists c d, estimate_cost lut p Zero = Ok c /\ estimate_cost lut q Zero = Ok d /\ d <= c.
Proof.
  destruct log2_new_spec as (lut & E & H). exists lut. split; [exact E|]. intros p q P Q.
  exists (neg_log p), (neg_log q). split; [apply (estimate_cost_lean lut p Zero H); lia|].
  split; [apply (estimate_cost_lean lut q Zero H); lia|]. unfold neg_log. pose proof (log_mono p q ltac:(lia)) as M.
  revert M. generalize (lean_entry (top12 p)) (lean_entry (top12 q)). intros. lia.
Qed.
Lemma log2_monotone : exists lut, log2_new = Ok lut /\ forall F x y, log_fmt F ->
  0 < x <= y -> y <= imax (f_ty F) ->
  exists lx ly, fix_log2 F lut x = Ok lx /\ fix_log2 F lut y = Ok ly /\ lx <= ly.
Proof.
  destruct log2_new_spec as (lut & E & H). exists lut. split; [exact E|]. intros F x y FM X Y.
  eexists. eexists. split; [apply (fix_log2_lean F lut x FM H); lia|]. split; [apply (fix_log2_lean F lut y FM H); lia|].
  pose proof (log_mono x y X) as M. revert M. generalize (lean_entry (top12 x)) (lean_entry (top12 y)). intros. lia.
Qed.
Lemma reported_cost_accepted : exists lut, log2_new = Ok lut /\ forall x p b, 0 <= x <= 65535 -> 0 <= p < 2 ^ 31 ->
  exists x', cost_updated_on_bit lut x p b = Ok x' /\ 0 <= x' <= 65535.
Proof.
  destruct log2_new_spec as (lut & E & H). exists lut. split; [exact E|]. intros x p b X P.
  unfold cost_updated_on_bit. rewrite to_final by exact P. cbn [bind].
  set (q := Z.max 1 (Z.min ((p + 128) / 256) (2 ^ 23 - 1))). assert (Q : 1 <= q < 2 ^ 23) by (clear - q; unfold q; pow2; lia). clearbody q.
  rewrite (estimate_cost_lean lut q b H Q).
  assert (N : 1 <= neg_log (if b then 2 ^ 23 - q else q) <= 23 * 2048) by (apply neg_log_range; destruct b; lia).
  revert N. generalize (neg_log (if b then 2 ^ 23 - q else q)). intros c N. cbn [bind].
  clear - X N. rewrite cost_updated_at by lia. eexists. split; [reflexivity|]. lia.
Qed.
Lemma cost_cache_replay factor addend b n : sane_table factor addend -> 0 <= n <= 1000 ->
  exists lut rates clut c e, log2_new = Ok lut /\ rates_make factor addend = Ok rates /\
    cost_lut_new lut rates = Ok clut /\ cost_lut_for_new_node clut n = Ok c /\
    (let* s := de_new in mfold (cost_step lut rates) (repeat (negb b) (Z.to_nat n) ++ [b]) (cost_initial, s)) = Ok (c, e).
Proof.
  intros (F & A & FA & B) N. destruct (rates_make_ok factor addend F A FA B) as (rates & E & R).
  destruct log2_new_spec as (lut & EL & H).
  destruct (cost_lut_replay lut rates H R b n ltac:(lia)) as (clut & c & e & X).
  exists lut, rates, clut, c, e. exact (conj EL (conj E X)).
Qed.
