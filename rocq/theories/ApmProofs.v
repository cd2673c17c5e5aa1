(** Interpolation weights and the adaptive probability map. *)
From Coq Require Import ZifyBool.
From Verif Require Import Base BaseFacts FixedModel FixedProofs UtilProofs EstProofs LogModel LogProofs LutModel LutTable LutProofs
  LutRound ApmModel ApmSpec.
Ltac Zify.zify_post_hook ::= Z.div_mod_to_equations.

(** ** Stops *)
Lemma stops_count b : interval_stops_count b = 1 + 24 * 2 ^ b.
Proof. unfold interval_stops_count. lia. Qed.
Lemma stops_half b : 0 <= b -> interval_stops_count b / 2 = 12 * 2 ^ b.
Proof. intros B. rewrite stops_count. pose proof (pow2_pos b B). set (p := 2 ^ b) in *. clearbody p. lia. Qed.
Lemma pow2_le7 b : 0 <= b <= 7 -> 1 <= 2 ^ b <= 128 /\ 1 <= 2 ^ (7 - b) <= 128 /\ 2 ^ b * 2 ^ (7 - b) = 128.
Proof.
  intros B. pose proof (pow2_pos b ltac:(lia)). pose proof (pow2_pos (7 - b) ltac:(lia)).
  assert (P : 2 ^ b * 2 ^ (7 - b) = 128) by (rewrite <- Z.pow_add_r by lia; replace (b + (7 - b)) with 7 by lia; reflexivity).
  nia.
Qed.
Definition stop (b i : Z) : Z := sq (i * 2 ^ (7 - b)).

Lemma stop_value_ok lut b i : squash_lut_ok lut -> 0 <= b <= 7 -> 0 <= i <= 24 * 2 ^ b ->
  stop_value lut b (interval_stops_count b / 2) i = Ok (stop b i).
Proof.
  intros LUT B I. unfold stop_value. rewrite stops_half by lia. destruct (pow2_le7 b B) as (P1 & P2 & P3).
  rewrite sub_ok by (ib; lia). cbn [bind]. rewrite sub_ok by (ib; lia). cbn [bind].
  rewrite shl_ok by (cbn [ibits i32]; lia). cbn [bind].
  replace (21 - b) with ((7 - b) + 14) by lia. rewrite Z.pow_add_r by lia. change (2 ^ 14) with 16384.
  replace ((i - 12 * 2 ^ b) * (2 ^ (7 - b) * 16384)) with ((i * 2 ^ (7 - b) - 1536) * 16384 + 0) by nia.
  assert (R : 0 <= i * 2 ^ (7 - b) <= 3072) by nia. unfold stop. set (j := i * 2 ^ (7 - b)) in *. clearbody j. clear P1 P2 P3 I.
  rewrite (wrap_id i32) by (cbn [ibits i32]; ib; lia).
  change (fix_new stretched_d ((j - 1536) * 16384 + 0) 21) with (fix_new stretched_d ((j - 1536) * 16384 + 0) (f_frac stretched_d)).
  rewrite fix_new_exact by (intros ?; reflexivity). cbn [f_within stretched_d].
  assert (W : (- (12 * 2 ^ 21) <=? (j - 1536) * 16384 + 0) && ((j - 1536) * 16384 + 0 <=? 12 * 2 ^ 21) = true) by (pow2; lia).
  rewrite W. cbn [bind]. rewrite (squash_lean lut _ LUT) by (pow2; lia). rewrite lean_squash_value by lia.
  now rewrite squash_value_0.
Qed.

Lemma stop_index b i : 0 <= b <= 7 -> 0 <= i <= 24 * 2 ^ b -> 0 <= i * 2 ^ (7 - b) <= 3072.
Proof. intros B I. destruct (pow2_le7 b B) as (P1 & P2 & P3). nia. Qed.
Lemma stop_range b i : 0 <= b <= 7 -> 0 <= i <= 24 * 2 ^ b -> 16384 <= stop b i <= 2 ^ 31 - 16384.
Proof. intros B I. apply sq_range. now apply stop_index. Qed.
Lemma stop_mono b i j : 0 <= b <= 7 -> 0 <= i <= j -> j <= 24 * 2 ^ b -> stop b i <= stop b j.
Proof.
  intros B I J. pose proof (stop_index b i B ltac:(lia)). pose proof (stop_index b j B ltac:(lia)).
  apply sq_mono; [|lia]. destruct (pow2_le7 b B) as (P1 & P2 & P3). nia.
Qed.
Lemma stop_mirror b i : 0 <= b <= 7 -> 0 <= i <= 24 * 2 ^ b -> stop b (24 * 2 ^ b - i) = 2 ^ 31 - stop b i.
Proof.
  intros B I. unfold stop. rewrite <- sq_mirror by now apply stop_index. f_equal.
  destruct (pow2_le7 b B) as (P1 & P2 & P3). nia.
Qed.

(** ** Extra factor *)
Definition mulr (a b : Z) : Z := (a * b + 2 ^ 30) / 2 ^ 31.
Lemma mulr_bounds a b : 2 * (a * b) - 2 ^ 31 < 2 * (mulr a b * 2 ^ 31) <= 2 * (a * b) + 2 ^ 31.
Proof. unfold mulr. pow2. lia. Qed.
Lemma mulr_ok a b : 0 <= a < 2 ^ 31 -> 0 <= b <= 2 ^ 31 -> 
  fix_mul u64 fract_only_u32 fract_only_u32 fract_only_u32 a b = Ok (mulr a b) /\ 0 <= mulr a b <= a.
Proof.
  intros A B. assert (R : 0 <= mulr a b <= a).
  { unfold mulr. assert (0 <= a * b <= a * 2 ^ 31) by (pow2; nia). set (p := a * b) in *. clearbody p. pow2. lia. }
  split; [|exact R]. rewrite mul_fract31 by assumption. fold (mulr a b).
  destruct (Z.ltb_spec (mulr a b) (2 ^ 31)); [reflexivity|lia].
Qed.
Lemma mulr_comm a b : mulr a b = mulr b a. Proof. unfold mulr. now rewrite Z.mul_comm. Qed.
Lemma mulr_mono a b c d : 0 <= a <= c -> 0 <= b <= d -> mulr a b <= mulr c d.
Proof.
  intros A B. unfold mulr. apply Z.div_le_mono; [reflexivity|]. nia.
Qed.
Lemma mul_swap a b : fix_mul u64 fract_only_u32 fract_only_u32 fract_only_u32 a b = fix_mul u64 fract_only_u32 fract_only_u32 fract_only_u32 b a.
Proof. unfold fix_mul, mul. now rewrite (Z.mul_comm a b). Qed.
Lemma add_fract a b : 0 <= a -> 0 <= b -> a + b < 2 ^ 31 -> fix_add fract_only_u32 a b = Ok (a + b).
Proof.
  intros A B C. rewrite fix_add_spec by (intros ?; reflexivity).
  assert (I : inb (f_ty fract_only_u32) (a + b) = true) by (cbn [f_ty fract_only_u32]; apply inb_true; ib; pow2; lia).
  now rewrite I, fract_within by lia.
Qed.
Lemma sub_fract a b : 0 <= b <= a -> a - b < 2 ^ 31 -> fix_sub fract_only_u32 a b = Ok (a - b).
Proof.
  intros A C. rewrite fix_sub_spec by (intros ?; reflexivity).
  assert (I : inb (f_ty fract_only_u32) (a - b) = true) by (cbn [f_ty fract_only_u32]; apply inb_true; ib; pow2; lia).
  now rewrite I, fract_within by lia.
Qed.
Lemma one_fract : one_unsafe fract_only_u32 = Ok (2 ^ 31). Proof. reflexivity. Qed.

Lemma extra_loop_ok n : forall S rem low high, 0 < S < 2 ^ 31 -> 0 <= low < high -> high < 2 ^ 31 -> high - low <= 2 ^ Z.of_nat n ->
  mulr low S < rem -> (rem <= mulr high S \/ high = 2 ^ 31 - 1) ->
  exists e, extra_loop (Datatypes.S n) S rem low high = Ok e /\ 0 <= e < 2 ^ 31 - 1 /\ mulr e S < rem /\
    (rem <= mulr (e + 1) S \/ e + 1 = 2 ^ 31 - 1).
Proof.
  induction n; intros S rem low high HS B H W L U.
  - cbn [extra_loop]. rewrite sub_fract by lia. cbn [bind]. change (2 ^ Z.of_nat 0) with 1 in W.
    destruct (Z.ltb_spec 1 (high - low)); [lia|]. exists low. replace (low + 1) with high by lia. repeat split; auto; lia.
  - remember (Datatypes.S n) as m eqn:M. cbn [extra_loop]. rewrite sub_fract by lia. cbn [bind].
    destruct (Z.ltb_spec 1 (high - low)) as [D|D].
    + rewrite sub_ok by (ib; lia). cbn [bind].
      assert (PW : 2 ^ Z.of_nat m = 2 * 2 ^ Z.of_nat n) by (rewrite M, Nat2Z.inj_succ, Z.pow_succ_r by lia; reflexivity).
      set (k := (high - low) / 2) in *. assert (KB : 1 <= k /\ 2 * k <= high - low <= 2 * k + 1) by (unfold k; lia). clearbody k.
      pose proof (pow2_pos (Z.of_nat n) ltac:(lia)).
      rewrite add_fract by lia. cbn [bind]. destruct (mulr_ok (low + k) S ltac:(lia) ltac:(lia)) as (E & _). rewrite E. cbn [bind].
      rewrite M in *. destruct (Z.ltb_spec (mulr (low + k) S) rem); apply IHn; auto; lia.
    + exists low. replace (low + 1) with high by lia. repeat split; auto; lia.
Qed.

Lemma extra_factor_ok S : 0 <= S < 2 ^ 31 -> exists e, extra_factor S = Ok e /\ 0 <= e < 2 ^ 31 /\ S + mulr S e < 2 ^ 31 /\
  (2 ^ 30 <= S -> 2 ^ 31 - 2 <= S + mulr S e).
Proof.
  intros HS. unfold extra_factor. destruct (Z.eqb_spec S 0) as [->|NZ].
  { exists 0. repeat split; try (pow2; lia); unfold mulr; pow2; lia. }
  rewrite one_fract. cbn [bind]. rewrite sub_fract by lia. cbn [bind]. rewrite sub_fract by (pow2; lia). cbn [bind].
  assert (M0 : mulr 0 S = 0) by (unfold mulr; rewrite Z.mul_0_l; pow2; reflexivity).
  destruct (extra_loop_ok 32 S (2 ^ 31 - S) 0 (2 ^ 31 - 1) ltac:(lia) ltac:(pow2; lia) ltac:(pow2; lia) ltac:(pow2; lia)
    ltac:(rewrite M0; lia) ltac:(now right)) as (e & E & R & L & U).
  exists e. rewrite E. split; [reflexivity|]. rewrite (mulr_comm S e). split; [lia|]. split; [lia|].
  intros H. destruct U as [U|U].
  - assert (mulr (e + 1) S <= mulr e S + 1).
    { pose proof (mulr_bounds (e + 1) S). pose proof (mulr_bounds e S). nia. }
    lia.
  - assert (e = 2 ^ 31 - 2) by lia. pose proof (mulr_bounds e S). subst e. pow2. nia.
Qed.

(** ** Weighting table *)
Definition shift_of (len : Z) : Z := leading_zeros u32 len - 1.
Definition extra_of (len : Z) : Z := match extra_factor (len * 2 ^ shift_of len) with Ok e => e | Fail _ => 0 end.
Definition len_of (b i : Z) : Z := stop b (i + 1) - stop b i.

Lemma shift_of_spec len : 0 <= len < 2 ^ 31 -> 0 <= shift_of len <= 31 /\ len * 2 ^ shift_of len < 2 ^ 31 /\
  (0 < len -> 2 ^ 30 <= len * 2 ^ shift_of len).
Proof.
  intros L. unfold shift_of, leading_zeros. cbn [ibits u32]. destruct (Z.eqb_spec len 0) as [->|NZ].
  - cbn [Z.mul]. repeat split; try lia; pow2; lia.
  - pose proof (Z.log2_spec len ltac:(lia)) as S. pose proof (Z.log2_nonneg len).
    assert (U : Z.log2 len < 31) by (apply Z.log2_lt_pow2; lia).
    set (e := Z.log2 len) in *. clearbody e. replace (32 - 1 - e - 1) with (30 - e) by lia. split; [lia|].
    rewrite Z.pow_succ_r in S by lia.
    assert (P : 2 ^ e * 2 ^ (30 - e) = 2 ^ 30) by (rewrite <- Z.pow_add_r by lia; f_equal; lia).
    pose proof (pow2_pos (30 - e) ltac:(lia)). set (p := 2 ^ e) in *. set (q := 2 ^ (30 - e)) in *. clearbody p q.
    change (2 ^ 31) with (2 * 2 ^ 30). split; [nia|]. intros _. nia.
Qed.
Lemma extra_of_spec len : 0 <= len < 2 ^ 31 -> let S := len * 2 ^ shift_of len in
  extra_factor S = Ok (extra_of len) /\ 0 <= extra_of len < 2 ^ 31 /\ S + mulr S (extra_of len) < 2 ^ 31 /\
  (0 < len -> 2 ^ 31 - 2 <= S + mulr S (extra_of len)).
Proof.
  intros L S. destruct (shift_of_spec len L) as (A & B & C).
  pose proof (pow2_pos (shift_of len) ltac:(lia)).
  destruct (extra_factor_ok S ltac:(unfold S in *; nia)) as (e & E & R & U & V). unfold extra_of. fold S. rewrite E.
  repeat split; auto; try lia.
Qed.

Definition apm_lut_ok (b : Z) (lut : apm_lut) : Prop := al_bits lut = b /\
  (forall i, 0 <= i <= 24 * 2 ^ b -> get (al_stops lut) i = Ok (stop b i)) /\
  (forall i, 0 <= i < 24 * 2 ^ b -> get (al_shifts lut) i = Ok (shift_of (len_of b i)) /\ get (al_extras lut) i = Ok (extra_of (len_of b i))).

Lemma len_range b i : 0 <= b <= 7 -> 0 <= i < 24 * 2 ^ b -> 0 <= len_of b i < 2 ^ 31 - 16384.
Proof.
  intros B I. unfold len_of. pose proof (stop_mono b i (i + 1) B ltac:(lia) ltac:(lia)).
  pose proof (stop_range b i B ltac:(lia)). pose proof (stop_range b (i + 1) B ltac:(lia)). lia.
Qed.
Lemma len_mirror b i : 0 <= b <= 7 -> 0 <= i < 24 * 2 ^ b -> len_of b (24 * 2 ^ b - 1 - i) = len_of b i.
Proof.
  intros B I. unfold len_of. replace (24 * 2 ^ b - 1 - i + 1) with (24 * 2 ^ b - i) by lia.
  replace (24 * 2 ^ b - 1 - i) with (24 * 2 ^ b - (i + 1)) by lia. rewrite !stop_mirror by lia. lia.
Qed.

Lemma interval_fold stops b : 0 <= b <= 7 -> (forall i, 0 <= i <= 24 * 2 ^ b -> get stops i = Ok (stop b i)) ->
  forall n i shifts extras, 0 <= i -> i + Z.of_nat n <= 24 * 2 ^ b ->
  exists sum, mfold (interval_entry stops) (zseq i n) (shifts, extras, stop b i - stop b 0) =
    Ok (shifts ++ map (fun i => shift_of (len_of b i)) (zseq i n), extras ++ map (fun i => extra_of (len_of b i)) (zseq i n), sum).
Proof.
  intros B ST. induction n; intros i shifts extras I N.
  - eexists. cbn [mfold zseq map]. now rewrite !app_nil_r.
  - cbn [mfold zseq map]. unfold interval_entry at 1.
    rewrite !ST by lia. cbn [bind]. pose proof (stop_mono b i (i + 1) B ltac:(lia) ltac:(lia)) as MO.
    pose proof (stop_range b i B ltac:(lia)). pose proof (stop_range b (i + 1) B ltac:(lia)).
    pose proof (stop_range b 0 B ltac:(lia)). pose proof (stop_mono b 0 i B ltac:(lia) ltac:(lia)).
    pose proof (len_range b i B ltac:(lia)) as LR.
    rewrite sub_fract by lia. cbn [bind]. fold (len_of b i).
    destruct (shift_of_spec (len_of b i) ltac:(pow2; lia)) as (A & S1 & _).
    destruct (extra_of_spec (len_of b i) ltac:(pow2; lia)) as (E1 & E2 & E3 & _).
    pose proof (pow2_pos (shift_of (len_of b i)) ltac:(lia)) as PP.
    assert (SB : sub u8 (leading_zeros u32 (len_of b i)) 1 = Ok (shift_of (len_of b i))) by (unfold shift_of in *; apply sub_ok; ib; lia).
    rewrite SB. cbn [bind]. rewrite shl_ok by (cbn [ibits u32]; lia). cbn [bind].
    rewrite (wrap_id u32) by (cbn [ibits u32]; ib; pow2; nia). 
    assert (S0 : 0 <= len_of b i * 2 ^ shift_of (len_of b i)) by nia.
    rewrite new_fract by lia. cbn [bind]. rewrite E1. cbn [bind].
    destruct (mulr_ok (len_of b i * 2 ^ shift_of (len_of b i)) (extra_of (len_of b i)) ltac:(lia) ltac:(lia)) as (M & MR).
    rewrite M. cbn [bind]. rewrite add_fract by lia. cbn [bind].
    rewrite add_fract by (unfold len_of in *; lia). cbn [bind].
    replace (stop b i - stop b 0 + len_of b i) with (stop b (i + 1) - stop b 0) by (unfold len_of; lia).
    destruct (IHn (i + 1) (shifts ++ [shift_of (len_of b i)]) (extras ++ [extra_of (len_of b i)]) ltac:(lia) ltac:(lia)) as (sum & E).
    exists sum. rewrite E. now rewrite <- !app_assoc.
Qed.

Lemma mfold_unit {A} (f : unit -> A -> res unit) l : (forall x, In x l -> f tt x = Ok tt) -> mfold f l tt = Ok tt.
Proof.
  induction l as [|x l IH]; intros H; [reflexivity|]. cbn [mfold]. rewrite H by now left. cbn [bind]. apply IH. intros; apply H; now right.
Qed.
Lemma get_map_zseq (f : Z -> Z) n i : 0 <= i < Z.of_nat n -> get (map f (zseq 0 n)) i = Ok (f i).
Proof. intros I. unfold get. rewrite znth_map, znth_zseq by lia. cbn [option_map]. now rewrite Z.add_0_l. Qed.
Lemma zlen_map_zseq (f : Z -> Z) n : zlen (map f (zseq 0 n)) = Z.of_nat n.
Proof. unfold zlen. rewrite map_length. fold (zlen (zseq 0 n)). apply zlen_zseq. Qed.

Lemma stops_ok lut b : squash_lut_ok lut -> 0 <= b <= 7 ->
  mmap (stop_value lut b (interval_stops_count b / 2)) (zseq 0 (Z.to_nat (interval_stops_count b))) =
  Ok (map (stop b) (zseq 0 (Z.to_nat (1 + 24 * 2 ^ b)))).
Proof.
  intros LUT B. rewrite stops_count at 2. apply mmap_spec. intros x X. apply in_zseq in X. pose proof (pow2_pos b ltac:(lia)).
  apply stop_value_ok; auto; lia.
Qed.

Definition lean_stops (b : Z) : list Z := map (stop b) (zseq 0 (Z.to_nat (1 + 24 * 2 ^ b))).
Definition lean_apm_lut (b : Z) : apm_lut := mkApmLut (lean_stops b)
  (map (fun i => shift_of (len_of b i)) (zseq 0 (Z.to_nat (24 * 2 ^ b))))
  (map (fun i => extra_of (len_of b i)) (zseq 0 (Z.to_nat (24 * 2 ^ b)))) b.
Lemma lean_apm_lut_ok b : 0 <= b -> apm_lut_ok b (lean_apm_lut b).
Proof.
  intros B. pose proof (pow2_pos b B). split; [reflexivity|]. cbn [al_stops al_shifts al_extras lean_apm_lut]. split.
  - intros i I. apply get_map_zseq. lia.
  - intros i I. split; [apply (get_map_zseq (fun i => shift_of (len_of b i)))|apply (get_map_zseq (fun i => extra_of (len_of b i)))]; lia.
Qed.
Lemma apm_lut_new_ok lut b : squash_lut_ok lut -> 0 <= b <= 7 -> apm_lut_new b lut = Ok (lean_apm_lut b).
Proof.
  intros LUT B. unfold lean_apm_lut, lean_stops. pose proof (pow2_pos b ltac:(lia)) as PB. unfold apm_lut_new. cbv zeta. rewrite stops_ok by assumption. cbn [bind].
  set (stops := map (stop b) (zseq 0 (Z.to_nat (1 + 24 * 2 ^ b)))) in *.
  assert (ST : forall i, 0 <= i <= 24 * 2 ^ b -> get stops i = Ok (stop b i)) by (intros; apply get_map_zseq; lia).
  assert (SL : zlen stops = 1 + 24 * 2 ^ b) by (unfold stops; rewrite zlen_map_zseq; lia). clearbody stops.
  rewrite stops_count. set (n := 24 * 2 ^ b) in *. replace (1 + n - 1) with n by lia.
  destruct (interval_fold stops b B ST (Z.to_nat n) 0 [] [] ltac:(lia) ltac:(lia)) as (sum & E).
  rewrite Z.sub_diag in E. rewrite E. clear E. cbn [bind app].
  set (shifts := map (fun i => shift_of (len_of b i)) (zseq 0 (Z.to_nat n))) in *.
  set (extras := map (fun i => extra_of (len_of b i)) (zseq 0 (Z.to_nat n))) in *.
  assert (SH : forall i, 0 <= i < n -> get shifts i = Ok (shift_of (len_of b i))) by (intros; apply (get_map_zseq (fun i => shift_of (len_of b i))); lia).
  assert (EX : forall i, 0 <= i < n -> get extras i = Ok (extra_of (len_of b i))) by (intros; apply (get_map_zseq (fun i => extra_of (len_of b i))); lia).
  assert (L1 : zlen shifts = n) by (unfold shifts; rewrite zlen_map_zseq; lia).
  assert (L2 : zlen extras = n) by (unfold extras; rewrite zlen_map_zseq; lia).
  clearbody shifts extras. rewrite SL, L1, L2, !Z.eqb_refl. cbn [assert_ guard bind].
  rewrite mfold_unit.
  2: { intros i I. apply in_zseq in I. rewrite (ST i) by lia. rewrite (ST (1 + n - i - 1)) by lia. cbn [bind].
    replace (1 + n - i - 1) with (n - i) by lia. unfold n. rewrite stop_mirror by lia.
    pose proof (stop_range b i B ltac:(lia)) as R.
    destruct (flip_u fract_only_u32 (or_introl eq_refl) (stop b i) ltac:(cbn [f_frac fract_only_u32]; pow2; lia)) as (_ & F).
    cbn [f_frac fract_only_u32] in F. rewrite F. cbn [bind]. now rewrite Z.eqb_refl. }
  cbn [bind]. rewrite mfold_unit.
  2: { intros i I. apply in_zseq in I. rewrite (SH i), (SH (n - i - 1)) by lia. cbn [bind].
    rewrite (EX i), (EX (n - i - 1)) by lia. cbn [bind]. replace (n - i - 1) with (n - 1 - i) by lia.
    unfold n. rewrite len_mirror by lia. rewrite !Z.eqb_refl. reflexivity. }
  reflexivity.
Qed.

(** ** Brackets *)
Fixpoint window_ok (f : Z -> Z) (fuel : nat) (t x : Z) : bool :=
  match fuel with
  | O => false
  | S n => let v := f x in if t <? v then true else if v <? t then false else window_ok f n t (x + 1)
  end.
Lemma window_sweep : count_ok (fun j => window_ok lean_stretch 600 ((j - 48) * 524288) (sq (32 * j) + 1)) 95 1 = true.
Proof. vm_cast_no_check (eq_refl true). Qed.
Lemma window_at f n t : forall x m, (forall p q, x <= p <= q -> q < m -> f p <= f q + 1) -> window_ok f n t x = true ->
  forall p, x <= p < m -> t <= f p.
Proof.
  induction n; intros x m MO H p P; [discriminate|]. cbn [window_ok] in H. cbv zeta in H. destruct (Z.ltb_spec t (f x)) as [L|L].
  - pose proof (MO x p ltac:(lia) ltac:(lia)). lia.
  - destruct (Z.ltb_spec (f x) t) as [L2|L2]; [discriminate|]. destruct (Z.eq_dec p x) as [->|]; [lia|].
    apply (IHn (x + 1) m); auto; [|lia]. intros u v U V. apply MO; lia.
Qed.

Lemma above_stop b j p : 0 <= b <= 2 -> 0 <= j < 24 * 2 ^ b -> stop b j < p < 2 ^ 31 -> (j - 12 * 2 ^ b) * 2 ^ (21 - b) <= lean_stretch p.
Proof.
  intros B J P. set (k := j * 2 ^ (2 - b)).
  assert (PB : 2 ^ b * 2 ^ (2 - b) = 4) by (rewrite <- Z.pow_add_r by lia; replace (b + (2 - b)) with 2 by lia; reflexivity).
  pose proof (pow2_pos b ltac:(lia)). pose proof (pow2_pos (2 - b) ltac:(lia)).
  assert (E : (j - 12 * 2 ^ b) * 2 ^ (21 - b) = (k - 48) * 524288).
  { replace (21 - b) with (2 - b + 19) by lia. rewrite Z.pow_add_r by lia. change (2 ^ 19) with 524288. unfold k. nia. }
  assert (S : stop b j = sq (32 * k)).
  { unfold stop, k. f_equal. replace (7 - b) with (2 - b + 5) by lia. rewrite Z.pow_add_r by lia. change (2 ^ 5) with 32. ring. }
  assert (K : 0 <= k < 96) by (unfold k; nia). rewrite E. rewrite S in P. clearbody k.
  pose proof (sq_range (32 * k) ltac:(lia)).
  destruct (Z.eq_dec k 0) as [->|].
  - pose proof (stretch_range p ltac:(lia)). lia.
  - pose proof (count_ok_at _ _ _ window_sweep k ltac:(lia)) as W. cbv beta in W.
    apply (window_at lean_stretch 600 ((k - 48) * 524288) (sq (32 * k) + 1) (2 ^ 31)); [|exact W|lia].
    intros u v U V. apply stretch_almost_mono; lia.
Qed.
Lemma below_stop b j p : 0 <= b <= 2 -> 0 < j <= 24 * 2 ^ b -> 0 < p < stop b j -> lean_stretch p <= (j - 12 * 2 ^ b) * 2 ^ (21 - b).
Proof.
  intros B J P. pose proof (stop_range b j ltac:(lia) ltac:(lia)).
  pose proof (above_stop b (24 * 2 ^ b - j) (2 ^ 31 - p) B ltac:(lia)) as A. rewrite stop_mirror in A by lia.
  specialize (A ltac:(lia)). rewrite stretch_odd in A by lia. nia.
Qed.

(** What [refine] needs of its two arguments: the stretched one selects an interval of stretched values whose stops, or
    the previous interval, bracket the plain one. *)
Definition bracketed (b p s : Z) : Prop := exists i, s / 2 ^ (21 - b) + 12 * 2 ^ b = i /\ 0 <= i < 24 * 2 ^ b /\
  (p <= stop b (i + 1) \/ i + 1 = 24 * 2 ^ b) /\ (stop b i <= p \/ (i = 0 \/ i = 1) \/ (2 <= i /\ stop b (i - 1) <= p)).

Lemma stretch_bracketed b p : 0 <= b <= 2 -> 0 < p < 2 ^ 31 -> bracketed b p (lean_stretch p).
Proof.
  intros B P. pose proof (stretch_range p P) as R. pose proof (pow2_pos b ltac:(lia)). pose proof (pow2_pos (21 - b) ltac:(lia)).
  assert (PB : 2 ^ b * 2 ^ (21 - b) = 2097152) by (rewrite <- Z.pow_add_r by lia; replace (b + (21 - b)) with 21 by lia; reflexivity).
  pose proof (div_bounds (lean_stretch p) (2 ^ (21 - b)) ltac:(lia)) as D.
  set (q := lean_stretch p / 2 ^ (21 - b)) in *. exists (q + 12 * 2 ^ b). split; [reflexivity|].
  set (m := 2 ^ (21 - b)) in *. set (c := 2 ^ b) in *.
  assert (I : 0 <= q + 12 * c < 24 * c) by nia. split; [exact I|].
  pose proof (above_stop b (q + 12 * c + 1) p B) as A. pose proof (below_stop b (q + 12 * c - 1) p B) as L.
  fold c m in A, L. split.
  - destruct (Z.eq_dec (q + 12 * c + 1) (24 * c)); [now right|left].
    destruct (Z.le_gt_cases p (stop b (q + 12 * c + 1))) as [|G]; [assumption|]. specialize (A ltac:(lia) ltac:(lia)). nia.
  - destruct (Z.le_gt_cases (stop b (q + 12 * c)) p) as [|G]; [now left|right].
    destruct (Z.lt_ge_cases (q + 12 * c) 2) as [|G2]; [left; lia|right]. split; [lia|].
    destruct (Z.le_gt_cases (stop b (q + 12 * c - 1)) p) as [|G3]; [assumption|].
    specialize (L ltac:(lia) ltac:(lia)). nia.
Qed.

Lemma squash_bracketed b s : 0 <= b <= 7 -> - (12 * 2 ^ 21) <= s < 12 * 2 ^ 21 -> bracketed b (lean_squash s) s.
Proof.
  intros B S. pose proof (pow2_pos (7 - b) ltac:(lia)). pose proof (pow2_pos b ltac:(lia)).
  destruct (squash_cell s ltac:(lia)) as (j & w & E & W & J & H' & _).
  assert (PB : 2 ^ b * 2 ^ (7 - b) = 128) by (apply pow2_le7; lia).
  assert (Q : 2 ^ (21 - b) = 2 ^ (7 - b) * 16384).
  { replace (21 - b) with (7 - b + 14) by lia. rewrite Z.pow_add_r by lia. reflexivity. }
  pose proof (div_bounds s (2 ^ (21 - b)) ltac:(rewrite Q; lia)) as D. rewrite Q in *.
  set (m := 2 ^ (7 - b)) in *. set (c := 2 ^ b) in *. set (q := s / (m * 16384)) in *.
  assert (JB : j < 3072) by (pow2; lia).
  exists (q + 12 * c). unfold stop. fold m. rewrite Q. fold q. split; [reflexivity|].
  assert (I : 0 <= q + 12 * c < 24 * c) by (pow2; nia). split; [exact I|].
  rewrite E, lean_squash_value by lia. pose proof (squash_value_range j w ltac:(lia) W) as V.
  assert (JL : (q + 12 * c) * m <= j < (q + 12 * c + 1) * m) by nia.
  split; left.
  - pose proof (sq_mono (j + 1) ((q + 12 * c + 1) * m) ltac:(lia) ltac:(nia)). lia.
  - pose proof (sq_mono ((q + 12 * c) * m) j ltac:(nia) ltac:(lia)). lia.
Qed.

(** ** Refine *)
Definition adjust (s : Z) : Z := if s =? - (12 * 2 ^ 21) then s + 1 else if s =? 12 * 2 ^ 21 then s - 1 else s.
Definition clamp (b p : Z) : Z := Z.max (Z.min p (stop b (24 * 2 ^ b))) (stop b 0).

Definition apm_inv (b : Z) (a : apm) : Prop := am_bits a = b /\ 0 <= am_contexts a /\
  zlen (am_mappings a) = am_contexts a * (1 + 24 * 2 ^ b) /\ zlen (am_mappings a) < 2 ^ 64 /\
  Forall (fun e => 3 <= e <= 2 ^ 31 - 3) (am_mappings a).

Lemma stretched_edge : fix_add stretched_d (- (12 * 2 ^ 21)) 1 = Ok (- (12 * 2 ^ 21) + 1) /\ fix_sub stretched_d (12 * 2 ^ 21) 1 = Ok (12 * 2 ^ 21 - 1).
Proof. split; reflexivity. Qed.

Lemma weight_right_ok len w : 0 <= len < 2 ^ 31 -> 0 <= w <= len -> let x := w * 2 ^ shift_of len in let r := x + mulr x (extra_of len) in
  0 <= x < 2 ^ 31 /\ 0 <= r < 2 ^ 31 /\ Z.abs (r * len - 2 ^ 31 * w) <= 3 * len.
Proof.
  intros L W x r. destruct (shift_of_spec len L) as (A & B & C). destruct (extra_of_spec len L) as (_ & E1 & E2 & E3).
  pose proof (pow2_pos (shift_of len) ltac:(lia)) as PP. set (k := 2 ^ shift_of len) in *.
  set (S := len * k) in *. assert (X : 0 <= x <= S) by (unfold x, S; nia).
  pose proof (mulr_mono x (extra_of len) S (extra_of len) X ltac:(lia)) as MM.
  destruct (mulr_ok x (extra_of len) ltac:(lia) ltac:(lia)) as (_ & MB).
  split; [lia|]. split; [unfold r; lia|].
  destruct (Z.eq_dec len 0) as [->|NZ]; [assert (w = 0) by lia; subst w; unfold r, x; rewrite Z.mul_0_r; lia|].
  specialize (E3 ltac:(lia)).
  pose proof (mulr_bounds x (extra_of len)) as B1. pose proof (mulr_bounds S (extra_of len)) as B2.
  set (e := extra_of len) in *. set (m1 := mulr x e) in *. set (m2 := mulr S e) in *. set (T := S + m2) in *.
  (* R*S - T*x = S*m1 - x*m2 *)
  assert (SP : 0 < S) by (unfold S; nia).
  assert (D : Z.abs (r * S - T * x) <= S).
  { assert (ID : (r * S - T * x) * 2 ^ 32 = S * (2 * (m1 * 2 ^ 31) - 2 * (x * e)) - x * (2 * (m2 * 2 ^ 31) - 2 * (S * e))).
    { unfold r, T. fold m1 m2. change (2 ^ 32) with (2 * 2 ^ 31). ring. }
    assert (B1' : - 2 ^ 31 <= 2 * (m1 * 2 ^ 31) - 2 * (x * e) <= 2 ^ 31) by lia.
    assert (B2' : - 2 ^ 31 <= 2 * (m2 * 2 ^ 31) - 2 * (S * e) <= 2 ^ 31) by lia.
    set (d1 := 2 * (m1 * 2 ^ 31) - 2 * (x * e)) in *. set (d2 := 2 * (m2 * 2 ^ 31) - 2 * (S * e)) in *.
    set (y := r * S - T * x) in *. clearbody d1 d2 y. clear -ID B1' B2' X SP. pow2. apply Z.abs_le. nia. }
  assert (D2 : Z.abs (r * S - 2 ^ 31 * x) <= 3 * S).
  { assert (ID : r * S - 2 ^ 31 * x = (r * S - T * x) - (2 ^ 31 - T) * x) by ring.
    set (y := r * S - T * x) in *. clearbody y. apply Z.abs_le in D. rewrite ID. apply Z.abs_le.
    assert (TT : 1 <= 2 ^ 31 - T <= 2) by (unfold T; pow2; lia). set (t := 2 ^ 31 - T) in *. clearbody t.
    clear -D TT X. nia. }
  assert (ID : r * S - 2 ^ 31 * x = (r * len - 2 ^ 31 * w) * k) by (unfold S, x; ring).
  rewrite ID in D2. unfold S in D2. set (y := r * len - 2 ^ 31 * w) in *. clearbody y. apply Z.abs_le in D2. apply Z.abs_le.
  clear -D2 PP. split; apply (Z.mul_le_mono_pos_r _ _ k); lia.
Qed.

Lemma mix_between l r wl wr : 0 <= wl -> 0 <= wr -> wl + wr = 2 ^ 31 ->
  Z.min l r <= mulr l wl + mulr r wr <= Z.max l r + 1.
Proof.
  intros A B C. pose proof (mulr_bounds l wl). pose proof (mulr_bounds r wr).
  set (x := mulr l wl) in *. set (y := mulr r wr) in *. clearbody x y.
  pose proof (Z.min_le_iff l r). destruct (Z.le_ge_cases l r) as [L|L].
  - rewrite Z.min_l, Z.max_r by lia. assert (wl = 2 ^ 31 - wr) by lia. subst wl. pow2. nia.
  - rewrite Z.min_r, Z.max_l by lia. assert (wl = 2 ^ 31 - wr) by lia. subst wl. pow2. nia.
Qed.

Lemma slot_in c m n : 0 <= c < m -> 0 <= n -> 0 <= c * (1 + n) /\ c * (1 + n) + (1 + n) <= m * (1 + n).
Proof. nia. Qed.

Lemma refine_ok b a lut context p s : 0 <= b <= 7 -> apm_lut_ok b lut -> apm_inv b a -> am_saved_index a = -1 ->
  0 <= context < am_contexts a -> - (12 * 2 ^ 21) <= s <= 12 * 2 ^ 21 -> bracketed b p (adjust s) ->
  exists i wl wr left right r,
    refine a context p s lut = Ok (mkApm (am_mappings a) b (am_contexts a) i wl, r) /\ 0 <= i < 24 * 2 ^ b /\
    stop b i <= clamp b p <= stop b (i + 1) /\ 0 <= wr < 2 ^ 31 /\ wl + wr = 2 ^ 31 /\
    Z.abs (wr * (stop b (i + 1) - stop b i) - 2 ^ 31 * (clamp b p - stop b i)) <= 3 * (stop b (i + 1) - stop b i) /\
    znth (am_mappings a) (context * (1 + 24 * 2 ^ b) + i) = Some left /\
    znth (am_mappings a) (context * (1 + 24 * 2 ^ b) + i + 1) = Some right /\
    r = mulr left wl + mulr right wr /\ Z.min left right <= r <= Z.max left right + 1.
Proof.
  intros B (LB & STOPS & LISTS) (AB & AC & AL & AS & AF) SV CX S BR. pose proof (pow2_pos b ltac:(lia)) as PB.
  unfold refine. rewrite AB, LB, SV, !Z.eqb_refl. cbn [assert_ guard bind]. rewrite stops_half, stops_count by lia.
  set (n := 24 * 2 ^ b) in *. replace (1 + n - 1) with n by lia.
  rewrite (STOPS n), (STOPS 0) by lia. cbn [bind]. cbv zeta. fold n. change (Z.max (Z.min p (stop b n)) (stop b 0)) with (clamp b p).
  assert (ADJ : (if s =? - (12 * 2 ^ 21) then fix_add stretched_d (- (12 * 2 ^ 21)) 1
    else if s =? 12 * 2 ^ 21 then fix_sub stretched_d (12 * 2 ^ 21) 1 else Ok s) = Ok (adjust s) /\
    - (12 * 2 ^ 21) <= adjust s <= 12 * 2 ^ 21).
  { destruct stretched_edge as (E1 & E2). unfold adjust.
    destruct (Z.eqb_spec s (- (12 * 2 ^ 21))) as [Q|Q]; [rewrite E1, Q; split; [reflexivity|pow2; lia]|].
    destruct (Z.eqb_spec s (12 * 2 ^ 21)) as [Q'|Q']; [rewrite E2, Q'; split; [reflexivity|pow2; lia]|]. split; [reflexivity|lia]. }
  destruct ADJ as (ADJ & AR). rewrite ADJ. cbn [bind]. clear ADJ. set (s' := adjust s) in *. clearbody s'.
  rewrite sub_ok by (ib; lia). cbn [bind]. rewrite shr_ok by (cbn [ibits i32]; lia). cbn [bind].
  destruct BR as (i0 & IE & I0 & UP & LO).
  assert (B24 : 24 * 2 ^ b <= 3072) by (destruct (pow2_le7 b B) as (P1 & _); lia).
  rewrite add_ok by (rewrite IE; ib; lia). cbn [bind]. rewrite IE. fold n in I0, UP.
  assert (T1 : (0 <=? i0) && (i0 + 1 <? 1 + n) = true) by lia. rewrite T1. cbn [assert_ guard bind].
  rewrite (STOPS i0) by lia. cbn [bind].
  assert (CL : stop b 0 <= clamp b p <= stop b n).
  { unfold clamp. fold n. pose proof (stop_mono b 0 n B ltac:(lia) ltac:(lia)). lia. }
  assert (UP' : clamp b p <= stop b (i0 + 1)).
  { destruct UP as [UP|UP]; [|rewrite UP; lia]. unfold clamp. fold n.
    pose proof (stop_mono b 0 (i0 + 1) B ltac:(lia) ltac:(lia)). lia. }
  assert (SEL : exists i, (if clamp b p <? stop b i0 then assert_ (negb (i0 =? 0));; sub usize i0 1 else Ok i0) = Ok i /\
    0 <= i < n /\ stop b i <= clamp b p <= stop b (i + 1)).
  { destruct (Z.ltb_spec (clamp b p) (stop b i0)) as [C|C].
    - assert (N0 : i0 <> 0) by (intros ->; lia). assert (Q : (i0 =? 0) = false) by lia. rewrite Q. cbn [negb assert_ guard bind].
      rewrite sub_ok by (ib; lia). exists (i0 - 1). split; [reflexivity|]. split; [lia|].
      replace (i0 - 1 + 1) with i0 by lia. split; [|lia].
      destruct LO as [LO|[LO|(LO2 & LO)]].
      + pose proof (stop_mono b i0 n B ltac:(lia) ltac:(lia)). unfold clamp in C. fold n in C. lia.
      + replace (i0 - 1) with 0 by lia. lia.
      + pose proof (stop_mono b (i0 - 1) n B ltac:(lia) ltac:(lia)). unfold clamp. fold n. lia.
    - exists i0. repeat split; lia. }
  destruct SEL as (i & SEL & I & BL). rewrite SEL. cbn [bind]. clear SEL. rewrite add_ok by (ib; lia). cbn [bind].
  rewrite (STOPS i), (STOPS (i + 1)) by lia. cbn [bind].
  assert (T2 : (stop b i <=? clamp b p) = true) by lia. assert (T3 : (clamp b p <=? stop b (i + 1)) = true) by lia.
  rewrite T2, T3. cbn [assert_ guard bind].
  assert (NN : 0 <= context * (1 + n) /\ context * (1 + n) + (1 + n) <= zlen (am_mappings a)) by (rewrite AL; apply slot_in; lia).
  rewrite mul_ok by (ib; change (2 ^ 64) with 18446744073709551616 in AS; lia). cbn [bind].
  destruct (znth_lt (am_mappings a) (context * (1 + n) + i) ltac:(lia)) as (left & GL).
  destruct (znth_lt (am_mappings a) (context * (1 + n) + (i + 1)) ltac:(lia)) as (right & GR).
  rewrite (get_ok _ _ _ GL), (get_ok _ _ _ GR). cbn [bind].
  pose proof (znth_Forall _ _ _ _ AF GL) as RL. pose proof (znth_Forall _ _ _ _ AF GR) as RR. cbv beta in RL, RR.
  pose proof (stop_range b i B ltac:(lia)) as SI. pose proof (stop_range b (i + 1) B ltac:(lia)) as SI1.
  rewrite sub_fract by lia. cbn [bind]. destruct (LISTS i ltac:(lia)) as (GS & GE). rewrite GS, GE. cbn [bind].
  pose proof (len_range b i B ltac:(lia)) as LR. fold n in LR.
  destruct (weight_right_ok (len_of b i) (clamp b p - stop b i) ltac:(pow2; lia) ltac:(unfold len_of; lia)) as (X & R & ACC).
  destruct (shift_of_spec (len_of b i) ltac:(pow2; lia)) as (SHR & _).
  rewrite shl_ok by (cbn [ibits u32]; lia). cbn [bind].
  rewrite (wrap_id u32) by (cbn [ibits u32]; ib; pow2; lia). rewrite new_fract by lia. cbn [bind].
  destruct (extra_of_spec (len_of b i) ltac:(pow2; lia)) as (_ & EX & _).
  destruct (mulr_ok _ (extra_of (len_of b i)) X ltac:(lia)) as (M & MR). rewrite M. cbn [bind].
  rewrite add_fract by lia. cbn [bind]. rewrite one_fract. cbn [bind].
  set (wr := (clamp b p - stop b i) * 2 ^ shift_of (len_of b i) + mulr ((clamp b p - stop b i) * 2 ^ shift_of (len_of b i)) (extra_of (len_of b i))) in *.
  assert (WL : (if wr =? 0 then Ok (2 ^ 31) else fix_sub fract_only_u32 (2 ^ 31) wr) = Ok (2 ^ 31 - wr)).
  { destruct (Z.eqb_spec wr 0) as [->|]; [now rewrite Z.sub_0_r|]. apply sub_fract; lia. }
  rewrite WL. cbn [bind]. clear WL. unfold len_of in ACC.
  clearbody wr. destruct (mulr_ok right wr ltac:(pow2; lia) ltac:(lia)) as (M1 & _).
  destruct (mulr_ok left (2 ^ 31 - wr) ltac:(pow2; lia) ltac:(lia)) as (M2 & _).
  pose proof (mix_between left right (2 ^ 31 - wr) wr ltac:(lia) ltac:(lia) ltac:(lia)) as MX.
  rewrite M1, M2. cbn [bind]. rewrite add_fract.
  - cbn [bind]. exists i, (2 ^ 31 - wr), wr, left, right, (mulr left (2 ^ 31 - wr) + mulr right wr).
    replace (context * (1 + n) + i + 1) with (context * (1 + n) + (i + 1)) by lia.
    split; [reflexivity|]. repeat split; auto; lia.
  - destruct (mulr_ok left (2 ^ 31 - wr) ltac:(pow2; lia) ltac:(lia)). lia.
  - destruct (mulr_ok right wr ltac:(pow2; lia) ltac:(lia)). lia.
  - pow2. lia.
Qed.

(** ** Update *)
Definition moved (e : Z) (b : bit) (weight rate : Z) : Z :=
  if negb b then e + mulr ((2 ^ 31 - e) / 2 ^ rate) weight else e - mulr (e / 2 ^ rate) weight.

Lemma half_or_less x r : 0 <= x -> 1 <= r -> 0 <= x / 2 ^ r <= x / 2.
Proof.
  intros X R. split; [apply Z.div_pos; [lia|apply pow2_pos; lia]|].
  apply Z.div_le_compat_l; [lia|]. split; [lia|]. rewrite <- (Z.pow_1_r 2) at 1. apply Z.pow_le_mono_r; lia.
Qed.
Lemma quarter_or_less x r : 0 <= x -> 2 <= r -> 0 <= x / 2 ^ r <= x / 4.
Proof.
  intros X R. split; [apply Z.div_pos; [lia|apply pow2_pos; lia]|].
  apply Z.div_le_compat_l; [lia|]. split; [lia|]. change 4 with (2 ^ 2). apply Z.pow_le_mono_r; lia.
Qed.

Lemma moved_range e b w r : 1 <= e <= 2 ^ 31 - 1 -> 0 <= w <= 2 ^ 31 -> 1 <= r ->
  1 <= moved e b w r <= 2 ^ 31 - 1 /\ (b = Zero -> e <= moved e b w r) /\ (b = One -> moved e b w r <= e) /\
  (2 <= r -> 3 <= e <= 2 ^ 31 - 3 -> 3 <= moved e b w r <= 2 ^ 31 - 3).
Proof.
  intros E W R. unfold moved. destruct b; cbn [negb].
  - pose proof (half_or_less e r ltac:(lia) R) as H.
    destruct (mulr_ok (e / 2 ^ r) w ltac:(pow2; lia) W) as (_ & M).
    assert (Q : 2 <= r -> e / 2 ^ r <= e / 4) by (intros; apply quarter_or_less; lia).
    set (x := e / 2 ^ r) in *. set (y := mulr x w) in *. clearbody x y. unfold Zero, One. pow2.
    repeat split; try discriminate; try lia.
  - pose proof (half_or_less (2 ^ 31 - e) r ltac:(lia) R) as H.
    destruct (mulr_ok ((2 ^ 31 - e) / 2 ^ r) w ltac:(pow2; lia) W) as (_ & M).
    assert (Q : 2 <= r -> (2 ^ 31 - e) / 2 ^ r <= (2 ^ 31 - e) / 4) by (intros; apply quarter_or_less; lia).
    set (x := (2 ^ 31 - e) / 2 ^ r) in *. set (y := mulr x w) in *. clearbody x y. unfold Zero, One. pow2.
    repeat split; try discriminate; try lia.
Qed.

Lemma update_single_ok m b w i r e : znth m i = Some e -> 1 <= e <= 2 ^ 31 - 1 -> 0 <= w <= 2 ^ 31 -> 1 <= r < 30 ->
  update_single_entry m b w i r = Ok (zupd m i (moved e b w r)).
Proof.
  intros G E W R. unfold update_single_entry. assert (T : (0 <? r) && (r <? 30) = true) by lia. rewrite T. cbn [assert_ guard bind].
  rewrite (get_ok _ _ _ G). cbn [bind]. rewrite one_fract. cbn [bind].
  destruct (moved_range e b w r E W ltac:(lia)) as (MR & _). pose proof (znth_Some _ _ _ G) as IB. unfold moved in *.
  destruct b; cbn [negb] in *.
  - rewrite shr_ok by (cbn [ibits u32]; lia). cbn [bind].
    pose proof (half_or_less e r ltac:(lia) ltac:(lia)) as H. rewrite new_fract by (pow2; lia). cbn [bind]. rewrite mul_swap.
    destruct (mulr_ok (e / 2 ^ r) w ltac:(pow2; lia) W) as (M & MB). rewrite M. cbn [bind].
    rewrite sub_fract by (pow2; lia). cbn [bind]. now apply set_ok.
  - rewrite sub_fract by (pow2; lia). cbn [bind]. rewrite shr_ok by (cbn [ibits u32]; lia). cbn [bind].
    pose proof (half_or_less (2 ^ 31 - e) r ltac:(lia) ltac:(lia)) as H. rewrite new_fract by (pow2; lia). cbn [bind]. rewrite mul_swap.
    destruct (mulr_ok ((2 ^ 31 - e) / 2 ^ r) w ltac:(pow2; lia) W) as (M & MB). rewrite M. cbn [bind].
    rewrite add_fract by (pow2; lia). cbn [bind]. now apply set_ok.
Qed.

Lemma update_ok (b : Z) (a : apm) (context i wl : Z) (x : bit) (rate : Z) (fixed : bool) (left right : Z) :
  0 <= b <= 7 -> am_bits a = b -> am_saved_index a = i -> am_saved_weight a = wl ->
  0 <= context < am_contexts a -> 0 <= i < 24 * 2 ^ b -> 1 <= wl <= 2 ^ 31 -> 1 <= rate < 30 ->
  zlen (am_mappings a) = am_contexts a * (1 + 24 * 2 ^ b) -> zlen (am_mappings a) < 2 ^ 64 ->
  znth (am_mappings a) (context * (1 + 24 * 2 ^ b) + i) = Some left -> znth (am_mappings a) (context * (1 + 24 * 2 ^ b) + i + 1) = Some right ->
  1 <= left <= 2 ^ 31 - 1 -> 1 <= right <= 2 ^ 31 - 1 ->
  let w := if fixed then 2 ^ 30 else wl in
  update_predictions a context x rate fixed = Ok (mkApm
    (zupd (zupd (am_mappings a) (context * (1 + 24 * 2 ^ b) + i) (moved left x w rate))
      (context * (1 + 24 * 2 ^ b) + i + 1) (moved right x (2 ^ 31 - w) rate)) b (am_contexts a) (-1) wl).
Proof.
  intros B AB SI SW CX I WL R AL AS GL GR EL ER w. pose proof (pow2_pos b ltac:(lia)) as PB.
  unfold update_predictions. rewrite AB, SI, SW. assert (T1 : (0 <=? i) = true) by lia. assert (T2 : (context <? am_contexts a) = true) by lia.
  rewrite T1, T2. cbn [assert_ guard bind]. rewrite stops_count.
  assert (NN : 0 <= context * (1 + 24 * 2 ^ b) /\ context * (1 + 24 * 2 ^ b) + (1 + 24 * 2 ^ b) <= zlen (am_mappings a)) by (rewrite AL; apply slot_in; lia).
  rewrite mul_ok by (ib; change (2 ^ 64) with 18446744073709551616 in AS; lia). cbn [bind]. rewrite one_fract. cbn [bind].
  assert (WB : 1 <= w <= 2 ^ 31) by (unfold w; destruct fixed; pow2; lia). fold w. clearbody w.
  rewrite sub_fract by lia. cbn [bind].
  rewrite (update_single_ok _ _ _ _ _ left) by (auto; lia). cbn [bind].
  rewrite (update_single_ok _ _ _ _ _ right); [reflexivity| |auto|lia|lia].
  rewrite znth_zupd_other by lia. exact GR.
Qed.

Lemma Forall_two {A} (P : A -> Prop) l i j u v : Forall P l -> P u -> P v -> Forall P (zupd (zupd l i u) j v).
Proof. intros F U V. apply Forall_zupd; [apply Forall_zupd|]; assumption. Qed.

(** One use of the map. *)
Lemma step_ok b a lut u : 0 <= b <= 7 -> apm_lut_ok b lut -> apm_inv b a -> am_saved_index a = -1 ->
  0 <= u_context u < am_contexts a -> - (12 * 2 ^ 21) <= u_s u <= 12 * 2 ^ 21 -> bracketed b (u_p u) (adjust (u_s u)) -> 2 <= u_rate u < 30 ->
  exists a', apm_step lut a u = Ok a' /\ apm_inv b a' /\ am_saved_index a' = -1 /\ am_contexts a' = am_contexts a.
Proof.
  intros B L INV SV CX S BR R.
  destruct (refine_ok b a lut (u_context u) (u_p u) (u_s u) B L INV SV CX S BR)
    as (i & wl & wr & left & right & r & E & I & _ & W & WS & _ & GL & GR & _).
  destruct INV as (AB & AC & AL & AS & AF).
  pose proof (znth_Forall _ _ _ _ AF GL) as RL. pose proof (znth_Forall _ _ _ _ AF GR) as RR. cbv beta in RL, RR.
  unfold apm_step. rewrite E. cbn [bind fst].
  pose proof (update_ok b (mkApm (am_mappings a) b (am_contexts a) i wl) (u_context u) i wl (u_bit u) (u_rate u) (u_fixed u) left right
    B eq_refl eq_refl eq_refl CX I ltac:(lia) ltac:(lia) AL AS GL GR ltac:(lia) ltac:(lia)) as U. cbv zeta in U.
  cbn [am_mappings am_contexts] in U.
  rewrite U. eexists. split; [reflexivity|]. cbn [am_saved_index am_contexts]. split; [|split; reflexivity].
  split; [reflexivity|]. split; [exact AC|]. cbn [am_mappings am_contexts]. rewrite !zlen_zupd. split; [exact AL|]. split; [exact AS|].
  set (w := if u_fixed u then 2 ^ 30 else wl). assert (WB : 0 <= w <= 2 ^ 31) by (unfold w; destruct (u_fixed u); pow2; lia).
  apply Forall_two; [exact AF| |].
  - destruct (moved_range left (u_bit u) w (u_rate u) ltac:(lia) WB ltac:(lia)) as (_ & _ & _ & M). apply M; lia.
  - destruct (moved_range right (u_bit u) (2 ^ 31 - w) (u_rate u) ltac:(lia) ltac:(lia) ltac:(lia)) as (_ & _ & _ & M). apply M; lia.
Qed.

(** ** Construction *)
Lemma zlen_concat_repeat {A} (l : list A) n : zlen (concat (repeat l n)) = Z.of_nat n * zlen l.
Proof. induction n; [reflexivity|]. cbn [repeat concat]. rewrite zlen_app, IHn, Nat2Z.inj_succ. lia. Qed.
Lemma Forall_concat_repeat {A} (P : A -> Prop) l n : Forall P l -> Forall P (concat (repeat l n)).
Proof. intros F. induction n; [constructor|]. cbn [repeat concat]. apply Forall_app. auto. Qed.
Definition lean_apm (c b : Z) : apm := mkApm (concat (repeat (lean_stops b) (Z.to_nat c))) b c (-1) 0.
Lemma lean_stops_len b : 0 <= b -> zlen (lean_stops b) = 1 + 24 * 2 ^ b.
Proof. intros B. pose proof (pow2_pos b B). unfold lean_stops. rewrite zlen_map_zseq. lia. Qed.

Lemma apm_new_ok lut c b : squash_lut_ok lut -> 0 <= b <= 7 -> 0 <= c -> c * (1 + 24 * 2 ^ b) < 2 ^ 64 ->
  apm_new c b lut = Ok (lean_apm c b) /\ apm_inv b (lean_apm c b).
Proof.
  intros LUT B C M. pose proof (pow2_pos b ltac:(lia)) as PB. split.
  - unfold apm_new. cbv zeta. rewrite mul_ok by (rewrite stops_count; ib; change (2 ^ 64) with 18446744073709551616 in M; nia).
    cbn [bind]. unfold lean_apm. destruct (Z.ltb_spec 0 c) as [P|P].
    + rewrite stops_ok by assumption. cbn [bind]. fold (lean_stops b). rewrite stops_half by lia. rewrite mfold_unit.
      2: { intros i I. apply in_zseq in I.
        assert (ST : forall i, 0 <= i <= 24 * 2 ^ b -> get (lean_stops b) i = Ok (stop b i)) by (intros; apply get_map_zseq; lia).
        rewrite !ST by lia. cbn [bind]. pose proof (stop_range b (12 * 2 ^ b - i) B ltac:(lia)) as R.
        replace (stop b (12 * 2 ^ b + i)) with (2 ^ 31 - stop b (12 * 2 ^ b - i)) by (rewrite <- stop_mirror by lia; f_equal; lia).
        destruct (flip_u fract_only_u32 (or_introl eq_refl) (stop b (12 * 2 ^ b - i)) ltac:(cbn [f_frac fract_only_u32]; pow2; lia)) as (_ & F).
        cbn [f_frac fract_only_u32] in F. rewrite F. cbn [bind]. now rewrite Z.eqb_refl. }
      cbn [bind]. assert (E : lean_stops b ++ concat (repeat (lean_stops b) (Z.to_nat (c - 1))) = concat (repeat (lean_stops b) (Z.to_nat c))).
      { replace (Z.to_nat c) with (S (Z.to_nat (c - 1))) by lia. reflexivity. }
      rewrite E, zlen_concat_repeat, lean_stops_len by lia. rewrite Z2Nat.id by lia. rewrite stops_count, Z.eqb_refl. reflexivity.
    + assert (c = 0) by lia. subst c. reflexivity.
  - split; [reflexivity|]. cbn [lean_apm am_contexts am_mappings]. split; [exact C|].
    rewrite zlen_concat_repeat, lean_stops_len by lia. rewrite Z2Nat.id by lia. split; [reflexivity|]. split; [exact M|].
    apply Forall_concat_repeat. apply Forall_forall. intros x X. unfold lean_stops in X. apply in_map_iff in X as (i & <- & I).
    apply in_zseq in I. pose proof (stop_range b i B ltac:(lia)). pow2. lia.
Qed.

Lemma pair_bracketed st sq b p s : stretch_lut_ok st -> squash_lut_ok sq -> 0 <= b <= 2 -> probability_pair st sq p s ->
  - (12 * 2 ^ 21) <= s <= 12 * 2 ^ 21 /\ bracketed b p (adjust s).
Proof.
  intros ST SQ B [(P & E)|(S & E)].
  - rewrite (stretch_lean st p ST P) in E. injection E as <-. pose proof (stretch_range p P).
    split; [pow2; lia|]. unfold adjust.
    destruct (Z.eqb_spec (lean_stretch p) (- (12 * 2 ^ 21))); [pow2; lia|].
    destruct (Z.eqb_spec (lean_stretch p) (12 * 2 ^ 21)); [pow2; lia|]. now apply stretch_bracketed.
  - rewrite (squash_lean sq s SQ S) in E. injection E as <-. split; [exact S|]. unfold adjust.
    destruct (Z.eqb_spec s (- (12 * 2 ^ 21))) as [Q|Q].
    + exists 0. pose proof (pow2_pos b ltac:(lia)). pose proof (pow2_pos (21 - b) ltac:(lia)).
      assert (PB : 2 ^ b * 2 ^ (21 - b) = 2 ^ 21) by (rewrite <- Z.pow_add_r by lia; f_equal; lia).
      rewrite Q. replace (- (12 * 2 ^ 21) + 1) with (1 + (- 12 * 2 ^ b) * 2 ^ (21 - b)) by (rewrite <- PB; ring).
      rewrite Z.div_add by lia.
      assert (1 < 2 ^ (21 - b)) by (apply Z.pow_gt_1; lia).
      rewrite (Z.div_small 1) by lia. split; [lia|]. split; [lia|].
      change (lean_squash (- (12 * 2 ^ 21))) with (lean_squash ((0 - 1536) * 16384 + 0)). rewrite lean_squash_value by lia.
      rewrite squash_value_0. split; left.
      * pose proof (stop_mono b 0 (0 + 1) ltac:(lia) ltac:(lia) ltac:(lia)) as H2. exact H2.
      * apply Z.le_refl.
    + destruct (Z.eqb_spec s (12 * 2 ^ 21)) as [Q'|Q']; [|apply squash_bracketed; lia].
      pose proof (squash_bracketed b (s - 1) ltac:(lia) ltac:(pow2; lia)) as (i & IE & I & _ & _).
      assert (PB : 2 ^ b * 2 ^ (21 - b) = 2 ^ 21) by (rewrite <- Z.pow_add_r by lia; f_equal; lia).
      pose proof (pow2_pos b ltac:(lia)). assert (1 < 2 ^ (21 - b)) by (apply Z.pow_gt_1; lia).
      assert (LAST : i + 1 = 24 * 2 ^ b).
      { rewrite Q' in IE. replace (12 * 2 ^ 21 - 1) with ((2 ^ (21 - b) - 1) + (12 * 2 ^ b - 1) * 2 ^ (21 - b)) in IE by (rewrite <- PB; ring).
        rewrite Z.div_add in IE by lia. rewrite Z.div_small in IE by lia. lia. }
      exists i. split; [exact IE|]. split; [exact I|]. split; [right; exact LAST|]. left.
      rewrite Q'. change (lean_squash (12 * 2 ^ 21)) with (lean_squash ((3072 - 1536) * 16384 + 0)). rewrite lean_squash_value by lia.
      rewrite squash_value_0. pose proof (stop_index b i ltac:(lia) ltac:(lia)). apply sq_mono; lia.
Qed.

(** ** Statements *)
Lemma built_tables st sq : stretch_new = Ok st -> squash_new st = Ok sq -> stretch_lut_ok st /\ squash_lut_ok sq.
Proof.
  intros E F. destruct tables_ok as (st' & sq' & E' & F' & H & H'). rewrite E in E'. injection E' as <-.
  rewrite F in F'. injection F' as <-. exact (conj H H').
Qed.
Lemma weighting_table st sq b : stretch_new = Ok st -> squash_new st = Ok sq -> 0 <= b <= 7 ->
  exists al, apm_lut_new b sq = Ok al /\ al_bits al = b /\ zlen (al_stops al) = 1 + 24 * 2 ^ b /\
  forall i, 0 <= i <= 24 * 2 ^ b -> exists x, znth (al_stops al) i = Some x /\ squash sq ((i - 12 * 2 ^ b) * 2 ^ (21 - b)) = Ok x.
Proof.
  intros E F B. destruct (built_tables st sq E F) as (_ & H). clear E F. exists (lean_apm_lut b).
  split; [now apply apm_lut_new_ok|]. split; [reflexivity|]. split; [apply lean_stops_len; lia|].
  intros i I. exists (stop b i). destruct (lean_apm_lut_ok b ltac:(lia)) as (_ & G & _). specialize (G i I).
  split; [apply get_inv in G; exact G|]. pose proof (stop_value_ok sq b i H B I) as S. unfold stop_value in S.
  rewrite stops_half in S by lia. destruct (pow2_le7 b B) as (P1 & P2 & P3).
  rewrite sub_ok in S by (ib; lia). cbn [bind] in S. rewrite sub_ok in S by (ib; lia). cbn [bind] in S.
  rewrite shl_ok in S by (cbn [ibits i32]; lia). cbn [bind] in S.
  assert (R : - (12 * 2 ^ 21) <= (i - 12 * 2 ^ b) * 2 ^ (21 - b) <= 12 * 2 ^ 21).
  { assert (PB : 2 ^ b * 2 ^ (21 - b) = 2 ^ 21) by (rewrite <- Z.pow_add_r by lia; f_equal; lia).
    pose proof (pow2_pos (21 - b) ltac:(lia)). clear -PB I P1 H0. nia. }
  rewrite (wrap_id i32) in S by (cbn [ibits i32]; ib; pow2; lia).
  set (t := (i - 12 * 2 ^ b) * 2 ^ (21 - b)) in *. clearbody t. change (fix_new stretched_d t 21) with (fix_new stretched_d t (f_frac stretched_d)) in S.
  rewrite fix_new_exact in S by (intros ?; reflexivity). destruct (f_within stretched_d t); [exact S|discriminate].
Qed.

Lemma run_ok st sq b c us : stretch_lut_ok st -> squash_lut_ok sq -> 0 <= b <= 2 -> Forall (fair_use st sq c) us ->
  forall a, apm_inv b a -> am_saved_index a = -1 -> am_contexts a = c ->
  exists a', apm_run (lean_apm_lut b) us a = Ok a' /\ apm_inv b a' /\ am_saved_index a' = -1 /\ am_contexts a' = c.
Proof.
  intros ST SQ B. induction us as [|u us IH]; intros FU a I S C.
  - exists a. auto.
  - inversion FU as [|? ? (U1 & U2 & U3) FU' EQ]; subst. destruct (pair_bracketed st sq b _ _ ST SQ B U2) as (SR & BR).
    destruct (step_ok b a (lean_apm_lut b) u ltac:(lia) (lean_apm_lut_ok b ltac:(lia)) I S U1 SR BR U3) as (a1 & E & I1 & S1 & C1).
    destruct (IH FU' a1 I1 S1 C1) as (a2 & E2 & R). exists a2. split; [|exact R].
    unfold apm_run in *. cbn [mfold]. rewrite E. exact E2.
Qed.

Lemma moved_learns e x w r : 1 <= e <= 2 ^ 31 - 1 -> 0 <= w <= 2 ^ 31 -> 1 <= r -> learns x r w e (moved e x w r).
Proof.
  intros E W R. destruct (moved_range e x w r E W R) as (_ & M0 & M1 & _). unfold moved in *. destruct x; cbn [negb learns] in *.
  - split; [apply M1; reflexivity|]. replace (e - (e - mulr (e / 2 ^ r) w)) with (mulr (e / 2 ^ r) w) by lia. rewrite (Z.mul_comm w). apply mulr_bounds.
  - split; [apply M0; reflexivity|]. replace (e + mulr ((2 ^ 31 - e) / 2 ^ r) w - e) with (mulr ((2 ^ 31 - e) / 2 ^ r) w) by lia.
    rewrite (Z.mul_comm w). apply mulr_bounds.
Qed.

Section History.
Variables (st : list (list Z)) (sq : list Z) (b c : Z) (al : apm_lut) (a0 a : apm) (us : list apm_use).
Hypotheses (HST : stretch_new = Ok st) (HSQ : squash_new st = Ok sq) (HB : 0 <= b <= 2) (HC : 0 <= c)
  (HM : c * (1 + 24 * 2 ^ b) < 2 ^ 64) (HAL : apm_lut_new b sq = Ok al) (HNEW : apm_new c b sq = Ok a0)
  (HUS : Forall (fair_use st sq c) us).
Lemma hist_lut : al = lean_apm_lut b.
Proof. destruct (built_tables st sq HST HSQ) as (_ & H). pose proof (apm_lut_new_ok sq b H ltac:(clear -HB; lia)) as E. rewrite HAL in E. now injection E. Qed.
Lemma hist_run : exists a', apm_run al us a0 = Ok a' /\ apm_inv b a' /\ am_saved_index a' = -1 /\ am_contexts a' = c.
Proof.
  rewrite hist_lut. destruct (built_tables st sq HST HSQ) as (H & H').
  destruct (apm_new_ok sq c b H' ltac:(clear -HB; lia) HC HM) as (E & I). rewrite HNEW in E. injection E as ->.
  now apply (run_ok st sq b c us).
Qed.
Lemma run_total : exists a', apm_run al us a0 = Ok a' /\ am_saved_index a' = -1 /\ zlen (am_mappings a') = c * (1 + 24 * 2 ^ b) /\
  Forall (fun e => 0 < e < 2 ^ 31) (am_mappings a').
Proof.
  destruct hist_run as (a' & E & (_ & _ & L & _ & F) & S & C). exists a'. split; [exact E|]. split; [exact S|].
  rewrite <- C. split; [exact L|]. revert F. apply Forall_impl. intros e R. clear -R. lia.
Qed.

Hypothesis HRUN : apm_run al us a0 = Ok a.
Variables (context p s : Z).
Hypotheses (HCX : 0 <= context < c) (HP : probability_pair st sq p s).
Lemma hist_refine : exists i wl wr left right r,
    refine a context p s al = Ok (mkApm (am_mappings a) b c i wl, r) /\ 0 <= i < 24 * 2 ^ b /\
    stop b i <= clamp b p <= stop b (i + 1) /\ 0 <= wr < 2 ^ 31 /\ wl + wr = 2 ^ 31 /\
    Z.abs (wr * (stop b (i + 1) - stop b i) - 2 ^ 31 * (clamp b p - stop b i)) <= 3 * (stop b (i + 1) - stop b i) /\
    znth (am_mappings a) (context * (1 + 24 * 2 ^ b) + i) = Some left /\
    znth (am_mappings a) (context * (1 + 24 * 2 ^ b) + i + 1) = Some right /\
    r = mulr left wl + mulr right wr /\ Z.min left right <= r <= Z.max left right + 1 /\
    3 <= left <= 2 ^ 31 - 3 /\ 3 <= right <= 2 ^ 31 - 3 /\ apm_inv b a.
Proof.
  destruct hist_run as (a' & E & I & S & C). rewrite HRUN in E. injection E as <-. rewrite hist_lut.
  destruct (built_tables st sq HST HSQ) as (H & H'). destruct (pair_bracketed st sq b p s H H' HB HP) as (SR & BR).
  destruct (refine_ok b a (lean_apm_lut b) context p s ltac:(clear -HB; lia) (lean_apm_lut_ok b ltac:(clear -HB; lia)) I S
    ltac:(rewrite C; exact HCX) SR BR) as (i & wl & wr & left & right & r & R1 & R2 & R3 & R4 & R5 & R6 & R7 & R8 & R9 & R10).
  exists i, wl, wr, left, right, r. rewrite <- C. pose proof I as (_ & _ & _ & _ & AF).
  pose proof (znth_Forall _ _ _ _ AF R7) as RL. pose proof (znth_Forall _ _ _ _ AF R8) as RR. cbv beta in RL, RR.
  exact (conj R1 (conj R2 (conj R3 (conj R4 (conj R5 (conj R6 (conj R7 (conj R8 (conj R9 (conj R10 (conj RL (conj RR I)))))))))))).
Qed.

Lemma brackets : exists a' r first last low high, refine a context p s al = Ok (a', r) /\
  znth (al_stops al) 0 = Some first /\ znth (al_stops al) (24 * 2 ^ b) = Some last /\
  znth (al_stops al) (am_saved_index a') = Some low /\ znth (al_stops al) (am_saved_index a' + 1) = Some high /\
  (let x := Z.max first (Z.min p last) in let weight_right := 2 ^ 31 - am_saved_weight a' in
   low <= x <= high /\ 0 <= weight_right <= 2 ^ 31 /\
   Z.abs (weight_right * (high - low) - 2 ^ 31 * (x - low)) <= 3 * (high - low)).
Proof.
  destruct hist_refine as (i & wl & wr & left & right & r & R1 & R2 & R3 & R4 & R5 & R6 & _).
  exists (mkApm (am_mappings a) b c i wl), r, (stop b 0), (stop b (24 * 2 ^ b)), (stop b i), (stop b (i + 1)).
  cbn [am_saved_index am_saved_weight]. apply (conj R1). clear R1. rewrite hist_lut.
  destruct (lean_apm_lut_ok b ltac:(clear -HB; lia)) as (_ & G & _). clear -R2 R3 R4 R5 R6 G.
  assert (G' : forall j, 0 <= j <= 24 * 2 ^ b -> znth (al_stops (lean_apm_lut b)) j = Some (stop b j)).
  { intros j J. apply get_inv. auto. }
  rewrite !G' by lia. do 4 (split; [reflexivity|]). cbv zeta.
  replace (Z.max (stop b 0) (Z.min p (stop b (24 * 2 ^ b)))) with (clamp b p) by apply Z.max_comm.
  replace (2 ^ 31 - wl) with wr by lia. split; [exact R3|]. split; [lia|exact R6].
Qed.

Lemma refined_between : exists a' r left right, refine a context p s al = Ok (a', r) /\ am_mappings a' = am_mappings a /\
  0 <= am_saved_index a' < 24 * 2 ^ b /\
  (let k := context * (1 + 24 * 2 ^ b) + am_saved_index a' in
   znth (am_mappings a) k = Some left /\ znth (am_mappings a) (k + 1) = Some right) /\
  Z.min left right <= r <= Z.max left right + 1 /\ 0 < r < 2 ^ 31 /\
  exists x y, r = x + y /\ nearest31 (left * am_saved_weight a') x /\ nearest31 (right * (2 ^ 31 - am_saved_weight a')) y.
Proof.
  destruct hist_refine as (i & wl & wr & left & right & r & R1 & R2 & R3 & R4 & R5 & R6 & R7 & R8 & R9 & R10 & RL & RR & _).
  exists (mkApm (am_mappings a) b c i wl), r, left, right. cbn [am_saved_index am_saved_weight am_mappings].
  apply (conj R1). clear R1. split; [reflexivity|]. split; [exact R2|]. split; [exact (conj R7 R8)|]. split; [exact R10|].
  clear -R4 R5 R9 R10 RL RR. split; [lia|]. exists (mulr left wl), (mulr right wr). split; [exact R9|].
  replace (2 ^ 31 - wl) with wr by lia. split; apply mulr_bounds.
Qed.

Lemma updates_local x rate fixed : 2 <= rate < 30 ->
  exists a1 r a2 left right left' right', refine a context p s al = Ok (a1, r) /\
  update_predictions a1 context x rate fixed = Ok a2 /\ am_saved_index a2 = -1 /\
  (let k := context * (1 + 24 * 2 ^ b) + am_saved_index a1 in
   let w := if fixed then 2 ^ 30 else am_saved_weight a1 in
   znth (am_mappings a) k = Some left /\ znth (am_mappings a2) k = Some left' /\ learns x rate w left left' /\
   znth (am_mappings a) (k + 1) = Some right /\ znth (am_mappings a2) (k + 1) = Some right' /\ learns x rate (2 ^ 31 - w) right right' /\
   (forall j, j <> k -> j <> k + 1 -> znth (am_mappings a2) j = znth (am_mappings a) j)).
Proof.
  intros RT. destruct hist_refine as (i & wl & wr & left & right & r & R1 & R2 & R3 & R4 & R5 & R6 & R7 & R8 & R9 & R10 & RL & RR & I).
  destruct I as (AB & AC & AL & AS & AF).
  assert (CC : am_contexts a = c).
  { destruct hist_run as (a' & E & _ & _ & C). rewrite HRUN in E. injection E as <-. exact C. }
  pose proof (update_ok b (mkApm (am_mappings a) b c i wl) context i wl x rate fixed left right
    ltac:(clear -HB; lia) eq_refl eq_refl eq_refl HCX R2 ltac:(clear -R4 R5; lia) ltac:(clear -RT; lia) ltac:(rewrite <- CC; exact AL) AS R7 R8 ltac:(clear -RL; lia) ltac:(clear -RR; lia)) as U.
  cbv zeta in U. cbn [am_mappings am_contexts] in U.
  set (w := if fixed then 2 ^ 30 else wl) in *.
  assert (WB : 0 <= w <= 2 ^ 31) by (unfold w; clear -R4 R5; destruct fixed; pow2; lia).
  eexists _, r, _, left, right, (moved left x w rate), (moved right x (2 ^ 31 - w) rate).
  apply (conj R1). apply (conj U). cbn [am_saved_index am_saved_weight am_mappings]. cbv zeta. fold w.
  clear R1 U HRUN HST HSQ HAL HNEW. clear HUS HP. split; [reflexivity|]. split; [exact R7|].
  pose proof (znth_Some _ _ _ R7). pose proof (znth_Some _ _ _ R8). set (k := context * (1 + 24 * 2 ^ b) + i) in *.
  split; [rewrite znth_zupd_other by lia; apply znth_zupd_same; lia|].
  split; [apply moved_learns; lia|]. split; [exact R8|].
  split; [apply znth_zupd_same; rewrite zlen_zupd; lia|]. split; [apply moved_learns; lia|].
  intros j J1 J2. now rewrite !znth_zupd_other by lia.
Qed.

Lemma alternate : (forall x rate fixed, update_predictions a context x rate fixed = Fail EAssert) /\
  exists a1 r, refine a context p s al = Ok (a1, r) /\ forall context' p' s', refine a1 context' p' s' al = Fail EAssert.
Proof.
  destruct hist_run as (a' & E & I & S & C). rewrite HRUN in E. injection E as <-. split.
  - intros. unfold update_predictions. rewrite S. reflexivity.
  - destruct hist_refine as (i & wl & wr & left & right & r & R1 & R2 & _).
    eexists _, r. apply (conj R1). clear R1. intros. unfold refine. cbn [am_bits am_saved_index]. rewrite hist_lut. cbn [al_bits lean_apm_lut].
    rewrite Z.eqb_refl. assert (T : (i =? -1) = false) by (clear -R2; lia). rewrite T. reflexivity.
Qed.
End History.

(** ** Counterexamples *)
Definition bad_p : Z := 874741763.
Lemma bad_refine : refine (lean_apm 1 3) 0 bad_p (lean_stretch bad_p) (lean_apm_lut 3) = Fail EAssert.
Proof. vm_compute. reflexivity. Qed.
Lemma three_bits_fail : exists st sq al a s, stretch_new = Ok st /\ squash_new st = Ok sq /\ apm_lut_new 3 sq = Ok al /\ apm_new 1 3 sq = Ok a /\
  stretch st 874741763 = Ok s /\ refine a 0 874741763 s al = Fail EAssert.
Proof.
  destruct tables_ok as (st & sq & E & E' & H & H'). exists st, sq, (lean_apm_lut 3), (lean_apm 1 3), (lean_stretch bad_p).
  apply (conj E). apply (conj E'). clear E E'. apply (conj (apm_lut_new_ok sq 3 H' ltac:(lia))).
  apply (conj (proj1 (apm_new_ok sq 1 3 H' ltac:(lia) ltac:(lia) ltac:(lia)))).
  exact (conj (stretch_lean st bad_p H ltac:(unfold bad_p; lia)) bad_refine).
Qed.

Definition even_p : Z := 1730716837.
Definition even_use : apm_use := mkUse 0 even_p (lean_stretch even_p) Zero 1 true.
Definition even_end : apm := mkApm (zupd (zupd (lean_stops 0) 13 (2 ^ 31 - 1)) 14 (2 ^ 31 - 1)) 0 1 (-1) (2 ^ 30).
Lemma even_run : apm_run (lean_apm_lut 0) (repeat even_use 68) (lean_apm 1 0) = Ok even_end.
Proof. vm_compute. reflexivity. Qed.
Lemma even_refine : refine even_end 0 even_p (lean_stretch even_p) (lean_apm_lut 0) = Fail EAssert.
Proof. vm_compute. reflexivity. Qed.
Lemma rate_one_fails : exists st sq al a0 a s, stretch_new = Ok st /\ squash_new st = Ok sq /\ apm_lut_new 0 sq = Ok al /\ apm_new 1 0 sq = Ok a0 /\
  stretch st 1730716837 = Ok s /\ apm_run al (repeat (mkUse 0 1730716837 s Zero 1 true) 68) a0 = Ok a /\
  refine a 0 1730716837 s al = Fail EAssert.
Proof.
  destruct tables_ok as (st & sq & E & E' & H & H'). exists st, sq, (lean_apm_lut 0), (lean_apm 1 0), even_end, (lean_stretch even_p).
  apply (conj E). apply (conj E'). clear E E'. apply (conj (apm_lut_new_ok sq 0 H' ltac:(lia))).
  apply (conj (proj1 (apm_new_ok sq 1 0 H' ltac:(lia) ltac:(lia) ltac:(lia)))).
  exact (conj (stretch_lean st even_p H ltac:(unfold even_p; lia)) (conj even_run even_refine)).
Qed.
