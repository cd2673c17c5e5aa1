(** The generator follows the recurrence. *)
From Coq Require Import ZifyBool.
From Verif Require Import Base BaseFacts UtilProofs RandomModel RandomSpec.
From Verif Require WindowProofs.
Ltac Zify.zify_post_hook ::= Z.div_mod_to_equations.

(** ** Bits *)
Lemma wrap64 z : wrap u64 z = z mod 2 ^ 64. Proof. reflexivity. Qed.
Lemma folded_eq a : folded a = xor_high a. Proof. unfold folded, xor_high. now rewrite Z.shiftr_div_pow2 by lia. Qed.
Lemma land_wrap y mask : 0 <= mask < 2 ^ 64 -> Z.land (wrap u64 y) mask = Z.land y mask.
Proof.
  intros M. rewrite wrap64. rewrite <- Z.land_ones by lia. rewrite <- Z.land_assoc. f_equal. rewrite Z.land_comm, Z.land_ones by lia. apply Z.mod_small. exact M.
Qed.
Lemma tempered_eq x : tempered x = temper x.
Proof.
  unfold tempered, temper. rewrite !land_wrap by (split; [discriminate|reflexivity]). rewrite !Z.shiftr_div_pow2, !Z.shiftl_mul_pow2 by lia. reflexivity.
Qed.
Lemma high_low a b : 0 <= a < 2 ^ 64 -> 0 <= b -> Z.lor (Z.land a um) (Z.land b lm) = a / 2 ^ 31 * 2 ^ 31 + b mod 2 ^ 31.
Proof.
  intros A B. assert (L : Z.land b lm = b mod 2 ^ 31) by (change lm with (Z.ones 31); apply Z.land_ones; lia).
  assert (H : Z.land a um = Z.shiftl (a / 2 ^ 31) 31).
  { apply Z.bits_inj'. intros n N. rewrite Z.land_spec, Z.shiftl_spec by exact N. rewrite <- Z.shiftr_div_pow2 by lia.
    change um with (Z.shiftl (Z.ones 33) 31). rewrite Z.shiftl_spec by exact N. destruct (Z.lt_ge_cases n 31) as [LT|GE].
    - rewrite (Z.testbit_neg_r (Z.ones 33)), (Z.testbit_neg_r (Z.shiftr a 31)) by lia. apply andb_false_r.
    - rewrite Z.shiftr_spec by lia. replace (n - 31 + 31) with n by lia. rewrite Z.testbit_ones_nonneg by lia. destruct (Z.ltb_spec (n - 31) 33); [apply andb_true_r|]. rewrite andb_false_r. symmetry.
      rewrite <- (Z.mod_small a (2 ^ 64)) by exact A. apply Z.mod_pow2_bits_high. lia. }
  rewrite L, H. rewrite <- Z.shiftl_mul_pow2 by lia.
  assert (D : Z.land (Z.shiftl (a / 2 ^ 31) 31) (b mod 2 ^ 31) = 0).
  { apply Z.bits_inj'. intros n N. rewrite Z.land_spec, Z.shiftl_spec, Z.bits_0 by exact N. destruct (Z.lt_ge_cases n 31) as [LT|GE].
    - rewrite (Z.testbit_neg_r (a / 2 ^ 31)) by lia. reflexivity.
    - rewrite Z.mod_pow2_bits_high by lia. apply andb_false_r. }
  rewrite <- (Z.lxor_lor _ _ D). symmetry. exact (Z.add_nocarry_lxor _ _ D).
Qed.
Lemma word_range n a : 0 <= n -> 0 <= a mod 2 ^ n < 2 ^ n. Proof. intros N. apply Z.mod_pos_bound. lia. Qed.
Lemma twist_range a b : 0 <= a < 2 ^ 64 -> 0 <= twist a b < 2 ^ 64.
Proof.
  intros A. unfold twist. apply lxor_range; [lia| |destruct (Z.odd _); lia]. pose proof (Z.mod_pos_bound b (2 ^ 31) ltac:(lia)).
  assert (0 <= a / 2 ^ 31 < 2 ^ 33) by lia. lia.
Qed.

Lemma mfold_zseq {S} (step : S -> Z -> res S) (P : Z -> S -> Prop) : forall n a s,
  (forall i s, a <= i < a + Z.of_nat n -> P i s -> exists s', step s i = Ok s' /\ P (i + 1) s') -> P a s -> exists s', mfold step (zseq a n) s = Ok s' /\ P (a + Z.of_nat n) s'.
Proof.
  induction n as [|n IH]; intros a s H P0.
  - exists s. split; [reflexivity|]. now rewrite Z.add_0_r.
  - cbn [zseq mfold]. destruct (H a s ltac:(lia) P0) as (s1 & -> & P1). cbn [bind]. destruct (IH (a + 1) s1) as (s2 & E & P2); [intros i s' I; apply H; lia|exact P1|].
    exists s2. split; [exact E|]. now replace (a + Z.of_nat (Datatypes.S n)) with (a + 1 + Z.of_nat n) by lia.
Qed.

(** ** Generation *)
Section Gen.
  Variables (first : list Z) (x : nat -> Z).
  Hypothesis R : recurrent first x.
  Hypothesis FR : Forall (fun a => 0 <= a < 2 ^ 64) first.
  Lemma x_range k : 0 <= x k < 2 ^ 64.
  Proof.
    induction k as [k IH] using (well_founded_induction lt_wf). destruct R as (R0 & R1). destruct (Nat.lt_ge_cases k 312) as [L|G].
    - rewrite R0 by exact L. destruct (Nat.lt_ge_cases k (length first)) as [L'|G']; [exact (proj1 (Forall_forall _ _) FR _ (nth_In _ _ L'))|]. rewrite nth_overflow by exact G'. lia.
    - replace k with (k - 312 + 312)%nat by lia. rewrite R1. apply lxor_range; [lia|apply IH; lia|]. apply twist_range. apply IH. lia.
  Qed.
  (** The words up to [i] are renewed. *)
  Definition mixed (b : nat) (i : Z) (st : list Z) : Prop := forall j, 0 <= j < 312 -> znth st j = Some (x (b + Z.to_nat j + (if (j <? i)%Z then 312 else 0))%nat).
  Lemma renew_ok b i st : 0 <= i < 312 -> mixed b i st -> exists st', renew st i (if i =? 311 then 0 else i + 1) (if i <? 156 then i + 156 else i - 156) = Ok st' /\ mixed b (i + 1) st'.
  Proof.
    intros I M. unfold renew. rewrite (get_ok st i _ (M i I)). cbn [bind]. replace (i <? i) with false by lia.
    assert (N : get st (if i =? 311 then 0 else i + 1) = Ok (x (b + Z.to_nat i + 1)%nat)).
    { destruct (Z.eqb_spec i 311) as [->|NE].
      - rewrite (get_ok st 0 _ (M 0 ltac:(lia))). replace (0 <? 311) with true by lia. f_equal. f_equal. lia.
      - rewrite (get_ok st (i + 1) _ (M (i + 1) ltac:(lia))). replace (i + 1 <? i) with false by lia. f_equal. f_equal. lia. }
    assert (F : get st (if i <? 156 then i + 156 else i - 156) = Ok (x (b + Z.to_nat i + 156)%nat)).
    { destruct (Z.ltb_spec i 156).
      - rewrite (get_ok st (i + 156) _ (M (i + 156) ltac:(lia))). replace (i + 156 <? i) with false by lia. f_equal. f_equal. lia.
      - rewrite (get_ok st (i - 156) _ (M (i - 156) ltac:(lia))). replace (i - 156 <? i) with true by lia. f_equal. f_equal. lia. }
    rewrite N, F. cbn [bind]. rewrite Nat.add_0_r. pose proof (x_range (b + Z.to_nat i)) as XA. pose proof (x_range (b + Z.to_nat i + 1)) as XB. rewrite (high_low _ _ XA (proj1 XB)).
    set (y := x (b + Z.to_nat i)%nat / 2 ^ 31 * 2 ^ 31 + x (b + Z.to_nat i + 1)%nat mod 2 ^ 31).
    assert (G : get mag01 (Z.land y 1) = Ok (if Z.odd y then 0xB5026F5AA96619E9 else 0)).
    { change 1 with (Z.ones 1) at 1. rewrite Z.land_ones by lia. change (2 ^ 1) with 2. rewrite Zmod_odd. destruct (Z.odd y); reflexivity. }
    rewrite G. cbn [bind]. rewrite Z.shiftr_div_pow2 by lia. change (2 ^ 1) with 2. rewrite Z.lxor_assoc.
    replace (Z.lxor (x (b + Z.to_nat i + 156)%nat) _) with (x (b + Z.to_nat i + 312)%nat) by (destruct R as (_ & R1); rewrite R1; reflexivity).
    pose proof (znth_Some _ _ _ (M i I)) as LI. rewrite set_ok by exact LI. eexists. split; [reflexivity|]. intros j J. destruct (Z.eq_dec j i) as [->|NJ].
    - rewrite znth_zupd_same by exact LI. replace (i <? i + 1) with true by lia. reflexivity.
    - rewrite znth_zupd_other by lia. rewrite M by exact J. destruct (Z.ltb_spec j i), (Z.ltb_spec j (i + 1)); lia || reflexivity.
  Qed.
  Lemma mixed_next b st : mixed b 312 st -> mixed (b + 312) 0 st.
  Proof. intros M j J. rewrite M by exact J. replace (j <? 312) with true by lia. replace (j <? 0) with false by lia. do 2 f_equal. lia. Qed.
  Lemma block_ok b st : mixed b 0 st ->
    exists st', (let* state := mfold (fun state i => renew state i (i + 1) (i + mm)) (zseq 0 (Z.to_nat (nn - mm))) st in
                 let* state := mfold (fun state i => renew state i (i + 1) (i + mm - nn)) (zseq (nn - mm) (Z.to_nat (mm - 1))) state in
                 let* state := renew state (nn - 1) 0 (mm - 1) in Ok (mkTwister state 0)) = Ok (mkTwister st' 0) /\ mixed (b + 312) 0 st'.
  Proof.
    intros M. unfold mm, nn. change (Z.to_nat (312 - 156)) with 156%nat. change (312 - 156) with 156. change (Z.to_nat (156 - 1)) with 155%nat.
    destruct (mfold_zseq (fun state i => renew state i (i + 1) (i + 156)) (mixed b) 156 0 st) as (s1 & -> & M1); [|exact M|].
    { intros i s I MI. destruct (renew_ok b i s ltac:(lia) MI) as (s' & E & M'). replace (i =? 311) with false in E by lia. replace (i <? 156) with true in E by lia. exists s'. auto. }
    cbn [bind]. destruct (mfold_zseq (fun state i => renew state i (i + 1) (i + 156 - 312)) (mixed b) 155 156 s1) as (s2 & -> & M2); [|exact M1|].
    { intros i s I MI. destruct (renew_ok b i s ltac:(lia) MI) as (s' & E & M'). replace (i =? 311) with false in E by lia. replace (i <? 156) with false in E by lia. exists s'.
      replace (i + 156 - 312) with (i - 156) by lia. auto. }
    cbn [bind]. destruct (renew_ok b 311 s2 ltac:(lia) M2) as (s3 & E & M3). change (312 - 1) with 311. change (156 - 1) with 155. replace (if 311 =? 311 then 0 else 311 + 1) with 0 in E by reflexivity.
    replace (if 311 <? 156 then 311 + 156 else 311 - 156) with 155 in E by reflexivity. rewrite E. cbn [bind]. exists s3. split; [reflexivity|]. apply mixed_next. exact M3.
  Qed.
  Definition reached (k : nat) (mt : twister) : Prop := exists b, mixed b 0 (mt_state mt) /\ 0 <= mt_index mt <= 312 /\ Z.of_nat b + mt_index mt = 312 + Z.of_nat k.
  Lemma next_ok k mt : reached k mt -> exists mt', next_int64 mt = Ok (temper (x (312 + k)%nat), mt') /\ reached (k + 1) mt'.
  Proof.
    intros (b & M & I & E). unfold next_int64. rewrite assert_true by (unfold nn; lia). cbn [bind].
    assert (G : exists mt1, (if mt_index mt =? nn then
         let* state := mfold (fun state i => renew state i (i + 1) (i + mm)) (zseq 0 (Z.to_nat (nn - mm))) (mt_state mt) in
         let* state := mfold (fun state i => renew state i (i + 1) (i + mm - nn)) (zseq (nn - mm) (Z.to_nat (mm - 1))) state in
         let* state := renew state (nn - 1) 0 (mm - 1) in Ok (mkTwister state 0) else Ok mt) = Ok mt1 /\ reached k mt1 /\ mt_index mt1 < 312).
    { change nn with 312 at 1. destruct (Z.eqb_spec (mt_index mt) 312) as [EQ|NE].
      - destruct (block_ok b (mt_state mt) M) as (s & -> & M'). eexists. split; [reflexivity|]. split; [|reflexivity]. exists (b + 312)%nat. cbn [mt_state mt_index]. split; [exact M'|]. lia.
      - exists mt. split; [reflexivity|]. split; [|lia]. exists b. auto. }
    destruct G as (mt1 & -> & (b1 & M1 & I1 & E1) & L). cbn [bind]. rewrite (get_ok _ _ _ (M1 (mt_index mt1) ltac:(lia))). cbn [bind]. replace (mt_index mt1 <? 0) with false by lia.
    rewrite add_ok by (cbn [usize imin imax]; ib; lia). cbn [bind]. rewrite tempered_eq. assert (EX : (b1 + Z.to_nat (mt_index mt1) + 0 = 312 + k)%nat) by lia. rewrite EX. eexists. split; [reflexivity|]. exists b1. cbn [mt_state mt_index]. split; [exact M1|]. lia.
  Qed.
  Lemma outputs_ok : forall n k mt, reached k mt -> outputs n mt = Ok (map (fun i => temper (x (312 + i)%nat)) (seq k n)).
  Proof.
    induction n as [|n IH]; intros k mt H; [reflexivity|]. cbn [outputs seq map]. destruct (next_ok k mt H) as (mt' & -> & H'). cbn [bind fst snd].
    replace (S k) with (k + 1)%nat by lia. rewrite (IH _ _ H'). reflexivity.
  Qed.
  Lemma mixed_first st : (forall j, 0 <= j < 312 -> znth st j = Some (nth (Z.to_nat j) first 0)) -> mixed 0 0 st.
  Proof. intros H j J. rewrite H by exact J. replace (j <? 0) with false by lia. f_equal. destruct R as (R0 & _). rewrite R0 by lia. f_equal. lia. Qed.
End Gen.
Lemma temper_range x : 0 <= x < 2 ^ 64 -> 0 <= temper x < 2 ^ 64.
Proof.
  intros X. unfold temper. assert (LA : forall a m, 0 <= m < 2 ^ 64 -> 0 <= Z.land a m < 2 ^ 64).
  { intros a m M. split; [apply Z.land_nonneg; lia|]. rewrite <- (Z.mod_small m (2 ^ 64)) by exact M. rewrite <- Z.land_ones by lia. rewrite Z.land_assoc, Z.land_ones by lia. apply word_range. lia. }
  assert (X1 : 0 <= Z.lxor x (Z.land (x / 2 ^ 29) 0x5555555555555555) < 2 ^ 64) by (apply lxor_range; [lia|exact X|apply LA; lia]). set (x1 := Z.lxor x _) in *.
  assert (X2 : 0 <= Z.lxor x1 (Z.land (x1 * 2 ^ 17) 0x71D67FFFEDA60000) < 2 ^ 64) by (apply lxor_range; [lia|exact X1|apply LA; lia]). set (x2 := Z.lxor x1 _) in *.
  assert (X3 : 0 <= Z.lxor x2 (Z.land (x2 * 2 ^ 37) 0xFFF7EEE000000000) < 2 ^ 64) by (apply lxor_range; [lia|exact X2|apply LA; lia]). set (x3 := Z.lxor x2 _) in *.
  apply lxor_range; [lia|exact X3|]. clearbody x3. clear -X3. lia.
Qed.

(** ** Sequences exist *)
Lemma slide_length l : length l = 312%nat -> length (slide l) = 312%nat.
Proof. intros L. unfold slide. rewrite app_length. destruct l; [discriminate|]. cbn [tl length] in *. lia. Qed.
Lemma iter_length l k : length l = 312%nat -> length (Nat.iter k slide l) = 312%nat.
Proof. intros L. induction k as [|k IH]; [exact L|]. cbn [Nat.iter nat_rect]. now apply slide_length. Qed.
Lemma slide_nth l j : length l = 312%nat -> (j < 311)%nat -> nth j (slide l) 0 = nth (j + 1) l 0.
Proof.
  intros L J. unfold slide. destruct l as [|a l]; [discriminate|]. cbn [tl length] in *. rewrite app_nth1 by lia. replace (j + 1)%nat with (S j) by lia. reflexivity.
Qed.
Lemma iter_nth l : length l = 312%nat -> forall j k, (j < 312)%nat -> nth j (Nat.iter k slide l) 0 = sequence l (k + j).
Proof.
  intros L. induction j as [|j IH]; intros k J; [now rewrite Nat.add_0_r|]. replace (k + S j)%nat with (S k + j)%nat by lia. rewrite <- IH by lia. cbn [Nat.iter nat_rect].
  rewrite slide_nth by (try apply iter_length; lia). f_equal. lia.
Qed.
Lemma sequence_recurrent first : length first = 312%nat -> recurrent first (sequence first).
Proof.
  intros L. split.
  - intros k K. rewrite <- (Nat.add_0_l k). rewrite <- iter_nth by assumption. reflexivity.
  - intros k. replace (k + 312)%nat with (S k + 311)%nat by lia. rewrite <- iter_nth by lia. cbn [Nat.iter nat_rect]. pose proof (iter_length first k L) as LK. fold (Nat.iter k slide first).
    unfold slide at 1. rewrite app_nth2; (destruct (Nat.iter k slide first) as [|a l] eqn:E; [discriminate|]); cbn [tl length] in *; [|lia]. replace (311 - length l)%nat with 0%nat by lia. cbn [nth].
    rewrite <- !iter_nth by lia. rewrite E. replace (nth 0 (Nat.iter k slide first) 0) with a by now rewrite E. unfold sequence. rewrite E. reflexivity.
Qed.
Lemma recurrent_unique first x y : recurrent first x -> recurrent first y -> forall k, x k = y k.
Proof.
  intros (X0 & X1) (Y0 & Y1) k. induction k as [k IH] using (well_founded_induction lt_wf). destruct (Nat.lt_ge_cases k 312) as [L|G]; [now rewrite X0, Y0|].
  replace k with (k - 312 + 312)%nat by lia. rewrite X1, Y1. rewrite !IH by lia. reflexivity.
Qed.

(** ** Seeding by a number *)
Lemma nth_map_seq (f : nat -> Z) n k : (k < n)%nat -> nth k (map f (seq 0 n)) 0 = f k.
Proof. intros K. rewrite (nth_indep _ 0 (f 0%nat)) by (rewrite map_length, seq_length; exact K). rewrite map_nth, seq_nth by exact K. reflexivity. Qed.
Lemma seed_word_range seed k : 0 <= seed < 2 ^ 64 -> 0 <= seed_word seed k < 2 ^ 64.
Proof. intros S. destruct k as [|k]; [exact S|]. cbn [seed_word]. apply word_range. lia. Qed.
Lemma scalar_words_range seed : 0 <= seed < 2 ^ 64 -> Forall (fun a => 0 <= a < 2 ^ 64) (scalar_words seed).
Proof. intros S. apply Forall_forall. intros a A. apply in_map_iff in A. destruct A as (k & <- & _). now apply seed_word_range. Qed.
Lemma scalar_words_nth seed k : (k < 312)%nat -> nth k (scalar_words seed) 0 = seed_word seed k. Proof. apply nth_map_seq. Qed.
Lemma scalar_ok seed : exists st, new_by_scalar_seed seed = Ok (mkTwister st 312) /\ zlen st = 312 /\ forall j, 0 <= j < 312 -> znth st j = Some (seed_word seed (Z.to_nat j)).
Proof.
  unfold new_by_scalar_seed. change (Z.to_nat nn) with 312%nat. assert (L0 : zlen (repeat 0 312) = 312) by reflexivity. rewrite set_ok by lia. cbn [bind].
  destruct (mfold_zseq seed_step (fun i st => zlen st = 312 /\ forall j, 0 <= j < i -> znth st j = Some (seed_word seed (Z.to_nat j))) (Z.to_nat (nn - 1)) 1 (zupd (repeat 0 312) 0 seed)) as (st & -> & LS & H).
  - intros i st I (LS & H). unfold seed_step. change (Z.of_nat (Z.to_nat (nn - 1))) with 311 in I. rewrite (get_ok _ _ _ (H (i - 1) ltac:(lia))). cbn [bind]. rewrite set_ok by lia. eexists. split; [reflexivity|].
    rewrite zlen_zupd. split; [exact LS|]. intros j J. destruct (Z.eq_dec j i) as [->|N]; [|rewrite znth_zupd_other by lia; apply H; lia]. rewrite znth_zupd_same by lia. f_equal.
    rewrite folded_eq, !wrap64. replace (Z.to_nat i) with (S (Z.to_nat (i - 1))) by lia. cbn [seed_word]. rewrite <- Zplus_mod. f_equal. f_equal. lia.
  - split; [now rewrite zlen_zupd|]. intros j J. replace j with 0 by lia. rewrite znth_zupd_same by lia. reflexivity.
  - cbn [bind]. exists st. split; [reflexivity|]. split; [exact LS|]. exact H.
Qed.
Lemma scalar_outputs seed x n : 0 <= seed < 2 ^ 64 -> recurrent (scalar_words seed) x ->
  exists mt, new_by_scalar_seed seed = Ok mt /\ outputs n mt = Ok (map (fun k => temper (x (312 + k)%nat)) (seq 0 n)).
Proof.
  intros S R. destruct (scalar_ok seed) as (st & E & L & H). eexists. split; [exact E|]. apply (outputs_ok (scalar_words seed) x R (scalar_words_range seed S) n 0).
  exists 0%nat. cbn [mt_state mt_index]. split; [|lia]. apply (mixed_first _ _ R). intros j J. rewrite H by exact J. rewrite scalar_words_nth by lia. reflexivity.
Qed.

(** ** Seeding by a key *)
Definition spread_out (q state : list Z) (i : Z) : Prop := exists k, length q = (312 + k)%nat /\ zlen state = 312 /\ i = 1 + Z.of_nat k mod 311 /\
  (forall s, Z.of_nat k + 1 <= s <= Z.of_nat k + 311 -> znth state (1 + (s - 1) mod 311) = Some (nth (Z.to_nat s) q 0)) /\
  (i = 1 -> znth state 0 = Some (match k with O => hd 0 q | S _ => last q 0 end)).
Lemma last_nth (q : list Z) : q <> [] -> last q 0 = nth (length q - 1) q 0.
Proof. intros N. destruct q as [|a q] using rev_ind; [congruence|]. rewrite last_last, app_length. cbn [length]. replace (length q + 1 - 1)%nat with (length q) by lia. now rewrite nth_middle. Qed.
Lemma spread_step q state i v : spread_out q state i -> exists old state' i', get state i = Ok old /\ old = nth (length q - 312 + 1) q 0 /\
  get state (i - 1) = Ok (match (length q - 312)%nat with O => hd 0 q | S _ => last q 0 end) /\
  (let* st := set state i v in step_over st i) = Ok (state', i') /\ spread_out (q ++ [v]) state' i'.
Proof.
  intros (k & LQ & LS & -> & H & H0). rewrite LQ. replace (312 + k - 312)%nat with k by lia. set (kz := Z.of_nat k) in *.
  assert (HO : znth state (1 + kz mod 311) = Some (nth (k + 1) q 0)).
  { pose proof (H (kz + 1) ltac:(lia)) as HH. replace (kz + 1 - 1) with kz in HH by lia. rewrite HH. do 2 f_equal. unfold kz. lia. }
  assert (HL : get state (1 + kz mod 311 - 1) = Ok (match k with O => hd 0 q | S _ => last q 0 end)).
  { apply get_ok. destruct (Z.eq_dec (kz mod 311) 0) as [E|N]; [rewrite E; rewrite E in H0; exact (H0 eq_refl)|]. assert (K : exists k', k = S k') by (destruct k; [exfalso; apply N; reflexivity|eauto]). destruct K as (k' & EK). replace (match k with O => hd 0 q | S _ => last q 0 end) with (last q 0) by (rewrite EK; reflexivity).
    pose proof (H (kz + 311) ltac:(lia)) as HH. replace (1 + (kz + 311 - 1) mod 311) with (1 + kz mod 311 - 1) in HH by lia. rewrite HH. f_equal. rewrite last_nth by (intros ->; discriminate). f_equal. unfold kz. lia. }
  pose proof (Z.mod_pos_bound kz 311 ltac:(lia)) as KB. rewrite (get_ok _ _ _ HO), HL. rewrite set_ok by lia. cbn [bind]. set (st := zupd state (1 + kz mod 311) v). assert (LT : zlen st = 312) by (unfold st; now rewrite zlen_zupd).
  assert (G : forall s, kz + 2 <= s <= kz + 312 -> znth st (1 + (s - 1) mod 311) = Some (nth (Z.to_nat s) (q ++ [v]) 0)).
  { intros s S. unfold st. destruct (Z.eq_dec s (kz + 312)) as [->|N].
    - replace (1 + (kz + 312 - 1) mod 311) with (1 + kz mod 311) by lia. rewrite znth_zupd_same by lia. f_equal. replace (Z.to_nat (kz + 312)) with (length q) by (unfold kz; lia). now rewrite nth_middle.
    - rewrite znth_zupd_other by lia. rewrite H by lia. f_equal. symmetry. apply app_nth1. unfold kz in *. lia. }
  assert (LQ' : length (q ++ [v]) = (312 + (k + 1))%nat) by (rewrite app_length; cbn [length]; lia).
  unfold step_over. rewrite add_ok by (cbn [usize imin imax]; ib; lia). cbn [bind]. unfold nn. destruct (Z.leb_spec 312 (1 + kz mod 311 + 1)) as [E|NE].
  - change (312 - 1) with 311. pose proof (G (kz + 312) ltac:(lia)) as GL. replace (1 + (kz + 312 - 1) mod 311) with 311 in GL by lia. rewrite (get_ok _ _ _ GL). cbn [bind]. rewrite set_ok by lia. cbn [bind].
    eexists _, _, _. split; [reflexivity|]. split; [reflexivity|]. split; [reflexivity|]. split; [reflexivity|]. exists (k + 1)%nat. split; [exact LQ'|]. split; [now rewrite zlen_zupd|]. split; [unfold kz in *; lia|]. split.
    + intros s S. rewrite znth_zupd_other by lia. apply G. unfold kz. lia.
    + intros _. rewrite znth_zupd_same by lia. f_equal. replace (k + 1)%nat with (S k) by lia. rewrite last_last. replace (Z.to_nat (kz + 312)) with (length q) by (unfold kz; lia). now rewrite nth_middle.
  - cbn [bind]. eexists _, _, _. split; [reflexivity|]. split; [reflexivity|]. split; [reflexivity|]. split; [reflexivity|]. exists (k + 1)%nat. split; [exact LQ'|]. split; [exact LT|]. split; [unfold kz in *; lia|]. split.
    + intros s S. apply G. unfold kz. lia.
    + intros I1. exfalso. lia.
Qed.
Lemma iter_S {A} (f : A -> A) n a : Nat.iter (S n) f a = f (Nat.iter n f a). Proof. reflexivity. Qed.
Lemma absorb_grows f e q : length (absorb f e q) = (length q + 1)%nat. Proof. unfold absorb. rewrite app_length. reflexivity. Qed.
Lemma absorb_length f e q n : length (Nat.iter n (absorb f e) q) = (length q + n)%nat.
Proof. induction n as [|n IH]; [symmetry; apply Nat.add_0_r|]. rewrite iter_S, absorb_grows. lia. Qed.
Lemma key_loop key q0 st : key <> [] -> zlen key < 2 ^ 63 -> length q0 = 312%nat -> spread_out q0 st 1 -> forall n, exists st' i,
  mfold (key_step key) (zseq 0 n) (st, 1, 0) = Ok (st', i, Z.of_nat (n mod length key)) /\ spread_out (Nat.iter n (absorb 3935559000370003845 (key_extra key)) q0) st' i.
Proof.
  intros NE LM LQ SP n. assert (LK : (0 < length key)%nat) by (destruct key; [congruence|cbn [length]; lia]). induction n as [|n (st1 & i & E & S1)].
  - exists st, 1. rewrite Nat.mod_small by lia. split; [reflexivity|exact SP].
  - assert (EZ : zseq 0 (S n) = zseq 0 n ++ [0 + Z.of_nat n]) by (replace (S n) with (n + 1)%nat by lia; apply WindowProofs.zseq_app). rewrite EZ, mfold_app, E. cbn [bind mfold]. rewrite iter_S. pose proof (absorb_length 3935559000370003845 (key_extra key) q0 n) as LN. set (q := Nat.iter n _ q0) in *.
    pose proof (Nat.mod_upper_bound n (length key) ltac:(lia)) as MB. set (v := (Z.lxor (nth (length q - 312 + 1) q 0) ((3935559000370003845 * xor_high (match (length q - 312)%nat with O => hd 0 q | S _ => last q 0 end)) mod 2 ^ 64) + key_extra key (length q - 312)) mod 2 ^ 64).
    destruct (spread_step q st1 i v S1) as (old & st2 & i2 & GO & EO & GL & ST & S2). exists st2, i2. unfold key_step. rewrite GO. cbn [bind]. rewrite GL. cbn [bind].
    rewrite (get_ok key _ (nth (n mod length key) key 0)).
    2:{ rewrite znth_nth_error by lia. rewrite Nat2Z.id. apply nth_error_nth'. exact MB. }
    cbn [bind]. match goal with |- context [set st1 i ?V] => replace V with v end.
    2:{ rewrite folded_eq, !wrap64. unfold v, key_extra. rewrite EO. replace (length q - 312)%nat with n by lia. rewrite <- Zplus_mod, Z.add_assoc, (Z.mul_comm 3935559000370003845). reflexivity. }
    destruct (set st1 i v) as [s|]; [|discriminate]. cbn [bind] in ST |- *. rewrite ST. cbn [bind fst snd]. rewrite add_ok by (cbn [usize imin imax]; ib; unfold zlen in *; lia). cbn [bind].
    split; [|exact S2]. do 2 f_equal. unfold zlen. destruct (Z.leb_spec (Z.of_nat (length key)) (Z.of_nat (n mod length key) + 1)) as [GE|LT].
    + replace (S n mod length key)%nat with 0%nat; [reflexivity|]. symmetry. apply Nat.mod_divides; [lia|]. exists (S (n / length key)). pose proof (Nat.div_mod n (length key) ltac:(lia)). nia.
    + replace (S n mod length key)%nat with (S (n mod length key)); [lia|]. apply (Nat.mod_unique _ _ (n / length key)); [lia|]. pose proof (Nat.div_mod n (length key) ltac:(lia)). lia.
Qed.
Lemma blend_loop q0 st i0 : spread_out q0 st i0 -> forall n a, exists st' i,
  mfold blend_step (zseq a n) (st, i0) = Ok (st', i) /\ spread_out (Nat.iter n (absorb 2862933555777941757 blend_extra) q0) st' i.
Proof.
  intros SP n a. induction n as [|n (st1 & i & E & S1)]; [exists st, i0; split; [reflexivity|exact SP]|].
  assert (EZ : zseq a (S n) = zseq a n ++ [a + Z.of_nat n]) by (replace (S n) with (n + 1)%nat by lia; apply WindowProofs.zseq_app). rewrite EZ, mfold_app, E. cbn [bind mfold]. rewrite iter_S. clear E. set (q := Nat.iter n _ q0) in *.
  set (v := (Z.lxor (nth (length q - 312 + 1) q 0) ((2862933555777941757 * xor_high (match (length q - 312)%nat with O => hd 0 q | S _ => last q 0 end)) mod 2 ^ 64) + blend_extra (length q - 312)) mod 2 ^ 64).
  destruct (spread_step q st1 i v S1) as (old & st2 & i2 & GO & EO & GL & ST & S2). exists st2, i2. unfold blend_step. rewrite GO. cbn [bind]. rewrite GL. cbn [bind].
  match goal with |- context [set st1 i ?V] => replace V with v end.
  2:{ rewrite folded_eq, !wrap64. unfold v, blend_extra. rewrite EO. rewrite Zminus_mod_idemp_r, (Z.mul_comm 2862933555777941757). destruct S1 as (k & LQ & _ & -> & _). replace (length q - 312)%nat with k by lia.
      f_equal. assert (EM : Z.of_nat (1 + k mod 311) = 1 + Z.of_nat k mod 311) by (rewrite Nat2Z.inj_add, Nat2Z.inj_mod; reflexivity). rewrite EM. ring. }
  destruct (set st1 i v) as [s|]; [|discriminate]. cbn [bind] in ST |- *. rewrite ST. cbn [bind]. split; [reflexivity|exact S2].
Qed.
Lemma nth_zseq_map (f : Z -> Z) n : forall a k, (k < n)%nat -> nth k (map f (zseq a n)) 0 = f (a + Z.of_nat k).
Proof.
  induction n as [|n IH]; intros a k K; [lia|]. cbn [zseq map]. destruct k as [|k]; cbn [nth]; [f_equal; lia|]. rewrite IH by lia. f_equal. lia.
Qed.
Lemma key_ok key : key <> [] -> zlen key < 2 ^ 63 -> exists st, new_by_vector_seed key = Ok (mkTwister st 312) /\ forall j, 0 <= j < 312 -> znth st j = Some (nth (Z.to_nat j) (key_words key) 0).
Proof.
  intros NE LM. unfold new_by_vector_seed. destruct (scalar_ok 19650218) as (st & -> & L & H). cbn [bind mt_state mt_index]. set (q0 := scalar_words 19650218). assert (LQ0 : length q0 = 312%nat) by reflexivity.
  assert (S0 : spread_out q0 st 1).
  { exists 0%nat. split; [exact LQ0|]. split; [exact L|]. split; [reflexivity|]. split.
    - intros s S. replace (1 + (s - 1) mod 311) with s by lia. rewrite H by lia. f_equal. symmetry. apply scalar_words_nth. lia.
    - intros _. rewrite H by lia. reflexivity. }
  replace (Z.to_nat (Z.max nn (zlen key))) with (max 312 (length key)) by (unfold nn, zlen; lia). set (n := max 312 (length key)). destruct (key_loop key q0 st NE LM LQ0 S0 n) as (st1 & i1 & -> & S1). cbn [bind].
  assert (KS : exists m, m = 311%nat /\ key_sequence key = Nat.iter m (absorb 2862933555777941757 blend_extra) (Nat.iter n (absorb 3935559000370003845 (key_extra key)) q0)) by (exists 311%nat; split; reflexivity).
  destruct KS as (m & EM & KS). replace (Z.to_nat (nn - 1)) with m by (rewrite EM; reflexivity). destruct (blend_loop _ _ _ S1 m 1) as (st2 & i2 & -> & S2). cbn [bind fst].
  rewrite <- KS in S2. destruct S2 as (k & LQ & LS & _ & HS & _).
  assert (EK : k = (n + 311)%nat).
  { rewrite KS, !absorb_length in LQ. lia. }
  rewrite set_ok by lia. cbn [bind]. eexists. split; [reflexivity|]. intros j J. unfold key_words. fold n. cbv zeta. destruct (Z.eq_dec j 0) as [->|NJ]; [rewrite znth_zupd_same by lia; reflexivity|].
  rewrite znth_zupd_other by lia. replace (Z.to_nat j) with (S (Z.to_nat (j - 1))) by lia. cbn [nth]. rewrite nth_zseq_map by lia. rewrite Z2Nat.id by lia. replace (1 + (j - 1)) with j by lia.
  pose proof (HS (312 + Z.of_nat n + (j - 1 - Z.of_nat n) mod 311) ltac:(pose proof (Z.mod_pos_bound (j - 1 - Z.of_nat n) 311 ltac:(lia)); lia)) as HH.
  replace (1 + (312 + Z.of_nat n + (j - 1 - Z.of_nat n) mod 311 - 1) mod 311) with j in HH; [exact HH|].
  replace (312 + Z.of_nat n + (j - 1 - Z.of_nat n) mod 311 - 1) with ((j - 1 - Z.of_nat n) mod 311 + (Z.of_nat n + 311)) by lia. rewrite Zplus_mod_idemp_l. replace (j - 1 - Z.of_nat n + (Z.of_nat n + 311)) with (j - 1 + 1 * 311) by lia.
  rewrite Z_mod_plus_full, Z.mod_small by lia. lia.
Qed.
Lemma key_words_range key : Forall (fun a => 0 <= a < 2 ^ 64) (key_words key).
Proof.
  assert (AB : forall f e q, Forall (fun a => 0 <= a < 2 ^ 64) q -> Forall (fun a => 0 <= a < 2 ^ 64) (absorb f e q)).
  { intros f e q F. unfold absorb. apply Forall_app. split; [exact F|]. constructor; [apply word_range; lia|constructor]. }
  assert (IT : forall f e q n, Forall (fun a => 0 <= a < 2 ^ 64) q -> Forall (fun a => 0 <= a < 2 ^ 64) (Nat.iter n (absorb f e) q)) by (intros f e q n F; induction n as [|n IH]; [exact F|]; rewrite iter_S; now apply AB).
  assert (KS : Forall (fun a => 0 <= a < 2 ^ 64) (key_sequence key)) by (unfold key_sequence; apply IT, IT, scalar_words_range; lia).
  unfold key_words. cbv zeta. constructor; [lia|]. apply Forall_forall. intros a A. apply in_map_iff in A. destruct A as (i & <- & _).
  match goal with |- context [nth ?k _ 0] => destruct (Nat.lt_ge_cases k (length (key_sequence key))) as [LT|GE] end; [exact (proj1 (Forall_forall _ _) KS _ (nth_In _ _ LT))|]. rewrite nth_overflow by exact GE. lia.
Qed.
Lemma key_outputs key x n : key <> [] -> zlen key < 2 ^ 63 -> recurrent (key_words key) x ->
  exists mt, new_by_vector_seed key = Ok mt /\ outputs n mt = Ok (map (fun k => temper (x (312 + k)%nat)) (seq 0 n)).
Proof.
  intros NE LM R. destruct (key_ok key NE LM) as (st & E & H). eexists. split; [exact E|]. apply (outputs_ok (key_words key) x R (key_words_range key) n 0).
  exists 0%nat. cbn [mt_state mt_index]. split; [|lia]. apply (mixed_first _ _ R). exact H.
Qed.
Lemma empty_key : new_by_vector_seed [] = Fail EIndex.
Proof.
  unfold new_by_vector_seed. destruct (scalar_ok 19650218) as (st & -> & L & H). cbn [bind mt_state]. replace (Z.to_nat (Z.max nn (zlen (@nil Z)))) with 312%nat by reflexivity. change (zseq 0 312) with (0 :: zseq 1 311).
  cbn [mfold]. unfold key_step at 1. rewrite (get_ok _ _ _ (H 1 ltac:(lia))). cbn [bind]. change (1 - 1) with 0. rewrite (get_ok _ _ _ (H 0 ltac:(lia))). reflexivity.
Qed.
Lemma key_words_length key : length (key_words key) = 312%nat. Proof. unfold key_words. cbv zeta. cbn [length]. rewrite map_length, zseq_length. reflexivity. Qed.
(** ** Ranges *)
Lemma output_ranges first x : recurrent first x -> Forall (fun a => 0 <= a < 2 ^ 64) first -> forall k, 0 <= temper (x k) < 2 ^ 64.
Proof. intros R F k. apply temper_range. exact (x_range _ _ R F k). Qed.
(** Numbers of 63 bits are made from those of 64 bits. *)
Inductive produced : twister -> Prop :=
| by_number seed mt : 0 <= seed < 2 ^ 64 -> new_by_scalar_seed seed = Ok mt -> produced mt
| by_key key mt : zlen key < 2 ^ 63 -> new_by_vector_seed key = Ok mt -> produced mt
| by_use mt x mt' : produced mt -> next_int64 mt = Ok (x, mt') -> produced mt'.
Lemma produced_reached mt : produced mt -> exists first x k, recurrent first x /\ Forall (fun a => 0 <= a < 2 ^ 64) first /\ reached x k mt.
Proof.
  induction 1 as [seed mt S E|key mt LM E|mt v mt' P (first & x & k & R & F & H) E].
  - destruct (scalar_ok seed) as (st & E' & L & H). rewrite E in E'. injection E' as ->. pose proof (sequence_recurrent (scalar_words seed) eq_refl) as R. exists (scalar_words seed), (sequence (scalar_words seed)), 0%nat.
    split; [exact R|]. split; [now apply scalar_words_range|]. exists 0%nat. cbn [mt_state mt_index]. split; [|lia]. apply (mixed_first _ _ R). intros j J. rewrite H by exact J. rewrite scalar_words_nth by lia. reflexivity.
  - destruct key as [|a key]; [rewrite empty_key in E; discriminate|]. destruct (key_ok (a :: key) ltac:(congruence) LM) as (st & E' & H). rewrite E in E'. injection E' as ->.
    pose proof (sequence_recurrent _ (key_words_length (a :: key))) as R. exists (key_words (a :: key)), (sequence (key_words (a :: key))), 0%nat. split; [exact R|]. split; [apply key_words_range|].
    exists 0%nat. cbn [mt_state mt_index]. split; [|lia]. apply (mixed_first _ _ R). exact H.
  - destruct (next_ok first x R F k mt H) as (mt2 & E' & H'). rewrite E in E'. injection E' as -> ->. exists first, x, (k + 1)%nat. auto.
Qed.
Lemma never_fails mt : produced mt -> exists x mt', next_int64 mt = Ok (x, mt') /\ 0 <= x < 2 ^ 64 /\ next_int63 mt = Ok (x / 2, mt') /\ 0 <= x / 2 <= 2 ^ 63 - 1.
Proof.
  intros P. destruct (produced_reached mt P) as (first & x & k & R & F & H). destruct (next_ok first x R F k mt H) as (mt' & E & _). pose proof (output_ranges first x R F (312 + k)) as T. set (v := temper (x (312 + k)%nat)) in *. exists v, mt'.
  split; [exact E|]. split; [exact T|]. split; [|clear -T; lia]. unfold next_int63. rewrite E. cbn [bind fst snd]. rewrite Z.shiftr_div_pow2 by lia. change (2 ^ 1) with 2. rewrite wrap_id; [reflexivity|reflexivity|].
  cbn [i64 imin imax]. ib. clear -T. lia.
Qed.
Lemma one_recurrence first : length first = 312%nat -> recurrent first (sequence first) /\ forall x, recurrent first x -> forall k, x k = sequence first k.
Proof. intros L. pose proof (sequence_recurrent first L) as R. split; [exact R|]. intros x X. exact (recurrent_unique first _ _ X R). Qed.
Lemma scalar_produced seed : 0 <= seed < 2 ^ 64 -> exists mt, new_by_scalar_seed seed = Ok mt /\ produced mt.
Proof. intros S. destruct (scalar_ok seed) as (st & E & _). exists (mkTwister st 312). split; [exact E|]. exact (by_number seed _ S E). Qed.
