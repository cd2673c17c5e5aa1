From Verif Require Import Base BaseFacts UtilModel UtilSpec UtilProofs StateModel StateSpec.

Lemma lastn_short {A} n (l : list A) : (length l <= n)%nat -> lastn n l = l.
Proof. intros H. unfold lastn. replace (length l - n)%nat with O by lia. reflexivity. Qed.
Lemma lastn_length {A} n (l : list A) : length (lastn n l) = Nat.min n (length l).
Proof. unfold lastn. rewrite skipn_length. lia. Qed.
Lemma lastn_snoc {A} n (l : list A) x : lastn (S n) (l ++ [x]) = lastn n l ++ [x].
Proof.
  unfold lastn. rewrite app_length. cbn [length].
  replace (length l + 1 - S n)%nat with (length l - n)%nat by lia.
  rewrite skipn_app. replace (length l - n - length l)%nat with O by lia. reflexivity.
Qed.
Lemma skipn_skipn {A} i j (l : list A) : skipn i (skipn j l) = skipn (j + i) l.
Proof.
  revert l. induction j as [|j IH]; intros l; [reflexivity|]. destruct l; [now rewrite !skipn_nil|]. cbn. apply IH.
Qed.
Lemma lastn_lastn {A} n m (l : list A) : (n <= m)%nat -> lastn n (lastn m l) = lastn n l.
Proof.
  intros H. unfold lastn at 1 3. rewrite lastn_length. unfold lastn. rewrite skipn_skipn. f_equal. lia.
Qed.
Lemma lastn_full_cons {A} n (l : list A) : length l = S n -> exists x, l = x :: lastn n l.
Proof.
  destruct l as [|x l]; [discriminate|]. intros H. cbn [length] in H. exists x. f_equal.
  unfold lastn. change (length (x :: l)) with (S (length l)).
  replace (S (length l) - n)%nat with 1%nat by lia. reflexivity.
Qed.

(** * Recent bits *)
Definition rb_upd_z (s : Z) (b : bool) : Z :=
  if s <? 2 ^ 15 then 2 * s + bit_z b else 2 ^ 15 + (2 * s + bit_z b) mod 2 ^ 15.
Definition rb_upd_check (s : Z) : bool :=
  let f b := match rb_updated s b with Ok v => v =? rb_upd_z s b | Fail _ => false end in f false && f true.
Lemma rb_upd_sweep : forallb rb_upd_check (zseq 0 (Z.to_nat 65536)) = true.
Proof. vm_cast_no_check (eq_refl true). Qed.
Lemma rb_updated_eq s b : 0 <= s <= 65535 -> rb_updated s b = Ok (rb_upd_z s b).
Proof.
  intros H. pose proof (proj1 (forallb_forall _ _) rb_upd_sweep s (proj2 (zseq_In 0 (Z.to_nat 65536) s) ltac:(lia))) as S.
  unfold rb_upd_check in S. apply andb_prop in S as [S0 S1].
  destruct b; [destruct (rb_updated s true) as [v|]|destruct (rb_updated s false) as [v|]]; try discriminate; f_equal; lia.
Qed.

Lemma number_of_true ps : number_of (true :: ps) = 2 ^ zlen ps + number_of ps.
Proof.
  induction ps as [|b ps IH] using rev_ind; [reflexivity|].
  rewrite app_comm_cons, !number_of_snoc, IH, zlen_app. change (zlen [b]) with 1.
  rewrite Z.pow_add_r by (try apply zlen_nonneg; lia). change (2 ^ 1) with 2. ring.
Qed.

Lemma number_of_cons b ps : number_of (b :: ps) = bit_z b * 2 ^ zlen ps + number_of ps.
Proof.
  induction ps as [|c ps IH] using rev_ind; [cbn [zlen length]; unfold number_of; cbn [fold_left]; change (2 ^ zlen []) with 1; lia|].
  rewrite app_comm_cons, !number_of_snoc, IH, zlen_app. change (zlen [c]) with 1.
  rewrite Z.pow_add_r by (try apply zlen_nonneg; lia). change (2 ^ 1) with 2. ring.
Qed.

Lemma number_of_true_range ps n : zlen ps <= n -> 1 <= number_of (true :: ps) < 2 ^ (n + 1).
Proof.
  intros H. rewrite number_of_true. pose proof (number_of_nonneg ps). pose proof (zlen_nonneg ps).
  assert (2 ^ zlen ps <= 2 ^ n) by (apply Z.pow_le_mono_r; lia).
  assert (0 < 2 ^ zlen ps) by (apply Z.pow_pos_nonneg; lia).
  rewrite Z.pow_add_r by lia. change (2 ^ 1) with 2. lia.
Qed.

Definition rb_state (h : list bool) : Z := number_of (true :: lastn 15 h).
Lemma rb_state_range h : 1 <= rb_state h <= 65535.
Proof.
  unfold rb_state. assert (L : zlen (lastn 15 h) <= 15) by (unfold zlen; rewrite lastn_length; lia).
  pose proof (number_of_true_range (lastn 15 h) 15 L). change (2 ^ (15 + 1)) with 65536 in *. lia.
Qed.

Lemma rb_step h b : rb_updated (rb_state h) b = Ok (rb_state (h ++ [b])).
Proof.
  rewrite rb_updated_eq by (pose proof (rb_state_range h); lia). f_equal. unfold rb_upd_z, rb_state.
  rewrite lastn_snoc. set (g := lastn 15 h).
  assert (Lg : length g = Nat.min 15 (length h)) by apply lastn_length.
  rewrite number_of_true. pose proof (number_of_nonneg g) as NG. pose proof (zlen_nonneg g) as LG.
  destruct (Nat.leb_spec (length h) 14) as [S|L].
  - assert (Eg : g = h) by (apply lastn_short; lia).
    replace (lastn 14 h) with g by (rewrite Eg; symmetry; apply lastn_short; lia).
    assert (P : 2 ^ zlen g <= 2 ^ 14) by (apply Z.pow_le_mono_r; unfold zlen; lia).
    change (2 ^ 14) with 16384 in P. change (2 ^ 15) with 32768.
    destruct (Z.ltb_spec (2 ^ zlen g + number_of g) 32768); [|lia].
    rewrite number_of_true, number_of_snoc, zlen_app. change (zlen [b]) with 1.
    rewrite Z.pow_add_r by lia. change (2 ^ 1) with 2. ring.
  - assert (Lg15 : length g = 15%nat) by lia.
    assert (E14 : lastn 14 h = lastn 14 g) by (unfold g; rewrite lastn_lastn by lia; reflexivity).
    rewrite E14. destruct (lastn_full_cons 14 g Lg15) as [x Ex].
    assert (Zg : zlen g = 15) by (unfold zlen; lia). rewrite Zg. change (2 ^ 15) with 32768.
    destruct (Z.ltb_spec (32768 + number_of g) 32768); [lia|].
    rewrite number_of_true, number_of_snoc, zlen_app. change (zlen [b]) with 1.
    assert (L14 : zlen (lastn 14 g) = 14) by (unfold zlen; rewrite lastn_length; lia).
    rewrite L14. change (2 ^ (14 + 1)) with 32768.
    rewrite Ex at 1. rewrite number_of_cons, L14. change (2 ^ 14) with 16384.
    pose proof (number_of_nonneg (lastn 14 g)) as N14. rewrite L14 in N14. change (2 ^ 14) with 16384 in N14.
    set (m := number_of (lastn 14 g)) in *. clearbody m.
    clear - N14. f_equal. destruct x, b; cbn [bit_z]; lia.
Qed.

Lemma rb_replay h : mfold rb_updated h 1 = Ok (rb_state h).
Proof.
  induction h as [|b h IH] using rev_ind; [reflexivity|].
  rewrite mfold_app, IH. cbn [bind mfold]. rewrite rb_step. reflexivity.
Qed.

Lemma repeat_snoc {A} (x : A) n : repeat x (S n) = repeat x n ++ [x].
Proof. induction n; cbn; [reflexivity|]. f_equal. exact IHn. Qed.
Lemma lastn_repeat {A} (x : A) n k : lastn k (repeat x n) = repeat x (Nat.min k n).
Proof.
  unfold lastn. rewrite repeat_length. rewrite <- (firstn_skipn (n - k) (repeat x n)) at 1.
  assert (H : forall m j, skipn j (repeat x m) = repeat x (m - j)).
  { induction m as [|m IH]; intros [|j]; cbn; try reflexivity. apply IH. }
  rewrite firstn_skipn, H. f_equal. lia.
Qed.

Lemma number_of_repeat_false n : number_of (repeat false n) = 0.
Proof. induction n as [|n IH]; [reflexivity|]. rewrite repeat_snoc, number_of_snoc, IH. reflexivity. Qed.
Lemma number_of_repeat_true n : number_of (repeat true n) = 2 ^ Z.of_nat n - 1.
Proof.
  induction n as [|n IH]; [reflexivity|]. rewrite repeat_snoc, number_of_snoc, IH.
  rewrite Nat2Z.inj_succ, Z.pow_succ_r by lia. cbn [bit_z]. lia.
Qed.

Lemma rb_run_sweep : forallb (fun n => 
    match rb_for_bit_run false n, rb_for_bit_run true n with
    | Ok a, Ok b => (a =? 2 ^ Z.min n 15) && (b =? 2 * 2 ^ Z.min n 15 - 1) | _, _ => false end) (zseq 0 16) = true.
Proof. vm_compute. reflexivity. Qed.
Lemma rb_for_bit_run_min b n : rb_for_bit_run b n = rb_for_bit_run b (Z.min n 15).
Proof. unfold rb_for_bit_run. replace (Z.min (Z.min n 15) 15) with (Z.min n 15) by lia. reflexivity. Qed.

Lemma rb_for_bit_run_eq b n : 0 <= n -> rb_for_bit_run b n = Ok (rb_state (repeat b (Z.to_nat n))).
Proof.
  intros H. rewrite rb_for_bit_run_min. unfold rb_state. rewrite lastn_repeat, number_of_true.
  set (m := Z.min n 15). assert (Hm : 0 <= m <= 15) by lia.
  replace (Nat.min 15 (Z.to_nat n)) with (Z.to_nat m) by lia.
  unfold zlen. rewrite repeat_length, Z2Nat.id by lia.
  pose proof (proj1 (forallb_forall _ _) rb_run_sweep m (proj2 (zseq_In 0 16 m) ltac:(lia))) as S. cbv beta in S.
  replace (Z.min m 15) with m in S by lia.
  destruct (rb_for_bit_run false m) as [a|] eqn:Ea; [|discriminate].
  destruct (rb_for_bit_run true m) as [c|] eqn:Ec; [|discriminate].
  destruct b.
  - rewrite Ec, number_of_repeat_true, Z2Nat.id by lia. f_equal. lia.
  - rewrite Ea, number_of_repeat_false. f_equal. lia.
Qed.

Lemma rb_for_new_node_eq b n : 0 <= n ->
  rb_for_new_node b n = Ok (rb_state (repeat (negb b) (Z.to_nat n) ++ [b])).
Proof. intros H. unfold rb_for_new_node. rewrite rb_for_bit_run_eq by exact H. cbn [bind]. apply rb_step. Qed.

(** Histogram. *)
Definition hist_check (s : Z) : bool :=
  match rb_histogram s, rb_histogram (2 * s), rb_histogram (2 * s + 1) with
  | Ok h, Ok h0, Ok h1 => (h0 =? h + 1) && (h1 =? h + 16)
  | _, _, _ => false
  end.
Lemma hist_sweep : forallb hist_check (zseq 1 (Z.to_nat 32767)) = true.
Proof. vm_cast_no_check (eq_refl true). Qed.

Lemma count_bit_app b l r : count_bit b (l ++ r) = count_bit b l + count_bit b r.
Proof. unfold count_bit. rewrite filter_app, zlen_app. reflexivity. Qed.

Lemma rb_histogram_short ps : (length ps <= 15)%nat ->
  rb_histogram (number_of (true :: ps)) = Ok (16 * count_bit true ps + count_bit false ps).
Proof.
  induction ps as [|b ps IH] using rev_ind; intros L; [reflexivity|].
  rewrite app_length in L. cbn [length] in L. specialize (IH ltac:(lia)).
  rewrite app_comm_cons, number_of_snoc, !count_bit_app.
  set (s := number_of (true :: ps)) in *.
  assert (R : 1 <= s <= 32767).
  { pose proof (number_of_true_range ps 14 ltac:(unfold zlen; lia)). change (2 ^ (14 + 1)) with 32768 in *. unfold s. lia. }
  pose proof (proj1 (forallb_forall _ _) hist_sweep s (proj2 (zseq_In 1 (Z.to_nat 32767) s) ltac:(lia))) as S.
  unfold hist_check in S. rewrite IH in S.
  destruct (rb_histogram (2 * s)) as [h0|] eqn:E0; [|discriminate].
  destruct (rb_histogram (2 * s + 1)) as [h1|] eqn:E1; [|discriminate].
  destruct b; cbn [bit_z].
  - rewrite E1. change (count_bit true [true]) with 1. change (count_bit false [true]) with 0. f_equal. lia.
  - rewrite Z.add_0_r, E0. change (count_bit true [false]) with 0. change (count_bit false [false]) with 1. f_equal. lia.
Qed.

Lemma rb_histogram_eq h :
  rb_histogram (rb_state h) = Ok (16 * count_bit true (lastn 15 h) + count_bit false (lastn 15 h)).
Proof. apply rb_histogram_short. rewrite lastn_length. lia. Qed.

(** Last 7 bits. *)
Definition last7_check (s : Z) : bool :=
  rb_last_7_bits s =? (if s <? 128 then s else 128 + s mod 128).
Lemma last7_sweep : forallb last7_check (zseq 0 (Z.to_nat 65536)) = true.
Proof. vm_cast_no_check (eq_refl true). Qed.

Lemma number_of_mod ps n : (n <= length ps)%nat -> number_of ps mod 2 ^ Z.of_nat n = number_of (lastn n ps).
Proof.
  intros H. rewrite <- (firstn_skipn (length ps - n) ps) at 1. fold (lastn n ps).
  set (a := firstn (length ps - n) ps). set (c := lastn n ps).
  assert (Lc : length c = n) by (unfold c; rewrite lastn_length; lia).
  assert (E : number_of (a ++ c) = number_of a * 2 ^ zlen c + number_of c).
  { clear. induction c as [|x c IH] using rev_ind; [rewrite app_nil_r; change (2 ^ zlen []) with 1; change (number_of []) with 0; lia|].
    rewrite app_assoc, !number_of_snoc, IH, zlen_app. change (zlen [x]) with 1.
    rewrite Z.pow_add_r by (try apply zlen_nonneg; lia). change (2 ^ 1) with 2. ring. }
  rewrite E. pose proof (number_of_nonneg c) as N. unfold zlen in *. rewrite Lc in *.
  rewrite Z.add_comm, Z.mod_add by (apply Z.pow_nonzero; lia). now apply Z.mod_small.
Qed.

Lemma rb_last_7_eq h : rb_last_7_bits (rb_state h) = number_of (true :: lastn 7 h).
Proof.
  pose proof (rb_state_range h) as R.
  pose proof (proj1 (forallb_forall _ _) last7_sweep (rb_state h) (proj2 (zseq_In 0 (Z.to_nat 65536) (rb_state h)) ltac:(lia))) as S.
  unfold last7_check in S. apply Z.eqb_eq in S. rewrite S. clear S. unfold rb_state in *.
  set (g := lastn 15 h) in *. assert (Lg : length g = Nat.min 15 (length h)) by apply lastn_length.
  assert (E7 : lastn 7 h = lastn 7 g) by (unfold g; now rewrite lastn_lastn by lia). rewrite E7.
  destruct (Nat.leb_spec (length g) 6) as [L|L].
  - rewrite (lastn_short 7 g) by lia.
    pose proof (number_of_true_range g 6 ltac:(unfold zlen; lia)). change (2 ^ (6 + 1)) with 128 in *.
    destruct (Z.ltb_spec (number_of (true :: g)) 128); [reflexivity|lia].
  - rewrite number_of_true. pose proof (number_of_nonneg g).
    assert (2 ^ 7 <= 2 ^ zlen g) by (apply Z.pow_le_mono_r; unfold zlen; lia). change (2 ^ 7) with 128 in *.
    destruct (Z.ltb_spec (2 ^ zlen g + number_of g) 128); [lia|].
    rewrite number_of_true. assert (L7 : zlen (lastn 7 g) = 7) by (unfold zlen; rewrite lastn_length; lia).
    rewrite L7. change (2 ^ 7) with 128. f_equal.
    rewrite <- (number_of_mod g 7) by lia. change (2 ^ Z.of_nat 7) with 128.
    replace (2 ^ zlen g) with (2 ^ (zlen g - 7) * 128).
    2:{ change 128 with (2 ^ 7). rewrite <- Z.pow_add_r by (unfold zlen; lia). f_equal. lia. }
    rewrite Z.add_comm. apply Z.mod_add. lia.
Qed.

(** * Runs *)
Definition br_pack (b : bool) (r1 r2 r3 : Z) : Z := bit_z b + 2 * r1 + 2 ^ 11 * r2 + 2 ^ 21 * r3.

Ltac br_case b := destruct b; cbn [bit_z negb] in *.

Lemma br_pack_last b r1 r2 r3 : br_last_bit (br_pack b r1 r2 r3) = b.
Proof.
  unfold br_last_bit, br_pack. rewrite land_1.
  replace (bit_z b + 2 * r1 + 2 ^ 11 * r2 + 2 ^ 21 * r3) with (bit_z b + (r1 + 2 ^ 10 * r2 + 2 ^ 20 * r3) * 2) by ring.
  rewrite Z.mod_add by lia. destruct b; reflexivity.
Qed.

Lemma br_field_mod k s : 0 <= k < 32 -> br_field k s = Ok ((s / 2 ^ k) mod 2 ^ 10).
Proof.
  intros Hk. unfold br_field, run_length_mask. rewrite shr_ok by (cbn [ibits u32]; lia). cbn [bind].
  rewrite land_ones_mod by lia. f_equal. apply wrap_id; [cbn; lia|]. ib.
  pose proof (Z.mod_pos_bound (s / 2 ^ k) (2 ^ 10) ltac:(lia)). change (2 ^ 10) with 1024 in *. lia.
Qed.

Section Pack.
  Variables (b : bool) (r1 r2 r3 : Z).
  Hypotheses (H1 : 0 <= r1 <= 1000) (H2 : 0 <= r2 <= 1000) (H3 : 0 <= r3 <= 1000).
  Let s := br_pack b r1 r2 r3.

  Lemma br_pack_range : 0 <= s < 2 ^ 31.
  Proof. unfold s, br_pack. change (2 ^ 11) with 2048. pow2. br_case b; lia. Qed.

  Lemma br_pack_1 : br_last_bit_run_length s = Ok r1.
  Proof.
    unfold br_last_bit_run_length. rewrite br_field_mod by lia. f_equal. unfold s, br_pack.
    replace (bit_z b + 2 * r1 + 2 ^ 11 * r2 + 2 ^ 21 * r3)
      with (bit_z b + (r1 + (r2 + 2 ^ 10 * r3) * 2 ^ 10) * 2 ^ 1) by (change (2 ^ 1) with 2; ring).
    rewrite Z.div_add by lia. rewrite (Z.div_small (bit_z b)) by (br_case b; lia).
    rewrite Z.add_0_l, Z.mod_add by lia. apply Z.mod_small. change (2 ^ 10) with 1024. lia.
  Qed.
  Lemma br_pack_2 : br_opposite_bit_run_length s = Ok r2.
  Proof.
    unfold br_opposite_bit_run_length. rewrite br_field_mod by lia. f_equal. unfold s, br_pack.
    replace (bit_z b + 2 * r1 + 2 ^ 11 * r2 + 2 ^ 21 * r3)
      with ((bit_z b + 2 * r1) + (r2 + r3 * 2 ^ 10) * 2 ^ 11) by ring.
    rewrite Z.div_add by lia. rewrite (Z.div_small (bit_z b + 2 * r1)) by (change (2 ^ 11) with 2048; br_case b; lia).
    rewrite Z.add_0_l, Z.mod_add by lia. apply Z.mod_small. change (2 ^ 10) with 1024. lia.
  Qed.
  Lemma br_pack_3 : br_last_bit_previous_run_length s = Ok r3.
  Proof.
    unfold br_last_bit_previous_run_length. rewrite br_field_mod by lia. f_equal. unfold s, br_pack.
    replace (bit_z b + 2 * r1 + 2 ^ 11 * r2 + 2 ^ 21 * r3)
      with ((bit_z b + 2 * r1 + 2 ^ 11 * r2) + r3 * 2 ^ 21) by ring.
    rewrite Z.div_add by lia.
    rewrite (Z.div_small (bit_z b + 2 * r1 + 2 ^ 11 * r2)) by (change (2 ^ 11) with 2048; pow2; br_case b; lia).
    rewrite Z.add_0_l. apply Z.mod_small. change (2 ^ 10) with 1024. lia.
  Qed.
  Lemma br_pack_single : br_is_single_bit_run s = Ok ((r2 =? 0) && (r3 =? 0)).
  Proof.
    unfold br_is_single_bit_run, max_run_length. rewrite shr_ok by (cbn [ibits u32]; lia). cbn [bind]. f_equal.
    unfold s, br_pack.
    replace (bit_z b + 2 * r1 + 2 ^ 11 * r2 + 2 ^ 21 * r3)
      with (bit_z b + (r1 + 2 ^ 10 * r2 + 2 ^ 20 * r3) * 2 ^ 1) by (change (2 ^ 1) with 2; ring).
    rewrite Z.div_add by lia. rewrite (Z.div_small (bit_z b)) by (br_case b; lia).
    change (2 ^ 10) with 1024. change (2 ^ 20) with 1048576. lia.
  Qed.

  Lemma br_pack_same : br_updated s b = Ok (br_pack b (Z.min 1000 (r1 + 1)) r2 r3).
  Proof.
    unfold br_updated. unfold s at 1. rewrite br_pack_last, Bool.eqb_reflx. rewrite br_pack_1. cbn [bind].
    unfold max_run_length. pose proof br_pack_range.
    destruct (Z.ltb_spec r1 1000).
    - rewrite add_ok by (ib; pow2; lia). f_equal. unfold s, br_pack. replace (Z.min 1000 (r1 + 1)) with (r1 + 1) by lia. ring.
    - f_equal. unfold s. f_equal. lia.
  Qed.
  Lemma br_pack_other : br_updated s (negb b) = Ok (br_pack (negb b) 1 r1 r2).
  Proof.
    unfold br_updated. unfold s at 1. rewrite br_pack_last.
    destruct (Bool.eqb_spec (negb b) b) as [E|_]; [destruct b; discriminate|].
    rewrite br_pack_1, br_pack_2. cbn [bind]. rewrite !shl_ok by (cbn [ibits u32]; lia). cbn [bind]. f_equal.
    rewrite !wrap_id by (cbn [ibits u32]; ib; change (2 ^ 11) with 2048; pow2; lia).
    assert (E1 : Z.lor (bit_z (negb b)) 2 = bit_z (negb b) + 2) by (destruct b; reflexivity). rewrite E1.
    rewrite (Z.lor_comm _ (r1 * 2 ^ 11)), (lor_disjoint (r1 * 2 ^ 11) _ 11);
      [|lia|apply Z.mod_mul; lia|change (2 ^ 11) with 2048; br_case b; lia].
    rewrite (Z.lor_comm _ (r2 * 2 ^ 21)), (lor_disjoint (r2 * 2 ^ 21) _ 21);
      [|lia|apply Z.mod_mul; lia|change (2 ^ 11) with 2048; pow2; br_case b; lia].
    unfold br_pack. ring.
  Qed.
End Pack.

Definition br_state (h : list bool) : Z :=
  br_pack (fst (nth 0 (runs h) (false, 0))) (capped_run 0 h) (capped_run 1 h) (capped_run 2 h).

Lemma runs_snoc h b : runs (h ++ [b]) = run_step (runs h) b.
Proof. unfold runs. rewrite fold_left_app. reflexivity. Qed.

Definition alternating (rs : list (bool * Z)) : Prop := Forall (fun x => 1 <= snd x) rs.
Lemma runs_pos h : alternating (runs h).
Proof.
  induction h as [|b h IH] using rev_ind; [constructor|]. rewrite runs_snoc. unfold run_step, alternating in *.
  destruct (runs h) as [|[c n] r]; [repeat constructor; cbn; lia|]. inversion IH; subst.
  destruct (Bool.eqb b c); constructor; cbn in *; try assumption; lia.
Qed.
Lemma nth_run_nonneg h k : 0 <= snd (nth k (runs h) (false, 0)).
Proof.
  pose proof (runs_pos h) as P. unfold alternating in P. destruct (Nat.ltb_spec k (length (runs h))).
  - rewrite Forall_forall in P. pose proof (P _ (nth_In _ (false, 0) H)). lia.
  - rewrite nth_overflow by lia. cbn. lia.
Qed.
Lemma capped_range h k : 0 <= capped_run k h <= 1000.
Proof. unfold capped_run. pose proof (nth_run_nonneg h k). lia. Qed.

Lemma br_step h b : br_updated (br_state h) b = Ok (br_state (h ++ [b])).
Proof.
  pose proof (capped_range h 0) as R0. pose proof (capped_range h 1) as R1. pose proof (capped_range h 2) as R2.
  unfold br_state in *. unfold capped_run in *. rewrite runs_snoc.
  pose proof (runs_pos h) as P. unfold alternating in P.
  destruct (runs h) as [|[c n] r] eqn:E; cbn [run_step].
  - cbn [nth fst snd] in *. change (Z.min 1000 0) with 0 in *. change (Z.min 1000 1) with 1.
    destruct b.
    + change true with (negb false) at 1. rewrite br_pack_other by lia. reflexivity.
    + rewrite br_pack_same by lia. reflexivity.
  - inversion P as [|? ? Pn Pr]; subst. cbn [nth fst snd] in *.
    destruct (Bool.eqb_spec b c) as [->|N].
    + rewrite br_pack_same by assumption. cbn [nth fst snd]. f_equal. f_equal. lia.
    + assert (b = negb c) by (destruct b, c; try reflexivity; congruence). subst b.
      rewrite br_pack_other by assumption. cbn [nth fst snd]. reflexivity.
Qed.

Lemma br_replay h : mfold br_updated h br_new = Ok (br_state h).
Proof.
  induction h as [|b h IH] using rev_ind; [reflexivity|].
  rewrite mfold_app, IH. cbn [bind mfold]. rewrite br_step. reflexivity.
Qed.

Lemma runs_repeat b n : runs (repeat b (S n)) = [(b, Z.of_nat (S n))].
Proof.
  induction n as [|n IH]; [reflexivity|]. rewrite repeat_snoc, runs_snoc, IH. cbn [run_step].
  rewrite Bool.eqb_reflx. f_equal. f_equal. lia.
Qed.

Lemma br_run_pack b n : 0 <= n <= 65535 -> br_for_bit_run b n = Ok (br_pack b (Z.min 1000 n) 0 0).
Proof.
  intros H. unfold br_for_bit_run, max_run_length. rewrite shl_ok by (cbn; lia). cbn [bind].
  rewrite wrap_id by (cbn [ibits u32]; ib; change (2 ^ 1) with 2; lia).
  rewrite add_ok by (ib; change (2 ^ 1) with 2; br_case b; lia). f_equal. unfold br_pack. change (2 ^ 1) with 2. lia.
Qed.

Lemma br_for_bit_run_eq b n : 1 <= n <= 65535 -> br_for_bit_run b n = Ok (br_state (repeat b (Z.to_nat n))).
Proof.
  intros H. rewrite br_run_pack by lia. f_equal. unfold br_state, capped_run.
  replace (Z.to_nat n) with (S (Z.to_nat (n - 1))) by lia. rewrite runs_repeat. cbn [nth fst snd].
  f_equal. lia.
Qed.
Lemma br_for_new_node_eq b n : 0 <= n <= 65535 ->
  br_for_new_node b n = Ok (br_state (repeat (negb b) (Z.to_nat n) ++ [b])).
Proof.
  intros H. destruct (Z.eqb_spec n 0) as [->|N].
  - unfold br_for_new_node. rewrite br_run_pack by lia. cbn [bind].
    rewrite <- (Bool.negb_involutive b) at 2. rewrite br_pack_other by lia. rewrite Bool.negb_involutive. reflexivity.
  - unfold br_for_new_node. rewrite br_for_bit_run_eq by lia. cbn [bind]. apply br_step.
Qed.

Lemma br_observe h : h <> [] ->
  let s := br_state h in
  br_last_bit s = last h false /\
  br_last_bit_run_length s = Ok (capped_run 0 h) /\
  br_opposite_bit_run_length s = Ok (capped_run 1 h) /\
  br_last_bit_previous_run_length s = Ok (capped_run 2 h) /\
  br_is_single_bit_run s = Ok (zlen (runs h) =? 1).
Proof.
  intros N s. pose proof (capped_range h 0). pose proof (capped_range h 1). pose proof (capped_range h 2).
  unfold s, br_state.
  split.
  { rewrite br_pack_last. destruct h as [|b h _] using rev_ind; [congruence|]. rewrite last_last, runs_snoc.
    unfold run_step. destruct (runs h) as [|[c n] r]; [reflexivity|].
    destruct (Bool.eqb_spec b c); [subst; reflexivity|reflexivity]. }
  split; [now apply br_pack_1|]. split; [now apply br_pack_2|]. split; [now apply br_pack_3|].
  rewrite br_pack_single by assumption. f_equal. clear s H H0 H1. unfold capped_run.
  pose proof (runs_pos h) as P. unfold alternating in P.
  assert (L : runs h <> []).
  { destruct h as [|b h _] using rev_ind; [congruence|]. rewrite runs_snoc. unfold run_step.
    destruct (runs h) as [|[c n] r]; [discriminate|]. destruct (Bool.eqb b c); discriminate. }
  destruct (runs h) as [|x [|y [|z r]]]; [congruence|reflexivity| |].
  - inversion P as [|? ? ? P1]; inversion P1; subst. cbn [nth snd]. rewrite !zlen_cons. change (zlen []) with 0. lia.
  - inversion P as [|? ? ? P1]; inversion P1; subst. cbn [nth]. rewrite !zlen_cons. pose proof (zlen_nonneg r). lia.
Qed.

(** * Combined statements *)
Lemma recent_bits_correct h : exists s, mfold rb_updated h 1 = Ok s /\
  s = number_of (true :: lastn 15 h) /\ rb_is_valid s = true /\
  rb_histogram s = Ok (16 * count_bit true (lastn 15 h) + count_bit false (lastn 15 h)) /\
  rb_last_7_bits s = number_of (true :: lastn 7 h).
Proof.
  exists (rb_state h). split; [apply rb_replay|]. split; [reflexivity|]. split.
  { unfold rb_is_valid. pose proof (rb_state_range h). lia. }
  split; [apply rb_histogram_eq|apply rb_last_7_eq].
Qed.
Lemma recent_bits_runs b n : 0 <= n ->
  rb_for_bit_run b n = mfold rb_updated (repeat b (Z.to_nat n)) 1 /\
  rb_for_new_node b n = mfold rb_updated (repeat (negb b) (Z.to_nat n) ++ [b]) 1.
Proof. intros H. rewrite !rb_replay. split; [now apply rb_for_bit_run_eq|now apply rb_for_new_node_eq]. Qed.

Lemma bits_runs_correct h : h <> [] -> exists s, mfold br_updated h br_new = Ok s /\
  br_last_bit s = last h false /\
  br_last_bit_run_length s = Ok (capped_run 0 h) /\
  br_opposite_bit_run_length s = Ok (capped_run 1 h) /\
  br_last_bit_previous_run_length s = Ok (capped_run 2 h) /\
  br_is_single_bit_run s = Ok (zlen (runs h) =? 1).
Proof. intros H. exists (br_state h). split; [apply br_replay|]. now apply br_observe. Qed.
Lemma bits_runs_runs b n :
  (1 <= n <= 65535 -> br_for_bit_run b n = mfold br_updated (repeat b (Z.to_nat n)) br_new) /\
  (0 <= n <= 65535 -> br_for_new_node b n = mfold br_updated (repeat (negb b) (Z.to_nat n) ++ [b]) br_new).
Proof. rewrite !br_replay. split; [now apply br_for_bit_run_eq|now apply br_for_new_node_eq]. Qed.
