(** The history sources that keep everything. *)
From Coq Require Import ZifyBool.
From Verif Require Import Base BaseFacts StatesModel StatesSpec StatesProofs WindowModel WindowSpec WindowProofs HistModel HistSpec.
Ltac Zify.zify_post_hook ::= Z.div_mod_to_equations.

(** ** Text in a window *)
Definition tape (m s : Z) (text : list bit) (bytes : list Z) (w : window) : Prop :=
  reps m s bytes w /\ zlen text <= 8 * zlen bytes /\ bit_string bytes = text ++ repeat Zero (Z.to_nat (8 * zlen bytes - zlen text)).

Lemma bit_string_app a b : bit_string (a ++ b) = bit_string a ++ bit_string b.
Proof. unfold bit_string. apply flat_map_app. Qed.
Lemma bit_string_one x : bit_string [x] = byte_bits x. Proof. unfold bit_string. cbn [flat_map]. apply app_nil_r. Qed.
Lemma repeat_plus {A} (x : A) n k : repeat x (n + k) = repeat x n ++ repeat x k. Proof. apply repeat_app. Qed.
Lemma zlen_repeat {A} (x : A) n : zlen (repeat x n) = Z.of_nat n. Proof. unfold zlen. now rewrite repeat_length. Qed.
Lemma zlen_zero {A} (l : list A) : zlen l = 0 -> l = []. Proof. destruct l; [reflexivity|]. rewrite zlen_cons. pose proof (zlen_nonneg l). lia. Qed.

Lemma tape_push m s text bytes w : tape m s text bytes w -> zlen bytes < m ->
  exists w', advance_cursor w = Ok w' /\ tape m s text (bytes ++ [0]) w'.
Proof.
  intros (R & L & B) F. pose proof (push_ok m s bytes w R) as P. replace (zlen bytes <? m) with true in P by lia. destruct P as (w' & E & R').
  exists w'. split; [exact E|]. split; [exact R'|]. rewrite zlen_app. change (zlen [0]) with 1. split; [lia|].
  rewrite bit_string_app, B, <- app_assoc. f_equal. rewrite bit_string_one. change (byte_bits 0) with (repeat Zero 8). rewrite <- repeat_plus. f_equal. lia.
Qed.

Lemma set_bits_sweep : forallb (fun x => forallb (fun i => forallb (fun b =>
  same (byte_bits (with_bit b i x)) (firstn (Z.to_nat (7 - i)) (byte_bits x) ++ b :: skipn (Z.to_nat (8 - i)) (byte_bits x)))
  [false; true]) (zseq 0 8)) (zseq 0 256) = true.
Proof. vm_compute. reflexivity. Qed.
Lemma same_iff a b : same a b = true <-> a = b.
Proof. unfold same. destruct (list_eq_dec Bool.bool_dec a b); split; congruence. Qed.
Lemma set_bits x i b : 0 <= x < 256 -> 0 <= i < 8 ->
  byte_bits (with_bit b i x) = firstn (Z.to_nat (7 - i)) (byte_bits x) ++ b :: skipn (Z.to_nat (8 - i)) (byte_bits x).
Proof.
  intros X I. pose proof set_bits_sweep as S. rewrite forallb_forall in S. specialize (S x ltac:(apply zseq_In; lia)). cbv beta in S.
  rewrite forallb_forall in S. specialize (S i ltac:(apply zseq_In; lia)). cbv beta in S. rewrite forallb_forall in S.
  apply same_iff. apply S. destruct b; cbn; tauto.
Qed.
Lemma tape_set m s text bytes w b : tape m s text bytes w -> zlen bytes = zlen text / 8 + 1 ->
  exists w' bytes', set_bit_at_cursor w b (7 - zlen text mod 8) = Ok w' /\ tape m s (text ++ [b]) bytes' w' /\ zlen bytes' = zlen bytes.
Proof.
  intros (R & L & B) N. pose proof (zlen_nonneg text) as NT.
  destruct (set_bit_ok m s bytes w b (7 - zlen text mod 8) R ltac:(lia) ltac:(lia)) as (w' & E & R').
  exists w', (change_last (with_bit b (7 - zlen text mod 8)) bytes). split; [exact E|].
  destruct (last_split bytes ltac:(lia)) as (r & x & ->). rewrite change_last_app in *. rewrite !zlen_app in *. change (zlen [x]) with 1 in *.
  change (zlen [with_bit b (7 - zlen text mod 8) x]) with 1 in *. split; [|reflexivity]. unfold tape. split; [exact R'|]. rewrite !zlen_app. change (zlen [b]) with 1.
  change (zlen [with_bit b (7 - zlen text mod 8) x]) with 1. split; [lia|].
  rewrite bit_string_app, bit_string_one in B |- *. pose proof (rp_bytes _ _ _ _ R) as F. apply Forall_app in F as (_ & F). pose proof (Forall_inv F) as X. cbv beta in X. clear F.
  rewrite set_bits by lia. set (part := zlen text mod 8) in *.
  pose proof (bit_string_length r) as BL.
  assert (T : text = bit_string r ++ skipn (length (bit_string r)) text).
  { rewrite <- (firstn_skipn (length (bit_string r)) text) at 1. f_equal.
    assert (Q : firstn (length (bit_string r)) (bit_string r ++ byte_bits x) = bit_string r) by (rewrite firstn_app, Nat.sub_diag, firstn_all, app_nil_r; reflexivity).
    rewrite B in Q. rewrite firstn_app in Q. unfold zlen in *. replace (length (bit_string r) - length text)%nat with 0%nat in Q by lia. cbn [firstn] in Q.
    now rewrite app_nil_r in Q. }
  set (u := skipn (length (bit_string r)) text) in *. clearbody u.
  assert (UL : zlen u = part) by (rewrite T, zlen_app, BL in N; subst part; rewrite T at 1; rewrite zlen_app, BL; pose proof (zlen_nonneg u); rewrite T, zlen_app, BL in L; lia).
  rewrite T, <- app_assoc in B. apply app_inv_head in B. rewrite T, <- !app_assoc. f_equal. rewrite B, !zlen_app, BL in *. change (zlen [b]) with 1. unfold zlen in *.
  replace (Z.to_nat (7 - (7 - part))) with (length u) by lia. replace (Z.to_nat (8 - (7 - part))) with (length u + 1)%nat by lia.
  rewrite firstn_app, Nat.sub_diag, firstn_all, app_nil_r. cbn [firstn app]. f_equal. cbn [app]. f_equal.
  rewrite skipn_app. replace (length u + 1 - length u)%nat with 1%nat by lia. rewrite skipn_all2 by lia. cbn [app].
  replace (Z.to_nat (8 * (Z.of_nat (length r) + 1) - (8 * Z.of_nat (length r) + Z.of_nat (length u)))) with (S (7 - length u)) by lia.
  cbn [repeat skipn]. f_equal. lia.
Qed.

Lemma skip_bytes n bytes : skipn (8 * n) (bit_string bytes) = bit_string (skipn n bytes).
Proof.
  revert bytes. induction n as [|n IH]; intros bytes; [reflexivity|]. destruct bytes as [|x l]; [cbn [bit_string flat_map skipn]; now rewrite skipn_nil|].
  replace (8 * S n)%nat with (8 + 8 * n)%nat by lia. unfold bit_string. cbn [flat_map]. fold (bit_string l). cbn [skipn]. rewrite <- IH. rewrite skipn_app.
  change (length (byte_bits x)) with 8%nat. replace (8 + 8 * n - 8)%nat with (8 * n)%nat by lia. rewrite skipn_all2 by (change (length (byte_bits x)) with 8%nat; lia). reflexivity.
Qed.
Lemma bits_at_app text x p len : 0 <= p -> 0 <= len -> 8 * p + len <= zlen text -> bits_at (text ++ x) p len = bits_at text p len.
Proof.
  intros P L B. unfold bits_at, zlen in *. rewrite skipn_app, firstn_app, skipn_length. replace (Z.to_nat len - (length text - Z.to_nat (8 * p)))%nat with 0%nat by lia.
  cbn [firstn]. apply app_nil_r.
Qed.
Lemma bits_at_length text p len : 0 <= p -> 0 <= len -> 8 * p + len <= zlen text -> zlen (bits_at text p len) = len.
Proof. intros P L B. unfold bits_at, zlen in *. rewrite firstn_length, skipn_length. lia. Qed.
Lemma tape_bits m s text bytes w p len : tape m s text bytes w -> 0 <= p -> 0 <= len -> 8 * p + len <= zlen text ->
  bits_at text p len = firstn (Z.to_nat len) (bit_string (from bytes p)).
Proof.
  intros (R & L & B) P LN F. rewrite <- (bits_at_app text (repeat Zero (Z.to_nat (8 * zlen bytes - zlen text))) p len P LN F). rewrite <- B. unfold bits_at, from.
  rewrite <- skip_bytes. do 2 f_equal. lia.
Qed.
Lemma tape_compare m s text bytes w i j n : tape m s text bytes w -> zlen bytes = zlen text / 8 + 1 ->
  0 <= i -> 0 <= j -> 0 <= n -> i + n <= zlen text / 8 -> j + n <= zlen text / 8 ->
  compare_for_equal_prefix w (place m s i) (place m s j) (7 - zlen text mod 8) n =
    Ok (same (bits_at text i (8 * n + unfinished text)) (bits_at text j (8 * n + unfinished text))).
Proof.
  intros T N I J NN LI LJ. pose proof T as (R & L & B). rewrite (compare_ok m s bytes w R) by lia. f_equal. apply Bool.eq_true_iff_eq. rewrite same_iff.
  unfold unfinished. pose proof (Z.mod_pos_bound (zlen text) 8 ltac:(lia)) as PB. pose proof (zlen_nonneg text) as NT.
  rewrite !(tape_bits m s text bytes w) by (assumption || lia). unfold prefix_agree. rewrite Bool.andb_true_iff.
  replace (Z.to_nat (7 - (7 - zlen text mod 8))) with (Z.to_nat (zlen text mod 8)) by lia.
  replace (Z.to_nat (8 * n + zlen text mod 8)) with (8 * Z.to_nat n + Z.to_nat (zlen text mod 8))%nat by lia.
  assert (FF : forall i, Forall (fun x => 0 <= x < 256) (from bytes i)).
  { intros i'. pose proof (rp_bytes _ _ _ _ R) as F. unfold from. rewrite <- (firstn_skipn (Z.to_nat i') bytes) in F. apply Forall_app in F. apply F. }
  pose proof (bit_string_length (from bytes i)) as A1. pose proof (bit_string_length (from bytes j)) as A2. rewrite from_length in A1, A2 by lia.
  unfold zlen in A1, A2. rewrite <- prefix_bits; try apply FF; try (unfold zlen in *; lia). rewrite !from_nth by lia.
  destruct (znth_lt bytes (i + n) ltac:(lia)) as (x & X), (znth_lt bytes (j + n) ltac:(lia)) as (y & Y). rewrite X, Y. tauto.
Qed.
Lemma nth_byte_bits x k : 0 <= k <= 7 -> nth (Z.to_nat (7 - k)) (byte_bits x) Zero = bit_at x k.
Proof.
  intros K. assert (C : k = 0 \/ k = 1 \/ k = 2 \/ k = 3 \/ k = 4 \/ k = 5 \/ k = 6 \/ k = 7) by lia.
  repeat (destruct C as [->|C]; [reflexivity|]). subst. reflexivity.
Qed.
Lemma tape_bit m s text bytes w j k : tape m s text bytes w -> 0 <= j < zlen bytes -> 0 <= k <= 7 -> 8 * j + (7 - k) < zlen text ->
  window_bit w (place m s j) k = Ok (nth (Z.to_nat (8 * j + (7 - k))) text Zero).
Proof.
  intros (R & L & B) J K F. unfold window_bit, byte_at. destruct (znth_lt bytes j J) as (x & X). rewrite (get_ok _ _ x) by (rewrite (rp_at _ _ _ _ R) by lia; exact X).
  cbn [bind]. rewrite get_bit_ok by lia. f_equal.
  assert (Q : nth (Z.to_nat (8 * j + (7 - k))) text Zero = nth (Z.to_nat (8 * j + (7 - k))) (bit_string bytes) Zero).
  { rewrite B, app_nth1 by (unfold zlen in *; lia). reflexivity. }
  rewrite Q. replace (Z.to_nat (8 * j + (7 - k))) with (8 * Z.to_nat j + Z.to_nat (7 - k))%nat by lia.
  rewrite <- (firstn_skipn (8 * Z.to_nat j) (bit_string bytes)), app_nth2; pose proof (bit_string_length bytes) as BL; unfold zlen in *; rewrite firstn_length; [|lia].
  replace (8 * Z.to_nat j + Z.to_nat (7 - k) - Nat.min (8 * Z.to_nat j) (length (bit_string bytes)))%nat with (Z.to_nat (7 - k)) by lia.
  rewrite skip_bytes. change (skipn (Z.to_nat j) bytes) with (from bytes j). rewrite (from_step _ _ _ X). unfold bit_string. cbn [flat_map].
  rewrite app_nth1 by (change (length (byte_bits x)) with 8%nat; lia). symmetry. now apply nth_byte_bits.
Qed.
Lemma tape_new max : 0 < max < 2 ^ 63 -> exists w, window_new max 0 = Ok w /\ tape max 0 [] [] w.
Proof.
  intros M. destruct (new_ok max 0 M ltac:(lia)) as (w & E & R). exists w. split; [exact E|]. unfold represents in R. cbn [q_dropped q_bytes] in R.
  change (place max 0 0) with (0 mod max) in R. rewrite Z.mod_0_l in R by lia. split; [exact R|]. split; [reflexivity|]. reflexivity.
Qed.
Lemma place_0 m j : 0 <= j < m -> place m 0 j = j. Proof. intros J. unfold place. apply Z.mod_small. lia. Qed.

(** ** Feeding *)
Lemma feed_inv {S} (start : S -> res S) process (I : fed -> S -> Prop) (J : fed -> S -> Prop) s input :
  I [] s ->
  (forall before s, I before s -> zlen before mod 8 = 0 -> (exists x r, input = before ++ x :: r) \/ before = input -> exists s', start s = Ok s' /\ J before s') ->
  (forall before s, I before s -> zlen before mod 8 <> 0 -> J before s) ->
  (forall before s x r, J before s -> input = before ++ x :: r -> exists s', process s (fst x) (snd x) = Ok s' /\ I (before ++ [x]) s') ->
  exists s', feed start process s input = Ok s' /\ J input s'.
Proof.
  intros I0 ST SK PR.
  assert (G : forall l before, input = before ++ l -> forall s, I before s ->
    exists s', mfold (feed_step start process) l (zlen before, s) = Ok (zlen input, s') /\ I input s').
  { induction l as [|x l IH]; intros before E st H.
    - rewrite app_nil_r in E. subst. exists st. auto.
    - cbn [mfold feed_step].
      assert (A : exists s', (if zlen before mod 8 =? 0 then start st else Ok st) = Ok s' /\ J before s').
      { destruct (Z.eqb_spec (zlen before mod 8) 0); [apply ST; eauto|exists st; auto]. }
      destruct A as (s1 & -> & J1). cbn [bind]. destruct (PR _ _ _ _ J1 E) as (s2 & -> & I2). cbn [bind].
      replace (zlen before + 1) with (zlen (before ++ [x])) by (rewrite zlen_app; reflexivity). apply IH; [|exact I2]. rewrite <- app_assoc. exact E. }
  destruct (G input [] eq_refl s I0) as (s1 & E & H). unfold feed. change (zlen (@nil (bit * list cost_trackers))) with 0 in E. rewrite E. cbn [bind].
  destruct (Z.eqb_spec (zlen input mod 8) 0); [apply ST; auto|exists s1; auto].
Qed.

(** ** The exhaustive source *)
Definition idle (text : list bit) (bytes : list Z) : Prop := zlen bytes = (zlen text + 7) / 8.
Definition ready (text : list bit) (bytes : list Z) : Prop := zlen bytes = zlen text / 8 + 1.
Definition naive_idle (max max_order : Z) (text : list bit) (n : naive) : Prop :=
  exists bytes, tape max 0 text bytes (nv_input n) /\ idle text bytes /\ nv_max_order n = max_order /\
    nv_bit_index n = (if zlen text mod 8 =? 0 then -1 else 7 - zlen text mod 8).
Definition naive_ready (max max_order : Z) (text : list bit) (n : naive) : Prop :=
  exists bytes, tape max 0 text bytes (nv_input n) /\ ready text bytes /\ nv_max_order n = max_order /\ nv_bit_index n = 7 - zlen text mod 8.

Lemma naive_start_ok max max_order text n : naive_idle max max_order text n -> zlen text mod 8 = 0 -> zlen text / 8 < max ->
  exists n', naive_start n = Ok n' /\ naive_ready max max_order text n'.
Proof.
  intros (bytes & T & ID & MO & BI) M F. unfold idle in ID. pose proof T as (R & _). unfold naive_start. rewrite BI, M. cbn [Z.eqb].
  rewrite (rp_size _ _ _ _ R), (rp_max _ _ _ _ R). replace (zlen bytes =? max) with false by lia.
  cbn [negb assert_ guard bind Z.eqb Pos.eqb]. destruct (tape_push _ _ _ _ _ T ltac:(lia)) as (w' & -> & T'). cbn [bind].
  eexists. split; [reflexivity|]. exists (bytes ++ [0]). cbn [nv_input nv_max_order nv_bit_index]. split; [exact T'|]. unfold ready. rewrite zlen_app. change (zlen [0]) with 1.
  split; [lia|]. split; [exact MO|lia].
Qed.
Lemma naive_process_ok max max_order text n b cs : naive_ready max max_order text n -> Forall (fun c => c = ct_default) cs ->
  exists n', naive_process n b cs = Ok n' /\ naive_idle max max_order (text ++ [b]) n'.
Proof.
  intros (bytes & T & RD & MO & BI) D. unfold naive_process.
  replace (forallb (ct_eqb ct_default) cs) with true by (symmetry; apply forallb_forall; rewrite Forall_forall in D; intros x H; rewrite (D x H); reflexivity).
  cbn [assert_ guard bind]. unfold ready in RD. rewrite BI. pose proof (zlen_nonneg text) as NT.
  rewrite wrap_id by (cbn [ibits usize]; ib; lia).
  destruct (tape_set _ _ _ _ _ b T RD) as (w' & bytes' & -> & T' & L). cbn [bind]. rewrite sub_ok by (ib; lia). cbn [bind].
  eexists. split; [reflexivity|]. exists bytes'. cbn [nv_input nv_max_order nv_bit_index]. split; [exact T'|]. unfold idle. rewrite zlen_app. change (zlen [b]) with 1.
  split; [lia|]. split; [exact MO|]. destruct (Z.eqb_spec ((zlen text + 1) mod 8) 0); lia.
Qed.
Lemma zlen_map {A B} (f : A -> B) l : zlen (map f l) = zlen l. Proof. unfold zlen. now rewrite map_length. Qed.
Lemma naive_fed max max_order input : 0 < max < 2 ^ 63 -> zlen input / 8 < max -> all_default input ->
  exists n, (let* s := naive_new max max_order in feed naive_start naive_process s input) = Ok n /\ naive_ready max max_order (map fst input) n.
Proof.
  intros M F D. destruct (tape_new max M) as (w & E & T). unfold naive_new. rewrite E. cbn [bind].
  apply (feed_inv naive_start naive_process (fun i => naive_idle max max_order (map fst i)) (fun i => naive_ready max max_order (map fst i))).
  - exists []. cbn [nv_input nv_max_order nv_bit_index map]. repeat split; apply T || reflexivity.
  - intros before s I Z0 P. apply naive_start_ok; rewrite ?zlen_map; [exact I|exact Z0|]. destruct P as [(x & r & ->)| ->]; [|lia]. rewrite zlen_app, zlen_cons in F.
    pose proof (zlen_nonneg before). pose proof (zlen_nonneg r). lia.
  - intros before s (bytes & T' & ID & MO & BI) Z0. exists bytes. unfold idle, ready in *. rewrite zlen_map in *. split; [exact T'|]. split; [lia|]. split; [exact MO|].
    rewrite BI. destruct (Z.eqb_spec (zlen before mod 8) 0); lia.
  - intros before s x r J EI. rewrite map_app. apply naive_process_ok; [exact J|]. unfold all_default in D. rewrite EI in D. apply Forall_app in D as (_ & D).
    apply (Forall_inv D).
Qed.

Definition advance_opt (t : luts) (last : option context_state) (o : occurrence) : res (option context_state) :=
  let* s := match last with Some s => advance t s o | None => Ok (starting_state (fst (fst o)) (snd (fst o))) end in Ok (Some s).
Lemma advance_opt_all t l : forall s, mfold (advance_opt t) l (Some s) = let* s := mfold (advance t) l s in Ok (Some s).
Proof.
  induction l as [|x l IH]; intros s; [reflexivity|]. cbn [mfold]. unfold advance_opt at 1. destruct (advance t s x) as [s'|e]; cbn [bind]; [apply IH|reflexivity].
Qed.
Definition default_occurrence (text : list bit) (o p : Z) : occurrence :=
  (last_start text o - p, nth (Z.to_nat (after text o p)) text Zero, ct_default).
Lemma naive_scan_ok t max max_order text n o : naive_ready max max_order text n -> 0 <= o <= zlen text / 8 -> forall ps last,
  Forall (fun p => 0 <= p < last_start text o) ps ->
  mfold (naive_scan t n o) ps last =
  mfold (advance_opt t) (map (default_occurrence text o) (filter (fun p => same (bits_at text p (8 * o + unfinished text))
    (bits_at text (last_start text o) (8 * o + unfinished text))) ps)) last.
Proof.
  intros (bytes & T & RD & MO & BI) O. unfold ready in RD. pose proof T as (R & TL & _). pose proof (rp_m _ _ _ _ R) as M. pose proof (rp_fits _ _ _ _ R) as FT.
  pose proof (zlen_nonneg text) as NT. unfold last_start in *.
  induction ps as [|p ps IH]; intros last F; [reflexivity|]. inversion_clear F as [|? ? P F']. cbn [mfold].
  assert (ST : naive_scan t n o last p = if same (bits_at text p (8 * o + unfinished text)) (bits_at text (zlen text / 8 - o) (8 * o + unfinished text))
    then advance_opt t last (default_occurrence text o p) else Ok last).
  { unfold naive_scan. rewrite BI. rewrite wrap_id by (cbn [ibits usize]; ib; lia). rewrite (rp_cursor _ _ _ _ R). rewrite (index_subtract_ok _ _ _ _ _ _ R) by lia. cbn [bind].
    replace (zlen bytes - 1 - o) with (zlen text / 8 - o) by lia. assert (PP : place max 0 p = p) by (apply place_0; lia).
    assert (C1 := tape_compare max 0 text bytes (nv_input n) p (zlen text / 8 - o) o T RD ltac:(lia) ltac:(lia) ltac:(lia) ltac:(lia) ltac:(lia)).
    assert (C2 := index_add_ok max 0 bytes (nv_input n) p o R ltac:(lia) ltac:(lia) ltac:(lia)).
    assert (C3 := index_diff_ok max 0 bytes (nv_input n) p (zlen text / 8 - o) R ltac:(lia) ltac:(lia)).
    rewrite PP in C1, C2, C3. rewrite C1. cbn [bind]. destruct (same _ _); [|reflexivity].
    rewrite C2. cbn [bind]. rewrite (tape_bit _ _ text bytes) by (assumption || lia). cbn [bind].
    rewrite C3. cbn [bind]. unfold advance_opt, advance, default_occurrence, after, last_start, unfinished.
    replace (8 * (p + o) + (7 - (7 - zlen text mod 8))) with (8 * (p + o) + zlen text mod 8) by lia.
    destruct last as [s|]; cbn [fst snd]; reflexivity. }
  rewrite ST. cbn [filter]. destruct (same _ _); cbn [map mfold].
  - destruct (advance_opt t last (default_occurrence text o p)); cbn [bind]; [now apply IH|reflexivity].
  - cbn [bind]. now apply IH.
Qed.
Lemma range_0 n : range 0 n = zseq 0 (Z.to_nat n). Proof. unfold range. now rewrite Z.sub_0_r. Qed.
Lemma zseq_Forall a n : Forall (fun p => a <= p < a + Z.of_nat n) (zseq a n).
Proof. apply Forall_forall. intros p. apply zseq_In. Qed.

Lemma nth_default (l : list cost_trackers) i : Forall (fun c => c = ct_default) l -> nth i l ct_default = ct_default.
Proof. intros F. destruct (nth_in_or_default i l ct_default) as [I|E]; [|exact E]. rewrite Forall_forall in F. now apply F. Qed.
Lemma nth_fst (input : fed) i : fst (nth i input (Zero, [])) = nth i (map fst input) Zero.
Proof. change Zero with (fst (Zero, @nil cost_trackers)) at 2. now rewrite map_nth. Qed.
Lemma occurrences_default input o : all_default input -> occurrences input o = map (default_occurrence (map fst input) o) (earlier (map fst input) o).
Proof.
  intros D. unfold occurrences. apply map_ext. intros p. unfold default_occurrence. rewrite nth_fst. f_equal. apply nth_default.
  destruct (nth_in_or_default (Z.to_nat (after (map fst input) o p)) input (Zero, [])) as [I|E].
  - unfold all_default in D. rewrite Forall_forall in D. apply (D _ I).
  - rewrite E. constructor.
Qed.
Lemma earlier_none text o : zlen text / 8 <= o -> earlier text o = [].
Proof. intros O. unfold earlier, last_start. replace (Z.to_nat (zlen text / 8 - o)) with 0%nat by lia. reflexivity. Qed.
Lemma naive_orders_ok t max max_order input n : naive_ready max max_order (map fst input) n -> all_default input -> forall count o items,
  0 <= o <= zlen (map fst input) / 8 ->
  naive_orders t n (zseq o count) items = let* r := report_from t input o count in Ok (items ++ r).
Proof.
  intros RD D. pose proof RD as (bytes & T & RB & MO & BI). pose proof T as (R & TL & _). pose proof (zlen_nonneg (map fst input)) as NT. unfold ready in RB.
  induction count as [|count IH]; intros o items O; [cbn; now rewrite app_nil_r|]. cbn [zseq naive_orders report_from].
  rewrite (rp_cursor _ _ _ _ R). pose proof (rp_m _ _ _ _ R) as M. pose proof (rp_fits _ _ _ _ R) as FT. rewrite (index_subtract_ok _ _ _ _ _ _ R) by lia. cbn [bind].
  rewrite place_0 by lia. rewrite range_0. replace (zlen bytes - 1 - o) with (last_start (map fst input) o) by (unfold last_start; lia).
  rewrite (naive_scan_ok t max max_order (map fst input)); [|exact RD|exact O|eapply Forall_impl; [|apply zseq_Forall]; cbv beta; unfold last_start in *; lia].
  rewrite (occurrences_default _ _ D). fold (earlier (map fst input) o).
  destruct (earlier (map fst input) o) as [|p ps] eqn:E.
  { cbn. now rewrite app_nil_r. }
  cbn [map mfold]. change (advance_opt t None (default_occurrence (map fst input) o p)) with
    (Ok (Some (starting_state (last_start (map fst input) o - p) (nth (Z.to_nat (after (map fst input) o p)) (map fst input) Zero)))). cbn [bind].
  rewrite advance_opt_all. unfold advance_all. cbn [fst snd default_occurrence].
  change (starting_state (last_start (map fst input) o - p) (nth (Z.to_nat (after (map fst input) o p)) (map fst input) Zero)) with
   (starting_state (fst (fst (default_occurrence (map fst input) o p))) (snd (fst (default_occurrence (map fst input) o p)))).
  destruct (mfold (advance t) _ _) as [s|e]; cbn [bind]; [|reflexivity].
  assert (O' : 0 <= o + 1 <= zlen (map fst input) / 8).
  { destruct (Z.eq_dec o (zlen (map fst input) / 8)) as [->|]; [|lia]. rewrite earlier_none in E by lia. discriminate. }
  rewrite IH by exact O'. destruct (report_from t input (o + 1) count); cbn [bind]; [|reflexivity]. now rewrite <- app_assoc.
Qed.
Lemma naive_report t max max_order input items : 0 < max < 2 ^ 63 -> 0 <= max_order < 2 ^ 64 - 1 -> zlen input / 8 < max -> all_default input ->
  naive_states t max max_order input items = let* r := report t max_order input in Ok (items ++ r).
Proof.
  intros M MO F D. destruct (naive_fed max max_order input M F D) as (n & E & RD). unfold naive_states. revert E.
  destruct (naive_new max max_order) as [s|]; cbn [bind]; [|discriminate]. intros ->. cbn [bind]. unfold naive_gather.
  pose proof RD as (bytes & _ & _ & -> & _). rewrite add_ok by (ib; lia). cbn [bind]. rewrite range_0. apply (naive_orders_ok t max max_order); try assumption.
  pose proof (zlen_nonneg (map fst input)). lia.
Qed.

(** ** What the report says *)
Lemma bits_of_occurrences input o first later : occurrences input o = first :: later -> bits_of (fst first) later = followers (map fst input) o.
Proof.
  unfold occurrences, followers. set (f := fun p => _). intros E. unfold bits_of.
  assert (Q := f_equal (map (fun o : occurrence => snd (fst o))) E). cbn [map] in Q. etransitivity; [symmetry; exact Q|]. rewrite map_map.
  apply map_ext. intros p. subst f. cbv beta zeta. cbn [fst snd]. apply nth_fst.
Qed.
Lemma last_map {A B} (f : A -> B) l d e : l <> [] -> last (map f l) e = f (last l d).
Proof. intros N. induction l as [|x l IH]; [congruence|]. destruct l as [|y l]; [reflexivity|]. cbn [map last] in *. apply IH. congruence. Qed.
Lemma last_cons {A} (x : A) l d : last (x :: l) d = last l x.
Proof. revert x d. induction l as [|y l IH]; intros x d; [reflexivity|]. change (last (x :: y :: l) d) with (last (y :: l) d). rewrite IH, <- (IH y x). reflexivity. Qed.
Lemma distance_of_occurrences input o first later : occurrences input o = first :: later -> last_distance (fst first) later = distance (map fst input) o.
Proof.
  unfold occurrences, distance. set (f := fun p => _). intros E. unfold last_distance.
  rewrite <- (last_cons (fst (fst first)) _ 0). assert (Q := f_equal (map (fun o : occurrence => fst (fst o))) E). cbn [map] in Q.
  etransitivity; [apply f_equal2; [symmetry; exact Q|reflexivity]|]. rewrite map_map. rewrite (last_map _ _ 0) by (destruct (earlier (map fst input) o); [discriminate|congruence]). reflexivity.
Qed.
Lemma occurrences_nil input o : occurrences input o = [] <-> followers (map fst input) o = [].
Proof. unfold occurrences, followers. destruct (earlier (map fst input) o); cbn [map]; split; intros; (reflexivity || discriminate). Qed.
Lemma report_from_ok t input : luts_new = Ok t -> forall n o, exists states, report_from t input o n = Ok states /\
  (forall i s, znth states i = Some s -> followers (map fst input) (o + i) <> [] /\ stands_for (lt_rates t) (distance (map fst input) (o + i)) (followers (map fst input) (o + i)) s) /\
  zlen states <= Z.of_nat n /\ (zlen states < Z.of_nat n -> followers (map fst input) (o + zlen states) = []).
Proof.
  intros L. assert (SH := fun first later => state_of_history t first later L). clear L.
  induction n as [|n IH]; intros o. { exists []. cbn [report_from]. split; [reflexivity|]. split; [discriminate|]. change (zlen (@nil context_state)) with 0. split; lia. }
  cbn [report_from]. destruct (occurrences input o) as [|first later] eqn:E.
  { exists []. split; [reflexivity|]. split; [discriminate|]. change (zlen (@nil context_state)) with 0. split; [lia|]. intros _. rewrite Z.add_0_r. now apply occurrences_nil. }
  destruct (SH (fst first) later) as (s & -> & S). cbn [bind]. destruct (IH (o + 1)) as (rest & -> & A & B & C). cbn [bind]. exists (s :: rest). split; [reflexivity|].
  rewrite (bits_of_occurrences _ _ _ _ E), (distance_of_occurrences _ _ _ _ E) in S. rewrite zlen_cons. split; [|split; [lia|]].
  - intros i s' Z1. cbn [znth] in Z1. destruct (Z.eqb_spec i 0) as [->|N].
    + injection Z1 as <-. rewrite Z.add_0_r. split; [|exact S]. intros Q. apply occurrences_nil in Q. congruence.
    + specialize (A _ _ Z1). replace (o + 1 + (i - 1)) with (o + i) in A by lia. exact A.
  - intros Q. replace (o + (1 + zlen rest)) with (o + 1 + zlen rest) by lia. apply C. lia.
Qed.
Lemma report_true t max_order input : luts_new = Ok t -> 0 <= max_order -> exists states, report t max_order input = Ok states /\
  true_report (lt_rates t) max_order (map fst input) states.
Proof.
  intros L MO. destruct (report_from_ok t input L (Z.to_nat (max_order + 1)) 0) as (states & E & A & B & C). clear L. exists states. split; [exact E|].
  split; [intros i s Q; specialize (A i s Q); now rewrite Z.add_0_l in A|]. rewrite Z.add_0_l in C. split; [lia|]. intros Q. apply C. lia.
Qed.
