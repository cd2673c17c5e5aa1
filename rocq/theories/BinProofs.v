(** The listing of bit histories. *)
From Coq Require Import ZifyBool.
From Verif Require Import Base BaseFacts UtilSpec StateModel StateSpec StateProofs StatesModel StatesSpec StatesProofs WindowModel WindowSpec WindowProofs HistModel HistSpec HistProofs FatProofs
  HistFacts TreeModel TreeSpec TreeFacts BinModel BinSpec.
Ltac Zify.zify_post_hook ::= Z.div_mod_to_equations.

(** ** What is printed of a report *)
Lemma stands_recent rates d h s : stands_for rates d h s -> recent_bits s = recent_of h.
Proof.
  unfold stands_for. destruct (uniform h) eqn:U.
  - intros ->. cbn [recent_bits]. pose proof (zlen_nonneg h) as Z0. rewrite rb_for_bit_run_eq by lia. unfold recent_of. rewrite rb_replay. f_equal.
    pose proof (uniform_repeat h U) as HR. unfold zlen. set (n := length h) in *. set (b := hd Zero h) in *. rewrite HR. clearbody n b. clear.
    unfold rb_state. rewrite !lastn_repeat. do 3 f_equal. lia.
  - intros (e & r & q & c & -> & _ & R & _). now rewrite R.
Qed.
Lemma met_iff text o : met text o = true <-> followers text o <> [].
Proof. unfold met, same. match goal with |- context [if ?c then _ else _] => destruct c as [E|E] end; cbn [negb]; split.
  - discriminate.
  - intros H. destruct (H E).
  - intros _. exact E.
  - reflexivity.
Qed.
Lemma filter_all {A} (f : A -> bool) l : (forall x, In x l -> f x = true) -> filter f l = l.
Proof. induction l as [|x l IH]; intros H; [reflexivity|]. cbn [filter]. rewrite H by now left. f_equal. apply IH. intros y Y. apply H. now right. Qed.
Lemma filter_none {A} (f : A -> bool) l : (forall x, In x l -> f x = false) -> filter f l = [].
Proof. induction l as [|x l IH]; intros H; [reflexivity|]. cbn [filter]. rewrite H by now left. apply IH. intros y Y. apply H. now right. Qed.
Lemma met_orders max_order text states rates : true_report rates max_order text states ->
  filter (met text) (zseq 0 (Z.to_nat (max_order + 1))) = zseq 0 (length states).
Proof.
  intros (A & B & C). pose proof (zlen_nonneg states) as NN.
  replace (Z.to_nat (max_order + 1)) with (length states + Z.to_nat (max_order + 1 - zlen states))%nat by (unfold zlen in *; lia).
  rewrite zseq_app, filter_app, filter_all, filter_none; [apply app_nil_r| |].
  - intros o O. apply zseq_In in O. destruct (met text o) eqn:M; [|reflexivity]. apply met_iff in M. exfalso. apply M.
    replace o with (zlen states + Z.of_nat (Z.to_nat (o - zlen states))) by (unfold zlen in *; lia). apply followers_nil; [lia|]. apply C. unfold zlen in *. lia.
  - intros o O. apply zseq_In in O. destruct (znth_lt states o) as (s & S); [unfold zlen; lia|]. apply met_iff. apply (A o s S).
Qed.
Definition shown_recent (item : context_state) : res Z := let* r := recent_bits item in Ok (rb_last_7_bits r).
Lemma report_shown rates max_order text states : true_report rates max_order text states ->
  mmap shown_recent states = Ok (histories max_order text).
Proof.
  intros T. unfold histories. rewrite (met_orders _ _ _ _ T). destruct T as (A & _ & _). assert (H : forall i s, znth states i = Some s -> shown_recent s = Ok (number_of (true :: lastn 7 (followers text (0 + i))))).
  { intros i s S. destruct (A i s S) as (_ & ST). unfold shown_recent. rewrite (stands_recent _ _ _ _ ST). unfold recent_of. destruct (recent_bits_correct (followers text i)) as (r & E & _ & _ & _ & L).
    rewrite E. cbn [bind]. now rewrite L. }
  clear A. revert H. generalize 0. induction states as [|s states IH]; intros a H; [reflexivity|]. cbn [mmap length zseq map]. rewrite (H 0 s eq_refl). cbn [bind]. rewrite Z.add_0_r.
  rewrite (IH (a + 1)); [reflexivity|]. intros i x X. pose proof (znth_Some _ _ _ X). rewrite (H (i + 1) x); [do 5 f_equal; lia|].
  cbn [znth]. replace (i + 1 =? 0) with false by lia. now replace (i + 1 - 1) with i by lia.
Qed.
Lemma histories_none max_order text states rates : true_report rates max_order text states -> (0 <? zlen states) = match histories max_order text with [] => false | _ => true end.
Proof.
  intros T. unfold histories. rewrite (met_orders _ _ _ _ T). destruct states as [|s states]; [reflexivity|]. cbn [length zseq map]. rewrite zlen_cons. pose proof (zlen_nonneg states). lia.
Qed.

(** The bits of the text are those of its bytes. *)
Lemma bit_of_byte bytes i x j : znth bytes i = Some x -> 0 <= j < 8 -> znth (bit_string bytes) (8 * i + (7 - j)) = Some (Z.odd (x / 2 ^ j)).
Proof.
  revert i. induction bytes as [|y bytes IH]; intros i X B; [discriminate|]. pose proof (znth_Some _ _ _ X) as IB. change (bit_string (y :: bytes)) with (byte_bits y ++ bit_string bytes).
  assert (L : zlen (byte_bits y) = 8) by reflexivity. destruct (Z.eq_dec i 0) as [->|N].
  - cbn [znth] in X. rewrite Z.eqb_refl in X. injection X as ->. rewrite znth_nth_error by lia.
    assert (Q : j = 0 \/ j = 1 \/ j = 2 \/ j = 3 \/ j = 4 \/ j = 5 \/ j = 6 \/ j = 7) by lia. destruct Q as [-> | [-> | [-> | [-> | [-> | [-> | [-> | ->]]]]]]]; reflexivity.
  - rewrite znth_nth_error by lia. rewrite nth_error_app2 by (unfold zlen in L; lia). cbn [znth] in X. replace (i =? 0) with false in X by lia. specialize (IH _ X B).
    rewrite znth_nth_error in IH by lia. rewrite <- IH. f_equal. unfold zlen in L. lia.
Qed.

(** ** The program, with any source that behaves *)
Definition plain (max_order : Z) (input : fed) : Prop := well_supplied max_order input /\ all_default input.
Lemma plain_snoc max_order input b cs : plain max_order input -> zlen cs = branching max_order (map fst input) -> Forall (fun c => c = ct_default) cs -> plain max_order (input ++ [(b, cs)]).
Proof.
  intros (W & D) C F. split; [now apply well_supplied_snoc|]. apply Forall_app. split; [exact D|]. constructor; [exact F|constructor].
Qed.
Lemma plain_nil max_order : plain max_order [].
Proof. split; [|constructor]. intros before b cs later E. destruct before; discriminate. Qed.

Section Program.
  Context {S : Type} (hs : history_source S) (rates : list Z) (max_order n : Z).
  Variable I J : fed -> S -> Prop.
  Hypothesis started : forall input s, I input s -> plain max_order input -> zlen input mod 8 = 0 -> zlen input / 8 < n -> exists s', hs_start hs s = Ok s' /\ J input s'.
  Hypothesis waiting : forall input s, I input s -> zlen input mod 8 <> 0 -> J input s.
  Hypothesis gathered : forall input s, J input s -> plain max_order input -> zlen input / 8 < n -> exists states, hs_gather hs s [] = Ok states /\ true_report rates max_order (map fst input) states.
  Hypothesis processed : forall input s b cs, J input s -> plain max_order input -> zlen input / 8 < n -> zlen cs = branching max_order (map fst input) -> Forall (fun c => c = ct_default) cs ->
    exists s', hs_process hs s b cs = Ok s' /\ I (input ++ [(b, cs)]) s'.

  Variable bytes : list Z.
  Hypothesis short : zlen bytes <= n.
  Let text := bit_string bytes.
  Definition reached (k : Z) (input : fed) : Prop := zlen input = k /\ map fst input = firstn (Z.to_nat k) text /\ plain max_order input.

  Lemma print_bit_ok i x j input s out : 0 <= j < 8 -> znth bytes i = Some x -> J input s -> reached (8 * i + (7 - j)) input ->
    exists s' input', print_bit hs x (s, out) j = Ok (s', out ++ bit_lines max_order bytes i j) /\ I input' s' /\ reached (8 * i + (7 - j) + 1) input'.
  Proof.
    intros B X H (L & TX & P). pose proof (znth_Some _ _ _ X) as IB. assert (F : zlen input / 8 < n) by (rewrite L; clear - short IB B; lia).
    unfold print_bit. destruct (gathered _ _ H P F) as (states & E & T). rewrite E. cbn [bind].
    set (cs := map (fun _ => ct_default) (filter is_for_node states)).
    assert (C : zlen cs = branching max_order (map fst input)) by (unfold cs; rewrite zlen_map; exact (report_nodes _ _ _ _ T)).
    assert (D : Forall (fun c => c = ct_default) cs) by (apply Forall_forall; intros c Q; apply in_map_iff in Q as (y & <- & _); reflexivity).
    destruct (processed input s (Z.odd (x / 2 ^ j)) cs H P F C D) as (s' & E' & H'). exists s', (input ++ [(Z.odd (x / 2 ^ j), cs)]). split; [|split; [exact H'|]].
    - rewrite get_bit_ok by exact B. unfold bit_at.
      assert (LN : (if 0 <? zlen states then let* recent := mmap (fun item => let* r := recent_bits item in Ok (rb_last_7_bits r)) states in Ok (out ++ [States j recent]) else Ok out)
        = Ok (out ++ bit_lines max_order bytes i j)).
      { rewrite (histories_none _ _ _ _ T). pose proof (report_shown _ _ _ _ T) as R. unfold shown_recent in R. rewrite R. unfold bit_lines. fold text. rewrite <- TX.
        destruct (histories max_order (map fst input)); [now rewrite app_nil_r|reflexivity]. }
      rewrite LN. cbn [bind]. rewrite E'. reflexivity.
    - split; [rewrite zlen_app, L; reflexivity|]. split; [|now apply plain_snoc]. rewrite map_app, TX. cbn [map fst].
      replace (Z.to_nat (8 * i + (7 - j) + 1)) with (Datatypes.S (Z.to_nat (8 * i + (7 - j)))) by (clear - IB B; lia). symmetry. apply UtilProofs.firstn_snoc.
      rewrite Z2Nat.id by (clear - IB B; lia). exact (bit_of_byte bytes i x j X B).
  Qed.
  Lemma print_bits_ok i x : znth bytes i = Some x -> forall js j0 input s out, js = rev (zseq 0 (Z.to_nat (j0 + 1))) -> 0 <= j0 < 8 -> J input s -> reached (8 * i + (7 - j0)) input ->
    exists s' input', mfold (print_bit hs x) js (s, out) = Ok (s', out ++ flat_map (bit_lines max_order bytes i) js) /\ I input' s' /\ reached (8 * (i + 1)) input'.
  Proof.
    intros X. pose proof (znth_Some _ _ _ X) as IB. induction js as [|j js IH]; intros j0 input s out EJ B H R.
    - exfalso. apply (f_equal (@length Z)) in EJ. rewrite rev_length, zseq_length in EJ. cbn [length] in EJ. lia.
    - replace (Z.to_nat (j0 + 1)) with (Z.to_nat j0 + 1)%nat in EJ by lia. rewrite zseq_app, rev_app_distr in EJ. cbn [zseq rev app] in EJ. injection EJ as EJ ->.
      assert (EQ : j = j0) by (clear - EJ B; lia). clear EJ. rewrite EQ. clear j EQ.
      cbn [mfold flat_map]. destruct (print_bit_ok i x j0 input s out B X H R) as (s1 & input1 & E & I1 & R1). rewrite E. cbn [bind]. clear E.
      destruct (Z.eq_dec j0 0) as [->|NZ].
      + exists s1, input1. cbn [Z.to_nat zseq rev mfold flat_map]. rewrite app_nil_r. split; [reflexivity|]. split; [exact I1|]. replace (8 * (i + 1)) with (8 * i + (7 - 0) + 1) by lia. exact R1.
      + destruct (IH (j0 - 1) input1 s1 (out ++ bit_lines max_order bytes i j0)) as (s2 & input2 & E & I2 & R2).
        * do 2 f_equal. lia.
        * lia.
        * apply waiting; [exact I1|]. destruct R1 as (L & _). rewrite L. clear - NZ B. lia.
        * replace (8 * i + (7 - (j0 - 1))) with (8 * i + (7 - j0) + 1) by lia. exact R1.
        * exists s2, input2. rewrite E, <- app_assoc. auto.
  Qed.
  Lemma print_byte_ok i x input s out : znth bytes i = Some x -> I input s -> reached (8 * i) input ->
    exists s' input', print_byte hs (s, out) (i, x) = Ok (s', out ++ byte_lines max_order bytes i) /\ I input' s' /\ reached (8 * (i + 1)) input'.
  Proof.
    intros X H R. pose proof (znth_Some _ _ _ X) as IB. pose proof R as (L & _ & P). unfold print_byte.
    destruct (started input s H P) as (s1 & E1 & J1); [rewrite L; clear; lia|rewrite L; clear - IB short; lia|]. rewrite E1. cbn [bind].
    change (rev (range 0 (7 + 1))) with (rev (zseq 0 (Z.to_nat (7 + 1)))).
    destruct (print_bits_ok i x X _ 7 input s1 (out ++ [Header i x]) eq_refl ltac:(lia) J1) as (s2 & input2 & E2 & I2 & R2); [replace (8 * i + (7 - 7)) with (8 * i) by lia; exact R|].
    rewrite E2. cbn [bind]. exists s2, input2. split; [|split; assumption]. do 2 f_equal. unfold byte_lines. rewrite znth_nth_error in X by lia. rewrite (nth_error_nth _ _ 0 X).
    rewrite <- !app_assoc. reflexivity.
  Qed.
  Lemma print_all_ok s0 : I [] s0 -> exists s', mfold (print_byte hs) (List.combine (range 0 (zlen bytes)) bytes) (s0, []) = Ok (s', flat_map (byte_lines max_order bytes) (zseq 0 (length bytes))).
  Proof.
    intros I0. assert (G : forall rest done, bytes = done ++ rest -> forall s out input, I input s -> reached (8 * zlen done) input ->
      exists s', mfold (print_byte hs) (List.combine (zseq (zlen done) (length rest)) rest) (s, out) = Ok (s', out ++ flat_map (byte_lines max_order bytes) (zseq (zlen done) (length rest)))).
    { induction rest as [|x rest IH]; intros done E s out input H R; [exists s; cbn [length zseq List.combine mfold flat_map]; now rewrite app_nil_r|].
      cbn [length zseq List.combine mfold flat_map]. pose proof (zlen_nonneg done).
      assert (X : znth bytes (zlen done) = Some x) by (rewrite E, znth_nth_error by lia; unfold zlen; rewrite Nat2Z.id, nth_error_app2, Nat.sub_diag by lia; reflexivity).
      destruct (print_byte_ok (zlen done) x input s out X H R) as (s1 & input1 & E1 & I1 & R1). rewrite E1. cbn [bind].
      assert (LD : zlen (done ++ [x]) = zlen done + 1) by (rewrite zlen_app; reflexivity). rewrite <- LD in R1 |- *.
      destruct (IH (done ++ [x]) ltac:(rewrite <- app_assoc; exact E) s1 (out ++ byte_lines max_order bytes (zlen done)) input1 I1 R1) as (s2 & E2). exists s2. rewrite E2, <- app_assoc. reflexivity. }
    destruct (G bytes [] eq_refl s0 [] [] I0) as (s' & E).
    - split; [reflexivity|]. split; [reflexivity|]. apply plain_nil.
    - exists s'. rewrite range_0. unfold zlen at 1. rewrite Nat2Z.id. exact E.
  Qed.
End Program.

Lemma program_ok {S} (hs : history_source S) rates max_order file (I J : fed -> S -> Prop) :
  (exists s, hs_new hs (zlen file) max_order = Ok s /\ I [] s) ->
  (forall input s, I input s -> plain max_order input -> zlen input mod 8 = 0 -> zlen input / 8 < zlen file -> exists s', hs_start hs s = Ok s' /\ J input s') ->
  (forall input s, I input s -> zlen input mod 8 <> 0 -> J input s) ->
  (forall input s, J input s -> plain max_order input -> zlen input / 8 < zlen file -> exists states, hs_gather hs s [] = Ok states /\ true_report rates max_order (map fst input) states) ->
  (forall input s b cs, J input s -> plain max_order input -> zlen input / 8 < zlen file -> zlen cs = branching max_order (map fst input) -> Forall (fun c => c = ct_default) cs ->
    exists s', hs_process hs s b cs = Ok s' /\ I (input ++ [(b, cs)]) s') ->
  print_bit_histories hs max_order file = Ok (listing max_order file).
Proof.
  intros (s0 & E0 & I0) A B C D. unfold print_bit_histories. rewrite E0. cbn [bind].
  destruct (print_all_ok hs rates max_order (zlen file) I J A B C D (firstn 1234 file)) with (s0 := s0) as (s' & E); [unfold zlen; rewrite firstn_length; lia|exact I0|].
  rewrite E. reflexivity.
Qed.

(** ** The three sources *)
Lemma listing_naive t max_order file : luts_new = Ok t -> 0 < zlen file < 2 ^ 63 -> 0 <= max_order < 2 ^ 64 - 1 ->
  print_bit_histories (brute_force t) max_order file = Ok (listing max_order file).
Proof.
  intros L M O. apply (program_ok (brute_force t) (lt_rates t) max_order file (fun i => naive_idle (zlen file) max_order (map fst i)) (fun i => naive_ready (zlen file) max_order (map fst i))).
  - cbn [hs_new brute_force]. destruct (tape_new (zlen file) M) as (w & E & T). unfold naive_new. rewrite E. cbn [bind]. eexists. split; [reflexivity|].
    exists []. cbn [nv_input nv_max_order nv_bit_index map]. repeat split; apply T || reflexivity.
  - intros input s H _ Z0 F. cbn [hs_start brute_force]. apply naive_start_ok; rewrite ?zlen_map; assumption.
  - intros input s (bytes & T' & ID & MO & BI) Z0. exists bytes. unfold idle, ready in *. rewrite zlen_map in *. split; [exact T'|]. split; [clear - ID Z0; lia|]. split; [exact MO|].
    rewrite BI. clear - Z0. destruct (Z.eqb_spec (zlen input mod 8) 0); lia.
  - intros input s H (_ & D) F. cbn [hs_gather brute_force]. destruct (report_true t max_order input L ltac:(apply O)) as (states & E & T). exists states. split; [|exact T].
    unfold naive_gather. pose proof H as (bytes & _ & _ & MO & _). rewrite MO. rewrite add_ok by (ib; clear - O; lia). cbn [bind]. rewrite range_0.
    rewrite (naive_orders_ok t (zlen file) max_order input s H D) by (pose proof (zlen_nonneg (map fst input)) as NN; clear - NN; lia || (clear - NN O; lia)).
    change (report_from t input 0 (Z.to_nat (max_order + 1))) with (report t max_order input). rewrite E. reflexivity.
  - intros input s b cs H _ _ _ D. cbn [hs_process brute_force]. rewrite map_app. now apply naive_process_ok.
Qed.
Lemma listing_fat t hash max_order file : luts_new = Ok t -> 0 < zlen file < 2 ^ 63 -> 0 <= max_order -> 8 * (max_order + 1) < 2 ^ 64 ->
  print_bit_histories (fat_map t hash) max_order file = Ok (listing max_order file).
Proof.
  intros L M O B. apply (program_ok (fat_map t hash) (lt_rates t) max_order file (fat_idle t hash (zlen file) max_order) (fat_ready t hash (zlen file) max_order)).
  - exact (fat_new_ok t hash (zlen file) max_order M O B).
  - intros input s H _ Z0 F. exact (fat_start_ok t hash (zlen file) max_order input s H Z0 F).
  - intros input s H Z0. destruct H as (bytes & W & ID & R). exists bytes. split; [exact W|]. split; [|exact R]. unfold idle, ready in *. rewrite zlen_map in *. clear - ID Z0. lia.
  - intros input s H (W & _) F. cbn [hs_gather fat_map]. destruct (report_true t max_order input L O) as (states & E & T). exists states. split; [|exact T].
    rewrite (fat_gather_ok t hash (all_states t L) (zlen file) max_order input s [] H). rewrite E. reflexivity.
  - intros input s b cs H _ _ C _. exact (fat_process_ok t hash (all_states t L) (zlen file) max_order input s b cs H C).
Qed.
(** The tree as a fold of [feed_step]; its window never drops a byte here. *)
Lemma roomy_supplied m max_order input : zlen input <= 8 * m -> well_supplied max_order input -> supplied m max_order input.
Proof.
  intros F W before b tk later E. rewrite (W _ _ _ _ E). f_equal. unfold in_window, forgotten. rewrite zlen_map. subst input. rewrite zlen_app, zlen_cons in F. pose proof (zlen_nonneg later).
  replace (Z.max 0 (zlen before / 8 + 1 - m)) with 0 by lia. reflexivity.
Qed.
Definition tree_idle (t : luts) (s0 : source) (input : fed) (s : source) : Prop := mfold (feed_step tree_start (tree_process t)) input (0, s0) = Ok (zlen input, s).
Definition tree_ready (t : luts) (s0 : source) (input : fed) (s : source) : Prop := feed tree_start (tree_process t) s0 input = Ok s.
Lemma feed_count {S} (start : S -> res S) process input : forall k s k' s', mfold (feed_step start process) input (k, s) = Ok (k', s') -> k' = k + zlen input.
Proof.
  induction input as [|x input IH]; intros k s k' s' E; [injection E as <- <-; change (zlen (@nil (bit * list cost_trackers))) with 0; lia|]. cbn [mfold feed_step] in E.
  destruct (if k mod 8 =? 0 then start s else Ok s) as [s1|]; [|discriminate]. cbn [bind] in E. destruct (process s1 (fst x) (snd x)) as [s2|]; [|discriminate]. cbn [bind] in E.
  rewrite (IH _ _ _ _ E), zlen_cons. lia.
Qed.
Lemma feed_idle {S} (start : S -> res S) process input s0 s : mfold (feed_step start process) input (0, s0) = Ok (zlen input, s) ->
  feed start process s0 input = if zlen input mod 8 =? 0 then start s else Ok s.
Proof. intros E. unfold feed. rewrite E. reflexivity. Qed.
Lemma feed_snoc {S} (start : S -> res S) process input x s0 s s' : feed start process s0 input = Ok s -> feed start process s0 (input ++ [x]) = Ok s' ->
  exists s1, process s (fst x) (snd x) = Ok s1 /\ mfold (feed_step start process) (input ++ [x]) (0, s0) = Ok (zlen (input ++ [x]), s1).
Proof.
  unfold feed. rewrite mfold_app. destruct (mfold (feed_step start process) input (0, s0)) as [[k s2]|] eqn:E; [|discriminate]. pose proof (feed_count _ _ _ _ _ _ _ E) as K. cbn [bind mfold feed_step].
  intros ->. cbn [bind]. destruct (process s (fst x) (snd x)) as [s1|]; [|discriminate]. intros _. exists s1. split; [reflexivity|]. cbn [bind]. rewrite K, zlen_app. do 2 f_equal.
Qed.
Lemma listing_tree t max_order file : luts_new = Ok t -> 0 < zlen file <= 2 ^ 31 -> 0 <= max_order -> 8 * max_order + 7 < 2 ^ 16 ->
  print_bit_histories (tree_source t) max_order file = Ok (listing max_order file).
Proof.
  intros L M O D. assert (SH : 0 <= 0 < zlen file) by (clear - M; lia). set (m := zlen file) in *. destruct (tree_new m max_order 0) as [s0|e] eqn:E0.
  2:{ exfalso. destruct (tree_window t m max_order 0 [] L M SH O D) as (s & st & E & _); [apply roomy_supplied; [change (zlen []) with 0; clear - M; lia|apply plain_nil]|].
      unfold tree_after in E. rewrite E0 in E. discriminate. }
  assert (FED : forall input, zlen input <= 8 * m -> well_supplied max_order input -> exists s, feed tree_start (tree_process t) s0 input = Ok s).
  { intros input F W. destruct (tree_window t m max_order 0 input L M SH O D (roomy_supplied _ _ _ F W)) as (s & st & E & _). unfold tree_after in E. rewrite E0 in E. exists s. exact E. }
  apply (program_ok (tree_source t) (lt_rates t) max_order file (tree_idle t s0) (tree_ready t s0)); fold m.
  - exists s0. split; [exact E0|]. reflexivity.
  - intros input s H (W & _) Z0 F. destruct (FED input ltac:(clear - Z0 F; lia) W) as (s' & E). exists s'. split; [|exact E]. rewrite (feed_idle _ _ _ _ _ H), Z0 in E. exact E.
  - intros input s H N. unfold tree_ready. rewrite (feed_idle _ _ _ _ _ H). apply Z.eqb_neq in N. rewrite N. reflexivity.
  - intros input s H (W & _) F. cbn [hs_gather tree_source]. destruct (tree_true t m max_order 0 input L M SH O D F W) as (st & E & T & _). exists st. split; [|exact T].
    unfold tree_states, tree_after in E. rewrite E0 in E. cbn [bind] in E. rewrite H in E. exact E.
  - intros input s b cs H (W & _) F C _. cbn [hs_process tree_source]. destruct (FED (input ++ [(b, cs)])) as (s' & E).
    + rewrite zlen_app. change (zlen [(b, cs)]) with 1. clear - F. lia.
    + now apply well_supplied_snoc.
    + destruct (feed_snoc _ _ _ _ _ _ _ H E) as (s1 & E1 & E2). exists s1. split; [exact E1|exact E2].
Qed.
(** An empty file: the window would have no room. *)
Lemma listing_empty t hash max_order : print_bit_histories (brute_force t) max_order [] = Fail EAssert /\ print_bit_histories (fat_map t hash) max_order [] = Fail EAssert /\
  print_bit_histories (tree_source t) max_order [] = Fail EAssert.
Proof. repeat split; reflexivity. Qed.
