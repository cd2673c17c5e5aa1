(** The cost trackers kept in the tree stay within their type. *)
From Coq Require Import ZifyBool.
From Verif Require Import LutModel ApmModel Base BaseFacts StateModel EstModel EstProofs LogModel LogProofs StatesModel StatesSpec StatesProofs WindowModel NodesModel HistSpec TreeModel PredModel PredKits PredChain.
Ltac Zify.zify_post_hook ::= Z.div_mod_to_equations.

Ltac opened := repeat match goal with
  | H : bind _ _ = Ok _ |- _ => apply bind_ok in H; destruct H as (? & ? & H)
  | H : Ok _ = Ok _ |- _ => injection H; clear H; intros; subst
  | H : Fail _ = Ok _ |- _ => discriminate H
  | H : (if ?c then _ else _) = Ok _ |- _ => destruct c eqn:?
  | H : (match ?c with _ => _ end) = Ok _ |- _ => destruct c eqn:?
  end.

Ltac binds E := repeat (cbv beta in E; match type of E with bind _ _ = _ => apply bind_ok in E; destruct E as (? & ? & E) end).

(** ** The table of costs *)
Definition costs_ok (t : luts) : Prop := each (fun c => 0 <= c <= 65535) (lt_cost t).
Lemma cost_loop_range l2 rates n : forall x e l, cost_lut_loop l2 rates n x e = Ok l -> each (fun c => 0 <= c <= 65535) l.
Proof.
  induction n as [|n IH]; intros x e l E; cbn [cost_lut_loop] in E.
  - injection E as <-. intros i c C. discriminate.
  - inv_bind E. inv_bind E. inv_bind E. inv_bind E. rename E3 into U. inv_bind E. inv_bind E. inv_bind E. inv_bind E. apply IH in E6. injection E as <-.
    unfold cost_updated in U. inv_bind U. inv_bind U. inv_bind U. inv_bind U. injection U as <-.
    intros i c C. cbn [znth] in C. destruct (i =? 0); [injection C as <-|exact (E6 _ _ C)]. clear. unfold sat. ib. lia.
Qed.
Lemma cost_range l2 rates l : cost_lut_new l2 rates = Ok l -> each (fun c => 0 <= c <= 65535) l.
Proof.
  unfold cost_lut_new. intros H. apply bind_ok in H. destruct H as (e & _ & H). exact (cost_loop_range _ _ _ _ _ _ H).
Qed.
Lemma costs_made (m1 : res (list Z)) m2 m3 t :
  (let* log2_lut := m1 in let* rates := m2 in let* cache := cache_new rates in let* cost := cost_lut_new log2_lut rates in let* st := m3 in let* sq := squash_new st in
   let* predictions := predictions_new rates in let* direct := mmap (fun p => let* s := stretch st p in Ok (p, s)) predictions in
   let* apm0 := apm_lut_new 0 sq in let* apm1 := apm_lut_new 1 sq in let* apm2 := apm_lut_new 2 sq in
   Ok (mkLuts log2_lut rates cache direct cost st sq [apm0; apm1; apm2])) = Ok t -> costs_ok t.
Proof.
  intros L. do 11 (apply bind_ok in L; destruct L as (? & ? & L)). injection L as <-.
  match goal with H : cost_lut_new _ _ = Ok _ |- _ => exact (cost_range _ _ _ H) end.
Qed.
Lemma costs_of t : luts_new = Ok t -> costs_ok t.
Proof. unfold luts_new. apply costs_made. Qed.
Lemma cost_entry t n c : costs_ok t -> cost_lut_for_new_node (lt_cost t) n = Ok c -> tracker_ok (c, c).
Proof.
  intros T E. unfold cost_lut_for_new_node, get in E. destruct (znth (lt_cost t) (Z.min n (1024 - 1))) as [x|] eqn:X; [|discriminate]. injection E as <-.
  pose proof (T _ _ X). split; assumption.
Qed.

(** ** The nodes *)
Definition node_ok (n : node) : Prop := tracker_ok (nd_trackers n).
Definition nodes_ok (ns : nodes) : Prop := each node_ok (ns_items ns).
Lemma invalid_ok : node_ok node_invalid. Proof. unfold node_ok, tracker_ok; cbn; lia. Qed.
Lemma nd_set_child_ok n d c : node_ok n -> node_ok (nd_set_child n d c).
Proof. unfold nd_set_child. destruct (nd_children n). exact (fun H => H). Qed.
Lemma set_start_ok n x : node_ok n -> node_ok (nd_set_text_start n x). Proof. exact (fun H => H). Qed.
Lemma nodes_get_tr ns i n : nodes_ok ns -> nodes_get ns i = Ok n -> node_ok n.
Proof. intros P E. unfold nodes_get, get in E. opened. eapply P. eassumption. Qed.
Lemma nodes_update_tr ns i n ns' : nodes_ok ns -> node_ok n -> nodes_update ns i n = Ok ns' -> nodes_ok ns'.
Proof. intros P N E. unfold nodes_update, set in E. opened. unfold nodes_ok. cbn [ns_items]. apply each_zupd; assumption. Qed.
Lemma nodes_set_tr ns i n ns' : nodes_ok ns -> node_ok n -> nodes_set ns i n = Ok ns' -> nodes_ok ns'.
Proof. intros P N E. unfold nodes_set in E. opened. eapply nodes_update_tr; eassumption. Qed.
Lemma each_snoc {A} (P : A -> Prop) l x : each P l -> P x -> each P (l ++ [x]).
Proof.
  intros E X i y Y. pose proof (znth_Some _ _ _ Y) as I. rewrite zlen_app in I. change (zlen [x]) with 1 in I. destruct (Z.eq_dec i (zlen l)) as [->|N].
  - rewrite znth_app2 in Y by lia. replace (zlen l - zlen l) with 0 in Y by lia. injection Y as <-. exact X.
  - rewrite znth_app1 in Y by lia. exact (E _ _ Y).
Qed.
Lemma nodes_add_tr ns n c ns' : nodes_ok ns -> node_ok n -> nodes_add ns n = Ok (c, ns') -> nodes_ok ns'.
Proof.
  intros P N E. unfold nodes_add in E. opened; try (eapply nodes_update_tr; [|eassumption|eassumption]; exact P); unfold nodes_ok; cbn [ns_items]; apply each_snoc; assumption.
Qed.
Lemma nodes_delete_tr ns i ns' : nodes_ok ns -> nodes_delete ns i = Ok ns' -> nodes_ok ns'.
Proof.
  intros P E. unfold nodes_delete in E. apply bind_ok in E. destruct E as (r & _ & E). cbv zeta in E. apply bind_ok in E. destruct E as (ns1 & S & E). opened. unfold nodes_ok. cbn [ns_items].
  apply (nodes_set_tr ns i _ ns1 P) in S; [exact S|]. apply nd_set_child_ok, nd_set_child_ok, invalid_ok.
Qed.
Lemma node_new_tr a b c tr d e f g h n : tracker_ok tr -> node_new a b c tr d e f g h = Ok n -> node_ok n.
Proof. intros T E. unfold node_new in E. opened. exact T. Qed.
Lemma update_bit_tr rates n b tr n' : tracker_ok tr -> nd_update_on_next_bit rates n b tr = Ok n' -> node_ok n'.
Proof. intros T E. unfold nd_update_on_next_bit in E. do 5 (apply bind_ok in E; destruct E as (? & _ & E)). injection E as <-. exact T. Qed.

(** ** The tree *)
Definition tree_ok (tr : tree) : Prop := nodes_ok (tr_nodes tr).


Lemma setup_tr t tr cx o bi ts n : costs_ok t -> setup_split_edge t tr cx o bi ts = Ok n -> node_ok n.
Proof.
  intros C E. unfold setup_split_edge in E. cbv zeta in E. do 7 (apply bind_ok in E; destruct E as (? & ? & E)). eapply node_new_tr; [|exact E]. eapply cost_entry; eassumption.
Qed.
Lemma add_pair ns n p : nodes_ok ns -> node_ok n -> nodes_add ns n = Ok p -> nodes_ok (snd p).
Proof. destruct p. apply nodes_add_tr. Qed.
Ltac node := first [assumption | apply invalid_ok | apply nd_set_child_ok; node | apply set_start_ok; node].
Ltac keep := unfold tree_ok, with_nodes, with_window, with_proper in *; cbn [tr_nodes fst snd] in *;
  repeat match goal with
  | H : nodes_get ?ns _ = Ok _, P : nodes_ok ?ns |- _ => apply (nodes_get_tr _ _ _ P) in H
  | H : nd_update_on_next_bit _ _ _ _ = Ok _ |- _ => apply update_bit_tr in H; [|assumption]
  | H : cost_lut_for_new_node _ _ = Ok _, C : costs_ok _ |- _ => apply (cost_entry _ _ _ C) in H
  | H : node_new _ _ _ _ _ _ _ _ _ = Ok _ |- _ => apply node_new_tr in H; [|assumption]
  | H : setup_split_edge _ _ _ _ _ _ = Ok _, C : costs_ok _ |- _ => apply (setup_tr _ _ _ _ _ _ _ C) in H
  | H : nodes_set ?ns _ _ = Ok _, P : nodes_ok ?ns |- _ => apply (nodes_set_tr _ _ _ _ P) in H; [|solve [node]]
  | H : nodes_update ?ns _ _ = Ok _, P : nodes_ok ?ns |- _ => apply (nodes_update_tr _ _ _ _ P) in H; [|solve [node]]
  | H : nodes_add ?ns _ = Ok ?p, P : nodes_ok ?ns |- _ => apply (add_pair _ _ _ P) in H; [|solve [node]]; cbn [snd] in H
  | H : nodes_delete ?ns _ = Ok _, P : nodes_ok ?ns |- _ => apply (nodes_delete_tr _ _ _ P) in H
  end; first [assumption | node].

Lemma descend_tr t tr cx order bi trk tr' cx' : tree_ok tr -> tracker_ok trk -> descend t tr cx order bi trk = Ok (tr', cx') -> tree_ok tr'.
Proof. intros P T E. unfold descend in E. cbv zeta in E. opened; keep. Qed.
Lemma shift_tr tr cs mo tr' cs' : tree_ok tr -> TreeModel.shift tr cs mo = Ok (tr', cs') -> tree_ok tr'.
Proof. intros P E. unfold TreeModel.shift in E. cbv zeta in E. opened; keep. Qed.
Lemma split_edge_tr t tr cx o bi tr' : costs_ok t -> tree_ok tr -> split_edge t tr cx o bi = Ok tr' -> tree_ok tr'.
Proof.
  intros C P E. unfold split_edge in E. cbv zeta in E. apply bind_ok in E. destruct E as (d & _ & E). destruct (negb (cx_in_leaf cx)).
  - binds E. injection E as <-. keep.
  - binds E. injection E as <-. keep.
Qed.
Lemma degenerate_step_tr t bi st o st' : costs_ok t -> tree_ok (fst st) -> split_degenerate_step t bi st o = Ok st' -> tree_ok (fst st').
Proof.
  intros C P E. destruct st as (tr & last). unfold split_degenerate_step in E. cbv zeta in E.
  binds E. destruct (o =? 0); apply bind_ok in E; destruct E as (? & ? & E); injection E as <-; keep.
Qed.
Lemma mfold_keeps {S A} (f : S -> A -> res S) (P : S -> Prop) : (forall s x s', P s -> f s x = Ok s' -> P s') -> forall l s s', P s -> mfold f l s = Ok s' -> P s'.
Proof.
  intros K. induction l as [|x l IH]; intros s s' H E; cbn [mfold] in E; [injection E as <-; exact H|]. apply bind_ok in E. destruct E as (s1 & E1 & E). eapply IH; [|exact E]. eapply K; eassumption.
Qed.
Lemma degenerate_tr t tr o bi tr' : costs_ok t -> tree_ok tr -> split_degenerate_root_edge t tr o bi = Ok tr' -> tree_ok tr'.
Proof.
  intros C P E. unfold split_degenerate_root_edge in E. binds E. injection E as <-.
  match goal with H : mfold _ _ _ = Ok _ |- _ => apply (mfold_keeps (split_degenerate_step t bi) (fun st => tree_ok (fst st))) in H; [exact H| |exact P] end.
  intros s y s' Q1 Q2. exact (degenerate_step_tr _ _ _ _ _ C Q1 Q2).
Qed.
Lemma extend_step_tr t trs bi st o st' : costs_ok t -> Forall tracker_ok trs -> tree_ok (fst (fst st)) -> extend_step t trs bi st o = Ok st' -> tree_ok (fst (fst st')).
Proof.
  intros C T P E. destruct st as ((tr & cs) & count). unfold extend_step in E. cbv zeta in E.
  binds E. destruct (nd_depth _ =? _).
  - apply bind_ok in E. destruct E as (? & _ & E). apply bind_ok in E. destruct E as (? & _ & E). apply bind_ok in E. destruct E as (trk & G & E). apply bind_ok in E. destruct E as (r & D & E).
    apply bind_ok in E. destruct E as (? & _ & E). injection E as <-. destruct r as (tr2 & cx2). cbn [fst snd] in *. eapply descend_tr; [exact P| |exact D].
    unfold get in G. destruct (znth trs o) eqn:Z; [|discriminate]. injection G as <-. exact (znth_Forall _ _ _ _ T Z).
  - apply bind_ok in E. destruct E as (? & _ & E). apply bind_ok in E. destruct E as (? & _ & E). apply bind_ok in E. destruct E as (differ & _ & E). destruct differ.
    + apply bind_ok in E. destruct E as (? & _ & E). apply bind_ok in E. destruct E as (? & _ & E). apply bind_ok in E. destruct E as (tr2 & S & E). apply bind_ok in E. destruct E as (? & _ & E).
      apply bind_ok in E. destruct E as (? & _ & E). injection E as <-. cbn [fst snd] in *. eapply split_edge_tr; eassumption.
    + injection E as <-. exact P.
Qed.
Lemma process_tr t s b trs s' : costs_ok t -> Forall tracker_ok trs -> tree_ok (ts_tree s) -> tree_process t s b trs = Ok s' -> tree_ok (ts_tree s').
Proof.
  intros C T P E. unfold tree_process in E. apply bind_ok in E. destruct E as (? & _ & E). apply bind_ok in E. destruct E as (r & X & E). apply bind_ok in E. destruct E as (? & _ & E). injection E as <-. cbn [ts_tree].
  unfold tree_extend in X. cbv zeta in X. apply bind_ok in X. destruct X as (w & _ & X). destruct (tr_proper _).
  - apply bind_ok in X. destruct X as (((tr & cs) & count) & F & X). injection X as <-. cbn [fst].
    apply (mfold_keeps (extend_step t trs (ts_bit_index s)) (fun st => tree_ok (fst (fst st)))) in F; [exact F| |exact P]. intros s0 y s1 H1 H2. eapply extend_step_tr; eassumption.
  - apply bind_ok in X. destruct X as (? & _ & X). apply bind_ok in X. destruct X as (differ & _ & X). destruct differ; [|injection X as <-; exact P].
    apply bind_ok in X. destruct X as (? & _ & X). apply bind_ok in X. destruct X as (tr & D & X). injection X as <-. apply degenerate_tr in D; [exact D|exact C|exact P].
Qed.
Lemma remove_tr tr cs tr' cs' : tree_ok tr -> remove_leftmost_suffix tr cs = Ok (tr', cs') -> tree_ok tr'.
Proof.
  intros P E. unfold remove_leftmost_suffix in E. cbv zeta in E. apply bind_ok in E. destruct E as ((tr1 & cs1) & R & E). apply bind_ok in E. destruct E as (w & _ & E). injection E as <- <-.
  change (tree_ok tr1). destruct (tr_proper tr); [|injection R as <- <-; exact P].
  apply bind_ok in R. destruct R as (((parent & i) & d) & _ & R). apply bind_ok in R. destruct R as (n & G & R). apply bind_ok in R. destruct R as (lw & _ & R).
  destruct (negb (lw =? _)).
  { apply bind_ok in R. destruct R as (? & _ & R). injection R as <- <-. exact P. }
  destruct (index_is_root i).
  { apply bind_ok in R. destruct R as (? & _ & R). destruct (child_is_node_index _).
    - binds R. injection R as <- <-. keep.
    - apply bind_ok in R; destruct R as (? & ? & R). injection R as <- <-. keep. }
  destruct (existsb _ cs).
  { apply bind_ok in R. destruct R as (? & _ & R). apply bind_ok in R. destruct R as ((pi & nd) & _ & R). destruct (child_is_window_index _).
    - binds R. injection R as <- <-. keep.
    - binds R. injection R as <- <-. keep. }
  apply bind_ok in R. destruct R as ((pi & nd) & _ & R). binds R. injection R as <- <-. keep.
Qed.
Lemma start_tr s s' : tree_ok (ts_tree s) -> tree_start s = Ok s' -> tree_ok (ts_tree s').
Proof.
  intros P E. unfold tree_start in E. apply bind_ok in E. destruct E as (? & _ & E). apply bind_ok in E. destruct E as ((tr & cs) & B & E). apply bind_ok in E. destruct E as ((tr2 & cs2) & S & E).
  injection E as <-. cbn [ts_tree fst snd] in *. eapply shift_tr; [|exact S]. unfold tree_start_byte in B. apply bind_ok in B. destruct B as ((tr1 & cs1) & R & B).
  apply bind_ok in B. destruct B as (? & _ & B). apply bind_ok in B. destruct B as (? & _ & B). injection B as <- <-. change (tree_ok tr1).
  destruct (w_size _ =? w_max _); [|injection R as <- <-; exact P]. apply bind_ok in R. destruct R as ((tr3 & cs3) & R & Q). cbv zeta in Q.
  apply bind_ok in Q. destruct Q as (? & _ & Q). apply bind_ok in Q. destruct Q as (? & _ & Q). apply bind_ok in Q. destruct Q as (? & _ & Q). injection Q as <- <-. eapply remove_tr; eassumption.
Qed.
Lemma new_tr max mo shift s : tree_new max mo shift = Ok s -> tree_ok (ts_tree s).
Proof.
  intros E. unfold tree_new in E. do 2 (apply bind_ok in E; destruct E as (? & _ & E)). apply bind_ok in E. destruct E as (l & _ & E). apply bind_ok in E. destruct E as (ns & N & E).
  do 2 (apply bind_ok in E; destruct E as (? & _ & E)). injection E as <-. unfold tree_ok. cbn [ts_tree tr_nodes]. unfold nodes_new in N. apply bind_ok in N. destruct N as (? & _ & N). injection N as <-.
  unfold nodes_ok. cbn [ns_items]. apply (each_repeat node_ok node_invalid 1), invalid_ok.
Qed.

(** ** What is reported *)
Definition report_ok (s : context_state) : Prop := match s with ForEdge _ _ _ => True | ForNode _ _ _ _ tr => tracker_ok tr end.
Lemma gather_contexts_tr tr bi cs : forall order items items', tree_ok tr -> Forall report_ok items -> gather_contexts tr bi cs order items = Ok items' -> Forall report_ok items'.
Proof.
  induction cs as [|cx cs IH]; intros order items items' P F E; cbn [gather_contexts] in E; [injection E as <-; exact F|]. cbv zeta in E.
  apply bind_ok in E. destruct E as (n & G & E). apply bind_ok in E. destruct E as (? & _ & E). apply bind_ok in E. destruct E as (? & _ & E). apply bind_ok in E. destruct E as (? & _ & E).
  apply bind_ok in E. destruct E as (? & _ & E). apply bind_ok in E. destruct E as (? & _ & E). apply bind_ok in E. destruct E as (items1 & I & E). eapply IH; [exact P| |exact E].
  destruct (nd_depth n =? _).
  - injection I as <-. apply Forall_app. split; [exact F|]. constructor; [|constructor]. exact (nodes_get_tr _ _ _ P G).
  - apply bind_ok in I. destruct I as (? & _ & I). destruct (0 <? cx_visits cx); [|injection I as <-; exact F].
    apply bind_ok in I. destruct I as (? & _ & I). apply bind_ok in I. destruct I as (? & _ & I). injection I as <-. apply Forall_app. split; [exact F|]. constructor; [exact Logic.I|constructor].
Qed.
Lemma gather_tr s items : tree_ok (ts_tree s) -> tree_gather s [] = Ok items -> Forall report_ok items.
Proof.
  intros P E. unfold tree_gather in E. apply bind_ok in E. destruct E as (? & _ & E). unfold tree_gather_states in E. apply bind_ok in E. destruct E as (? & _ & E). cbv zeta in E. destruct (tr_proper _).
  - apply bind_ok in E. destruct E as (? & _ & E). eapply gather_contexts_tr; [exact P|constructor|exact E].
  - apply bind_ok in E. destruct E as (? & _ & E). apply bind_ok in E. destruct E as (? & _ & E). apply bind_ok in E. destruct E as (? & _ & E).
    eapply (mfold_keeps _ (Forall report_ok)); [|constructor|exact E]. intros l o l' F H. cbv zeta in H.
    apply bind_ok in H. destruct H as (? & _ & H). apply bind_ok in H. destruct H as (? & _ & H). apply bind_ok in H. destruct H as (? & _ & H). injection H as <-. apply Forall_app. split; [exact F|]. constructor; [exact I|constructor].
Qed.
