(** Proofs about slots deleted twice. *)
From Coq Require Import Lia ZifyBool.
From Verif Require Import Base BaseFacts StatesModel NodesModel NodesSpec NodesProofs MisuseSpec.

Lemma filter_out i l : ~ In i l -> filter (fun k => negb (k =? i)) l = l.
Proof.
  induction l as [|k r IH]; intros N; cbn [filter]; [reflexivity|]. destruct (Z.eqb_spec k i) as [->|K].
  - exfalso. apply N. left. reflexivity.
  - cbn [negb]. rewrite IH; [reflexivity|]. intros X. apply N. right. exact X.
Qed.
Lemma arises_freed limit events ns : 1 <= limit <= 2 ^ 31 -> arises limit events ns -> stock ns (live events) (freed events).
Proof.
  intros LIM A. induction A as [ns E|events ns n c i ns' A S V E I|events ns i n ns' A S V L E|events ns i n ns' A S V L E|events ns i ns' A S N L E|events ns ns' A S E].
  - destruct (stock_new limit LIM) as [ms [M [S L]]]. rewrite M in E. injection E as <-. eapply stock_ext; [exact S|]. reflexivity.
  - destruct (Z.ltb_spec (next_slot ns (freed events)) (ns_limit ns)) as [B|B].
    2:{ rewrite (stock_add_full _ _ _ n S B) in E. discriminate. }
    destruct (stock_add _ _ _ _ S V B) as [ms [M [S' [L' [R [F LN]]]]]]. rewrite M in E. injection E as <- <-.
    rewrite child_to_node in I by lia. injection I as <-. cbn [freed].
    replace (filter (fun k => negb (k =? next_slot ns (freed events))) (freed events)) with (tl (freed events)).
    + eapply stock_ext; [exact S'|]. reflexivity.
    + pose proof (st_nodup _ _ _ S) as ND. destruct (freed events) as [|k r]; [reflexivity|]. cbn [next_slot tl filter].
      rewrite Z.eqb_refl. cbn [negb]. inversion ND; subst. symmetry. apply filter_out. assumption.
  - assert (LL : i = 0 \/ live events i <> None) by (destruct L as [L|L]; [left; exact L|right; apply is_live_some in L; destruct L as [m M]; congruence]).
    destruct (stock_update _ _ _ _ _ S V LL) as [ms [M [S' [L' LN]]]]. rewrite M in E. injection E as <-. cbn [freed]. rewrite filter_out.
    + eapply stock_ext; [exact S'|]. reflexivity.
    + intros X. destruct (st_free _ _ _ S i X) as [P Q]. destruct LL as [->|LL]; [lia|congruence].
  - apply is_live_some in L. destruct L as [m F].
    destruct (stock_set _ _ _ _ _ _ S V F) as [ms [M [S' [L' LN]]]]. rewrite M in E. injection E as <-. cbn [freed]. rewrite filter_out.
    + eapply stock_ext; [exact S'|]. reflexivity.
    + intros X. destruct (st_free _ _ _ S i X) as [P Q]. congruence.
  - apply is_live_some in L. destruct L as [m F].
    destruct (stock_delete _ _ _ _ _ S N F) as [ms [M [S' [L' LN]]]]. rewrite M in E. injection E as <-. cbn [freed].
    replace (i =? 0) with false by lia. eapply stock_ext; [exact S'|]. reflexivity.
  - destruct (stock_clear _ _ _ S) as [ms [M [S' [L' LN]]]]. rewrite M in E. injection E as <-. cbn [freed].
    eapply stock_ext; [exact S'|]. reflexivity.
Qed.

(** ** A list of deleted slots that ends at a slot in use *)
Fixpoint linked (items : list node) (i : Z) (pre : list Z) : Prop :=
  match pre with
  | [] => True
  | j :: r => (exists n, znth items j = Some n /\ nd_children n = (child_invalid, - (hd i r) - 1)) /\ linked items i r
  end.
Lemma before_in i l j : In j (before i l) -> In j l /\ j <> i.
Proof.
  induction l as [|k r IH]; cbn [before]; [intros []|]. destruct (Z.eqb_spec k i) as [->|K]; [intros []|].
  intros [<-|H]; [split; [left; reflexivity|exact K]|]. destruct (IH H) as [P Q]. split; [right; exact P|exact Q].
Qed.
Lemma before_nodup i l : NoDup l -> NoDup (before i l).
Proof.
  induction 1 as [|k r K N IH]; cbn [before]; [constructor|]. destruct (Z.eqb_spec k i); constructor; [|exact IH].
  intros X. apply K. exact (proj1 (before_in _ _ _ X)).
Qed.
Lemma before_length i l : In i l -> zlen (before i l) + 1 <= zlen l.
Proof.
  induction l as [|k r IH]; [intros []|]. intros H. cbn [before]. rewrite zlen_cons. pose proof (zlen_nonneg r) as NN.
  destruct (Z.eqb_spec k i) as [->|K]; [change (zlen (@nil Z)) with 0; lia|]. rewrite zlen_cons. destruct H as [H|H]; [congruence|]. specialize (IH H). lia.
Qed.
Lemma before_hd i l : In i l -> next_free l = - (hd i (before i l)) - 1.
Proof. destruct l as [|k r]; [intros []|]. intros _. cbn [before next_free]. destruct (Z.eqb_spec k i) as [->|K]; reflexivity. Qed.
Lemma chained_linked items i l : In i l -> chained items l -> linked items i (before i l).
Proof.
  induction l as [|k r IH]; [intros []|]. intros H [[n [N C]] R]. cbn [before]. destruct (Z.eqb_spec k i) as [->|K]; [exact Logic.I|].
  destruct H as [H|H]; [congruence|]. cbn [linked]. split; [|exact (IH H R)]. exists n. split; [exact N|]. rewrite C, (before_hd i r H). reflexivity.
Qed.
Lemma linked_upd items i pre j n : ~ In j pre -> linked items i pre -> linked (zupd items j n) i pre.
Proof.
  induction pre as [|k r IH]; cbn [linked]; [trivial|]. intros N [[m [M C]] R]. split.
  - exists m. split; [|exact C]. rewrite znth_zupd_other; [exact M|]. intros ->. apply N. left. reflexivity.
  - apply IH; [|exact R]. intros X. apply N. right. exact X.
Qed.
Record looped (ns : nodes) (i : Z) (pre : list Z) : Prop := {
  lo_last : ns_last_deleted ns = Some (hd i pre);
  lo_removed : zlen pre < ns_removed ns;
  lo_link : linked (ns_items ns) i pre;
  lo_end : exists x, znth (ns_items ns) i = Some x /\ nd_is_valid x = true;
  lo_range : forall j, In j pre -> 1 <= j < 2 ^ 31;
  lo_nodup : NoDup pre;
  lo_out : ~ In i pre;
  lo_i : 1 <= i < 2 ^ 31 }.

(** Taking the slot a deleted one refers to. *)
Lemma add_linked ns j o k n : ns_last_deleted ns = Some j -> 0 < ns_removed ns -> znth (ns_items ns) j = Some o ->
  nd_children o = (child_invalid, - k - 1) -> 1 <= j < 2 ^ 31 -> 1 <= k ->
  nodes_add ns n = Ok (- j - 1, mkNodes (zupd (ns_items ns) j n) (Some k) (ns_removed ns - 1) (ns_limit ns)).
Proof.
  intros L R O C J K. unfold nodes_add. rewrite L, assert_true by lia. cbn [bind].
  assert (G : nodes_get ns j = Ok o).
  { unfold nodes_get. rewrite (get_ok _ _ _ O). cbn [bind]. unfold num_roots. rewrite assert_true by lia. reflexivity. }
  rewrite G. cbn [bind]. unfold nd_child. rewrite C. cbn [fst snd]. change (child_is_valid child_invalid) with false. cbn [negb assert_ guard bind].
  rewrite ref_is_valid. unfold child_invalid. replace (negb (- k - 1 =? -1)) with true by lia. unfold child_is_node_index.
  rewrite assert_true by lia. cbn [bind]. rewrite child_to_node by lia. cbn [bind].
  unfold nodes_update. cbn [ns_items ns_last_deleted ns_removed ns_limit]. rewrite set_ok by (apply znth_Some in O; exact O). cbn [bind].
  rewrite child_of_node by lia. reflexivity.
Qed.
(** Taking a slot that holds a node. *)
Lemma add_occupied ns j x n : ns_last_deleted ns = Some j -> znth (ns_items ns) j = Some x -> nd_is_valid x = true ->
  nodes_add ns n = Fail EAssert.
Proof.
  intros L O V. unfold nodes_add. rewrite L. unfold assert_ at 1, guard at 1. destruct (0 <? ns_removed ns); [|reflexivity]. cbn [bind].
  unfold nodes_get. rewrite (get_ok _ _ _ O). cbn [bind]. rewrite V, orb_true_r. cbn [assert_ guard bind]. unfold nd_child. rewrite ref_is_valid.
  unfold nd_is_valid in V. apply andb_prop in V. destruct V as [V _]. rewrite V. reflexivity.
Qed.
Lemma looped_adds pre : forall ns i l, looped ns i pre -> Forall (fun n => nd_is_valid n = true) l ->
  ((length l <= length pre)%nat -> exists ns', add_all ns l = Ok (firstn (length l) pre, ns')) /\
  ((length pre < length l)%nat -> add_all ns l = Fail EAssert).
Proof.
  induction pre as [|j r IH]; intros ns i l Q F.
  - destruct (lo_end _ _ _ Q) as [x [X V]]. split; intros H.
    + destruct l; [|cbn in H; lia]. exists ns. reflexivity.
    + destruct l as [|n l]; [cbn in H; lia|]. cbn [add_all]. rewrite (add_occupied ns i x n (lo_last _ _ _ Q) X V). reflexivity.
  - destruct F as [|n l V F].
    { split; intros H; [exists ns; reflexivity|cbn in H; lia]. }
    destruct Q as [Q1 Q2 [[o [O C]] Q3] [x [X W]] Q5 Q6 Q7 Q8]. cbn [hd] in Q1. rewrite zlen_cons in Q2. pose proof (zlen_nonneg r) as NN.
    pose proof (Q5 j (or_introl eq_refl)) as JR. apply NoDup_cons_iff in Q6. destruct Q6 as [NI ND].
    assert (K : 1 <= hd i r) by (destruct r as [|k r]; cbn [hd]; [lia|]; specialize (Q5 k (or_intror (or_introl eq_refl))); lia).
    assert (RP : 0 < ns_removed ns) by lia.
    pose proof (add_linked ns j o (hd i r) n Q1 RP O C JR K) as E.
    assert (JI : i <> j) by (intros ->; apply Q7; left; reflexivity).
    destruct (IH (mkNodes (zupd (ns_items ns) j n) (Some (hd i r)) (ns_removed ns - 1) (ns_limit ns)) i l) as [P1 P2].
    { constructor; cbn [ns_items ns_last_deleted ns_removed ns_limit]; try assumption; try reflexivity; try lia.
      - apply linked_upd; assumption.
      - exists x. rewrite znth_zupd_other by congruence. split; assumption.
      - intros k H. apply Q5. right. exact H.
      - intros H. apply Q7. right. exact H. }
    { exact F. }
    cbn [add_all]. rewrite E. cbn [bind fst snd]. rewrite child_to_node by lia. cbn [bind length firstn]. split; intros H.
    + destruct P1 as [ns' P1]; [lia|]. rewrite P1. cbn [bind fst snd]. exists ns'. reflexivity.
    + rewrite P2 by lia. reflexivity.
Qed.

Lemma second_deletion limit events ns i : 1 <= limit <= 2 ^ 31 -> arises limit events ns -> 1 <= i -> used events i -> is_live events i = false ->
  exists ns', nodes_delete ns i = Ok ns' /\
  (forall c, is_live events 0 = true -> live_nodes_count ns = Ok c -> live_nodes_count ns' = Ok (c - 1)) /\
  NoDup (i :: before i (freed events)) /\
  (forall j, In j (i :: before i (freed events)) -> is_live events j = false) /\
  forall l, Forall (fun n => nd_is_valid n = true) l ->
    ((length l <= S (length (before i (freed events))))%nat ->
       exists ns'', add_all ns' l = Ok (firstn (length l) (i :: before i (freed events)), ns'')) /\
    ((S (length (before i (freed events))) < length l)%nat -> add_all ns' l = Fail EAssert).
Proof.
  intros LIM A I U D. pose proof (arises_freed _ _ _ LIM A) as T. destruct (arises_stock _ _ _ LIM A) as [free0 [_ [_ UL]]].
  apply UL in U; [|exact I]. clear UL free0.
  assert (DN : live events i = None) by (unfold is_live in D; destruct (live events i); [discriminate|reflexivity]).
  assert (IN : In i (freed events)) by (apply (st_dead _ _ _ T); [lia|exact DN]).
  set (free := freed events) in *. pose proof (free_length _ _ _ T) as FL. pose proof (st_limit _ _ _ T) as SL.
  pose proof (before_length i free IN) as BL. pose proof (zlen_nonneg (before i free)) as BN.
  assert (RT : match ns_last_deleted ns with Some i => child_of_node_index i | None => Ok child_invalid end = Ok (next_free free)).
  { rewrite (st_last _ _ _ T). destruct free as [|j r]; [reflexivity|]. cbn [next_free].
    destruct (st_free _ _ _ T j (or_introl eq_refl)) as [B _]. apply child_of_node. lia. }
  destruct (znth_lt (ns_items ns) i) as [o O]; [lia|].
  set (dn := mkNode (child_invalid, next_free free) 0 de_invalid ct_default StateModel.br_new StateModel.rb_invalid 0 0 0).
  assert (E : nodes_delete ns i = Ok (mkNodes (zupd (ns_items ns) i dn) (Some i) (zlen free + 1) (ns_limit ns))).
  { unfold nodes_delete. rewrite RT. cbn [bind].
    change (nd_set_child (nd_set_child node_invalid false child_invalid) true (next_free free)) with dn.
    unfold nodes_set, nodes_get. rewrite (get_ok _ _ _ O). cbn [bind]. unfold num_roots. rewrite assert_true by lia. cbn [bind].
    unfold nodes_update. rewrite set_ok by lia. cbn [bind ns_removed ns_items ns_limit]. rewrite (st_removed _ _ _ T).
    rewrite add_ok by (rewrite imin_usize, imax_usize; lia). reflexivity. }
  eexists. split; [exact E|]. split; [|split; [|split]].
  - intros c L0 LC. apply is_live_some in L0. destruct L0 as [m M]. destruct (st_live _ _ _ T 0 m M) as [Z0' V].
    unfold live_nodes_count in *. cbn [ns_items ns_removed]. rewrite (get_ok _ _ _ Z0') in LC.
    assert (Z1 : znth (zupd (ns_items ns) i dn) 0 = Some m) by (rewrite znth_zupd_other by lia; exact Z0').
    rewrite (get_ok _ _ _ Z1). cbn [bind] in *. rewrite V in *. rewrite (st_removed _ _ _ T) in LC. rewrite zlen_zupd.
    rewrite sub_ok in LC by (rewrite imin_usize, imax_usize; lia). injection LC as <-.
    rewrite sub_ok by (rewrite imin_usize, imax_usize; lia). f_equal. lia.
  - constructor; [|apply before_nodup, (st_nodup _ _ _ T)]. intros X. destruct (before_in _ _ _ X). congruence.
  - intros j [<-|J]; [exact D|]. destruct (before_in _ _ _ J) as [P _]. destruct (st_free _ _ _ T j P) as [_ Q]. unfold is_live. rewrite Q. reflexivity.
  - intros l F. destruct F as [|n l V F].
    { split; intros H; [eexists; reflexivity|cbn in H; lia]. }
    assert (NB : ~ In i (before i free)) by (intros X; destruct (before_in _ _ _ X); congruence).
    assert (BR : forall j, In j (before i free) -> 1 <= j < 2 ^ 31).
    { intros j J. destruct (before_in _ _ _ J) as [P _]. destruct (st_free _ _ _ T j P) as [Q _]. lia. }
    assert (HD : 1 <= hd i (before i free)).
    { destruct (before i free) as [|k r] eqn:B; cbn [hd]; [lia|]. specialize (BR k (or_introl eq_refl)). lia. }
    assert (E2 : nodes_add (mkNodes (zupd (ns_items ns) i dn) (Some i) (zlen free + 1) (ns_limit ns)) n
      = Ok (- i - 1, mkNodes (zupd (zupd (ns_items ns) i dn) i n) (Some (hd i (before i free))) (zlen free + 1 - 1) (ns_limit ns))).
    { apply (add_linked (mkNodes (zupd (ns_items ns) i dn) (Some i) (zlen free + 1) (ns_limit ns)) i dn (hd i (before i free)) n);
        cbn [ns_items ns_last_deleted ns_removed]; try reflexivity; try lia.
      - apply znth_zupd_same. lia.
      - unfold dn. cbn [nd_children]. rewrite (before_hd i free IN). reflexivity. }
    destruct (looped_adds (before i free) (mkNodes (zupd (zupd (ns_items ns) i dn) i n) (Some (hd i (before i free))) (zlen free + 1 - 1) (ns_limit ns)) i l) as [P1 P2].
    { constructor; cbn [ns_items ns_last_deleted ns_removed ns_limit]; try assumption; try reflexivity; try lia.
      - apply linked_upd; [exact NB|]. apply linked_upd; [exact NB|]. apply chained_linked; [exact IN|exact (st_chain _ _ _ T)].
      - exists n. split; [|exact V]. apply znth_zupd_same. rewrite zlen_zupd. lia.
      - apply before_nodup, (st_nodup _ _ _ T). }
    { exact F. }
    cbn [add_all]. rewrite E2. cbn [bind fst snd]. rewrite child_to_node by lia. cbn [bind length firstn]. split; intros H.
    + destruct P1 as [ns'' P1]; [lia|]. rewrite P1. cbn [bind fst snd]. exists ns''. reflexivity.
    + rewrite P2 by lia. reflexivity.
Qed.

Lemma root_deletion limit events ns : 1 <= limit <= 2 ^ 31 -> arises limit events ns -> is_live events 0 = true ->
  exists ns', nodes_delete ns 0 = Ok ns' /\
  (forall n, nodes_add ns' n = Fail EAssert) /\
  (forall i, nodes_delete ns' i = Fail EAssert) /\
  (forall m, nd_is_valid m = true -> exists ns'', nodes_update ns' 0 m = Ok ns'' /\
     (forall n, nodes_add ns'' n = Fail EAssert) /\ (forall i, nodes_delete ns'' i = Fail EAssert)).
Proof.
  intros LIM A L0. pose proof (arises_freed _ _ _ LIM A) as T. apply is_live_some in L0. destruct L0 as [x X].
  destruct (st_live _ _ _ T 0 x X) as [O V]. set (free := freed events) in *. pose proof (free_length _ _ _ T) as FL. pose proof (st_limit _ _ _ T) as SL.
  pose proof (zlen_nonneg free) as FN. pose proof (st_len _ _ _ T) as LEN.
  assert (RT : match ns_last_deleted ns with Some i => child_of_node_index i | None => Ok child_invalid end = Ok (next_free free)).
  { rewrite (st_last _ _ _ T). destruct free as [|j r]; [reflexivity|]. cbn [next_free].
    destruct (st_free _ _ _ T j (or_introl eq_refl)) as [B _]. apply child_of_node. lia. }
  set (dn := mkNode (child_invalid, next_free free) 0 de_invalid ct_default StateModel.br_new StateModel.rb_invalid 0 0 0).
  assert (E : nodes_delete ns 0 = Ok (mkNodes (zupd (ns_items ns) 0 dn) (Some 0) (zlen free + 1) (ns_limit ns))).
  { unfold nodes_delete. rewrite RT. cbn [bind].
    change (nd_set_child (nd_set_child node_invalid false child_invalid) true (next_free free)) with dn.
    unfold nodes_set. rewrite (stock_get _ _ _ _ _ T X). cbn [bind].
    unfold nodes_update. rewrite set_ok by lia. cbn [bind ns_removed ns_items ns_limit]. rewrite (st_removed _ _ _ T).
    rewrite add_ok by (rewrite imin_usize, imax_usize; lia). reflexivity. }
  assert (DEL : forall items r lim i, nodes_delete (mkNodes items (Some 0) r lim) i = Fail EAssert) by (intros; reflexivity).
  eexists. split; [exact E|]. split; [|split; [intros i; apply DEL|]].
  - intros n. unfold nodes_add. cbn [ns_last_deleted ns_removed]. rewrite assert_true by lia. cbn [bind].
    assert (Z1 : znth (zupd (ns_items ns) 0 dn) 0 = Some dn) by (apply znth_zupd_same; lia).
    unfold nodes_get. cbn [ns_items]. rewrite (get_ok _ _ _ Z1). reflexivity.
  - intros m M. unfold nodes_update. cbn [ns_items ns_last_deleted ns_removed ns_limit]. rewrite set_ok by (rewrite zlen_zupd; lia). cbn [bind].
    eexists. split; [reflexivity|]. split; [|intros i; apply DEL].
    intros n. eapply add_occupied; cbn [ns_last_deleted ns_items]; [reflexivity| |exact M]. apply znth_zupd_same. rewrite zlen_zupd. lia.
Qed.

Lemma missing_deletions limit events ns : 1 <= limit <= 2 ^ 31 -> arises limit events ns ->
  (is_live events 0 = false -> nodes_delete ns 0 = Fail EAssert) /\
  (forall i, 1 <= i -> ~ used events i -> nodes_delete ns i = Fail EIndex).
Proof.
  intros LIM A. pose proof (arises_freed _ _ _ LIM A) as T. destruct (arises_stock _ _ _ LIM A) as [free0 [_ [_ UL]]].
  pose proof (st_limit _ _ _ T) as SL.
  assert (RT : match ns_last_deleted ns with Some i => child_of_node_index i | None => Ok child_invalid end = Ok (next_free (freed events))).
  { rewrite (st_last _ _ _ T). destruct (freed events) as [|j r]; [reflexivity|]. cbn [next_free].
    destruct (st_free _ _ _ T j (or_introl eq_refl)) as [B _]. apply child_of_node. lia. }
  split.
  - intros D. assert (DN : live events 0 = None) by (unfold is_live in D; destruct (live events 0); [discriminate|reflexivity]).
    destruct (st_root _ _ _ T DN) as [m [M V]]. unfold nodes_delete. rewrite RT. cbn [bind]. unfold nodes_set, nodes_get.
    rewrite (get_ok _ _ _ M). cbn [bind]. rewrite V. reflexivity.
  - intros i I U. rewrite (UL i I) in U. unfold nodes_delete. rewrite RT. cbn [bind]. unfold nodes_set, nodes_get, get.
    rewrite (proj2 (znth_None (ns_items ns) i)) by lia. reflexivity.
Qed.
