(** Proofs about child references and the allocator of nodes. *)
From Coq Require Import Lia ZifyBool.
From Verif Require Import Base BaseFacts StatesModel NodesModel NodesSpec.
Ltac Zify.zify_post_hook ::= Z.div_mod_to_equations.

(** ** Child references *)
Lemma child_of_window i : 0 <= i < 2 ^ 31 -> child_of_window_index i = Ok i.
Proof. intros H. unfold child_of_window_index. rewrite assert_true by lia. reflexivity. Qed.
Lemma child_of_node i : 1 <= i < 2 ^ 31 -> child_of_node_index i = Ok (- i - 1).
Proof. intros H. unfold child_of_node_index, num_roots. rewrite assert_true by lia. reflexivity. Qed.
Lemma child_of_window_inv i c : child_of_window_index i = Ok c -> c = i /\ i < 2 ^ 31.
Proof.
  unfold child_of_window_index, assert_, guard. destruct (Z.leb_spec i (2 ^ 31 - 1)); cbn [bind]; [|discriminate].
  intros E. injection E as <-. lia.
Qed.
Lemma child_of_node_inv i c : child_of_node_index i = Ok c -> c = - i - 1 /\ 1 <= i < 2 ^ 31.
Proof.
  unfold child_of_node_index, assert_, guard, num_roots. destruct (Z.leb_spec 1 i), (Z.leb_spec i (2 ^ 31 - 1)); cbn [bind andb]; try discriminate.
  intros E. injection E as <-. lia.
Qed.
Lemma child_to_node i : 0 <= i -> child_to_node_index (- i - 1) = Ok i.
Proof. intros H. unfold child_to_node_index. rewrite assert_true by lia. cbn [bind]. f_equal. lia. Qed.
Lemma child_to_window i : 0 <= i -> child_to_window_index i = Ok i.
Proof. intros H. unfold child_to_window_index. rewrite assert_true by lia. reflexivity. Qed.

Lemma window_ref i : 0 <= i -> exists r, child_of_window_index i = r /\
  (i < 2 ^ 31 -> exists c, r = Ok c /\ imin i32 <= c <= imax i32 /\ child_is_valid c = true /\ child_is_window_index c = true /\ child_is_node_index c = false /\
     child_to_window_index c = Ok i /\ child_to_node_index c = Fail EAssert) /\
  (2 ^ 31 <= i -> r = Fail EAssert).
Proof.
  intros H. eexists. split; [reflexivity|]. split.
  - intros L. exists i. rewrite child_of_window by lia. split; [reflexivity|]. split; [rewrite imin_i32, imax_i32; lia|].
    unfold child_is_valid, child_is_window_index, child_is_node_index, child_to_window_index, child_to_node_index, assert_, guard.
    replace (0 <=? i) with true by lia. replace (i <? 0) with false by lia. cbn [orb bind]. repeat (apply conj; [reflexivity|]). reflexivity.
  - intros L. unfold child_of_window_index, assert_, guard. replace (i <=? 2 ^ 31 - 1) with false by lia. reflexivity.
Qed.
Lemma node_ref i : 0 <= i -> exists r, child_of_node_index i = r /\
  (1 <= i < 2 ^ 31 -> exists c, r = Ok c /\ imin i32 <= c <= imax i32 /\ child_is_valid c = true /\ child_is_window_index c = false /\ child_is_node_index c = true /\
     child_to_node_index c = Ok i /\ child_to_window_index c = Fail EAssert) /\
  (i = 0 \/ 2 ^ 31 <= i -> r = Fail EAssert).
Proof.
  intros H. eexists. split; [reflexivity|]. split.
  - intros L. exists (- i - 1). rewrite child_of_node by lia. split; [reflexivity|]. split; [rewrite imin_i32, imax_i32; lia|].
    rewrite child_to_node by lia.
    unfold child_is_valid, child_is_window_index, child_is_node_index, child_to_window_index, num_roots, assert_, guard.
    replace (0 <=? - i - 1) with false by lia. replace (- i - 1 <? 0) with true by lia. replace (1 <=? - (- i - 1) - 1) with true by lia.
    cbn [orb bind]. repeat (apply conj; [reflexivity|]). reflexivity.
  - intros L. unfold child_of_node_index, num_roots, assert_, guard.
    replace ((1 <=? i) && (i <=? 2 ^ 31 - 1)) with false by lia. reflexivity.
Qed.
Lemma refs_apart i j c d : child_of_window_index i = Ok c -> child_of_node_index j = Ok d -> 0 <= i ->
  c <> d /\ c <> child_invalid /\ d <> child_invalid.
Proof.
  intros C D H. apply child_of_window_inv in C. apply child_of_node_inv in D. unfold child_invalid. lia.
Qed.
Lemma window_ref_inj i j c : child_of_window_index i = Ok c -> child_of_window_index j = Ok c -> i = j.
Proof. intros C D. apply child_of_window_inv in C, D. lia. Qed.
Lemma node_ref_inj i j c : child_of_node_index i = Ok c -> child_of_node_index j = Ok c -> i = j.
Proof. intros C D. apply child_of_node_inv in C, D. lia. Qed.
Lemma ref_is_valid c : child_is_valid c = negb (c =? child_invalid).
Proof. unfold child_is_valid, child_invalid, num_roots. lia. Qed.

(** ** The allocator: [f] gives the live nodes, [free] are the deleted ones, last deleted first. *)
Definition next_free (free : list Z) : Z := match free with i :: _ => - i - 1 | [] => child_invalid end.
Fixpoint chained (items : list node) (free : list Z) : Prop :=
  match free with
  | [] => True
  | i :: rest => (exists n, znth items i = Some n /\ nd_children n = (child_invalid, next_free rest)) /\ chained items rest
  end.
Record stock (ns : nodes) (f : Z -> option node) (free : list Z) : Prop := {
  st_limit : zlen (ns_items ns) <= ns_limit ns <= 2 ^ 31;
  st_len : 1 <= zlen (ns_items ns);
  st_last : ns_last_deleted ns = match free with i :: _ => Some i | [] => None end;
  st_removed : ns_removed ns = zlen free;
  st_nodup : NoDup free;
  st_free : forall i, In i free -> 1 <= i < zlen (ns_items ns) /\ f i = None;
  st_chain : chained (ns_items ns) free;
  st_live : forall i n, f i = Some n -> znth (ns_items ns) i = Some n /\ nd_is_valid n = true;
  st_dead : forall i, 1 <= i < zlen (ns_items ns) -> f i = None -> In i free;
  st_root : f 0 = None -> exists n, znth (ns_items ns) 0 = Some n /\ nd_is_valid n = false }.

Definition fupd (f : Z -> option node) (i : Z) (o : option node) : Z -> option node := fun j => if j =? i then o else f j.
Lemma fupd_same f i o : fupd f i o i = o. Proof. unfold fupd. rewrite Z.eqb_refl. reflexivity. Qed.
Lemma fupd_other f i o j : j <> i -> fupd f i o j = f j. Proof. intros H. unfold fupd. replace (j =? i) with false by lia. reflexivity. Qed.

Lemma chained_upd items free i n : ~ In i free -> chained items free -> chained (zupd items i n) free.
Proof.
  induction free as [|j r IH]; cbn [chained]; [trivial|]. intros N [[m [M C]] R]. split.
  - exists m. split; [|exact C]. rewrite znth_zupd_other; [exact M|]. intros ->. apply N. left. reflexivity.
  - apply IH; [|exact R]. intros X. apply N. right. exact X.
Qed.
Lemma chained_app items free n : (forall i, In i free -> i < zlen items) -> chained items free -> chained (items ++ [n]) free.
Proof.
  induction free as [|j r IH]; cbn [chained]; [trivial|]. intros B [[m [M C]] R]. split.
  - exists m. split; [|exact C]. rewrite znth_app1; [exact M|]. apply B. left. reflexivity.
  - apply IH; [|exact R]. intros k K. apply B. right. exact K.
Qed.

Lemma stock_new limit : 1 <= limit <= 2 ^ 31 -> exists ns, nodes_new limit = Ok ns /\ stock ns (fun _ => None) [] /\ ns_limit ns = limit.
Proof.
  intros H. unfold nodes_new, num_roots. rewrite assert_true by lia. cbn [bind]. eexists. split; [reflexivity|]. split; [|reflexivity].
  constructor; cbn [ns_items ns_last_deleted ns_removed ns_limit]; change (repeat node_invalid (Z.to_nat 1)) with [node_invalid];
    change (zlen [node_invalid]) with 1; try solve [lia | reflexivity | constructor | discriminate | trivial].
  - intros i [].
  - intros _. exists node_invalid. split; reflexivity.
Qed.
Lemma stock_range ns f free i n : stock ns f free -> f i = Some n -> 0 <= i < zlen (ns_items ns).
Proof. intros S F. destruct (st_live _ _ _ S i n F) as [Z _]. apply znth_Some in Z. exact Z. Qed.
Lemma stock_get ns f free i n : stock ns f free -> f i = Some n -> nodes_get ns i = Ok n.
Proof.
  intros S F. destruct (st_live _ _ _ S i n F) as [Z V]. unfold nodes_get. rewrite (get_ok _ _ _ Z). cbn [bind].
  rewrite V, orb_true_r. reflexivity.
Qed.
Lemma stock_store ns f free i n items : stock ns f free -> nd_is_valid n = true -> (i = 0 \/ f i <> None) -> items = zupd (ns_items ns) i n ->
  stock (mkNodes items (ns_last_deleted ns) (ns_removed ns) (ns_limit ns)) (fupd f i (Some n)) free.
Proof.
  intros S V L ->.
  assert (R : 0 <= i < zlen (ns_items ns)).
  { destruct L as [->|L]; [pose proof (st_len _ _ _ S); lia|]. destruct (f i) as [m|] eqn:F; [|congruence]. exact (stock_range _ _ _ _ _ S F). }
  assert (NF : ~ In i free) by (intros X; destruct (st_free _ _ _ S i X) as [A B]; destruct L as [->|L]; [lia|congruence]).
  destruct S as [S1 S2 S3 S4 S5 S6 S7 S8 S9 S10].
  constructor; cbn [ns_items ns_last_deleted ns_removed ns_limit]; rewrite ?zlen_zupd; try assumption.
  - intros j J. destruct (S6 j J) as [A B]. split; [exact A|]. rewrite fupd_other; [exact B|]. intros ->. contradiction.
  - apply chained_upd; assumption.
  - intros j m F. unfold fupd in F. destruct (Z.eqb_spec j i) as [->|J].
    + injection F as <-. rewrite znth_zupd_same by lia. split; [reflexivity|exact V].
    + rewrite znth_zupd_other by lia. exact (S8 j m F).
  - intros j J F. unfold fupd in F. destruct (Z.eqb_spec j i) as [->|Jn]; [discriminate|]. exact (S9 j J F).
  - intros F. unfold fupd in F. destruct (Z.eqb_spec 0 i) as [->|J]; [discriminate|].
    destruct (S10 F) as [m [M N]]. exists m. rewrite znth_zupd_other by lia. split; assumption.
Qed.
Lemma stock_update ns f free i n : stock ns f free -> nd_is_valid n = true -> (i = 0 \/ f i <> None) ->
  exists ns', nodes_update ns i n = Ok ns' /\ stock ns' (fupd f i (Some n)) free /\ ns_limit ns' = ns_limit ns /\ zlen (ns_items ns') = zlen (ns_items ns).
Proof.
  intros S V L.
  assert (R : 0 <= i < zlen (ns_items ns)).
  { destruct L as [->|L]; [pose proof (st_len _ _ _ S); lia|]. destruct (f i) as [m|] eqn:F; [|congruence]. exact (stock_range _ _ _ _ _ S F). }
  unfold nodes_update. rewrite set_ok by exact R. cbn [bind]. eexists. split; [reflexivity|]. split; [|split; [reflexivity|apply zlen_zupd]].
  apply stock_store; try assumption. reflexivity.
Qed.
Lemma stock_set ns f free i n m : stock ns f free -> nd_is_valid n = true -> f i = Some m ->
  exists ns', nodes_set ns i n = Ok ns' /\ stock ns' (fupd f i (Some n)) free /\ ns_limit ns' = ns_limit ns /\ zlen (ns_items ns') = zlen (ns_items ns).
Proof.
  intros S V L. unfold nodes_set. rewrite (stock_get _ _ _ _ _ S L). cbn [bind]. apply stock_update; [assumption..|]. right. congruence.
Qed.
Lemma stock_clear ns f free : stock ns f free ->
  exists ns', nodes_update ns 0 node_invalid = Ok ns' /\ stock ns' (fupd f 0 None) free /\ ns_limit ns' = ns_limit ns /\ zlen (ns_items ns') = zlen (ns_items ns).
Proof.
  intros [S1 S2 S3 S4 S5 S6 S7 S8 S9 S10]. unfold nodes_update. rewrite set_ok by lia. cbn [bind]. eexists. split; [reflexivity|]. split; [|split; [reflexivity|apply zlen_zupd]].
  assert (NF : ~ In 0 free) by (intros X; destruct (S6 0 X) as [A B]; lia).
  constructor; cbn [ns_items ns_last_deleted ns_removed ns_limit]; rewrite ?zlen_zupd; try assumption.
  - intros j J. destruct (S6 j J) as [A B]. split; [exact A|]. rewrite fupd_other; [exact B|]. intros ->. contradiction.
  - apply chained_upd; assumption.
  - intros j m F. unfold fupd in F. destruct (Z.eqb_spec j 0) as [->|J]; [discriminate|].
    rewrite znth_zupd_other by lia. exact (S8 j m F).
  - intros j J F. unfold fupd in F. replace (j =? 0) with false in F by lia. exact (S9 j J F).
  - intros _. exists node_invalid. rewrite znth_zupd_same by lia. split; reflexivity.
Qed.
Lemma free_length ns f free : stock ns f free -> zlen free < zlen (ns_items ns).
Proof.
  intros S.
  assert (I : incl free (zseq 1 (Z.to_nat (zlen (ns_items ns) - 1)))).
  { intros i H. apply zseq_In. destruct (st_free _ _ _ S i H) as [A _]. lia. }
  pose proof (NoDup_incl_length (st_nodup _ _ _ S) I) as N. rewrite zseq_length in N. pose proof (st_len _ _ _ S). unfold zlen in *. lia.
Qed.
Lemma stock_delete ns f free i n : stock ns f free -> i <> 0 -> f i = Some n ->
  exists ns', nodes_delete ns i = Ok ns' /\ stock ns' (fupd f i None) (i :: free) /\ ns_limit ns' = ns_limit ns /\ zlen (ns_items ns') = zlen (ns_items ns).
Proof.
  intros S N0 F. pose proof (stock_range _ _ _ _ _ S F) as R. pose proof (free_length _ _ _ S) as FL.
  assert (NF : ~ In i free) by (intros X; destruct (st_free _ _ _ S i X) as [A B]; congruence).
  unfold nodes_delete.
  assert (RT : match ns_last_deleted ns with Some i => child_of_node_index i | None => Ok child_invalid end = Ok (next_free free)).
  { rewrite (st_last _ _ _ S). destruct free as [|j r]; [reflexivity|]. cbn [next_free].
    destruct (st_free _ _ _ S j (or_introl eq_refl)) as [A _]. pose proof (st_limit _ _ _ S). apply child_of_node. lia. }
  rewrite RT. cbn [bind].
  change (nd_set_child (nd_set_child node_invalid false child_invalid) true (next_free free))
    with (mkNode (child_invalid, next_free free) 0 de_invalid ct_default StateModel.br_new StateModel.rb_invalid 0 0 0).
  set (dn := mkNode _ _ _ _ _ _ _ _ _). unfold nodes_set. rewrite (stock_get _ _ _ _ _ S F). cbn [bind].
  unfold nodes_update. rewrite set_ok by exact R. cbn [bind ns_removed ns_items ns_limit].
  rewrite (st_removed _ _ _ S). rewrite add_ok by (rewrite imin_usize, imax_usize; pose proof (st_limit _ _ _ S); pose proof (zlen_nonneg free); lia).
  cbn [bind]. eexists. split; [reflexivity|]. split; [|split; [reflexivity|apply zlen_zupd]].
  destruct S as [S1 S2 S3 S4 S5 S6 S7 S8 S9 S10].
  constructor; cbn [ns_items ns_last_deleted ns_removed ns_limit]; rewrite ?zlen_zupd, ?zlen_cons; try assumption; try reflexivity; try lia.
  - constructor; assumption.
  - intros j [<-|J]; [split; [lia|apply fupd_same]|]. destruct (S6 j J) as [A B]. split; [exact A|].
    rewrite fupd_other; [exact B|]. intros ->. contradiction.
  - cbn [chained]. split; [|apply chained_upd; assumption]. exists dn. rewrite znth_zupd_same by lia. split; reflexivity.
  - intros j m G. unfold fupd in G. destruct (Z.eqb_spec j i) as [->|J]; [discriminate|]. rewrite znth_zupd_other by lia. exact (S8 j m G).
  - intros j J G. unfold fupd in G. destruct (Z.eqb_spec j i) as [->|Jn]; [left; reflexivity|]. right. exact (S9 j J G).
  - intros G. rewrite fupd_other in G by lia. destruct (S10 G) as [m [M V]]. exists m. rewrite znth_zupd_other by lia. split; assumption.
Qed.
(** Adding takes the last deleted slot, or the next one; it fails only when there is none. *)
Definition next_slot (ns : nodes) (free : list Z) : Z := match free with i :: _ => i | [] => zlen (ns_items ns) end.
Lemma stock_add ns f free n : stock ns f free -> nd_is_valid n = true -> next_slot ns free < ns_limit ns ->
  exists ns', nodes_add ns n = Ok (- next_slot ns free - 1, ns') /\ stock ns' (fupd f (next_slot ns free) (Some n)) (tl free) /\ ns_limit ns' = ns_limit ns /\
    1 <= next_slot ns free < 2 ^ 31 /\ f (next_slot ns free) = None /\ zlen (ns_items ns') = Z.max (zlen (ns_items ns)) (next_slot ns free + 1).
Proof.
  intros S V L. pose proof (st_limit _ _ _ S) as LIM. pose proof (st_len _ _ _ S) as LEN. unfold nodes_add. rewrite (st_last _ _ _ S), (st_removed _ _ _ S).
  destruct free as [|i rest]; cbn [next_slot tl] in *.
  - change (zlen (@nil Z)) with 0. change (assert_ (0 =? 0)) with (Ok tt). cbn [bind]. rewrite assert_true by lia. cbn [bind].
    rewrite child_of_node by lia. cbn [bind]. eexists. split; [reflexivity|].
    assert (FN : f (zlen (ns_items ns)) = None).
    { destruct (f (zlen (ns_items ns))) as [m|] eqn:F; [|reflexivity]. pose proof (stock_range _ _ _ _ _ S F). lia. }
    split; [|split; [reflexivity|split; [lia|split; [exact FN|cbn [ns_items]; rewrite zlen_app; change (zlen [n]) with 1; lia]]]].
    destruct S as [S1 S2 S3 S4 S5 S6 S7 S8 S9 S10].
    constructor; cbn [ns_items ns_last_deleted ns_removed ns_limit]; rewrite ?zlen_app; change (zlen [n]) with 1; try assumption; try reflexivity; try lia.
    + intros j [].
    + intros j m G. unfold fupd in G. destruct (Z.eqb_spec j (zlen (ns_items ns))) as [->|J].
      * injection G as <-. rewrite znth_app2 by lia. rewrite Z.sub_diag. split; [reflexivity|exact V].
      * destruct (S8 j m G) as [A B]. split; [|exact B]. rewrite znth_app1; [exact A|]. apply znth_Some in A. lia.
    + intros j J G. unfold fupd in G. destruct (Z.eqb_spec j (zlen (ns_items ns))) as [->|Jn]; [discriminate|]. apply (S9 j); [lia|exact G].
    + intros G. rewrite fupd_other in G by lia. destruct (S10 G) as [m [M W]]. exists m. rewrite znth_app1 by lia. split; assumption.
  - destruct (st_free _ _ _ S i (or_introl eq_refl)) as [IR IF]. destruct (st_chain _ _ _ S) as [[o [O C]] CR].
    rewrite assert_true by (rewrite zlen_cons; pose proof (zlen_nonneg rest); lia). cbn [bind].
    assert (G : nodes_get ns i = Ok o).
    { unfold nodes_get. rewrite (get_ok _ _ _ O). cbn [bind]. unfold num_roots. rewrite assert_true by lia. reflexivity. }
    rewrite G. cbn [bind]. unfold nd_child. rewrite C. cbn [fst snd]. change (child_is_valid child_invalid) with false. cbn [negb assert_ guard bind].
    assert (NX : (if child_is_valid (next_free rest) then assert_ (child_is_node_index (next_free rest));; (let* j := child_to_node_index (next_free rest) in Ok (Some j)) else Ok None)
      = Ok (match rest with j :: _ => Some j | [] => None end)).
    { destruct rest as [|j r]; cbn [next_free]; [reflexivity|]. destruct (st_free _ _ _ S j (or_intror (or_introl eq_refl))) as [JR _].
      rewrite ref_is_valid. unfold child_invalid. replace (negb (- j - 1 =? -1)) with true by lia. unfold child_is_node_index.
      rewrite assert_true by lia. cbn [bind]. rewrite child_to_node by lia. reflexivity. }
    rewrite NX. cbn [bind]. unfold nodes_update. cbn [ns_items ns_last_deleted ns_removed ns_limit]. rewrite set_ok by lia. cbn [bind].
    rewrite child_of_node by lia. cbn [bind]. eexists. split; [reflexivity|].
    split; [|split; [reflexivity|split; [lia|split; [exact IF|cbn [ns_items]; rewrite zlen_zupd; lia]]]].
    destruct S as [S1 S2 S3 S4 S5 S6 S7 S8 S9 S10]. inversion S5 as [|? ? NI ND]; subst.
    constructor; cbn [ns_items ns_last_deleted ns_removed ns_limit]; rewrite ?zlen_zupd, ?zlen_cons; try assumption; try reflexivity; try lia.
    + intros j J. destruct (S6 j (or_intror J)) as [A B]. split; [exact A|]. rewrite fupd_other; [exact B|]. intros ->. contradiction.
    + apply chained_upd; assumption.
    + intros j m H. unfold fupd in H. destruct (Z.eqb_spec j i) as [->|J].
      * injection H as <-. rewrite znth_zupd_same by lia. split; [reflexivity|exact V].
      * rewrite znth_zupd_other by lia. exact (S8 j m H).
    + intros j J H. unfold fupd in H. destruct (Z.eqb_spec j i) as [->|Jn]; [discriminate|]. destruct (S9 j J H) as [X|X]; [congruence|exact X].
    + intros H. rewrite fupd_other in H by lia. destruct (S10 H) as [m [M W]]. exists m. rewrite znth_zupd_other by lia. split; assumption.
Qed.
Lemma stock_add_full ns f free n : stock ns f free -> ns_limit ns <= next_slot ns free -> nodes_add ns n = Fail EAssert.
Proof.
  intros S L. pose proof (st_limit _ _ _ S) as LIM. unfold nodes_add. rewrite (st_last _ _ _ S), (st_removed _ _ _ S).
  destruct free as [|i rest]; cbn [next_slot] in *.
  - change (assert_ (zlen (@nil Z) =? 0)) with (Ok tt). cbn [bind]. unfold assert_, guard. replace (zlen (ns_items ns) <? ns_limit ns) with false by lia. reflexivity.
  - destruct (st_free _ _ _ S i (or_introl eq_refl)). lia.
Qed.

(** ** Counting *)
Definition has (f : Z -> option node) (i : Z) : bool := match f i with Some _ => true | None => false end.
Lemma filter_split {A} (p : A -> bool) l : (length (filter p l) + length (filter (fun x => negb (p x)) l) = length l)%nat.
Proof. induction l as [|x l IH]; cbn [filter length]; [reflexivity|]. destruct (p x); cbn [negb length]; lia. Qed.
Lemma zseq_nodup a n : NoDup (zseq a n).
Proof.
  revert a; induction n as [|n IH]; intros a; cbn [zseq]; constructor; [|apply IH]. intros H. apply zseq_In in H. lia.
Qed.
Lemma stock_count ns f free : stock ns f free -> f 0 <> None ->
  zlen (filter (has f) (zseq 0 (length (ns_items ns)))) = zlen (ns_items ns) - zlen free.
Proof.
  intros S F0. pose proof (filter_split (has f) (zseq 0 (length (ns_items ns)))) as P. rewrite zseq_length in P.
  assert (E : length (filter (fun i => negb (has f i)) (zseq 0 (length (ns_items ns)))) = length free).
  { apply Nat.le_antisymm.
    - apply NoDup_incl_length; [apply NoDup_filter, zseq_nodup|]. intros i H. apply filter_In in H. destruct H as [H N]. apply zseq_In in H.
      unfold has in N. apply (st_dead _ _ _ S); [|destruct (f i); [discriminate|reflexivity]].
      assert (i <> 0) by (intros ->; destruct (f 0); [discriminate|congruence]). unfold zlen. lia.
    - apply NoDup_incl_length; [exact (st_nodup _ _ _ S)|]. intros i H. destruct (st_free _ _ _ S i H) as [A B]. apply filter_In.
      split; [apply zseq_In; unfold zlen in A; lia|]. unfold has. rewrite B. reflexivity. }
  unfold zlen. lia.
Qed.
Lemma stock_live_count ns f free : stock ns f free ->
  live_nodes_count ns = Ok (if has f 0 then zlen (ns_items ns) - zlen free else 0).
Proof.
  intros S. unfold live_nodes_count, has. pose proof (free_length _ _ _ S). pose proof (st_limit _ _ _ S). pose proof (zlen_nonneg free).
  destruct (f 0) as [n|] eqn:F.
  - destruct (st_live _ _ _ S 0 n F) as [Z V]. rewrite (get_ok _ _ _ Z). cbn [bind]. rewrite V, (st_removed _ _ _ S).
    apply sub_ok. rewrite imin_usize, imax_usize. lia.
  - destruct (st_root _ _ _ S F) as [n [Z V]]. rewrite (get_ok _ _ _ Z). cbn [bind]. rewrite V. reflexivity.
Qed.

(** ** Uses of the allocator *)
Lemma stock_ext ns f g free : stock ns f free -> (forall i, f i = g i) -> stock ns g free.
Proof.
  intros [S1 S2 S3 S4 S5 S6 S7 S8 S9 S10] E. constructor; try assumption.
  - intros i I. rewrite <- E. exact (S6 i I).
  - intros i n G. rewrite <- E in G. exact (S8 i n G).
  - intros i R G. rewrite <- E in G. exact (S9 i R G).
  - intros G. rewrite <- E in G. exact (S10 G).
Qed.
Lemma is_live_some events i : is_live events i = true <-> exists n, live events i = Some n.
Proof.
  unfold is_live. destruct (live events i) as [n|]; split; try discriminate; try (intros [m M]; discriminate).
  - intros _. exists n. reflexivity.
  - reflexivity.
Qed.
Lemma used_cons e events i : used (e :: events) i <-> index_of e = i \/ used events i.
Proof.
  unfold used. split.
  - intros [x [[<-|H] X]]; [left; exact X|right; exists x; split; assumption].
  - intros [X|[x [H X]]]; [exists e|exists x]; (split; [|exact X]); [left; reflexivity|right; exact H].
Qed.
Lemma arises_stock limit events ns : 1 <= limit <= 2 ^ 31 -> arises limit events ns ->
  exists free, stock ns (live events) free /\ ns_limit ns = limit /\ (forall i, 1 <= i -> (used events i <-> i < zlen (ns_items ns))).
Proof.
  intros LIM A. induction A as [ns E|events ns n c i ns' A IH V E I|events ns i n ns' A IH V L E|events ns i n ns' A IH V L E|events ns i ns' A IH N L E|events ns ns' A IH E].
  - destruct (stock_new limit LIM) as [ms [M [S L]]]. rewrite M in E. injection E as <-. exists []. split; [|split; [exact L|]].
    + eapply stock_ext; [exact S|]. reflexivity.
    + intros i I. split; [intros [e [[] _]]|]. unfold nodes_new, num_roots in M. rewrite assert_true in M by lia. cbn [bind] in M. injection M as <-.
      intros X. cbn [ns_items] in X. change (zlen [node_invalid]) with 1 in X. lia.
  - destruct IH as [free [S [L U]]].
    destruct (Z.ltb_spec (next_slot ns free) (ns_limit ns)) as [B|B].
    2:{ rewrite (stock_add_full _ _ _ n S B) in E. discriminate. }
    destruct (stock_add _ _ _ _ S V B) as [ms [M [S' [L' [R [F LN]]]]]]. rewrite M in E. injection E as <- <-.
    rewrite child_to_node in I by lia. injection I as <-. exists (tl free). split; [|split; [congruence|]].
    + eapply stock_ext; [exact S'|]. intros j. unfold fupd. cbn [live]. reflexivity.
    + intros j J. rewrite used_cons, U, LN by exact J. cbn [index_of].
      destruct free as [|k r]; cbn [next_slot] in *; [lia|]. destruct (st_free _ _ _ S k (or_introl eq_refl)); lia.
  - destruct IH as [free [S [LM U]]].
    assert (LL : i = 0 \/ live events i <> None) by (destruct L as [L|L]; [left; exact L|right; apply is_live_some in L; destruct L as [m M]; congruence]).
    destruct (stock_update _ _ _ _ _ S V LL) as [ms [M [S' [L' LN]]]]. rewrite M in E. injection E as <-. exists free. split; [|split; [congruence|]].
    + eapply stock_ext; [exact S'|]. intros j. unfold fupd. cbn [live]. reflexivity.
    + intros j J. rewrite used_cons, U, LN by exact J. cbn [index_of]. destruct LL as [->|LL]; [lia|].
      destruct (live events i) as [m|] eqn:F; [|congruence]. pose proof (stock_range _ _ _ _ _ S F). lia.
  - destruct IH as [free [S [LM U]]]. apply is_live_some in L. destruct L as [m F].
    destruct (stock_set _ _ _ _ _ _ S V F) as [ms [M [S' [L' LN]]]]. rewrite M in E. injection E as <-. exists free. split; [|split; [congruence|]].
    + eapply stock_ext; [exact S'|]. intros j. unfold fupd. cbn [live]. reflexivity.
    + intros j J. rewrite used_cons, U, LN by exact J. cbn [index_of]. pose proof (stock_range _ _ _ _ _ S F). lia.
  - destruct IH as [free [S [LM U]]]. apply is_live_some in L. destruct L as [m F].
    destruct (stock_delete _ _ _ _ _ S N F) as [ms [M [S' [L' LN]]]]. rewrite M in E. injection E as <-. exists (i :: free). split; [|split; [congruence|]].
    + eapply stock_ext; [exact S'|]. intros j. unfold fupd. cbn [live]. reflexivity.
    + intros j J. rewrite used_cons, U, LN by exact J. cbn [index_of]. pose proof (stock_range _ _ _ _ _ S F). lia.
  - destruct IH as [free [S [LM U]]].
    destruct (stock_clear _ _ _ S) as [ms [M [S' [L' LN]]]]. rewrite M in E. injection E as <-. exists free. split; [|split; [congruence|]].
    + eapply stock_ext; [exact S'|]. intros j. unfold fupd. cbn [live]. reflexivity.
    + intros j J. rewrite used_cons, U, LN by exact J. cbn [index_of]. lia.
Qed.

Lemma reads_last_stored limit events ns i n : 1 <= limit <= 2 ^ 31 -> arises limit events ns -> live events i = Some n -> nodes_get ns i = Ok n.
Proof. intros L A F. destruct (arises_stock _ _ _ L A) as [free [S _]]. exact (stock_get _ _ _ _ _ S F). Qed.
Lemma stores_succeed limit events ns i n : 1 <= limit <= 2 ^ 31 -> arises limit events ns -> nd_is_valid n = true ->
  ((i = 0 \/ is_live events i = true) -> exists ns', nodes_update ns i n = Ok ns') /\
  (is_live events i = true -> exists ns', nodes_set ns i n = Ok ns') /\
  (is_live events i = true -> i <> 0 -> exists ns', nodes_delete ns i = Ok ns') /\
  (exists ns', nodes_update ns 0 node_invalid = Ok ns').
Proof.
  intros L A V. destruct (arises_stock _ _ _ L A) as [free [S _]]. split; [|split; [|split]].
  - intros H. assert (LL : i = 0 \/ live events i <> None) by (destruct H as [H|H]; [left; exact H|right; apply is_live_some in H; destruct H as [m M]; congruence]).
    destruct (stock_update _ _ _ _ _ S V LL) as [ms [M _]]. exists ms. exact M.
  - intros H. apply is_live_some in H. destruct H as [m F]. destruct (stock_set _ _ _ _ _ _ S V F) as [ms [M _]]. exists ms. exact M.
  - intros H N. apply is_live_some in H. destruct H as [m F]. destruct (stock_delete _ _ _ _ _ S N F) as [ms [M _]]. exists ms. exact M.
  - destruct (stock_clear _ _ _ S) as [ms [M _]]. exists ms. exact M.
Qed.
Lemma added_is_fresh limit events ns n c ns' : 1 <= limit <= 2 ^ 31 -> arises limit events ns -> nd_is_valid n = true -> nodes_add ns n = Ok (c, ns') ->
  exists i, child_to_node_index c = Ok i /\ 1 <= i < limit /\ is_live events i = false /\
    (~ used events i -> forall j, 1 <= j -> used events j -> is_live events j = true).
Proof.
  intros L A V E. destruct (arises_stock _ _ _ L A) as [free [S [LM U]]].
  destruct (Z.ltb_spec (next_slot ns free) (ns_limit ns)) as [B|B].
  2:{ rewrite (stock_add_full _ _ _ n S B) in E. discriminate. }
  destruct (stock_add _ _ _ _ S V B) as [ms [M [S' [L' [R [F LN]]]]]]. rewrite M in E. injection E as <- <-.
  exists (next_slot ns free). rewrite child_to_node by lia. split; [reflexivity|]. split; [lia|]. split; [unfold is_live; rewrite F; reflexivity|].
  intros N j J UJ. rewrite U in N by lia. rewrite U in UJ by lia. destruct free as [|k r]; cbn [next_slot] in *.
  - unfold is_live. destruct (live events j) eqn:X; [reflexivity|]. destruct (st_dead _ _ _ S j ltac:(lia) X).
  - destruct (st_free _ _ _ S k (or_introl eq_refl)). lia.
Qed.
Lemma add_succeeds limit events ns n : 1 <= limit <= 2 ^ 31 -> arises limit events ns -> nd_is_valid n = true ->
  ((exists i, 1 <= i < limit /\ is_live events i = false) -> exists r, nodes_add ns n = Ok r) /\
  ((forall i, 1 <= i < limit -> is_live events i = true) -> nodes_add ns n = Fail EAssert).
Proof.
  intros L A V. destruct (arises_stock _ _ _ L A) as [free [S [LM U]]].
  destruct (Z.ltb_spec (next_slot ns free) (ns_limit ns)) as [B|B].
  - destruct (stock_add _ _ _ _ S V B) as [ms [M [S' [L' [R [F LN]]]]]]. split; [intros _; eexists; exact M|].
    intros H. specialize (H (next_slot ns free) ltac:(lia)). unfold is_live in H. rewrite F in H. discriminate.
  - split; [|intros _; exact (stock_add_full _ _ _ n S B)]. intros [i [I D]]. unfold is_live in D. destruct (live events i) eqn:X; [discriminate|].
    pose proof (st_limit _ _ _ S). destruct free as [|k r]; cbn [next_slot] in *.
    + destruct (st_dead _ _ _ S i ltac:(lia) X).
    + destruct (st_free _ _ _ S k (or_introl eq_refl)). lia.
Qed.
Lemma count_is_exact limit events ns : 1 <= limit <= 2 ^ 31 -> arises limit events ns ->
  live_nodes_count ns = Ok (if is_live events 0 then zlen (filter (is_live events) (zseq 0 (Z.to_nat limit))) else 0).
Proof.
  intros L A. destruct (arises_stock _ _ _ L A) as [free [S [LM U]]]. rewrite (stock_live_count _ _ _ S).
  change (has (live events) 0) with (is_live events 0). destruct (is_live events 0) eqn:R; [|reflexivity]. f_equal.
  rewrite <- (stock_count _ _ _ S).
  2:{ apply is_live_some in R. destruct R as [n R]. congruence. }
  change (has (live events)) with (is_live events).
  pose proof (st_limit _ _ _ S) as B. replace (Z.to_nat limit) with (length (ns_items ns) + (Z.to_nat limit - length (ns_items ns)))%nat by (unfold zlen in B; lia).
  assert (APP : forall a n m, zseq a (n + m) = zseq a n ++ zseq (a + Z.of_nat n) m).
  { intros a n; revert a; induction n as [|n IH]; intros a m; cbn [zseq Nat.add app]; [f_equal; lia|]. f_equal. rewrite IH. f_equal. f_equal. lia. }
  rewrite APP, filter_app, zlen_app. set (k := (_ - _)%nat).
  enough (X : filter (is_live events) (zseq (0 + Z.of_nat (length (ns_items ns))) k) = []) by (rewrite X; change (zlen (@nil Z)) with 0; lia).
  assert (NIL : forall (l : list Z), (forall x, In x l -> is_live events x = false) -> filter (is_live events) l = []).
  { intros l; induction l as [|x l IH]; intros H; [reflexivity|]. cbn [filter]. rewrite H by (left; reflexivity). apply IH. intros y Y. apply H. right. exact Y. }
  apply NIL. intros x X. apply zseq_In in X. unfold is_live. destruct (live events x) eqn:F; [|reflexivity].
  pose proof (stock_range _ _ _ _ _ S F). unfold zlen in *. lia.
Qed.
