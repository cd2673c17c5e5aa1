(** The integrity check passes, and what it finds. *)
From Coq Require Import ZifyBool Permutation.
From Verif Require Import Base BaseFacts StateModel EstModel StatesModel StatesSpec WindowModel WindowSpec WindowProofs HistSpec HistProofs FatProofs
  NodesModel NodesProofs TrieProofs TrieContexts TreeStats TreeWindow TreeModel TreeLoop TreeRemove TreeSpec TreeRun TreeFacts IntegModel IntegSpec.
Ltac Zify.zify_post_hook ::= Z.div_mod_to_equations.

(** ** Comparisons in the window *)
Section Window.
  Variables (m shift : Z).
  Hypothesis M : 0 < m <= 2 ^ 31.
  Variables (text : list bit) (lo hi : Z) (w : window).
  Hypothesis W : win m shift text lo hi w.
  Notation adr := (addr m shift).
  Lemma win_compare p q d : lo <= p -> lo <= q -> 0 <= d -> 8 * p + d <= zlen text -> 8 * q + d <= zlen text -> p <= hi -> q <= hi ->
    firstn (Z.to_nat d) (sufx text p) = firstn (Z.to_nat d) (sufx text q) -> compare_for_equal_prefix w (adr p) (adr q) (7 - d mod 8) (d / 8) = Ok true.
  Proof.
    intros P Q D LP LQ PH QH E. pose proof (wn_lo _ _ _ _ _ _ W) as L0. pose proof (wn_len _ _ _ _ _ _ W) as LT. destruct W as [(bytes & (R & TL & BS) & LB) _ _].
    replace p with (lo + (p - lo)) at 1 by lia. replace q with (lo + (q - lo)) at 1 by lia. rewrite <- !addr_far by exact M.
    rewrite (compare_ok m (adr lo) bytes w R) by lia. f_equal. unfold prefix_agree. apply Bool.andb_true_iff.
    assert (FF : forall i, Forall (fun x => 0 <= x < 256) (from bytes i)).
    { intros i'. pose proof (rp_bytes _ _ _ _ R) as F. unfold from. rewrite <- (firstn_skipn (Z.to_nat i') bytes) in F. apply Forall_app in F. apply F. }
    assert (S : forall k, lo <= k <= hi -> 8 * k + d <= zlen text -> bit_string (from bytes (k - lo)) = sufx text k ++ repeat Zero (Z.to_nat (8 * zlen bytes - zlen (sufx text lo)))).
    { intros k K LK. unfold from. rewrite <- skip_bytes, BS. rewrite skipn_app. rewrite sufx_len in * by lia. f_equal.
      - replace (8 * Z.to_nat (k - lo))%nat with (Z.to_nat (8 * (k - lo))) by lia. rewrite sufx_skip by lia. f_equal. lia.
      - replace (8 * Z.to_nat (k - lo) - length (sufx text lo))%nat with 0%nat; [reflexivity|]. pose proof (sufx_len text lo ltac:(lia)) as SL. unfold zlen in SL at 1. lia. }
    assert (G : (bytes_agree (Z.to_nat (d / 8)) (from bytes (p - lo)) (from bytes (q - lo)) = true /\
      match nth_error (from bytes (p - lo)) (Z.to_nat (d / 8)), nth_error (from bytes (q - lo)) (Z.to_nat (d / 8)) with Some x, Some y => bits_agree (Z.to_nat (d mod 8)) 7 x y = true | _, _ => True end)).
    { pose proof (sufx_len text p ltac:(lia)) as SP. pose proof (sufx_len text q ltac:(lia)) as SQ. unfold zlen in SP at 1. unfold zlen in SQ at 1.
      apply prefix_bits; [apply FF|apply FF|lia|rewrite S, app_length by lia; lia|rewrite S, app_length by lia; lia|].
      replace (8 * Z.to_nat (d / 8) + Z.to_nat (d mod 8))%nat with (Z.to_nat d) by lia. rewrite !S, !firstn_app by lia.
      replace (Z.to_nat d - length (sufx text p))%nat with 0%nat by lia. replace (Z.to_nat d - length (sufx text q))%nat with 0%nat by lia. cbn [firstn]. now rewrite E. }
    rewrite !from_nth in G by lia. replace (7 - (7 - d mod 8)) with (d mod 8) by lia. destruct G as (G1 & G2). split; [exact G1|].
    destruct (znth bytes (p - lo + d / 8)), (znth bytes (q - lo + d / 8)); auto.
  Qed.
  Lemma win_compare_prefix p q x : lo <= p <= hi -> lo <= q <= hi -> prefix x (sufx text p) -> prefix x (sufx text q) ->
    compare_for_equal_prefix w (adr p) (adr q) (7 - zlen x mod 8) (zlen x / 8) = Ok true.
  Proof.
    intros P Q PP PQ. pose proof (wn_lo _ _ _ _ _ _ W) as L0. pose proof (prefix_len _ _ PP) as LP. pose proof (prefix_len _ _ PQ) as LQ. pose proof (zlen_nonneg x) as NX.
    pose proof (wn_len _ _ _ _ _ _ W) as LT. rewrite sufx_len in LP, LQ by lia. apply win_compare; try lia.
    replace (Z.to_nat (zlen x)) with (length x) by (unfold zlen; lia). apply prefix_firstn in PP, PQ. congruence.
  Qed.
End Window.

(** ** Where contexts stand *)
Lemma mapped_case cs i ts :
  (mapped_suffix cs i ts = ts /\ forall o cx, znth cs o = Some cx -> cx_node cx <> i) \/
  exists o cx, znth cs o = Some cx /\ cx_node cx = i /\ mapped_suffix cs i ts = cx_suffix cx /\ forall o' cx', znth cs o' = Some cx' -> o < o' -> cx_node cx' <> i.
Proof.
  induction cs as [|cx cs IH] using rev_ind.
  { left. split; [reflexivity|]. intros o cx H. apply znth_Some in H. change (zlen []) with 0 in H. lia. }
  unfold mapped_suffix in *. rewrite fold_left_app. cbn [fold_left]. destruct (Z.eqb_spec (cx_node cx) i) as [E|N].
  - right. exists (zlen cs), cx. split; [|split; [exact E|split; [reflexivity|]]].
    + rewrite znth_app2 by lia. now rewrite Z.sub_diag.
    + intros o' cx' H L. apply znth_Some in H. rewrite zlen_app, zlen_one in H. lia.
  - assert (G : forall o' cx', znth (cs ++ [cx]) o' = Some cx' -> znth cs o' = Some cx' \/ cx' = cx).
    { intros o' cx' H. pose proof (znth_Some _ _ _ H) as B. rewrite zlen_app, zlen_one in B. destruct (Z.lt_ge_cases o' (zlen cs)) as [L|L].
      - left. now rewrite znth_app1 in H by lia.
      - right. rewrite znth_app2 in H by lia. replace (o' - zlen cs) with 0 in H by lia. now injection H as ->. }
    destruct IH as [(E & H)|(o & c & Z & C & E & H)].
    + left. split; [exact E|]. intros o c Z. apply G in Z as [Z| ->]; [eauto|exact N].
    + right. exists o, c. split; [|split; [exact C|split; [exact E|]]].
      * rewrite znth_app1; [exact Z|]. apply znth_Some in Z. lia.
      * intros o' c' Z' L. apply G in Z' as [Z'| ->]; [eauto|exact N].
Qed.

Section Tree.
  Variables (m shift max_order : Z).
  Hypothesis M : 0 < m <= 2 ^ 31.
  Hypothesis MO : 0 <= max_order /\ 8 * max_order + 7 < 2 ^ 16.
  Notation adr := (addr m shift). Notation D := (8 * (max_order + 1)).
  Variables (text : list bit) (lo hi : Z) (ns : nodes) (f : Z -> option node) (free : list Z) (X : Z -> list bit).
  Notation suf := (sufx text).
  Hypothesis L0 : 0 <= lo <= hi.
  Hypothesis ST : stock ns f free.
  Hypothesis TR : trie adr D suf lo hi f X.
  Let P := tk_part _ _ _ _ _ _ _ TR.
  Notation occurs := (occurs suf lo hi). Notation latest := (latest suf lo hi). Notation leaf_at := (leaf_at adr D suf lo hi).
  Notation node_at := (node_at adr suf lo hi f X).

  (** The edge to a node. *)
  Lemma edge_to j n : f j = Some n -> exists s, node_at s j /\ (s = [] \/ exists u k d, f u = Some k /\ s = X u ++ [d]).
  Proof.
    intros F. destruct (Z.eq_dec j 0) as [->|N]; [exists []; split; [exact (tk_root _ _ _ _ _ _ _ TR)|now left]|].
    destruct (parent_exists _ _ _ _ _ _ _ TR j n F N) as (u & k & d & FU & _ & NA). exists (X u ++ [d]). split; [exact NA|]. right. eauto.
  Qed.
  Lemma below_edge s j x : node_at s j -> prefix s x -> prefix x (X j) -> first_below f X x j.
  Proof. intros NA S B. split; [exact B|]. intros i n F I. apply (node_first _ _ _ _ _ _ _ P _ _ _ _ NA F). exact (prefix_trans _ _ _ S I). Qed.
  Lemma edge_below s j n x : f j = Some n -> node_at s j -> (s = [] \/ exists u k d, f u = Some k /\ s = X u ++ [d]) -> first_below f X x j -> prefix s x.
  Proof.
    intros F NA [->|(u & k & d & FU & ->)] (B & LE); [apply prefix_nil|]. pose proof NA as (n' & q & _ & _ & _ & PS & _).
    destruct (Z.le_gt_cases (zlen (X u ++ [d])) (zlen x)) as [L|L]; [now apply prefix_both with (X j)|]. exfalso. rewrite snoc_len in L.
    assert (PU : prefix x (X u)) by (apply prefix_both with (X j); [exact B|exact (prefix_drop _ _ _ PS)|lia]).
    pose proof (prefix_len _ _ (LE u k FU PU)). pose proof (prefix_len _ _ PS). rewrite snoc_len in *. lia.
  Qed.
  Lemma below_unique x i n j k : f i = Some n -> f j = Some k -> first_below f X x i -> first_below f X x j -> i = j.
  Proof.
    intros FI FJ (A & B) (A' & B'). apply (pt_inj _ _ _ _ _ _ _ P i j n k FI FJ). apply prefix_eq; [now apply B with k|]. apply prefix_len. now apply B' with n.
  Qed.
  Lemma leaf_child i n d : f i = Some n -> 0 <= nd_child n d -> leaf_at (X i ++ [d]) (nd_child n d).
  Proof. intros F C. destruct (pt_child _ _ _ _ _ _ _ P i n d F) as [(_ & L)|(j & J & E & _)]; [exact L|lia]. Qed.

  (** ** Distinct nodes in the stack *)
  Lemma live_bound i n : f i = Some n -> 0 <= i < zlen (ns_items ns).
  Proof. intros F. destruct (st_live _ _ _ ST i n F) as (Z & _). now apply znth_Some in Z. Qed.
  Definition parented (V : list Z) (x : Z) : Prop := x = 0 \/ exists u n d, In u V /\ f u = Some n /\ nd_child n d = - x - 1.
  Record good (V stack : list Z) : Prop := {
    gd_nodup : NoDup (stack ++ V);
    gd_live : forall x, In x (stack ++ V) -> exists n, f x = Some n;
    gd_parent : forall x, In x (stack ++ V) -> parented V x }.
  Lemma good_fuel V stack : good V stack -> (length (stack ++ V) <= length (ns_items ns))%nat.
  Proof.
    intros [N L _]. rewrite <- (zseq_length 0 (length (ns_items ns))). apply NoDup_incl_length; [exact N|]. intros x I. destruct (L x I) as (n & F). pose proof (live_bound x n F) as B.
    apply zseq_In. unfold zlen in B. lia.
  Qed.
  Lemma child_live i n d j : f i = Some n -> nd_child n d = - j - 1 -> 0 <= j -> 0 < j /\ node_at (X i ++ [d]) j /\ exists k, f j = Some k.
  Proof.
    intros F C J. destruct (pt_child _ _ _ _ _ _ _ P i n d F) as [(C0 & _)|(j' & J' & E & NA)]; [lia|]. assert (j' = j) by lia. subst j'. split; [exact J'|]. split; [exact NA|]. destruct NA as (k & q & FK & _). eauto.
  Qed.
  Lemma child_fresh V stack i n d j : good V (i :: stack) -> f i = Some n -> nd_child n d = - j - 1 -> 0 <= j -> ~ In j (stack ++ i :: V).
  Proof.
    intros [N L PA] F C J I. destruct (child_live _ _ _ _ F C J) as (JP & NA & k & FK).
    assert (NI : j <> i). { intros ->. destruct NA as (n' & q & _ & _ & _ & PX & _). apply prefix_len in PX. rewrite snoc_len in PX. lia. }
    assert (I' : In j ((i :: stack) ++ V)). { cbn [app]. right. apply in_app_or in I as [I|[I|I]]; [apply in_or_app; now left|congruence|apply in_or_app; now right]. }
    destruct (PA j I') as [E|(u & nu & du & IU & FU & CU)]; [lia|]. destruct (child_live _ _ _ _ FU CU J) as (_ & NU & _).
    destruct (parent_unique _ _ _ _ _ _ _ P _ _ _ _ _ _ _ F FU NA NU) as (-> & _). cbn [app] in N. apply NoDup_cons_iff in N as (N & _). apply N. apply in_or_app. now right.
  Qed.
  Lemma parented_more V x i : parented V x -> parented (i :: V) x.
  Proof. intros [E|(u & n & d & I & H)]; [now left|]. right. exists u, n, d. split; [now right|exact H]. Qed.
  Definition pushed (child : Z) (stack : list Z) : list Z := if child <? 0 then - child - 1 :: stack else stack.
  Lemma pushed_good V stack i n : good V (i :: stack) -> f i = Some n -> good (i :: V) (pushed (nd_child n true) (pushed (nd_child n false) stack)).
  Proof.
    intros G F. pose proof G as [N L PA].
    assert (G0 : good (i :: V) stack).
    { split.
      - cbn [app] in N. apply NoDup_cons_iff in N as (NI & N). apply (Permutation_NoDup (l := i :: stack ++ V)); [apply Permutation_middle|]. now constructor.
      - intros x I. apply L. cbn [app]. apply in_app_or in I as [I|[<-|I]]; [right; apply in_or_app; now left|now left|right; apply in_or_app; now right].
      - intros x I. apply parented_more. apply PA. cbn [app]. apply in_app_or in I as [I|[<-|I]]; [right; apply in_or_app; now left|now left|right; apply in_or_app; now right]. }
    assert (STEP : forall d S, good (i :: V) S -> (nd_child n d < 0 -> ~ In (- nd_child n d - 1) (S ++ i :: V)) -> good (i :: V) (pushed (nd_child n d) S)).
    { intros d S [N' L' PA'] NI. unfold pushed. destruct (Z.ltb_spec (nd_child n d) 0) as [LT0|_]; [|now split].
      destruct (child_live i n d (- nd_child n d - 1) F ltac:(lia) ltac:(lia)) as (JP & NA & k & FK). split; cbn [app].
      - constructor; [exact (NI LT0)|exact N'].
      - intros x [<-|I]; [eauto|auto].
      - intros x [<-|I]; [|auto]. right. exists i, n, d. split; [now left|]. split; [exact F|lia]. }
    apply STEP.
    - apply STEP; [exact G0|]. intros LT0. apply child_fresh with n false; [exact G|exact F|lia|lia].
    - intros LT0 I. unfold pushed in I. assert (FR : ~ In (- nd_child n true - 1) (stack ++ i :: V)) by (apply child_fresh with n true; [exact G|exact F|lia|lia]).
      destruct (Z.ltb_spec (nd_child n false) 0) as [LF|_]; [|contradiction]. cbn [app] in I. destruct I as [E|I]; [|contradiction].
      destruct (child_live i n false (- nd_child n false - 1) F ltac:(lia) ltac:(lia)) as (_ & NF & _). destruct (child_live i n true (- nd_child n true - 1) F ltac:(lia) ltac:(lia)) as (_ & NT & _).
      rewrite E in NF. destruct (parent_unique _ _ _ _ _ _ _ P _ _ _ _ _ _ _ F F NF NT) as (_ & E2). discriminate.
  Qed.
  Lemma child_valid i n d : f i = Some n -> child_is_valid (nd_child n d) = true.
  Proof.
    intros F. unfold child_is_valid, num_roots. destruct (pt_child _ _ _ _ _ _ _ P i n d F) as [(C0 & _)|(j & J & E & _)]; lia.
  Qed.
  Lemma each_child_ok {A} (on : Z -> A -> res A) i n d stack acc acc' : f i = Some n -> on (nd_child n d) acc = Ok acc' ->
    each_child on (nd_child n d) stack acc = Ok (pushed (nd_child n d) stack, acc').
  Proof.
    intros F E. unfold each_child. rewrite (child_valid _ _ _ F), assert_true by reflexivity. cbn [bind]. rewrite E. cbn [bind]. unfold push_child, child_is_node_index, child_to_node_index, pushed.
    destruct (nd_child n d <? 0) eqn:C; [|reflexivity]. cbn [assert_ guard bind]. reflexivity.
  Qed.
  Lemma dfs_ok {A} (on : Z -> node -> Z -> A -> res A) (I : list Z -> A -> Prop) :
    (forall V i n acc, f i = Some n -> ~ In i V -> (forall x, In x V -> exists n, f x = Some n) -> I V acc ->
       exists a1 a2, on i n (nd_child n false) acc = Ok a1 /\ on i n (nd_child n true) a1 = Ok a2 /\ I (i :: V) a2) ->
    forall fuel V stack acc, good V stack -> I V acc -> (length (ns_items ns) <= fuel + length V)%nat -> exists V' acc', depth_first ns on fuel stack acc = Ok acc' /\ I V' acc'.
  Proof.
    intros STEP. induction fuel as [|fuel IH]; intros V stack acc G HI FU.
    - destruct stack as [|i stack]; [exists V, acc; split; [reflexivity|exact HI]|]. exfalso. pose proof (good_fuel _ _ G) as B. cbn [app length] in B. rewrite app_length in B. lia.
    - destruct stack as [|i stack]; [exists V, acc; split; [reflexivity|exact HI]|]. destruct (gd_live _ _ G i ltac:(now left)) as (n & F). cbn [depth_first].
      rewrite (stock_get _ _ _ _ _ ST F). cbn [bind].
      destruct (STEP V i n acc F) as (a1 & a2 & E1 & E2 & HI'); [|intros x Ix; apply (gd_live _ _ G); apply in_or_app; now right|exact HI|].
      { pose proof (gd_nodup _ _ G) as N. cbn [app] in N. apply NoDup_cons_iff in N as (N & _). intros C. apply N. apply in_or_app. now right. }
      rewrite (each_child_ok (on i n) i n false stack acc a1 F E1). cbn [bind fst snd]. rewrite (each_child_ok (on i n) i n true _ a1 a2 F E2). cbn [bind fst snd].
      apply IH with (i :: V); [now apply pushed_good|exact HI'|cbn [length]; lia].
  Qed.
  Lemma good_start : good [] [root_index].
  Proof.
    split; cbn [app].
    - constructor; [intros []|constructor].
    - intros x [<-|[]]. destruct (tk_root _ _ _ _ _ _ _ TR) as (n & q & F & _). eauto.
    - intros x [<-|[]]. now left.
  Qed.

  Lemma root_at_cursor : exists r, nodes_get ns 0 = Ok r /\ nd_text_start r = adr hi /\ 0 <= nd_depth r <= 8 * max_order + 7.
  Proof.
    destruct (root_latest _ _ _ _ _ _ _ TR ltac:(lia)) as (r & F & TS). exists r. split; [exact (stock_get _ _ _ _ _ ST F)|]. split; [exact TS|]. destruct (pt_depth _ _ _ _ _ _ _ P 0 r F) as (-> & B). pose proof (zlen_nonneg (X 0)). lia.
  Qed.

  (** ** Leaves are counted once *)
  Variable w : window.
  Hypothesis W : win m shift text lo hi w.
  Definition tally (E : Z -> bit -> Prop) (counters : list Z) : Prop := zlen counters = hi - lo + 1 /\
    forall k c, znth counters k = Some c -> 0 <= c <= 1 /\ (c = 1 -> exists u n d, E u d /\ f u = Some n /\ nd_child n d = adr (lo + k)).
  Lemma tally_child (E : Z -> bit -> Prop) i n d counters : f i = Some n -> ~ E i d -> (forall u b, E u b -> exists k, f u = Some k) -> tally E counters ->
    exists counters', count_leaf w i n (nd_child n d) counters = Ok counters' /\ tally (fun u b => E u b \/ (u = i /\ b = d)) counters'.
  Proof.
    intros F NE EL (LC & T). unfold count_leaf, child_is_node_index, child_to_window_index. destruct (Z.ltb_spec (nd_child n d) 0) as [C|C].
    { exists counters. split; [reflexivity|]. split; [exact LC|]. intros k c Z. destruct (T k c Z) as (B & H). split; [exact B|]. intros C1. destruct (H C1) as (u & n' & d' & A & H'). exists u, n', d'. split; [now left|exact H']. }
    rewrite assert_true by lia. cbn [bind]. pose proof (leaf_child i n d F C) as LF. pose proof LF as (q & ((Q & PQ) & _) & EC & _). rewrite EC.
    rewrite (win_start _ _ _ _ _ _ W). rewrite (win_diff m shift M text lo hi w W) by lia. cbn [bind].
    destruct (znth_lt counters (q - lo) ltac:(lia)) as (c & Z). rewrite (get_ok _ _ _ Z). cbn [bind]. destruct (T _ _ Z) as (B & H).
    assert (C0 : c = 0).
    { destruct (Z.eq_dec c 1) as [C1|]; [|lia]. exfalso. destruct (H C1) as (u & n' & d' & A & FU & CU). replace (lo + (q - lo)) with q in CU by lia.
      pose proof (leaf_child u n' d' FU ltac:(rewrite CU; apply (addr_range m shift M))) as LU. pose proof LU as (q' & ((Q' & PQ') & _) & EC' & _).
      assert (q' = q). { apply (addr_inj m shift M); [|rewrite <- EC'; exact CU]. pose proof (win_fits _ _ _ _ _ _ W). lia. } subst q'.
      destruct (leaf_unique _ _ _ _ _ _ _ TR (fun q => proj1 (addr_range m shift M q)) i n d _ u n' d' _ q F FU LF LU PQ PQ') as (-> & ->). contradiction. }
    subst c. rewrite add_ok by (cbn; lia). cbn [bind]. rewrite set_ok by lia. eexists. split; [reflexivity|]. split; [now rewrite zlen_zupd|].
    intros k c ZK. destruct (Z.eq_dec k (q - lo)) as [->|N].
    - rewrite znth_zupd_same in ZK by lia. injection ZK as <-. split; [lia|]. intros _. exists i, n, d. split; [right; auto|]. split; [exact F|]. rewrite EC. f_equal. lia.
    - rewrite znth_zupd_other in ZK by lia. destruct (T _ _ ZK) as (B' & H'). split; [exact B'|]. intros C1. destruct (H' C1) as (u & n' & d' & A & HH). exists u, n', d'. split; [now left|exact HH].
  Qed.
  Lemma tally_ext (E E' : Z -> bit -> Prop) counters : (forall u b, E u b -> E' u b) -> tally E counters -> tally E' counters.
  Proof. intros EE (L & T). split; [exact L|]. intros k c Z. destruct (T k c Z) as (B & H). split; [exact B|]. intros C. destruct (H C) as (u & n & d & A & R). exists u, n, d. auto. Qed.
  Lemma check_leaves_ok tr : tr_nodes tr = ns -> tr_window tr = w -> check_leaves tr = Ok tt.
  Proof.
    intros EN EW. unfold check_leaves. rewrite EN, EW. destruct (tr_proper tr); [|reflexivity].
    destruct (dfs_ok (count_leaf w) (fun V c => tally (fun u _ => In u V) c)) with (fuel := length (ns_items ns)) (V := @nil Z) (stack := [root_index]) (acc := repeat 0 (Z.to_nat (w_size w))) as (V' & c' & E & T).
    - intros V i n acc F NI LV T. destruct (tally_child _ i n false acc F NI (fun u _ I => LV u I) T) as (a1 & E1 & T1). exists a1.
      destruct (tally_child (fun u b => In u V \/ (u = i /\ b = false)) i n true a1 F) as (a2 & E2 & T2); [intros [C|(_ & C)]; [contradiction|discriminate]|intros u b [I|(-> & _)]; eauto|exact T1|].
      exists a2. split; [exact E1|]. split; [exact E2|]. apply (fun H => tally_ext _ _ _ H T2). intros u b [[I|(-> & _)]|(-> & _)]; [now right|now left|now left].
    - apply good_start.
    - split; [unfold zlen; rewrite repeat_length; rewrite (win_size _ _ _ _ _ _ W); lia|]. intros k c Z. apply znth_In in Z. apply repeat_spec in Z. subst c. split; lia.
    - lia.
    - rewrite E. cbn [bind]. apply assert_true. apply forallb_forall. intros x I. apply In_znth in I as (k & Z). destruct (proj2 T k x Z) as (B & _). lia.
  Qed.

  (** ** Nodes agree with their children *)
  Variable cs : list context.
  Hypothesis FULL : zlen text = 8 * hi.
  Hypothesis CH : forall o cx, znth cs o = Some cx -> (exists q, prev suf lo (hi - o) q /\ cx_suffix cx = adr q) /\ standing f X false (suf (hi - o)) cx.
  Hypothesis UN : unseen max_order suf lo hi (zlen cs).
  Lemma suf_len q : lo <= q <= hi -> zlen (suf q) = 8 * (hi - q).
  Proof. intros Q. rewrite sufx_len by lia. lia. Qed.
  Lemma short_has_context j n s r : f j = Some n -> node_at s j -> lo <= r <= hi -> prefix s (suf r) -> prefix (suf r) (X j) -> zlen (suf r) < zlen (X j) ->
    exists cx, znth cs (hi - r) = Some cx /\ cx_node cx = j.
  Proof.
    intros F NA R PS PX LX. destruct (node_branches _ _ _ _ _ _ _ P j n Zero F) as (k & K & PK). pose proof (prefix_len _ _ PK) as LK. rewrite snoc_len in LK.
    rewrite suf_len in LK, LX by lia. pose proof (proj2 (pt_depth _ _ _ _ _ _ _ P j n F)) as LD.
    assert (PRK : prefix (suf r) (suf k)) by (apply prefix_trans with (X j); [exact PX|exact (prefix_drop _ _ _ PK)]).
    assert (OC : hi - r < zlen cs). { destruct (Z.lt_ge_cases (hi - r) (zlen cs)) as [|GE]; [assumption|]. exfalso. apply (UN (hi - r) ltac:(lia) k ltac:(lia)). now replace (hi - (hi - r)) with r by lia. }
    destruct (znth_lt cs (hi - r) ltac:(lia)) as (cx & Z). exists cx. split; [exact Z|]. destruct (CH _ _ Z) as (_ & S). replace (hi - (hi - r)) with r in S by lia.
    destruct S as [(_ & (n' & F') & B)|(_ & d & _ & [(n' & F' & C & PL)|(NO & _)])].
    - exact (below_unique _ _ _ _ _ F' F B (below_edge _ _ _ NA PS PX)).
    - exfalso. exact (leaf_no_node _ _ _ _ _ _ _ P _ _ _ _ (leaf_child _ _ _ F' C) F (prefix_trans _ _ _ PL PX)).
    - discriminate.
  Qed.
  Lemma mapped_ok j n : f j = Some n -> exists q, mapped_suffix cs j (nd_text_start n) = adr q /\ lo <= q <= hi /\ prefix (X j) (suf q).
  Proof.
    intros F. destruct (edge_to j n F) as (s & NA & ED). pose proof NA as (n' & mm & F' & ((RM & PM) & _) & TS & PS & CO). assert (n' = n) by congruence. subst n'.
    destruct (mapped_case cs j (nd_text_start n)) as [(E & NO)|(o & cx & Z & C & E & LA)].
    - exists mm. split; [now rewrite E|]. split; [exact RM|]. destruct (Z.le_gt_cases (zlen (X j)) (zlen (suf mm))) as [L|L]; [apply compat_long; [apply CO; now split|exact L]|].
      exfalso. destruct (short_has_context j n s mm F NA RM PM) as (cx & Z & C); [apply compat_short; [apply CO; now split|lia]|exact L|]. exact (NO _ _ Z C).
    - destruct (CH _ _ Z) as ((q & (Q & PQ & _) & EQ) & S). exists q. split; [congruence|]. pose proof (znth_Some _ _ _ Z) as OB. split; [lia|].
      destruct S as [(_ & (n' & F'') & B)|(_ & d & _ & [(n' & F'' & C' & PL)|(NO & _)])].
      + rewrite C in B. pose proof (edge_below s j n _ F NA ED B) as PSR. assert (PSQ : prefix s (suf q)) by exact (prefix_trans _ _ _ PSR PQ).
        assert (OQ : compat (suf q) (X j)) by (apply CO; split; [lia|exact PSQ]).
        destruct (Z.le_gt_cases (zlen (X j)) (zlen (suf q))) as [L|L]; [now apply compat_long|]. exfalso.
        destruct (short_has_context j n s q F NA ltac:(lia) PSQ) as (cx' & Z' & C'); [apply compat_short; [exact OQ|lia]|exact L|]. apply (LA _ _ Z' ltac:(lia) C').
      + rewrite C in PL. exact (prefix_trans _ _ _ (prefix_drop _ _ _ PL) PQ).
      + discriminate.
  Qed.
  Lemma check_child_ok tr i n d : tr_nodes tr = ns -> tr_window tr = w -> f i = Some n -> check_child tr cs i n (nd_child n d) tt = Ok tt.
  Proof.
    intros EN EW F. unfold check_child. rewrite EN, EW. destruct (mapped_ok i n F) as (q & -> & Q & PQ). destruct (pt_depth _ _ _ _ _ _ _ P i n F) as (-> & _).
    assert (G : exists q', lo <= q' <= hi /\ prefix (X i) (suf q') /\
      (if child_is_node_index (nd_child n d) then let* j := child_to_node_index (nd_child n d) in let* m0 := nodes_get ns j in Ok (nd_text_start m0) else child_to_window_index (nd_child n d)) = Ok (adr q')).
    { unfold child_is_node_index, child_to_node_index, child_to_window_index. destruct (Z.ltb_spec (nd_child n d) 0) as [C|C].
      - destruct (child_live i n d (- nd_child n d - 1) F ltac:(lia) ltac:(lia)) as (_ & (k & q' & FK & ((Q' & PQ') & _) & TS & _) & _). exists q'. split; [exact Q'|]. split; [exact (prefix_drop _ _ _ PQ')|].
        cbn [assert_ guard bind]. rewrite (stock_get _ _ _ _ _ ST FK). cbn [bind]. now rewrite TS.
      - destruct (leaf_child i n d F C) as (q' & ((Q' & PQ') & _) & E & _). exists q'. split; [exact Q'|]. split; [exact (prefix_drop _ _ _ PQ')|]. rewrite assert_true by lia. cbn [bind]. now rewrite E. }
    destruct G as (q' & Q' & PQ' & ->). cbn [bind]. rewrite (win_compare_prefix m shift M text lo hi w W q q' (X i)) by assumption. reflexivity.
  Qed.
  Lemma check_contexts_ok tr : tr_nodes tr = ns -> tr_window tr = w -> check_contexts tr cs = Ok tt.
  Proof.
    intros EN EW. unfold check_contexts. destruct (tr_proper tr); [|reflexivity]. rewrite EN.
    destruct (dfs_ok (check_child tr cs) (fun _ a => a = tt)) with (fuel := length (ns_items ns)) (V := @nil Z) (stack := [root_index]) (acc := tt) as (V' & a & E & ->); [|apply good_start|reflexivity|lia|exact E].
    intros V i n acc F _ _ ->. exists tt, tt. rewrite !(check_child_ok tr i n _ EN EW F). auto.
  Qed.
End Tree.

(** ** The loop over suffixes stops at the root *)
Lemma root_stops m s bytes tr r max_order i fuel : reps m s bytes (tr_window tr) -> nodes_get (tr_nodes tr) root_index = Ok r -> nd_text_start r = w_cursor (tr_window tr) ->
  0 <= nd_depth r <= 8 * max_order + 7 -> 8 * max_order + 7 < 2 ^ 64 -> 0 <= max_order -> 0 <= i < zlen bytes -> check_suffix tr max_order (place m s i) (S fuel) root_index = Ok tt.
Proof.
  intros R G TS DE MO M0 I. cbn [check_suffix]. rewrite G. cbn [bind]. rewrite mul_ok by (ib; lia). cbn [bind]. rewrite add_ok by (ib; lia). cbn [bind]. rewrite assert_true by lia. cbn [bind].
  pose proof (rp_m _ _ _ _ R) as M. pose proof (rp_fits _ _ _ _ R) as FT. rewrite TS, (rp_cursor _ _ _ _ R). pose proof (place_range m s (zlen bytes - 1) ltac:(lia)) as PR.
  unfold index_is_smaller_or_equal. rewrite (index_smaller_ok _ _ _ _ _ _ R) by lia. cbn [bind]. rewrite assert_true by lia. cbn [bind].
  unfold index_diff, index_subtract. rewrite Z.leb_refl. rewrite sub_ok by (ib; lia). cbn [bind]. rewrite Z.sub_diag. replace (0 <=? nd_depth r / 8) with true by lia.
  rewrite (compare_ok m s bytes _ R) by lia. cbn [bind]. apply assert_true. unfold prefix_agree. cbn [Z.to_nat bytes_agree andb].
  destruct (znth bytes (i + 0)), (znth bytes (zlen bytes - 1 + 0)); reflexivity.
Qed.
Lemma mfold_unit {A} (g : unit -> A -> res unit) l : (forall x, In x l -> g tt x = Ok tt) -> mfold g l tt = Ok tt.
Proof. induction l as [|x l IH]; intros H; [reflexivity|]. cbn [mfold]. rewrite (H x) by now left. cbn [bind]. apply IH. intros y Y. apply H. now right. Qed.
Lemma suffixes_idle m s bytes tr r max_order : reps m s bytes (tr_window tr) -> 0 < zlen bytes -> nodes_get (tr_nodes tr) root_index = Ok r ->
  nd_text_start r = w_cursor (tr_window tr) -> 0 <= nd_depth r <= 8 * max_order + 7 -> 8 * max_order + 7 < 2 ^ 64 -> 0 <= max_order -> check_suffixes tr max_order = Ok tt.
Proof.
  intros R B G TS DE MO M0. unfold check_suffixes. rewrite (suffixes_ok _ _ _ _ R). replace (0 <? zlen bytes) with true by lia. cbn [bind]. apply mfold_unit. intros x I.
  apply in_map_iff in I as (i & <- & I). apply zseq_In in I. destruct (tr_proper tr); [|reflexivity]. destruct (length (ns_items (tr_nodes tr))) eqn:L.
  - exfalso. unfold nodes_get, get in G. destruct (znth (ns_items (tr_nodes tr)) root_index) as [n|] eqn:Z in G; [|discriminate]. apply znth_Some in Z. unfold zlen in Z. lia.
  - apply (root_stops m s bytes tr r max_order i n R G TS DE MO M0). lia.
Qed.
Lemma suffixes_unchecked max shift ops q tr r max_order : 0 < max < 2 ^ 63 -> 0 <= shift < max -> q_after max ops = Some q -> w_after max shift ops = Ok (tr_window tr) -> q_bytes q <> [] ->
  nodes_get (tr_nodes tr) root_index = Ok r -> nd_text_start r = w_cursor (tr_window tr) -> 0 <= nd_depth r <= 8 * max_order + 7 -> 8 * max_order + 7 < 2 ^ 64 -> 0 <= max_order ->
  check_suffixes tr max_order = Ok tt.
Proof.
  intros M SH Q E NB. pose proof (after_rep _ _ _ _ _ M SH Q E) as R. apply (suffixes_idle _ _ _ tr r max_order R).
  destruct (q_bytes q) as [|x l]; [congruence|]. rewrite zlen_cons. pose proof (zlen_nonneg l). lia.
Qed.

(** ** The check passes *)
Section Pass.
  Variables (t : luts) (m shift max_order : Z) (trk : Z -> Z -> cost_trackers).
  Hypothesis M : 0 < m <= 2 ^ 31.
  Hypothesis SH : 0 <= shift < m.
  Hypothesis MO : 0 <= max_order /\ 8 * max_order + 7 < 2 ^ 16.
  Lemma ready_passes text s : tree_ready t m shift max_order trk text s -> zlen text mod 8 = 0 -> check_integrity s = Ok tt.
  Proof.
    intros (L & SM & SB & W & G) L0. unfold check_integrity. rewrite SB, SM. rewrite assert_true by lia. cbn [bind]. set (hi := zlen text / 8) in *.
    assert (LH : 0 <= lowest m text hi <= hi) by (pose proof (zlen_nonneg text); unfold lowest, hi; lia). set (lo := lowest m text hi) in *.
    assert (SZ : (if w_size (tr_window (ts_tree s)) =? w_max (tr_window (ts_tree s)) then Ok true else
      let* d := index_diff (tr_window (ts_tree s)) (w_cursor (tr_window (ts_tree s))) (w_start (tr_window (ts_tree s))) in let* e := add usize d 1 in Ok (e =? w_size (tr_window (ts_tree s)))) = Ok true).
    { pose proof (win_fits _ _ _ _ _ _ W) as FT. rewrite (win_size _ _ _ _ _ _ W), (win_max _ _ _ _ _ _ W), (win_cursor m shift M _ _ _ _ W), (win_start _ _ _ _ _ _ W).
      destruct (Z.eqb_spec (hi - lo + 1) m); [reflexivity|]. rewrite (win_diff m shift M _ _ _ _ W) by lia. cbn [bind]. rewrite add_ok by (ib; lia). cbn [bind]. f_equal. lia. }
    unfold grown in G. destruct (tr_proper (ts_tree s)) eqn:TP.
    - destruct G as (f & free & X & CO & CL & CH & UN). pose proof (co_trie _ _ _ _ _ _ _ _ _ _ _ _ CO) as TR. pose proof (co_stock _ _ _ _ _ _ _ _ _ _ _ _ CO) as ST.
      rewrite (check_contexts_ok m shift max_order M text lo hi (tr_nodes (ts_tree s)) f free X LH ST TR (tr_window (ts_tree s)) W (ts_contexts s) ltac:(lia)
        (fun o cx Z => conj (proj1 (CH o cx Z)) (proj1 (proj2 (CH o cx Z)))) UN (ts_tree s) eq_refl eq_refl). cbn [bind]. unfold check_tree. rewrite SZ. cbn [bind assert_ guard].
      destruct (root_at_cursor m shift max_order text lo hi (tr_nodes (ts_tree s)) f free X LH ST TR) as (r & GR & TS & DE).
      pose proof W as [(bytes & (R & _) & LB) W2 W3].
      rewrite (suffixes_idle _ _ _ (ts_tree s) r max_order R); [|lia|exact GR|rewrite TS; symmetry; apply (win_cursor m shift M text lo hi); exact W|lia|lia|lia]. cbn [bind].
      exact (check_leaves_ok m shift max_order M text lo hi (tr_nodes (ts_tree s)) f free X LH ST TR (tr_window (ts_tree s)) W (ts_tree s) eq_refl eq_refl).
    - unfold check_contexts. rewrite TP. cbn [bind]. unfold check_tree. rewrite SZ. cbn [bind assert_ guard]. unfold check_suffixes, check_leaves. rewrite TP.
      destruct W as [(bytes & (R & _) & LB) W2 W3]. rewrite (suffixes_ok _ _ _ _ R). replace (0 <? zlen bytes) with true by lia. cbn [bind]. rewrite mfold_unit by reflexivity. reflexivity.
  Qed.
End Pass.

(** ** What passing says about leaves, of any tree *)
Definition edge_step {A} (ns : nodes) (on : Z -> node -> Z -> A -> res A) (acc : A) (e : Z * bit) : res A := let* n := nodes_get ns (fst e) in on (fst e) n (nd_child n (snd e)) acc.
Definition edges (L : list Z) : list (Z * bit) := flat_map (fun i => [(i, Zero); (i, One)]) L.
Lemma each_child_inv {A} (on : Z -> A -> res A) c stack acc r : each_child on c stack acc = Ok r -> on c acc = Ok (snd r) /\ (forall x, In x stack -> In x (fst r)) /\
  forall j, child_to_node_index c = Ok j -> In j (fst r).
Proof.
  unfold each_child. destruct (assert_ (child_is_valid c)); cbn [bind]; [|discriminate]. destruct (on c acc) as [a'|]; cbn [bind]; [|discriminate]. unfold push_child, child_is_node_index, child_to_node_index.
  destruct (c <? 0); cbn [assert_ guard bind]; intros E; injection E as <-; cbn [fst snd]; (split; [reflexivity|]); split.
  - intros x I. now right.
  - intros j J. injection J as <-. now left.
  - auto.
  - discriminate.
Qed.
Lemma dfs_trace {A} (ns : nodes) (on : Z -> node -> Z -> A -> res A) fuel : forall stack acc acc', depth_first ns on fuel stack acc = Ok acc' ->
  exists L, (forall x, In x stack -> In x L) /\ (forall i n d j, In i L -> nodes_get ns i = Ok n -> child_to_node_index (nd_child n d) = Ok j -> In j L) /\
    mfold (edge_step ns on) (edges L) acc = Ok acc'.
Proof.
  induction fuel as [|fuel IH]; intros stack acc acc' E; (destruct stack as [|i stack]; [exists []; split; [auto|]; split; [intros ? ? ? ? []|exact E]|]); cbn [depth_first] in E; [discriminate|].
  destruct (nodes_get ns i) as [n|] eqn:G; cbn [bind] in E; [|discriminate].
  destruct (each_child _ (nd_child n false) stack acc) as [r1|] eqn:E1; cbn [bind] in E; [|discriminate]. destruct (each_child _ (nd_child n true) (fst r1) (snd r1)) as [r2|] eqn:E2; cbn [bind] in E; [|discriminate].
  apply each_child_inv in E1 as (A1 & S1 & J1). apply each_child_inv in E2 as (A2 & S2 & J2). destruct (IH _ _ _ E) as (L & SL & CL & ML). exists (i :: L). split; [|split].
  - intros x [<-|I]; [now left|right; auto].
  - intros i' n' d j [<-|I] G' C; [|right; eauto]. rewrite G in G'. injection G' as <-. right. apply SL. destruct d; [apply J2; exact C|apply S2, J1; exact C].
  - cbn [edges flat_map app mfold]. unfold edge_step at 1. cbn [fst snd]. rewrite G. cbn [bind]. unfold Zero. rewrite A1. cbn [bind]. unfold edge_step at 1. cbn [fst snd]. rewrite G. cbn [bind]. unfold One. rewrite A2. cbn [bind]. exact ML.
Qed.
Lemma edges_In L i d : In i L -> In (i, d) (edges L).
Proof. intros I. apply in_flat_map. exists i. split; [exact I|]. destruct d; cbn; auto. Qed.
Lemma adds_one x y : add u8 x 1 = Ok y -> y = x + 1.
Proof. unfold add, chk. destruct (inb u8 (x + 1)); [intros E; now injection E as <-|discriminate]. Qed.
Lemma count_grows w i n c l l' : count_leaf w i n c l = Ok l' -> forall k x, znth l k = Some x -> exists x', znth l' k = Some x' /\ x <= x'.
Proof.
  unfold count_leaf. destruct (child_is_node_index c); [intros E; injection E as <-; intros k x Z; exists x; split; [exact Z|lia]|].
  destruct (child_to_window_index c) as [p|]; cbn [bind]; [|discriminate]. destruct (index_diff w p (w_start w)) as [o|]; cbn [bind]; [|discriminate].
  destruct (get l o) as [y|] eqn:G; cbn [bind]; [|discriminate]. destruct (add u8 y 1) as [y'|] eqn:AD; cbn [bind]; [|discriminate]. intros S k x Z.
  apply BaseFacts.get_inv in G. pose proof (znth_Some _ _ _ G) as B. rewrite set_ok in S by lia. injection S as <-. apply adds_one in AD as ->.
  destruct (Z.eq_dec k o) as [->|N].
  - exists (y + 1). split; [now apply znth_zupd_same|]. rewrite G in Z. injection Z as ->. lia.
  - exists x. split; [now rewrite znth_zupd_other by lia|lia].
Qed.
Lemma count_adds w i n c l l' p : count_leaf w i n c l = Ok l' -> child_to_window_index c = Ok p ->
  exists o x, index_diff w p (w_start w) = Ok o /\ znth l o = Some x /\ znth l' o = Some (x + 1).
Proof.
  unfold count_leaf. intros E C. unfold child_is_node_index in E. unfold child_to_window_index in *. destruct (Z.leb_spec 0 c) as [LE|]; [|discriminate]. cbn [assert_ guard bind] in *. injection C as ->.
  replace (p <? 0) with false in E by lia. destruct (index_diff w p (w_start w)) as [o|] eqn:D; cbn [bind] in E; [|discriminate].
  destruct (get l o) as [y|] eqn:G; cbn [bind] in E; [|discriminate]. destruct (add u8 y 1) as [y'|] eqn:AD; cbn [bind] in E; [|discriminate].
  apply BaseFacts.get_inv in G. pose proof (znth_Some _ _ _ G) as B. rewrite set_ok in E by lia. injection E as <-. apply adds_one in AD as ->. exists o, y. split; [reflexivity|]. split; [exact G|now apply znth_zupd_same].
Qed.
Lemma trace_grows ns w es : forall l l', mfold (edge_step ns (count_leaf w)) es l = Ok l' -> forall k x, znth l k = Some x -> exists x', znth l' k = Some x' /\ x <= x'.
Proof.
  induction es as [|e es IH]; cbn [mfold]; intros l l' E k x Z; [injection E as <-; exists x; split; [exact Z|lia]|]. destruct (edge_step ns (count_leaf w) l e) as [l1|] eqn:E1; cbn [bind] in E; [|discriminate].
  unfold edge_step in E1. destruct (nodes_get ns (fst e)) as [n|]; cbn [bind] in E1; [|discriminate]. destruct (count_grows _ _ _ _ _ _ E1 k x Z) as (x1 & Z1 & L1). destruct (IH _ _ E k x1 Z1) as (x' & Z' & L'). exists x'. split; [exact Z'|lia].
Qed.
Lemma two_of {A} (l : list A) x y : In x l -> In y l -> x <> y -> exists a b u v w, l = u ++ a :: v ++ b :: w /\ ((a = x /\ b = y) \/ (a = y /\ b = x)).
Proof.
  intros X Y N. apply in_split in X as (u & v & ->). apply in_app_or in Y as [Y|[Y|Y]]; [|congruence|].
  - apply in_split in Y as (u1 & u2 & ->). exists y, x, u1, u2, v. split; [now rewrite <- app_assoc|auto].
  - apply in_split in Y as (v1 & v2 & ->). exists x, y, u, v1, v2. split; [reflexivity|auto].
Qed.
Lemma reachable_traced ns L i : In 0 L -> (forall i n d j, In i L -> nodes_get ns i = Ok n -> child_to_node_index (nd_child n d) = Ok j -> In j L) -> reachable ns i -> In i L.
Proof. intros Z C R. induction R as [|i n d j R IH G J]; [exact Z|]. exact (C i n d j IH G J). Qed.
Lemma mfold_split {A S} (g : S -> A -> res S) l1 l2 s s' : mfold g (l1 ++ l2) s = Ok s' -> exists s1, mfold g l1 s = Ok s1 /\ mfold g l2 s1 = Ok s'.
Proof. rewrite mfold_app. destruct (mfold g l1 s) as [s1|]; cbn [bind]; [|discriminate]. eauto. Qed.
Lemma leaves_differ tr : tr_proper tr = true -> check_leaves tr = Ok tt -> different_leaves tr.
Proof.
  intros TP E i d i' d' p (RI & n & GI & LI) (RI' & n' & GI' & LI'). unfold check_leaves in E. rewrite TP in E.
  destruct (depth_first _ _ _ _ _) as [counters|] eqn:DF in E; cbn [bind] in E; [|discriminate]. destruct (forallb (fun k => k <=? 1) counters) eqn:FB; [|discriminate].
  destruct (dfs_trace _ _ _ _ _ _ DF) as (L & SL & CL & ML). assert (I0 : In 0 L) by (apply SL; now left).
  pose proof (reachable_traced _ _ _ I0 CL RI) as II. pose proof (reachable_traced _ _ _ I0 CL RI') as II'.
  assert (DEC : {(i, d) = (i', d')} + {(i, d) <> (i', d')}) by (decide equality; [apply Bool.bool_dec|apply Z.eq_dec]). destruct DEC as [EQ|NE]; [injection EQ as -> ->; auto|]. exfalso.
  destruct (two_of _ _ _ (edges_In L i d II) (edges_In L i' d' II') NE) as (a & b & u & v & v' & ES & AB). rewrite ES in ML.
  assert (HA : forall e, e = (i, d) \/ e = (i', d') -> exists k, nodes_get (tr_nodes tr) (fst e) = Ok k /\ child_to_window_index (nd_child k (snd e)) = Ok p) by (intros e [->| ->]; cbn [fst snd]; eauto).
  apply mfold_split in ML as (s1 & M1 & ML). cbn [mfold] in ML. destruct (edge_step _ _ s1 a) as [s2|] eqn:E2; cbn [bind] in ML; [|discriminate].
  apply mfold_split in ML as (s3 & M3 & ML). cbn [mfold] in ML. destruct (edge_step _ _ s3 b) as [s4|] eqn:E4; cbn [bind] in ML; [|discriminate].
  destruct (HA a ltac:(tauto)) as (ka & GA & LA). destruct (HA b ltac:(tauto)) as (kb & GB & LB). unfold edge_step in E2, E4. rewrite GA in E2. rewrite GB in E4. cbn [bind] in E2, E4.
  destruct (count_adds _ _ _ _ _ _ _ E2 LA) as (o & x & D & Z1 & Z2). destruct (count_adds _ _ _ _ _ _ _ E4 LB) as (o' & y & D' & Z3 & Z4). rewrite D in D'. injection D' as <-.
  destruct (trace_grows _ _ _ _ _ M3 _ _ Z2) as (y' & Z3' & LY). rewrite Z3 in Z3'. injection Z3' as <-. destruct (trace_grows _ _ _ _ _ ML _ _ Z4) as (z & Z5 & LZ).
  assert (X0 : 0 <= x).
  { destruct (Z.lt_ge_cases x 0) as [LT|]; [|assumption]. exfalso. pose proof (znth_Some _ _ _ Z1) as B1.
    assert (BK : forall es l l', mfold (edge_step (tr_nodes tr) (count_leaf (tr_window tr))) es l = Ok l' -> zlen l' = zlen l).
    { clear. induction es as [|e es IH]; cbn [mfold]; intros l l' E; [now injection E as <-|]. destruct (edge_step _ _ l e) as [l1|] eqn:E1; cbn [bind] in E; [|discriminate]. rewrite (IH _ _ E).
      unfold edge_step, count_leaf in E1. destruct (nodes_get _ _); cbn [bind] in E1; [|discriminate]. destruct (child_is_node_index _); [now injection E1 as <-|].
      destruct (child_to_window_index _); cbn [bind] in E1; [|discriminate]. destruct (index_diff _ _ _); cbn [bind] in E1; [|discriminate]. destruct (get l _) eqn:G in E1; cbn [bind] in E1; [|discriminate].
      destruct (add u8 _ _); cbn [bind] in E1; [|discriminate]. apply BaseFacts.get_inv in G. apply znth_Some in G. rewrite set_ok in E1 by lia. injection E1 as <-. apply zlen_zupd. }
    pose proof (BK _ _ _ M1) as LS. destruct (znth_lt (repeat 0 (Z.to_nat (w_size (tr_window tr)))) o ltac:(lia)) as (z0 & ZZ). pose proof ZZ as ZZ'. apply znth_In in ZZ'. apply repeat_spec in ZZ'. subst z0.
    destruct (trace_grows _ _ _ _ _ M1 _ _ ZZ) as (x' & ZX & LX). rewrite Z1 in ZX. injection ZX as <-. lia. }
  rewrite forallb_forall in FB. apply znth_In in Z5. specialize (FB _ Z5). lia.
Qed.
Lemma integrity_leaves s : check_integrity s = Ok tt -> tr_proper (ts_tree s) = true -> different_leaves (ts_tree s).
Proof.
  intros E TP. apply leaves_differ; [exact TP|]. unfold check_integrity in E. destruct (assert_ (ts_bit_index s =? 7)); cbn [bind] in E; [|discriminate].
  destruct (check_contexts _ _); cbn [bind] in E; [|discriminate]. unfold check_tree in E. destruct (if _ : bool then _ else _) in E; cbn [bind] in E; [|discriminate].
  destruct (assert_ _) in E; cbn [bind] in E; [|discriminate]. destruct (check_suffixes _ _) in E; cbn [bind] in E; [|discriminate]. exact E.
Qed.

(** ** Every suffix is found *)
Lemma starts_prefix s x : starts_with s x <-> prefix x s.
Proof. unfold starts_with. symmetry. apply prefix_firstn. Qed.
Section Found.
  Variables (m shift max_order : Z).
  Hypothesis M : 0 < m <= 2 ^ 31.
  Hypothesis MO : 0 <= max_order.
  Variables (text : list bit) (lo hi : Z) (tr : tree) (f : Z -> option node) (free : list Z) (X : Z -> list bit).
  Notation adr := (addr m shift). Notation D := (8 * (max_order + 1)). Notation suf := (sufx text).
  Hypothesis L0 : 0 <= lo <= hi.
  Hypothesis LT : 8 * hi <= zlen text.
  Hypothesis ST : stock (tr_nodes tr) f free.
  Hypothesis TR : trie adr D suf lo hi f X.
  Hypothesis W : win m shift text lo hi (tr_window tr).
  Let P := tk_part _ _ _ _ _ _ _ TR.
  Lemma tail_sufx q : lo <= q -> tail_of (suf lo) (q - lo) = suf q.
  Proof. intros Q. unfold tail_of. rewrite sufx_skip by lia. f_equal. lia. Qed.
  Lemma spot_adr q : lo <= q -> spot (tr_window tr) (q - lo) = adr q.
  Proof. intros Q. unfold spot. rewrite (win_start _ _ _ _ _ _ W), (win_max _ _ _ _ _ _ W). change ((adr lo + (q - lo)) mod m) with (place m (adr lo) (q - lo)). rewrite addr_far by exact M. f_equal. lia. Qed.
  Lemma child_stands i n d : f i = Some n -> exists q, lo <= q <= hi /\ stands_at (tr_nodes tr) (nd_child n d) (adr q) /\ prefix (X i) (suf q).
  Proof.
    intros F. destruct (pt_child _ _ _ _ _ _ _ P i n d F) as [(C0 & q & ((Q & PQ) & _) & E & _)|(j & J & E & k & q & FK & ((Q & PQ) & _) & TS & _)]; exists q; (split; [exact Q|]); (split; [|exact (prefix_drop _ _ _ PQ)]).
    - left. unfold child_to_window_index. rewrite assert_true by lia. cbn [bind]. now f_equal.
    - right. exists j, k. split; [|split; [exact (stock_get _ _ _ _ _ ST FK)|exact TS]]. unfold child_to_node_index. rewrite assert_true by lia. cbn [bind]. f_equal. lia.
  Qed.
  Lemma found_from p : lo <= p <= hi -> forall k i n s, (Z.to_nat (D - zlen (X i)) <= k)%nat -> f i = Some n -> node_at adr suf lo hi f X s i -> prefix s (suf p) -> leads (tr_nodes tr) (suf p) i ->
    suffix_found tr max_order (suf lo) (p - lo).
  Proof.
    intros RP. induction k as [|k IH]; intros i n s FU F NA PS LE; pose proof (pt_depth _ _ _ _ _ _ _ P i n F) as (DE & DD); [lia|].
    pose proof NA as (n' & mm & F' & _ & _ & _ & CO). pose proof (CO p (conj RP PS)) as CM.
    destruct (Z.le_gt_cases (zlen (suf p)) (zlen (X i))) as [LS|LS].
    - unfold suffix_found. rewrite tail_sufx by lia. rewrite (win_size _ _ _ _ _ _ W). exists i, n. split; [exact LE|]. split; [exact (stock_get _ _ _ _ _ ST F)|]. right. rewrite DE. split; [exact LS|]. intros d. destruct (child_stands i n d F) as (q & Q & SA & PQ). exists (q - lo).
      split; [lia|]. rewrite spot_adr, tail_sufx by lia. split; [exact SA|]. apply starts_prefix. apply prefix_trans with (X i); [apply compat_short; [exact CM|exact LS]|exact PQ].
    - assert (PX : prefix (X i) (suf p)) by (apply compat_long; [exact CM|lia]). destruct (prefix_next _ _ PX LS) as (d & PD).
      assert (ED : nth (Z.to_nat (nd_depth n)) (suf p) Zero = d) by (apply prefix_nth in PD; destruct PD as (_ & _ & <-); f_equal; rewrite DE; unfold zlen; lia).
      destruct (pt_child _ _ _ _ _ _ _ P i n d F) as [(C0 & LF)|(j & J & E & NJ)].
      + unfold suffix_found. rewrite tail_sufx by lia. rewrite (win_size _ _ _ _ _ _ W). exists i, n. split; [exact LE|]. split; [exact (stock_get _ _ _ _ _ ST F)|]. left. rewrite ED. split; [lia|]. destruct LF as (q & ((Q & PQ) & LAT) & EC & AL). exists (q - lo).
        pose proof (LAT p (conj RP PD)) as LEQ. split; [lia|]. rewrite spot_adr, tail_sufx by lia. split; [unfold child_to_window_index; rewrite assert_true by lia; cbn [bind]; now f_equal|]. apply starts_prefix.
        destruct (Z.eq_dec p q) as [->|NE]; [apply cut_prefix|]. apply (AL p q); [now split|now split|lia].
      + pose proof NJ as (nj & q & FJ & _ & _ & PJ & _). apply (IH j nj (X i ++ [d])); [|exact FJ|exact NJ|exact PD|].
        * apply prefix_len in PJ. rewrite snoc_len in PJ. lia.
        * apply leads_down with i n; [exact LE|exact (stock_get _ _ _ _ _ ST F)|lia|]. rewrite ED. unfold child_to_node_index. rewrite assert_true by lia. cbn [bind]. f_equal. lia.
  Qed.
  Lemma found p : lo <= p <= hi -> suffix_found tr max_order (suf lo) (p - lo).
  Proof. intros RP. pose proof (tk_root _ _ _ _ _ _ _ TR) as (n & q & F & NA). apply (found_from p RP _ 0 n [] (le_n _) F); [exact (tk_root _ _ _ _ _ _ _ TR)|apply prefix_nil|constructor]. Qed.
End Found.

Section Run.
  Variables (t : luts) (m shift max_order : Z).
  Hypothesis LU : luts_new = Ok t.
  Hypothesis M : 0 < m <= 2 ^ 31.
  Hypothesis SH : 0 <= shift < m.
  Hypothesis MO : 0 <= max_order /\ 8 * max_order + 7 < 2 ^ 16.
  Lemma ready_found trk text s : tree_ready t m shift max_order trk text s -> suffixes_found (ts_tree s) max_order (in_window m text).
  Proof.
    clear LU. intros (L & SM & SB & W & G). rewrite in_window_sufx. set (hi := zlen text / 8) in *.
    assert (LH : 0 <= lowest m text hi <= hi) by (pose proof (zlen_nonneg text); unfold lowest, hi; lia). set (lo := lowest m text hi) in *.
    unfold suffixes_found. unfold grown in G. rewrite (win_size _ _ _ _ _ _ W). destruct (tr_proper (ts_tree s)).
    - destruct G as (f & free & X & CO & _). intros k K. replace k with (lo + k - lo) by lia.
      apply (found m shift max_order M text lo hi (ts_tree s) f free X LH (co_stock _ _ _ _ _ _ _ _ _ _ _ _ CO) (co_trie _ _ _ _ _ _ _ _ _ _ _ _ CO) W). lia.
    - destruct G as (_ & _ & AL). intros k q K Q. unfold tail_of. rewrite !sufx_skip by lia. apply starts_prefix. destruct (Z.eq_dec k q) as [->|N]; [apply prefix_refl|]. apply AL; lia.
  Qed.
  Lemma reached input : supplied m max_order input -> exists s, tree_after t m max_order shift input = Ok s /\ tree_ready t m shift max_order (trackers_at input) (map fst input) s.
  Proof. intros SU. apply (tree_fed t m shift max_order (trackers_at input) (all_of t LU) M SH MO input SU (trackers_at_ok input)). Qed.
  Lemma check_passes input : supplied m max_order input -> zlen input mod 8 = 0 -> exists s, tree_after t m max_order shift input = Ok s /\ check_integrity s = Ok tt.
  Proof.
    intros SU L8. destruct (reached input SU) as (s & E & R). exists s. split; [exact E|]. apply (ready_passes t m shift max_order (trackers_at input) M SH MO (map fst input) s R). now rewrite zlen_map.
  Qed.
  Lemma all_found input : supplied m max_order input -> exists s, tree_after t m max_order shift input = Ok s /\ suffixes_found (ts_tree s) max_order (in_window m (map fst input)).
  Proof. intros SU. destruct (reached input SU) as (s & E & R). exists s. split; [exact E|]. exact (ready_found _ _ _ R). Qed.
  Lemma root_marks_cursor input : supplied m max_order input -> exists s, tree_after t m max_order shift input = Ok s /\
    (tr_proper (ts_tree s) = true -> exists r, nodes_get (tr_nodes (ts_tree s)) root_index = Ok r /\ nd_text_start r = w_cursor (tr_window (ts_tree s)) /\ 0 <= nd_depth r <= 8 * max_order + 7).
  Proof.
    intros SU. destruct (reached input SU) as (s & E & R). exists s. split; [exact E|]. clear LU E. intros TP. destruct R as (L & SM & SB & W & G). unfold grown in G. rewrite TP in G. destruct G as (f & free & X & CO & _).
    set (text := map fst input) in *. assert (LH : 0 <= lowest m text (zlen text / 8) <= zlen text / 8) by (pose proof (zlen_nonneg text); unfold lowest; lia).
    destruct (root_at_cursor m shift max_order text _ _ _ f free X LH (co_stock _ _ _ _ _ _ _ _ _ _ _ _ CO) (co_trie _ _ _ _ _ _ _ _ _ _ _ _ CO)) as (r & GR & TS & DE). exists r. split; [exact GR|]. split; [|lia].
    rewrite TS. symmetry. exact (win_cursor m shift M _ _ _ _ W).
  Qed.
End Run.

(** ** A wrong tree that passes *)
(** The tree of "ab" at the start of the third byte, with the children of its root exchanged. *)
Definition crossed : source :=
  mkSource (mkTree (mkNodes [mkNode (3, 2) 0 1099511627778 (0, 0) 2051 5 6 1 1] None 0 3) (mkWindow [0; 0; 97; 98] 2 0 3 4) true)
    [mkContext 3 0 2 false None] 1 7.
Lemma crossed_passes : check_integrity crossed = Ok tt /\ ~ suffixes_found (ts_tree crossed) 1 (bit_string [97; 98]).
Proof.
  split; [vm_compute; reflexivity|]. intros F. specialize (F 0 ltac:(cbn; lia)). destruct F as (i & n & LE & G & C).
  assert (I0 : i = 0).
  { clear n G C. induction LE as [|i n j LE IH G L J]; [reflexivity|]. subst i. vm_compute in G. injection G as <-. vm_compute in J. discriminate. }
  subst i. vm_compute in G. injection G as <-. destruct C as [(_ & q & Q & C & S)|(L & _)]; [|vm_compute in L; now apply L].
  vm_compute in C. injection C as C. cbn in Q. assert (E : q = 1) by lia || (assert (E : q = 0 \/ q = 1 \/ q = 2) by lia; destruct E as [->|[->| ->]]; vm_compute in C; [discriminate|reflexivity|discriminate]).
  subst q. vm_compute in S. discriminate.
Qed.
