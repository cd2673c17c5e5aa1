(** Proofs for C65: the listing of the tree. *)
From Coq Require Import ZifyBool.
From Verif Require Import Base BaseFacts UtilSpec StateModel StateSpec StateProofs EstModel StatesModel StatesSpec WindowModel WindowSpec WindowProofs HistSpec HistProofs FatProofs
  NodesModel NodesProofs TrieProofs TrieContexts TreeStats TreeWindow TreeModel TreeLoop TreeRemove TreeGather TreeSpec TreeRun TreeFacts IntegModel IntegSpec IntegProofs SizeSpec SizeProofs ShowModel ShowSpec.
Ltac Zify.zify_post_hook ::= Z.div_mod_to_equations.

Lemma recent_shown h r : recent_of h = Ok r -> rb_last_7_bits r = number_of (true :: lastn 7 h).
Proof. intros E. destruct (recent_bits_correct h) as (s & E' & _ & _ & _ & L). unfold recent_of in E. rewrite E in E'. injection E' as <-. exact L. Qed.
Lemma strict_prefix (x y : list bit) : (exists b r, y = x ++ b :: r) <-> prefix x y /\ zlen x < zlen y.
Proof.
  split.
  - intros (b & r & ->). split; [apply prefix_app|]. rewrite zlen_app, zlen_cons. pose proof (zlen_nonneg r). lia.
  - intros ((r & ->) & L). rewrite zlen_app in L. destruct r as [|b r]; [rewrite zlen_nil in L; lia|]. now exists b, r.
Qed.
Lemma pairs_app {A} (R : A -> A -> Prop) l r : ForallOrdPairs R l -> ForallOrdPairs R r -> (forall x y, In x l -> In y r -> R x y) -> ForallOrdPairs R (l ++ r).
Proof.
  induction 1 as [|a l F P IH]; intros Q H; [exact Q|]. cbn [app]. constructor.
  - apply Forall_app. split; [exact F|]. apply Forall_forall. intros y I. apply H; [now left|exact I].
  - apply IH; [exact Q|]. intros x y I J. apply H; [now right|exact J].
Qed.

Section Show.
  Variables (t : luts) (m shift max_order : Z) (trk : Z -> Z -> cost_trackers).
  Hypothesis ALL : forall l, l <> [] -> exists s, state_of t l = Ok s /\ stands_for (lt_rates t) (fst (fst (last l (0, Zero, ct_default)))) (bits l) s.
  Hypothesis M : 0 < m <= 2 ^ 31.
  Hypothesis MO : 0 <= max_order.
  Variables (text : list bit) (lo hi : Z) (tr : tree).
  Notation adr := (addr m shift). Notation D := (8 * (max_order + 1)). Notation suf := (sufx text).
  Hypothesis DB : D < 2 ^ 63.
  Hypothesis L0 : 0 <= lo <= hi.
  Hypothesis LT : hi = zlen text / 8.
  Hypothesis W : win m shift text lo hi (tr_window tr).
  Variables (f : Z -> option node) (free : list Z) (X : Z -> list bit).
  Hypothesis C : core t m shift max_order trk suf lo hi (tr_nodes tr) f free X.
  Let TR := co_trie _ _ _ _ _ _ _ _ _ _ _ _ C.
  Let P := tk_part _ _ _ _ _ _ _ TR.
  Let ST := co_stock _ _ _ _ _ _ _ _ _ _ _ _ C.
  Notation txt := (suf lo). Notation br := (branches max_order txt). Notation tp := (tip max_order txt).
  Notation nat_at := (node_at adr suf lo hi f X).
  Notation lof := (line_of lo max_order (tr_window tr) txt).

  Lemma br_iff x : br x <-> zlen x < D /\ forall b, exists p, occurs suf lo hi (x ++ [b]) p.
  Proof. exact (branches_iff max_order trk text lo hi L0 LT x). Qed.
  Lemma br_node x : br x -> exists j n, f j = Some n /\ X j = x.
  Proof. intros B. apply br_iff in B. destruct B as (LX & B). exact (branching_node _ _ _ _ _ _ _ TR x LX B). Qed.
  (** A branching string below [s] begins with the string of the node at [s]. *)
  Lemma br_under s j x : nat_at s j -> br x -> prefix s x -> prefix (X j) x.
  Proof.
    intros (n & q & _ & _ & _ & _ & CO) B S. apply br_iff in B. destruct B as (_ & B).
    assert (G : forall b, prefix (X j) (x ++ [b]) \/ prefix (x ++ [b]) (X j)).
    { intros b. destruct (B b) as (p & R & O). assert (OS : occurs suf lo hi s p) by (split; [exact R|]; apply prefix_trans with x; [exact S|exact (prefix_drop _ _ _ O)]).
      destruct (CO p OS) as [H|H]; [right; exact (prefix_trans _ _ _ O H)|]. destruct (Z.le_gt_cases (zlen (X j)) (zlen (x ++ [b]))) as [L|L]; [left|right]; eapply prefix_both; eauto; lia. }
    destruct (Z.le_gt_cases (zlen (X j)) (zlen x)) as [L|L].
    - destruct (G Zero) as [H|H]; [|apply prefix_len in H; rewrite snoc_len in H; lia]. eapply prefix_both; [exact H|apply prefix_app|exact L].
    - exfalso. assert (A : forall b, prefix (x ++ [b]) (X j)).
      { intros b. destruct (G b) as [H|H]; [|exact H]. rewrite (prefix_eq _ _ H); [apply prefix_refl|rewrite snoc_len; lia]. }
      pose proof (prefix_snoc_det _ _ _ _ (A Zero) (A One)). discriminate.
  Qed.

  (** The nodes above a string. *)
  Definition chain (anc : list Z) (s : list bit) : Prop :=
    NoDup anc /\ (forall i, In i anc -> f i <> None) /\ forall y, In y (map X anc) <-> br y /\ prefix y s /\ zlen y < zlen s.
  Lemma strings_nodup l : NoDup l -> (forall i, In i l -> f i <> None) -> NoDup (map X l).
  Proof.
    induction 1 as [|i l NI ND IH]; intros A; [constructor|]. cbn [map]. constructor; [|apply IH; intros j J; apply A; now right].
    intros H. apply in_map_iff in H. destruct H as (j & E & J). apply NI. assert (FI : f i <> None) by (apply A; now left). assert (FJ : f j <> None) by (apply A; now right).
    destruct (f i) as [n|] eqn:EI; [|congruence]. destruct (f j) as [n'|] eqn:EJ; [|congruence]. now rewrite <- (pt_inj _ _ _ _ _ _ _ P j i n' n EJ EI E).
  Qed.
  Lemma chain_below anc s : chain anc s -> below max_order txt s (zlen anc).
  Proof.
    intros (ND & LV & IN). exists (map X anc). split; [now apply strings_nodup|]. split; [|unfold zlen; now rewrite map_length].
    intros y. rewrite IN. rewrite strict_prefix. tauto.
  Qed.
  Lemma chain_node s j anc : nat_at s j -> chain anc s -> chain anc (X j).
  Proof.
    intros NJ (ND & LV & IN). pose proof NJ as (n & q & F & _ & _ & PS & _). split; [exact ND|]. split; [exact LV|]. intros y. rewrite IN. split; intros (B & PY & L).
    - split; [exact B|]. split; [exact (prefix_trans _ _ _ PY PS)|]. apply prefix_len in PS. lia.
    - split; [exact B|]. assert (PY' : prefix s y \/ zlen y < zlen s).
      { destruct (Z.le_gt_cases (zlen s) (zlen y)) as [G|G]; [left|now right]. exact (prefix_both _ _ _ PS PY G). }
      destruct PY' as [H|H]; [pose proof (prefix_len _ _ (br_under s j y NJ B H)); lia|]. split; [|exact H]. eapply prefix_both; [exact PY|exact PS|lia].
  Qed.
  Lemma chain_child i n d anc : f i = Some n -> chain anc (X i) -> chain (i :: anc) (X i ++ [d]).
  Proof.
    intros F (ND & LV & IN). split; [|split].
    - constructor; [|exact ND]. intros I. assert (J : In (X i) (map X anc)) by now apply in_map. apply IN in J. lia.
    - intros k [<-|I]; [congruence|now apply LV].
    - intros y. cbn [map In]. rewrite IN. rewrite snoc_len. split.
      + intros [<-|(B & PY & L)]; [split; [exact (node_string t m shift max_order trk text lo hi tr L0 LT f free X C i n F)|]; split; [apply prefix_app|lia]|].
        split; [exact B|]. split; [eapply prefix_trans; [exact PY|apply prefix_app]|lia].
      + intros (B & PY & L). assert (PX : prefix y (X i)) by (eapply prefix_both; [exact PY|apply prefix_app|lia]).
        destruct (Z.eq_dec (zlen y) (zlen (X i))) as [E|E]; [left; symmetry; apply prefix_eq; [exact PX|lia]|right]. split; [exact B|]. split; [exact PX|]. apply prefix_len in PX. lia.
  Qed.

  (** What is listed below [s]. *)
  Record listed (s : list bit) (strings : list (list bit)) (lines : list line) : Prop := {
    ls_line : Forall2 lof strings lines;
    ls_sort : ForallOrdPairs dictionary_before strings;
    ls_pre : forall x, In x strings -> prefix s x;
    ls_br : forall x, br x -> prefix s x -> In x strings;
    ls_tip : forall x, tp x -> prefix s x -> In x strings;
    ls_num : NoDup (node_numbers lines);
    ls_at : forall i, In i (node_numbers lines) -> f i <> None /\ prefix s (X i) }.

  Lemma leaf_listed i n d c anc : f i = Some n -> nd_child n d = c -> 0 <= c -> leaf_at adr D suf lo hi (X i ++ [d]) c -> chain anc (X i ++ [d]) ->
    listed (X i ++ [d]) [X i ++ [d]] [LeafLine (zlen anc) c].
  Proof.
    intros F E C0 LF CH. assert (NB : forall z, br z -> ~ prefix (X i ++ [d]) z).
    { intros z B PZ. apply br_iff in B. destruct B as (LZ & B). destruct (B Zero) as (p0 & O0), (B One) as (p1 & O1). pose proof (leaf_det _ _ _ _ _ _ _ _ _ _ _ _ LF PZ LZ O0 O1). discriminate. }
    assert (TP : tp (X i ++ [d])).
    { split; [exists (X i), d; split; [reflexivity|exact (node_string t m shift max_order trk text lo hi tr L0 LT f free X C i n F)]|]. intros z B S. apply starts_prefix in S. exact (NB z B S). }
    constructor.
    - constructor; [|constructor]. cbn [line_of]. split; [exact TP|]. split; [exact (chain_below _ _ CH)|]. destruct LF as (q & ((Q & PQ) & LA) & EC & _).
      exists (q - lo). rewrite (win_size _ _ _ _ _ _ W). split; [lia|]. rewrite (spot_adr m shift M text lo hi tr W) by lia. split; [exact EC|]. rewrite (tail_sufx text lo hi L0) by lia.
      split; [now apply starts_prefix|]. intros k K S. apply starts_prefix in S. replace k with (k + lo - lo) in S by lia. rewrite (tail_sufx text lo hi L0) in S by lia.
      assert (KH : k + lo <= hi) by (pose proof (prefix_len _ _ S) as LN; rewrite snoc_len, sufx_len in LN by lia; pose proof (zlen_nonneg (X i)); lia).
      assert (KL : lo <= k + lo) by lia. pose proof (LA (k + lo) (conj (conj KL KH) S)). lia.
    - constructor; constructor.
    - intros x [<-|[]]. apply prefix_refl.
    - intros x B PX. now elim (NB x B).
    - intros x ((y & e & -> & B) & NX) PX. left. destruct (Z.le_gt_cases (zlen (y ++ [e])) (zlen (X i ++ [d]))) as [L|L]; [apply prefix_eq; [exact PX|exact L]|].
      exfalso. rewrite !snoc_len in L. apply (NB y B). eapply prefix_both; [exact PX|apply prefix_app|rewrite snoc_len; lia].
    - constructor.
    - intros k [].
  Qed.

  Lemma both_listed i n rec ls ll rs rl anc :
    f i = Some n -> chain anc (X i) -> rec = rb_last_7_bits (nd_recent n) ->
    listed (X i ++ [Zero]) ls ll -> listed (X i ++ [One]) rs rl ->
    listed (X i) (X i :: ls ++ rs) (NodeLine (zlen anc) (nd_text_start n) (nd_depth n) rec (nd_left_count n) (nd_right_count n) i :: ll ++ rl).
  Proof.
    intros F CH -> LL RR. pose proof (node_string t m shift max_order trk text lo hi tr L0 LT f free X C i n F) as BI.
    destruct (node_described t m shift max_order trk ALL M text lo hi tr L0 LT W f free X C i n F) as (DE & TS & older & ZO & H).
    assert (PL : forall x, In x ls -> prefix (X i ++ [Zero]) x) by apply (ls_pre _ _ _ LL).
    assert (PR : forall x, In x rs -> prefix (X i ++ [One]) x) by apply (ls_pre _ _ _ RR).
    assert (SPL : forall x, prefix (X i) x -> x = X i \/ prefix (X i ++ [Zero]) x \/ prefix (X i ++ [One]) x).
    { intros x PX. destruct (Z.le_gt_cases (zlen x) (zlen (X i))) as [L|L]; [left; symmetry; now apply prefix_eq|right].
      destruct (prefix_next _ _ PX L) as ([|] & PD); [right|left]; exact PD. }
    constructor.
    - constructor; [|apply Forall2_app; [exact (ls_line _ _ _ LL)|exact (ls_line _ _ _ RR)]]. cbn [line_of]. split; [exact BI|]. split; [exact (chain_below _ _ CH)|]. split; [exact DE|]. split; [exact TS|].
      exists older. split; [exact ZO|]. cbv zeta in H |- *. destruct H as (A1 & A2 & _ & A3 & _). split; [exact A1|]. split; [exact A2|]. exact (recent_shown _ _ A3).
    - constructor.
      + apply Forall_forall. intros x I. left. apply strict_prefix. apply in_app_or in I.
        assert (exists e, prefix (X i ++ [e]) x) as (e & PX) by (destruct I as [I|I]; [exists Zero; now apply PL|exists One; now apply PR]).
        split; [exact (prefix_drop _ _ _ PX)|]. apply prefix_len in PX. rewrite snoc_len in PX. lia.
      + apply pairs_app; [exact (ls_sort _ _ _ LL)|exact (ls_sort _ _ _ RR)|]. intros x y I J. right. exists (X i). split; apply starts_prefix; [now apply PL|now apply PR].
    - intros x [<-|I]; [apply prefix_refl|]. apply in_app_or in I. destruct I as [I|I]; [exact (prefix_drop _ _ _ (PL x I))|exact (prefix_drop _ _ _ (PR x I))].
    - intros x B PX. destruct (SPL x PX) as [->|[H1|H1]]; [now left|right; apply in_or_app; left; exact (ls_br _ _ _ LL x B H1)|right; apply in_or_app; right; exact (ls_br _ _ _ RR x B H1)].
    - intros x B PX. destruct (SPL x PX) as [->|[H1|H1]]; [now left|right; apply in_or_app; left; exact (ls_tip _ _ _ LL x B H1)|right; apply in_or_app; right; exact (ls_tip _ _ _ RR x B H1)].
    - unfold node_numbers. cbn [flat_map]. rewrite flat_map_app. fold (node_numbers ll) (node_numbers rl). cbn [app].
      assert (NI : ~ In i (node_numbers ll ++ node_numbers rl)).
      { intros I. apply in_app_or in I. destruct I as [I|I]; [apply (ls_at _ _ _ LL) in I|apply (ls_at _ _ _ RR) in I]; destruct I as (_ & I); apply prefix_len in I; rewrite snoc_len in I; lia. }
      constructor; [exact NI|]. pose proof (ls_num _ _ _ LL) as N1. pose proof (ls_num _ _ _ RR) as N2.
      assert (DJ : forall k, In k (node_numbers ll) -> ~ In k (node_numbers rl)).
      { intros k I J. apply (ls_at _ _ _ LL) in I. apply (ls_at _ _ _ RR) in J. pose proof (prefix_snoc_det _ _ _ _ (proj2 I) (proj2 J)). discriminate. }
      clear - N1 N2 DJ. induction N1 as [|a l NA N1 IH]; [exact N2|]. cbn [app]. constructor; [|apply IH; intros k K; apply DJ; now right].
      intros I. apply in_app_or in I. destruct I as [I|I]; [now apply NA|]. apply (DJ a); [now left|exact I].
    - intros k. unfold node_numbers. cbn [flat_map]. rewrite flat_map_app. fold (node_numbers ll) (node_numbers rl). cbn [app In]. intros [<-|I]; [split; [congruence|apply prefix_refl]|].
      apply in_app_or in I. destruct I as [I|I]; [apply (ls_at _ _ _ LL) in I|apply (ls_at _ _ _ RR) in I]; destruct I as (I1 & I2); (split; [exact I1|exact (prefix_drop _ _ _ I2)]).
  Qed.

  (** The listing at [s] instead of at the longer string of its node: nothing else begins with [s]. *)
  Lemma listed_up s j strings lines : nat_at s j -> (forall x, tp x -> prefix s x -> prefix (X j) x) -> listed (X j) strings lines -> listed s strings lines.
  Proof.
    intros NJ TU L. pose proof NJ as (n & q & _ & _ & _ & PS & _). destruct L as [A B E F1 G H I]. constructor; auto.
    - intros x J. exact (prefix_trans _ _ _ PS (E x J)).
    - intros x J K. apply F1; [exact J|]. exact (br_under s j x NJ J K).
    - intros k K. destruct (I k K) as (I1 & I2). split; [exact I1|exact (prefix_trans _ _ _ PS I2)].
  Qed.
  (** A tip that begins with [s], where the branching string before its last bit does, too. *)
  Lemma tip_under s j x : nat_at s j -> tp x -> prefix s x -> ~ (exists y d, x = y ++ [d] /\ x = s) -> prefix (X j) x.
  Proof.
    intros NJ ((y & d & -> & B) & _) PS NE. destruct (Z.le_gt_cases (zlen s) (zlen y)) as [L|L].
    - eapply prefix_trans; [|apply prefix_app]. apply (br_under s j y NJ B). eapply prefix_both; [exact PS|apply prefix_app|exact L].
    - exfalso. apply NE. exists y, d. split; [reflexivity|]. symmetry. apply prefix_eq; [exact PS|rewrite snoc_len; lia].
  Qed.
  Lemma show_listed fuel : forall s i n anc, nat_at s i -> f i = Some n -> (forall x, tp x -> prefix s x -> prefix (X i) x) -> chain anc s ->
    (length (ns_items (tr_nodes tr)) <= fuel + length anc)%nat ->
    exists strings lines, show_node (tr_nodes tr) fuel i (zlen anc) = Ok lines /\ listed s strings lines.
  Proof.
    assert (SLOT : forall i n, f i = Some n -> In i (zseq 0 (length (ns_items (tr_nodes tr))))).
    { intros i n F. destruct (st_live _ _ _ ST i n F) as (ZN & _). apply znth_Some in ZN. apply zseq_In. unfold zlen in ZN. lia. }
    induction fuel as [|fuel IH]; intros s i n anc NI F TU CH FU; pose proof (chain_node s i anc NI CH) as CI.
    - exfalso. destruct CI as (ND & LV & IN). assert (ND' : NoDup (i :: anc)).
      { constructor; [|exact ND]. intros I. assert (J : In (X i) (map X anc)) by now apply in_map. apply IN in J. lia. }
      assert (LE : (length (i :: anc) <= length (zseq 0 (length (ns_items (tr_nodes tr)))))%nat).
      { apply NoDup_incl_length; [exact ND'|]. intros k [<-|I]; [exact (SLOT i n F)|]. apply LV in I. destruct (f k) as [n'|] eqn:FK; [|congruence]. exact (SLOT k n' FK). }
      rewrite zseq_length in LE. cbn [length] in LE. lia.
    - cbn [show_node]. rewrite (stock_get _ _ _ _ _ ST F). cbn [bind]. destruct (st_live _ _ _ ST i n F) as (_ & V). rewrite V. cbn [assert_ bind].
      pose proof (pt_depth _ _ _ _ _ _ _ P i n F) as (DE & DD).
      assert (ZA : zlen anc <= zlen (X i)).
      { destruct CI as (ND & LV & IN). clear - ND LV IN DD P. 
        assert (H : NoDup (map (fun k => zlen (X k)) anc)).
        { pose proof (strings_nodup anc ND LV) as NS. assert (PR : forall a b, In a (map X anc) -> In b (map X anc) -> zlen a = zlen b -> a = b).
          { intros a b A B E. apply IN in A, B. apply prefix_eq; [|lia]. eapply prefix_both; [apply A|apply B|lia]. }
          rewrite <- map_map with (f := X) (g := @zlen bit). revert NS PR. generalize (map X anc). intros l NS. induction NS as [|a l NA NS IHl]; intros PR; [constructor|]. cbn [map]. constructor.
          - intros I. apply in_map_iff in I. destruct I as (b & E & I). apply NA. rewrite <- (PR b a); [exact I|now right|now left|exact E].
          - apply IHl. intros a' b' A B. apply PR; now right. }
        assert (LE : (length (map (fun k => zlen (X k)) anc) <= length (zseq 0 (Z.to_nat (zlen (X i)))))%nat).
        { apply NoDup_incl_length; [exact H|]. intros k K. apply in_map_iff in K. destruct K as (a & <- & A). assert (J : In (X a) (map X anc)) by now apply in_map. apply IN in J. apply zseq_In. pose proof (zlen_nonneg (X a)). lia. }
        rewrite map_length, zseq_length in LE. unfold zlen in *. lia. }
      assert (CHILD : forall d, exists strings lines, show_child (show_node (tr_nodes tr) fuel) (nd_child n d) (zlen anc) = Ok lines /\ listed (X i ++ [d]) strings lines).
      { intros d. unfold show_child. rewrite add_ok by (pose proof (zlen_nonneg anc); cbn [usize imin imax]; ib; lia). cbn [bind]. pose proof (chain_child i n d anc F CI) as CC.
        replace (zlen anc + 1) with (zlen (i :: anc)) by (rewrite zlen_cons; lia).
        destruct (pt_child _ _ _ _ _ _ _ P i n d F) as [(C0 & LF)|(j & J & E & NJ)].
        - unfold child_is_node_index, child_to_window_index. replace (nd_child n d <? 0) with false by lia. rewrite assert_true by lia. cbn [bind].
          exists [X i ++ [d]], [LeafLine (zlen (i :: anc)) (nd_child n d)]. split; [reflexivity|]. now apply (leaf_listed i n d).
        - unfold child_is_node_index, child_to_node_index. rewrite E. replace (- j - 1 <? 0) with true by lia. cbn [assert_ bind]. replace (- (- j - 1) - 1) with j by lia.
          pose proof NJ as (nj & q & FJ & _ & _ & PJ & _).
          apply (IH (X i ++ [d]) j nj (i :: anc) NJ FJ); [|exact CC|cbn [length]; lia].
          intros x T PX. apply (tip_under _ j x NJ T PX). intros (y & e & -> & EY). destruct T as (_ & NT). apply (NT (X j)); [exact (node_string t m shift max_order trk text lo hi tr L0 LT f free X C j nj FJ)|]. apply starts_prefix. rewrite EY. exact PJ. }
      destruct (CHILD Zero) as (ls & ll & EL & LL). destruct (CHILD One) as (rs & rl & ER & LR). fold Zero One. rewrite EL. cbn [bind]. rewrite ER. cbn [bind].
      eexists. eexists. split; [reflexivity|]. apply (listed_up s i); [exact NI|exact TU|]. now apply (both_listed i n _ ls ll rs rl anc).
  Qed.
  Lemma shown : tr_proper tr = true -> exists lines, show_tree tr = Ok lines /\ listing lo max_order (tr_window tr) txt lines.
  Proof.
    intros TP. destruct (tk_root _ _ _ _ _ _ _ TR) as (r & q & F0 & RT). pose proof (tk_root _ _ _ _ _ _ _ TR) as NR.
    destruct (show_listed (length (ns_items (tr_nodes tr))) [] 0 r [] NR F0) as (strings & lines & E & L).
    - intros x T PX. apply (tip_under [] 0 x NR T PX). intros (y & e & -> & H). destruct y; discriminate.
    - split; [constructor|]. split; [intros i []|]. intros y. split; [intros []|]. intros (_ & _ & H). rewrite zlen_nil in H. pose proof (zlen_nonneg y). lia.
    - cbn [length]. lia.
    - exists lines. unfold show_tree. rewrite TP. split; [exact E|]. right. exists strings. destruct L as [A B E1 F1 G H I]. split; [exact A|]. split; [exact B|]. split; [|exact H].
      intros x. split; [|intros [K|K]; [apply F1; [exact K|apply prefix_nil]|apply G; [exact K|apply prefix_nil]]].
      clear - A. intros K. induction A as [|a l al ll R A IH]; [destruct K|]. destruct K as [<-|K]; [|now apply IH]. destruct l; cbn [line_of] in R; [contradiction| |]; tauto.
  Qed.
End Show.

Lemma tree_listed t max max_order shift input :
  luts_new = Ok t -> 0 < max <= 2 ^ 31 -> 0 <= shift < max -> 0 <= max_order /\ 8 * max_order + 7 < 2 ^ 16 -> supplied max max_order input ->
  exists s lines, tree_after t max max_order shift input = Ok s /\ show_tree (ts_tree s) = Ok lines /\
    listing (forgotten max (map fst input)) max_order (tr_window (ts_tree s)) (in_window max (map fst input)) lines.
Proof.
  intros LU M SH MO SU. destruct (tree_sized t max max_order shift input LU M SH MO SU) as (s' & E' & (TB & _)).
  destruct (reached t max shift max_order LU M SH MO input SU) as (s & E & R). rewrite E in E'. injection E' as <-. exists s. pose proof (all_of t LU) as ALL. clear LU SU.
  destruct R as (L & SM & SB & W & G). set (text := map fst input) in *. rewrite in_window_sufx in *. change (forgotten max text) with (lowest max text (zlen text / 8)) in *. pose proof (low max M text) as L0. set (lo := lowest max text (zlen text / 8)) in *.
  unfold grown in G. destruct (tr_proper (ts_tree s)) eqn:TP.
  - destruct G as (f & free & X & CO & _).
    destruct (shown t max shift max_order _ ALL M text lo _ (ts_tree s) ltac:(lia) L0 eq_refl W f free X CO TP) as (lines & SE & LS). exists lines. auto.
  - exists [EmptyTree]. split; [exact E|]. unfold show_tree. rewrite TP. split; [reflexivity|]. left. split; [reflexivity|]. intros x B. assert (false = true) by (apply TB; now exists x). discriminate.
Qed.
