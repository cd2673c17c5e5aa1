(** Where a string stands in a trie, and how that changes with the trie. *)
From Coq Require Import ZifyBool.
From Verif Require Import Base BaseFacts StatesModel NodesModel NodesProofs TrieProofs.
Ltac Zify.zify_post_hook ::= Z.div_mod_to_equations.

(** In the leaf at [v] in direction [d]; below that edge, which has become one to a node; on the edge to [y] or at it. *)
Definition at_leaf (f : Z -> option node) (X : Z -> list bit) x v d : Prop := exists n, f v = Some n /\ 0 <= nd_child n d /\ prefix (X v ++ [d]) x.
Definition at_stale (f : Z -> option node) (X : Z -> list bit) x v d : Prop :=
  exists n j, f v = Some n /\ 0 < j /\ nd_child n d = - j - 1 /\ prefix (X v ++ [d]) x /\ prefix x (X j).
Definition at_node (f : Z -> option node) (X : Z -> list bit) x y : Prop := (exists n, f y = Some n) /\ first_below f X x y.
(** The string [q] is the last before [r] that begins like [r]. *)
Definition prev (suf : Z -> list bit) lo r q : Prop := lo <= q < r /\ prefix (suf r) (suf q) /\ forall k, q < k < r -> ~ prefix (suf r) (suf k).

Lemma prev_unique suf lo r q q' : prev suf lo r q -> prev suf lo r q' -> q = q'.
Proof.
  intros (R & P & L) (R' & P' & L'). destruct (Z.lt_trichotomy q q') as [LT|[E|LT]]; [|exact E|]; exfalso; [apply (L q')|apply (L' q)]; auto; lia.
Qed.

Section Contexts.
  Variables (addr : Z -> Z) (D : Z) (suf : Z -> list bit) (lo hi : Z) (f : Z -> option node) (X : Z -> list bit).
  Notation trie := (trie addr D). Notation part := (part addr D).

  Lemma at_node_leaf (P : part suf lo hi f X) x v d n : f v = Some n -> at_node f X x v -> prefix (X v ++ [d]) x -> False.
  Proof. intros F (_ & (PX & _)) PS. apply prefix_len in PX, PS. rewrite snoc_len in PS. lia. Qed.
  (** A stale place stands at the node now there. *)
  Lemma stale_node (T : trie suf lo hi f X) x v d : at_stale f X x v d -> exists n j, f v = Some n /\ 0 < j /\ nd_child n d = - j - 1 /\ at_node f X x j.
  Proof.
    intros (n & j & F & J & C & PS & PX). assert (P := tk_part _ _ _ _ _ _ _ T). exists n, j. split; [exact F|]. split; [exact J|]. split; [exact C|].
    destruct (pt_child _ _ _ _ _ _ _ P v n d F) as [(C0 & _)|(j' & J' & C' & NA)]; [lia|]. replace j' with j in NA by lia.
    pose proof NA as (nj & m & FJ & _). split; [eauto|]. split; [exact PX|]. intros i k FI PI. apply (node_first _ _ _ _ _ _ _ P _ _ _ _ NA FI).
    exact (prefix_trans _ _ _ PS PI).
  Qed.
  Lemma at_node_unique (P : part suf lo hi f X) x y y' : at_node f X x y -> at_node f X x y' -> y = y'.
  Proof.
    intros ((n & F) & (PX & L)) ((n' & F') & (PX' & L')). apply (pt_inj _ _ _ _ _ _ _ P _ _ _ _ F F'). apply prefix_eq; [now apply (L y' n')|]. apply prefix_len. now apply (L' y n).
  Qed.

  (** *** Only the shape matters *)
  Section Shape.
    Variable f' : Z -> option node.
    Hypothesis S1 : forall i n, f i = Some n -> exists n', f' i = Some n' /\ forall a, nd_child n' a = nd_child n a \/ (0 <= nd_child n a /\ 0 <= nd_child n' a).
    Hypothesis S2 : forall i n', f' i = Some n' -> exists n, f i = Some n.
    Lemma shape_leaf x v d : at_leaf f X x v d -> at_leaf f' X x v d.
    Proof. intros (n & F & C & P). destruct (S1 v n F) as (n' & F' & SH). exists n'. split; [exact F'|]. split; [|exact P]. destruct (SH d) as [->|(_ & ?)]; assumption. Qed.
    Lemma shape_stale x v d : at_stale f X x v d -> at_stale f' X x v d.
    Proof.
      intros (n & j & F & J & C & P & Q). destruct (S1 v n F) as (n' & F' & SH). exists n', j. split; [exact F'|]. split; [exact J|]. split; [|split; assumption].
      destruct (SH d) as [->|(? & _)]; [exact C|lia].
    Qed.
    Lemma shape_node x y : at_node f X x y -> at_node f' X x y.
    Proof.
      intros ((n & F) & (PX & L)). destruct (S1 y n F) as (n' & F' & _). split; [eauto|]. split; [exact PX|]. intros i k FI. destruct (S2 i k FI) as (k0 & FK). now apply L with k0.
    Qed.
  End Shape.

  (** *** A leaf is split *)
  Section SplitLeaf.
    Variables (f' : Z -> option node) (v j : Z) (nv nv' nj : node) (d : bit) (s : list bit).
    Hypothesis T : trie suf lo hi f X.
    Hypothesis FV : f v = Some nv. Hypothesis C0 : 0 <= nd_child nv d. Hypothesis PS : prefix (X v ++ [d]) s.
    Hypothesis FJ : f j = None. Hypothesis J : 0 < j.
    Hypothesis FV' : f' v = Some nv'. Hypothesis EC : nd_child nv' d = - j - 1. Hypothesis EN : nd_child nv' (negb d) = nd_child nv (negb d).
    Hypothesis FJ' : f' j = Some nj. Hypothesis OT : forall k, k <> v -> k <> j -> f' k = f k.
    Let X' := xupd X j s.
    Lemma sl_X k n : f k = Some n -> X' k = X k.
    Proof. intros F. unfold X', xupd. destruct (Z.eqb_spec k j); [congruence|reflexivity]. Qed.
    Lemma split_leaf_leaf x k a : at_leaf f X x k a -> (prefix (X v ++ [d]) x -> prefix x s) -> at_leaf f' X' x k a \/ at_stale f' X' x k a.
    Proof.
      intros (n & F & C & P) HX. assert (KJ : k <> j) by congruence. destruct (Z.eq_dec k v) as [E|NK].
      - subst k. rewrite FV in F. injection F as <-. destruct (Bool.bool_dec a d) as [->|NA].
        + right. exists nv', j. rewrite (sl_X v nv FV). assert (XJ : X' j = s) by (unfold X', xupd; now rewrite Z.eqb_refl). rewrite XJ. auto 6.
        + left. exists nv'. rewrite (sl_X v nv FV). split; [exact FV'|]. split; [|exact P]. rewrite (negb_other _ _ NA) in *. now rewrite EN.
      - left. exists n. rewrite (sl_X k n F). rewrite OT by assumption. auto.
    Qed.
    Lemma split_leaf_stale x k a : at_stale f X x k a -> at_stale f' X' x k a.
    Proof.
      intros (n & i & F & I & C & P & Q). assert (KJ : k <> j) by congruence.
      assert (IJ : i <> j). { intros ->. destruct (pt_child _ _ _ _ _ _ _ (tk_part _ _ _ _ _ _ _ T) k n a F) as [(C1 & _)|(j' & J' & C' & (nj' & m & FJ2 & _))]; [lia|]. replace j' with j in FJ2 by lia. congruence. }
      assert (XI : X' i = X i) by (unfold X', xupd; now destruct (Z.eqb_spec i j)).
      destruct (Z.eq_dec k v) as [E|NK].
      - subst k. rewrite FV in F. injection F as <-. assert (NA : a <> d) by (intros ->; lia). exists nv', i. rewrite (sl_X v nv FV), XI. rewrite (negb_other _ _ NA) in *. rewrite EN. auto 6.
      - exists n, i. rewrite (sl_X k n F), XI. rewrite OT by assumption. auto 6.
    Qed.
    Lemma split_leaf_node x y : at_node f X x y -> at_node f' X' x y.
    Proof.
      intros ((n & F) & (PX & L)). assert (P := tk_part _ _ _ _ _ _ _ T). rewrite <- (sl_X y n F) in PX. assert (YJ : y <> j) by congruence. split.
      - destruct (Z.eq_dec y v) as [->|NY]; [eauto|]. exists n. now rewrite OT.
      - split; [exact PX|]. rewrite (sl_X y n F) in *. intros i k FI. destruct (Z.eq_dec i j) as [->|NI].
        + unfold X', xupd. rewrite Z.eqb_refl. intros PI. destruct (Z.le_gt_cases (zlen x) (zlen (X v))) as [LE|GT].
          * pose proof (L v nv FV (prefix_both _ _ _ PI (prefix_drop _ _ _ PS) LE)) as Q. exact (prefix_trans _ _ _ Q (prefix_drop _ _ _ PS)).
          * exfalso. assert (Q : prefix (X v ++ [d]) x) by (eapply prefix_both; [exact PS|exact PI|rewrite snoc_len; lia]).
            destruct (pt_child _ _ _ _ _ _ _ P v nv d FV) as [(_ & LF)|(j' & J' & C' & _)]; [|lia]. exact (leaf_no_node _ _ _ _ _ _ _ P _ _ _ _ LF F (prefix_trans _ _ _ Q PX)).
        + assert (exists k0, f i = Some k0) as (k0 & FK) by (destruct (Z.eq_dec i v) as [->|NV]; [eauto|rewrite OT in FI by assumption; eauto]).
          rewrite (sl_X i k0 FK). now apply (L i k0).
    Qed.
  End SplitLeaf.

  (** *** An edge between nodes is split *)
  Section SplitNode.
    Variables (f' : Z -> option node) (w j : Z) (nw nw' nj : node) (s : list bit).
    Hypothesis T : trie suf lo hi f X.
    Hypothesis FW : f w = Some nw. Hypothesis FB : first_below f X s w. Hypothesis LW : zlen s < zlen (X w).
    Hypothesis FJ : f j = None. Hypothesis J : 0 < j.
    Hypothesis FW' : f' w = Some nw'. Hypothesis FJ' : f' j = Some nj. Hypothesis OT : forall k, k <> w -> k <> j -> f' k = f k.
    Let X' := xupd (xupd X w s) j (X w).
    Lemma sn_w : X' w = s.
    Proof. unfold X', xupd. destruct (Z.eqb_spec w j); [congruence|]. now rewrite Z.eqb_refl. Qed.
    Lemma sn_j : X' j = X w. Proof. unfold X', xupd. now rewrite Z.eqb_refl. Qed.
    Lemma sn_o k n : f k = Some n -> k <> w -> X' k = X k.
    Proof. intros F N. unfold X', xupd. destruct (Z.eqb_spec k j); [congruence|]. now destruct (Z.eqb_spec k w). Qed.
    Lemma split_node_leaf x k a : zlen x < zlen s -> at_leaf f X x k a -> at_leaf f' X' x k a.
    Proof.
      intros LX (n & F & C & P). assert (KJ : k <> j) by congruence. destruct (Z.eq_dec k w) as [E|NK].
      - exfalso. subst k. apply prefix_len in P. rewrite snoc_len in P. lia.
      - exists n. rewrite (sn_o k n F NK). rewrite OT by assumption. auto.
    Qed.
    Lemma split_node_stale x k a : zlen x < zlen s -> at_stale f X x k a -> at_stale f' X' x k a.
    Proof.
      intros LX (n & i & F & I & C & P & Q). assert (KJ : k <> j) by congruence. destruct (Z.eq_dec k w) as [E|NK].
      - exfalso. subst k. apply prefix_len in P. rewrite snoc_len in P. lia.
      - exists n, i. rewrite (sn_o k n F NK). rewrite OT by assumption. split; [exact F|]. split; [exact I|]. split; [exact C|]. split; [exact P|].
        destruct (pt_child _ _ _ _ _ _ _ (tk_part _ _ _ _ _ _ _ T) k n a F) as [(C1 & _)|(j' & J' & C' & (ni & m & FI & _))]; [lia|]. replace j' with i in FI by lia.
        destruct (Z.eq_dec i w) as [->|NI]; [|now rewrite (sn_o i ni FI NI)]. rewrite sn_w. eapply prefix_both; [exact Q|exact (proj1 FB)|lia].
    Qed.
    Lemma split_node_node x y : zlen x < zlen s -> at_node f X x y -> at_node f' X' x y.
    Proof.
      intros LX ((n & F) & (PX & L)). assert (P := tk_part _ _ _ _ _ _ _ T). assert (YJ : y <> j) by congruence.
      assert (G : forall i k, f' i = Some k -> i <> w -> i <> j -> f i = Some k) by (intros i k FI N1 N2; now rewrite OT in FI).
      destruct (Z.eq_dec y w) as [E|NY].
      - subst y. split; [eauto|]. split; [rewrite sn_w; eapply prefix_both; [exact PX|exact (proj1 FB)|lia]|]. intros i k FI PI. rewrite sn_w.
        destruct (Z.eq_dec i w) as [->|N1]; [rewrite sn_w; apply prefix_refl|]. destruct (Z.eq_dec i j) as [->|N2]; [rewrite sn_j; exact (proj1 FB)|].
        specialize (G i k FI N1 N2). rewrite (sn_o i k G N1) in *. exact (prefix_trans _ _ _ (proj1 FB) (L i k G PI)).
      - split; [exists n; now rewrite OT|]. rewrite <- (sn_o y n F NY) in PX. split; [exact PX|]. rewrite (sn_o y n F NY) in *. intros i k FI PI.
        destruct (Z.eq_dec i w) as [->|N1].
        + rewrite sn_w in *. pose proof (L w nw FW (prefix_trans _ _ _ PI (proj1 FB))) as Q. destruct (Z.le_gt_cases (zlen (X y)) (zlen s)) as [LE|GT].
          * eapply prefix_both; [exact Q|exact (proj1 FB)|exact LE].
          * exfalso. apply NY. apply (pt_inj _ _ _ _ _ _ _ P _ _ _ _ F FW). apply prefix_eq; [exact Q|]. apply prefix_len. apply (proj2 FB y n F). eapply prefix_both; [exact (proj1 FB)|exact Q|lia].
        + destruct (Z.eq_dec i j) as [->|N2]; [rewrite sn_j in *; exact (L w nw FW PI)|]. specialize (G i k FI N1 N2). rewrite (sn_o i k G N1) in *. exact (L i k G PI).
    Qed.
  End SplitNode.
End Contexts.

(** ** Adding a node to a part *)
Lemma add_node addr D suf lo hi f X i n s : part addr D suf lo hi f X -> f i = None -> 0 <= i -> (forall k x, f k = Some x -> X k <> s) ->
  nd_depth n = zlen s -> zlen s < D -> (forall a, hangs addr D suf lo hi f X (s ++ [a]) (nd_child n a)) ->
  part addr D suf lo hi (fupd f i (Some n)) (xupd X i s).
Proof.
  intros P FI I NE ED LD HG.
  assert (LV : forall k x, fupd f i (Some n) k = Some x -> (k = i /\ x = n) \/ (k <> i /\ f k = Some x)).
  { intros k x F. destruct (Z.eq_dec k i) as [->|N]; [rewrite fupd_same in F; injection F as <-; auto|]. rewrite fupd_other in F by exact N. auto. }
  assert (HM : forall x c, hangs addr D suf lo hi f X x c -> hangs addr D suf lo hi (fupd f i (Some n)) (xupd X i s) x c).
  { intros x c [H|(j & J & C & nj & m & FJ & L & TS & PX & CJ)]; [now left|]. right. exists j. split; [exact J|]. split; [exact C|].
    assert (N : j <> i) by congruence. exists nj, m. rewrite fupd_other by exact N. unfold xupd. rewrite (proj2 (Z.eqb_neq j i) N). auto. }
  assert (XS : xupd X i s i = s) by (unfold xupd; now rewrite Z.eqb_refl).
  assert (XO : forall k, k <> i -> xupd X i s k = X k) by (intros k N; unfold xupd; now rewrite (proj2 (Z.eqb_neq k i) N)).
  split.
  - intros k x F. destruct (LV k x F) as [(-> & _)|(_ & F')]; [exact I|]. exact (pt_index _ _ _ _ _ _ _ P k x F').
  - intros k x F. destruct (LV k x F) as [(-> & ->)|(N & F')]; [rewrite XS; auto|]. rewrite XO by exact N. exact (pt_depth _ _ _ _ _ _ _ P k x F').
  - intros k x a F. destruct (LV k x F) as [(-> & ->)|(N & F')]; [rewrite XS; apply HM, HG|]. rewrite XO by exact N. apply HM. exact (pt_child _ _ _ _ _ _ _ P k x a F').
  - intros k l x y F G E. destruct (LV k x F) as [(-> & ->)|(N & F')], (LV l y G) as [(-> & ->)|(N' & G')]; rewrite ?XS, ?(XO _ N), ?(XO _ N') in E.
    + reflexivity.
    + exfalso. exact (NE _ _ G' (eq_sym E)).
    + exfalso. exact (NE _ _ F' E).
    + exact (pt_inj _ _ _ _ _ _ _ P _ _ _ _ F' G' E).
Qed.
