(** Tries of a family of strings given by their prefixes known so far, kept as linked nodes. *)
From Coq Require Import ZifyBool.
From Verif Require Import Base BaseFacts StatesModel NodesModel NodesProofs.
Ltac Zify.zify_post_hook ::= Z.div_mod_to_equations.

(** ** Prefixes *)
Definition prefix (a b : list bit) : Prop := exists r, b = a ++ r.
Definition compat (a b : list bit) : Prop := prefix a b \/ prefix b a.
Definition cut (n : Z) (a : list bit) : list bit := firstn (Z.to_nat n) a.
Lemma zlen_one {A} (x : A) : zlen [x] = 1. Proof. reflexivity. Qed.
Lemma zlen_nil {A} : zlen (@nil A) = 0. Proof. reflexivity. Qed.
Lemma prefix_refl a : prefix a a. Proof. exists []. now rewrite app_nil_r. Qed.
Lemma prefix_nil a : prefix [] a. Proof. now exists a. Qed.
Lemma prefix_app a b : prefix a (a ++ b). Proof. now exists b. Qed.
Lemma prefix_trans a b c : prefix a b -> prefix b c -> prefix a c.
Proof. intros [r ->] [q ->]. exists (r ++ q). now rewrite app_assoc. Qed.
Lemma prefix_len a b : prefix a b -> zlen a <= zlen b.
Proof. intros [r ->]. rewrite zlen_app. pose proof (zlen_nonneg r). lia. Qed.
Lemma prefix_eq a b : prefix a b -> zlen b <= zlen a -> a = b.
Proof.
  intros [r ->] L. rewrite zlen_app in L. destruct r as [|x r]; [now rewrite app_nil_r|]. rewrite zlen_cons in L. pose proof (zlen_nonneg r). lia.
Qed.
Lemma prefix_firstn a b : prefix a b <-> firstn (length a) b = a.
Proof.
  split.
  - intros [r ->]. rewrite firstn_app, Nat.sub_diag, firstn_all. apply app_nil_r.
  - intros E. exists (skipn (length a) b). rewrite <- E at 1. symmetry. apply firstn_skipn.
Qed.
Lemma prefix_both a b c : prefix a c -> prefix b c -> zlen a <= zlen b -> prefix a b.
Proof.
  rewrite !prefix_firstn. unfold zlen. intros A B L. rewrite <- B at 1. rewrite firstn_firstn. now replace (Nat.min (length a) (length b)) with (length a) by lia.
Qed.
Lemma prefix_compare a b c : prefix a c -> prefix b c -> prefix a b \/ prefix b a.
Proof. intros A B. destruct (Z.le_gt_cases (zlen a) (zlen b)); [left|right]; eapply prefix_both; eauto; lia. Qed.
Lemma prefix_snoc_inv a b x : prefix a (b ++ [x]) -> a = b ++ [x] \/ prefix a b.
Proof.
  intros H. destruct (Z.le_gt_cases (zlen a) (zlen b)) as [L|L].
  - right. eapply prefix_both; [exact H|apply prefix_app|exact L].
  - left. apply prefix_eq; [exact H|]. rewrite zlen_app, zlen_one. lia.
Qed.
Lemma prefix_next a b : prefix a b -> zlen a < zlen b -> exists x, prefix (a ++ [x]) b.
Proof.
  intros [r ->] L. rewrite zlen_app in L. destruct r as [|x r]; [rewrite zlen_nil in L; lia|]. exists x, r. now rewrite <- app_assoc.
Qed.
Lemma prefix_snoc_det a x y c : prefix (a ++ [x]) c -> prefix (a ++ [y]) c -> x = y.
Proof. intros [r ->] [q E]. rewrite <- !app_assoc in E. apply app_inv_head in E. now injection E as <-. Qed.
Lemma prefix_drop a x c : prefix (a ++ [x]) c -> prefix a c.
Proof. apply prefix_trans. apply prefix_app. Qed.
Lemma prefix_nth a x c : prefix (a ++ [x]) c <-> prefix a c /\ zlen a < zlen c /\ nth (length a) c Zero = x.
Proof.
  split.
  - intros H. pose proof (prefix_len _ _ H) as L. rewrite zlen_app, zlen_one in L. split; [exact (prefix_drop _ _ _ H)|]. split; [lia|].
    destruct H as [r ->]. rewrite <- app_assoc. rewrite app_nth2, Nat.sub_diag by lia. reflexivity.
  - intros (P & L & N). destruct (prefix_next _ _ P L) as [y Y]. replace x with y; [exact Y|]. rewrite <- N. destruct Y as [r ->].
    rewrite <- app_assoc. rewrite app_nth2, Nat.sub_diag by lia. reflexivity.
Qed.
Lemma snoc_inj (a b : list bit) x y : a ++ [x] = b ++ [y] -> a = b /\ x = y.
Proof. apply app_inj_tail. Qed.
Lemma snoc_len (a : list bit) x : zlen (a ++ [x]) = zlen a + 1. Proof. now rewrite zlen_app, zlen_one. Qed.
Lemma cut_prefix n a : prefix (cut n a) a. Proof. exists (skipn (Z.to_nat n) a). symmetry. apply firstn_skipn. Qed.
Lemma cut_id n a : zlen a <= n -> cut n a = a. Proof. intros L. unfold cut, zlen in *. apply firstn_all2. lia. Qed.
Lemma cut_len n a : 0 <= n -> zlen (cut n a) = Z.min n (zlen a). Proof. intros L. unfold cut, zlen in *. rewrite firstn_length. lia. Qed.
Lemma prefix_cut n a b : prefix a b -> zlen a <= n -> prefix a (cut n b).
Proof.
  intros P L. eapply prefix_both; [exact P|apply cut_prefix|]. pose proof (prefix_len _ _ P). pose proof (zlen_nonneg a). rewrite cut_len by lia. lia.
Qed.
Lemma cut_snoc n a x : 0 <= n -> n <= zlen a -> cut n (a ++ [x]) = cut n a.
Proof. intros N L. unfold cut, zlen in *. rewrite firstn_app. replace (Z.to_nat n - length a)%nat with O by lia. apply app_nil_r. Qed.
Lemma compat_short a b : compat a b -> zlen a <= zlen b -> prefix a b.
Proof. intros [H|H] L; [exact H|]. rewrite (prefix_eq _ _ H L). apply prefix_refl. Qed.
Lemma compat_long a b : compat a b -> zlen b <= zlen a -> prefix b a.
Proof. intros [H|H] L; [|exact H]. rewrite (prefix_eq _ _ H L). apply prefix_refl. Qed.
Lemma compat_prefix a b c : compat a b -> prefix c b -> compat a c.
Proof. intros [H|H] P; [eapply prefix_compare; eassumption|right; eapply prefix_trans; eassumption]. Qed.
Lemma negb_neq (a : bit) : negb a <> a. Proof. now destruct a. Qed.
Lemma negb_other (x b : bit) : x <> b -> x = negb b. Proof. destruct x, b; intros H; try reflexivity; now elim H. Qed.

Section Trie.
  Variables (addr : Z -> Z) (D : Z).
  Definition occurs (suf : Z -> list bit) (lo hi : Z) (s : list bit) (p : Z) : Prop := lo <= p <= hi /\ prefix s (suf p).
  Definition latest suf lo hi s m : Prop := occurs suf lo hi s m /\ forall p, occurs suf lo hi s p -> p <= m.
  (** Later positions know less. *)
  Definition spread (suf : Z -> list bit) (lo hi : Z) : Prop := forall p q, lo <= p -> p < q -> q <= hi -> zlen (suf q) + 2 <= zlen (suf p).
  Definition leaf_at suf lo hi s c : Prop := exists m, latest suf lo hi s m /\ c = addr m /\
    forall p q, occurs suf lo hi s p -> occurs suf lo hi s q -> p < q -> prefix (cut D (suf q)) (suf p).
  Definition node_at suf lo hi (f : Z -> option node) (X : Z -> list bit) s j : Prop := exists n m, f j = Some n /\ latest suf lo hi s m /\
    nd_text_start n = addr m /\ prefix s (X j) /\ forall p, occurs suf lo hi s p -> compat (suf p) (X j).
  Definition hangs suf lo hi f X s c : Prop := (0 <= c /\ leaf_at suf lo hi s c) \/ exists j, 0 < j /\ c = - j - 1 /\ node_at suf lo hi f X s j.
  (** Nodes that hang together, and the whole with its root. *)
  Record part suf lo hi (f : Z -> option node) (X : Z -> list bit) : Prop := {
    pt_index : forall i n, f i = Some n -> 0 <= i;
    pt_depth : forall i n, f i = Some n -> nd_depth n = zlen (X i) /\ zlen (X i) < D;
    pt_child : forall i n b, f i = Some n -> hangs suf lo hi f X (X i ++ [b]) (nd_child n b);
    pt_inj : forall i j n m, f i = Some n -> f j = Some m -> X i = X j -> i = j }.
  Record trie suf lo hi f X : Prop := {
    tk_part : part suf lo hi f X;
    tk_root : node_at suf lo hi f X [] 0 }.

  Section Static.
    Variables (suf : Z -> list bit) (lo hi : Z) (f : Z -> option node) (X : Z -> list bit).
    Hypothesis T : part suf lo hi f X.
    Notation occurs := (occurs suf lo hi). Notation latest := (latest suf lo hi). Notation leaf_at := (leaf_at suf lo hi).
    Notation node_at := (node_at suf lo hi f X). Notation hangs := (hangs suf lo hi f X).

    Lemma hangs_latest s c : hangs s c -> exists m, latest s m.
    Proof. intros [(_ & m & L & _)|(j & _ & _ & n & m & _ & L & _)]; exists m; exact L. Qed.
    Lemma occurs_pre s s' p : prefix s s' -> occurs s' p -> occurs s p.
    Proof. intros P (R & O). split; [exact R|]. eapply prefix_trans; eassumption. Qed.
    Lemma node_branches i n b : f i = Some n -> exists p, occurs (X i ++ [b]) p.
    Proof. intros F. destruct (hangs_latest _ _ (pt_child _ _ _ _ _ T i n b F)) as (m & (O & _)). eauto. Qed.
    Lemma leaf_det s c y x x' p q : leaf_at s c -> prefix s y -> zlen y < D -> occurs (y ++ [x]) p -> occurs (y ++ [x']) q -> x = x'.
    Proof.
      intros (m & L & _ & PR) S LY OP OQ.
      assert (G : forall p q x x', p < q -> occurs (y ++ [x]) p -> occurs (y ++ [x']) q -> x = x').
      { clear p q x x' OP OQ. intros p q x x' LT OP OQ. assert (SP := prefix_trans _ _ _ S (prefix_app y [x])). assert (SQ := prefix_trans _ _ _ S (prefix_app y [x'])).
        specialize (PR p q (occurs_pre _ _ _ SP OP) (occurs_pre _ _ _ SQ OQ) LT).
        destruct OP as (_ & OP), OQ as (_ & OQ). eapply prefix_snoc_det; [exact OP|]. eapply prefix_trans; [|exact PR]. apply prefix_cut; [exact OQ|]. rewrite snoc_len. lia. }
      destruct (Z.lt_trichotomy p q) as [LT|[->|LT]]; [eauto| |symmetry; eauto].
      destruct OP as (_ & OP), OQ as (_ & OQ). eapply prefix_snoc_det; eassumption.
    Qed.
    Lemma leaf_no_node s c j n : leaf_at s c -> f j = Some n -> prefix s (X j) -> False.
    Proof.
      intros L F P. destruct (node_branches j n Zero F) as (p & O0), (node_branches j n One F) as (q & O1).
      destruct (pt_depth _ _ _ _ _ T j n F) as (_ & B). pose proof (leaf_det s c (X j) _ _ _ _ L P B O0 O1). discriminate.
    Qed.
    Lemma node_first s j i n : node_at s j -> f i = Some n -> prefix s (X i) -> prefix (X j) (X i).
    Proof.
      intros (nj & m & FJ & L & TS & PJ & C) F P.
      assert (G : forall b, prefix (X j) (X i) \/ prefix (X i ++ [b]) (X j)).
      { intros b. destruct (node_branches i n b F) as (p & O). pose proof (C p (occurs_pre _ _ _ (prefix_trans _ _ _ P (prefix_app _ [b])) O)) as CP.
        destruct O as (_ & O). destruct (Z.le_gt_cases (zlen (X j)) (zlen (X i))) as [LE|GT].
        - left. pose proof (prefix_len _ _ O) as LO. rewrite snoc_len in LO. eapply prefix_both; [apply (compat_long _ _ CP); lia|exact (prefix_drop _ _ _ O)|exact LE].
        - right. destruct CP as [CP|CP]; [eapply prefix_trans; eassumption|]. eapply prefix_both; [exact O|exact CP|]. rewrite snoc_len. lia. }
      destruct (G Zero) as [A|A]; [exact A|]. destruct (G One) as [B|B]; [exact B|]. pose proof (prefix_snoc_det _ _ _ _ A B). discriminate.
    Qed.
    Lemma parent_unique i n b u m d v : f i = Some n -> f u = Some m -> node_at (X i ++ [b]) v -> node_at (X u ++ [d]) v -> i = u /\ b = d.
    Proof.
      intros FI FU A B. assert (G : forall i n b u m d, f i = Some n -> f u = Some m -> node_at (X i ++ [b]) v -> node_at (X u ++ [d]) v -> zlen (X i) < zlen (X u) -> False).
      { clear i n b u m d FI FU A B. intros i n b u m d FI FU A B LT. pose proof A as (na & ma & FA & _ & _ & PA & _). pose proof B as (nb & mb & _ & _ & _ & PB & _).
        assert (P : prefix (X i ++ [b]) (X u)) by (eapply prefix_both; [exact PA|exact (prefix_drop _ _ _ PB)|rewrite snoc_len; lia]).
        pose proof (prefix_len _ _ (node_first _ _ _ _ A FU P)). pose proof (prefix_len _ _ PB). rewrite snoc_len in *. lia. }
      destruct (Z.lt_trichotomy (zlen (X i)) (zlen (X u))) as [LT|[E|LT]]; [exfalso; eauto| |exfalso; eauto].
      pose proof A as (na & ma & FA & _ & _ & PA & _). pose proof B as (nb & mb & _ & _ & _ & PB & _).
      assert (Q : X i ++ [b] = X u ++ [d]) by (apply prefix_eq; [eapply prefix_both; eauto|]; rewrite ?snoc_len; lia).
      apply snoc_inj in Q as (Q & ->). split; [|reflexivity]. exact (pt_inj _ _ _ _ _ T _ _ _ _ FI FU Q).
    Qed.
  End Static.

  Section Whole.
    Variables (suf : Z -> list bit) (lo hi : Z) (f : Z -> option node) (X : Z -> list bit).
    Hypothesis T : trie suf lo hi f X.
    Notation occurs := (occurs suf lo hi). Notation latest := (latest suf lo hi). Notation leaf_at := (leaf_at suf lo hi).
    Notation node_at := (node_at suf lo hi f X). Notation hangs := (hangs suf lo hi f X).
    Let P := tk_part _ _ _ _ _ T.

    (** Every node hangs somewhere. *)
    Lemma parent_exists v n : f v = Some n -> v <> 0 -> exists u m d, f u = Some m /\ nd_child m d = - v - 1 /\ node_at (X u ++ [d]) v.
    Proof.
      intros FV NV. assert (G : forall k u m, Z.of_nat k = zlen (X v) - zlen (X u) -> f u = Some m -> u <> v -> prefix (X u) (X v) ->
        exists u m d, f u = Some m /\ nd_child m d = - v - 1 /\ node_at (X u ++ [d]) v).
      { induction k as [k IH] using lt_wf_ind. intros u m K FU NE PR.
        assert (LT : zlen (X u) < zlen (X v)).
        { destruct (Z.le_gt_cases (zlen (X v)) (zlen (X u))) as [LE|]; [|lia]. exfalso. apply NE. eapply (pt_inj _ _ _ _ _ P); [exact FU|exact FV|]. now apply prefix_eq. }
        destruct (prefix_next _ _ PR LT) as (d & PD). pose proof (pt_child _ _ _ _ _ P u m d FU) as [(C0 & LF)|(j & J & C & NA)].
        - exfalso. exact (leaf_no_node _ _ _ _ _ P _ _ _ _ LF FV PD).
        - destruct (Z.eq_dec j v) as [->|NJ]; [exists u, m, d; auto|]. pose proof (node_first _ _ _ _ _ P _ _ _ _ NA FV PD) as PJ.
          pose proof NA as (nj & mj & FJ & _ & _ & PS & _). pose proof (prefix_len _ _ PS) as L1. rewrite snoc_len in L1. pose proof (prefix_len _ _ PJ) as L2.
          apply (IH (Z.to_nat (zlen (X v) - zlen (X j))) ltac:(lia) j nj); [lia|exact FJ|exact NJ|exact PJ]. }
      destruct (tk_root _ _ _ _ _ T) as (r & m & F0 & L & TS & _ & C).
      pose proof (node_first _ _ _ _ _ P _ _ _ _ (tk_root _ _ _ _ _ T) FV (prefix_nil _)) as PR. pose proof (prefix_len _ _ PR).
      apply (G (Z.to_nat (zlen (X v) - zlen (X 0))) 0 r); [lia|exact F0|congruence|exact PR].
    Qed.
    (** Every string of the family goes down to a leaf; here the longest. *)
    Lemma root_latest : lo <= hi -> exists r, f 0 = Some r /\ nd_text_start r = addr hi.
    Proof.
      intros LE. destruct (tk_root _ _ _ _ _ T) as (r & m & F0 & (O & L) & TS & _ & C). exists r. split; [exact F0|]. rewrite TS. f_equal.
      pose proof (L hi (conj (conj LE (Z.le_refl hi)) (prefix_nil _))). destruct O as (O & _). lia.
    Qed.
  End Whole.

  (** ** The number of nodes: each node is charged the older of the two latest positions below it. *)
  Section Count.
    Variables (suf : Z -> list bit) (lo hi : Z) (f : Z -> option node) (X : Z -> list bit).
    Hypothesis T : part suf lo hi f X.
    Notation latest := (latest suf lo hi).
    Definition charged i q : Prop := exists a b m, latest (X i ++ [a]) q /\ latest (X i ++ [b]) m /\ q < m.
    Lemma charged_exists i n : f i = Some n -> exists q, charged i q.
    Proof.
      intros F. destruct (hangs_latest _ _ _ _ _ _ _ (pt_child _ _ _ _ _ T i n Zero F)) as (q & Q), (hangs_latest _ _ _ _ _ _ _ (pt_child _ _ _ _ _ T i n One F)) as (m & M).
      destruct (Z.lt_trichotomy q m) as [LT|[->|LT]]; [exists q, Zero, One, m; auto| |exists m, One, Zero, q; auto].
      exfalso. destruct Q as ((_ & Q) & _), M as ((_ & M) & _). pose proof (prefix_snoc_det _ _ _ _ Q M). discriminate.
    Qed.
    Lemma charged_range i q : charged i q -> lo <= q < hi.
    Proof. intros (a & b & m & ((R & _) & _) & ((R' & _) & _) & LT). lia. Qed.
    Lemma charged_inj i j n m q : f i = Some n -> f j = Some m -> charged i q -> charged j q -> i = j.
    Proof.
      intros FI FJ CI CJ.
      assert (G : forall i j q, charged i q -> charged j q -> zlen (X i) < zlen (X j) -> False).
      { clear. intros i j q (a & _ & _ & (QA & LA) & _ & _) (c & d & m & (QC & _) & (MD & _) & LT) L.
        assert (P : prefix (X i ++ [a]) (X j)) by (eapply prefix_both; [exact (proj2 QA)|exact (prefix_drop _ _ _ (proj2 QC))|rewrite snoc_len; lia]).
        specialize (LA m (occurs_pre _ _ _ _ _ _ (prefix_trans _ _ _ P (prefix_app _ [d])) MD)). lia. }
      destruct (Z.lt_trichotomy (zlen (X i)) (zlen (X j))) as [LT|[E|LT]]; [exfalso; eauto| |exfalso; eauto].
      destruct CI as (a & _ & _ & ((_ & QA) & _) & _ & _), CJ as (c & _ & _ & ((_ & QC) & _) & _ & _).
      apply (pt_inj _ _ _ _ _ T _ _ _ _ FI FJ). apply prefix_eq; [|lia]. eapply prefix_both; [exact (prefix_drop _ _ _ QA)|exact (prefix_drop _ _ _ QC)|lia].
    Qed.
    Lemma few_nodes (l : list Z) : NoDup l -> Forall (fun i => f i <> None) l -> lo <= hi -> zlen l <= hi - lo.
    Proof.
      intros ND FA LE.
      assert (G : exists l', length l' = length l /\ NoDup l' /\ Forall2 charged l l').
      { clear LE. induction l as [|i l IH]; [exists []; repeat split; constructor|].
        inversion ND as [|? ? NI ND']; subst. inversion FA as [|? ? FI FA']; subst. destruct (IH ND' FA') as (l' & LL & NL & F2).
        destruct (f i) as [n|] eqn:F; [|congruence]. destruct (charged_exists i n F) as (q & Q). exists (q :: l'). split; [cbn; now rewrite LL|].
        split; [|now constructor]. constructor; [|exact NL]. intros IN.
        assert (H : exists j, In j l /\ charged j q).
        { clear - IN F2. induction F2 as [|a c l l' H F2 IH]; [destruct IN|]. destruct IN as [<-|IN]; [exists a; split; [now left|exact H]|].
          destruct (IH IN) as (j & J & C). exists j. split; [now right|exact C]. }
        destruct H as (j & J & C). rewrite Forall_forall in FA'. specialize (FA' j J). destruct (f j) as [m|] eqn:FJ; [|congruence].
        apply NI. now rewrite (charged_inj i j n m q F FJ Q C). }
      destruct G as (l' & LL & NL & F2). assert (I : incl l' (zseq lo (Z.to_nat (hi - lo)))).
      { intros q IN. apply zseq_In. assert (exists i, charged i q) as (i & C).
        { clear - IN F2. induction F2 as [|a c l l' H F2 IH]; [destruct IN|]. destruct IN as [<-|IN]; [now exists a|]. exact (IH IN). }
        apply charged_range in C. lia. }
      pose proof (NoDup_incl_length NL I) as L. rewrite zseq_length in L. unfold zlen. lia.
    Qed.
  End Count.

  (** ** Edges *)
  Section Edge.
    Variables (suf : Z -> list bit) (lo hi : Z) (f : Z -> option node) (X : Z -> list bit).
    Definition single_next x : Prop := forall a c q m, occurs suf lo hi (x ++ [a]) q -> occurs suf lo hi (x ++ [c]) m -> a = c.
    Lemma leaf_single x c y : leaf_at suf lo hi x c -> prefix x y -> zlen y < D -> single_next y.
    Proof. intros L P LY a a' q m Q M. exact (leaf_det _ _ _ _ _ _ _ _ _ _ L P LY Q M). Qed.
    Lemma single_no_node x i n : part suf lo hi f X -> single_next x -> f i = Some n -> X i <> x.
    Proof.
      intros T S F E. destruct (node_branches _ _ _ _ _ T i n Zero F) as (q & Q), (node_branches _ _ _ _ _ T i n One F) as (m & M).
      rewrite E in Q, M. pose proof (S _ _ _ _ Q M). discriminate.
    Qed.
    Definition first_below x y : Prop := prefix x (X y) /\ forall i n, f i = Some n -> prefix x (X i) -> prefix (X y) (X i).
    Lemma edge_above (T : trie suf lo hi f X) x w n : f w = Some n -> first_below x w -> zlen x < zlen (X w) ->
      exists r, prefix r x /\ node_at suf lo hi f X r w.
    Proof.
      intros F (P & FB) LT. destruct (Z.eq_dec w 0) as [->|N0]; [exists []; split; [apply prefix_nil|exact (tk_root _ _ _ _ _ T)]|].
      destruct (parent_exists _ _ _ _ _ T w n F N0) as (u & m & d & FU & _ & NA). exists (X u ++ [d]). split; [|exact NA].
      pose proof NA as (n0 & m0 & _ & _ & _ & PU & _). assert (LU : zlen (X u) < zlen x).
      { destruct (Z.lt_ge_cases (zlen (X u)) (zlen x)) as [|GE]; [assumption|]. exfalso.
        assert (PX : prefix x (X u)) by (eapply prefix_both; [exact P|exact (prefix_drop _ _ _ PU)|exact GE]).
        pose proof (prefix_len _ _ (FB u m FU PX)). pose proof (prefix_len _ _ PU). rewrite snoc_len in *. lia. }
      eapply prefix_both; [exact PU|exact P|]. rewrite snoc_len. lia.
    Qed.
    Lemma edge_next (T : trie suf lo hi f X) x w n a m : f w = Some n -> first_below x w -> zlen x < zlen (X w) -> occurs suf lo hi (x ++ [a]) m -> prefix (x ++ [a]) (X w).
    Proof.
      intros F FB LT O. destruct (edge_above T x w n F FB LT) as (r & PR & (n0 & m0 & _ & _ & _ & _ & C)).
      specialize (C m (occurs_pre _ _ _ _ _ _ (prefix_trans _ _ _ PR (prefix_app _ [a])) O)). destruct O as (_ & O).
      destruct C as [C|C]; [exact (prefix_trans _ _ _ O C)|]. eapply prefix_both; [exact O|exact C|]. rewrite snoc_len. lia.
    Qed.
    Lemma edge_single (T : trie suf lo hi f X) x w n : f w = Some n -> first_below x w -> zlen x < zlen (X w) -> single_next x.
    Proof. intros F FB LT a c q m Q M. eapply prefix_snoc_det; eapply edge_next; eassumption. Qed.
  End Edge.

  (** ** One string of the family grows by one bit *)
  Section Grow.
    Variables (suf suf' : Z -> list bit) (lo hi : Z) (f : Z -> option node) (X : Z -> list bit) (p : Z) (b : bit).
    Hypothesis RP : lo <= p <= hi.
    Hypothesis SP : spread suf lo hi.
    Hypothesis GR : forall q, lo <= q <= hi -> suf' q = if q =? p then suf p ++ [b] else suf q.
    Notation s := (suf p).

    Lemma grow_at : suf' p = s ++ [b]. Proof. rewrite GR by lia. now rewrite Z.eqb_refl. Qed.
    Lemma grow_other q : lo <= q <= hi -> q <> p -> suf' q = suf q. Proof. intros R N. rewrite GR by lia. now destruct (Z.eqb_spec q p). Qed.
    Lemma grow_occurs x q : occurs suf' lo hi x q <-> occurs suf lo hi x q \/ (q = p /\ x = s ++ [b]).
    Proof.
      unfold occurs. destruct (Z.eq_dec q p) as [->|N].
      - rewrite grow_at. split.
        + intros (R & P). apply prefix_snoc_inv in P as [->|P]; [right; auto|left; auto].
        + intros [(R & P)|(_ & ->)]; (split; [exact RP|]); [exact (prefix_trans _ _ _ P (prefix_app _ _))|apply prefix_refl].
      - split.
        + intros (R & P). rewrite grow_other in P by assumption. left. auto.
        + intros [(R & P)|(E & _)]; [|contradiction]. rewrite grow_other by assumption. auto.
    Qed.
    Lemma grow_occurs_same x q : x <> s ++ [b] -> occurs suf' lo hi x q <-> occurs suf lo hi x q.
    Proof. intros N. rewrite grow_occurs. tauto. Qed.
    Lemma grow_latest x m : x <> s ++ [b] -> latest suf lo hi x m -> latest suf' lo hi x m.
    Proof. intros N (O & L). split; [now apply grow_occurs_same|]. intros q Q. apply L. now apply grow_occurs_same. Qed.
    Lemma longer_earlier q : lo <= q <= hi -> zlen s < zlen (suf q) -> q < p.
    Proof. intros R L. destruct (Z.lt_trichotomy q p) as [|[->|G]]; [assumption|lia|]. specialize (SP p q). lia. Qed.
    Lemma occurs_next_earlier x q : occurs suf lo hi (s ++ [x]) q -> q < p /\ prefix s (suf q).
    Proof.
      intros (R & P). split; [|exact (prefix_drop _ _ _ P)]. apply longer_earlier; [exact R|]. pose proof (prefix_len _ _ P) as L. rewrite snoc_len in L. lia.
    Qed.
    Lemma leaf_grow x c : x <> s ++ [b] -> leaf_at suf lo hi x c ->
      (occurs suf lo hi x p -> forall m, m < p -> occurs suf lo hi x m -> prefix (cut D (s ++ [b])) (suf m)) -> leaf_at suf' lo hi x c.
    Proof.
      intros N (m & L & C & PR) H. exists m. split; [now apply grow_latest|]. split; [exact C|]. intros q r Q R LT.
      apply grow_occurs_same in Q; [|exact N]. apply grow_occurs_same in R; [|exact N].
      destruct (Z.eq_dec r p) as [->|NR].
      - rewrite grow_at, (grow_other q) by (try apply Q; lia). now apply H.
      - rewrite (grow_other r) by (try apply R; lia). specialize (PR q r Q R LT). destruct (Z.eq_dec q p) as [->|NQ].
        + rewrite grow_at. exact (prefix_trans _ _ _ PR (prefix_app _ _)).
        + rewrite (grow_other q) by (try apply Q; lia). exact PR.
    Qed.
    Lemma node_grow f' X' x j n n' : x <> s ++ [b] -> node_at suf lo hi f X x j -> f j = Some n -> f' j = Some n' -> nd_text_start n' = nd_text_start n -> X' j = X j ->
      (occurs suf lo hi x p -> compat (s ++ [b]) (X j)) -> node_at suf' lo hi f' X' x j.
    Proof.
      intros N (n0 & m & F & L & TS & P & C) F0 F' E EX H. rewrite F in F0. injection F0 as ->. exists n', m. split; [exact F'|]. split; [now apply grow_latest|].
      split; [congruence|]. rewrite EX. split; [exact P|]. intros q Q. apply grow_occurs_same in Q; [|exact N]. destruct (Z.eq_dec q p) as [->|NQ].
      - rewrite grow_at. now apply H.
      - rewrite grow_other by (try apply Q; lia). now apply C.
    Qed.
    Lemma snoc_neq i : X i <> s -> forall a, X i ++ [a] <> s ++ [b].
    Proof. intros N a E. apply snoc_inj in E as (E & _). contradiction. Qed.

    (** *** On an edge, or off the tree *)
    Lemma grow_same : trie suf lo hi f X -> (forall i n, f i = Some n -> X i <> s) ->
      (forall m, lo <= m -> m < p -> prefix s (suf m) -> prefix (s ++ [b]) (suf m)) \/ D <= zlen s -> trie suf' lo hi f X.
    Proof.
      intros T NN AH. assert (P := tk_part _ _ _ _ _ T).
      assert (H2 : forall x j n, f j = Some n -> prefix x (X j) -> occurs suf lo hi x p -> compat s (X j) -> compat (s ++ [b]) (X j)).
      { intros x j n F PX OX C. destruct (Z.le_gt_cases (zlen (X j)) (zlen s)) as [LE|GT].
        - right. exact (prefix_trans _ _ _ (compat_long _ _ C LE) (prefix_app _ _)).
        - left. assert (PS : prefix s (X j)) by (apply (compat_short _ _ C); lia). destruct (node_branches _ _ _ _ _ P j n Zero F) as (m & (RM & M)).
          pose proof (prefix_len _ _ M) as LM. rewrite snoc_len in LM. destruct (pt_depth _ _ _ _ _ P j n F) as (_ & LD).
          destruct AH as [AH|AH]; [|lia]. assert (m < p) by (apply longer_earlier; lia).
          pose proof (AH m ltac:(lia) ltac:(lia) (prefix_trans _ _ _ PS (prefix_drop _ _ _ M))) as Q.
          eapply prefix_both; [exact Q|exact (prefix_drop _ _ _ M)|]. rewrite snoc_len. lia. }
      assert (H3 : forall x c, leaf_at suf lo hi x c -> occurs suf lo hi x p -> forall m, m < p -> occurs suf lo hi x m -> prefix (cut D (s ++ [b])) (suf m)).
      { intros x c (m0 & _ & _ & PR) OP m LT OM. specialize (PR m p OM OP LT). destruct (Z.le_gt_cases D (zlen s)) as [LE|GT].
        - destruct (Z.le_gt_cases 0 D) as [D0|D0]; [now rewrite cut_snoc|]. unfold cut. replace (Z.to_nat D) with O by lia. apply prefix_nil.
        - destruct AH as [AH|AH]; [|lia]. rewrite cut_id in PR by lia. destruct OM as (RM & _). eapply prefix_trans; [apply cut_prefix|]. apply AH; [lia|lia|exact PR]. }
      split.
      - split; [exact (pt_index _ _ _ _ _ P)|exact (pt_depth _ _ _ _ _ P)| |exact (pt_inj _ _ _ _ _ P)].
        intros i n a F. assert (N := snoc_neq i (NN i n F) a). destruct (pt_child _ _ _ _ _ P i n a F) as [(C0 & LF)|(j & J & C & NA)].
        + left. split; [exact C0|]. apply leaf_grow; [exact N|exact LF|]. eapply H3. exact LF.
        + right. exists j. split; [exact J|]. split; [exact C|]. pose proof NA as (nj & mj & FJ & _ & _ & PJ & CJ).
          eapply node_grow; eauto.
      - pose proof (tk_root _ _ _ _ _ T) as NA. pose proof NA as (nj & mj & FJ & _ & _ & PJ & CJ). eapply node_grow; eauto. destruct s; discriminate.
    Qed.

    (** *** At a node *)
    Lemma grow_compat_at (P : part suf lo hi f X) i n x j : f i = Some n -> X i = s -> node_at suf lo hi f X x j -> occurs suf lo hi x p -> compat (s ++ [b]) (X j).
    Proof.
      intros F E NA (_ & OX). rewrite <- E in OX. pose proof (node_first _ _ _ _ _ P _ _ _ _ NA F OX) as PR. rewrite E in PR.
      right. exact (prefix_trans _ _ _ PR (prefix_app _ _)).
    Qed.
    Lemma grow_leaf_at (P : part suf lo hi f X) i n x c : f i = Some n -> X i = s -> leaf_at suf lo hi x c -> occurs suf lo hi x p -> False.
    Proof. intros F E LF (_ & OX). rewrite <- E in OX. exact (leaf_no_node _ _ _ _ _ P _ _ _ _ LF F OX). Qed.
    Lemma new_latest : latest suf' lo hi (s ++ [b]) p.
    Proof.
      split; [apply grow_occurs; right; auto|]. intros q Q. apply grow_occurs in Q as [Q|(-> & _)]; [|lia]. apply occurs_next_earlier in Q. lia.
    Qed.
    Hypothesis A0 : forall q, 0 <= addr q.
    Lemma grow_descend_leaf f' i n n' : trie suf lo hi f X -> f i = Some n -> X i = s -> 0 <= nd_child n b ->
      f' i = Some n' -> nd_depth n' = nd_depth n -> nd_text_start n' = nd_text_start n -> nd_child n' b = addr p -> nd_child n' (negb b) = nd_child n (negb b) ->
      (forall k, k <> i -> f' k = f k) -> trie suf' lo hi f' X.
    Proof.
      intros T F E CB F' ED ET EB EN OT. assert (P := tk_part _ _ _ _ _ T).
      assert (LV : forall k m, f' k = Some m -> exists m0, f k = Some m0 /\ nd_depth m0 = nd_depth m /\ nd_text_start m = nd_text_start m0).
      { intros k m FK. destruct (Z.eq_dec k i) as [->|N]; [rewrite F' in FK; injection FK as <-; eauto|]. rewrite OT in FK by exact N. eauto. }
      assert (VL : forall k m, f k = Some m -> exists m', f' k = Some m' /\ nd_text_start m' = nd_text_start m).
      { intros k m FK. destruct (Z.eq_dec k i) as [->|N]; [rewrite F in FK; injection FK as <-; eauto|]. rewrite <- OT in FK by exact N. eauto. }
      assert (HG : forall x c, x <> s ++ [b] -> hangs suf lo hi f X x c -> hangs suf' lo hi f' X x c).
      { intros x c N [(C0 & LF)|(j & J & C & NA)].
        - left. split; [exact C0|]. apply leaf_grow; [exact N|exact LF|]. intros O. exfalso. exact (grow_leaf_at P i n _ _ F E LF O).
        - right. exists j. split; [exact J|]. split; [exact C|]. pose proof NA as (nj & mj & FJ & _). destruct (VL j nj FJ) as (nj' & FJ' & TJ).
          eapply node_grow; [exact N|exact NA|exact FJ|exact FJ'|exact TJ|reflexivity|]. exact (grow_compat_at P i n x j F E NA). }
      split.
      - split.
        + intros k m FK. destruct (LV k m FK) as (m0 & FK0 & _). exact (pt_index _ _ _ _ _ P k m0 FK0).
        + intros k m FK. destruct (LV k m FK) as (m0 & FK0 & <- & _). exact (pt_depth _ _ _ _ _ P k m0 FK0).
        + intros k m a FK. destruct (Z.eq_dec k i) as [->|N].
          * rewrite F' in FK. injection FK as <-. destruct (Bool.bool_dec a b) as [->|NB].
            -- rewrite EB, E. left. split; [apply A0|]. exists p. split; [exact new_latest|]. split; [reflexivity|].
               destruct (pt_child _ _ _ _ _ P i n b F) as [(_ & m0 & _ & _ & PR)|(j & J & C & _)]; [|lia]. rewrite E in PR.
               intros q r Q R LT. apply grow_occurs in Q. apply grow_occurs in R.
               destruct Q as [Q|(-> & _)]; [|destruct R as [R|(-> & _)]; [apply occurs_next_earlier in R; lia|lia]].
               pose proof (occurs_next_earlier _ _ Q) as (LQ & PQ). rewrite (grow_other q) by (try apply Q; lia).
               destruct R as [R|(-> & _)]; [|rewrite grow_at; exact (prefix_trans _ _ _ (cut_prefix _ _) (proj2 Q))].
               pose proof (occurs_next_earlier _ _ R) as (LR & _). rewrite (grow_other r) by (try apply R; lia). now apply PR.
            -- rewrite (negb_other _ _ NB), EN. apply HG; [|exact (pt_child _ _ _ _ _ P i n _ F)]. rewrite E. intros Q. apply snoc_inj in Q as (_ & Q). destruct b; discriminate.
          * rewrite OT in FK by exact N. apply HG; [|exact (pt_child _ _ _ _ _ P k m a FK)]. apply snoc_neq. rewrite <- E. intros Q. apply N. exact (pt_inj _ _ _ _ _ P _ _ _ _ FK F Q).
        + intros k l m m' FK FL Q. destruct (LV k m FK) as (m0 & FK0 & _), (LV l m' FL) as (m1 & FL0 & _). exact (pt_inj _ _ _ _ _ P _ _ _ _ FK0 FL0 Q).
      - pose proof (tk_root _ _ _ _ _ T) as NA. pose proof NA as (nj & mj & FJ & _). destruct (VL 0 nj FJ) as (nj' & FJ' & TJ).
        eapply node_grow; [destruct s; discriminate|exact NA|exact FJ|exact FJ'|exact TJ|reflexivity|]. exact (grow_compat_at P i n [] 0 F E NA).
    Qed.
    Lemma grow_descend_node f' i n n' j m m' : trie suf lo hi f X -> f i = Some n -> X i = s -> nd_child n b = - j - 1 -> 0 < j -> f j = Some m ->
      f' i = Some n' -> nd_depth n' = nd_depth n -> nd_text_start n' = nd_text_start n -> (forall a, nd_child n' a = nd_child n a) ->
      f' j = Some m' -> nd_depth m' = nd_depth m -> nd_text_start m' = addr p -> (forall a, nd_child m' a = nd_child m a) ->
      (forall k, k <> i -> k <> j -> f' k = f k) -> trie suf' lo hi f' X.
    Proof.
      intros T F E CB J FJ F' ED ET EC FJ' EDJ ETJ ECJ OT. assert (P := tk_part _ _ _ _ _ T).
      assert (LV : forall k x, f' k = Some x -> exists x0, f k = Some x0 /\ nd_depth x0 = nd_depth x /\ (forall a, nd_child x a = nd_child x0 a)).
      { intros k x FK. destruct (Z.eq_dec k i) as [->|N]; [rewrite F' in FK; injection FK as <-; eauto|].
        destruct (Z.eq_dec k j) as [->|N']; [rewrite FJ' in FK; injection FK as <-; eauto|]. rewrite OT in FK by assumption. eauto. }
      assert (NAJ : node_at suf lo hi f X (s ++ [b]) j).
      { rewrite <- E. destruct (pt_child _ _ _ _ _ P i n b F) as [(C0 & _)|(j' & J' & C & NA)]; [lia|]. now replace j with j' by lia. }
      assert (IJ : i <> j). { intros ->. pose proof NAJ as (n0 & m0 & _ & _ & _ & PJ & _). rewrite E in PJ. apply prefix_len in PJ. rewrite snoc_len in PJ. lia. }
      assert (VL : forall k x, f k = Some x -> k <> j -> exists x', f' k = Some x' /\ nd_text_start x' = nd_text_start x).
      { intros k x FK NK. destruct (Z.eq_dec k i) as [->|N]; [rewrite F in FK; injection FK as <-; eauto|]. rewrite <- OT in FK by assumption. eauto. }
      assert (HG : forall k x a, f k = Some x -> (k <> i \/ a <> b) -> hangs suf' lo hi f' X (X k ++ [a]) (nd_child x a)).
      { intros k x a FK NE. assert (N : X k ++ [a] <> s ++ [b]).
        { intros Q. apply snoc_inj in Q as (Q & ->). rewrite <- E in Q. destruct NE as [NE|NE]; [|congruence]. apply NE. exact (pt_inj _ _ _ _ _ P _ _ _ _ FK F Q). }
        destruct (pt_child _ _ _ _ _ P k x a FK) as [(C0 & LF)|(j' & J' & C & NA)].
        - left. split; [exact C0|]. apply leaf_grow; [exact N|exact LF|]. intros O. exfalso. exact (grow_leaf_at P i n _ _ F E LF O).
        - right. exists j'. split; [exact J'|]. split; [exact C|]. pose proof NA as (nj & mj & FK' & _).
          assert (NJ : j' <> j). { intros ->. rewrite <- E in NAJ. pose proof (parent_unique _ _ _ _ _ P _ _ _ _ _ _ _ FK F NA NAJ) as (-> & ->). tauto. }
          destruct (VL j' nj FK' NJ) as (nj' & FJ2 & TJ).
          eapply node_grow; [exact N|exact NA|exact FK'|exact FJ2|exact TJ|reflexivity|]. exact (grow_compat_at P i n _ j' F E NA). }
      split.
      - split.
        + intros k x FK. destruct (LV k x FK) as (x0 & FK0 & _). exact (pt_index _ _ _ _ _ P k x0 FK0).
        + intros k x FK. destruct (LV k x FK) as (x0 & FK0 & <- & _). exact (pt_depth _ _ _ _ _ P k x0 FK0).
        + intros k x a FK. destruct (LV k x FK) as (x0 & FK0 & _ & EC0). rewrite EC0. destruct (Z.eq_dec k i) as [->|N]; [|apply HG; auto].
          destruct (Bool.bool_dec a b) as [->|NB]; [|apply HG; auto]. rewrite F in FK0. injection FK0 as <-. right. exists j. split; [exact J|]. split; [exact CB|].
          rewrite E. destruct NAJ as (n0 & m0 & _ & L0 & _ & PJ & CJ). exists m', p. split; [exact FJ'|]. split; [exact new_latest|]. split; [exact ETJ|]. split; [exact PJ|].
          intros q Q. apply grow_occurs in Q as [Q|(-> & _)]; [|rewrite grow_at; now left]. pose proof (occurs_next_earlier _ _ Q) as (LQ & _).
          rewrite grow_other by (try apply Q; lia). now apply CJ.
        + intros k l x y FK FL Q. destruct (LV k x FK) as (m0 & FK0 & _), (LV l y FL) as (m1 & FL0 & _). exact (pt_inj _ _ _ _ _ P _ _ _ _ FK0 FL0 Q).
      - pose proof (tk_root _ _ _ _ _ T) as NA. pose proof NA as (nj & mj & FK & _). destruct (VL 0 nj FK ltac:(lia)) as (nj' & FJ2 & TJ).
        eapply node_grow; [destruct s; discriminate|exact NA|exact FK|exact FJ2|exact TJ|reflexivity|]. exact (grow_compat_at P i n [] 0 F E NA).
    Qed.

    (** *** A new node *)
    Definition xupd (X : Z -> list bit) j x i := if i =? j then x else X i.
    Lemma xupd_same j x : xupd X j x j = x. Proof. unfold xupd. now rewrite Z.eqb_refl. Qed.
    Lemma xupd_other j x i : i <> j -> xupd X j x i = X i. Proof. unfold xupd. now destruct (Z.eqb_spec i j). Qed.
    Variable m : Z.
    Hypothesis OM : occurs suf lo hi (s ++ [negb b]) m.
    Hypothesis LM : forall q, lo <= q -> q < p -> prefix s (suf q) -> q <= m.
    Lemma split_before q : occurs suf lo hi (s ++ [negb b]) q -> q <= m.
    Proof. intros Q. pose proof (occurs_next_earlier _ _ Q) as (L & P). apply LM; [|exact L|exact P]. destruct Q as (R & _). lia. Qed.
    Lemma split_single_new (S1 : single_next suf lo hi s) q : occurs suf' lo hi (s ++ [b]) q -> q = p.
    Proof. intros Q. apply grow_occurs in Q as [Q|(-> & _)]; [|reflexivity]. exfalso. pose proof (S1 _ _ _ _ Q OM) as E. now apply (negb_neq b). Qed.
    Lemma split_leaf_new (S1 : single_next suf lo hi s) : leaf_at suf' lo hi (s ++ [b]) (addr p).
    Proof.
      exists p. split; [exact new_latest|]. split; [reflexivity|]. intros q r Q R LT. apply (split_single_new S1) in Q. apply (split_single_new S1) in R. lia.
    Qed.
    Lemma split_other_latest : latest suf' lo hi (s ++ [negb b]) m.
    Proof.
      assert (N : s ++ [negb b] <> s ++ [b]) by (intros Q; apply snoc_inj in Q as (_ & Q); now apply (negb_neq b)).
      apply grow_latest; [exact N|]. split; [exact OM|exact split_before].
    Qed.

    Lemma grow_split_leaf f' v nv nv' d j nj : trie suf lo hi f X -> f v = Some nv -> 0 <= nd_child nv d -> prefix (X v ++ [d]) s -> zlen s < D ->
      f j = None -> 0 < j -> f' v = Some nv' -> nd_depth nv' = nd_depth nv -> nd_text_start nv' = nd_text_start nv -> nd_child nv' d = - j - 1 ->
      nd_child nv' (negb d) = nd_child nv (negb d) -> f' j = Some nj -> nd_depth nj = zlen s -> nd_text_start nj = nd_child nv d ->
      nd_child nj b = addr p -> nd_child nj (negb b) = addr m -> (forall k, k <> v -> k <> j -> f' k = f k) -> trie suf' lo hi f' (xupd X j s).
    Proof.
      intros T FV C0 PS LS FJ J FV' ED ET EC EN FJ' EDJ ETJ ECB ECN OT. assert (P := tk_part _ _ _ _ _ T).
      assert (LF : leaf_at suf lo hi (X v ++ [d]) (nd_child nv d)) by (destruct (pt_child _ _ _ _ _ P v nv d FV) as [(_ & L)|(j' & J' & C & _)]; [exact L|lia]).
      assert (S1 : single_next suf lo hi s) by exact (leaf_single _ _ _ _ _ _ LF PS LS).
      assert (VJ : v <> j) by congruence.
      assert (NE : forall k x, f k = Some x -> X k <> s) by (intros k x FK; exact (single_no_node _ _ _ _ _ _ _ _ P S1 FK)).
      assert (LV : forall k x, f' k = Some x -> k <> j -> exists x0, f k = Some x0 /\ nd_depth x0 = nd_depth x).
      { intros k x FK N. destruct (Z.eq_dec k v) as [->|N']; [rewrite FV' in FK; injection FK as <-; eauto|]. rewrite OT in FK by assumption. eauto. }
      assert (VL : forall k x, f k = Some x -> exists x', f' k = Some x' /\ nd_text_start x' = nd_text_start x /\ xupd X j s k = X k).
      { intros k x FK. assert (k <> j) by congruence. rewrite xupd_other by assumption.
        destruct (Z.eq_dec k v) as [->|N]; [rewrite FV in FK; injection FK as <-; eauto|]. rewrite <- OT in FK by assumption. eauto. }
      assert (HN : forall x k, x <> s ++ [b] -> node_at suf lo hi f X x k -> node_at suf' lo hi f' (xupd X j s) x k).
      { intros x k N NA. pose proof NA as (nk & mk & FK & _ & _ & PK & CK). destruct (VL k nk FK) as (nk' & FK' & TK & XK).
        eapply node_grow; [exact N|exact NA|exact FK|exact FK'|exact TK|exact XK|]. intros O. specialize (CK p O).
        destruct (Z.le_gt_cases (zlen (X k)) (zlen s)) as [LE|GT]; [right; exact (prefix_trans _ _ _ (compat_long _ _ CK LE) (prefix_app _ _))|].
        exfalso. apply (leaf_no_node _ _ _ _ _ P _ _ _ _ LF FK). eapply prefix_trans; [exact PS|]. apply (compat_short _ _ CK). lia. }
      assert (HG : forall k x a, f k = Some x -> (k <> v \/ a <> d) -> hangs suf' lo hi f' (xupd X j s) (X k ++ [a]) (nd_child x a)).
      { intros k x a FK NK. assert (N := snoc_neq k (NE k x FK) a). destruct (pt_child _ _ _ _ _ P k x a FK) as [(C1 & L1)|(j' & J' & C & NA)].
        - left. split; [exact C1|]. apply leaf_grow; [exact N|exact L1|]. intros (_ & O). exfalso.
          destruct (Z.lt_trichotomy (zlen (X k)) (zlen (X v))) as [LT|[E|LT]].
          + apply (leaf_no_node _ _ _ _ _ P _ _ _ _ L1 FV). eapply prefix_both; [exact O|exact (prefix_drop _ _ _ PS)|rewrite snoc_len; lia].
          + assert (Q : X k ++ [a] = X v ++ [d]) by (apply prefix_eq; [eapply prefix_both; [exact O|exact PS|]|]; rewrite !snoc_len; lia).
            apply snoc_inj in Q as (Q & ->). pose proof (pt_inj _ _ _ _ _ P _ _ _ _ FK FV Q). tauto.
          + apply (leaf_no_node _ _ _ _ _ P _ _ _ _ LF FK). eapply prefix_both; [exact PS|exact (prefix_drop _ _ _ O)|rewrite snoc_len; lia].
        - right. exists j'. split; [exact J'|]. split; [exact C|]. now apply HN. }
      split.
      - split.
        + intros k x FK. destruct (Z.eq_dec k j) as [->|N]; [lia|]. destruct (LV k x FK N) as (x0 & FK0 & _). exact (pt_index _ _ _ _ _ P k x0 FK0).
        + intros k x FK. destruct (Z.eq_dec k j) as [->|N]; [rewrite xupd_same; rewrite FJ' in FK; injection FK as <-; auto|].
          rewrite xupd_other by exact N. destruct (LV k x FK N) as (x0 & FK0 & <-). exact (pt_depth _ _ _ _ _ P k x0 FK0).
        + intros k x a FK. destruct (Z.eq_dec k j) as [->|N].
          * rewrite xupd_same. rewrite FJ' in FK. injection FK as <-. left. destruct (Bool.bool_dec a b) as [->|NB].
            -- rewrite ECB. split; [apply A0|]. exact (split_leaf_new S1).
            -- rewrite (negb_other _ _ NB), ECN. split; [apply A0|]. exists m. split; [exact split_other_latest|]. split; [reflexivity|].
               intros q r Q R LT. assert (NN : s ++ [negb b] <> s ++ [b]) by (intros Z0; apply snoc_inj in Z0 as (_ & Z0); now apply (negb_neq b)).
               apply grow_occurs_same in Q; [|exact NN]. apply grow_occurs_same in R; [|exact NN].
               pose proof (occurs_next_earlier _ _ Q) as (LQ & PQ). pose proof (occurs_next_earlier _ _ R) as (LR & PR0).
               rewrite !grow_other by (try apply Q; try apply R; lia). destruct LF as (m0 & _ & _ & PR). apply PR; [| |exact LT].
               ++ split; [apply Q|exact (prefix_trans _ _ _ PS PQ)].
               ++ split; [apply R|exact (prefix_trans _ _ _ PS PR0)].
          * rewrite xupd_other by exact N. destruct (Z.eq_dec k v) as [->|NV].
            -- rewrite FV' in FK. injection FK as <-. destruct (Bool.bool_dec a d) as [->|ND].
               ++ rewrite EC. right. exists j. split; [exact J|]. split; [reflexivity|]. destruct LF as (m0 & L0 & CM & PR).
                  exists nj, m0. split; [exact FJ'|]. split; [apply grow_latest; [exact (snoc_neq v (NE v nv FV) d)|exact L0]|]. split; [congruence|].
                  rewrite xupd_same. split; [exact PS|]. intros q Q. apply grow_occurs_same in Q; [|exact (snoc_neq v (NE v nv FV) d)].
                  assert (OP : occurs suf lo hi (X v ++ [d]) p) by (split; [exact RP|exact PS]).
                  destruct (Z.lt_trichotomy q p) as [LT|[->|GT]].
                  ** rewrite grow_other by (try apply Q; lia). specialize (PR q p Q OP LT). rewrite cut_id in PR by lia. now right.
                  ** rewrite grow_at. right. apply prefix_app.
                  ** rewrite grow_other by (try apply Q; lia). specialize (PR p q OP Q GT). pose proof (SP p q). destruct Q as (RQ & _). rewrite cut_id in PR by lia. now left.
               ++ rewrite (negb_other _ _ ND), EN. apply HG; [exact FV|]. right. apply negb_neq.
            -- rewrite OT in FK by assumption. apply HG; auto.
        + intros k l x y FK FL. destruct (Z.eq_dec k j) as [->|NK], (Z.eq_dec l j) as [->|NL]; rewrite ?xupd_same, ?xupd_other by assumption; intros Q.
          * reflexivity.
          * destruct (LV l y FL NL) as (y0 & FL0 & _). exfalso. exact (NE l y0 FL0 (eq_sym Q)).
          * destruct (LV k x FK NK) as (x0 & FK0 & _). exfalso. exact (NE k x0 FK0 Q).
          * destruct (LV l y FL NL) as (y0 & FL0 & _), (LV k x FK NK) as (x0 & FK0 & _). exact (pt_inj _ _ _ _ _ P _ _ _ _ FK0 FL0 Q).
      - apply HN; [destruct s; discriminate|exact (tk_root _ _ _ _ _ T)].
    Qed.

    Lemma grow_split_node f' w nw nw' j nj : trie suf lo hi f X -> f w = Some nw -> first_below f X s w -> zlen s < zlen (X w) ->
      f j = None -> 0 < j -> f' w = Some nw' -> nd_depth nw' = zlen s -> nd_text_start nw' = nd_text_start nw -> nd_child nw' b = addr p ->
      nd_child nw' (negb b) = - j - 1 -> f' j = Some nj -> nd_depth nj = nd_depth nw -> nd_text_start nj = addr m -> (forall a, nd_child nj a = nd_child nw a) ->
      (forall k, k <> w -> k <> j -> f' k = f k) -> trie suf' lo hi f' (xupd (xupd X w s) j (X w)).
    Proof.
      intros T FW FB LW FJ J FW' ED ET ECB ECN FJ' EDJ ETJ ECJ OT. assert (P := tk_part _ _ _ _ _ T).
      assert (S1 : single_next suf lo hi s) by exact (edge_single _ _ _ _ _ T s w nw FW FB LW).
      assert (WJ : w <> j) by congruence. destruct (pt_depth _ _ _ _ _ P w nw FW) as (DW & DL).
      assert (NE : forall k x, f k = Some x -> X k <> s) by (intros k x FK; exact (single_no_node _ _ _ _ _ _ _ _ P S1 FK)).
      assert (PN : prefix (s ++ [negb b]) (X w)) by exact (edge_next _ _ _ _ _ T s w nw _ m FW FB LW OM).
      set (X' := xupd (xupd X w s) j (X w)).
      assert (XW : X' w = s) by (unfold X', xupd; rewrite (proj2 (Z.eqb_neq w j) WJ), Z.eqb_refl; reflexivity).
      assert (XJ : X' j = X w) by (unfold X', xupd; now rewrite Z.eqb_refl).
      assert (XO : forall k, k <> w -> k <> j -> X' k = X k) by (intros k N1 N2; unfold X', xupd; now rewrite (proj2 (Z.eqb_neq k j) N2), (proj2 (Z.eqb_neq k w) N1)).
      assert (CW : forall x, node_at suf lo hi f X x w -> occurs suf lo hi x p -> prefix x s /\ forall q, occurs suf lo hi x q -> compat (suf q) (X w)).
      { intros x (n0 & m0 & _ & _ & _ & _ & C) (_ & O). auto. }
      (* where the node hung before, it still hangs *)
      assert (HW : forall x, x <> s ++ [b] -> occurs suf lo hi x p -> node_at suf lo hi f X x w -> node_at suf' lo hi f' X' x w).
      { intros x N O (n0 & m0 & F0 & L0 & T0 & P0 & C). rewrite FW in F0. injection F0 as <-. exists nw', m0. split; [exact FW'|]. split; [now apply grow_latest|].
        split; [congruence|]. rewrite XW. split; [exact (proj2 O)|]. intros q Q. apply grow_occurs_same in Q; [|exact N]. destruct (Z.eq_dec q p) as [->|NQ].
        - rewrite grow_at. right. apply prefix_app.
        - rewrite grow_other by (try apply Q; lia). eapply compat_prefix; [exact (C q Q)|]. exact (proj1 FB). }
      assert (HN : forall x k, x <> s ++ [b] -> (k = w -> occurs suf lo hi x p) -> node_at suf lo hi f X x k -> node_at suf' lo hi f' X' x k).
      { intros x k N OW NA. destruct (Z.eq_dec k w) as [->|NW]; [now apply HW; auto|]. pose proof NA as (nk & mk & FK & _ & _ & PK & CK).
        assert (k <> j) by congruence. rewrite <- OT in FK by assumption. eapply node_grow; [exact N|exact NA| |exact FK|reflexivity|now apply XO|].
        - rewrite <- OT by assumption. exact FK.
        - rewrite OT in FK by assumption. intros O. specialize (CK p O).
          destruct (Z.le_gt_cases (zlen (X k)) (zlen s)) as [LE|GT]; [right; exact (prefix_trans _ _ _ (compat_long _ _ CK LE) (prefix_app _ _))|].
          exfalso. assert (PSK : prefix s (X k)) by (apply (compat_short _ _ CK); lia). pose proof (proj2 FB k nk FK PSK) as P1.
          pose proof (node_first _ _ _ _ _ P _ _ _ _ NA FW (prefix_trans _ _ _ (proj2 O) (proj1 FB))) as P2. apply NW.
          apply (pt_inj _ _ _ _ _ P _ _ _ _ FK FW). apply prefix_eq; [exact P2|exact (prefix_len _ _ P1)]. }
      assert (HG : forall k x a, f k = Some x -> hangs suf' lo hi f' X' (X k ++ [a]) (nd_child x a)).
      { intros k x a FK. assert (N := snoc_neq k (NE k x FK) a). destruct (pt_child _ _ _ _ _ P k x a FK) as [(C1 & L1)|(j' & J' & C & NA)].
        - left. split; [exact C1|]. apply leaf_grow; [exact N|exact L1|]. intros (_ & O). exfalso.
          exact (leaf_no_node _ _ _ _ _ P _ _ _ _ L1 FW (prefix_trans _ _ _ O (proj1 FB))).
        - right. exists j'. split; [exact J'|]. split; [exact C|]. apply HN; [exact N| |exact NA]. intros ->. split; [exact RP|].
          pose proof NA as (n0 & m0 & _ & _ & _ & PK & _).
          assert (LT : zlen (X k) < zlen s).
          { destruct (Z.lt_ge_cases (zlen (X k)) (zlen s)) as [|GE]; [assumption|]. exfalso.
            assert (PX : prefix s (X k)) by (eapply prefix_both; [exact (proj1 FB)|exact (prefix_drop _ _ _ PK)|exact GE]).
            pose proof (prefix_len _ _ (proj2 FB k x FK PX)). pose proof (prefix_len _ _ PK). rewrite snoc_len in *. lia. }
          eapply prefix_both; [exact PK|exact (proj1 FB)|]. rewrite snoc_len. lia. }
      assert (LV : forall k x, f' k = Some x -> k <> j -> k <> w -> f k = Some x) by (intros k x FK N1 N2; rewrite OT in FK by assumption; exact FK).
      split.
      - split.
        + intros k x FK. destruct (Z.eq_dec k j) as [->|N]; [lia|]. destruct (Z.eq_dec k w) as [->|NW]; [exact (pt_index _ _ _ _ _ P w nw FW)|]. exact (pt_index _ _ _ _ _ P k x (LV k x FK N NW)).
        + intros k x FK. destruct (Z.eq_dec k j) as [->|N]; [rewrite XJ; rewrite FJ' in FK; injection FK as <-; lia|].
          destruct (Z.eq_dec k w) as [->|NW]; [rewrite XW; rewrite FW' in FK; injection FK as <-; lia|]. rewrite XO by assumption. exact (pt_depth _ _ _ _ _ P k x (LV k x FK N NW)).
        + intros k x a FK. destruct (Z.eq_dec k j) as [->|N].
          { rewrite XJ. rewrite FJ' in FK. injection FK as <-. rewrite ECJ. exact (HG w nw a FW). }
          destruct (Z.eq_dec k w) as [->|NW].
          { rewrite XW. rewrite FW' in FK. injection FK as <-. destruct (Bool.bool_dec a b) as [->|NB].
            - rewrite ECB. left. split; [apply A0|]. exact (split_leaf_new S1).
            - rewrite (negb_other _ _ NB), ECN. right. exists j. split; [exact J|]. split; [reflexivity|]. exists nj, m. split; [exact FJ'|]. split; [exact split_other_latest|].
              split; [exact ETJ|]. rewrite XJ. split; [exact PN|]. intros q Q.
              assert (NN : s ++ [negb b] <> s ++ [b]) by (intros Z0; apply snoc_inj in Z0 as (_ & Z0); now apply (negb_neq b)).
              apply grow_occurs_same in Q; [|exact NN]. pose proof (occurs_next_earlier _ _ Q) as (LQ & PQ). rewrite grow_other by (try apply Q; lia).
              destruct (edge_above _ _ _ _ _ T s w nw FW FB LW) as (r & PR & (n0 & m0 & _ & _ & _ & _ & C)). apply C. split; [apply Q|]. exact (prefix_trans _ _ _ PR PQ). }
          rewrite XO by assumption. apply HG. exact (LV k x FK N NW).
        + intros k l x y FK FL Q.
          assert (G : forall k x, f' k = Some x -> (k = w /\ X' k = s) \/ exists i0 x0, f i0 = Some x0 /\ X' k = X i0 /\ (k = j /\ i0 = w \/ k = i0 /\ k <> j /\ k <> w)).
          { clear k l x y FK FL Q. intros k x FK. destruct (Z.eq_dec k j) as [->|N1]; [right; exists w, nw; auto|]. destruct (Z.eq_dec k w) as [->|N2]; [left; auto|].
            right. exists k, x. split; [exact (LV k x FK N1 N2)|]. split; [now apply XO|]. right. auto. }
          destruct (G k x FK) as [(K1 & K2)|(i1 & x1 & F1 & E1 & K1)], (G l y FL) as [(L1 & L2)|(i2 & x2 & F2 & E2 & K2')].
          * congruence.
          * exfalso. apply (NE i2 x2 F2). congruence.
          * exfalso. apply (NE i1 x1 F1). congruence.
          * rewrite E1, E2 in Q. pose proof (pt_inj _ _ _ _ _ P _ _ _ _ F1 F2 Q). subst i2. destruct K1 as [(-> & ->)|(-> & ? & ?)], K2' as [(-> & ?)|(-> & ? & ?)]; congruence.
      - apply HN; [destruct s; discriminate| |exact (tk_root _ _ _ _ _ T)]. intros _. split; [exact RP|apply prefix_nil].
    Qed.
  End Grow.

  (** ** A new empty string *)
  Lemma trie_push suf lo hi f X f' r r' : trie suf lo hi f X -> lo <= hi + 1 -> suf (hi + 1) = [] -> f 0 = Some r -> f' 0 = Some r' -> nd_depth r' = nd_depth r ->
    nd_text_start r' = addr (hi + 1) -> (forall a, nd_child r' a = nd_child r a) -> (forall k, k <> 0 -> f' k = f k) -> trie suf lo (hi + 1) f' X.
  Proof.
    intros T LE SE F F' ED ET EC OT. assert (P := tk_part _ _ _ _ _ T).
    assert (OC : forall x a q, occurs suf lo (hi + 1) (x ++ [a]) q <-> occurs suf lo hi (x ++ [a]) q).
    { intros x a q. unfold occurs. split; intros (R & PR); (split; [|exact PR]); [|lia].
      destruct (Z.eq_dec q (hi + 1)) as [->|]; [|lia]. rewrite SE in PR. apply prefix_len in PR. rewrite snoc_len, zlen_nil in PR. pose proof (zlen_nonneg x). lia. }
    assert (LA : forall x a q, latest suf lo hi (x ++ [a]) q -> latest suf lo (hi + 1) (x ++ [a]) q).
    { intros x a q (O & L). split; [now apply OC|]. intros k K. apply L. now apply OC. }
    assert (LV : forall k x, f' k = Some x -> exists x0, f k = Some x0 /\ nd_depth x0 = nd_depth x /\ (forall a, nd_child x a = nd_child x0 a)).
    { intros k x FK. destruct (Z.eq_dec k 0) as [->|N]; [rewrite F' in FK; injection FK as <-; eauto|]. rewrite OT in FK by exact N. eauto. }
    split; [split|].
    - intros k x FK. destruct (LV k x FK) as (x0 & FK0 & _). exact (pt_index _ _ _ _ _ P k x0 FK0).
    - intros k x FK. destruct (LV k x FK) as (x0 & FK0 & <- & _). exact (pt_depth _ _ _ _ _ P k x0 FK0).
    - intros k x a FK. destruct (LV k x FK) as (x0 & FK0 & _ & ->). destruct (pt_child _ _ _ _ _ P k x0 a FK0) as [(C0 & m & L & C & PR)|(j & J & C & n & m & FJ & L & TS & PJ & CJ)].
      + left. split; [exact C0|]. exists m. split; [now apply LA|]. split; [exact C|]. intros q y Q R. apply OC in Q. apply OC in R. now apply PR.
      + right. exists j. split; [exact J|]. split; [exact C|]. rewrite <- OT in FJ by lia. exists n, m. split; [exact FJ|]. split; [now apply LA|]. split; [exact TS|]. split; [exact PJ|].
        intros q Q. apply OC in Q. now apply CJ.
    - intros k l x y FK FL Q. destruct (LV k x FK) as (m0 & FK0 & _), (LV l y FL) as (m1 & FL0 & _). exact (pt_inj _ _ _ _ _ P _ _ _ _ FK0 FL0 Q).
    - destruct (tk_root _ _ _ _ _ T) as (n & m & F0 & L & TS & P0 & C0). exists r', (hi + 1). split; [exact F'|]. split; [|split; [exact ET|split; [apply prefix_nil|]]].
      + split; [split; [lia|apply prefix_nil]|]. intros q (R & _). lia.
      + intros q (R & _). destruct (Z.eq_dec q (hi + 1)) as [->|]; [rewrite SE; left; apply prefix_nil|]. apply C0. split; [lia|apply prefix_nil].
  Qed.

  (** ** The first string is dropped *)
  Section Drop.
    Variables (suf : Z -> list bit) (lo hi : Z) (f : Z -> option node) (X : Z -> list bit).
    Hypothesis T : trie suf lo hi f X.
    Hypothesis A0 : forall q, 0 <= addr q.
    Let P := tk_part _ _ _ _ _ T.
    Notation occurs0 := (occurs suf lo hi). Notation latest0 := (latest suf lo hi). Notation leaf_at0 := (leaf_at suf lo hi).
    Notation node_at0 := (node_at suf lo hi f X).
        Lemma drop_occurs x q : occurs suf (lo + 1) hi x q <-> occurs0 x q /\ q <> lo.
    Proof. unfold occurs. split; [intros (R & Q)|intros ((R & Q) & N)]; (split; [split; [lia|exact Q]|lia]) || (split; [lia|exact Q]). Qed.
    Lemma drop_latest x m : latest0 x m -> m <> lo -> latest suf (lo + 1) hi x m.
    Proof. intros (O & L) N. split; [now apply drop_occurs|]. intros q Q. apply drop_occurs in Q as (Q & _). now apply L. Qed.
    Lemma leaf_unique i n a c v m d c' q : f i = Some n -> f v = Some m -> leaf_at0 (X i ++ [a]) c -> leaf_at0 (X v ++ [d]) c' ->
      prefix (X i ++ [a]) (suf q) -> prefix (X v ++ [d]) (suf q) -> i = v /\ a = d.
    Proof.
      intros FI FV LI LV OI OV. destruct (Z.lt_trichotomy (zlen (X i)) (zlen (X v))) as [LT|[E|LT]].
      - exfalso. apply (leaf_no_node _ _ _ _ _ P _ _ _ _ LI FV). eapply prefix_both; [exact OI|exact (prefix_drop _ _ _ OV)|rewrite snoc_len; lia].
      - assert (Q : X i ++ [a] = X v ++ [d]) by (apply prefix_eq; [eapply prefix_both; [exact OI|exact OV|]|]; rewrite !snoc_len; lia).
        apply snoc_inj in Q as (Q & ->). split; [exact (pt_inj _ _ _ _ _ P _ _ _ _ FI FV Q)|reflexivity].
      - exfalso. apply (leaf_no_node _ _ _ _ _ P _ _ _ _ LV FI). eapply prefix_both; [exact OV|exact (prefix_drop _ _ _ OI)|rewrite snoc_len; lia].
    Qed.
    Lemma first_latest_leaf i n a : f i = Some n -> latest0 (X i ++ [a]) lo -> leaf_at0 (X i ++ [a]) (nd_child n a) /\ nd_child n a = addr lo.
    Proof.
      intros F (O & L). destruct (pt_child _ _ _ _ _ P i n a F) as [(C0 & LF)|(j & J & C & nj & m & FJ & _ & _ & PJ & _)].
      - split; [exact LF|]. destruct LF as (m & (OM & LM) & -> & _). f_equal. specialize (L m OM). specialize (LM lo O). lia.
      - exfalso. destruct (node_branches _ _ _ _ _ P j nj Zero FJ) as (q & Q), (node_branches _ _ _ _ _ P j nj One FJ) as (r & R).
        pose proof (L q (occurs_pre _ _ _ _ _ _ (prefix_trans _ _ _ PJ (prefix_app _ [Zero])) Q)). pose proof (L r (occurs_pre _ _ _ _ _ _ (prefix_trans _ _ _ PJ (prefix_app _ [One])) R)).
        destruct Q as (RQ & Q), R as (RR & R). replace r with q in R by lia. pose proof (prefix_snoc_det _ _ _ _ Q R). discriminate.
    Qed.
    Lemma several_positions : lo < hi.
    Proof.
      destruct (tk_root _ _ _ _ _ T) as (r & m & F & ((R & _) & _) & _). pose proof (few_nodes _ _ _ _ _ P [0]) as L.
      specialize (L ltac:(constructor; [intros []|constructor]) ltac:(constructor; [congruence|constructor]) ltac:(lia)). rewrite zlen_one in L. lia.
    Qed.
    Lemma root_not_first : ~ latest0 [] lo.
    Proof. intros (_ & L). pose proof several_positions. assert (O : occurs suf lo hi [] hi) by (split; [lia|apply prefix_nil]). specialize (L hi O). lia. Qed.
    Lemma node_not_first x j : node_at0 x j -> ~ latest0 x lo.
    Proof.
      intros (n & m & F & _ & _ & PJ & _) (_ & L).
      destruct (node_branches _ _ _ _ _ P j n Zero F) as (q & Q), (node_branches _ _ _ _ _ P j n One F) as (r & R).
      pose proof (L q (occurs_pre _ _ _ _ _ _ (prefix_trans _ _ _ PJ (prefix_app _ [Zero])) Q)). pose proof (L r (occurs_pre _ _ _ _ _ _ (prefix_trans _ _ _ PJ (prefix_app _ [One])) R)).
      destruct Q as (RQ & Q), R as (RR & R). replace r with q in R by lia. pose proof (prefix_snoc_det _ _ _ _ Q R). discriminate.
    Qed.
    Lemma leaf_drop x c : leaf_at0 x c -> ~ latest0 x lo -> leaf_at suf (lo + 1) hi x c.
    Proof.
      intros (m & L & C & PR) N. exists m. split; [apply drop_latest; [exact L|intros ->; contradiction]|]. split; [exact C|].
      intros q r Q R. apply drop_occurs in Q as (Q & _). apply drop_occurs in R as (R & _). now apply PR.
    Qed.
    Lemma node_drop f' X' x j n n' : node_at0 x j -> f j = Some n -> f' j = Some n' -> nd_text_start n' = nd_text_start n -> X' j = X j -> node_at suf (lo + 1) hi f' X' x j.
    Proof.
      intros NA F F' TS XJ. pose proof (node_not_first _ _ NA) as N. destruct NA as (n0 & m & F0 & L & TM & PJ & C). rewrite F in F0. injection F0 as <-.
      exists n', m. split; [exact F'|]. split; [apply drop_latest; [exact L|intros ->; contradiction]|]. split; [congruence|]. rewrite XJ. split; [exact PJ|].
      intros q Q. apply drop_occurs in Q as (Q & _). now apply C.
    Qed.

    (** *** The leaf of the first string serves a later one too *)
    Lemma drop_same : (forall i n a, f i = Some n -> ~ latest0 (X i ++ [a]) lo) -> trie suf (lo + 1) hi f X.
    Proof.
      intros N. split; [split; [exact (pt_index _ _ _ _ _ P)|exact (pt_depth _ _ _ _ _ P)| |exact (pt_inj _ _ _ _ _ P)]|].
      - intros i n a F. destruct (pt_child _ _ _ _ _ P i n a F) as [(C0 & LF)|(j & J & C & NA)].
        + left. split; [exact C0|]. apply leaf_drop; [exact LF|exact (N i n a F)].
        + right. exists j. split; [exact J|]. split; [exact C|]. pose proof NA as (nj & mj & FJ & _). eapply node_drop; eauto.
      - pose proof (tk_root _ _ _ _ _ T) as NA. pose proof NA as (nj & mj & FJ & _). eapply node_drop; eauto.
    Qed.

    (** *** The leaf is dropped together with the node above it *)
    Variables (v : Z) (n : node) (d : bit).
    Hypothesis FV : f v = Some n.
    Hypothesis LV : latest0 (X v ++ [d]) lo.
    Lemma only_first_leaf i m a : f i = Some m -> latest0 (X i ++ [a]) lo -> i = v /\ a = d.
    Proof.
      intros FI LI. destruct (first_latest_leaf i m a FI LI) as (LF & _), (first_latest_leaf v n d FV LV) as (LF' & _).
      exact (leaf_unique _ _ _ _ _ _ _ _ lo FI FV LF LF' (proj2 (proj1 LI)) (proj2 (proj1 LV))).
    Qed.
    Lemma drop_below x q : node_at0 x v -> occurs suf (lo + 1) hi x q -> prefix (suf q) (X v) \/ occurs suf (lo + 1) hi (X v ++ [negb d]) q.
    Proof.
      intros (n0 & m0 & _ & _ & _ & _ & C) Q. apply drop_occurs in Q as (Q & NQ). specialize (C q Q). destruct (Z.le_gt_cases (zlen (suf q)) (zlen (X v))) as [LE|GT].
      - left. exact (compat_short _ _ C LE).
      - right. destruct (prefix_next (X v) (suf q)) as (a & PA); [apply (compat_long _ _ C); lia|lia|]. apply drop_occurs. split; [|exact NQ]. destruct Q as (RQ & Q).
        destruct (Bool.bool_dec a d) as [->|ND]; [|rewrite <- (negb_other _ _ ND); now split]. exfalso.
        pose proof (proj2 LV q (conj RQ PA)). lia.
    Qed.
    Lemma drop_to_leaf x c : spread suf lo hi -> node_at0 x v -> leaf_at0 (X v ++ [negb d]) c -> leaf_at suf (lo + 1) hi x (nd_text_start n).
    Proof.
      intros SP NA LF. pose proof (node_not_first _ _ NA) as NF. pose proof NA as (n0 & m & F0 & L & TM & PJ & C). rewrite FV in F0. injection F0 as <-.
      exists m. split; [apply drop_latest; [exact L|intros ->; contradiction]|]. split; [exact TM|]. intros q r Q R LT.
      destruct (drop_below x r NA R) as [SR|OR].
      - assert (RQ : lo + 1 <= q <= hi) by apply Q. assert (RR : lo + 1 <= r <= hi) by apply R. apply drop_occurs in Q as (Q & _). specialize (C q Q). eapply prefix_trans; [apply cut_prefix|].
        pose proof (SP q r ltac:(lia) LT ltac:(lia)). destruct C as [C|C]; [eapply prefix_both; [exact SR|exact C|lia]|exact (prefix_trans _ _ _ SR C)].
      - pose proof (prefix_len _ _ (proj2 OR)) as LR. rewrite snoc_len in LR. assert (RQ : lo + 1 <= q <= hi) by apply Q. assert (RR : lo + 1 <= r <= hi) by apply R.
        pose proof (SP q r ltac:(lia) LT ltac:(lia)). destruct (drop_below x q NA Q) as [SQ|OQ]; [apply prefix_len in SQ; lia|].
        destruct LF as (m1 & _ & _ & PR). apply drop_occurs in OQ as (OQ & _). apply drop_occurs in OR as (OR & _). now apply PR.
    Qed.
    Lemma drop_to_node x j f' X' k k' : node_at0 x v -> node_at0 (X v ++ [negb d]) j -> f' k = Some k' -> nd_text_start k' = nd_text_start n -> X' k = X j ->
      node_at suf (lo + 1) hi f' X' x k.
    Proof.
      intros NA NJ FK TK XK. pose proof (node_not_first _ _ NA) as NF. pose proof NA as (n0 & m & F0 & L & TM & PJ & C). rewrite FV in F0. injection F0 as <-.
      pose proof NJ as (nj & mj & FJ & _ & _ & PX & CJ). exists k', m. split; [exact FK|]. split; [apply drop_latest; [exact L|intros ->; contradiction]|]. split; [congruence|].
      rewrite XK. pose proof (prefix_drop _ _ _ PX) as PV. split; [exact (prefix_trans _ _ _ PJ PV)|]. intros q Q. destruct (drop_below x q NA Q) as [SQ|OQ].
      - left. exact (prefix_trans _ _ _ SQ PV).
      - apply drop_occurs in OQ as (OQ & _). now apply CJ.
    Qed.
    Lemma sibling_leaf : 0 <= nd_child n (negb d) -> leaf_at0 (X v ++ [negb d]) (nd_child n (negb d)).
    Proof. intros C. destruct (pt_child _ _ _ _ _ P v n (negb d) FV) as [(_ & L)|(j & J & E & _)]; [exact L|lia]. Qed.
    Lemma sibling_node j : 0 < j -> nd_child n (negb d) = - j - 1 -> node_at0 (X v ++ [negb d]) j.
    Proof. intros J E. destruct (pt_child _ _ _ _ _ P v n (negb d) FV) as [(C & _)|(j' & J' & E' & NA)]; [lia|]. now replace j with j' by lia. Qed.

    (** the other edges *)
    Lemma other_edges f' X' k x a : f k = Some x -> k <> v -> nd_child x a <> - v - 1 ->
      (forall j y, j <> v -> f j = Some y -> nd_child x a = - j - 1 -> node_at0 (X k ++ [a]) j -> exists y', f' j = Some y' /\ nd_text_start y' = nd_text_start y /\ X' j = X j) ->
      hangs suf (lo + 1) hi f' X' (X k ++ [a]) (nd_child x a).
    Proof.
      intros FK NK NC H. destruct (pt_child _ _ _ _ _ P k x a FK) as [(C0 & LF)|(j & J & C & NA)].
      - left. split; [exact C0|]. apply leaf_drop; [exact LF|]. intros L. destruct (only_first_leaf k x a FK L) as (E & _). contradiction.
      - right. exists j. split; [exact J|]. split; [exact C|]. pose proof NA as (nj & mj & FJ & _).
        destruct (H j nj) as (y' & F' & TY & XY); [intros ->; lia|exact FJ|exact C|exact NA|]. eapply node_drop; eauto.
    Qed.

    Section NotRoot.
      Variables (u : Z) (nu : node) (e : bit).
      Hypothesis FU : f u = Some nu.
      Hypothesis CU : nd_child nu e = - v - 1.
      Hypothesis V0 : 0 < v.
      Lemma parent_hangs : node_at0 (X u ++ [e]) v.
      Proof. destruct (pt_child _ _ _ _ _ P u nu e FU) as [(C & _)|(j' & J' & E' & NA)]; [lia|]. now replace v with j' by lia. Qed.
      Lemma parent_differs : u <> v.
      Proof. intros E. destruct parent_hangs as (n0 & m0 & _ & _ & _ & PU & _). rewrite E in PU. apply prefix_len in PU. rewrite snoc_len in PU. lia. Qed.
      Lemma only_parent k x a : f k = Some x -> nd_child x a = - v - 1 -> k = u /\ a = e.
      Proof.
        intros FK C. eapply parent_unique; [exact P|exact FK|exact FU| |exact parent_hangs].
        destruct (pt_child _ _ _ _ _ P k x a FK) as [(C0 & _)|(j' & J' & E' & NA)]; [lia|]. now replace v with j' by lia.
      Qed.
      Lemma drop_leaf_node f' nu' c : spread suf lo hi -> 0 <= nd_child n (negb d) -> f' u = Some nu' -> nd_depth nu' = nd_depth nu -> nd_text_start nu' = nd_text_start nu ->
        nd_child nu' e = c -> c = nd_text_start n -> nd_child nu' (negb e) = nd_child nu (negb e) -> f' v = None -> (forall k, k <> u -> k <> v -> f' k = f k) ->
        trie suf (lo + 1) hi f' X.
      Proof.
        intros SP CN FU' ED ET EC TC EN FV' OT. pose proof parent_differs as UV.
        assert (C0 : 0 <= c). { rewrite TC. destruct parent_hangs as (n0 & m0 & F0 & _ & TM & _). rewrite FV in F0. injection F0 as <-. rewrite TM. apply A0. }
        assert (LVE : forall k x, f' k = Some x -> exists x0, f k = Some x0 /\ nd_depth x0 = nd_depth x).
        { intros k x FK. destruct (Z.eq_dec k v) as [->|N]; [congruence|]. destruct (Z.eq_dec k u) as [->|N']; [rewrite FU' in FK; injection FK as <-; eauto|]. rewrite OT in FK by assumption. eauto. }
        assert (VL : forall k x, f k = Some x -> k <> v -> exists x', f' k = Some x' /\ nd_text_start x' = nd_text_start x /\ X k = X k).
        { intros k x FK N. destruct (Z.eq_dec k u) as [->|N']; [rewrite FU in FK; injection FK as <-; eauto|]. rewrite <- OT in FK by assumption. eauto. }
        assert (HO : forall k x a, f k = Some x -> k <> v -> (k <> u \/ a <> e) -> hangs suf (lo + 1) hi f' X (X k ++ [a]) (nd_child x a)).
        { intros k x a FK N NE. apply other_edges; [exact FK|exact N| |].
          - intros C. destruct (only_parent k x a FK C). tauto.
          - intros j y NJ FJ _ _. now apply VL. }
        split; [split|].
        - intros k x FK. destruct (LVE k x FK) as (x0 & FK0 & _). exact (pt_index _ _ _ _ _ P k x0 FK0).
        - intros k x FK. destruct (LVE k x FK) as (x0 & FK0 & <-). exact (pt_depth _ _ _ _ _ P k x0 FK0).
        - intros k x a FK. assert (k <> v) by congruence. destruct (Z.eq_dec k u) as [->|NU].
          + rewrite FU' in FK. injection FK as <-. destruct (Bool.bool_dec a e) as [->|NE].
            * rewrite EC. left. split; [exact C0|]. rewrite TC. eapply drop_to_leaf; [exact SP|exact parent_hangs|exact (sibling_leaf CN)].
            * rewrite (negb_other _ _ NE), EN. apply HO; [exact FU|assumption|]. right. apply negb_neq.
          + rewrite OT in FK by assumption. apply HO; auto.
        - intros k l x y FK FL Q. destruct (LVE k x FK) as (m0 & FK0 & _), (LVE l y FL) as (m1 & FL0 & _). exact (pt_inj _ _ _ _ _ P _ _ _ _ FK0 FL0 Q).
        - pose proof (tk_root _ _ _ _ _ T) as NA. pose proof NA as (nj & mj & FJ & _). destruct (VL 0 nj FJ) as (x' & FX & TX & _); [lia|]. eapply node_drop; eauto.
      Qed.
      Lemma drop_inner_node f' nu' j nj nj' : 0 < j -> nd_child n (negb d) = - j - 1 -> f j = Some nj -> f' u = Some nu' -> nd_depth nu' = nd_depth nu ->
        nd_text_start nu' = nd_text_start nu -> nd_child nu' e = - j - 1 -> nd_child nu' (negb e) = nd_child nu (negb e) -> f' v = None ->
        f' j = Some nj' -> nd_depth nj' = nd_depth nj -> nd_text_start nj' = nd_text_start n -> (forall a, nd_child nj' a = nd_child nj a) ->
        (forall k, k <> u -> k <> v -> k <> j -> f' k = f k) -> trie suf (lo + 1) hi f' X.
      Proof.
        intros J CJ FJ FU' ED ET EC EN FV' FJ' EDJ ETJ ECJ OT. pose proof parent_differs as UV.
        pose proof (sibling_node j J CJ) as NJ.
        assert (VJ : v <> j) by congruence.
        assert (UJ : u <> j). { intros E. destruct NJ as (n0 & m0 & _ & _ & _ & PJ & _). destruct parent_hangs as (n1 & m1 & _ & _ & _ & PU & _). rewrite E in PU.
          apply prefix_len in PJ. apply prefix_len in PU. rewrite snoc_len in *. lia. }
        assert (LVE : forall k x, f' k = Some x -> exists x0, f k = Some x0 /\ nd_depth x0 = nd_depth x).
        { intros k x FK. destruct (Z.eq_dec k v) as [->|N]; [congruence|]. destruct (Z.eq_dec k u) as [->|N']; [rewrite FU' in FK; injection FK as <-; eauto|].
          destruct (Z.eq_dec k j) as [->|N2]; [rewrite FJ' in FK; injection FK as <-; eauto|]. rewrite OT in FK by assumption. eauto. }
        assert (VL : forall k x, f k = Some x -> k <> v -> k <> j -> exists x', f' k = Some x' /\ nd_text_start x' = nd_text_start x /\ X k = X k).
        { intros k x FK N N2. destruct (Z.eq_dec k u) as [->|N']; [rewrite FU in FK; injection FK as <-; eauto|]. rewrite <- OT in FK by assumption. eauto. }
        assert (HO : forall k x a, f k = Some x -> k <> v -> (k <> u \/ a <> e) -> hangs suf (lo + 1) hi f' X (X k ++ [a]) (nd_child x a)).
        { intros k x a FK N NE. apply other_edges; [exact FK|exact N| |].
          - intros C. destruct (only_parent k x a FK C). tauto.
          - intros j' y NJ' FJ2 C NA. apply VL; [exact FJ2|exact NJ'|]. intros ->. destruct (parent_unique _ _ _ _ _ P _ _ _ _ _ _ _ FK FV NA NJ) as (E & _). contradiction. }
        split; [split|].
        - intros k x FK. destruct (LVE k x FK) as (x0 & FK0 & _). exact (pt_index _ _ _ _ _ P k x0 FK0).
        - intros k x FK. destruct (LVE k x FK) as (x0 & FK0 & <-). exact (pt_depth _ _ _ _ _ P k x0 FK0).
        - intros k x a FK. assert (k <> v) by congruence. destruct (Z.eq_dec k u) as [->|NU].
          + rewrite FU' in FK. injection FK as <-. destruct (Bool.bool_dec a e) as [->|NE].
            * rewrite EC. right. exists j. split; [exact J|]. split; [reflexivity|]. eapply drop_to_node; [exact parent_hangs|exact NJ|exact FJ'|exact ETJ|reflexivity].
            * rewrite (negb_other _ _ NE), EN. apply HO; [exact FU|assumption|]. right. apply negb_neq.
          + destruct (Z.eq_dec k j) as [->|NJ']; [|rewrite OT in FK by assumption; apply HO; auto].
            rewrite FJ' in FK. injection FK as <-. rewrite ECJ. apply HO; auto.
        - intros k l x y FK FL Q. destruct (LVE k x FK) as (m0 & FK0 & _), (LVE l y FL) as (m1 & FL0 & _). exact (pt_inj _ _ _ _ _ P _ _ _ _ FK0 FL0 Q).
        - pose proof (tk_root _ _ _ _ _ T) as NA. pose proof NA as (n0 & mj & F0 & _). destruct (VL 0 n0 F0) as (x' & FX & TX & _); [lia|lia|]. eapply node_drop; eauto.
      Qed.
    End NotRoot.

    Lemma drop_root f' j nj nj' : v = 0 -> 0 < j -> nd_child n (negb d) = - j - 1 -> f j = Some nj -> f' 0 = Some nj' -> nd_depth nj' = nd_depth nj ->
      nd_text_start nj' = nd_text_start n -> (forall a, nd_child nj' a = nd_child nj a) -> f' j = None -> (forall k, k <> 0 -> k <> j -> f' k = f k) ->
      trie suf (lo + 1) hi f' (xupd X 0 (X j)).
    Proof.
      intros V J CJ FJ F0' ED ET EC FJ' OT. pose proof (sibling_node j J CJ) as NJ. set (X' := xupd X 0 (X j)).
      assert (X0 : X' 0 = X j) by reflexivity. assert (XO : forall k, k <> 0 -> X' k = X k) by (intros k N; unfold X', xupd; now rewrite (proj2 (Z.eqb_neq k 0) N)).
      assert (LVE : forall k x, f' k = Some x -> exists i x0, f i = Some x0 /\ nd_depth x0 = nd_depth x /\ (forall a, nd_child x a = nd_child x0 a) /\ X' k = X i /\ i <> 0 /\ (k = 0 /\ i = j \/ k = i /\ k <> j)).
      { intros k x FK. destruct (Z.eq_dec k j) as [->|N]; [congruence|]. destruct (Z.eq_dec k 0) as [->|N'].
        - rewrite F0' in FK. injection FK as <-. exists j, nj. repeat split; auto; lia.
        - rewrite OT in FK by assumption. exists k, x. repeat split; auto. }
      split; [split|].
      - intros k x FK. destruct (LVE k x FK) as (i & x0 & FI & _ & _ & _ & _ & [(-> & _)|(-> & _)]); [lia|]. exact (pt_index _ _ _ _ _ P i x0 FI).
      - intros k x FK. destruct (LVE k x FK) as (i & x0 & FI & <- & _ & -> & _). exact (pt_depth _ _ _ _ _ P i x0 FI).
      - intros k x a FK. destruct (LVE k x FK) as (i & x0 & FI & _ & -> & -> & NI & _). apply other_edges; [exact FI|lia| |].
        + intros C. destruct (pt_child _ _ _ _ _ P i x0 a FI) as [(C0 & _)|(j' & J' & E' & _)]; lia.
        + intros j' y NJ' FJ2 C NA. assert (j' <> j). { intros ->. destruct (parent_unique _ _ _ _ _ P _ _ _ _ _ _ _ FI FV NA NJ) as (E & _). lia. }
          exists y. rewrite OT by lia. rewrite XO by lia. auto.
      - intros k l x y FK FL Q. destruct (LVE k x FK) as (i & x0 & FI & _ & _ & EI & _ & KI), (LVE l y FL) as (i' & x1 & FI' & _ & _ & EI' & _ & KI'). rewrite EI, EI' in Q.
        pose proof (pt_inj _ _ _ _ _ P _ _ _ _ FI FI' Q) as E. subst i'. destruct KI as [(-> & ->)|(-> & ?)], KI' as [(-> & ?)|(-> & ?)]; congruence.
      - eapply drop_to_node; [|exact NJ|exact F0'|exact ET|exact X0]. rewrite V. exact (tk_root _ _ _ _ _ T).
    Qed.
  End Drop.
End Trie.
