(** Proofs for C64: one node for each branching string. *)
From Coq Require Import ZifyBool.
From Verif Require Import Base BaseFacts StateModel EstModel StatesModel StatesSpec WindowModel WindowSpec WindowProofs HistSpec HistProofs FatProofs
  NodesModel NodesProofs TrieProofs TrieContexts TreeStats TreeWindow TreeModel TreeLoop TreeRemove TreeGather TreeSpec TreeRun TreeFacts IntegModel IntegSpec IntegProofs SizeSpec.
Ltac Zify.zify_post_hook ::= Z.div_mod_to_equations.

Lemma begins_iff s x : begins s x = true <-> prefix x s.
Proof.
  revert s. induction x as [|a x IH]; intros s; [split; [intros _; apply prefix_nil|now destruct s]|]. cbn [begins]. destruct s as [|b s].
  - split; [discriminate|]. intros (r & E). discriminate.
  - rewrite andb_true_iff, IH, eqb_true_iff. split; [intros (-> & r & ->); now exists r|intros (r & E); cbn in E; injection E as -> ->; split; [reflexivity|now exists r]].
Qed.

(** ** Every branching string has a node *)
Section Complete.
  Variables (addr : Z -> Z) (D : Z) (suf : Z -> list bit) (lo hi : Z) (f : Z -> option node) (X : Z -> list bit).
  Hypothesis T : trie addr D suf lo hi f X.
  Let P := tk_part _ _ _ _ _ _ _ T.
  Lemma branching_from x : zlen x < D -> (forall b, exists p, occurs suf lo hi (x ++ [b]) p) ->
    forall k i n s, (Z.to_nat (D - zlen (X i)) <= k)%nat -> f i = Some n -> node_at addr suf lo hi f X s i -> prefix s x -> exists j n', f j = Some n' /\ X j = x.
  Proof.
    intros LX B. induction k as [|k IH]; intros i n s FU F NA PS; pose proof (pt_depth _ _ _ _ _ _ _ P i n F) as (DE & DD); [lia|].
    pose proof NA as (n' & mm & _ & _ & _ & _ & CO).
    assert (G : forall b, exists p, occurs suf lo hi (x ++ [b]) p /\ compat (suf p) (X i)).
    { intros b. destruct (B b) as (p & R & O). exists p. split; [now split|]. apply CO. split; [exact R|]. apply prefix_trans with x; [exact PS|exact (prefix_drop _ _ _ O)]. }
    destruct (Z.le_gt_cases (zlen (X i)) (zlen x)) as [LE|GT].
    - destruct (G Zero) as (p & (R & O) & C). pose proof (prefix_len _ _ O) as LO. rewrite snoc_len in LO.
      assert (PX : prefix (X i) x) by (eapply prefix_both; [apply (compat_long _ _ C); lia|exact (prefix_drop _ _ _ O)|exact LE]).
      destruct (Z.eq_dec (zlen (X i)) (zlen x)) as [EL|NL]; [exists i, n; split; [exact F|]; apply prefix_eq; [exact PX|lia]|].
      destruct (prefix_next _ _ PX ltac:(lia)) as (d & PD).
      destruct (pt_child _ _ _ _ _ _ _ P i n d F) as [(C0 & LF)|(j & J & E & NJ)].
      + destruct (B Zero) as (p0 & O0), (B One) as (p1 & O1). pose proof (leaf_det _ _ _ _ _ _ _ _ _ _ _ _ LF PD LX O0 O1). discriminate.
      + pose proof NJ as (nj & q & FJ & _ & _ & PJ & _). apply (IH j nj (X i ++ [d])); [|exact FJ|exact NJ|exact PD]. apply prefix_len in PJ. rewrite snoc_len in PJ. lia.
    - exfalso. assert (A : forall b, prefix (x ++ [b]) (X i)).
      { intros b. destruct (G b) as (p & (R & O) & C). destruct C as [C|C]; [exact (prefix_trans _ _ _ O C)|]. eapply prefix_both; [exact O|exact C|]. rewrite snoc_len. lia. }
      pose proof (prefix_snoc_det _ _ _ _ (A Zero) (A One)). discriminate.
  Qed.
  Lemma branching_node x : zlen x < D -> (forall b, exists p, occurs suf lo hi (x ++ [b]) p) -> exists j n, f j = Some n /\ X j = x.
  Proof.
    intros LX B. destruct (tk_root _ _ _ _ _ _ _ T) as (n & q & F & NA). apply (branching_from x LX B _ 0 n [] (le_n _) F); [exact (tk_root _ _ _ _ _ _ _ T)|apply prefix_nil].
  Qed.
End Complete.

(** ** Nodes and what is reachable *)
Section Size.
  Variables (t : luts) (m shift max_order : Z) (trk : Z -> Z -> cost_trackers).
  Hypothesis ALL : forall l, l <> [] -> exists s, state_of t l = Ok s /\ stands_for (lt_rates t) (fst (fst (last l (0, Zero, ct_default)))) (bits l) s.
  Hypothesis M : 0 < m <= 2 ^ 31.
  Hypothesis MO : 0 <= max_order.
  Variables (text : list bit) (lo hi : Z) (tr : tree).
  Notation adr := (addr m shift). Notation D := (8 * (max_order + 1)). Notation suf := (sufx text).
  Hypothesis L0 : 0 <= lo <= hi.
  Hypothesis LT : hi = zlen text / 8.
  Hypothesis W : win m shift text lo hi (tr_window tr).

  Lemma occurs_tail x b : (exists k, 0 <= k /\ starts_with (tail_of (suf lo) k) (x ++ [b])) <-> exists p, occurs suf lo hi (x ++ [b]) p.
  Proof.
    split.
    - intros (k & K & S). exists (k + lo). apply starts_prefix in S. replace (tail_of (suf lo) k) with (suf (k + lo)) in S by (unfold tail_of; rewrite sufx_skip by lia; f_equal; lia).
      split; [|exact S]. apply prefix_len in S. rewrite snoc_len, sufx_len in S by lia. pose proof (zlen_nonneg x). lia.
    - intros (p & R & O). exists (p - lo). split; [lia|]. apply starts_prefix. unfold tail_of. rewrite sufx_skip by lia. now replace (lo + (p - lo)) with p by lia.
  Qed.
  Lemma branches_iff x : branches max_order (suf lo) x <-> zlen x < D /\ forall b, exists p, occurs suf lo hi (x ++ [b]) p.
  Proof. unfold branches. split; intros (A & B); (split; [exact A|]); intros b; apply occurs_tail; apply B. Qed.

  Lemma next_bits_hist x : next_bits (suf lo) x = bits (hist trk suf lo hi x).
  Proof.
    unfold next_bits, bits, hist. rewrite map_map. cbn [fst snd]. rewrite sufx_len by lia. replace (Z.max 0 (zlen text - 8 * lo) / 8 + 1) with (hi + 1 - lo) by lia.
    rewrite (zseq_shift lo). rewrite filter_shift, map_map. set (n := Z.to_nat (hi + 1 - lo)).
    set (g := fun k => _). assert (A : forall l, Forall (fun k => 0 <= k) l -> flat_map g l =
                map (fun k => nth (length x) (suf (k + lo)) Zero) (filter (fun k => longer suf x (k + lo)) l)).
    { induction 1 as [|k l K F IH]; [reflexivity|]. cbn [flat_map filter]. rewrite IH. clear IH. unfold g. cbv zeta. replace (tail_of (suf lo) k) with (suf (k + lo)) by (unfold tail_of; rewrite sufx_skip by lia; f_equal; lia).
      set (s := suf (k + lo)). unfold longer. fold s. destruct (begins s x) eqn:B.
      - assert (PB : prefixb x s = true) by (apply prefixb_iff, begins_iff, B). rewrite PB. cbn [andb]. apply begins_iff in B. destruct B as (r & E). rewrite E at 1. rewrite skipn_app, skipn_all, Nat.sub_diag. cbn [skipn app].
        rewrite E at 1. rewrite zlen_app. destruct r as [|a r]; [replace (zlen x <? zlen x + zlen (@nil bit)) with false by (rewrite zlen_nil; lia); reflexivity|].
        replace (zlen x <? zlen x + zlen (a :: r)) with true by (rewrite zlen_cons; pose proof (zlen_nonneg r); lia). cbn [map firstn app]. f_equal. fold s. rewrite E, app_nth2, Nat.sub_diag by lia. reflexivity.
      - replace (prefixb x s) with false; [reflexivity|]. symmetry. apply not_true_is_false. intros PB. apply prefixb_iff, begins_iff in PB. congruence. }
    apply A. apply Forall_forall. intros k I. apply zseq_In in I. lia.
  Qed.

  Section Proper.
    Variables (f : Z -> option node) (free : list Z) (X : Z -> list bit).
    Hypothesis C : core t m shift max_order trk suf lo hi (tr_nodes tr) f free X.
    Let TR := co_trie _ _ _ _ _ _ _ _ _ _ _ _ C.
    Let P := tk_part _ _ _ _ _ _ _ TR.
    Let ST := co_stock _ _ _ _ _ _ _ _ _ _ _ _ C.
    Lemma node_child i n d j : f i = Some n -> child_to_node_index (nd_child n d) = Ok j -> node_at adr suf lo hi f X (X i ++ [d]) j.
    Proof.
      intros F E. destruct (pt_child _ _ _ _ _ _ _ P i n d F) as [(C0 & _)|(k & K & CE & N)].
      - exfalso. unfold child_to_node_index in E. destruct (Z.ltb_spec (nd_child n d) 0); [lia|discriminate].
      - unfold child_to_node_index in E. rewrite CE in E. rewrite assert_true in E by lia. cbn [bind] in E. injection E as E. replace j with k by lia. exact N.
    Qed.
    Lemma reached_at i : reachable (tr_nodes tr) i -> exists x, node_at adr suf lo hi f X x i.
    Proof.
      induction 1 as [|i n d j R (x & N) E CE]; [exists []; exact (tk_root _ _ _ _ _ _ _ TR)|]. destruct N as (n' & q & F & _). rewrite (stock_get _ _ _ _ _ ST F) in E. injection E as <-.
      exists (X i ++ [d]). exact (node_child _ _ _ _ F CE).
    Qed.
    Lemma live_reached k : forall i n, (Z.to_nat (zlen (X i)) < k)%nat -> f i = Some n -> reachable (tr_nodes tr) i.
    Proof.
      induction k as [|k IH]; intros i n LK F; [lia|]. destruct (Z.eq_dec i 0) as [->|N]; [constructor|].
      destruct (parent_exists _ _ _ _ _ _ _ TR i n F N) as (u & mu & d & FU & CE & NA). pose proof (pt_index _ _ _ _ _ _ _ P i n F) as I0. apply at_child with u mu d; [|exact (stock_get _ _ _ _ _ ST FU)|].
      - apply (IH u mu); [|exact FU]. destruct NA as (n' & q & _ & _ & _ & PX & _). apply prefix_len in PX. rewrite snoc_len in PX. pose proof (zlen_nonneg (X u)). lia.
      - unfold child_to_node_index. rewrite CE, assert_true by lia. cbn [bind]. f_equal. lia.
    Qed.
    Lemma reachable_iff i : reachable (tr_nodes tr) i <-> f i <> None.
    Proof.
      split.
      - intros R. destruct (reached_at i R) as (x & n & q & F & _). congruence.
      - intros F. destruct (f i) as [n|] eqn:E; [|congruence]. exact (live_reached _ i n (Nat.lt_succ_diag_r _) E).
    Qed.
    Lemma node_string i n : f i = Some n -> branches max_order (suf lo) (X i).
    Proof. intros F. apply branches_iff. split; [apply (pt_depth _ _ _ _ _ _ _ P i n F)|]. intros b. exact (node_branches _ _ _ _ _ _ _ P i n b F). Qed.
    Lemma node_described i n : f i = Some n -> describes (lt_rates t) lo (tr_window tr) (suf lo) n (X i).
    Proof.
      intros F. split; [apply (pt_depth _ _ _ _ _ _ _ P i n F)|]. split.
      - destruct (reached_at i) as (x & n' & q & F' & ((Q & PQ) & _) & TS & PX & CO); [apply reachable_iff; congruence|]. rewrite F in F'. injection F' as <-.
        exists (q - lo). rewrite (win_size _ _ _ _ _ _ W). split; [lia|]. rewrite (spot_adr m shift M text lo hi tr W) by lia. split; [exact TS|]. rewrite (tail_sufx text lo hi L0) by lia.
        destruct (CO q (conj Q PQ)) as [CP|CP]; [right|left]; now apply starts_prefix.
      - destruct (co_stat _ _ _ _ _ _ _ _ _ _ _ _ C i n F) as (older & ZO & (d & SX) & LC & RC & C0 & C1). exists (bits older). rewrite (next_bits_hist (X i)). cbv zeta. rewrite <- bits_app. split; [unfold bits; rewrite zlen_map; exact ZO|].
        set (h := older ++ hist trk suf lo hi (X i)) in *. split; [exact LC|]. split; [exact RC|].
        assert (NE : h <> []) by (intros E; rewrite E in C0; cbn in C0; lia). destruct (ALL h NE) as (s & E & SF). rewrite SX in E. injection E as <-. unfold stands_for in SF.
        destruct (uniform (bits h)); [discriminate|]. destruct SF as (e & r & q & c & E & SE & SR & SQ). injection E as _ <- <- <- _. auto.
    Qed.
    Lemma proper_each : tr_proper tr = true -> one_node_each (lt_rates t) max_order lo tr (suf lo).
    Proof.
      intros TP. destruct (tk_root _ _ _ _ _ _ _ TR) as (r & q & F0 & NA). split; [|split].
      - split; [|auto]. intros _. exists (X 0). exact (node_string 0 r F0).
      - intros _. exists X. split; [|split].
        + intros i R. apply reachable_iff in R. destruct (f i) as [n|] eqn:F; [|congruence]. split; [exact (node_string i n F)|]. exists n. split; [exact (stock_get _ _ _ _ _ ST F)|exact (node_described i n F)].
        + intros x B. apply branches_iff in B. destruct B as (LX & B). destruct (branching_node _ _ _ _ _ _ _ TR x LX B) as (j & n & F & E). exists j. split; [apply reachable_iff; congruence|exact E].
        + intros i j I J E. apply reachable_iff in I, J. destruct (f i) as [n|] eqn:FI; [|congruence]. destruct (f j) as [n'|] eqn:FJ; [|congruence]. exact (pt_inj _ _ _ _ _ _ _ P i j n n' FI FJ E).
      - set (slots := filter (has f) (zseq 0 (length (ns_items (tr_nodes tr))))).
        assert (SL : forall i, In i slots <-> f i <> None).
        { intros i. unfold slots. rewrite filter_In. unfold has. split; [intros (_ & H); destruct (f i); congruence|]. intros H. destruct (f i) as [n|] eqn:F; [|congruence]. split; [|reflexivity].
          destruct (st_live _ _ _ ST i n F) as (ZN & _). apply znth_Some in ZN. apply zseq_In. unfold zlen in ZN. lia. }
        exists (map X slots). split; [|split].
        + assert (ND : NoDup slots) by apply NoDup_filter, NodesProofs.zseq_nodup. revert SL ND. generalize slots. intros l SL ND.
          assert (A : forall i, In i l -> f i <> None) by (intros i I; now apply SL). clear SL. induction ND as [|i l NI ND IH]; [constructor|]. cbn [map]. constructor; [|apply IH; intros j J; apply A; now right].
          intros H. apply in_map_iff in H. destruct H as (j & E & J). apply NI. assert (FI : f i <> None) by (apply A; now left). assert (FJ : f j <> None) by (apply A; now right).
          destruct (f i) as [n|] eqn:EI; [|congruence]. destruct (f j) as [n'|] eqn:EJ; [|congruence]. now rewrite <- (pt_inj _ _ _ _ _ _ _ P j i n' n EJ EI E).
        + intros x. rewrite in_map_iff. split.
          * intros (i & <- & I). apply SL in I. destruct (f i) as [n|] eqn:F; [|congruence]. exact (node_string i n F).
          * intros B. apply branches_iff in B. destruct B as (LX & B). destruct (branching_node _ _ _ _ _ _ _ TR x LX B) as (j & n & F & E). exists j. split; [exact E|]. apply SL. congruence.
        + rewrite (stock_live_count _ _ _ ST). unfold has. rewrite F0. f_equal. rewrite zlen_map. symmetry. apply (stock_count _ _ _ ST). congruence.
    Qed.
  End Proper.

  Lemma flat_each free : tr_proper tr = false -> stock (tr_nodes tr) (fun _ => None) free -> (forall q r, lo <= q -> q < r -> r <= hi -> prefix (suf r) (suf q)) ->
    one_node_each (lt_rates t) max_order lo tr (suf lo).
  Proof.
    intros TP ST AL. assert (NB : forall x, ~ branches max_order (suf lo) x).
    { intros x B. apply branches_iff in B. destruct B as (_ & B). destruct (B Zero) as (p & RP & OP), (B One) as (q & RQ & OQ).
      destruct (Z.lt_trichotomy p q) as [H|[->|H]].
      - pose proof (prefix_snoc_det _ _ _ _ OP (prefix_trans _ _ _ OQ (AL p q ltac:(lia) H ltac:(lia)))). discriminate.
      - pose proof (prefix_snoc_det _ _ _ _ OP OQ). discriminate.
      - pose proof (prefix_snoc_det _ _ _ _ (prefix_trans _ _ _ OP (AL q p ltac:(lia) H ltac:(lia))) OQ). discriminate. }
    split; [split; [intros E; congruence|intros (x & B); now elim (NB x)]|]. split; [intros E; congruence|].
    exists []. split; [constructor|]. split; [intros x; split; [intros []|intros B; now elim (NB x)]|]. rewrite (stock_live_count _ _ _ ST). reflexivity.
  Qed.
End Size.

Lemma tree_sized t max max_order shift input :
  luts_new = Ok t -> 0 < max <= 2 ^ 31 -> 0 <= shift < max -> 0 <= max_order /\ 8 * max_order + 7 < 2 ^ 16 -> supplied max max_order input ->
  exists s, tree_after t max max_order shift input = Ok s /\ one_node_each (lt_rates t) max_order (forgotten max (map fst input)) (ts_tree s) (in_window max (map fst input)).
Proof.
  intros LU M SH MO SU. destruct (reached t max shift max_order LU M SH MO input SU) as (s & E & R). exists s. split; [exact E|]. pose proof (all_of t LU) as ALL. clear LU E SU.
  destruct R as (L & SM & SB & W & G). set (text := map fst input) in *. rewrite in_window_sufx. change (forgotten max text) with (lowest max text (zlen text / 8)). pose proof (low max M text) as L0. set (lo := lowest max text (zlen text / 8)) in *.
  unfold grown in G. destruct (tr_proper (ts_tree s)) eqn:TP.
  - destruct G as (f & free & X & CO & _). exact (proper_each t max shift max_order _ ALL M text lo _ (ts_tree s) L0 eq_refl W f free X CO TP).
  - destruct G as (_ & (free & ST & _) & AL). exact (flat_each t max_order (fun _ _ => ct_default) text lo _ (ts_tree s) L0 eq_refl free TP ST AL).
Qed.
