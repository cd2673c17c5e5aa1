(** What the tree source reports in terms of the text. *)
From Coq Require Import ZifyBool.
From Verif Require Import Base BaseFacts StateModel EstModel LogModel StatesModel StatesSpec StatesProofs WindowModel WindowProofs HistModel HistSpec HistProofs FatProofs HistFacts
  NodesModel NodesProofs TrieProofs TrieContexts TreeStats TreeWindow TreeModel TreeLoop TreeRemove TreeGather TreeSpec TreeRun.
Ltac Zify.zify_post_hook ::= Z.div_mod_to_equations.

Lemma all_of t : luts_new = Ok t -> forall l, l <> [] -> exists s, state_of t l = Ok s /\ stands_for (lt_rates t) (fst (fst (last l (0, Zero, ct_default)))) (bits l) s.
Proof.
  intros L l N. destruct l as [|x l]; [congruence|]. destruct (state_of_history t (fst x) l L) as (s & E & S). exists s. split; [exact E|].
  replace (fst (fst (last (x :: l) (0, Zero, ct_default)))) with (last_distance (fst x) l); [exact S|]. rewrite last_cons. unfold last_distance. clear.
  revert x. induction l as [|y l IH]; intros x; [reflexivity|]. cbn [map]. rewrite !last_cons. apply IH.
Qed.
Lemma eq_forall (b : bit) l : (forall a, In a l -> a = b) -> Forall (eq b) l.
Proof. intros H. apply Forall_forall. intros x X. symmetry. now apply H. Qed.

Lemma stands_kind rates d h s : stands_for rates d h s -> is_for_node s = negb (uniform h).
Proof. unfold stands_for. destruct (uniform h); [intros ->; reflexivity|]. intros (e & r & q & c & -> & _). reflexivity. Qed.

Section Facts.
  Variables (t : luts) (m shift max_order : Z).
  Hypothesis ALL : forall l, l <> [] -> exists s, state_of t l = Ok s /\ stands_for (lt_rates t) (fst (fst (last l (0, Zero, ct_default)))) (bits l) s.
  Hypothesis M : 0 < m <= 2 ^ 31.
  Hypothesis SH : 0 <= shift < m.
  Hypothesis MO : 0 <= max_order /\ 8 * max_order + 7 < 2 ^ 16.
  Notation ready trk := (tree_ready t m shift max_order trk).
  Lemma in_window_sufx text : in_window m text = sufx text (lowest m text (zlen text / 8)). Proof. reflexivity. Qed.
  Lemma low text : 0 <= lowest m text (zlen text / 8) <= zlen text / 8. Proof. pose proof (zlen_nonneg text). unfold lowest. lia. Qed.

  Lemma ready_gather trk text s : ready trk text s -> exists st, tree_gather s [] = Ok st /\ answers t max_order trk text (lowest m text (zlen text / 8)) (zlen text / 8) st.
  Proof.
    intros (L & SM & SB & W & G). unfold tree_gather. rewrite SB, SM. rewrite assert_true by (lia). cbn [bind]. pose proof (low text) as LO.
    apply (gather_ok t m shift max_order trk ALL M MO text (lowest m text (zlen text / 8)) (zlen text / 8) (zlen text mod 8) (tr_window (ts_tree s)) W L); [lia|lia|reflexivity|exact G].
  Qed.
  Lemma answers_report trk text st : answers t max_order trk text (lowest m text (zlen text / 8)) (zlen text / 8) st -> window_report (lt_rates t) max_order (forgotten m text) (in_window m text) st.
  Proof.
    intros (A & B & C). rewrite in_window_sufx. pose proof (low text) as LO. set (lo := lowest m text (zlen text / 8)) in *. set (hi := zlen text / 8) in *.
    assert (L : zlen text = 8 * hi + zlen text mod 8) by (unfold hi; lia). assert (U8 : 0 <= zlen text mod 8 < 8) by (lia). set (u := zlen text mod 8) in *. split; [|split].
    - intros o s Z. pose proof (znth_Some _ _ _ Z) as OO. destruct (A o s Z) as [AP AS]. destruct AP as (q & PV & AD). destruct PV as (Q & P & N). split.
      { intros E. exact (proj1 (br_none text lo hi u L U8 LO o ltac:(lia)) E q Q P). }
      assert (ED : last_occurrence_distance s = distance (sufx text lo) o) by (rewrite AD; symmetry; apply (br_distance text lo hi u L U8 LO); [lia|split; auto]).
      destruct AS as (older & d & NH & ZO & UH & SX). cbv zeta in *. pose proof (br_hist text lo hi u L U8 LO trk o ltac:(lia)) as BH. exists (bits older). rewrite <- BH, <- bits_app. split; [unfold bits; rewrite zlen_map; exact ZO|]. split; [exact UH|].
      destruct (ALL (older ++ hist trk (sufx text) lo hi (sufx text (hi - o))) ltac:(intros E0; apply app_eq_nil in E0; exact (NH (proj2 E0)))) as (s1 & E1 & SF). rewrite SX in E1. injection E1 as <-.
      apply (stands_distance _ _ (distance (sufx text lo) o)) in SF. rewrite <- ED in SF |- *. now destruct s.
    - exact B.
    - intros LE. pose proof (zlen_nonneg st). apply (proj2 (br_none text lo hi u L U8 LO (zlen st) ltac:(lia))). intros q Q. apply C; [lia|exact Q].
  Qed.

  Lemma any_gather text s : any_ready t m shift max_order text s -> exists st, tree_gather s [] = Ok st /\ window_report (lt_rates t) max_order (forgotten m text) (in_window m text) st.
  Proof. intros (trk & R). destruct (ready_gather _ _ _ R) as (st & E & A). exists st. split; [exact E|exact (answers_report _ _ _ A)]. Qed.

  (** ** What the nodes refer to *)
  Lemma inside_addr text lo hi w q : win m shift text lo hi w -> lo <= q <= hi -> inside w (addr m shift q).
  Proof.
    intros W Q. exists (q - lo). rewrite (win_size _ _ _ _ _ _ W), (win_start _ _ _ _ _ _ W), (win_max _ _ _ _ _ _ W). split; [lia|].
    replace q with (lo + (q - lo)) at 1 by lia. rewrite <- (addr_far m shift M). reflexivity.
  Qed.
  Lemma grown_sound trk text lo hi tr cs : lo <= hi -> win m shift text lo hi (tr_window tr) -> grown t m shift max_order trk text lo hi tr cs -> sound_tree tr.
  Proof.
    intros LH W G. unfold grown in G. split.
    - intros TP. rewrite TP in G. destruct G as (f & free & X & CO & _). pose proof (co_trie _ _ _ _ _ _ _ _ _ _ _ _ CO) as TR. pose proof (tk_part _ _ _ _ _ _ _ TR) as P. pose proof (co_stock _ _ _ _ _ _ _ _ _ _ _ _ CO) as ST.
      assert (CH : forall i n d j, f i = Some n -> child_to_node_index (nd_child n d) = Ok j -> exists x, node_at (addr m shift) (sufx text) lo hi f X x j).
      { intros i n d j F E. destruct (pt_child _ _ _ _ _ _ _ P i n d F) as [(C0 & _)|(k & K & C & N)].
        - exfalso. unfold child_to_node_index in E. destruct (Z.ltb_spec (nd_child n d) 0); [lia|discriminate].
        - unfold child_to_node_index in E. rewrite C in E. rewrite assert_true in E by lia. cbn [bind] in E. injection E as E. exists (X i ++ [d]). replace j with k by lia. exact N. }
      assert (RE : forall i, reachable (tr_nodes tr) i -> exists x, node_at (addr m shift) (sufx text) lo hi f X x i).
      { induction 1 as [|i n d j R (x & N) E C]; [exists []; exact (tk_root _ _ _ _ _ _ _ TR)|]. destruct N as (n' & q & F & _). rewrite (stock_get _ _ _ _ _ ST F) in E. injection E as <-. exact (CH _ _ _ _ F C). }
      intros i R. destruct (RE i R) as (x & n & q & F & LA & TS & _). exists n. split; [exact (stock_get _ _ _ _ _ ST F)|]. split.
      { rewrite TS. destruct LA as ((Q & _) & _). exact (inside_addr _ _ _ _ _ W Q). }
      intros d. destruct (pt_child _ _ _ _ _ _ _ P i n d F) as [(C0 & q' & L' & C & _)|(k & K & C & N)].
      + right. exists (nd_child n d). split; [unfold child_to_window_index; now rewrite assert_true by lia|]. rewrite C. destruct L' as ((Q & _) & _). exact (inside_addr _ _ _ _ _ W Q).
      + left. exists k. split; [|exact K]. unfold child_to_node_index. rewrite C, assert_true by lia. cbn [bind]. f_equal. lia.
    - rewrite (win_size _ _ _ _ _ _ W). destruct (tr_proper tr).
      + destruct G as (f & free & X & CO & _). pose proof (co_trie _ _ _ _ _ _ _ _ _ _ _ _ CO) as TR. pose proof (tk_part _ _ _ _ _ _ _ TR) as P. pose proof (co_stock _ _ _ _ _ _ _ _ _ _ _ _ CO) as ST.
        rewrite (stock_live_count _ _ _ ST). eexists. split; [reflexivity|]. destruct (has f 0) eqn:H0; [|lia]. assert (F0 : f 0 <> None) by (unfold has in H0; destruct (f 0); congruence).
        pose proof (free_length _ _ _ ST) as FL. split; [lia|]. rewrite <- (stock_count _ _ _ ST F0).
        pose proof (few_nodes _ _ _ _ _ _ _ P (filter (has f) (zseq 0 (length (ns_items (tr_nodes tr))))) (NoDup_filter _ (NodesProofs.zseq_nodup _ _))) as FN.
        assert (A : Forall (fun i => f i <> None) (filter (has f) (zseq 0 (length (ns_items (tr_nodes tr)))))).
        { apply Forall_forall. intros i I. apply filter_In in I. destruct I as (_ & I). unfold has in I. destruct (f i); congruence. }
        specialize (FN A LH). lia.
      + destruct G as (_ & (free & ST & _) & _). rewrite (stock_live_count _ _ _ ST). eexists. split; [reflexivity|]. cbn [has]. lia.
  Qed.

  (** ** Any text *)
  Definition trackers_at (input : fed) (p d : Z) : cost_trackers := nth (Z.to_nat (d / 8)) (snd (nth (Z.to_nat (8 * p + d)) input (Zero, []))) ct_default.
  Lemma trackers_at_ok input before b tk later o k : input = before ++ (b, tk) :: later -> znth tk o = Some k -> trackers_at input (zlen before / 8 - o) (8 * o + zlen before mod 8) = k.
  Proof.
    intros EI K. unfold trackers_at. pose proof (znth_Some _ _ _ K). replace (8 * (zlen before / 8 - o) + (8 * o + zlen before mod 8)) with (zlen before) by (lia).
    replace ((8 * o + zlen before mod 8) / 8) with o by (lia). rewrite EI. unfold zlen at 1. rewrite Nat2Z.id, app_nth2 by lia. rewrite Nat.sub_diag. cbn [nth snd].
    rewrite znth_nth_error in K by lia. exact (nth_error_nth _ _ _ K).
  Qed.
  Lemma tree_slides input : supplied m max_order input -> exists s states, tree_after t m max_order shift input = Ok s /\ tree_gather s [] = Ok states /\
    window_report (lt_rates t) max_order (forgotten m (map fst input)) (in_window m (map fst input)) states /\ zlen (filter is_for_node states) = branching max_order (in_window m (map fst input)) /\
    w_size (tr_window (ts_tree s)) = Z.min m (zlen input / 8 + 1) /\ sound_tree (ts_tree s).
  Proof.
    intros SU. destruct (tree_fed t m shift max_order (trackers_at input) ALL M SH MO input SU (trackers_at_ok input)) as (s & E & R).
    destruct (ready_gather _ _ _ R) as (st & GS & AN). exists s, st. split; [exact E|]. split; [exact GS|]. pose proof (answers_report _ _ _ AN) as WR. split; [exact WR|]. split.
    { destruct WR as (A & B & C). apply nodes_counted; [|exact B|exact C]. intros o s0 Z. destruct (A o s0 Z) as (_ & older & _ & UH & SF). rewrite <- UH. exact (stands_kind _ _ _ _ SF). }
    destruct R as (L & _ & _ & W & G). pose proof (low (map fst input)) as LO. rewrite zlen_map in *. split.
    - rewrite (win_size _ _ _ _ _ _ W). unfold lowest. lia.
    - apply (grown_sound _ _ _ _ _ _ (proj2 LO) W G).
  Qed.

  (** ** A text that fits *)
  Lemma fits_supplied input : zlen input / 8 < m -> well_supplied max_order input -> supplied m max_order input.
  Proof.
    intros F W before b tk later E. rewrite (W _ _ _ _ E). f_equal. unfold in_window, forgotten. rewrite zlen_map. subst input. rewrite zlen_app, zlen_cons in F. pose proof (zlen_nonneg later).
    replace (Z.max 0 (zlen before / 8 + 1 - m)) with 0 by (lia). reflexivity.
  Qed.
  Lemma hist_occurrences input o : let text := map fst input in let hi := zlen text / 8 in 0 <= o <= hi ->
    hist (trackers_at input) (sufx text) 0 hi (sufx text (hi - o)) =
    map (fun p => let h := (fun p => let x := nth (Z.to_nat (8 * (p + o) + zlen input mod 8)) input (Zero, []) in (fst x, nth (Z.to_nat o) (snd x) ct_default)) in (p, fst (h p), snd (h p))) (earlier text o).
  Proof.
    intros text hi O. assert (L : zlen text = 8 * hi + zlen text mod 8) by (unfold hi; lia). assert (U8 : 0 <= zlen text mod 8 < 8) by (lia).
    assert (LI : zlen input = zlen text) by (unfold text; now rewrite zlen_map). rewrite LI. set (u := zlen text mod 8) in *.
    pose proof (br_suf text 0 hi u L U8 ltac:(lia) (hi - o) ltac:(lia)) as LX. replace (8 * (hi - (hi - o)) + u) with (8 * o + u) in LX by lia.
    rewrite (hist_cut (trackers_at input) (sufx text) 0 hi (hi - o)).
    2: lia.
    2:{ intros q Q. unfold longer. pose proof (br_suf text 0 hi u L U8 ltac:(lia) q ltac:(lia)). apply andb_false_intro2. lia. }
    unfold hist, earlier. replace (last_start text o) with (hi - o) by (unfold last_start, hi; reflexivity). replace (hi - o - 1 + 1 - 0) with (hi - o) by lia.
    assert (FE : filter (longer (sufx text) (sufx text (hi - o))) (zseq 0 (Z.to_nat (hi - o))) =
      filter (fun p => same (bits_at text p (8 * o + unfinished text)) (bits_at text (hi - o) (8 * o + unfinished text))) (zseq 0 (Z.to_nat (hi - o)))).
    { apply filter_ext_Forall. apply Forall_forall. intros p PI. apply zseq_In in PI. apply Bool.eq_true_iff_eq. pose proof (br_test text 0 hi u L U8 ltac:(lia) o p ltac:(lia) ltac:(lia) ltac:(lia)) as T.
      change (sufx text 0) with text in T. replace (last_start text o) with (hi - o) in T by (unfold last_start, hi; reflexivity). rewrite Z.add_0_r in T. rewrite T.
      unfold longer. rewrite andb_true_iff, prefixb_iff. pose proof (br_suf text 0 hi u L U8 ltac:(lia) p ltac:(lia)). split; [intros (A & _); exact A|]. intros A. split; [exact A|]. lia. }
    rewrite FE. apply map_ext_in. intros p PI. apply filter_In in PI. destruct PI as (PI & _). apply zseq_In in PI. cbv zeta. cbn [fst snd].
    replace (8 * (p + o) + u) with (8 * p + (8 * o + u)) by lia. apply f_equal2; [apply f_equal2; [reflexivity|]|].
    - rewrite nth_fst. unfold zlen in LX. replace (length (sufx text (hi - o))) with (Z.to_nat (8 * o + u)) by lia. rewrite sufx_nth by lia. reflexivity.
    - unfold trackers_at. rewrite LX. replace ((8 * o + u) / 8) with o by (lia). reflexivity.
  Qed.
  Lemma report_list input st : (forall o s, znth st o = Some s -> exists first later, occurrences input o = first :: later /\ advance_all t (fst first) later = Ok s) ->
    zlen st <= max_order + 1 -> (zlen st < max_order + 1 -> occurrences input (zlen st) = []) -> report t max_order input = Ok st.
  Proof.
    unfold report. intros A B C. assert (G : forall n st o, (forall i s, znth st i = Some s -> exists first later, occurrences input (o + i) = first :: later /\ advance_all t (fst first) later = Ok s) ->
      zlen st <= Z.of_nat n -> (zlen st < Z.of_nat n -> occurrences input (o + zlen st) = []) -> report_from t input o n = Ok st).
    { clear. induction n as [|n IH]; intros st o A B C.
      - destruct st; [reflexivity|]. rewrite zlen_cons in B. pose proof (zlen_nonneg st). lia.
      - cbn [report_from]. destruct st as [|s st].
        + change (zlen (@nil context_state)) with 0 in C. rewrite Z.add_0_r in C. rewrite C by lia. reflexivity.
        + destruct (A 0 s eq_refl) as (first & later & E & S). rewrite Z.add_0_r in E. rewrite E, S. cbn [bind]. rewrite zlen_cons in B, C. rewrite (IH st (o + 1)); [reflexivity| |lia|].
          * intros i s' Z. pose proof (znth_Some _ _ _ Z). destruct (A (i + 1) s') as (f & l & E' & S'); [cbn [znth]; replace (i + 1 =? 0) with false by lia; now replace (i + 1 - 1) with i by lia|].
            exists f, l. split; [|exact S']. rewrite <- E'. f_equal. lia.
          * intros LE. rewrite <- C by lia. f_equal. lia. }
    apply (G _ st 0); [exact A| |]; rewrite Z2Nat.id by lia; assumption.
  Qed.
  Lemma tree_exact input : zlen input / 8 < m -> well_supplied max_order input -> tree_states t m max_order shift input [] = report t max_order input.
  Proof.
    intros FI WS. unfold tree_states. destruct (tree_fed t m shift max_order (trackers_at input) ALL M SH MO input (fits_supplied _ FI WS) (trackers_at_ok input)) as (s & E & R).
    rewrite E. cbn [bind]. destruct (ready_gather _ _ _ R) as (st & GS & A & B & C). rewrite GS. symmetry.
      set (text := map fst input) in *. assert (LI : zlen input = zlen text) by (unfold text; now rewrite zlen_map). rewrite LI in FI.
      replace (lowest m text (zlen text / 8)) with 0 in * by (unfold lowest; lia). set (hi := zlen text / 8) in *.
      assert (L : zlen text = 8 * hi + zlen text mod 8) by (unfold hi; lia). assert (U8 : 0 <= zlen text mod 8 < 8) by (lia). assert (H0 : 0 <= hi) by (pose proof (zlen_nonneg text); unfold hi; lia).
      apply report_list; [|exact B|].
      + intros o s0 Z. pose proof (znth_Some _ _ _ Z) as OO. destruct (A o s0 Z) as [(q & PV & AD) (older & d & _ & ZO & _ & SX)]. destruct older as [|x older]; [cbn [app] in SX|rewrite zlen_cons in ZO; pose proof (zlen_nonneg older); lia]. pose proof PV as (Q & _).
        rewrite hist_occurrences in SX by (fold text hi; lia). pose proof (occurrences_seen input o) as OS. rewrite <- earlier_seen in OS. fold text in OS, SX.
        pose proof (br_distance text 0 hi (zlen text mod 8) L U8 ltac:(lia) o q ltac:(lia) PV) as BD. change (sufx text 0) with text in BD. unfold distance in BD. replace (last_start text o) with (hi - o) in BD by reflexivity.
        set (l := earlier text o) in *. assert (N : l <> []) by (intros E0; rewrite E0 in SX; discriminate).
        assert (RT : state_of t (occurrences input o) = Ok s0).
        { rewrite OS. etransitivity; [exact (state_retarget t (fun p => zlen input / 8 - o - p)
            (fun p => let x := nth (Z.to_nat (8 * (p + o) + zlen input mod 8)) input (Zero, []) in (fst x, nth (Z.to_nat o) (snd x) ct_default)) l 0 N)|].
          cbv zeta in SX |- *. cbn [fst snd] in SX |- *. rewrite SX. cbn [bind]. f_equal. rewrite LI. fold hi. rewrite BD, <- AD. now destruct s0. }
        destruct (occurrences input o) as [|first later]; [discriminate|]. exists first, later. split; [reflexivity|exact RT].
      + intros LE. apply occurrences_nil. fold text. pose proof (zlen_nonneg st). change text with (sufx text 0). apply (proj2 (br_none text 0 hi (zlen text mod 8) L U8 ltac:(lia) (zlen st) ltac:(lia))). intros q Q. apply C; [lia|exact Q].
  Qed.
End Facts.

(** ** Together with the tables *)
Lemma tree_replays t max max_order shift input : luts_new = Ok t -> 0 < max <= 2 ^ 31 -> 0 <= shift < max -> 0 <= max_order -> 8 * max_order + 7 < 2 ^ 16 -> zlen input / 8 < max ->
  well_supplied max_order input -> tree_states t max max_order shift input [] = report t max_order input.
Proof. intros L M S O D. exact (tree_exact t max shift max_order (all_of t L) M S (conj O D) input). Qed.
Lemma tree_true t max max_order shift input : luts_new = Ok t -> 0 < max <= 2 ^ 31 -> 0 <= shift < max -> 0 <= max_order -> 8 * max_order + 7 < 2 ^ 16 -> zlen input / 8 < max ->
  well_supplied max_order input ->
  exists states, tree_states t max max_order shift input [] = Ok states /\ true_report (lt_rates t) max_order (map fst input) states /\
    zlen (filter is_for_node states) = branching max_order (map fst input).
Proof.
  intros L M S O D F W. destruct (report_true t max_order input L O) as (states & E & T). exists states. rewrite (tree_replays t max max_order shift input L M S O D F W), E. split; [reflexivity|]. split; [exact T|].
  exact (report_nodes _ _ _ _ T).
Qed.
Lemma tree_as_naive t max max_order shift input : luts_new = Ok t -> 0 < max <= 2 ^ 31 -> 0 <= shift < max -> 0 <= max_order -> 8 * max_order + 7 < 2 ^ 16 -> zlen input / 8 < max ->
  well_supplied max_order input ->
  exists tree naive, tree_states t max max_order shift input [] = Ok tree /\ naive_states t max max_order (bare input) [] = Ok naive /\
    map neutralize_cost_trackers tree = map neutralize_cost_trackers naive.
Proof.
  intros L M S O D F W. destruct (tree_true t max max_order shift input L M S O D F W) as (ts & ET & TT & _).
  assert (M' : 0 < max < 2 ^ 63) by (clear -M; lia). assert (O' : 0 <= max_order < 2 ^ 64 - 1) by (clear -O D; lia).
  destruct (naive_true t max max_order (bare input) [] L M' O' ltac:(unfold bare; rewrite HistProofs.zlen_map; exact F) (bare_default input)) as (ns & EN & TN).
  rewrite bare_text in TN. exists ts, ns. split; [exact ET|]. split; [exact EN|]. exact (report_unique _ _ _ _ _ TT TN).
Qed.
Lemma tree_as_fat t hash max max_order shift input : luts_new = Ok t -> 0 < max <= 2 ^ 31 -> 0 <= shift < max -> 0 <= max_order -> 8 * max_order + 7 < 2 ^ 16 -> zlen input / 8 < max ->
  well_supplied max_order input -> tree_states t max max_order shift input [] = fat_states t hash max max_order input [].
Proof.
  intros L M S O D F W. rewrite (tree_replays t max max_order shift input L M S O D F W). rewrite (fat_exact t hash max max_order input [] L) by (try assumption; clear -M O D; lia).
  destruct (report t max_order input); reflexivity.
Qed.
Lemma tree_window t max max_order shift input : luts_new = Ok t -> 0 < max <= 2 ^ 31 -> 0 <= shift < max -> 0 <= max_order -> 8 * max_order + 7 < 2 ^ 16 -> supplied max max_order input ->
  exists s states, tree_after t max max_order shift input = Ok s /\ tree_gather s [] = Ok states /\
    window_report (lt_rates t) max_order (forgotten max (map fst input)) (in_window max (map fst input)) states /\ zlen (filter is_for_node states) = branching max_order (in_window max (map fst input)) /\
    w_size (tr_window (ts_tree s)) = Z.min max (zlen input / 8 + 1) /\ sound_tree (ts_tree s).
Proof. intros L M S O D W. exact (tree_slides t max shift max_order (all_of t L) M S (conj O D) input W). Qed.

(** A caller can always supply what is needed. *)
Lemma supplied_snoc max max_order input b cs : supplied max max_order input -> zlen cs = branching max_order (in_window max (map fst input)) -> supplied max max_order (input ++ [(b, cs)]).
Proof.
  intros W C before b' cs' later E. destruct later as [|x later _] using rev_ind.
  - apply app_inj_tail in E as (-> & E). injection E as <- <-. exact C.
  - rewrite app_comm_cons, app_assoc in E. apply app_inj_tail in E as (-> & _). eapply W. reflexivity.
Qed.
Fixpoint supply_window (max max_order : Z) (c : cost_trackers) (done : list bit) (rest : list bit) : fed :=
  match rest with [] => [] | b :: rest => (b, repeat c (Z.to_nat (branching max_order (in_window max done)))) :: supply_window max max_order c (done ++ [b]) rest end.
Lemma supply_window_ok max max_order c rest : forall before, supplied max max_order before -> supplied max max_order (before ++ supply_window max max_order c (map fst before) rest).
Proof.
  induction rest as [|b rest IH]; intros before W; [now rewrite app_nil_r|]. cbn [supply_window].
  set (cs := repeat c _). replace (before ++ (b, cs) :: supply_window max max_order c (map fst before ++ [b]) rest)
    with ((before ++ [(b, cs)]) ++ supply_window max max_order c (map fst (before ++ [(b, cs)])) rest) by (rewrite map_app, <- app_assoc; reflexivity).
  apply IH. apply supplied_snoc; [exact W|]. unfold cs. rewrite zlen_repeat. apply Z2Nat.id. apply zlen_nonneg.
Qed.
Lemma supply_window_text max max_order c rest : forall done, map fst (supply_window max max_order c done rest) = rest.
Proof. induction rest as [|b rest IH]; intros done; [reflexivity|]. cbn [supply_window map fst]. now rewrite IH. Qed.
Lemma supply_sliding max max_order c text : exists input, map fst input = text /\ supplied max max_order input /\ Forall (fun x => Forall (eq c) (snd x)) input.
Proof.
  exists (supply_window max max_order c [] text). split; [apply supply_window_text|]. split.
  - apply (supply_window_ok max max_order c text []). intros before b cs later E. destruct before; discriminate.
  - generalize (@nil bit). induction text as [|b text IH]; intros done; cbn [supply_window]; constructor; [|apply IH]. cbn [snd]. apply Forall_forall. intros x X. apply repeat_spec in X. auto.
Qed.
