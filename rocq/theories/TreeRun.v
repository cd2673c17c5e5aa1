(** The tree source fed with a text. *)
From Coq Require Import ZifyBool.
From Verif Require Import Base BaseFacts StateModel EstModel LogModel StatesModel StatesSpec StatesProofs WindowModel WindowProofs HistModel HistSpec HistProofs FatProofs HistFacts
  NodesModel NodesProofs TrieProofs TrieContexts TreeStats TreeWindow TreeModel TreeLoop TreeRemove TreeGather TreeSpec.
Ltac Zify.zify_post_hook ::= Z.div_mod_to_equations.

(** ** The text in the window *)
Lemma zseq_last f n a p d : a <= p < a + Z.of_nat n -> f p = true -> (forall k, p < k < a + Z.of_nat n -> f k = false) -> last (filter f (zseq a n)) d = p.
Proof.
  intros R F N. replace n with (Z.to_nat (p - a) + (1 + Z.to_nat (a + Z.of_nat n - p - 1)))%nat by lia. rewrite !WindowProofs.zseq_app, !filter_app. cbn [zseq filter].
  replace (a + Z.of_nat (Z.to_nat (p - a))) with p by lia. rewrite F. replace (filter f (zseq (p + Z.of_nat 1) _)) with (@nil Z); [rewrite app_nil_r; apply last_last|].
  symmetry. assert (G : forall l, Forall (fun k => f k = false) l -> filter f l = []) by (induction 1 as [|x l H _ IH]; [reflexivity|cbn [filter]; now rewrite H]).
  apply G. apply Forall_forall. intros k K. apply zseq_In in K. apply N. lia.
Qed.
Lemma zseq_shift a n : zseq a n = map (fun p => p + a) (zseq 0 n).
Proof.
  enough (G : forall b, zseq (b + a) n = map (fun p => p + a) (zseq b n)) by exact (G 0). induction n as [|n IH]; intros b; [reflexivity|]. cbn [zseq map]. f_equal. rewrite <- IH. f_equal. lia.
Qed.
Lemma filter_shift {A B} (f : B -> bool) (g : A -> B) l : filter f (map g l) = map g (filter (fun x => f (g x)) l).
Proof. induction l as [|x l IH]; [reflexivity|]. cbn [map filter]. rewrite IH. now destruct (f (g x)). Qed.
Section Bridge.
  Variables (text : list bit) (lo hi u : Z).
  Hypothesis U : zlen text = 8 * hi + u.
  Hypothesis U8 : 0 <= u < 8.
  Hypothesis LO : 0 <= lo <= hi.
  Notation suf := (sufx text).
  Notation wt := (sufx text lo).
  Lemma br_len : zlen wt = 8 * (hi - lo) + u. Proof. rewrite sufx_len by lia. lia. Qed.
  Lemma br_start o : last_start wt o = hi - lo - o. Proof. unfold last_start. rewrite br_len. lia. Qed.
  Lemma br_part : unfinished wt = u. Proof. unfold unfinished. rewrite br_len. lia. Qed.
  Lemma br_suf q : lo <= q <= hi -> zlen (suf q) = 8 * (hi - q) + u. Proof. intros Q. rewrite sufx_len by lia. lia. Qed.
  Lemma br_bits p len : 0 <= p -> bits_at wt p len = firstn (Z.to_nat len) (suf (p + lo)).
  Proof. intros P. unfold bits_at. rewrite sufx_skip by lia. do 2 f_equal. lia. Qed.
  Lemma br_test o p : 0 <= o -> lo <= hi - o -> 0 <= p < hi - lo - o ->
    (same (bits_at wt p (8 * o + unfinished wt)) (bits_at wt (last_start wt o) (8 * o + unfinished wt)) = true <-> prefix (suf (hi - o)) (suf (p + lo))).
  Proof.
    intros O R P. rewrite same_iff, br_start, br_part, !br_bits by lia. replace (hi - lo - o + lo) with (hi - o) by lia. pose proof (br_suf (hi - o) ltac:(lia)) as L.
    rewrite prefix_firstn. replace (Z.to_nat (8 * o + u)) with (length (suf (hi - o))) by (unfold zlen in L; lia). rewrite firstn_all. reflexivity.
  Qed.
  Lemma br_earlier o p : 0 <= o -> (In p (earlier wt o) <-> 0 <= p < hi - lo - o /\ prefix (suf (hi - o)) (suf (p + lo))).
  Proof.
    intros O. unfold earlier. rewrite filter_In, zseq_In, br_start. split.
    - intros (R & S). split; [lia|]. rewrite <- br_start in S. apply br_test; lia || exact S.
    - intros (R & S). split; [lia|]. rewrite <- br_start. apply br_test; lia || exact S.
  Qed.
  Lemma br_followers o a : 0 <= o -> (In a (followers wt o) <-> next text lo (hi - o) a).
  Proof.
    intros O. unfold followers. rewrite in_map_iff. unfold after. rewrite br_part. split.
    - intros (p & E & I). apply br_earlier in I; [|exact O]. destruct I as (P & PX). exists (p + lo). split; [lia|]. pose proof (br_suf (hi - o) ltac:(lia)) as LR. pose proof (br_suf (p + lo) ltac:(lia)) as LQ.
      destruct (prefix_next _ _ PX ltac:(lia)) as (c & PC). replace a with c; [exact PC|]. apply prefix_nth in PC. destruct PC as (_ & _ & N). rewrite <- N, <- E.
      unfold sufx. rewrite !TreeWindow.nth_skipn. f_equal. unfold zlen, sufx in LR. lia.
    - intros (q & Q & PC). exists (q - lo). pose proof (br_suf (hi - o) ltac:(lia)) as LR. split; [|apply br_earlier; [exact O|]; split; [lia|]; replace (q - lo + lo) with q by lia; exact (prefix_drop _ _ _ PC)].
      apply prefix_nth in PC. destruct PC as (_ & _ & N). rewrite <- N. unfold sufx. rewrite !TreeWindow.nth_skipn. f_equal. unfold zlen, sufx in LR. lia.
  Qed.
  Lemma br_distance o q : 0 <= o -> prev suf lo (hi - o) q -> distance wt o = hi - o - q.
  Proof.
    intros O (Q & P & N). unfold distance. replace (last (earlier wt o) 0) with (q - lo); [rewrite br_start; lia|]. symmetry. unfold earlier. apply zseq_last.
    - rewrite br_start. lia.
    - apply br_test; try lia. replace (q - lo + lo) with q by lia. exact P.
    - intros k K. rewrite br_start in K. apply Bool.not_true_is_false. intros S. apply br_test in S; try lia. apply (N (k + lo)); [lia|exact S].
  Qed.
  Lemma br_hist trk o : 0 <= o <= hi - lo -> bits (hist trk suf lo hi (suf (hi - o))) = followers wt o.
  Proof.
    intros O. pose proof (br_suf (hi - o) ltac:(lia)) as LX. rewrite (hist_cut trk suf lo hi (hi - o)).
    2: lia.
    2:{ intros q Q. unfold longer. pose proof (br_suf q ltac:(lia)). apply andb_false_intro2. lia. }
    unfold bits, hist, followers, earlier. rewrite map_map. cbn [fst snd]. replace (hi - o - 1 + 1 - lo) with (hi - lo - o) by lia. rewrite (zseq_shift lo), filter_shift, map_map.
    replace (Z.to_nat (last_start wt o)) with (Z.to_nat (hi - lo - o)) by now rewrite br_start.
    assert (FE : filter (fun p => longer suf (suf (hi - o)) (p + lo)) (zseq 0 (Z.to_nat (hi - lo - o))) =
      filter (fun p => same (bits_at wt p (8 * o + unfinished wt)) (bits_at wt (last_start wt o) (8 * o + unfinished wt))) (zseq 0 (Z.to_nat (hi - lo - o)))).
    { apply filter_ext_in. intros p PI. apply zseq_In in PI. apply Bool.eq_true_iff_eq. rewrite (br_test o p) by lia. unfold longer. rewrite andb_true_iff, prefixb_iff. pose proof (br_suf (p + lo) ltac:(lia)).
      split; [intros (A & _); exact A|]. intros A. split; [exact A|]. lia. }
    rewrite FE. apply map_ext_in. intros p PI. apply filter_In in PI. destruct PI as (PI & _). apply zseq_In in PI. unfold after. rewrite br_part.
    unfold sufx. rewrite !TreeWindow.nth_skipn. f_equal. unfold zlen, sufx in LX. lia.
  Qed.
  Lemma br_none o : 0 <= o -> (followers wt o = [] <-> forall q, lo <= q < hi - o -> ~ prefix (suf (hi - o)) (suf q)).
  Proof.
    intros O. split.
    - intros E q Q P. assert (I : In (q - lo) (earlier wt o)) by (apply br_earlier; [exact O|]; split; [lia|]; replace (q - lo + lo) with q by lia; exact P).
      unfold followers in E. apply map_eq_nil in E. rewrite E in I. destruct I.
    - intros N. destruct (followers wt o) as [|a l] eqn:E; [reflexivity|exfalso]. assert (I : In a (followers wt o)) by (rewrite E; now left). apply br_followers in I; [|exact O].
      destruct I as (q & Q & P). exact (N q Q (prefix_drop _ _ _ P)).
  Qed.
  Lemma br_both o : 0 <= o -> (uniform (followers wt o) = false <-> forall a, next text lo (hi - o) a).
  Proof.
    intros O. rewrite uniform_iff, !br_followers by exact O. split; [intros (A & B) a; destruct a; assumption|]. intros H. split; apply H.
  Qed.
  Lemma br_trackers max_order n : 0 <= max_order -> n = branching max_order wt -> forall o, 0 <= o <= max_order -> (o < n <-> forall a, next text lo (hi - o) a).
  Proof. intros MO -> o O. rewrite <- branching_iff by exact O. apply br_both. lia. Qed.
End Bridge.

(** ** Feeding *)
Section Run.
  Variables (t : luts) (m shift max_order : Z) (trk : Z -> Z -> cost_trackers).
  Hypothesis ALL : forall l, l <> [] -> exists s, state_of t l = Ok s /\ stands_for (lt_rates t) (fst (fst (last l (0, Zero, ct_default)))) (bits l) s.
  Hypothesis M : 0 < m <= 2 ^ 31.
  Hypothesis SH : 0 <= shift < m.
  Hypothesis MO : 0 <= max_order /\ 8 * max_order + 7 < 2 ^ 16.
  Notation grown := (grown t m shift max_order trk).
  Definition lowest (text : list bit) (hi : Z) : Z := Z.max 0 (hi + 1 - m).
  Definition at_byte (text : list bit) (hi u bit_index : Z) (s : source) : Prop :=
    zlen text = 8 * hi + u /\ ts_max_order s = max_order /\ ts_bit_index s = bit_index /\
    win m shift text (lowest text hi) hi (tr_window (ts_tree s)) /\ grown text (lowest text hi) hi (ts_tree s) (ts_contexts s).
  Definition tree_ready (text : list bit) (s : source) : Prop := at_byte text (zlen text / 8) (zlen text mod 8) (7 - zlen text mod 8) s.
  Definition tree_idle (text : list bit) (s : source) : Prop :=
    if zlen text mod 8 =? 0 then at_byte text (zlen text / 8 - 1) 8 (-1) s else tree_ready text s.

  Lemma proper_wide suf lo hi ns cs : proper t m shift max_order trk suf lo hi ns cs -> lo <= hi.
  Proof. intros (f & free & X & CO & _). pose proof (tk_root _ _ _ _ _ _ _ (co_trie _ _ _ _ _ _ _ _ _ _ _ _ CO)) as TR. destruct TR as (n & q & _ & LA & _). destruct LA as ((R & _) & _). lia. Qed.

  Lemma tree_new_ok : exists s, tree_new m max_order shift = Ok s /\ tree_idle [] s.
  Proof.
    unfold tree_new. rewrite !assert_true by lia. cbn [bind]. rewrite sub_ok by (cbn [usize imin imax]; ib; lia). cbn [bind]. unfold num_roots.
    destruct (stock_new (Z.max 1 (m - 1)) ltac:(lia)) as (ns & -> & ST & LI). cbn [bind]. destruct (win_new m shift M SH) as (w & -> & W). cbn [bind].
    rewrite add_ok by (cbn [usize imin imax]; ib; lia). cbn [bind]. eexists. split; [reflexivity|]. unfold tree_idle. change (zlen (@nil bit)) with 0. change (0 mod 8 =? 0) with true. cbv iota. change (0 / 8 - 1) with (-1).
    unfold at_byte. cbn [ts_max_order ts_bit_index ts_tree ts_contexts tr_window]. assert (LE : lowest [] (-1) = 0) by (unfold lowest; lia). rewrite LE. split; [reflexivity|]. split; [reflexivity|]. split; [reflexivity|]. split; [exact W|].
    unfold TreeLoop.grown. cbn [tr_proper tr_nodes]. unfold flat. split; [reflexivity|]. split; [exists []; split; assumption|]. intros q r Q R RH. lia.
  Qed.

  Lemma shift_ok text lo hi tr cs : win m shift text lo (hi + 1) (tr_window tr) -> zlen text = 8 * hi + 8 -> grown text lo hi tr cs ->
    exists tr' cs', TreeModel.shift tr cs max_order = Ok (tr', cs') /\ tr_window tr' = tr_window tr /\ grown text lo (hi + 1) tr' cs'.
  Proof.
    intros W L G. unfold TreeLoop.grown in G. destruct (tr_proper tr) eqn:TP.
    - pose proof (proper_wide _ _ _ _ _ G) as LH. destruct (shift_proper t m shift max_order trk M MO text lo hi tr cs W L LH TP G) as (tr' & cs' & E & TW & TP' & P).
      exists tr', cs'. split; [exact E|]. split; [exact TW|]. unfold TreeLoop.grown. now rewrite TP'.
    - destruct (shift_flat m max_order trk text lo hi tr cs L TP G) as (E & F). exists tr, cs. split; [exact E|]. split; [reflexivity|]. unfold TreeLoop.grown. now rewrite TP.
  Qed.
  Lemma flat_less text lo hi ns cs : flat m text lo hi ns cs -> flat m text (lo + 1) hi ns cs.
  Proof. intros (A & B & C). split; [exact A|]. split; [exact B|]. intros q r Q R RH. apply C; lia. Qed.
  Lemma remove_ok text lo hi tr cs : win m shift text lo hi (tr_window tr) -> zlen text = 8 * hi + 8 -> grown text lo hi tr cs ->
    exists tr' cs', remove_leftmost_suffix tr cs = (let* w' := advance_start (tr_window tr) in Ok (with_window tr' w', cs')) /\ grown text (lo + 1) hi tr' cs'.
  Proof.
    intros W L G. unfold TreeLoop.grown in G. destruct (tr_proper tr) eqn:TP.
    - destruct (remove_proper t m shift max_order trk M MO text lo hi (tr_window tr) W L tr cs eq_refl TP G) as (tr' & cs' & E & _ & G'). exists tr', cs'. auto.
    - exists tr, cs. split; [|unfold TreeLoop.grown; rewrite TP; now apply flat_less]. unfold remove_leftmost_suffix. rewrite TP. reflexivity.
  Qed.

  Lemma tree_start_ok text s : tree_idle text s -> zlen text mod 8 = 0 -> exists s', tree_start s = Ok s' /\ tree_ready text s'.
  Proof.
    intros I L0. unfold tree_idle in I. rewrite L0 in I. change (0 =? 0) with true in I. cbv iota in I. unfold at_byte in I. destruct I as (L & SM & SB & W & G).
    set (hi := zlen text / 8 - 1) in *. unfold tree_start. rewrite SB. rewrite assert_true by reflexivity. cbn [bind].
    assert (A : exists tr cs, tree_start_byte (ts_tree s) (ts_contexts s) = Ok (tr, cs) /\ win m shift text (lowest text (hi + 1)) (hi + 1) (tr_window tr) /\ grown text (lowest text (hi + 1)) hi tr cs).
    { unfold tree_start_byte. pose proof (win_fits _ _ _ _ _ _ W) as FT. rewrite (win_size _ _ _ _ _ _ W), (win_max _ _ _ _ _ _ W). destruct (Z.eqb_spec (hi - lowest text hi + 1) m) as [E|N].
      - destruct (remove_ok text _ hi _ _ W L G) as (tr & cs & -> & G').
        destruct (win_drop m shift M text (lowest text hi) hi (tr_window (ts_tree s)) W ltac:(lia) L) as (w1 & -> & W1 & CL). destruct (CL E) as (c & IC & BC). cbn [bind fst tr_window with_window].
        rewrite IC. cbn [bind]. rewrite BC. cbn [bind]. rewrite assert_true by reflexivity. cbn [bind tr_window with_window]. rewrite (win_size _ _ _ _ _ _ W1), (win_max _ _ _ _ _ _ W1). rewrite assert_true by lia. cbn [bind].
        destruct (win_push m shift text _ hi _ W1 L ltac:(lia)) as (w2 & -> & W2). cbn [bind]. eexists _, _. split; [reflexivity|].
        assert (LE : lowest text (hi + 1) = lowest text hi + 1) by (unfold lowest in *; lia). rewrite LE. split; [exact W2|exact G'].
      - cbn [bind]. rewrite (win_size _ _ _ _ _ _ W), (win_max _ _ _ _ _ _ W). rewrite assert_true by lia. cbn [bind].
        destruct (win_push m shift text _ hi _ W L ltac:(lia)) as (w2 & -> & W2). cbn [bind]. eexists _, _. split; [reflexivity|].
        assert (LE : lowest text (hi + 1) = lowest text hi) by (unfold lowest in *; lia). rewrite LE. split; [exact W2|exact G]. }
    destruct A as (tr & cs & -> & W2 & G1). cbn [bind fst snd]. rewrite SM.
    destruct (shift_ok text (lowest text (hi + 1)) hi tr cs) as (tr' & cs' & -> & TW & G2); [exact W2|exact L|exact G1|]. cbn [bind fst snd]. eexists. split; [reflexivity|].
    unfold tree_ready, at_byte. cbn [ts_max_order ts_bit_index ts_tree ts_contexts]. rewrite L0, TW. replace (zlen text / 8) with (hi + 1) by (unfold hi; lia). split; [lia|]. auto.
  Qed.

  Lemma tree_process_ok text s b trackers : tree_ready text s -> zlen trackers = branching max_order (in_window m text) ->
    (forall o k, znth trackers o = Some k -> trk (zlen text / 8 - o) (8 * o + zlen text mod 8) = k) ->
    exists s', tree_process t s b trackers = Ok s' /\ tree_idle (text ++ [b]) s'.
  Proof.
    intros (L & SM & SB & W & G) TN TK. set (hi := zlen text / 8) in *. set (u := zlen text mod 8) in *. assert (U8 : 0 <= u < 8) by (unfold u; lia).
    assert (LH : 0 <= lowest text hi <= hi) by (pose proof (zlen_nonneg text); unfold lowest, hi; lia).
    unfold tree_process. rewrite SB, SM. rewrite assert_true by lia. cbn [bind].
    destruct (win_set m shift text (lowest text hi) hi (tr_window (ts_tree s)) b u W ltac:(lia) ltac:(lia) ltac:(lia)) as (w' & WS & W').
    assert (TR : forall o, 0 <= o <= max_order -> lowest text hi <= hi - o -> (o < zlen trackers <-> forall a, exists q, lowest text hi <= q < hi - o /\ prefix (sufx text (hi - o) ++ [a]) (sufx text q))).
    { intros o O R. apply (br_trackers text (lowest text hi) hi u L U8 LH max_order (zlen trackers)); [lia| |lia]. rewrite TN. reflexivity. }
    destruct (extend_ok t m shift max_order trk ALL M SH MO text b (lowest text hi) hi u w' trackers W' L U8 TR TK (ts_tree s) (ts_contexts s) ltac:(lia) G WS) as (tr' & cs' & -> & TW & G').
    cbn [bind]. rewrite sub_ok by (cbn [i32 imin imax]; ib; lia). cbn [bind fst snd]. eexists. split; [reflexivity|].
    assert (L1 : zlen (text ++ [b]) = 8 * hi + u + 1) by (rewrite zlen_app; change (zlen [b]) with 1; lia).
    unfold tree_idle. rewrite L1. destruct (Z.eqb_spec ((8 * hi + u + 1) mod 8) 0) as [E|N].
    - replace ((8 * hi + u + 1) / 8 - 1) with hi by lia. unfold at_byte. cbn [ts_max_order ts_bit_index ts_tree ts_contexts]. rewrite TW. split; [lia|]. split; [reflexivity|]. split; [lia|]. split; [exact W'|exact G'].
    - unfold tree_ready. rewrite L1. replace ((8 * hi + u + 1) / 8) with hi by lia. replace ((8 * hi + u + 1) mod 8) with (u + 1) by lia.
      unfold at_byte. cbn [ts_max_order ts_bit_index ts_tree ts_contexts]. rewrite TW. split; [lia|]. split; [reflexivity|]. split; [lia|]. split; [exact W'|exact G'].
  Qed.

  Lemma tree_fed input : supplied m max_order input ->
    (forall before b trackers later o k, input = before ++ (b, trackers) :: later -> znth trackers o = Some k -> trk (zlen before / 8 - o) (8 * o + zlen before mod 8) = k) ->
    exists s, tree_after t m max_order shift input = Ok s /\ tree_ready (map fst input) s.
  Proof.
    intros SU TK. unfold tree_after. destruct tree_new_ok as (s0 & -> & I0). cbn [bind].
    apply (feed_inv tree_start (tree_process t) (fun before s => tree_idle (map fst before) s) (fun before s => tree_ready (map fst before) s)).
    - exact I0.
    - intros before s I L0 _. apply tree_start_ok; [exact I|now rewrite zlen_map].
    - intros before s I NE. unfold tree_idle in I. rewrite zlen_map in I. destruct (Z.eqb_spec (zlen before mod 8) 0); [contradiction|exact I].
    - intros before s [b trackers] r J E. cbn [fst snd]. rewrite map_app. cbn [map fst]. apply tree_process_ok; [exact J|exact (SU _ _ _ _ E)|]. intros o k K. rewrite zlen_map. exact (TK _ _ _ _ _ _ E K).
  Qed.
End Run.

(** ** Whatever the trackers are *)
Lemma hist_retrk trk trk' text lo hi x : 0 <= lo -> (forall p d, 0 <= p -> 0 <= d -> 8 * p + d < zlen text -> trk p d = trk' p d) -> hist trk (sufx text) lo hi x = hist trk' (sufx text) lo hi x.
Proof.
  intros LO H. unfold hist. apply map_ext_in. intros q I. apply filter_In in I. destruct I as (R & L). apply zseq_In in R. unfold longer in L. rewrite andb_true_iff, Z.ltb_lt in L. destruct L as (_ & L).
  rewrite sufx_len in L by lia. pose proof (zlen_nonneg x). rewrite (H q (zlen x)) by lia. reflexivity.
Qed.
Section Any.
  Variables (t : luts) (m shift max_order : Z).
  Hypothesis ALL : forall l, l <> [] -> exists s, state_of t l = Ok s /\ stands_for (lt_rates t) (fst (fst (last l (0, Zero, ct_default)))) (bits l) s.
  Hypothesis M : 0 < m <= 2 ^ 31.
  Hypothesis SH : 0 <= shift < m.
  Hypothesis MO : 0 <= max_order /\ 8 * max_order + 7 < 2 ^ 16.
  Lemma grown_retrk trk trk' text lo hi tr cs : 0 <= lo -> (forall p d, 0 <= p -> 0 <= d -> 8 * p + d < zlen text -> trk p d = trk' p d) ->
    grown t m shift max_order trk text lo hi tr cs -> grown t m shift max_order trk' text lo hi tr cs.
  Proof.
    intros LO H. unfold grown. destruct (tr_proper tr); [|auto]. intros (f & free & X & [C1 C2 C3 C4 C5] & LC & HE & UN). exists f, free, X. split; [|split; [exact LC|split; [|exact UN]]].
    - split; try assumption. intros i n F. destruct (C4 i n F) as (older & A & B). exists older. split; [exact A|]. now rewrite <- (hist_retrk trk trk') by assumption.
    - intros o cx Z0. destruct (HE o cx Z0) as (A & B & (V & older & O1 & O2)). split; [exact A|]. split; [exact B|]. split; [exact V|]. exists older. split; [exact O1|]. now rewrite <- (hist_retrk trk trk') by assumption.
  Qed.
  Definition any_ready (text : list bit) (s : source) : Prop := exists trk, tree_ready t m shift max_order trk text s.
  Definition any_idle (text : list bit) (s : source) : Prop := exists trk, tree_idle t m shift max_order trk text s.
  Lemma any_new : exists s, tree_new m max_order shift = Ok s /\ any_idle [] s.
  Proof. destruct (tree_new_ok t m shift max_order (fun _ _ => ct_default) M SH MO) as (s & E & I). exists s. split; [exact E|]. eexists. exact I. Qed.
  Lemma any_start text s : any_idle text s -> zlen text mod 8 = 0 -> exists s', tree_start s = Ok s' /\ any_ready text s'.
  Proof. intros (trk & I) L. destruct (tree_start_ok t m shift max_order trk M SH MO text s I L) as (s' & E & R). exists s'. split; [exact E|]. now exists trk. Qed.
  Lemma any_process text s b trackers : any_ready text s -> zlen trackers = branching max_order (in_window m text) ->
    exists s', tree_process t s b trackers = Ok s' /\ any_idle (text ++ [b]) s'.
  Proof.
    intros (trk & R) TN. set (trk' := fun p d => if 8 * p + d =? zlen text then nth (Z.to_nat (d / 8)) trackers ct_default else trk p d). pose proof (zlen_nonneg text).
    assert (R' : tree_ready t m shift max_order trk' text s).
    { destruct R as (L & SM & SB & W & G). split; [exact L|]. split; [exact SM|]. split; [exact SB|]. split; [exact W|]. apply (grown_retrk trk); [unfold lowest; lia| |exact G].
      intros p d P D L'. unfold trk'. now replace (8 * p + d =? zlen text) with false by lia. }
    destruct (tree_process_ok t m shift max_order trk' ALL M SH MO text s b trackers R' TN) as (s' & E & I).
    - intros o k K. pose proof (znth_Some _ _ _ K). unfold trk'. replace (8 * (zlen text / 8 - o) + (8 * o + zlen text mod 8) =? zlen text) with true by lia.
      replace ((8 * o + zlen text mod 8) / 8) with o by lia. rewrite znth_nth_error in K by lia. exact (nth_error_nth _ _ _ K).
    - exists s'. split; [exact E|]. now exists trk'.
  Qed.
End Any.
