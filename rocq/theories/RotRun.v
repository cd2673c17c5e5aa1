(** Proofs for C68: two trees with windows that start elsewhere, step by step. *)
From Coq Require Import ZifyBool.
From Verif Require Import Base BaseFacts StateModel EstModel LogModel StatesModel StatesSpec StatesProofs WindowModel WindowSpec WindowProofs NodesModel NodesProofs TrieProofs HistModel HistSpec HistProofs FatProofs TreeStats TreeModel TreeSpec TreeWindow TreeLoop TreeRun TreeFacts RotProofs.
Ltac Zify.zify_post_hook ::= Z.div_mod_to_equations.

Section Two.
  Variables (t : luts) (m shift shift' max_order : Z).
  Hypothesis ALL : forall l, l <> [] -> exists s, state_of t l = Ok s /\ stands_for (lt_rates t) (fst (fst (last l (0, Zero, ct_default)))) (bits l) s.
  Hypothesis M : 0 < m <= 2 ^ 31.
  Hypothesis SH : 0 <= shift < m.
  Hypothesis SH' : 0 <= shift' < m.
  Hypothesis MO : 0 <= max_order /\ 8 * max_order + 7 < 2 ^ 16.
  Definition apart : Z := if shift <=? shift' then shift' - shift else shift' - shift + m.
  Lemma apart_range : 0 <= apart < m. Proof. unfold apart. destruct (shift <=? shift') eqn:E; lia. Qed.
  Notation d := apart.

  Lemma made_rel s s' : tree_new m max_order shift = Ok s -> tree_new m max_order shift' = Ok s' -> srel m d s s'.
  Proof.
    intros E E'. unfold tree_new in *. skip E E'. skip E E'. two E E' l L l' L'. same L L'. two E E' ns NS ns' NS'. same NS NS'. two E E' w W w' W'. skip E E'. injection E as <-. injection E' as <-. split; [|split; [constructor|split; reflexivity]].
    split; [|split; [|reflexivity]]; cbn [ts_tree tr_nodes tr_window].
    - split; [reflexivity|]. split; [|auto]. intros i n n' X X'. rewrite X in X'. injection X' as <-. unfold nodes_new in NS. apply bind_ok in NS. destruct NS as ([] & _ & NS). injection NS as <-. cbn [ns_items] in X. apply znth_In in X. destruct X as [<-|[]].
      split; [|discriminate]. split; [|repeat split]. intros a. left. destruct a; split; reflexivity.
    - unfold window_new in W, W'. skip W W'. skip W W'. skip W W'. injection W as <-. injection W' as <-. unfold wrel, own, brel. cbn [w_buffer w_start w_cursor w_size w_max].
      assert (ZR : forall k, 0 <= k -> zlen (repeat 0 (Z.to_nat k)) = k) by (intros k K; unfold zlen; rewrite repeat_length; lia). rewrite !ZR by lia. unfold rel, apart.
      split; [destruct (Z.ltb_spec 0 shift); lia|]. split; [destruct (Z.ltb_spec 0 shift'); lia|]. split; [destruct (Z.leb_spec shift shift'); lia|]. split; [destruct (Z.leb_spec shift shift'), (Z.ltb_spec 0 shift), (Z.ltb_spec 0 shift'); lia|]. split; [reflexivity|].
      intros i i' x x' _ X X'. apply znth_In in X. apply znth_In in X'. apply repeat_spec in X. apply repeat_spec in X'. congruence.
  Qed.
  Lemma core_live trk suf lo hi ns f free X : core t m shift max_order trk suf lo hi ns f free X -> live ns f /\ exists n, f root_index = Some n.
  Proof.
    intros C. pose proof (co_stock _ _ _ _ _ _ _ _ _ _ _ _ C) as ST. pose proof (co_trie _ _ _ _ _ _ _ _ _ _ _ _ C) as TR. pose proof (tk_part _ _ _ _ _ _ _ TR) as P. split.
    - intros i n F. destruct (st_live _ _ _ ST i n F) as (A & B). split; [exact A|]. split; [exact B|]. intros a CN. destruct (pt_child _ _ _ _ _ _ _ P i n a F) as [(Q & _)|(j & J & CE & (n' & _ & FJ & _))]; [lia|]. exists n'. rewrite CE. replace (- (- j - 1) - 1) with j by lia. exact FJ.
    - destruct (tk_root _ _ _ _ _ _ _ TR) as (n & _ & F & _). exists n. exact F.
  Qed.
  Lemma grown_live trk text lo hi tr cs : grown t m shift max_order trk text lo hi tr cs -> exists f, tr_proper tr = true -> live (tr_nodes tr) f /\ exists n, f root_index = Some n.
  Proof.
    unfold grown. destruct (tr_proper tr); [|intros _; exists (fun _ => None); discriminate]. intros (f & free & X & C & _). exists f. intros _. exact (core_live _ _ _ _ _ _ _ _ C).
  Qed.
  Lemma started_rel text s s' r r' : any_idle t m shift max_order text s -> zlen text mod 8 = 0 -> srel m d s s' -> tree_start s = Ok r -> tree_start s' = Ok r' -> srel m d r r'.
  Proof.
    intros (trk & I) L0 (T & C & O & B) E E'. unfold tree_idle in I. rewrite L0 in I. change (0 =? 0) with true in I. cbv iota in I. destruct I as (_ & _ & _ & _ & G). destruct (grown_live _ _ _ _ _ _ G) as (f & LV).
    unfold tree_start in *. rewrite <- O in E'. skip E E'. two E E' x X x' X'. destruct (start_byte_rel m d M apart_range _ _ _ _ _ _ _ T C LV X X') as (T1 & C1). two E E' y Y y' Y'. destruct (shift_rel m d M apart_range _ _ _ _ _ _ _ T1 C1 Y Y') as (T2 & C2).
    injection E as <-. injection E' as <-. split; [exact T2|]. split; [exact C2|]. split; reflexivity.
  Qed.

  Section Loop.
    Variables (trk : Z -> Z -> cost_trackers) (text : list bit) (b : bit) (lo hi u : Z) (w : window) (trackers : list cost_trackers).
    Hypothesis W : win m shift (text ++ [b]) lo hi w.
    Hypothesis U : zlen text = 8 * hi + u.
    Hypothesis U8 : 0 <= u < 8.
    Hypothesis TR : forall o, 0 <= o <= max_order -> lo <= hi - o ->
      (o < zlen trackers <-> forall a, exists q, lo <= q < hi - o /\ prefix (sufx text (hi - o) ++ [a]) (sufx text q)).
    Hypothesis TK : forall o k, znth trackers o = Some k -> trk (hi - o) (8 * o + u) = k.
    Notation looped := (looped t m shift max_order trk text b lo hi w).
    Definition strel (st st' : tree * list context * Z) : Prop := trel m d (fst (fst st)) (fst (fst st')) /\ csrel m d (snd (fst st)) (snd (fst st')) /\ snd st = snd st'.
    Lemma loop_rel C n : C <= max_order + 1 -> forall st st' r r', Z.of_nat n <= C -> lo <= hi + 1 - Z.of_nat n -> looped C (hi + 1 - Z.of_nat n) st -> strel st st' ->
      mfold (extend_step t trackers (7 - u)) (rev (range 0 (Z.of_nat n))) st = Ok r -> mfold (extend_step t trackers (7 - u)) (rev (range 0 (Z.of_nat n))) st' = Ok r' -> strel r r'.
    Proof.
      intros CM. induction n as [|n IH]; intros st st' r r' B K L R E E'; [injection E as <-; injection E' as <-; exact R|].
      replace (Z.of_nat (Datatypes.S n)) with (Z.of_nat n + 1) in * by lia. rewrite range_snoc in E, E' by lia. cbn [mfold] in E, E'. two E E' y Y y' Y'.
      destruct (extend_one t m shift max_order trk ALL M SH MO text b lo hi u w trackers W U U8 TR TK C (hi + 1 - (Z.of_nat n + 1)) (Z.of_nat n) st L CM K ltac:(lia) ltac:(lia)) as (st1 & E1 & L1). rewrite Y in E1. injection E1 as <-.
      replace (hi + 1 - (Z.of_nat n + 1) + 1) with (hi + 1 - Z.of_nat n) in L1 by lia. refine (IH _ _ _ _ ltac:(lia) ltac:(lia) L1 _ E E').
      destruct st as ((tr & cs) & cnt). destruct L as (LW & LP & LC & CN & MN & f & free & X & CO & HE & UN). destruct R as (R1 & R2 & R3). destruct (core_live _ _ _ _ _ _ _ _ CO) as (LV & _).
      refine (step_rel m d M apart_range t trackers (7 - u) f _ _ (Z.of_nat n) _ _ R1 R2 R3 ltac:(lia) LV _ Y Y'). cbn [fst snd]. intros cx Z1.
      destruct (HE (Z.of_nat n) cx ltac:(lia) Z1) as (_ & SD & _). exact (standing_live _ _ _ _ _ SD).
    Qed.
    Lemma extended_rel tr tr' cs cs' r r' : lo <= hi -> grown t m shift max_order trk text lo hi tr cs -> set_bit_at_cursor (tr_window tr) b (7 - u) = Ok w -> trel m d tr tr' -> csrel m d cs cs' ->
      tree_extend t tr cs trackers b (7 - u) max_order = Ok r -> tree_extend t tr' cs' trackers b (7 - u) max_order = Ok r' -> trel m d (fst r) (fst r') /\ csrel m d (snd r) (snd r').
    Proof.
      intros LH G SB (N & WR & TP) C E E'. pose proof apart_range as AR. unfold tree_extend in *. rewrite SB in E. cbn [bind] in E. apply bind_ok in E'. destruct E' as (w' & SB' & E'). pose proof (set_rel m d AR _ _ _ _ _ _ WR SB SB') as W1. cbn [tr_proper with_window] in E, E'. rewrite <- TP in E'.
      assert (T1 : trel m d (with_window tr w) (with_window tr' w')) by (split; [exact N|split; [exact W1|exact TP]]).
      unfold grown in G. destruct (tr_proper tr) eqn:PR.
      - destruct G as (f & free & X & CO & LC & HE & UN). pose proof (zlen_nonneg cs). rewrite <- (cs_len _ _ _ _ C) in E'.
        set (n := zlen cs) in *. assert (E0 : forall q, lo <= q <= hi -> sufk text b lo q = sufx text q) by (intros q Q; unfold sufk; now replace (q <? lo) with false by lia).
        assert (CB : lo <= hi + 1 - n).
        { destruct (Z.eq_dec n 0) as [|NC]; [lia|]. destruct (znth_lt cs (n - 1) ltac:(unfold n in *; lia)) as (cx & ZX). destruct (HE _ _ ZX) as ((q & (Q & _) & _) & _). lia. }
        assert (L0 : looped n lo (with_window tr w, cs, n)).
        { split; [reflexivity|]. split; [exact PR|]. split; [reflexivity|]. split; [lia|]. split; [lia|]. exists f, free, X. split; [now apply core_ext with (sufx text)|]. split.
          - intros o cx O ZX. apply (held_loose m shift max_order trk M SH MO lo hi u U8). apply held_ext with (sufx text); [exact E0|lia|]. now apply HE.
          - intros o O q Q. rewrite !E0 by lia. now apply UN. }
        pose proof (loop_silent t m shift max_order trk text b lo hi u w trackers W U U8 TR TK n (Z.to_nat (hi + 1 - n - lo)) lo _ L0 ltac:(lia) ltac:(lia)) as L1. replace (lo + Z.of_nat (Z.to_nat (hi + 1 - n - lo))) with (hi + 1 - Z.of_nat (Z.to_nat n)) in L1 by lia.
        two E E' y Y y' Y'. replace n with (Z.of_nat (Z.to_nat n)) in Y at 1 by lia. replace n with (Z.of_nat (Z.to_nat n)) in Y' at 1 by lia.
        assert (S0 : strel (with_window tr w, cs, n) (with_window tr' w', cs', n)) by (split; [exact T1|split; [exact C|reflexivity]]).
        pose proof (loop_rel n (Z.to_nat n) LC _ _ _ _ ltac:(lia) ltac:(lia) L1 S0 Y Y') as (R1 & R2 & R3). destruct y as ((yt & yc) & yn). destruct y' as ((yt' & yc') & yn'). cbn [fst snd] in R1, R2, R3. subst yn'. injection E as <-. injection E' as <-. split; [exact R1|]. cbn [snd]. now apply cs_first.
      - skip E E'. pose proof W1 as (_ & _ & _ & WC & SZ & _). rewrite <- SZ in E'. two E E' df DF df' DF'. assert (df = df').
        { destruct (2 <=? w_size w); [|congruence]. two DF DF' i IX i' IX'. pose proof (sub_rel m d AR _ _ _ _ _ _ _ W1 WC Z.le_0_1 IX IX') as RI. exact (subbed_differ m d _ _ _ _ _ _ _ W1 RI DF DF'). }
        subst df'. destruct df; [|injection E as <-; injection E' as <-; split; assumption]. two E E' a A a' A'. same A A'. two E E' y Y y' Y'. injection E as <-. injection E' as <-. split; [|exact C].
        cut (trel m d y y'); [intros (Q1 & Q2 & _); split; [exact Q1|split; [exact Q2|reflexivity]]|]. unfold split_degenerate_root_edge in *. two Y Y' k K k' K'. same K K'. two Y Y' z V z' V'. skip Y Y'. injection Y as <-. injection Y' as <-.
        refine (build_rel m d M AR t (7 - u) _ _ _ _ _ _ _ _ V V'); [intros q Q; apply in_rev in Q; unfold range in Q; apply zseq_In in Q; lia|exact T1|exact I].
    Qed.
  End Loop.

  Lemma processed_rel text s s' b trackers r r' : any_ready t m shift max_order text s -> zlen trackers = branching max_order (in_window m text) -> srel m d s s' ->
    tree_process t s b trackers = Ok r -> tree_process t s' b trackers = Ok r' -> srel m d r r'.
  Proof.
    intros (trk & R) TN (T & C & O & B) E E'. set (trk' := fun p d => if 8 * p + d =? zlen text then nth (Z.to_nat (d / 8)) trackers ct_default else trk p d). pose proof (zlen_nonneg text).
    destruct R as (L & SM & SB & W & G0). apply (grown_retrk t m shift max_order trk trk') in G0; [|unfold lowest; lia|intros p q P Q L'; unfold trk'; now replace (8 * p + q =? zlen text) with false by lia]. rename G0 into G.
    set (hi := zlen text / 8) in *. set (u := zlen text mod 8) in *. assert (U8 : 0 <= u < 8) by (unfold u; lia). assert (LH : 0 <= lowest m text hi <= hi) by (unfold lowest, hi; lia).
    unfold tree_process in *. rewrite <- B, <- O in E'. rewrite SB, SM in E, E'. skip E E'. two E E' x X x' X'. two E E' bi BI bi' BI'. same BI BI'.
    destruct (win_set m shift text (lowest m text hi) hi (tr_window (ts_tree s)) b u W ltac:(lia) ltac:(lia) ltac:(lia)) as (w' & WS & W').
    assert (TR : forall o, 0 <= o <= max_order -> lowest m text hi <= hi - o -> (o < zlen trackers <-> forall a, exists q, lowest m text hi <= q < hi - o /\ prefix (sufx text (hi - o) ++ [a]) (sufx text q))).
    { intros o OO RR. apply (br_trackers text (lowest m text hi) hi u L U8 LH max_order (zlen trackers)); [lia| |lia]. rewrite TN. reflexivity. }
    assert (TK : forall o k, znth trackers o = Some k -> trk' (hi - o) (8 * o + u) = k).
    { intros o k K. pose proof (znth_Some _ _ _ K). unfold trk'. replace (8 * (hi - o) + (8 * o + u) =? zlen text) with true by lia. replace ((8 * o + u) / 8) with o by lia. rewrite znth_nth_error in K by lia. exact (nth_error_nth _ _ _ K). }
    destruct (extended_rel trk' text b (lowest m text hi) hi u w' trackers W' L U8 TR TK _ _ _ _ _ _ (proj2 LH) G WS T C X X') as (T1 & C1). injection E as <-. injection E' as <-. split; [exact T1|]. split; [exact C1|]. split; reflexivity.
  Qed.
End Two.

(** ** Whole runs *)
Section Runs.
  Variables (t : luts) (m shift shift' max_order : Z).
  Hypothesis ALL : forall l, l <> [] -> exists s, state_of t l = Ok s /\ stands_for (lt_rates t) (fst (fst (last l (0, Zero, ct_default)))) (bits l) s.
  Hypothesis M : 0 < m <= 2 ^ 31.
  Hypothesis SH : 0 <= shift < m.
  Hypothesis SH' : 0 <= shift' < m.
  Hypothesis MO : 0 <= max_order /\ 8 * max_order + 7 < 2 ^ 16.
  Notation d := (apart m shift shift').
  Definition pair_idle (text : list bit) (s s' : source) : Prop := any_idle t m shift max_order text s /\ any_idle t m shift' max_order text s' /\ srel m d s s'.
  Definition pair_ready (text : list bit) (s s' : source) : Prop := any_ready t m shift max_order text s /\ any_ready t m shift' max_order text s' /\ srel m d s s'.
  Lemma pair_start text s s' : pair_idle text s s' -> exists r r', (if zlen text mod 8 =? 0 then tree_start s else Ok s) = Ok r /\ (if zlen text mod 8 =? 0 then tree_start s' else Ok s') = Ok r' /\ pair_ready text r r'.
  Proof.
    intros (I & I' & R). destruct (Z.eqb_spec (zlen text mod 8) 0) as [Q|Q].
    - destruct (any_start t m shift max_order M SH MO text s I Q) as (r & E & J). destruct (any_start t m shift' max_order M SH' MO text s' I' Q) as (r' & E' & J'). exists r, r'. split; [exact E|]. split; [exact E'|]. split; [exact J|]. split; [exact J'|].
      exact (started_rel t m shift shift' max_order M SH SH' text s s' r r' I Q R E E').
    - exists s, s'. split; [reflexivity|]. split; [reflexivity|]. destruct I as (trk & I). destruct I' as (trk' & I'). unfold tree_idle in I, I'. apply Z.eqb_neq in Q. rewrite Q in I, I'. split; [exists trk; exact I|]. split; [exists trk'; exact I'|exact R].
  Qed.
  Lemma pair_fold input l : supplied m max_order input -> forall before s s', input = before ++ l -> pair_idle (map fst before) s s' ->
    exists r r', mfold (feed_step tree_start (tree_process t)) l (zlen before, s) = Ok (zlen input, r) /\ mfold (feed_step tree_start (tree_process t)) l (zlen before, s') = Ok (zlen input, r') /\ pair_idle (map fst input) r r'.
  Proof.
    intros SU. induction l as [|x l IH]; intros before s s' EQ P.
    - rewrite app_nil_r in EQ. subst before. exists s, s'. auto.
    - cbn [mfold feed_step]. destruct (pair_start _ _ _ P) as (a & a' & S & S' & (J & J' & R)). rewrite zlen_map in S, S'. rewrite S, S'. cbn [bind]. destruct x as (b & tk). assert (TN := SU before b tk l EQ). cbn [fst snd].
      destruct (any_process t m shift max_order ALL M SH MO _ a b tk J TN) as (r & E & I). destruct (any_process t m shift' max_order ALL M SH' MO _ a' b tk J' TN) as (r' & E' & I').
      pose proof (processed_rel t m shift shift' max_order ALL M SH SH' MO _ a a' b tk r r' J TN R E E') as R1. rewrite E, E'. cbn [bind]. replace (zlen before + 1) with (zlen (before ++ [(b, tk)])) by (rewrite zlen_app; reflexivity).
      apply IH; [rewrite <- app_assoc; exact EQ|]. rewrite map_app. cbn [map fst]. split; [exact I|]. split; [exact I'|exact R1].
  Qed.
  Lemma pair_runs input : supplied m max_order input -> exists r r', tree_after t m max_order shift input = Ok r /\ tree_after t m max_order shift' input = Ok r' /\ pair_ready (map fst input) r r'.
  Proof.
    intros SU. unfold tree_after. destruct (any_new t m shift max_order M SH MO) as (s & E & I). destruct (any_new t m shift' max_order M SH' MO) as (s' & E' & I'). pose proof (made_rel m shift shift' max_order M SH SH' s s' E E') as R. rewrite E, E'. cbn [bind].
    destruct (pair_fold input input SU [] s s' eq_refl (conj I (conj I' R))) as (a & a' & F & F' & P). unfold feed. change (zlen (@nil (bit * list cost_trackers))) with 0 in F, F'. rewrite F, F'. cbn [bind]. destruct (pair_start _ _ _ P) as (r & r' & S & S' & J). rewrite zlen_map in S, S'. exists r, r'. auto.
  Qed.
  Lemma live_rel ns ns' : nsrel m d ns ns' -> live_nodes_count ns = live_nodes_count ns'.
  Proof.
    intros (L & A & _ & RM & _). unfold live_nodes_count. destruct (get (ns_items ns) 0) as [n|e] eqn:G.
    - pose proof (get_inv _ _ _ G) as ZN. pose proof (znth_Some _ _ _ ZN) as B. rewrite L in B. destruct (znth_lt _ _ B) as (n' & ZN'). rewrite (get_ok _ _ _ ZN'). cbn [bind]. rewrite <- (valid_rel m d n n' (proj1 (A _ _ _ ZN ZN'))), L, RM. reflexivity.
    - unfold get in G |- *. destruct (znth (ns_items ns) 0) as [?|] eqn:ZN; [discriminate|]. destruct (znth (ns_items ns') 0) as [n'|] eqn:ZN'; [|cbn [of_opt] in *; exact (f_equal (fun x => let* root := x in if nd_is_valid root then sub usize (zlen (ns_items ns)) (ns_removed ns) else Ok 0) (eq_sym G))].
      exfalso. apply znth_None in ZN. apply znth_Some in ZN'. lia.
  Qed.
End Runs.
Section Given.
  Variables (t : luts) (max shift shift' max_order : Z) (input : fed).
  Hypothesis L : luts_new = Ok t.
  Hypothesis M : 0 < max <= 2 ^ 31.
  Hypothesis SH : 0 <= shift < max.
  Hypothesis SH' : 0 <= shift' < max.
  Hypothesis O : 0 <= max_order.
  Hypothesis D : 8 * max_order + 7 < 2 ^ 16.
  Hypothesis SU : supplied max max_order input.
  Lemma turned_states : exists states, tree_states t max max_order shift input [] = Ok states /\ tree_states t max max_order shift' input [] = Ok states.
  Proof.
    destruct (pair_runs t max shift shift' max_order (all_of t L) M SH SH' (conj O D) input SU) as (r & r' & E & E' & (J & J' & R)). unfold tree_states. rewrite E, E'. cbn [bind].
    destruct (any_gather t max shift max_order (all_of t L) M (conj O D) _ _ J) as (st & G & _). destruct (any_gather t max shift' max_order (all_of t L) M (conj O D) _ _ J') as (st' & G' & _).
    pose proof (report_rel max _ M (apart_range max shift shift' SH SH') _ _ _ _ _ R G G') as <-. exists st. auto.
  Qed.
  Lemma turned_size : exists s s', tree_after t max max_order shift input = Ok s /\ tree_after t max max_order shift' input = Ok s' /\ live_nodes_count (tr_nodes (ts_tree s)) = live_nodes_count (tr_nodes (ts_tree s')) /\ zlen (ns_items (tr_nodes (ts_tree s))) = zlen (ns_items (tr_nodes (ts_tree s'))).
  Proof.
    destruct (pair_runs t max shift shift' max_order (all_of t L) M SH SH' (conj O D) input SU) as (r & r' & E & E' & (_ & _ & ((N & _) & _))). exists r, r'. split; [exact E|]. split; [exact E'|]. split; [eapply live_rel; eassumption|exact (proj1 N)].
  Qed.
End Given.
