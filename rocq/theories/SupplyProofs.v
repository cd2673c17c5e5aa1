(** A wrong number of trackers. *)
From Coq Require Import ZifyBool.
From Verif Require Import Base BaseFacts StatesModel StatesSpec StatesProofs WindowModel WindowSpec WindowProofs NodesModel HistModel HistSpec HistProofs FatProofs HistFacts
  TreeModel TreeSpec TrieProofs TreeWindow TreeStats TreeLoop TreeRun TreeFacts SupplySpec.
Ltac Zify.zify_post_hook ::= Z.div_mod_to_equations.

(** ** Loops *)
Lemma mfold_same {A B} (f g : B -> A -> res B) l : (forall s x, In x l -> f s x = g s x) -> forall s, mfold f l s = mfold g l s.
Proof.
  induction l as [|x l IH]; intros H s; [reflexivity|]. cbn [mfold]. rewrite (H s x) by now left. destruct (g s x); [|reflexivity]. cbn [bind]. apply IH. intros s' y Y. apply H. now right.
Qed.
Lemma mfold_stops {A B} (f g : B -> A -> res B) e l : (forall s x s', In x l -> f s x = Ok s' -> g s x = Ok s' \/ g s x = Fail e) ->
  (exists x, In x l /\ forall s s', f s x = Ok s' -> g s x = Fail e) -> forall s r, mfold f l s = Ok r -> mfold g l s = Fail e.
Proof.
  induction l as [|x l IH]; intros H (y & Y & K) s r E; [destruct Y|]. cbn [mfold] in *. destruct (f s x) as [s1|] eqn:F; [|discriminate]. cbn [bind] in E.
  destruct Y as [->|Y]; [rewrite (K s s1 F); reflexivity|]. destruct (H s x s1 (or_introl eq_refl) F) as [-> | ->]; [|reflexivity]. cbn [bind].
  apply (IH (fun s x s' I => H s x s' (or_intror I)) (ex_intro _ y (conj Y K)) s1 r E).
Qed.

(** ** The right number *)
Definition fitted (n : Z) (trs : list cost_trackers) : list cost_trackers := firstn (Z.to_nat n) (trs ++ repeat ct_default (Z.to_nat n)).
Lemma fitted_len n trs : 0 <= n -> zlen (fitted n trs) = n.
Proof. intros N. unfold fitted, zlen. rewrite firstn_length, app_length, repeat_length. lia. Qed.
Lemma fitted_more n trs : 0 <= n <= zlen trs -> fitted n trs = firstn (Z.to_nat n) trs.
Proof. intros N. unfold fitted, zlen in *. rewrite firstn_app. replace (Z.to_nat n - length trs)%nat with 0%nat by lia. now rewrite app_nil_r. Qed.
Lemma znth_firstn {A} (l : list A) n : forall i, i < Z.of_nat n -> znth (firstn n l) i = znth l i.
Proof.
  revert l. induction n as [|n IH]; intros l i I.
  - cbn [firstn]. rewrite (proj2 (znth_None (@nil A) i)) by (left; lia). symmetry. apply znth_None. left. lia.
  - destruct l as [|x l]; [reflexivity|]. cbn [firstn znth]. destruct (i =? 0); [reflexivity|]. apply IH. lia.
Qed.
Lemma znth_firstn_all {A} (l : list A) n i : (length l <= n)%nat -> znth (firstn n l) i = znth l i.
Proof. intros L. now rewrite firstn_all2. Qed.
Lemma fitted_at n trs o : 0 <= n -> o < zlen trs -> o < n -> znth (fitted n trs) o = znth trs o.
Proof. intros N L O. unfold fitted. rewrite znth_firstn by lia. now apply znth_app1. Qed.
Lemma fitted_apart n trs o : 0 <= n -> 0 <= o -> znth (fitted n trs) o = znth trs o \/ (o <? zlen (fitted n trs)) <> (o <? zlen trs).
Proof.
  intros N O. rewrite fitted_len by exact N. destruct (Z.ltb_spec o n), (Z.ltb_spec o (zlen trs)); try (right; discriminate); left.
  - now apply fitted_at.
  - rewrite (proj2 (znth_None trs o)) by (right; lia). apply znth_None. right. rewrite fitted_len by exact N. lia.
Qed.
Lemma same_place (a c : list cost_trackers) o : 0 <= o -> znth a o = znth c o -> (o <? zlen a) = (o <? zlen c) /\ (zlen a <=? o) = (zlen c <=? o) /\ get a o = get c o.
Proof.
  intros O E. unfold get. rewrite E. destruct (znth c o) as [x|] eqn:C.
  - pose proof (znth_Some _ _ _ C). pose proof (znth_Some _ _ _ E). split; [lia|]. split; [lia|reflexivity].
  - apply znth_None in C. apply znth_None in E. split; [lia|]. split; [lia|reflexivity].
Qed.

(** ** The hash-map source *)
Section Map.
  Variables (t : luts) (hash : hasher).
  Lemma record_same f b a c maps o : 0 <= o -> znth a o = znth c o -> fat_record t hash f b a maps o = fat_record t hash f b c maps o.
  Proof. intros O E. destruct (same_place a c o O E) as (A & B & C). unfold fat_record. rewrite A, B, C. reflexivity. Qed.
  Lemma record_stops f b a c maps o maps' : (o <? zlen a) <> (o <? zlen c) -> fat_record t hash f b a maps o = Ok maps' -> fat_record t hash f b c maps o = Fail EAssert.
  Proof.
    intros N E. unfold fat_record in *. cbn zeta in *.
    destruct (compute_hash hash _ o) as [h|]; [|discriminate]. cbn [bind] in *. destruct (map_index _ o) as [i|]; [|discriminate]. cbn [bind] in *.
    destruct (get maps i) as [m|]; [|discriminate]. cbn [bind] in *. destruct (index_subtract _ _ o) as [x|]; [|discriminate]. cbn [bind] in *.
    destruct (mfind _ _ 0) as [[(j, s)|]|]; [| |discriminate]; cbn [bind] in *.
    - destruct (is_for_node s).
      + destruct (o <? zlen a); [|discriminate]. destruct (o <? zlen c); [congruence|reflexivity].
      + assert (A : (zlen a <=? o) = negb (o <? zlen a)) by lia. assert (C : (zlen c <=? o) = negb (o <? zlen c)) by lia. rewrite A in E. rewrite C.
        destruct (o <? zlen a); [discriminate|]. destruct (o <? zlen c); [reflexivity|congruence].
    - assert (A : (zlen a <=? o) = negb (o <? zlen a)) by lia. assert (C : (zlen c <=? o) = negb (o <? zlen c)) by lia. rewrite A in E. rewrite C.
      destruct (o <? zlen a); [discriminate|]. destruct (o <? zlen c); [reflexivity|congruence].
  Qed.
End Map.

(** ** The tree *)
Lemma extend_same t a c bi st o : 0 <= o -> znth a o = znth c o -> extend_step t a bi st o = extend_step t c bi st o.
Proof. intros O E. destruct (same_place a c o O E) as (A & B & C). unfold extend_step. destruct st as ((tr, cs), n). rewrite A, B, C. reflexivity. Qed.
Lemma extend_stops t a c bi st o st' : (o <? zlen a) <> (o <? zlen c) -> extend_step t a bi st o = Ok st' -> extend_step t c bi st o = Fail EAssert.
Proof.
  intros N E. unfold extend_step in *. destruct st as ((tr, cs), cnt). cbn zeta in *.
  destruct (get cs o) as [cx|]; [|discriminate]. cbn [bind] in *.
  match type of E with (bind ?X _ = _) => destruct X as [cx1|]; [|discriminate] end. cbn [bind] in *.
  destruct (set cs o cx1) as [cs1|]; [|discriminate]. cbn [bind] in *. destruct (nodes_get _ _) as [n|]; [|discriminate]. cbn [bind] in *. destruct (depth_of o bi) as [d|]; [|discriminate]. cbn [bind] in *.
  destruct (nd_depth n =? d).
  - destruct (negb (cx_in_leaf cx1)); [|discriminate]. cbn [assert_ guard bind] in *. destruct (o <? zlen a); [|discriminate]. destruct (o <? zlen c); [congruence|reflexivity].
  - assert (A : (zlen a <=? o) = negb (o <? zlen a)) by lia. assert (C : (zlen c <=? o) = negb (o <? zlen c)) by lia. rewrite A in E. rewrite C.
    destruct (o <? zlen a); [discriminate|]. destruct (o <? zlen c); [reflexivity|congruence].
Qed.

Lemma filter_short {A} (f : A -> bool) l : zlen (filter f l) <= zlen l.
Proof. unfold zlen. induction l as [|x l IH]; [reflexivity|]. cbn [filter]. destruct (f x); cbn [length]; lia. Qed.
Lemma due_range mo text : 0 <= mo -> 0 <= branching mo text <= mo + 1.
Proof.
  intros M. split; [apply zlen_nonneg|]. unfold branching. pose proof (filter_short (fun o => negb (uniform (followers text o))) (zseq 0 (Z.to_nat (mo + 1)))) as H.
  unfold zlen at 2 in H. rewrite zseq_length in H. lia.
Qed.
(** Contexts that met both bits were met. *)
Lemma due_met mo text o : 0 <= mo -> 0 <= o < branching mo text -> followers text o <> [].
Proof. intros M O E. pose proof (due_range mo text M) as R. pose proof (proj2 (branching_iff mo text o ltac:(lia)) ltac:(lia)) as U. rewrite E in U. discriminate. Qed.
Lemma due_short mo text : 0 <= mo -> 0 < branching mo text -> branching mo text <= zlen text / 8.
Proof.
  intros M P. destruct (Z.le_gt_cases (branching mo text) (zlen text / 8)) as [L|G]; [exact L|exfalso]. apply (due_met mo text (branching mo text - 1) M ltac:(lia)).
  unfold followers. now rewrite earlier_none by lia.
Qed.

Section MapRun.
  Variables (t : luts) (hash : hasher) (max max_order : Z).
  Hypothesis LUTS : luts_new = Ok t.
  Lemma map_counted input f b trs : fat_ready t hash max max_order input f -> 0 <= max_order ->
    (map_takes max_order (map fst input) (zlen trs) -> exists f', fat_process t hash f b trs = Ok f' /\ fat_process t hash f b (firstn (Z.to_nat (branching max_order (map fst input))) trs) = Ok f') /\
    (~ map_takes max_order (map fst input) (zlen trs) -> fat_process t hash f b trs = Fail EAssert).
  Proof using LUTS.
    intros RDY M0. set (text := map fst input). set (due := branching max_order text). pose proof (due_range max_order text M0) as DR. fold due in DR.
    destruct (fat_process_ok t hash (all_states t LUTS) max max_order input f b (fitted due trs) RDY (fitted_len due trs ltac:(lia))) as (f' & E & _). clear LUTS.
    pose proof RDY as (bytes & W & RD & ML & MO & _). pose proof (fw_tape _ _ _ _ W) as T. pose proof T as (R & _). pose proof (zlen_map fst input) as LM. pose proof (zlen_nonneg input) as NI.
    pose proof (rp_m _ _ _ _ R) as M. pose proof (rp_fits _ _ _ _ R) as FT. unfold ready in RD. destruct ML as (M1 & M2 & M3). fold text in LM, RD.
    assert (DS : 0 < due -> due <= zlen text / 8) by (apply due_short; exact M0).
    unfold fat_process in *. rewrite (rp_cursor _ _ _ _ R), place_0 in * by lia. rewrite MO in *. rewrite add_ok in * by (ib; lia). cbn [bind] in *. rewrite range_0 in *. rewrite LM in *.
    set (count := Z.min max_order (zlen bytes - 1) + 1) in *. unfold map_takes. fold text due. split.
    - intros TK. exists f'. assert (FE : firstn (Z.to_nat due) trs = fitted due trs) by (symmetry; apply fitted_more; lia). rewrite FE. split; [|exact E].
      rewrite <- (mfold_same (fat_record t hash f b (fitted due trs))); [exact E|]. intros s x X. apply zseq_In in X. apply record_same; [lia|]. destruct TK as [EQ|(LT & EQ)].
      + rewrite <- FE. apply znth_firstn_all. unfold zlen in EQ; lia.
      + apply fitted_at; lia.
    - intros NT. destruct (mfold (fat_record t hash f b (fitted due trs)) (zseq 0 (Z.to_nat count)) (fm_maps f)) as [maps|] eqn:F; [|discriminate]. clear E.
      rewrite (mfold_stops (fat_record t hash f b (fitted due trs)) (fat_record t hash f b trs) EAssert (zseq 0 (Z.to_nat count))) with (r := maps); [reflexivity| | |exact F].
      + intros s x s' X E. apply zseq_In in X. destruct (fitted_apart due trs x ltac:(lia) ltac:(lia)) as [Q|Q].
        * left. rewrite <- (record_same t hash f b (fitted due trs)); [exact E|lia|exact Q].
        * right. exact (record_stops t hash f b _ _ s x s' Q E).
      + pose proof (zlen_nonneg trs). exists (Z.min due (zlen trs)). split; [apply zseq_In; lia|]. intros s s' E. apply (record_stops t hash f b (fitted due trs) trs s _ s'); [|exact E]. rewrite fitted_len by lia.
        assert (due <> zlen trs) by (intros Q; apply NT; left; congruence). lia.
  Qed.
End MapRun.

Section TreeRun.
  Variables (t : luts) (max shift max_order : Z).
  Hypothesis M : 0 < max <= 2 ^ 31.
  Hypothesis SH : 0 <= shift < max.
  Hypothesis MO : 0 <= max_order /\ 8 * max_order + 7 < 2 ^ 16.
  Section Shape.
    Variables (trk : Z -> Z -> cost_trackers) (text : list bit) (s : source).
    Hypothesis R : tree_ready t max shift max_order trk text s.
    Notation lo := (lowest max text (zlen text / 8)).
    Notation hi := (zlen text / 8).
    Lemma low_range : 0 <= lo <= hi. Proof using M. pose proof (zlen_nonneg text). unfold lowest. lia. Qed.
    Lemma contexts_met : tr_proper (ts_tree s) = true -> forall o, 0 <= o -> (o < zlen (ts_contexts s) <-> o <= max_order /\ followers (in_window max text) o <> []).
    Proof using R M.
      intros TP o O. destruct R as (L & _ & _ & _ & G). unfold grown in G. rewrite TP in G. destruct G as (f & free & X & _ & LC & HE & UN). pose proof low_range as LO.
      change (in_window max text) with (sufx text lo). pose proof (br_none text lo hi (zlen text mod 8) L ltac:(lia) LO o O) as BN. split.
      - intros C. split; [lia|]. intros E. destruct (znth_lt (ts_contexts s) o ltac:(lia)) as (cx & Z1). destruct (HE o cx Z1) as ((q & (Q & P & _) & _) & _). exact (proj1 BN E q Q P).
      - intros (OM & NE). destruct (Z.le_gt_cases (zlen (ts_contexts s)) o) as [LE|GT]; [exfalso|exact GT]. apply NE, BN. intros q Q. apply UN; lia.
    Qed.
    Lemma proper_changes : tr_proper (ts_tree s) = true -> ~ repeating (in_window max text).
    Proof using R M.
      intros TP (rest & E). destruct R as (L & _ & _ & _ & G). unfold grown in G. rewrite TP in G. destruct G as (f & free & X & CO & _). pose proof low_range as LO.
      change (in_window max text) with (sufx text lo) in E. assert (ST : prefix (sufx text (lo + 1)) (sufx text lo)).
      { exists rest. rewrite <- (sufx_skip text lo 1) by lia. exact E. }
      assert (NX : forall k, lo <= k -> prefix (sufx text (k + 1)) (sufx text k)).
      { intros k K. destruct (Z.le_gt_cases (k + 1) hi) as [KH|KH].
        - replace k with (lo + (k - lo)) by lia. replace (lo + (k - lo) + 1) with (lo + 1 + (k - lo)) by lia. rewrite <- (sufx_skip text (lo + 1) (k - lo)), <- (sufx_skip text lo (k - lo)) by lia. apply prefix_skip; [exact ST|].
          pose proof (sufx_len text (lo + 1) ltac:(lia)) as SL. clear - SL K KH LO. set (a := lowest max text hi) in *. clearbody a. unfold zlen in *. lia.
        - assert (NI : sufx text (k + 1) = []) by (unfold sufx; apply skipn_all2; unfold zlen in KH; lia). rewrite NI. exists (sufx text k). reflexivity. }
      assert (FAR : forall n k, lo <= k -> prefix (sufx text (k + Z.of_nat n)) (sufx text k)).
      { induction n as [|n IH]; intros k K; [rewrite Z.add_0_r; exists []; now rewrite app_nil_r|]. replace (k + Z.of_nat (Datatypes.S n)) with (k + 1 + Z.of_nat n) by lia.
        exact (prefix_trans _ _ _ (IH (k + 1) ltac:(lia)) (NX k K)). }
      pose proof (co_trie _ _ _ _ _ _ _ _ _ _ _ _ CO) as T. pose proof (tk_part _ _ _ _ _ _ _ T) as P. destruct (tk_root _ _ _ _ _ _ _ T) as (n & _ & F & _).
      destruct (node_branches _ _ _ _ _ _ _ P 0 n Zero F) as (p & (PR & PP)). destruct (node_branches _ _ _ _ _ _ _ P 0 n One F) as (q & (QR & QP)).
      assert (D : Zero = One); [|discriminate]. destruct (Z.le_gt_cases p q) as [LE|GT].
      - apply (prefix_snoc_det (X 0) Zero One (sufx text p) PP). apply (prefix_trans _ _ _ QP). replace q with (p + Z.of_nat (Z.to_nat (q - p))) by lia. apply FAR. lia.
      - apply (prefix_snoc_det (X 0) Zero One (sufx text q)); [|exact QP]. apply (prefix_trans _ _ _ PP). replace p with (q + Z.of_nat (Z.to_nat (p - q))) by lia. apply FAR. lia.
    Qed.
    Lemma flat_repeats : tr_proper (ts_tree s) = false -> repeating (in_window max text) /\ branching max_order (in_window max text) = 0.
    Proof using R M MO.
      intros TP. destruct R as (L & _ & _ & _ & G). unfold grown in G. rewrite TP in G. destruct G as (_ & _ & FL). pose proof low_range as LO.
      change (in_window max text) with (sufx text lo). split.
      - unfold repeating. change 8%nat with (Z.to_nat (8 * 1)). rewrite sufx_skip by lia. destruct (Z.le_gt_cases (lo + 1) hi) as [LE|GT]; [apply (FL lo (lo + 1)); lia|].
        assert (NI : sufx text (lo + 1) = []) by (unfold sufx; apply skipn_all2; unfold zlen in *; lia). rewrite NI. eexists. reflexivity.
      - pose proof (due_range max_order (sufx text lo) (proj1 MO)) as DR. destruct (Z.eq_dec (branching max_order (sufx text lo)) 0) as [E|N]; [exact E|exfalso].
        assert (U : uniform (followers (sufx text lo) 0) = false) by (apply (branching_iff max_order); lia).
        pose proof (proj1 (br_both text lo hi (zlen text mod 8) L ltac:(lia) LO 0 ltac:(lia)) U) as UU. destruct (UU Zero) as (p & PR & PP). destruct (UU One) as (q & QR & QP).
        assert (D : Zero = One); [|discriminate]. destruct (Z.eq_dec p q) as [->|NE]; [exact (prefix_snoc_det _ _ _ _ PP QP)|]. destruct (Z.lt_ge_cases p q) as [LT|GE].
        + apply (prefix_snoc_det (sufx text (hi - 0)) Zero One (sufx text p) PP). apply (prefix_trans _ _ _ QP). apply FL; lia.
        + apply (prefix_snoc_det (sufx text (hi - 0)) Zero One (sufx text q)); [|exact QP]. apply (prefix_trans _ _ _ PP). apply FL; lia.
    Qed.
  End Shape.
  Hypothesis LUTS : luts_new = Ok t.
  Lemma tree_counted text s b trs : any_ready t max shift max_order text s ->
    (tree_takes max_order (in_window max text) (zlen trs) -> exists s', tree_process t s b trs = Ok s' /\ tree_process t s b (firstn (Z.to_nat (branching max_order (in_window max text))) trs) = Ok s') /\
    (~ tree_takes max_order (in_window max text) (zlen trs) -> tree_process t s b trs = Fail EAssert).
  Proof using LUTS M SH MO.
    intros RDY. set (wt := in_window max text). set (due := branching max_order wt). pose proof (due_range max_order wt (proj1 MO)) as DR. fold due in DR.
    assert (FL := fitted_len due trs (proj1 DR)). pose proof (all_of t LUTS) as AL. clear LUTS.
    destruct (any_process t max shift max_order AL M SH MO text s b (fitted due trs) RDY FL) as (s' & E & _). destruct RDY as (trk & R).
    pose proof (zlen_nonneg trs) as NT0. unfold tree_takes. fold due. destruct (tr_proper (ts_tree s)) eqn:TP.
    - pose proof (contexts_met trk text s R TP) as CM. pose proof (proper_changes trk text s R TP) as NR. fold wt in CM, NR.
      assert (DC : due <= zlen (ts_contexts s)).
      { destruct (Z.le_gt_cases due 0) as [|G]; [pose proof (zlen_nonneg (ts_contexts s)); lia|]. assert (DD : 0 <= due - 1 < branching max_order wt) by (fold due; lia).
        pose proof (due_met max_order wt (due - 1) (proj1 MO) DD) as MT. assert (D1 : due - 1 <= max_order) by lia. pose proof (proj2 (CM (due - 1) (proj1 DD)) (conj D1 MT)). lia. }
      assert (FULL : due < zlen (ts_contexts s) <-> due <= max_order /\ followers wt due <> []) by (apply CM; lia).
      unfold tree_process, tree_extend in *. destruct (0 <=? ts_bit_index s); [|discriminate]. cbn [assert_ guard bind] in *.
      destruct (set_bit_at_cursor _ b _) as [w|]; [|discriminate]. cbn [bind] in *. cbn [tr_proper with_window] in *. rewrite TP in *.
      set (st0 := (with_window (ts_tree s) w, ts_contexts s, zlen (ts_contexts s))) in *. set (l := rev (range 0 (zlen (ts_contexts s)))) in *.
      assert (IL : forall x, In x l <-> 0 <= x < zlen (ts_contexts s)).
      { intros x. unfold l. rewrite <- in_rev, range_0, zseq_In. pose proof (zlen_nonneg (ts_contexts s)). lia. }
      split.
      + intros TK. exists s'. assert (FE : firstn (Z.to_nat due) trs = fitted due trs) by (symmetry; apply fitted_more; lia). rewrite FE. split; [|exact E].
        rewrite <- (mfold_same (extend_step t (fitted due trs) (ts_bit_index s))); [exact E|]. intros st x X. apply IL in X. apply extend_same; [lia|]. destruct TK as [EQ|(LT & EQ)].
        * rewrite <- FE. apply znth_firstn_all. unfold zlen in EQ. lia.
        * destruct (Z.lt_ge_cases x due) as [XD|GE]; [apply fitted_at; lia|exfalso]. destruct (proj1 FULL ltac:(lia)) as (A & B). destruct EQ as [EQ|[EQ|EQ]]; [lia|exact (B EQ)|exact (NR EQ)].
      + intros NT. destruct (mfold (extend_step t (fitted due trs) (ts_bit_index s)) l st0) as [r|] eqn:F; [|discriminate]. clear E.
        rewrite (mfold_stops (extend_step t (fitted due trs) (ts_bit_index s)) (extend_step t trs (ts_bit_index s)) EAssert l) with (r := r); [reflexivity| | |exact F].
        * intros st x st' X E. apply IL in X. destruct (fitted_apart due trs x ltac:(lia) ltac:(lia)) as [Q|Q].
          -- left. rewrite <- (extend_same t (fitted due trs)); [exact E|lia|exact Q].
          -- right. exact (extend_stops t _ _ _ st x st' Q E).
        * exists (Z.min due (zlen trs)). assert (NE : due <> zlen trs) by (intros Q; apply NT; left; congruence). split.
          -- apply IL. split; [lia|]. destruct (Z.lt_ge_cases (zlen trs) due) as [LT|GE]; [lia|]. assert (due < zlen (ts_contexts s)); [|lia]. apply FULL. split.
             ++ destruct (Z.eq_dec due (max_order + 1)) as [Q|Q]; [exfalso; apply NT; right; split; [lia|left; exact Q]|lia].
             ++ intros Q. apply NT. right. split; [lia|right; left; exact Q].
          -- intros st st' E. apply (extend_stops t (fitted due trs) trs _ st _ st'); [|exact E]. rewrite fitted_len by lia. lia.
    - destruct (flat_repeats trk text s R TP) as (RP & D0). fold wt in RP, D0. fold due in D0. rewrite D0 in *. change (firstn (Z.to_nat 0) trs) with (@nil cost_trackers).
      assert (SAME : forall a c, tree_process t s b a = tree_process t s b c).
      { intros a c. unfold tree_process, tree_extend. destruct (set_bit_at_cursor (tr_window (ts_tree s)) b (ts_bit_index s)); [|reflexivity]. cbn [bind tr_proper with_window]. rewrite TP. reflexivity. }
      split; [intros _; exists s'; rewrite (SAME trs (fitted 0 trs)), (SAME [] (fitted 0 trs)); auto|]. intros NT. exfalso. apply NT. destruct (Z.eq_dec (zlen trs) 0); [left; assumption|right; split; [lia|right; right; exact RP]].
  Qed.
End TreeRun.

(** ** After a run *)
Lemma tree_count t max max_order shift input b trs : luts_new = Ok t -> 0 < max <= 2 ^ 31 -> 0 <= shift < max -> 0 <= max_order -> 8 * max_order + 7 < 2 ^ 16 -> supplied max max_order input ->
  let text := in_window max (map fst input) in let due := branching max_order text in
  exists s, tree_after t max max_order shift input = Ok s /\
    (tree_takes max_order text (zlen trs) -> exists s', tree_process t s b trs = Ok s' /\ tree_process t s b (firstn (Z.to_nat due) trs) = Ok s') /\
    (~ tree_takes max_order text (zlen trs) -> tree_process t s b trs = Fail EAssert).
Proof.
  intros L M S O D W. destruct (tree_fed t max shift max_order (trackers_at input) (all_of t L) M S (conj O D) input W (trackers_at_ok input)) as (s & E & R).
  exists s. split; [exact E|]. exact (tree_counted t max shift max_order M S (conj O D) L (map fst input) s b trs (ex_intro (fun k => tree_ready t max shift max_order k (map fst input) s) _ R)).
Qed.
Lemma map_count t hash max max_order input b trs : luts_new = Ok t -> 0 < max < 2 ^ 63 -> 0 <= max_order -> 8 * (max_order + 1) < 2 ^ 64 -> zlen input / 8 < max -> well_supplied max_order input ->
  let text := map fst input in let due := branching max_order text in
  exists f, (let* f := fat_new max max_order in feed fat_start (fat_process t hash) f input) = Ok f /\
    (map_takes max_order text (zlen trs) -> exists f', fat_process t hash f b trs = Ok f' /\ fat_process t hash f b (firstn (Z.to_nat due) trs) = Ok f') /\
    (~ map_takes max_order text (zlen trs) -> fat_process t hash f b trs = Fail EAssert).
Proof.
  intros L M O D F W. destruct (fat_fed t hash (all_states t L) max max_order input M O D F W) as (f & E & R). exists f. split; [exact E|].
  exact (map_counted t hash max max_order L input f b trs R O).
Qed.

Lemma too_many_taken : exists max max_order input b trackers, supplied max max_order input /\ well_supplied max_order input /\
  zlen trackers <> branching max_order (map fst input) /\
  forall t hash, is_ok (let* s := tree_after t max max_order 0 input in tree_process t s b trackers) = true /\
    (let* f := fat_new max max_order in let* f := feed fat_start (fat_process t hash) f input in fat_process t hash f b trackers) = Fail EAssert.
Proof.
  exists 4, 1, [], Zero, [ct_default]. split; [intros before b c later E; destruct before; discriminate|]. split; [intros before b c later E; destruct before; discriminate|].
  split; [vm_compute; discriminate|]. intros t hash. split; vm_compute; reflexivity.
Qed.
