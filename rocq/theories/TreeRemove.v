(** A new byte is started: the oldest position leaves the tree when the window is full, the position after the last one enters it. *)
From Coq Require Import ZifyBool.
From Verif Require Import Base BaseFacts StateModel EstModel LogModel StatesModel StatesSpec StatesProofs WindowModel WindowProofs HistSpec HistProofs FatProofs
  NodesModel NodesProofs TrieProofs TrieContexts TreeStats TreeWindow TreeModel TreeLoop.
Ltac Zify.zify_post_hook ::= Z.div_mod_to_equations.

Lemma stock_ext ns f f' free : (forall i, f' i = f i) -> stock ns f free -> stock ns f' free.
Proof.
  intros E [S1 S2 S3 S4 S5 S6 S7 S8 S9 S10]. split; try assumption.
  - intros i I. rewrite E. auto.
  - intros i n. rewrite E. auto.
  - intros i R. rewrite E. auto.
  - rewrite E. auto.
Qed.
Lemma znth_removelast {A} (l : list A) i x : znth (removelast l) i = Some x -> znth l i = Some x.
Proof.
  destruct l as [|y l]; [discriminate|]. pose proof (app_removelast_last y (l := y :: l) ltac:(discriminate)) as E. intros Z0. rewrite E. rewrite znth_app1; [exact Z0|]. now apply znth_Some in Z0.
Qed.
Lemma zlen_removelast {A} (l : list A) : l <> [] -> zlen (removelast l) = zlen l - 1.
Proof.
  destruct l as [|y l]; [congruence|]. intros _. pose proof (app_removelast_last y (l := y :: l) ltac:(discriminate)) as E. rewrite E at 2. rewrite zlen_app, zlen_one. lia.
Qed.

Section Push.
  Variables (t : luts) (m shift max_order : Z) (trk : Z -> Z -> cost_trackers).
  Hypothesis M : 0 < m <= 2 ^ 31.
  Hypothesis MO : 0 <= max_order /\ 8 * max_order + 7 < 2 ^ 16.
  Notation adr := (addr m shift). Notation D := (8 * (max_order + 1)).
  Lemma shift_proper text lo hi tr cs : win m shift text lo (hi + 1) (tr_window tr) -> zlen text = 8 * hi + 8 -> lo <= hi -> tr_proper tr = true ->
    proper t m shift max_order trk (sufx text) lo hi (tr_nodes tr) cs ->
    exists tr' cs', TreeModel.shift tr cs max_order = Ok (tr', cs') /\ tr_window tr' = tr_window tr /\ tr_proper tr' = true /\
      proper t m shift max_order trk (sufx text) lo (hi + 1) (tr_nodes tr') cs'.
  Proof.
    intros W LT LH TP (f & free & X & CO & LC & HE & UN). pose proof (wn_lo _ _ _ _ _ _ W) as L0. pose proof (co_trie _ _ _ _ _ _ _ _ _ _ _ _ CO) as T. pose proof (tk_part _ _ _ _ _ _ _ T) as P.
    pose proof (co_stock _ _ _ _ _ _ _ _ _ _ _ _ CO) as ST. destruct (tk_root _ _ _ _ _ _ _ T) as (r & mm & F0 & LA & TS & _ & CP).
    assert (SE : sufx text (hi + 1) = []) by (apply sufx_end; lia).
    set (r' := nd_set_text_start r (adr (hi + 1))). assert (V' : nd_is_valid r' = true) by exact (proj2 (st_live _ _ _ ST 0 r F0)).
    destruct (stock_set _ _ _ 0 r' r ST V' F0) as (ns' & S1 & ST' & L' & _). assert (F0' : fupd f 0 (Some r') 0 = Some r') by apply fupd_same.
    destruct (co_stat _ _ _ _ _ _ _ _ _ _ _ _ CO 0 r F0) as (h & HX & FT). pose proof FT as (_ & FL & FR & G0 & G1).
    assert (SHP : TreeLoop.shape f (fupd f 0 (Some r'))).
    { split.
      - intros i n F. destruct (Z.eq_dec i 0) as [->|N]; [|exists n; rewrite fupd_other by exact N; auto]. rewrite F0 in F. injection F as <-. exists r'. rewrite fupd_same. split; [reflexivity|]. left. reflexivity.
      - intros i n F. destruct (Z.eq_dec i 0) as [->|N]; [eauto|]. rewrite fupd_other in F by exact N. eauto. }
    assert (T' : trie adr D (sufx text) lo (hi + 1) (fupd f 0 (Some r')) X).
    { eapply (trie_push adr D (sufx text) lo hi f X (fupd f 0 (Some r')) r r' T); try assumption; try reflexivity; [lia|]. intros k N. apply fupd_other. exact N. }
    assert (HP : forall x, hist trk (sufx text) lo (hi + 1) x = hist trk (sufx text) lo hi x) by (intros x; apply hist_push; [lia|exact SE]).
    assert (CO' : core t m shift max_order trk (sufx text) lo (hi + 1) ns' (fupd f 0 (Some r')) free X).
    { destruct CO as [C1 C2 C3 C4 C5]. split; try assumption; [congruence|]. intros i n F. destruct (Z.eq_dec i 0) as [->|N].
      - rewrite fupd_same in F. injection F as <-. exists h. split; [exact HX|]. rewrite HP. now apply fits_start.
      - rewrite fupd_other in F by exact N. destruct (C4 i n F) as (h' & A & B). exists h'. split; [exact A|]. now rewrite HP. }
    unfold TreeModel.shift. rewrite TP. unfold root_index. rewrite (stock_get _ _ _ _ _ ST F0). cbn [bind]. rewrite (win_cursor _ _ M _ _ _ _ W).
    pose proof (addr_range m shift ltac:(lia) (hi + 1)) as AR. rewrite wrap_id by (try (cbn [ibits u32]; ib); lia). fold r'. rewrite S1. cbn [bind]. rewrite (stock_get _ _ _ _ _ ST' F0'). cbn [bind].
    change (nd_left_count r') with (nd_left_count r). change (nd_right_count r') with (nd_right_count r). rewrite add_ok by (cbn [u16 imin imax]; ib; lia). cbn [bind].
    unfold index_decrement. rewrite (win_sub _ _ M _ _ _ _ W) by lia. cbn [bind]. replace (hi + 1 - 1) with hi by lia.
    set (cs0 := if max_order + 1 =? zlen cs then removelast cs else cs). pose proof (zlen_nonneg cs).
    assert (L0' : zlen cs0 = Z.min max_order (zlen cs)).
    { unfold cs0. destruct (Z.eqb_spec (max_order + 1) (zlen cs)) as [E|N]; [|lia]. rewrite zlen_removelast; [lia|]. intros ->. rewrite zlen_nil in E. lia. }
    assert (Z0 : forall o cx, znth cs0 o = Some cx -> znth cs o = Some cx) by (intros o cx; unfold cs0; destruct (max_order + 1 =? zlen cs); [apply znth_removelast|auto]).
    eexists _, _. split; [reflexivity|]. split; [reflexivity|]. split; [exact TP|]. cbn [tr_nodes with_nodes]. exists (fupd f 0 (Some r')), free, X. split; [exact CO'|]. split; [rewrite zlen_cons; lia|]. split.
    - intros o cx ZO. pose proof (znth_Some _ _ _ ZO) as RO. rewrite zlen_cons in RO. destruct (Z.eq_dec o 0) as [->|NO].
      + cbn in ZO. injection ZO as <-. replace (hi + 1 - 0) with (hi + 1) by lia. split; [|split].
        * exists hi. split; [|reflexivity]. split; [lia|]. rewrite SE. split; [apply prefix_nil|]. intros; lia.
        * left. split; [reflexivity|]. cbn [cx_node]. split; [eauto|]. rewrite SE. split; [apply prefix_nil|]. intros i n F _. eapply node_first; [exact (tk_part _ _ _ _ _ _ _ T')|exact (tk_root _ _ _ _ _ _ _ T')|exact F|apply prefix_nil].
        * cbn [cx_visits]. change max_occurrence_count with 1000. split; [lia|]. exists (zlen h). split; [split; [apply zlen_nonneg|exact HX]|]. rewrite FL, FR. rewrite SE, HP. pose proof (co_root _ _ _ _ _ _ _ _ _ _ _ _ CO) as X7.
          assert (LQ : forall q, lo <= q <= hi -> 8 <= zlen (sufx text q)) by (intros q Q; rewrite sufx_len by lia; lia).
          assert (E1 : zlen (hist trk (sufx text) lo hi (X 0)) = hi + 1 - lo).
          { apply hist_all; [lia|]. intros q Q. unfold longer. rewrite andb_true_iff, prefixb_iff, Z.ltb_lt. specialize (LQ q Q). split; [|lia]. apply compat_long; [|lia]. apply CP. split; [exact Q|apply prefix_nil]. }
          assert (E2 : zlen (hist trk (sufx text) lo hi []) = hi + 1 - lo).
          { apply hist_all; [lia|]. intros q Q. unfold longer. rewrite andb_true_iff, prefixb_iff, Z.ltb_lt. specialize (LQ q Q). split; [apply prefix_nil|]. rewrite zlen_nil. lia. }
          rewrite E2, <- E1. pose proof (count_total (h ++ hist trk (sufx text) lo hi (X 0))) as CT. rewrite zlen_app in CT. lia.
      + assert (ZC : znth cs0 (o - 1) = Some cx) by (cbn [znth] in ZO; replace (o =? 0) with false in ZO by lia; exact ZO).
        apply Z0 in ZC. destruct (HE _ _ ZC) as ((q & PV & CS) & SD & V1). replace (hi + 1 - o) with (hi - (o - 1)) by lia. split; [eauto|]. split; [now apply standing_shape with f|].
        unfold visited. now rewrite HP.
    - rewrite zlen_cons, L0'. intros o O q Q. replace (hi + 1 - o) with (hi - (o - 1)) in * by lia. apply UN; lia.
  Qed.
  Lemma shift_flat text lo hi tr cs : zlen text = 8 * hi + 8 -> tr_proper tr = false -> flat m text lo hi (tr_nodes tr) cs ->
    TreeModel.shift tr cs max_order = Ok (tr, cs) /\ flat m text lo (hi + 1) (tr_nodes tr) cs.
  Proof.
    intros LT TP (-> & ST & FL). unfold TreeModel.shift. rewrite TP. split; [reflexivity|]. split; [reflexivity|]. split; [exact ST|]. intros q r Q QR R. destruct (Z.eq_dec r (hi + 1)) as [->|N]; [|apply FL; lia].
    rewrite (sufx_end text (hi + 1)) by lia. apply prefix_nil.
  Qed.
End Push.

Lemma znth_dec {A} (l : list A) i : (exists x, znth l i = Some x) \/ ~ 0 <= i < zlen l.
Proof. destruct (Z.le_gt_cases 0 i), (Z.lt_ge_cases i (zlen l)); [left; apply znth_lt; lia|right; lia..]. Qed.
Lemma znth_In {A} (l : list A) i x : znth l i = Some x -> In x l.
Proof. revert i. induction l as [|y l IH]; intros i; [discriminate|]. cbn [znth]. destruct (i =? 0); [intros E; injection E as <-; now left|]. intros E. right. eauto. Qed.
Lemma prefix_glue n a b : (n <= length a)%nat -> prefix (firstn n a) b -> prefix (skipn n a) (skipn n b) -> prefix a b.
Proof.
  intros L (r & E) (s & PT). exists s. rewrite <- (firstn_skipn n b), PT, app_assoc. f_equal. rewrite <- (firstn_skipn n a) at 2. f_equal. rewrite E, firstn_app, firstn_firstn, firstn_length. replace (n - Nat.min n (length a))%nat with 0%nat by lia.
  rewrite Nat.min_id. now rewrite app_nil_r.
Qed.
Lemma rev_case {A} (l : list A) : l = [] \/ exists l' x, l = l' ++ [x].
Proof. induction l using rev_ind; eauto. Qed.
Lemma In_znth {A} (l : list A) x : In x l -> exists i, znth l i = Some x.
Proof.
  induction l as [|y l IH]; [intros []|]. intros [->|I]; [now exists 0|]. destruct (IH I) as (i & Z0). exists (i + 1). cbn [znth]. pose proof (znth_Some _ _ _ Z0). replace (i + 1 =? 0) with false by lia. now replace (i + 1 - 1) with i by lia.
Qed.
Lemma drop_none start l : forall order count, Forall (fun cx => cx_suffix cx <> start) l -> drop_contexts start l order count = Ok count.
Proof.
  induction l as [|cx l IH]; intros order count F; [reflexivity|]. cbn [drop_contexts]. pose proof (Forall_inv F) as N. cbv beta in N. replace (cx_suffix cx =? start) with false by lia. cbn [bind]. apply IH. exact (Forall_inv_tail F).
Qed.
Lemma redirect_znth v g cs o cx' : znth (redirect v g cs) o = Some cx' -> exists cx, znth cs o = Some cx /\ cx' = if cx_node cx =? v then g cx else cx.
Proof.
  unfold redirect. intros Z0. pose proof (znth_Some _ _ _ Z0) as R. rewrite zlen_map in R. destruct (znth_lt cs o R) as (cx & Z1). exists cx. split; [exact Z1|]. rewrite znth_map, Z1 in Z0. now injection Z0 as <-.
Qed.
Lemma redirect_none v g cs : existsb (fun cx => cx_node cx =? v) cs = false -> redirect v g cs = cs.
Proof.
  induction cs as [|cx cs IH]; [reflexivity|]. cbn [existsb redirect map]. rewrite orb_false_iff. intros (E & R). rewrite E. f_equal. exact (IH R).
Qed.

Section Drop.
  Variables (t : luts) (m shift max_order : Z) (trk : Z -> Z -> cost_trackers).
  Hypothesis M : 0 < m <= 2 ^ 31.
  Hypothesis MO : 0 <= max_order /\ 8 * max_order + 7 < 2 ^ 16.
  Notation adr := (addr m shift). Notation D := (8 * (max_order + 1)).
  Variables (text : list bit) (lo hi : Z) (w : window).
  Notation suf := (sufx text).
  Hypothesis W : win m shift text lo hi w.
  Hypothesis LT : zlen text = 8 * hi + 8.
  Lemma dr_lo : 0 <= lo <= hi + 1. Proof. exact (wn_lo _ _ _ _ _ _ W). Qed.
  Lemma dr_len q : lo <= q <= hi -> zlen (suf q) = 8 * (hi - q + 1).
  Proof. intros Q. pose proof dr_lo. rewrite sufx_len by lia. lia. Qed.
  Lemma dr_spread : spread suf lo hi.
  Proof. intros p q P PQ Q. rewrite !dr_len by lia. lia. Qed.
  Lemma dr_adr p : 0 <= adr p < 2 ^ 31. Proof. pose proof (addr_range m shift ltac:(lia) p). lia. Qed.
  Lemma dr_adr0 p : 0 <= adr p. Proof. apply dr_adr. Qed.
  Notation core := (core t m shift max_order trk). Notation held := (held m shift trk).
  Notation proper := (proper t m shift max_order trk).

  Lemma live_shorter f X i n : part adr D suf lo hi f X -> f i = Some n -> prefix (X i) (suf lo) \/ compat (suf lo) (X i) -> prefix (X i) (suf lo) /\ zlen (X i) < zlen (suf lo).
  Proof.
    intros P F C. destruct (node_branches _ _ _ _ _ _ _ P i n Zero F) as (q & (R & PQ)). apply prefix_len in PQ. rewrite snoc_len in PQ. rewrite dr_len in * by lia.
    split; [|lia]. destruct C as [C|C]; [exact C|]. apply compat_long; [exact C|]. rewrite dr_len by lia. lia.
  Qed.
  Lemma walk_ok tr f free X fuel : tr_window tr = w -> core suf lo hi (tr_nodes tr) f free X -> forall seen parent i n, f i = Some n -> prefix (X i) (suf lo) ->
    NoDup seen -> (forall k, In k seen -> exists x, f k = Some x /\ zlen (X k) < zlen (X i)) -> (fuel + length seen)%nat = length (ns_items (tr_nodes tr)) ->
    match parent with None => i = 0 | Some (u, e) => exists nu, f u = Some nu /\ nd_child nu e = - i - 1 /\ 0 < i end ->
    exists parent' v d nv, walk tr fuel parent i = Ok (parent', v, d) /\ f v = Some nv /\ 0 <= nd_child nv d /\ occurs suf lo hi (X v ++ [d]) lo /\ leaf_at adr D suf lo hi (X v ++ [d]) (nd_child nv d) /\
      match parent' with None => v = 0 | Some (u, e) => exists nu, f u = Some nu /\ nd_child nu e = - v - 1 /\ 0 < v end.
  Proof.
    intros TW CO. pose proof (co_trie _ _ _ _ _ _ _ _ _ _ _ _ CO) as T. pose proof (tk_part _ _ _ _ _ _ _ T) as P. pose proof (co_stock _ _ _ _ _ _ _ _ _ _ _ _ CO) as ST. pose proof dr_lo.
    induction fuel as [|fuel IH]; intros seen parent i n F PX ND SN FU PA.
    - exfalso. assert (I : incl (i :: seen) (zseq 0 (length (ns_items (tr_nodes tr))))).
      { intros k [<-|K]; [|destruct (SN k K) as (x & FK & _)]; apply zseq_In; [pose proof (stock_range _ _ _ _ _ ST F)|pose proof (stock_range _ _ _ _ _ ST FK)]; unfold zlen in *; lia. }
      apply NoDup_incl_length in I; [rewrite zseq_length in I; cbn [length] in I; lia|]. constructor; [|exact ND]. intros K. destruct (SN i K) as (x & _ & L). lia.
    - destruct (live_shorter f X i n P F (or_introl PX)) as (_ & LX). destruct (pt_depth _ _ _ _ _ _ _ P i n F) as (DN & DD). pose proof (zlen_nonneg (X i)).
      assert (LH : lo <= hi) by (destruct (node_branches _ _ _ _ _ _ _ P i n Zero F) as (q & (R & _)); lia). pose proof (dr_len lo ltac:(lia)) as LL.
      cbn [walk]. rewrite TW. rewrite (stock_get _ _ _ _ _ ST F). cbn [bind]. rewrite (win_start _ _ _ _ _ _ W), DN. rewrite (win_add _ _ M _ _ _ _ W) by lia. cbn [bind].
      rewrite (win_bit_at _ _ M _ _ _ _ W) by lia. cbn [bind]. set (d := nth (Z.to_nat (zlen (X i))) (suf lo) Zero).
      assert (PD : prefix (X i ++ [d]) (suf lo)). { apply prefix_nth. split; [exact PX|]. split; [exact LX|]. unfold d, zlen. now rewrite Nat2Z.id. }
      assert (OD : occurs suf lo hi (X i ++ [d]) lo) by (split; [lia|exact PD]). unfold child_is_node_index.
      destruct (pt_child _ _ _ _ _ _ _ P i n d F) as [(C0 & LF)|(j & J & CE & NA)].
      + replace (nd_child n d <? 0) with false by lia. exists parent, i, d, n. split; [reflexivity|]. auto 6.
      + replace (nd_child n d <? 0) with true by lia. rewrite CE, child_to_node by lia. cbn [bind]. pose proof NA as (nj & mj & FJ & _ & _ & PJ & CJ). pose proof (prefix_len _ _ PJ) as LJ. rewrite snoc_len in LJ.
        apply (IH (i :: seen) _ j nj).
        * exact FJ.
        * apply (live_shorter f X j nj P FJ). right. now apply CJ.
        * constructor; [|exact ND]. intros K. destruct (SN i K) as (x & _ & L). lia.
        * intros k [<-|K]; [exists n; split; [exact F|lia]|]. destruct (SN k K) as (x & FK & L). exists x. split; [exact FK|lia].
        * cbn [length]. lia.
        * exists n. auto.
  Qed.

  (** What stays of the contexts. *)
  Lemma held_drop f X f' X' r cx cx' : held suf lo hi f X false r cx -> ~ prev suf lo r lo -> cx_suffix cx' = cx_suffix cx -> cx_visits cx' = cx_visits cx ->
    standing f' X' false (suf r) cx' -> held suf (lo + 1) hi f' X' false r cx'.
  Proof.
    intros ((q & PV & CS) & _ & (V & older & O1 & O2)) NP E1 E2 S. destruct (hist_drop trk suf lo hi (suf r)) as (h & HL & HD).
    split; [|split; [exact S|rewrite E2; split; [exact V|exists (older + zlen h); pose proof (zlen_nonneg h); split; [lia|]; rewrite O2, HD, zlen_app; f_equal; lia]]]. exists q. split; [|congruence]. destruct PV as (Q & PQ & L).
    destruct (Z.eq_dec q lo) as [->|N]; [exfalso; apply NP; now split|]. split; [lia|]. split; assumption.
  Qed.
  Lemma unseen_drop from : unseen max_order suf lo hi from -> unseen max_order suf (lo + 1) hi from.
  Proof. intros UN o O q Q. apply UN; lia. Qed.
  (** A branch of the root lies within the first byte: with a longer common start all bytes of the window are the same. *)
  Lemma root_short f X : trie adr D suf (lo + 1) hi f X -> zlen (X 0) <= 7.
  Proof.
    intros T. destruct (Z.le_gt_cases (zlen (X 0)) 7) as [|G]; [assumption|exfalso]. pose proof dr_lo. destruct (tk_root _ _ _ _ _ _ _ T) as (n & _ & F & _ & _ & _ & CP).
    assert (BY : forall q k, lo + 1 <= q -> 0 <= k < 8 * (hi - q + 1) -> nth (Z.to_nat k) (suf q) Zero = nth (Z.to_nat (k mod 8)) (X 0) Zero).
    { intros q k Q K. pose proof (Z.div_mod k 8 ltac:(lia)) as DM. pose proof (Z.mod_pos_bound k 8 ltac:(lia)) as MB. set (e := k / 8) in *. set (r := k mod 8) in *.
      rewrite sufx_nth by lia. replace (8 * q + k) with (8 * (q + e) + r) by lia. rewrite <- sufx_nth by lia. assert (QE : lo + 1 <= q + e <= hi) by lia.
      pose proof (dr_len (q + e) ltac:(lia)) as LE. apply compat_nth; [apply CP; split; [exact QE|apply prefix_nil]| |]; unfold zlen in *; lia. }
    assert (SM : forall a, a = nth (Z.to_nat (zlen (X 0) mod 8)) (X 0) Zero).
    { intros a. destruct (node_branches _ _ _ _ _ _ _ (tk_part _ _ _ _ _ _ _ T) 0 n a F) as (q & (Q & PQ)). apply prefix_nth in PQ. destruct PQ as (_ & L & <-).
      rewrite dr_len in L by lia. pose proof (zlen_nonneg (X 0)). rewrite <- (BY q (zlen (X 0))) by lia. unfold zlen. now rewrite Nat2Z.id. }
    pose proof (SM Zero) as S0. rewrite <- (SM One) in S0. discriminate.
  Qed.
  Lemma core_drop ns f X free ns' f' X' free' : core suf lo hi ns f free X -> stock ns' f' free' -> ns_limit ns' = ns_limit ns -> trie adr D suf (lo + 1) hi f' X' ->
    (forall i n', f' i = Some n' -> exists k n, f k = Some n /\ X' i = X k /\ forall h, fits t h n -> fits t h n') -> core suf (lo + 1) hi ns' f' free' X'.
  Proof.
    intros CO ST LI T SS. destruct CO as [C1 C2 C3 C4 C5]. split; try assumption; [congruence| |now apply root_short with f'].
    intros i n' F. destruct (SS i n' F) as (k & n & FK & XK & FT). destruct (C4 k n FK) as (h & LB & FH). destruct (hist_drop trk suf lo hi (X k)) as (h1 & HL & HD). rewrite HD, app_assoc in FH.
    exists (h ++ h1). split; [rewrite zlen_app; lia|]. rewrite XK. auto.
  Qed.
  (** The next order repeats one byte later. *)
  Lemma next_order o q q' : prev suf lo (hi - (o + 1)) q' -> 0 <= o -> prev suf lo (hi - o) q -> q <> lo.
  Proof.
    intros (Q' & P' & _) O (Q & PQ & L) ->. pose proof dr_lo. apply (L (q' + 1)); [lia|]. apply (prefix_skip (Z.to_nat (8 * 1))) in P'; [|pose proof (dr_len (hi - (o + 1)) ltac:(lia)) as LL; unfold zlen in LL; lia].
    rewrite !sufx_skip in P' by lia. replace (hi - (o + 1) + 1) with (hi - o) in P' by lia. exact P'.
  Qed.
  (** *** The leaf of the oldest position goes, and the node above it *)
  Section Leaf.
    Variables (ns : nodes) (cs : list context) (f : Z -> option node) (free : list Z) (X : Z -> list bit) (v : Z) (nv : node) (d : bit).
    Hypothesis CO : core suf lo hi ns f free X.
    Hypothesis LC : zlen cs <= max_order + 1.
    Hypothesis HE : forall o cx, znth cs o = Some cx -> held suf lo hi f X false (hi - o) cx.
    Hypothesis UN : unseen max_order suf lo hi (zlen cs).
    Hypothesis F : f v = Some nv.
    Hypothesis LV : latest suf lo hi (X v ++ [d]) lo.
    Let T : trie adr D suf lo hi f X := co_trie _ _ _ _ _ _ _ _ _ _ _ _ CO.
    Let P : part adr D suf lo hi f X := tk_part _ _ _ _ _ _ _ T.
    Let ST : stock ns f free := co_stock _ _ _ _ _ _ _ _ _ _ _ _ CO.
    Lemma lf_leaf : leaf_at adr D suf lo hi (X v ++ [d]) (nd_child nv d) /\ nd_child nv d = adr lo.
    Proof. exact (first_latest_leaf _ _ _ _ _ _ _ T dr_adr0 v nv d F LV). Qed.
    Lemma lf_not_below r : lo < r <= hi -> ~ prefix (X v ++ [d]) (suf r).
    Proof. intros R PR. pose proof (proj2 LV r (conj (conj (Z.lt_le_incl _ _ (proj1 R)) (proj2 R)) PR)). lia. Qed.
    Lemma lf_prev o cx : znth cs o = Some cx -> ~ prev suf lo (hi - o) lo /\ lo < hi - o <= hi.
    Proof.
      intros Z0. pose proof (znth_Some _ _ _ Z0) as RO. destruct (HE o cx Z0) as ((q & (Q & PQ & L) & CS) & SD & _). set (r := hi - o) in *. split; [|lia]. intros (QL & PL & LL).
      destruct SD as [(_ & (n & FN) & (PX & _))|(_ & a & _ & [(n & FN & C0 & PX)|(? & _)])]; [| |discriminate].
      - assert (G : forall a, exists k, k = lo /\ prefix (X (cx_node cx) ++ [a]) (suf k)).
        { intros a. destruct (node_branches _ _ _ _ _ _ _ P _ _ a FN) as (k & (RK & PK)). exists k. split; [|exact PK]. assert (PR : prefix (suf r) (suf k)) by exact (prefix_trans _ _ _ PX (prefix_drop _ _ _ PK)).
          destruct (Z.eq_dec k lo) as [|NK]; [assumption|exfalso]. destruct (Z.lt_ge_cases k r) as [|GE]; [apply (LL k); [lia|exact PR]|].
          apply prefix_len in PX, PK. rewrite snoc_len in PK. rewrite dr_len in PX by lia. rewrite dr_len in PK by lia. lia. }
        destruct (G Zero) as (k0 & -> & P0). destruct (G One) as (k1 & -> & P1). discriminate (prefix_snoc_det _ _ _ _ P0 P1).
      - destruct (pt_child _ _ _ _ _ _ _ P _ n a FN) as [(_ & LF)|(j0 & J0 & CE0 & _)]; [|lia].
        destruct (leaf_unique _ _ _ _ _ _ _ T dr_adr0 _ _ _ _ _ _ _ _ lo FN F LF (proj1 lf_leaf) (prefix_trans _ _ _ PX PL) (proj2 (proj1 LV))) as (E1 & E2). rewrite E1, E2 in PX.
        exact (lf_not_below r ltac:(lia) PX).
    Qed.
    Lemma lf_in_leaf o cx : znth cs o = Some cx -> cx_in_leaf cx = true -> exists a n, cx_direction cx = Some a /\ f (cx_node cx) = Some n /\ 0 <= nd_child n a /\ prefix (X (cx_node cx) ++ [a]) (suf (hi - o)) /\ (cx_node cx = v -> a = negb d).
    Proof.
      intros Z0 IL. destruct (lf_prev o cx Z0) as (_ & R). destruct (HE o cx Z0) as (_ & SD & _). destruct SD as [(IL' & _)|(_ & a & DE & [(n & FN & C0 & PX)|(? & _)])]; [congruence| |discriminate].
      exists a, n. repeat (split; [assumption|]). intros E. rewrite E in PX. apply negb_other. intros ->. exact (lf_not_below _ R PX).
    Qed.

    Lemma lf_finish ns' f' free' X' k g : core suf (lo + 1) hi ns' f' free' X' -> (forall cx, cx_suffix (g cx) = cx_suffix cx /\ cx_visits (g cx) = cx_visits cx) ->
      (forall o cx, znth cs o = Some cx -> standing f X false (suf (hi - o)) cx -> standing f' X' false (suf (hi - o)) (if cx_node cx =? k then g cx else cx)) ->
      proper suf (lo + 1) hi ns' (redirect k g cs).
    Proof.
      intros CO' G SD. exists f', free', X'. assert (LE : zlen (redirect k g cs) = zlen cs) by apply zlen_map. split; [exact CO'|]. rewrite LE. split; [exact LC|]. split; [|now apply unseen_drop].
      intros o cx' Z'. apply redirect_znth in Z' as (cx & Z0 & ->). pose proof (HE o cx Z0) as HO. apply (held_drop f X _ _ _ cx); [exact HO|apply (lf_prev o cx Z0)| | |apply SD; [exact Z0|apply HO]].
      - destruct (cx_node cx =? k); [apply G|reflexivity].
      - destruct (cx_node cx =? k); [apply G|reflexivity].
    Qed.

    Section Inner.
      Variables (u : Z) (nu : node) (e : bit).
      Hypothesis FU : f u = Some nu.
      Hypothesis CU : nd_child nu e = - v - 1.
      Hypothesis V0 : 0 < v.
      Lemma in_hangs : node_at adr suf lo hi f X (X u ++ [e]) v.
      Proof. exact (parent_hangs _ _ _ _ _ _ _ T dr_adr0 v u nu e FU CU V0). Qed.
      Lemma in_differs : u <> v.
      Proof. intros E. destruct in_hangs as (n0 & m0 & _ & _ & _ & PU & _). rewrite E in PU. apply prefix_len in PU. rewrite snoc_len in PU. lia. Qed.
      Lemma in_above x : at_node f X x v -> prefix (X u ++ [e]) x.
      Proof.
        intros (_ & PX & FB). destruct in_hangs as (n0 & m0 & _ & _ & _ & PU & _). destruct (prefix_compare _ _ _ PX PU) as [PL|PL]; [|exact PL]. apply prefix_snoc_inv in PL. destruct PL as [->|PL]; [apply prefix_refl|exfalso].
        pose proof (FB u nu FU PL) as BV. apply prefix_len in BV, PU. rewrite snoc_len in PU. lia.
      Qed.
      (** The last position below the node that goes is below its other child, unless a context is at the node. *)
      Lemma in_latest : existsb (fun cx => cx_node cx =? v) cs = false -> exists mm, nd_text_start nv = adr mm /\ latest suf lo hi (X v ++ [negb d]) mm.
      Proof.
        intros NF. destruct in_hangs as (n0 & mm & FV & LA & TS & PU & CP). rewrite F in FV. injection FV as <-. exists mm. split; [exact TS|]. pose proof LA as (OM & LM).
        assert (NL : mm <> lo) by (intros ->; exact (node_not_first _ _ _ _ _ _ _ T dr_adr0 _ _ in_hangs LA)).
        assert (LX : prefix (X v) (suf mm) /\ zlen (X v) < zlen (suf mm)).
        { destruct (Z.lt_ge_cases (zlen (X v)) (zlen (suf mm))) as [G|G]; [split; [apply compat_long; [now apply CP|lia]|exact G]|exfalso].
          assert (PM : prefix (suf mm) (X v)) by (apply compat_short; [now apply CP|exact G]). destruct OM as (RM & PMM). destruct (pt_depth _ _ _ _ _ _ _ P v nv F) as (_ & DV). rewrite dr_len in G by lia.
          destruct (znth_dec cs (hi - mm)) as [(cx & Z0)|NZ].
          - destruct (HE _ _ Z0) as (_ & SD & _). replace (hi - (hi - mm)) with mm in SD by lia. destruct SD as [(IL & (n & FN) & (PX & FB))|(_ & a & _ & [(n & FN & C0 & PX)|(? & _)])]; [| |discriminate].
            + assert (E : X (cx_node cx) = X v).
              { pose proof (FB v nv F PM) as B1. pose proof (node_first _ _ _ _ _ _ _ P _ _ _ _ in_hangs FN (prefix_trans _ _ _ PMM PX)) as B2. apply prefix_eq; [exact B1|]. now apply prefix_len. }
              pose proof (pt_inj _ _ _ _ _ _ _ P _ _ _ _ FN F E) as EV. assert (EX : existsb (fun cx => cx_node cx =? v) cs = true); [|congruence]. apply existsb_exists. exists cx. split; [now apply znth_In in Z0|lia].
            + destruct (pt_child _ _ _ _ _ _ _ P _ n a FN) as [(_ & LF)|(j0 & J0 & CE0 & _)]; [|lia]. exact (leaf_no_node _ _ _ _ _ _ _ P _ _ _ _ LF F (prefix_trans _ _ _ PX PM)).
          - destruct (node_branches _ _ _ _ _ _ _ P _ _ Zero F) as (k & (RK & PK)). pose proof (prefix_len _ _ PK) as LK. rewrite snoc_len in LK. rewrite dr_len in LK by lia.
            apply (UN (hi - mm) ltac:(lia) k ltac:(lia)). replace (hi - (hi - mm)) with mm by lia. exact (prefix_trans _ _ _ PM (prefix_drop _ _ _ PK)). }
        destruct LX as (PX & LX). destruct (prefix_next _ _ PX LX) as (a & PA). destruct (Bool.bool_dec a d) as [->|NA].
        - pose proof (proj2 LV mm (conj (proj1 OM) PA)). destruct OM as ((RM & _) & _). lia.
        - apply negb_other in NA. subst a. split; [split; [apply OM|exact PA]|]. intros q OQ. apply LM. split; [apply OQ|]. apply (prefix_trans _ (X v)); [exact PU|]. exact (prefix_drop _ _ _ (proj2 OQ)).
      Qed.
      Lemma in_ts : exists mm, nd_text_start nv = adr mm /\ 0 <= adr mm < 2 ^ 31.
      Proof. destruct in_hangs as (n0 & mm & FV & _ & TS & _). rewrite F in FV. injection FV as <-. exists mm. split; [exact TS|apply dr_adr]. Qed.
      Lemma in_stay f' x cx : (forall k n, f k = Some n -> k <> v -> exists n', f' k = Some n' /\ forall a, 0 <= nd_child n a -> nd_child n' a = nd_child n a) ->
        (forall k n', f' k = Some n' -> exists n, f k = Some n) -> standing f X false x cx -> cx_node cx <> v -> standing f' X false x cx.
      Proof.
        intros S1 S2 [(IL & (n & FN) & (PX & FB))|(IL & a & DE & [(n & FN & C0 & PX)|(? & _)])] NV; [left|right|discriminate].
        - split; [exact IL|]. destruct (S1 _ n FN NV) as (n' & FN' & _). split; [eauto|]. split; [exact PX|]. intros i ni FI PI. destruct (S2 i ni FI) as (n2 & F2). eauto.
        - split; [exact IL|]. exists a. split; [exact DE|]. left. destruct (S1 _ n FN NV) as (n' & FN' & CH). exists n'. rewrite CH by exact C0. auto.
      Qed.
      Lemma in_sibling_leaf : 0 <= nd_child nv (negb d) -> exists ns1 ns', nodes_set ns u (nd_set_child nu e (nd_text_start nv)) = Ok ns1 /\ nodes_delete ns1 v = Ok ns' /\
        proper suf (lo + 1) hi ns' (redirect v (fun cx => mkContext (cx_suffix cx) u (cx_visits cx) true (Some e)) cs).
      Proof.
        intros SC. destruct in_ts as (mm & TS & RM). pose proof in_differs as UV. assert (VU : nd_is_valid nu = true) by apply (st_live _ _ _ ST u nu FU).
        set (nu' := nd_set_child nu e (nd_text_start nv)). assert (VU' : nd_is_valid nu' = true) by (apply valid_set; [exact VU|lia]).
        destruct (stock_set _ _ _ u nu' nu ST VU' FU) as (ns1 & E1 & ST1 & L1 & _). assert (FV1 : fupd f u (Some nu') v = Some nv) by (rewrite fupd_other by congruence; exact F).
        destruct (stock_delete _ _ _ v nv ST1 ltac:(lia) FV1) as (ns2 & E2 & ST2 & L2 & _). exists ns1, ns2. split; [exact E1|]. split; [exact E2|].
        set (f' := fupd (fupd f u (Some nu')) v None) in *. assert (FU' : f' u = Some nu') by (unfold f'; rewrite fupd_other by congruence; apply fupd_same). assert (FV' : f' v = None) by apply fupd_same.
        assert (OT : forall k, k <> u -> k <> v -> f' k = f k) by (intros k K1 K2; unfold f'; rewrite !fupd_other by assumption; reflexivity).
        assert (T' : trie adr D suf (lo + 1) hi f' X).
        { apply (drop_leaf_node _ _ _ _ _ _ _ T dr_adr0 v nv d F LV u nu e FU CU V0 f' nu' (nd_text_start nv)); try assumption; try reflexivity; [exact dr_spread|apply depth_set_child|apply start_set_child|apply child_set_same|apply child_set_other]. }
        apply lf_finish with f' (v :: free) X.
        - apply (core_drop ns f X free); try assumption; [congruence|]. intros i n' FI. destruct (Z.eq_dec i v) as [->|NI]; [congruence|]. destruct (Z.eq_dec i u) as [->|NU].
          + exists u, nu. split; [exact FU|]. split; [reflexivity|]. rewrite FU' in FI. injection FI as <-. intros h. apply fits_child.
          + rewrite OT in FI by assumption. eauto.
        - split; reflexivity.
        - intros o cx Z0 SD. destruct (Z.eqb_spec (cx_node cx) v) as [EV|NV].
          + right. split; [reflexivity|]. exists e. split; [reflexivity|]. left. exists nu'. split; [exact FU'|]. unfold nu'. rewrite child_set_same. split; [lia|]. cbn [cx_node].
            destruct SD as [(_ & AN)|(IL & _)]; [rewrite EV in AN; exact (in_above _ AN)|]. destruct (lf_in_leaf o cx Z0 IL) as (a & n & _ & FN & _ & PX & _). rewrite EV in PX.
            destruct in_hangs as (n0 & m0 & _ & _ & _ & PU & _). exact (prefix_trans _ _ _ PU (prefix_drop _ _ _ PX)).
          + apply in_stay; try assumption.
            * intros k n FK KV. destruct (Z.eq_dec k u) as [->|NU]; [|exists n; rewrite OT by assumption; auto]. exists nu'. split; [exact FU'|]. assert (EN : n = nu) by congruence. subst n. intros a C0. destruct (Bool.bool_dec a e) as [->|NA]; [lia|]. rewrite (negb_other _ _ NA). apply child_set_other.
            * intros k n' FK. destruct (Z.eq_dec k v) as [->|NK]; [congruence|]. destruct (Z.eq_dec k u) as [->|NU]; [eauto|]. rewrite OT in FK by assumption. eauto.
      Qed.
      (** The other child is a node; [nj'] is what it becomes. *)
      Lemma in_sibling_node j nj nj' ns1 : 0 < j -> nd_child nv (negb d) = - j - 1 -> f j = Some nj -> nd_depth nj' = nd_depth nj -> nd_text_start nj' = nd_text_start nv -> nd_children nj' = nd_children nj ->
        (forall h, fits t h nj -> fits t h nj') -> stock ns1 (fupd f j (Some nj')) free -> ns_limit ns1 = ns_limit ns ->
        exists ns2 ns', nodes_get ns1 u = Ok nu /\ nodes_set ns1 u (nd_set_child nu e (- j - 1)) = Ok ns2 /\ nodes_delete ns2 v = Ok ns' /\
          proper suf (lo + 1) hi ns' (redirect v (fun cx => mkContext (cx_suffix cx) j (cx_visits cx) false (Some e)) cs).
      Proof.
        intros J CJ FJ DJ TJ CHJ FT ST1 L1. pose proof in_differs as UV. pose proof (sibling_node _ _ _ _ _ _ _ T dr_adr0 v nv d F j J CJ) as NJ.
        assert (VJ : v <> j). { intros E. destruct NJ as (n0 & m0 & _ & _ & _ & PJ & _). rewrite E in PJ. apply prefix_len in PJ. rewrite snoc_len in PJ. lia. }
        assert (UJ : u <> j). { intros E. destruct NJ as (n0 & m0 & _ & _ & _ & PJ & _). destruct in_hangs as (n1 & m1 & _ & _ & _ & PU & _). rewrite E in PU. apply prefix_len in PJ, PU. rewrite snoc_len in *. lia. }
        assert (VU : nd_is_valid nu = true) by apply (st_live _ _ _ ST u nu FU).
        set (nu' := nd_set_child nu e (- j - 1)). assert (VU' : nd_is_valid nu' = true) by (apply valid_set; [exact VU|lia]).
        assert (FU1 : fupd f j (Some nj') u = Some nu) by (rewrite fupd_other by congruence; exact FU).
        destruct (stock_set _ _ _ u nu' nu ST1 VU' FU1) as (ns2 & E2 & ST2 & L2 & _). assert (FV1 : fupd (fupd f j (Some nj')) u (Some nu') v = Some nv) by (rewrite !fupd_other by congruence; exact F).
        destruct (stock_delete _ _ _ v nv ST2 ltac:(lia) FV1) as (ns3 & E3 & ST3 & L3 & _). exists ns2, ns3. split; [exact (stock_get _ _ _ _ _ ST1 FU1)|]. split; [exact E2|]. split; [exact E3|].
        set (f' := fupd (fupd (fupd f j (Some nj')) u (Some nu')) v None) in *. assert (FU' : f' u = Some nu') by (unfold f'; rewrite fupd_other by congruence; apply fupd_same). assert (FV' : f' v = None) by apply fupd_same.
        assert (FJ' : f' j = Some nj') by (unfold f'; rewrite !fupd_other by congruence; apply fupd_same).
        assert (OT : forall k, k <> u -> k <> v -> k <> j -> f' k = f k) by (intros k K1 K2 K3; unfold f'; rewrite !fupd_other by assumption; reflexivity).
        assert (T' : trie adr D suf (lo + 1) hi f' X).
        { apply (drop_inner_node _ _ _ _ _ _ _ T dr_adr0 v nv d F LV u nu e FU CU V0 f' nu' j nj nj'); try assumption; [apply depth_set_child|apply start_set_child|apply child_set_same|apply child_set_other|intros a; now apply child_children]. }
        assert (S2 : forall k n', f' k = Some n' -> exists n, f k = Some n).
        { intros k n' FK. destruct (Z.eq_dec k v) as [->|NK]; [congruence|]. destruct (Z.eq_dec k u) as [->|NU]; [eauto|]. destruct (Z.eq_dec k j) as [->|NK']; [eauto|]. rewrite OT in FK by assumption. eauto. }
        apply lf_finish with f' (v :: free) X.
        - apply (core_drop ns f X free); try assumption; [congruence|]. intros i n' FI. destruct (Z.eq_dec i v) as [->|NI]; [congruence|]. destruct (Z.eq_dec i u) as [->|NU]; [|destruct (Z.eq_dec i j) as [->|NJ']].
          + exists u, nu. split; [exact FU|]. split; [reflexivity|]. rewrite FU' in FI. injection FI as <-. intros h. apply fits_child.
          + exists j, nj. split; [exact FJ|]. split; [reflexivity|]. rewrite FJ' in FI. injection FI as <-. exact FT.
          + rewrite OT in FI by assumption. eauto.
        - split; reflexivity.
        - intros o cx Z0 SD. destruct (Z.eqb_spec (cx_node cx) v) as [EV|NV].
          + left. split; [reflexivity|]. cbn [cx_node]. split; [eauto|]. destruct SD as [(_ & (_ & (PX & FB)))|(IL & _)].
            * rewrite EV in *. pose proof NJ as (n0 & m0 & _ & _ & _ & PJ & _). split; [exact (prefix_trans _ _ _ PX (prefix_drop _ _ _ PJ))|]. intros i ni FI PI.
              destruct (S2 i ni FI) as (n2 & F2). pose proof (FB i n2 F2 PI) as PV. assert (NI : i <> v) by congruence.
              destruct (Z.eq_dec (zlen (X v)) (zlen (X i))) as [EL|NL]; [elim NI; symmetry; apply (pt_inj _ _ _ _ _ _ _ P _ _ _ _ F F2); apply prefix_eq; [exact PV|lia]|].
              pose proof (prefix_len _ _ PV). destruct (prefix_next _ _ PV ltac:(lia)) as (a & PA). destruct (Bool.bool_dec a d) as [->|NA].
              -- exfalso. exact (leaf_no_node _ _ _ _ _ _ _ P _ _ _ _ (proj1 lf_leaf) F2 PA).
              -- rewrite (negb_other _ _ NA) in PA. exact (node_first _ _ _ _ _ _ _ P _ _ _ _ NJ F2 PA).
            * exfalso. destruct (lf_in_leaf o cx Z0 IL) as (a & n & _ & FN & C0 & _ & NA). specialize (NA EV). rewrite EV in FN. assert (EN : n = nv) by congruence. subst n a. lia.
          + apply in_stay; try assumption. intros k n FK KV. destruct (Z.eq_dec k u) as [->|NU]; [|destruct (Z.eq_dec k j) as [->|NK]; [|exists n; rewrite OT by assumption; auto]].
            * exists nu'. split; [exact FU'|]. assert (EN : n = nu) by congruence. subst n. intros a C0. destruct (Bool.bool_dec a e) as [->|NA]; [lia|]. rewrite (negb_other _ _ NA). apply child_set_other.
            * exists nj'. split; [exact FJ'|]. assert (EN : n = nj) by congruence. subst n. intros a _. now apply child_children.
      Qed.
    End Inner.

    (** The node that goes is the root and its other child is a node. *)
    Lemma rt_sibling_node j nj : v = 0 -> 0 < j -> nd_child nv (negb d) = - j - 1 -> f j = Some nj ->
      exists ns1 ns', nodes_update ns 0 (nd_set_text_start nj (nd_text_start nv)) = Ok ns1 /\ nodes_delete ns1 j = Ok ns' /\
        proper suf (lo + 1) hi ns' (redirect j (fun cx => mkContext (cx_suffix cx) 0 (cx_visits cx) (cx_in_leaf cx) (cx_direction cx)) cs).
    Proof.
      intros V0 J CJ FJ. pose proof (sibling_node _ _ _ _ _ _ _ T dr_adr0 v nv d F j J CJ) as NJ. set (nj' := nd_set_text_start nj (nd_text_start nv)).
      assert (VN : nd_is_valid nj' = true) by exact (proj2 (st_live _ _ _ ST j nj FJ)). destruct (stock_update _ _ _ 0 nj' ST VN (or_introl eq_refl)) as (ns1 & E1 & ST1 & L1 & _).
      assert (FJ1 : fupd f 0 (Some nj') j = Some nj) by (rewrite fupd_other by lia; exact FJ). destruct (stock_delete _ _ _ j nj ST1 ltac:(lia) FJ1) as (ns2 & E2 & ST2 & L2 & _). exists ns1, ns2. split; [exact E1|]. split; [exact E2|].
      set (f' := fupd (fupd f 0 (Some nj')) j None) in *. set (X' := xupd X 0 (X j)). assert (F0' : f' 0 = Some nj') by (unfold f'; rewrite fupd_other by lia; apply fupd_same). assert (FJ' : f' j = None) by apply fupd_same.
      assert (OT : forall k, k <> 0 -> k <> j -> f' k = f k) by (intros k K1 K2; unfold f'; rewrite !fupd_other by assumption; reflexivity).
      assert (T' : trie adr D suf (lo + 1) hi f' X') by (apply (drop_root _ _ _ _ _ _ _ T dr_adr0 v nv d F LV f' j nj nj'); auto).
      assert (X0 : X' 0 = X j) by apply xupd_same. assert (XO : forall k, k <> 0 -> X' k = X k) by (intros k; apply xupd_other).
      assert (R0 : forall i n, f' i = Some n -> prefix (X j) (X' i)). { intros i n FI. rewrite <- X0. exact (node_first _ _ _ _ _ _ _ (tk_part _ _ _ _ _ _ _ T') _ _ _ _ (tk_root _ _ _ _ _ _ _ T') FI (prefix_nil _)). }
      assert (P0 : prefix (X 0) (X j)) by exact (node_first _ _ _ _ _ _ _ P _ _ _ _ (tk_root _ _ _ _ _ _ _ T) FJ (prefix_nil _)).
      apply lf_finish with f' (j :: free) X'.
      - apply (core_drop ns f X free); try assumption; [congruence|]. intros i n' FI. destruct (Z.eq_dec i j) as [->|NI]; [congruence|]. destruct (Z.eq_dec i 0) as [->|NU].
        + exists j, nj. split; [exact FJ|]. split; [exact X0|]. rewrite F0' in FI. injection FI as <-. intros h. apply fits_start.
        + rewrite OT in FI by assumption. exists i, n'. split; [exact FI|]. split; [now apply XO|auto].
      - split; reflexivity.
      - intros o cx Z0 SD. destruct (Z.eqb_spec (cx_node cx) j) as [EJ|NEJ].
        + destruct SD as [(IL & (n & FN) & (PX & FB))|(IL & a & DE & [(n & FN & C0 & PX)|(? & _)])]; [left|right|discriminate].
          * split; [exact IL|]. cbn [cx_node]. split; [eauto|]. rewrite EJ in PX. split; [rewrite X0; exact PX|]. intros i ni FI _. rewrite X0. eauto.
          * split; [exact IL|]. exists a. split; [exact DE|]. left. cbn [cx_node]. exists nj'. split; [exact F0'|]. rewrite X0. rewrite EJ in FN, PX. assert (EN : n = nj) by congruence. subst n. split; [exact C0|exact PX].
        + destruct (Z.eq_dec (cx_node cx) 0) as [E0|NE0].
          * destruct SD as [(IL & (n & FN) & (PX & FB))|(IL & _)].
            -- left. split; [exact IL|]. rewrite E0 in *. split; [eauto|]. split; [rewrite X0; exact (prefix_trans _ _ _ PX P0)|]. intros i ni FI _. rewrite X0. eauto.
            -- exfalso. destruct (lf_in_leaf o cx Z0 IL) as (a & n & _ & FN & C0 & _ & NA). rewrite E0, <- V0 in *. specialize (NA eq_refl). assert (EN : n = nv) by congruence. subst n a. lia.
          * destruct SD as [(IL & (n & FN) & (PX & FB))|(IL & a & DE & [(n & FN & C0 & PX)|(? & _)])]; [left|right|discriminate].
            -- split; [exact IL|]. split; [exists n; rewrite OT by assumption; exact FN|]. rewrite <- (XO (cx_node cx) NE0) in *. split; [exact PX|]. intros i ni FI PI. destruct (Z.eq_dec i 0) as [->|NI]; [rewrite X0 in *; eauto|].
               assert (NIJ : i <> j) by congruence. rewrite OT in FI by assumption. rewrite (XO i NI) in PI |- *. eauto.
            -- split; [exact IL|]. exists a. split; [exact DE|]. left. exists n. rewrite OT by assumption. rewrite XO by exact NE0. auto.
    Qed.
    (** The node that goes is the only one. *)
    Lemma rt_sibling_leaf : v = 0 -> 0 <= nd_child nv (negb d) -> exists ns', nodes_update ns 0 node_invalid = Ok ns' /\ flat m text (lo + 1) hi ns' [].
    Proof.
      intros V0 SC. destruct (stock_clear _ _ _ ST) as (ns1 & E1 & ST1 & L1 & _). exists ns1. split; [exact E1|]. split; [reflexivity|]. split.
      - exists free. split; [|rewrite L1; exact (co_limit _ _ _ _ _ _ _ _ _ _ _ _ CO)]. refine (stock_ext _ _ _ _ _ ST1). intros i. unfold fupd. destruct (Z.eqb_spec i 0) as [|NI]; [reflexivity|]. symmetry.
        assert (ON : forall k, 0 <= k -> forall i n, zlen (X i) < k -> f i = Some n -> i = 0).
        { intros k N. pattern k. apply Z_lt_induction; [|exact N]. clear k N. intros k IH i0 n0 K FI.
          destruct (Z.eq_dec i0 0) as [|NI0]; [assumption|exfalso]. destruct (parent_exists _ _ _ _ _ _ _ T _ _ FI NI0) as (u & mu & a & FU & CU & (n1 & m1 & _ & _ & _ & PU & _)). apply prefix_len in PU. rewrite snoc_len in PU.
          pose proof (zlen_nonneg (X u)). assert (EU : u = 0) by (apply (IH (zlen (X u) + 1) ltac:(lia) u mu); [lia|exact FU]). rewrite EU in FU. rewrite <- V0, F in FU. injection FU as <-. pose proof (pt_index _ _ _ _ _ _ _ P _ _ FI).
          destruct (Bool.bool_dec a d) as [->|NA]; [destruct lf_leaf as (_ & E); pose proof (dr_adr lo); lia|]. apply negb_other in NA. subst a. lia. }
        destruct (f i) as [n|] eqn:FI; [|reflexivity]. elim NI. pose proof (zlen_nonneg (X i)). exact (ON (zlen (X i) + 1) ltac:(lia) i n ltac:(lia) FI).
      - pose proof (drop_to_leaf _ _ _ _ _ _ _ T dr_adr0 v nv d F LV [] _ dr_spread ltac:(rewrite V0; exact (tk_root _ _ _ _ _ _ _ T)) (sibling_leaf _ _ _ _ _ _ _ T dr_adr0 v nv d F SC)) as (mm & _ & _ & LP). pose proof dr_lo.
        assert (G : forall k, 0 <= k -> forall q r, lo + 1 <= q -> q < r -> r <= hi -> hi - r <= k -> prefix (suf r) (suf q)).
        { intros k K. pattern k. apply Z_lt_induction; [|exact K]. clear k K. intros k IH q r Q QR R HK. assert (OC : forall k, lo + 1 <= k <= hi -> occurs suf (lo + 1) hi [] k) by (intros i I; split; [exact I|apply prefix_nil]). pose proof (LP q r (OC q ltac:(lia)) (OC r ltac:(lia)) QR) as PC.
          pose proof (dr_len r ltac:(lia)) as LR. destruct (Z.le_gt_cases (zlen (suf r)) D) as [LD|LD]; [now rewrite cut_id in PC|].
          assert (PT : prefix (suf (r + 1)) (suf (q + 1))) by (apply (IH (hi - (r + 1))); lia). rewrite <- !(sufx_skip text _ 1) in PT by lia.
          assert (PH : prefix (firstn (Z.to_nat (8 * 1)) (suf r)) (suf q)) by (apply (prefix_trans _ (cut D (suf r))); [|exact PC]; apply prefix_cut; [apply cut_prefix|]; unfold zlen; rewrite firstn_length; lia).
          apply prefix_glue with (Z.to_nat (8 * 1)); [|exact PH|exact PT]. unfold zlen in LR. lia. }
        intros q r Q QR R. exact (G (hi - r) ltac:(lia) q r Q QR R ltac:(lia)).
    Qed.
  End Leaf.

  (** *** The string of the oldest position came again *)
  Lemma first_place q : lo <= q <= hi -> adr q = adr lo -> q = lo.
  Proof. intros Q E. pose proof (win_fits _ _ _ _ _ _ W). apply (addr_inj m shift M q lo); [lia|exact E]. Qed.
  Lemma keep_same ns cs f free X : core suf lo hi ns f free X -> zlen cs <= max_order + 1 -> (forall o cx, znth cs o = Some cx -> held suf lo hi f X false (hi - o) cx) ->
    unseen max_order suf lo hi (zlen cs) -> (forall i n a, f i = Some n -> ~ latest suf lo hi (X i ++ [a]) lo) ->
    exists count, drop_contexts (adr lo) (rev cs) (zlen cs - 1) (zlen cs) = Ok count /\ proper suf (lo + 1) hi ns (firstn (Z.to_nat count) cs).
  Proof.
    intros CO LC HE UN NL. pose proof (co_trie _ _ _ _ _ _ _ _ _ _ _ _ CO) as T. pose proof dr_lo.
    assert (CO' : core suf (lo + 1) hi ns f free X).
    { apply (core_drop ns f X free); [exact CO|exact (co_stock _ _ _ _ _ _ _ _ _ _ _ _ CO)|reflexivity|exact (drop_same _ _ _ _ _ _ _ T dr_adr0 NL)|eauto]. }
    assert (PL : forall o cx, znth cs o = Some cx -> cx_suffix cx = adr lo -> prev suf lo (hi - o) lo).
    { intros o cx Z0 E. pose proof (znth_Some _ _ _ Z0). destruct (HE o cx Z0) as ((q & PV & CS) & _). rewrite E in CS. symmetry in CS. apply first_place in CS; [now subst q|]. destruct PV as (R & _). lia. }
    assert (ND : forall o cx, znth cs o = Some cx -> o + 1 < zlen cs -> ~ prev suf lo (hi - o) lo).
    { intros o cx Z0 L PV. pose proof (znth_Some _ _ _ Z0). destruct (znth_lt cs (o + 1) ltac:(lia)) as (cy & Z1). destruct (HE _ _ Z1) as ((q' & PV' & _) & _). exact (next_order o lo q' PV' ltac:(lia) PV eq_refl). }
    assert (KP : forall l, zlen l <= zlen cs -> (forall o cx, znth l o = Some cx -> znth cs o = Some cx /\ ~ prev suf lo (hi - o) lo) -> unseen max_order suf (lo + 1) hi (zlen l) -> proper suf (lo + 1) hi ns l).
    { intros l LL HL UL. exists f, free, X. split; [exact CO'|]. split; [lia|]. split; [|exact UL]. intros o cx Z0. destruct (HL o cx Z0) as (Z1 & NP). pose proof (HE o cx Z1) as HO. apply (held_drop f X f X _ cx cx HO NP); try reflexivity. apply HO. }
    destruct (rev_case cs) as [E|(l & x & E)].
    - subst cs. exists 0. split; [reflexivity|]. apply KP; [cbn; lia|intros o cx Z0; discriminate|]. now apply unseen_drop.
    - assert (ZL : zlen cs = zlen l + 1) by (rewrite E; now rewrite zlen_app, zlen_one). assert (ZX : znth cs (zlen l) = Some x) by (rewrite E, znth_app2 by lia; now rewrite Z.sub_diag).
      assert (ZO : forall o cx, znth l o = Some cx -> znth cs o = Some cx). { intros o cx Z0. rewrite E, znth_app1 by (now apply znth_Some in Z0). exact Z0. }
      assert (NR : Forall (fun cx => cx_suffix cx <> adr lo) (rev l)).
      { apply Forall_forall. intros cx I. apply in_rev in I. apply In_znth in I. destruct I as (o & Z0). pose proof (znth_Some _ _ _ Z0). intros EL. exact (ND o cx (ZO _ _ Z0) ltac:(lia) (PL _ _ (ZO _ _ Z0) EL)). }
      assert (HL : forall o cx, znth l o = Some cx -> znth cs o = Some cx /\ ~ prev suf lo (hi - o) lo). { intros o cx Z0. pose proof (znth_Some _ _ _ Z0). split; [now apply ZO|]. apply (ND o cx); [now apply ZO|lia]. }
      assert (ER : rev cs = x :: rev l) by (rewrite E, rev_app_distr; reflexivity). rewrite ER. cbn [drop_contexts]. pose proof (zlen_nonneg l). destruct (Z.eqb_spec (cx_suffix x) (adr lo)) as [EX|NX].
      + rewrite sub_ok by (cbn [usize imin imax]; ib; lia). cbn [bind]. rewrite assert_true by lia. cbn [bind]. rewrite drop_none by exact NR. eexists. split; [reflexivity|].
        assert (EL : firstn (Z.to_nat (zlen cs - 1)) cs = l). { rewrite ZL. rewrite E. unfold zlen. replace (Z.to_nat (Z.of_nat (length l) + 1 - 1)) with (length l) by lia. rewrite firstn_app, Nat.sub_diag, firstn_all. cbn [firstn]. apply app_nil_r. }
        rewrite EL. apply KP; [lia|exact HL|]. intros o O q Q. destruct (Z.eq_dec o (zlen l)) as [->|NO]; [|apply UN; lia]. pose proof (PL _ _ ZX EX) as (_ & _ & L). apply L. lia.
      + cbn [bind]. rewrite drop_none by exact NR. eexists. split; [reflexivity|]. replace (firstn (Z.to_nat (zlen cs)) cs) with cs by (symmetry; apply firstn_all2; unfold zlen; lia).
        apply KP; [lia| |now apply unseen_drop]. intros o cx Z0. split; [exact Z0|]. pose proof (znth_Some _ _ _ Z0). destruct (Z.eq_dec o (zlen l)) as [->|NO]; [|apply (ND o cx Z0); lia].
        intros PV. rewrite ZX in Z0. injection Z0 as <-. destruct (HE _ _ ZX) as ((q & PV' & CS) & _). rewrite (prev_unique _ _ _ _ _ PV PV') in NX. contradiction.
  Qed.

  Lemma remove_proper tr cs : tr_window tr = w -> tr_proper tr = true -> proper suf lo hi (tr_nodes tr) cs ->
    exists tr' cs', remove_leftmost_suffix tr cs = (let* w' := advance_start w in Ok (with_window tr' w', cs')) /\ tr_window tr' = w /\ grown t m shift max_order trk text (lo + 1) hi tr' cs'.
  Proof.
    intros TW TP (f & free & X & CO & LC & HE & UN). unfold remove_leftmost_suffix. rewrite TP, TW. pose proof (co_trie _ _ _ _ _ _ _ _ _ _ _ _ CO) as T. pose proof (tk_part _ _ _ _ _ _ _ T) as P. pose proof (co_stock _ _ _ _ _ _ _ _ _ _ _ _ CO) as ST. pose proof dr_lo.
    pose proof (several_positions _ _ _ _ _ _ _ T dr_adr0) as SV. destruct (tk_root _ _ _ _ _ _ _ T) as (r0 & mr & FR & _ & _ & _ & CP).
    assert (PR : prefix (X 0) (suf lo)) by (apply (live_shorter f X 0 r0 P FR); right; apply CP; split; [lia|apply prefix_nil]).
    destruct (walk_ok tr f free X (length (ns_items (tr_nodes tr))) TW CO [] None 0 r0 FR PR ltac:(constructor) ltac:(intros k []) ltac:(cbn [length]; lia) eq_refl) as (parent & v & d & nv & WK & F & C0 & OC & LF & PA).
    change root_index with 0. rewrite WK. cbn [bind]. rewrite (stock_get _ _ _ _ _ ST F). cbn [bind]. rewrite child_to_window by exact C0. cbn [bind]. rewrite (win_start _ _ _ _ _ _ W).
    pose proof LF as (mm & LM & EM & _). destruct (Z.eqb_spec (nd_child nv d) (adr lo)) as [EL|NE]; cbn [negb].
    2: { assert (NL : forall i n a, f i = Some n -> ~ latest suf lo hi (X i ++ [a]) lo).
      { intros i n a FI LI. destruct (first_latest_leaf _ _ _ _ _ _ _ T dr_adr0 i n a FI LI) as (LFI & EI). destruct (leaf_unique _ _ _ _ _ _ _ T dr_adr0 _ _ _ _ _ _ _ _ lo FI F LFI LF (proj2 (proj1 LI)) (proj2 OC)) as (-> & ->). assert (n = nv) by congruence. subst n. congruence. }
      destruct (keep_same _ _ _ _ _ CO LC HE UN NL) as (count & E & PP). rewrite E. cbn [bind]. exists tr, (firstn (Z.to_nat count) cs). rewrite TW. split; [reflexivity|]. split; [reflexivity|]. unfold grown. rewrite TP. exact PP. }
    assert (mm = lo) as -> by (apply first_place; [destruct LM as ((R & _) & _); exact R|congruence]).
    assert (G : forall ns' cs', proper suf (lo + 1) hi ns' cs' -> tr_window (with_nodes tr ns') = w /\ grown t m shift max_order trk text (lo + 1) hi (with_nodes tr ns') cs').
    { intros ns' cs' PP. split; [exact TW|]. unfold grown. cbn [with_nodes tr_proper tr_nodes]. rewrite TP. exact PP. }
    unfold index_is_root, num_roots. destruct (Z.ltb_spec v 1) as [V1|V1].
    - pose proof (pt_index _ _ _ _ _ _ _ P _ _ F). assert (v = 0) as -> by lia. assert (parent = None) as ->. { destruct parent as [(u & e)|]; [|reflexivity]. destruct PA as (? & _ & _ & ?). lia. }
      rewrite assert_true by reflexivity. cbn [bind]. unfold child_is_node_index. destruct (pt_child _ _ _ _ _ _ _ P _ _ (negb d) F) as [(SC & _)|(j & J & CJ & (nj & _ & FJ & _))].
      + replace (nd_child nv (negb d) <? 0) with false by lia. destruct (rt_sibling_leaf (tr_nodes tr) cs f free X 0 nv d CO HE F LM eq_refl SC) as (ns' & E & FL). rewrite E. cbn [bind].
        exists (with_proper (with_nodes tr ns') false), []. cbn [with_proper with_nodes tr_window]. rewrite TW. split; [reflexivity|]. split; [reflexivity|]. exact FL.
      + replace (nd_child nv (negb d) <? 0) with true by lia. rewrite CJ, child_to_node by lia. cbn [bind]. rewrite (stock_get _ _ _ _ _ ST FJ). cbn [bind]. try (rewrite (stock_get _ _ _ _ _ ST F); cbn [bind]).
        destruct (rt_sibling_node (tr_nodes tr) cs f free X 0 nv d CO LC HE UN F LM j nj eq_refl J CJ FJ) as (ns1 & ns2 & E1 & E2 & PP). rewrite E1. cbn [bind]. rewrite E2. cbn [bind]. eexists _, _. destruct (G _ _ PP) as (GW & GG). split; [|split; [exact GW|exact GG]]. rewrite GW. reflexivity.
    - destruct parent as [(u & e)|]; [|lia]. destruct PA as (nu & FU & CU & V0). pose proof (in_ts (tr_nodes tr) f free X v nv CO F u nu e FU CU V0) as (mt & TS & RT).
      assert (SIB : (0 <= nd_child nv (negb d)) \/ exists j nj, 0 < j /\ nd_child nv (negb d) = - j - 1 /\ f j = Some nj /\ node_at adr suf lo hi f X (X v ++ [negb d]) j).
      { destruct (pt_child _ _ _ _ _ _ _ P _ _ (negb d) F) as [(SC & _)|(j & J & CJ & NA)]; [now left|right]. pose proof NA as (nj & _ & FJ & _). exists j, nj. auto. }
      destruct (existsb (fun cx => cx_node cx =? v) cs) eqn:FO.
      + assert (NB : existsb (fun cx => (cx_node cx =? v) && match cx_direction cx with Some d0 => Bool.eqb d0 d | None => false end && cx_in_leaf cx) cs = false).
        { apply Bool.not_true_is_false. intros B. apply existsb_exists in B. destruct B as (cx & I & B). apply In_znth in I. destruct I as (o & Z0). rewrite !andb_true_iff in B. destruct B as ((B1 & B2) & B3).
          destruct (lf_in_leaf (tr_nodes tr) cs f free X v nv d CO HE F LM o cx Z0 B3) as (a & n & DE & _ & _ & _ & NA). rewrite NA in DE by lia. rewrite DE in B2. destruct d; discriminate. }
        rewrite NB. rewrite assert_true by reflexivity. cbn [bind of_opt]. unfold child_is_window_index. destruct SIB as [SC|(j & nj & J & CJ & FJ & _)].
        * replace (0 <=? nd_child nv (negb d)) with true by lia. rewrite child_of_window by lia. cbn [bind]. rewrite (stock_get _ _ _ _ _ ST FU). cbn [bind].
          destruct (in_sibling_leaf (tr_nodes tr) cs f free X v nv d CO LC HE UN F LM u nu e FU CU V0 SC) as (ns1 & ns2 & E1 & E2 & PP). rewrite E1. cbn [bind]. rewrite E2. cbn [bind]. eexists _, _. destruct (G _ _ PP) as (GW & GG). split; [|split; [exact GW|exact GG]]. rewrite GW. reflexivity.
        * replace (0 <=? nd_child nv (negb d)) with false by lia. rewrite CJ, child_to_node by lia. cbn [bind]. rewrite (stock_get _ _ _ _ _ ST FJ). cbn [bind]. set (nj' := nd_set_text_start nj (nd_text_start nv)).
          assert (VJ : nd_is_valid nj' = true) by exact (proj2 (st_live _ _ _ ST j nj FJ)). assert (FJN : f j <> None) by congruence. destruct (stock_update _ _ _ j nj' ST VJ (or_intror FJN)) as (ns1 & E1 & ST1 & L1 & _). rewrite E1. cbn [bind].
          destruct (in_sibling_node (tr_nodes tr) cs f free X v nv d CO LC HE UN F LM u nu e FU CU V0 j nj nj' ns1 J CJ FJ eq_refl eq_refl eq_refl (fun h => fits_start t h nj _) ST1 L1) as (ns2 & ns3 & E2 & E3 & E4 & PP).
          rewrite E2. cbn [bind]. rewrite E3. cbn [bind]. rewrite E4. cbn [bind]. eexists _, _. destruct (G _ _ PP) as (GW & GG). split; [|split; [exact GW|exact GG]]. rewrite GW. reflexivity.
      + cbn [of_opt bind]. rewrite (stock_get _ _ _ _ _ ST FU). cbn [bind]. destruct (in_latest (tr_nodes tr) cs f free X v nv d CO HE UN F LM u nu e FU CU V0 FO) as (m2 & TS2 & LM2). destruct SIB as [SC|(j & nj & J & CJ & FJ & NJ)].
        * assert (EC : nd_child nv (negb d) = nd_text_start nv).
          { destruct (sibling_leaf _ _ _ _ _ _ _ T dr_adr0 v nv d F SC) as (m3 & LM3 & E3 & _). rewrite TS2, E3. f_equal. pose proof (proj2 LM2 _ (proj1 LM3)). pose proof (proj2 LM3 _ (proj1 LM2)). lia. }
          rewrite EC. destruct (in_sibling_leaf (tr_nodes tr) cs f free X v nv d CO LC HE UN F LM u nu e FU CU V0 SC) as (ns1 & ns2 & E1 & E2 & PP). rewrite E1. cbn [bind]. rewrite E2. cbn [bind]. rewrite redirect_none in PP by exact FO. eexists _, _. destruct (G _ _ PP) as (GW & GG). split; [|split; [exact GW|exact GG]]. rewrite GW. reflexivity.
        * assert (TJ : nd_text_start nj = nd_text_start nv).
          { destruct NJ as (n3 & m3 & F3 & LM3 & E3 & _). rewrite FJ in F3. injection F3 as <-. rewrite TS2, E3. f_equal. pose proof (proj2 LM2 _ (proj1 LM3)). pose proof (proj2 LM3 _ (proj1 LM2)). lia. }
          assert (ST1 : stock (tr_nodes tr) (fupd f j (Some nj)) free) by (refine (stock_ext _ _ _ _ _ ST); intros i; unfold fupd; destruct (Z.eqb_spec i j) as [->|]; congruence).
          rewrite CJ. destruct (in_sibling_node (tr_nodes tr) cs f free X v nv d CO LC HE UN F LM u nu e FU CU V0 j nj nj (tr_nodes tr) J CJ FJ eq_refl TJ eq_refl (fun h H => H) ST1 eq_refl) as (ns2 & ns3 & E2 & E3 & E4 & PP).
          rewrite E3. cbn [bind]. rewrite E4. cbn [bind]. rewrite redirect_none in PP by exact FO. eexists _, _. destruct (G _ _ PP) as (GW & GG). split; [|split; [exact GW|exact GG]]. rewrite GW. reflexivity.
  Qed.
End Drop.
