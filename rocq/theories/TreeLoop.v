(** The loop that takes one bit into the tree. *)
From Coq Require Import ZifyBool.
From Verif Require Import Base BaseFacts StateModel EstModel LogModel StatesModel StatesSpec StatesProofs WindowModel WindowProofs HistSpec HistProofs FatProofs
  NodesModel NodesProofs TrieProofs TrieContexts TreeStats TreeWindow TreeModel.
Ltac Zify.zify_post_hook ::= Z.div_mod_to_equations.

Lemma child_set_same n d c : nd_child (nd_set_child n d c) d = c.
Proof. destruct n as [[l r] ts e k q rc dp lc rc']. now destruct d. Qed.
Lemma child_set_other n d c : nd_child (nd_set_child n d c) (negb d) = nd_child n (negb d).
Proof. destruct n as [[l r] ts e k q rc dp lc rc']. now destruct d. Qed.
Lemma start_set_child n d c : nd_text_start (nd_set_child n d c) = nd_text_start n.
Proof. now destruct n as [[l r] ts e k q rc dp lc rc']. Qed.
Lemma depth_set_child n d c : nd_depth (nd_set_child n d c) = nd_depth n.
Proof. now destruct n as [[l r] ts e k q rc dp lc rc']. Qed.
Lemma valid_iff n : nd_is_valid n = true <-> forall a, nd_child n a <> -1.
Proof.
  unfold nd_is_valid, child_invalid, nd_child. rewrite andb_true_iff, !negb_true_iff, !Z.eqb_neq. split; [intros (A & B) a; destruct a; assumption|]. intros H. split; [exact (H false)|exact (H true)].
Qed.
Lemma valid_set n d c : nd_is_valid n = true -> c <> -1 -> nd_is_valid (nd_set_child n d c) = true.
Proof.
  rewrite !valid_iff. intros V C a. destruct (Bool.bool_dec a d) as [->|N]; [rewrite child_set_same; exact C|]. rewrite (negb_other _ _ N), child_set_other. apply V.
Qed.
Lemma valid_children n n' : nd_children n' = nd_children n -> nd_is_valid n = true -> nd_is_valid n' = true.
Proof. intros E. unfold nd_is_valid. now rewrite E. Qed.
Lemma child_children n n' a : nd_children n' = nd_children n -> nd_child n' a = nd_child n a.
Proof. intros E. unfold nd_child. now rewrite E. Qed.

Lemma trie_ext ad d suf suf' lo hi f X : (forall q, lo <= q <= hi -> suf' q = suf q) -> trie ad d suf lo hi f X -> trie ad d suf' lo hi f X.
Proof.
  intros E. assert (EO : forall x q, occurs suf' lo hi x q <-> occurs suf lo hi x q) by (intros x q; unfold occurs; split; intros (R & P); (split; [exact R|]); rewrite E in * by exact R; exact P).
  assert (EL : forall x q, latest suf lo hi x q -> latest suf' lo hi x q) by (intros x q (A & B); split; [now apply EO|]; intros k K; apply B; now apply EO).
  assert (EN : forall x j, node_at ad suf lo hi f X x j -> node_at ad suf' lo hi f X x j).
  { intros x j (n & mm & F & L & TS & PX & C). exists n, mm. split; [exact F|]. split; [now apply EL|]. split; [exact TS|]. split; [exact PX|]. intros q O. rewrite E by apply O. apply C. now apply EO. }
  intros [[P1 P2 P3 P4] R]. split; [split; try assumption|now apply EN]. intros i n b F. destruct (P3 i n b F) as [(C0 & mm & L & C & LP)|(j & J & C & N)]; [left|right].
  - split; [exact C0|]. exists mm. split; [now apply EL|]. split; [exact C|]. intros q r Q R0 LT. rewrite !E by apply Q || apply R0. apply LP; now try apply EO.
  - exists j. auto.
Qed.
Lemma prefix_skip n a b : prefix a b -> (n <= length a)%nat -> prefix (skipn n a) (skipn n b).
Proof. intros (r & ->) L. exists r. rewrite skipn_app. replace (n - length a)%nat with 0%nat by lia. reflexivity. Qed.
Lemma range_snoc n : 0 <= n -> rev (range 0 (n + 1)) = n :: rev (range 0 n).
Proof.
  intros N. unfold range. replace (Z.to_nat (n + 1 - 0)) with (Z.to_nat (n - 0) + 1)%nat by lia. rewrite zseq_app, rev_app_distr. cbn [zseq rev app]. f_equal. lia.
Qed.
Lemma slot_free ns f free : stock ns f free -> f (next_slot ns free) = None /\ 1 <= next_slot ns free.
Proof.
  intros S. unfold next_slot. destruct free as [|i r].
  - split; [|apply (st_len _ _ _ S)]. destruct (f (zlen (ns_items ns))) as [n|] eqn:F; [|reflexivity]. pose proof (stock_range _ _ _ _ _ S F). lia.
  - destruct (st_free _ _ _ S i (or_introl eq_refl)). split; [assumption|lia].
Qed.
(** The trie has few nodes, so there is room for one more. *)
Lemma slot_fits ad d suf lo hi X m ns f free f' : stock ns f free -> ns_limit ns = Z.max 1 (m - 1) -> part ad d suf lo hi f' X -> f 0 <> None ->
  (forall i, f i <> None -> f' i <> None) -> f' (next_slot ns free) <> None -> lo <= hi -> hi - lo + 1 <= m -> next_slot ns free < ns_limit ns.
Proof.
  intros S L P F0 FF FJ LH LM. unfold next_slot in *. destruct free as [|i r].
  - assert (G := few_nodes ad d suf lo hi f' X P (zseq 0 (Datatypes.S (length (ns_items ns)))) (zseq_nodup _ _)). rewrite L.
    assert (A : Forall (fun i => f' i <> None) (zseq 0 (Datatypes.S (length (ns_items ns))))).
    { apply Forall_forall. intros i I. apply zseq_In in I. destruct (Z.eq_dec i 0) as [->|N0]; [auto|]. destruct (Z.eq_dec i (zlen (ns_items ns))) as [->|N1]; [exact FJ|]. apply FF. intros FN.
      destruct (st_dead _ _ _ S i); [unfold zlen in *; lia|exact FN]. }
    specialize (G A LH). unfold zlen in *. rewrite zseq_length in G. lia.
  - destruct (st_free _ _ _ S i (or_introl eq_refl)). pose proof (st_limit _ _ _ S). lia.
Qed.

Definition shape (f f' : Z -> option node) : Prop :=
  (forall i n, f i = Some n -> exists n', f' i = Some n' /\ forall a, nd_child n' a = nd_child n a \/ (0 <= nd_child n a /\ 0 <= nd_child n' a)) /\
  (forall i n', f' i = Some n' -> exists n, f i = Some n).

(** Where a context stands; [loose] when the leaf it stood in may have been split meanwhile. *)
Definition standing (f : Z -> option node) (X : Z -> list bit) (loose : bool) (x : list bit) (cx : context) : Prop :=
  (cx_in_leaf cx = false /\ at_node f X x (cx_node cx)) \/
  (cx_in_leaf cx = true /\ exists d, cx_direction cx = Some d /\ (at_leaf f X x (cx_node cx) d \/ (loose = true /\ at_stale f X x (cx_node cx) d))).
Lemma standing_shape f f' X loose x cx : shape f f' -> standing f X loose x cx -> standing f' X loose x cx.
Proof.
  intros (S1 & S2) [(L & A)|(L & d & E & [A|(LO & A)])]; [left|right|right].
  - split; [exact L|]. now apply shape_node with f.
  - split; [exact L|]. exists d. split; [exact E|]. left. now apply shape_leaf with f.
  - split; [exact L|]. exists d. split; [exact E|]. right. split; [exact LO|]. now apply shape_stale with f.
Qed.
Lemma standing_loose f X loose loose' x cx : (loose = true -> loose' = true) -> standing f X loose x cx -> standing f X loose' x cx.
Proof. intros LL [A|(L & d & E & [A|(LO & A)])]; [left; exact A|right|right]; (split; [exact L|]); exists d; (split; [exact E|]); [left|right]; auto. Qed.
Lemma standing_live f X loose x cx : standing f X loose x cx -> exists n, f (cx_node cx) = Some n.
Proof. intros [(_ & (H & _))|(_ & d & _ & [(n & F & _)|(_ & n & j & F & _)])]; eauto. Qed.

Section Tree.
  Variables (t : luts) (m shift max_order : Z) (trk : Z -> Z -> cost_trackers).
  Hypothesis ALL : forall l, l <> [] -> exists s, state_of t l = Ok s /\ stands_for (lt_rates t) (fst (fst (last l (0, Zero, ct_default)))) (bits l) s.
  Hypothesis M : 0 < m <= 2 ^ 31.
  Hypothesis SH : 0 <= shift < m.
  Hypothesis MO : 0 <= max_order /\ 8 * max_order + 7 < 2 ^ 16.
  Notation adr := (addr m shift). Notation D := (8 * (max_order + 1)).
  Notation hist := (hist trk). Notation fits := (fits t).
  Lemma adr0 p : 0 <= adr p. Proof. apply addr_range. lia. Qed.
  Lemma adr_lt p : adr p < 2 ^ 31. Proof. pose proof (addr_range m shift ltac:(lia) p). lia. Qed.

  Definition stat suf lo hi x n : Prop := exists older, zlen older <= lo /\ fits (older ++ hist suf lo hi x) n.
  Record core (suf : Z -> list bit) (lo hi : Z) (ns : nodes) (f : Z -> option node) (free : list Z) (X : Z -> list bit) : Prop := {
    co_stock : stock ns f free;
    co_limit : ns_limit ns = Z.max 1 (m - 1);
    co_trie : trie adr D suf lo hi f X;
    co_stat : forall i n, f i = Some n -> stat suf lo hi (X i) n;
    co_root : zlen (X 0) <= 7 }.
  Definition visited suf lo hi x v : Prop := 1 <= v <= 1000 /\ exists older, 0 <= older <= lo /\ v = Z.min 1000 (older + zlen (hist suf lo hi x)).
  Definition held suf lo hi f X (loose : bool) r cx : Prop :=
    (exists q, prev suf lo r q /\ cx_suffix cx = adr q) /\ standing f X loose (suf r) cx /\ visited suf lo hi (suf r) (cx_visits cx).

  (** ** One position grows *)
  Section Step.
    Variables (suf suf' : Z -> list bit) (lo hi p : Z) (b : bit).
    Hypothesis RP : lo <= p <= hi.
    Hypothesis SP : spread suf lo hi.
    Hypothesis GR : forall q, lo <= q <= hi -> suf' q = if q =? p then suf p ++ [b] else suf q.
    Notation s := (suf p).
    Lemma gr_same r : lo <= r <= hi -> r <> p -> suf' r = suf r.
    Proof. intros R N. rewrite GR by exact R. now destruct (Z.eqb_spec r p). Qed.
    Lemma gr_at : suf' p = s ++ [b]. Proof. rewrite GR by lia. now rewrite Z.eqb_refl. Qed.
    Lemma differs_at r : lo <= r <= hi -> r <> p -> suf r <> s.
    Proof. intros R N E. assert (L : zlen (suf r) = zlen s) by now rewrite E. destruct (Z.lt_ge_cases r p); [specialize (SP r p)|specialize (SP p r)]; lia. Qed.
    Lemma gr_prefix r q : lo <= q -> q < r -> r <= hi -> r <> p -> (prefix (suf' r) (suf' q) <-> prefix (suf r) (suf q)).
    Proof.
      intros Q QR R N. rewrite (gr_same r) by lia. rewrite GR by lia. destruct (Z.eqb_spec q p) as [->|NQ]; [|reflexivity]. split; [|intros P; exact (prefix_trans _ _ _ P (prefix_app _ _))].
      intros P. apply prefix_snoc_inv in P. destruct P as [P|P]; [|exact P]. exfalso. specialize (SP p r ltac:(lia) ltac:(lia) ltac:(lia)). assert (L : zlen (suf r) = zlen s + 1) by (rewrite P; apply snoc_len). lia.
    Qed.
    Lemma gr_none r : lo <= r <= hi -> (forall q, lo <= q < r -> ~ prefix (suf r) (suf q)) -> forall q, lo <= q < r -> ~ prefix (suf' r) (suf' q).
    Proof.
      intros R H q Q P. destruct (Z.eq_dec r p) as [->|N]; [|apply gr_prefix in P; try lia; exact (H q Q P)]. rewrite gr_at, gr_same in P by lia. exact (H q Q (prefix_drop _ _ _ P)).
    Qed.
    Lemma gr_prev r q : r <= hi -> r <> p -> prev suf lo r q -> prev suf' lo r q.
    Proof.
      intros R N (Q & P & L). split; [exact Q|]. split; [apply gr_prefix; try lia; exact P|]. intros k K PK. apply gr_prefix in PK; try lia. exact (L k K PK).
    Qed.
    Lemma held_other f X f' X' loose loose' r cx : r <= hi -> r <> p -> (standing f X loose (suf r) cx -> standing f' X' loose' (suf r) cx) ->
      held suf lo hi f X loose r cx -> held suf' lo hi f' X' loose' r cx.
    Proof.
      intros R N ST ((q & P & E) & S & V). assert (B : lo <= r <= hi) by (destruct P as (P & _); lia). split; [exists q; split; [now apply gr_prev|exact E]|]. rewrite gr_same by assumption.
      split; [auto|]. unfold visited. rewrite (hist_grow_same trk suf suf' lo hi p b) by (assumption || (apply differs_at; assumption)). exact V.
    Qed.
    Lemma stat_other x n : x <> s -> stat suf lo hi x n -> stat suf' lo hi x n.
    Proof. intros N S. unfold stat. rewrite (hist_grow_same trk suf suf' lo hi p b) by assumption. exact S. Qed.
    Lemma stat_at n n' k : trk p (zlen s) = k -> stat suf lo hi s n -> (forall h, fits h n -> fits (h ++ [(p, b, k)]) n') -> stat suf' lo hi s n'.
    Proof.
      intros <- (older & E & F) H. exists older. split; [exact E|]. rewrite (hist_grow trk suf suf' lo hi p b) by assumption. rewrite app_assoc. auto.
    Qed.
    Lemma next_earlier a q : occurs suf lo hi (s ++ [a]) q -> lo <= q < p /\ prefix s (suf q).
    Proof.
      intros (R & P). pose proof (prefix_len _ _ P) as L. rewrite snoc_len in L. split; [|exact (prefix_drop _ _ _ P)]. destruct (Z.lt_ge_cases q p); [lia|].
      destruct (Z.eq_dec q p) as [->|N]; [lia|]. specialize (SP p q). lia.
    Qed.
    Lemma earlier_next q : lo <= q < p -> prefix s (suf q) -> exists a, occurs suf lo hi (s ++ [a]) q.
    Proof. intros Q P. destruct (prefix_next _ _ P) as (a & A); [specialize (SP q p); lia|]. exists a. split; [lia|exact A]. Qed.

    (** A bit that is already expected changes nothing. *)
    Lemma core_same ns f free X : core suf lo hi ns f free X -> (forall i n, f i = Some n -> X i <> s) ->
      (forall q, lo <= q < p -> prefix s (suf q) -> prefix (s ++ [b]) (suf q)) \/ D <= zlen s -> core suf' lo hi ns f free X.
    Proof.
      intros C NX H. destruct C as [C1 C2 C3 C4 C5]. split; try assumption.
      - eapply grow_same; try eassumption. destruct H as [H|H]; [left|right; exact H]. intros q Q1 Q2. apply H. lia.
      - intros i n F. apply stat_other; [now apply NX with n|auto].
    Qed.
    Lemma edge_stays f X cx a : trie adr D suf lo hi f X -> held suf lo hi f X false p cx -> single_next suf lo hi s ->
      (forall y, cx_in_leaf cx = false -> y = cx_node cx -> X y <> s) -> (exists q, prev suf lo p q /\ occurs suf lo hi (s ++ [a]) q) -> a = b ->
      held suf' lo hi f X false p cx.
    Proof.
      intros T ((q & P & E) & S & (V & older & O1 & O3)) SN NE (q0 & P0 & O) ->. pose proof (prev_unique _ _ _ _ _ P P0) as <-. pose proof P as (Q & PQ & LQ).
      assert (ALLB : Forall (fun x => x = b) (bits (hist suf lo hi s))). { apply Forall_forall. intros x I. apply hist_bits in I. destruct I as (k & OK). exact (SN _ _ _ _ OK O). }
      split; [|rewrite gr_at; split].
      - exists q. split; [|exact E]. split; [exact Q|]. rewrite gr_at. split; [rewrite gr_same by lia; exact (proj2 O)|]. intros k K PK. rewrite gr_same in PK by lia. exact (LQ k K (prefix_drop _ _ _ PK)).
      - destruct S as [(IL & (n & F) & FB)|(IL & d & ED & [(n & F & C & PX)|(? & _)])]; [left|right|discriminate].
        + split; [exact IL|]. split; [eauto|]. assert (LT : zlen s < zlen (X (cx_node cx))).
          { pose proof (prefix_len _ _ (proj1 FB)) as L. destruct (Z.eq_dec (zlen s) (zlen (X (cx_node cx)))) as [EQ|]; [|lia]. exfalso. apply (NE _ IL eq_refl). symmetry. apply prefix_eq; [exact (proj1 FB)|lia]. }
          split; [eapply edge_next; eassumption|]. intros i k FI PI. exact (proj2 FB i k FI (prefix_drop _ _ _ PI)).
        + split; [exact IL|]. exists d. split; [exact ED|]. left. exists n. split; [exact F|]. split; [exact C|]. exact (prefix_trans _ _ _ PX (prefix_app _ _)).
      - split; [exact V|]. exists older. split; [exact O1|]. rewrite O3. do 2 f_equal. rewrite (hist_next trk suf suf' lo hi p b) by assumption. symmetry. now apply count_uniform.
    Qed.
    (** A node is passed. *)
    Lemma descend_ok tr f free X y n cx order bit_index k : core suf lo hi (tr_nodes tr) f free X -> f y = Some n -> X y = s -> cx_in_leaf cx = false -> cx_node cx = y ->
      window_bit (tr_window tr) (w_cursor (tr_window tr)) bit_index = Ok b -> index_subtract (tr_window tr) (w_cursor (tr_window tr)) order = Ok (adr p) ->
      trk p (zlen s) = k ->
      exists tr' cx' f', descend t tr cx order bit_index k = Ok (tr', cx') /\ tr_window tr' = tr_window tr /\ tr_proper tr' = tr_proper tr /\
        core suf' lo hi (tr_nodes tr') f' free X /\ shape f f' /\ held suf' lo hi f' X false p cx'.
    Proof.
      intros C F XY IL CN WB WS K. pose proof (co_trie _ _ _ _ _ _ _ C) as T. pose proof (tk_part _ _ _ _ _ _ _ T) as P. pose proof (co_stock _ _ _ _ _ _ _ C) as ST.
      destruct (co_stat _ _ _ _ _ _ _ C y n F) as (older & HE & FT). rewrite XY in FT. set (h := older ++ hist suf lo hi s) in FT.
      destruct (fits_update t trk ALL h n b p k FT) as (n1 & E1 & FT1 & CH1 & TS1 & DP1).
      assert (STN : stat suf' lo hi s n1). { exists older. split; [exact HE|]. rewrite (hist_grow trk suf suf' lo hi p b) by assumption. rewrite app_assoc, K. exact FT1. }
      assert (V : nd_is_valid n = true) by apply (st_live _ _ _ ST y n F).
      destruct (stock_set _ _ _ y n1 n ST (valid_children _ _ CH1 V) F) as (ns1 & S1 & ST1 & L1 & Z1).
      assert (VS : visited suf' lo hi (s ++ [b]) (if b then nd_right_count n else nd_left_count n)).
      { destruct FT as (_ & FL & FR & F0 & F1). split; [destruct b; lia|]. exists (count b older). rewrite (hist_next trk suf suf' lo hi p b) by assumption.
        split; [pose proof (count_le b older); pose proof (count_nonneg b older); lia|]. rewrite <- count_app. destruct b; assumption. }
      pose proof (child_children _ _ b CH1) as CB. pose proof (pt_child _ _ _ _ _ _ _ P y n b F) as HG. rewrite XY in HG.
      unfold descend. rewrite IL. cbn [negb assert_ guard bind]. rewrite WB. cbn [bind]. rewrite CN. rewrite (stock_get _ _ _ _ _ ST F). cbn [bind]. rewrite E1. cbn [bind]. rewrite S1. cbn [bind].
      assert (F1 : fupd f y (Some n1) y = Some n1) by apply fupd_same. rewrite (stock_get _ _ _ _ _ ST1 F1). cbn [bind]. rewrite CB. unfold child_is_window_index.
      destruct HG as [(C0 & q & LT & CE & LP)|(j & J & CE & nj & q & FJ & LT & TS & PX & CP)].
      - replace (0 <=? nd_child n b) with true by lia. rewrite child_to_window by exact C0. cbn [bind]. rewrite WS. cbn [bind]. rewrite child_of_window by (split; [apply adr0|apply adr_lt]). cbn [bind].
        set (n2 := nd_set_child n1 b (adr p)).
        assert (V2 : nd_is_valid n2 = true) by (apply valid_set; [exact (valid_children _ _ CH1 V)|pose proof (adr0 p); lia]).
        destruct (stock_set _ _ _ y n2 n1 ST1 V2 F1) as (ns2 & S2 & ST2 & L2 & Z2). rewrite S2. cbn [bind].
        set (f' := fupd (fupd f y (Some n1)) y (Some n2)) in *. assert (F2 : f' y = Some n2) by apply fupd_same.
        assert (FO : forall k, k <> y -> f' k = f k) by (intros i NI; unfold f'; rewrite !fupd_other by exact NI; reflexivity).
        assert (SHP : shape f f').
        { split.
          - intros i x FI. destruct (Z.eq_dec i y) as [->|NI]; [|exists x; rewrite FO by exact NI; auto]. rewrite F in FI. injection FI as <-. exists n2. split; [exact F2|]. intros a.
            destruct (Bool.bool_dec a b) as [->|NA]; [right; unfold n2; rewrite child_set_same; split; [exact C0|apply adr0]|left]. rewrite (negb_other _ _ NA). unfold n2. rewrite child_set_other. now apply child_children.
          - intros i x FI. destruct (Z.eq_dec i y) as [->|NI]; [eauto|]. rewrite FO in FI by exact NI. eauto. }
        eexists _, _, f'. split; [reflexivity|]. split; [reflexivity|]. split; [reflexivity|]. split; [|split; [exact SHP|]].
        + destruct C as [C1 C2 C3 C4 C5]. split; try assumption; cbn [tr_nodes with_nodes].
          * congruence.
          * eapply (grow_descend_leaf adr D suf suf' lo hi f X p b RP SP GR adr0 f' y n n2); try assumption; unfold n2.
            -- rewrite depth_set_child; exact DP1.
            -- rewrite start_set_child; exact TS1.
            -- apply child_set_same.
            -- rewrite child_set_other. now apply child_children.
          * intros i x FI. destruct (Z.eq_dec i y) as [->|NI].
            -- rewrite F2 in FI. injection FI as <-. rewrite XY. destruct STN as (h' & A & B). exists h'. split; [exact A|]. now apply fits_child.
            -- rewrite FO in FI by exact NI. apply stat_other; [|auto]. intros E. apply NI. apply (pt_inj _ _ _ _ _ _ _ P _ _ _ _ FI F). congruence.
        + assert (OQ : occurs suf lo hi (s ++ [b]) q) by apply LT. destruct (next_earlier _ _ OQ) as (QR & _). split; [|rewrite gr_at; split; [|exact VS]].
          * exists q. split; [|exact CE]. split; [exact QR|]. rewrite gr_at. split; [rewrite gr_same by lia; exact (proj2 OQ)|]. intros i I PI. rewrite gr_same in PI by lia.
            assert (i <= q) by (apply (proj2 LT); split; [lia|exact PI]). lia.
          * right. split; [reflexivity|]. exists b. split; [reflexivity|]. left. exists n2. split; [exact F2|]. split; [unfold n2; rewrite child_set_same; apply adr0|]. cbn [cx_node]. rewrite XY. apply prefix_refl.
      - replace (0 <=? nd_child n b) with false by lia. rewrite CE, child_to_node by lia. cbn [bind].
        assert (NJ : j <> y). { intros ->. rewrite XY in PX. apply prefix_len in PX. rewrite snoc_len in PX. lia. }
        assert (FJ1 : fupd f y (Some n1) j = Some nj) by (rewrite fupd_other by exact NJ; exact FJ). rewrite (stock_get _ _ _ _ _ ST1 FJ1). cbn [bind]. rewrite WS. cbn [bind].
        rewrite wrap_id by (try (cbn [ibits u32]; ib); pose proof (adr0 p); pose proof (adr_lt p); lia). set (nj' := nd_set_text_start nj (adr p)).
        assert (VJ : nd_is_valid nj' = true) by exact (proj2 (st_live _ _ _ ST j nj FJ)).
        destruct (stock_set _ _ _ j nj' nj ST1 VJ FJ1) as (ns2 & S2 & ST2 & L2 & Z2). rewrite S2. cbn [bind].
        set (f' := fupd (fupd f y (Some n1)) j (Some nj')) in *. assert (F2 : f' j = Some nj') by apply fupd_same. assert (F3 : f' y = Some n1) by (unfold f'; rewrite fupd_other by congruence; exact F1).
        assert (FO : forall k, k <> y -> k <> j -> f' k = f k) by (intros i NI NI'; unfold f'; rewrite !fupd_other by assumption; reflexivity).
        assert (SHP : shape f f').
        { split.
          - intros i x FI. destruct (Z.eq_dec i y) as [->|NI]; [rewrite F in FI; injection FI as <-; exists n1; split; [exact F3|]; intros a; left; now apply child_children|].
            destruct (Z.eq_dec i j) as [->|NI']; [rewrite FJ in FI; injection FI as <-; exists nj'; split; [exact F2|]; intros a; left; reflexivity|]. exists x. rewrite FO by assumption. auto.
          - intros i x FI. destruct (Z.eq_dec i y) as [->|NI]; [eauto|]. destruct (Z.eq_dec i j) as [->|NI']; [eauto|]. rewrite FO in FI by assumption. eauto. }
        eexists _, _, f'. split; [reflexivity|]. split; [reflexivity|]. split; [reflexivity|]. split; [|split; [exact SHP|]].
        + destruct C as [C1 C2 C3 C4 C5]. split; try assumption; cbn [tr_nodes with_nodes].
          * congruence.
          * eapply (grow_descend_node adr D suf suf' lo hi f X p b RP SP GR adr0 f' y n n1 j nj nj'); try assumption; try reflexivity. intros a. now apply child_children.
          * intros i x FI. destruct (Z.eq_dec i y) as [->|NI]; [rewrite F3 in FI; injection FI as <-; rewrite XY; exact STN|]. destruct (Z.eq_dec i j) as [->|NI'].
            -- rewrite F2 in FI. injection FI as <-. apply stat_other.
               ++ intros E. apply NI. apply (pt_inj _ _ _ _ _ _ _ P _ _ _ _ FJ F). congruence.
               ++ destruct (C4 j nj FJ) as (h' & A & B). exists h'. split; [exact A|]. now apply fits_start.
            -- rewrite FO in FI by assumption. apply stat_other; [|auto]. intros E. apply NI. apply (pt_inj _ _ _ _ _ _ _ P _ _ _ _ FI F). congruence.
        + assert (OQ : occurs suf lo hi (s ++ [b]) q) by apply LT. destruct (next_earlier _ _ OQ) as (QR & _). split; [|rewrite gr_at; split; [|exact VS]].
          * exists q. split; [|exact TS]. split; [exact QR|]. rewrite gr_at. split; [rewrite gr_same by lia; exact (proj2 OQ)|]. intros i I PI. rewrite gr_same in PI by lia.
            assert (i <= q) by (apply (proj2 LT); split; [lia|exact PI]). lia.
          * left. split; [reflexivity|]. cbn [cx_node]. split; [eauto|]. split; [exact PX|]. intros i x FI PI. destruct (proj2 SHP i x FI) as (x0 & FX). eapply node_first; try eassumption. exists nj, q. auto 6.
    Qed.
    (** An edge is split. *)
    Lemma setup_ok tr cx order bit_index ts q : visited suf lo hi s (cx_visits cx) -> single_next suf lo hi s -> occurs suf lo hi (s ++ [negb b]) q ->
      window_bit (tr_window tr) (w_cursor (tr_window tr)) bit_index = Ok b -> depth_of order bit_index = Ok (zlen s) -> zlen s < D -> ts < 2 ^ 31 ->
      exists n, setup_split_edge t tr cx order bit_index ts = Ok n /\ nd_text_start n = ts /\ nd_depth n = zlen s /\ stat suf' lo hi s n.
    Proof.
      intros (V & k & K0 & KV) SN OC WB DO LD TS. set (older := repeat (0, negb b, ct_default) (Z.to_nat k)).
      assert (HH : exists h, h = older ++ hist suf lo hi s /\ h <> [] /\ Forall (fun x => x = negb b) (bits h) /\ cx_visits cx = Z.min 1000 (zlen h)).
      { eexists. split; [reflexivity|]. assert (I : In (negb b) (bits (hist suf lo hi s))) by (apply hist_bits; eauto). split; [|split].
        - intros EN. apply app_eq_nil in EN. rewrite (proj2 EN) in I. destruct I.
        - unfold bits. rewrite map_app. apply Forall_app. split; apply Forall_forall; intros x J.
          + apply in_map_iff in J. destruct J as (o & <- & J). apply repeat_spec in J. now subst o.
          + apply hist_bits in J. destruct J as (i & OK). exact (SN _ _ _ _ OK OC).
        - rewrite KV, zlen_app. replace (zlen older) with k; [reflexivity|]. unfold older, zlen. rewrite repeat_length. lia. }
      destruct HH as (h & HE & NE & U & VH). destruct (fits_new t trk ALL h b p (trk p (zlen s)) (cx_visits cx) NE U VH) as (e & r & qq & y & E1 & E2 & E3 & E4 & E5 & FT).
      unfold setup_split_edge. replace (cx_visits cx =? -1) with false by lia. cbn [negb assert_ guard bind]. rewrite wrap_id by (try (cbn [ibits u16]; ib); lia). rewrite WB. cbn [bind].
      change max_count with 1000. replace (Z.min 1000 (cx_visits cx)) with (cx_visits cx) by lia. rewrite E1. cbn [bind]. rewrite E4. cbn [bind]. rewrite E3. cbn [bind]. rewrite E2. cbn [bind].
      rewrite DO. cbn [bind]. unfold node_new. rewrite assert_true by lia. cbn [bind]. rewrite assert_true by (clear - LD MO; lia). cbn [bind]. rewrite E5. cbn [assert_ guard bind].
      eexists. split; [reflexivity|]. split; [reflexivity|]. split; [reflexivity|]. exists older. split; [unfold older, zlen; rewrite repeat_length; lia|]. rewrite (hist_grow trk suf suf' lo hi p b) by assumption. rewrite app_assoc. subst h. apply FT.
    Qed.
    Lemma split_leaf_ok tr f free X cx d order bit_index q n : core suf lo hi (tr_nodes tr) f free X -> cx_in_leaf cx = true -> cx_direction cx = Some d ->
      f (cx_node cx) = Some n -> 0 <= nd_child n d -> prefix (X (cx_node cx) ++ [d]) s -> zlen s < D ->
      prev suf lo p q -> cx_suffix cx = adr q -> occurs suf lo hi (s ++ [negb b]) q -> visited suf lo hi s (cx_visits cx) -> hi - lo + 1 <= m ->
      window_bit (tr_window tr) (w_cursor (tr_window tr)) bit_index = Ok b -> index_subtract (tr_window tr) (w_cursor (tr_window tr)) order = Ok (adr p) -> depth_of order bit_index = Ok (zlen s) ->
      exists tr' f' free' X', split_edge t tr cx order bit_index = Ok tr' /\ tr_window tr' = tr_window tr /\ tr_proper tr' = tr_proper tr /\
        core suf' lo hi (tr_nodes tr') f' free' X' /\ forall r c loose, p < r <= hi -> standing f X loose (suf r) c -> standing f' X' true (suf r) c.
    Proof.
      intros C IL DE F C0 PX LD PV CS OC VS LM WB WS DO. pose proof (co_trie _ _ _ _ _ _ _ C) as T. pose proof (tk_part _ _ _ _ _ _ _ T) as P. pose proof (co_stock _ _ _ _ _ _ _ C) as ST.
      set (v := cx_node cx) in *.
      destruct (pt_child _ _ _ _ _ _ _ P v n d F) as [(_ & LF)|(j0 & J0 & CE0 & _)]; [|lia].
      assert (SN : single_next suf lo hi s) by (eapply leaf_single; eassumption).
      assert (CT : nd_child n d < 2 ^ 31) by (destruct LF as (mm & _ & -> & _); apply adr_lt).
      destruct (setup_ok tr cx order bit_index (nd_child n d) q VS SN OC WB DO LD CT) as (n0 & E0 & TS0 & DP0 & SN0).
      destruct (slot_free _ _ _ ST) as (FJ & J). set (j := next_slot (tr_nodes tr) free) in *.
      set (nj := nd_set_child (nd_set_child n0 b (adr p)) (negb b) (adr q)).
      set (nv := nd_set_child n d (- j - 1)).
      assert (VJ : j <> v) by congruence.
      set (f' := fupd (fupd f j (Some nj)) v (Some nv)).
      assert (FV' : f' v = Some nv) by apply fupd_same. assert (FJ' : f' j = Some nj) by (unfold f'; rewrite fupd_other by exact VJ; apply fupd_same).
      assert (FO : forall k, k <> v -> k <> j -> f' k = f k) by (intros k N1 N2; unfold f'; rewrite !fupd_other by assumption; reflexivity).
      assert (CB : nd_child nj b = adr p). { unfold nj. replace b with (negb (negb b)) at 3 by apply negb_involutive. rewrite child_set_other, negb_involutive. apply child_set_same. }
      assert (CB' : nd_child nj (negb b) = adr q) by apply child_set_same.
      assert (TS : nd_text_start nj = nd_child n d) by (unfold nj; now rewrite !start_set_child).
      assert (DJ : nd_depth nj = zlen s) by (unfold nj; now rewrite !depth_set_child).
      assert (CV : nd_child nv d = - j - 1) by apply child_set_same. assert (CV' : nd_child nv (negb d) = nd_child n (negb d)) by apply child_set_other.
      assert (T' : trie adr D suf' lo hi f' (xupd X j s)).
      { eapply (grow_split_leaf adr D suf suf' lo hi f X p b RP SP GR adr0 q OC) with (v := v) (nv := n) (nv' := nv) (d := d) (j := j) (nj := nj); try assumption; try lia.
        - intros q' Q1 Q2 PQ. destruct PV as (PR & _ & PL). destruct (Z.le_gt_cases q' q); [assumption|]. exfalso. apply (PL q'); [lia|exact PQ].
        - unfold nv. apply depth_set_child.
        - unfold nv. apply start_set_child. }
      assert (VN : nd_is_valid n = true) by apply (st_live _ _ _ ST v n F).
      assert (VNJ : nd_is_valid nj = true). { apply valid_iff. intros a. destruct (Bool.bool_dec a b) as [->|NA]; [rewrite CB; pose proof (adr0 p); lia|]. rewrite (negb_other _ _ NA), CB'. pose proof (adr0 q). lia. }
      assert (R0 : exists r0, f 0 = Some r0) by (destruct (tk_root _ _ _ _ _ _ _ T) as (r0 & ? & E & _); eauto). destruct R0 as (r0 & R0).
      assert (ROOM : j < ns_limit (tr_nodes tr)).
      { eapply slot_fits with (m := m) (f' := f') (lo := lo) (hi := hi) (suf := suf') (d := D) (ad := adr) (f := f); try exact ST; try lia; try (fold j; congruence).
        - exact (co_limit _ _ _ _ _ _ _ C).
        - exact (tk_part _ _ _ _ _ _ _ T').
        - intros i FI. destruct (Z.eq_dec i v) as [->|N1]; [congruence|]. destruct (Z.eq_dec i j) as [->|N2]; [congruence|]. now rewrite FO. }
      destruct (stock_add _ _ _ nj ST VNJ ROOM) as (ns1 & A1 & ST1 & L1 & SB & _ & Z1). fold j in A1, ST1, SB.
      assert (VNV : nd_is_valid nv = true) by (apply valid_set; [exact VN|lia]).
      destruct (stock_update ns1 _ _ v nv ST1 VNV) as (ns2 & A2 & ST2 & L2 & Z2); [right; rewrite fupd_other by congruence; congruence|].
      exists (with_nodes tr ns2), f', (tl free), (xupd X j s). split; [|split; [reflexivity|split; [reflexivity|split]]].
      - unfold split_edge. rewrite WB. cbn [bind]. rewrite IL. cbn [negb]. fold v. rewrite (stock_get _ _ _ _ _ ST F). cbn [bind]. rewrite DE. cbn [of_opt bind]. rewrite child_to_window by exact C0. cbn [bind].
        rewrite E0. cbn [bind]. rewrite WS. cbn [bind]. rewrite child_of_window by (split; [apply adr0|apply adr_lt]). cbn [bind]. rewrite CS. rewrite child_of_window by (split; [apply adr0|apply adr_lt]). cbn [bind].
        fold nj. rewrite A1. cbn [bind fst snd]. fold nv. rewrite A2. reflexivity.
      - destruct C as [C1 C2 C3 C4 C5]. split; cbn [tr_nodes with_nodes]; try assumption; try congruence.
        + intros i x FI. destruct (Z.eq_dec i j) as [->|NJ].
          * rewrite FJ' in FI. injection FI as <-. rewrite xupd_same. destruct SN0 as (h & A & B). exists h. split; [exact A|]. now do 2 apply fits_child.
          * rewrite xupd_other by exact NJ. destruct (Z.eq_dec i v) as [->|NV].
            -- rewrite FV' in FI. injection FI as <-. apply stat_other; [eapply single_no_node; eassumption|]. destruct (C4 v n F) as (h & A & B). exists h. split; [exact A|]. now apply fits_child.
            -- rewrite FO in FI by assumption. apply stat_other; [eapply single_no_node; eassumption|]. now apply C4.
        + rewrite xupd_other by congruence. exact C5.
      - intros r c loose R S. destruct S as [(IL' & A)|(IL' & d' & E & S)]; [left|right].
        + split; [exact IL'|]. eapply (split_leaf_node adr D suf lo hi f X f' v j n nv d s); try eassumption; lia.
        + split; [exact IL'|]. exists d'. split; [exact E|]. destruct S as [A|(_ & A)].
          * assert (G : at_leaf f' (xupd X j s) (suf r) (cx_node c) d' \/ at_stale f' (xupd X j s) (suf r) (cx_node c) d').
            { eapply (split_leaf_leaf f X f' v j n nv d s); try eassumption; try lia. intros PR. destruct LF as (mm & _ & _ & LP).
              assert (Q : prefix (cut D (suf r)) s) by (apply LP; [split; [lia|exact PX]|split; [lia|exact PR]|lia]). rewrite cut_id in Q; [exact Q|]. specialize (SP p r). lia. }
            destruct G as [G|G]; [left; exact G|right; split; [reflexivity|exact G]].
          * right. split; [reflexivity|]. eapply (split_leaf_stale adr D suf lo hi f X f' v j n nv d s); try eassumption; lia.
    Qed.
    Lemma split_node_ok tr f free X cx order bit_index q n : core suf lo hi (tr_nodes tr) f free X -> cx_in_leaf cx = false ->
      f (cx_node cx) = Some n -> first_below f X s (cx_node cx) -> zlen s < zlen (X (cx_node cx)) ->
      prev suf lo p q -> cx_suffix cx = adr q -> occurs suf lo hi (s ++ [negb b]) q -> visited suf lo hi s (cx_visits cx) -> hi - lo + 1 <= m ->
      window_bit (tr_window tr) (w_cursor (tr_window tr)) bit_index = Ok b -> index_subtract (tr_window tr) (w_cursor (tr_window tr)) order = Ok (adr p) -> depth_of order bit_index = Ok (zlen s) ->
      exists tr' f' free' X', split_edge t tr cx order bit_index = Ok tr' /\ tr_window tr' = tr_window tr /\ tr_proper tr' = tr_proper tr /\
        core suf' lo hi (tr_nodes tr') f' free' X' /\ forall r c loose, p < r <= hi -> standing f X loose (suf r) c -> standing f' X' true (suf r) c.
    Proof.
      intros C IL F FB LW PV CS OC VS LM WB WS DO. pose proof (co_trie _ _ _ _ _ _ _ C) as T. pose proof (tk_part _ _ _ _ _ _ _ T) as P. pose proof (co_stock _ _ _ _ _ _ _ C) as ST.
      set (v := cx_node cx) in *.
      assert (SN : single_next suf lo hi s) by (eapply edge_single; eassumption). destruct (pt_depth _ _ _ _ _ _ _ P v n F) as (DN & DX).
      assert (TB : nd_text_start n < 2 ^ 31).
      { destruct (Z.eq_dec v 0) as [E|N]; [|destruct (parent_exists _ _ _ _ _ _ _ T v n F N) as (u & mu & du & _ & _ & (n' & mm & E1 & _ & E2 & _)); rewrite F in E1; injection E1 as <-; rewrite E2; apply adr_lt].
        destruct (tk_root _ _ _ _ _ _ _ T) as (n' & mm & E1 & _ & E2 & _). rewrite E in F. rewrite F in E1. injection E1 as <-. rewrite E2. apply adr_lt. }
      destruct (setup_ok tr cx order bit_index (nd_text_start n) q VS SN OC WB DO ltac:(lia) TB) as (n0 & E0 & TS0 & DP0 & SN0).
      destruct (slot_free _ _ _ ST) as (FJ & J). set (j := next_slot (tr_nodes tr) free) in *.
      set (nv := nd_set_child (nd_set_child n0 b (adr p)) (negb b) (- j - 1)).
      set (nj := nd_set_text_start n (adr q)).
      assert (VJ : j <> v) by congruence.
      set (f' := fupd (fupd f j (Some nj)) v (Some nv)).
      assert (FV' : f' v = Some nv) by apply fupd_same. assert (FJ' : f' j = Some nj) by (unfold f'; rewrite fupd_other by exact VJ; apply fupd_same).
      assert (FO : forall k, k <> v -> k <> j -> f' k = f k) by (intros k N1 N2; unfold f'; rewrite !fupd_other by assumption; reflexivity).
      assert (CB : nd_child nv b = adr p). { unfold nv. replace b with (negb (negb b)) at 3 by apply negb_involutive. rewrite child_set_other, negb_involutive. apply child_set_same. }
      assert (CB' : nd_child nv (negb b) = - j - 1) by apply child_set_same.
      assert (TS : nd_text_start nv = nd_text_start n) by (unfold nv; now rewrite !start_set_child).
      assert (DJ : nd_depth nv = zlen s) by (unfold nv; now rewrite !depth_set_child).
      assert (LMX : forall q', lo <= q' -> q' < p -> prefix s (suf q') -> q' <= q).
      { intros q' Q1 Q2 PQ. destruct PV as (PR & _ & PL). destruct (Z.le_gt_cases q' q); [assumption|]. exfalso. apply (PL q'); [lia|exact PQ]. }
      assert (T' : trie adr D suf' lo hi f' (xupd (xupd X v s) j (X v))).
      { eapply (grow_split_node adr D suf suf' lo hi f X p b RP SP GR adr0 q OC LMX) with (w := v) (nw := n) (nw' := nv) (j := j) (nj := nj); try assumption; try lia; reflexivity. }
      assert (VN : nd_is_valid nj = true) by exact (proj2 (st_live _ _ _ ST v n F)).
      assert (VNV : nd_is_valid nv = true). { apply valid_iff. intros a. destruct (Bool.bool_dec a b) as [->|NA]; [rewrite CB; pose proof (adr0 p); lia|]. rewrite (negb_other _ _ NA), CB'. lia. }
      assert (R0 : exists r0, f 0 = Some r0) by (destruct (tk_root _ _ _ _ _ _ _ T) as (r0 & ? & E & _); eauto). destruct R0 as (r0 & R0).
      assert (ROOM : j < ns_limit (tr_nodes tr)).
      { eapply slot_fits with (m := m) (f' := f') (lo := lo) (hi := hi) (suf := suf') (d := D) (ad := adr) (f := f); try exact ST; try lia; try (fold j; congruence).
        - exact (co_limit _ _ _ _ _ _ _ C).
        - exact (tk_part _ _ _ _ _ _ _ T').
        - intros i FI. destruct (Z.eq_dec i v) as [->|N1]; [congruence|]. destruct (Z.eq_dec i j) as [->|N2]; [congruence|]. now rewrite FO. }
      destruct (stock_add _ _ _ nj ST VN ROOM) as (ns1 & A1 & ST1 & L1 & SB & _ & Z1). fold j in A1, ST1, SB.
      destruct (stock_update ns1 _ _ v nv ST1 VNV) as (ns2 & A2 & ST2 & L2 & Z2); [right; rewrite fupd_other by congruence; congruence|].
      exists (with_nodes tr ns2), f', (tl free), (xupd (xupd X v s) j (X v)). split; [|split; [reflexivity|split; [reflexivity|split]]].
      - unfold split_edge. rewrite WB. cbn [bind]. rewrite IL. cbn [negb]. fold v. rewrite (stock_get _ _ _ _ _ ST F). cbn [bind]. rewrite E0. cbn [bind]. rewrite WS. cbn [bind].
        rewrite child_of_window by (split; [apply adr0|apply adr_lt]). cbn [bind]. rewrite CS. rewrite wrap_id by (try (cbn [ibits u32]; ib); pose proof (adr0 q); pose proof (adr_lt q); lia).
        fold nj. rewrite A1. cbn [bind fst snd]. fold nv. rewrite A2. reflexivity.
      - destruct C as [C1 C2 C3 C4 C5]. split; cbn [tr_nodes with_nodes]; try assumption; try congruence.
        + intros i x FI. destruct (Z.eq_dec i j) as [->|NJ].
          * rewrite FJ' in FI. injection FI as <-. rewrite xupd_same. apply stat_other; [eapply single_no_node; eassumption|]. destruct (C4 v n F) as (h & A & B). exists h. split; [exact A|]. now apply fits_start.
          * rewrite xupd_other by exact NJ. destruct (Z.eq_dec i v) as [->|NV].
            -- rewrite FV' in FI. injection FI as <-. rewrite xupd_same. destruct SN0 as (h & A & B). exists h. split; [exact A|]. now do 2 apply fits_child.
            -- rewrite FO in FI by assumption. rewrite xupd_other by exact NV. apply stat_other; [eapply single_no_node; eassumption|]. now apply C4.
        + rewrite xupd_other by congruence. destruct (Z.eq_dec 0 v) as [<-|N0]; [rewrite xupd_same; lia|]. rewrite xupd_other by exact N0. exact C5.
      - intros r c loose R S. assert (LX : zlen (suf r) < zlen s) by (specialize (SP p r); lia). destruct S as [(IL' & A)|(IL' & d' & E & S)]; [left|right].
        + split; [exact IL'|]. eapply (split_node_node adr D suf lo hi f X f' v j n nv s); try eassumption; lia.
        + split; [exact IL'|]. exists d'. split; [exact E|]. destruct S as [A|(_ & A)]; [left|right; split; [reflexivity|]].
          * eapply (split_node_leaf f X f' v j s); try eassumption; lia.
          * eapply (split_node_stale adr D suf lo hi f X f' v j n s); try eassumption; lia.
    Qed.
  End Step.

  (** ** The loop *)
  Lemma core_ext suf suf' lo hi ns f free X : (forall q, lo <= q <= hi -> suf' q = suf q) -> core suf lo hi ns f free X -> core suf' lo hi ns f free X.
  Proof.
    intros E [C1 C2 C3 C4 C5]. split; try assumption; [now apply trie_ext with suf|]. intros i n F. unfold stat. replace (hist suf' lo hi (X i)) with (hist suf lo hi (X i)); [exact (C4 i n F)|].
    symmetry. apply hist_ext; [intros q R; unfold longer; now rewrite E|intros q R _; now rewrite E].
  Qed.
  Lemma held_ext suf suf' lo hi f X loose r cx : (forall q, lo <= q <= hi -> suf' q = suf q) -> r <= hi -> held suf lo hi f X loose r cx -> held suf' lo hi f X loose r cx.
  Proof.
    intros E R ((q & (Q & P & L) & CS) & S & V). split; [|rewrite E by lia; split; [exact S|unfold visited]].
    - exists q. split; [|exact CS]. split; [exact Q|]. rewrite !E by lia. split; [exact P|]. intros k K. rewrite E by lia. auto.
    - replace (hist suf' lo hi (suf r)) with (hist suf lo hi (suf r)); [exact V|]. symmetry. apply hist_ext; [intros k K; unfold longer; now rewrite E|intros k K _; now rewrite E].
  Qed.
  Definition unseen suf lo hi from : Prop := forall o, from <= o <= max_order -> forall q, lo <= q < hi - o -> ~ prefix (suf (hi - o)) (suf q).
  (** The tree after a text. *)
  Definition proper suf lo hi ns cs : Prop := exists f free X, core suf lo hi ns f free X /\ zlen cs <= max_order + 1 /\
    (forall o cx, znth cs o = Some cx -> held suf lo hi f X false (hi - o) cx) /\ unseen suf lo hi (zlen cs).

  Definition flat text lo hi ns (cs : list context) : Prop := cs = [] /\ (exists free, stock ns (fun _ => None) free /\ ns_limit ns = Z.max 1 (m - 1)) /\
    forall q r, lo <= q -> q < r -> r <= hi -> prefix (sufx text r) (sufx text q).
  Definition grown text lo hi tr cs : Prop := if tr_proper tr then proper (sufx text) lo hi (tr_nodes tr) cs else flat text lo hi (tr_nodes tr) cs.

  Section Loop.
    Variables (text : list bit) (b : bit) (lo hi u : Z) (w : window) (trackers : list cost_trackers).
    Hypothesis W : win m shift (text ++ [b]) lo hi w.
    Hypothesis U : zlen text = 8 * hi + u.
    Hypothesis U8 : 0 <= u < 8.
    Hypothesis TR : forall o, 0 <= o <= max_order -> lo <= hi - o ->
      (o < zlen trackers <-> forall a, exists q, lo <= q < hi - o /\ prefix (sufx text (hi - o) ++ [a]) (sufx text q)).
    Hypothesis TK : forall o k, znth trackers o = Some k -> trk (hi - o) (8 * o + u) = k.
    Definition sufk (k q : Z) : list bit := if q <? k then sufx text q ++ [b] else sufx text q.
    Lemma lo0 : 0 <= lo <= hi + 1. Proof. exact (wn_lo _ _ _ _ _ _ W). Qed.
    Lemma text_len q : lo <= q <= hi -> zlen (sufx text q) = 8 * (hi - q) + u.
    Proof. intros Q. pose proof lo0. rewrite sufx_len by lia. lia. Qed.
    Lemma sufk_spread k : spread (sufk k) lo hi.
    Proof.
      intros p q P PQ Q. pose proof lo0. unfold sufk. pose proof (text_len p ltac:(lia)). pose proof (text_len q ltac:(lia)). destruct (p <? k), (q <? k); rewrite ?snoc_len; lia.
    Qed.
    Lemma sufk_step k q : sufk (k + 1) q = if q =? k then sufk k k ++ [b] else sufk k q.
    Proof.
      unfold sufk. replace (k <? k) with false by lia. destruct (Z.eqb_spec q k) as [->|N]; [now replace (k <? k + 1) with true by lia|].
      destruct (Z.ltb_spec q k), (Z.ltb_spec q (k + 1)); try reflexivity; lia.
    Qed.
    Lemma sufk_at k : sufk k k = sufx text k. Proof. unfold sufk. now replace (k <? k) with false by lia. Qed.
    Lemma sufk_next k q a : lo <= q < k -> k <= hi -> (prefix (sufx text k ++ [a]) (sufk k q) <-> prefix (sufx text k ++ [a]) (sufx text q)).
    Proof.
      intros Q K. unfold sufk. replace (q <? k) with true by lia. split; [|intros P; exact (prefix_trans _ _ _ P (prefix_app _ _))]. intros P. apply prefix_snoc_inv in P. destruct P as [P|P]; [|exact P].
      exfalso. apply snoc_inj in P. destruct P as (P & _). pose proof (text_len q ltac:(lia)). pose proof (text_len k ltac:(lia)). rewrite P in *. lia.
    Qed.
    Definition looped (C k : Z) (st : tree * list context * Z) : Prop := let '(tr, cs, cnt) := st in
      tr_window tr = w /\ tr_proper tr = true /\ zlen cs = C /\ 0 <= cnt <= C /\ Z.min C (hi - k + 1) <= cnt /\
      exists f free X, core (sufk k) lo hi (tr_nodes tr) f free X /\
        (forall o cx, 0 <= o < cnt -> znth cs o = Some cx -> held (sufk k) lo hi f X (k <=? hi - o) (hi - o) cx) /\ unseen (sufk k) lo hi cnt.
    Lemma unseen_step k cnt : lo <= k <= hi -> 0 <= cnt -> unseen (sufk k) lo hi cnt -> unseen (sufk (k + 1)) lo hi cnt.
    Proof.
      intros K CN UN o O q Q. apply (gr_none (sufk k) (sufk (k + 1)) lo hi k b K (sufk_spread k) (fun q _ => sufk_step k q)); [lia| |exact Q]. intros q' Q'. apply UN; assumption.
    Qed.
    Lemma silent_step C k st : looped C k st -> lo <= k -> k <= hi - C -> looped C (k + 1) st.
    Proof.
      destruct st as ((tr, cs), cnt). intros (LW & LP & LC & CN & MN & f & free & X & CO & HE & UN) LK KH. pose proof (zlen_nonneg cs). assert (CE : cnt = C) by lia.
      split; [exact LW|]. split; [exact LP|]. split; [exact LC|]. split; [exact CN|]. split; [lia|]. exists f, free, X.
      pose proof (text_len k ltac:(lia)) as TL. pose proof (co_trie _ _ _ _ _ _ _ CO) as T. pose proof (tk_part _ _ _ _ _ _ _ T) as P.
      assert (RK : lo <= k <= hi) by lia.
      split; [|split].
      - apply (core_same (sufk k) (sufk (k + 1)) lo hi k b RK (sufk_spread k) (fun q _ => sufk_step k q)); [exact CO| |]; rewrite sufk_at.
        + intros i n F E. destruct (pt_depth _ _ _ _ _ _ _ P i n F) as (_ & LD). rewrite E, TL in LD.
          destruct (node_branches _ _ _ _ _ _ _ P i n b F) as (q & OC). rewrite E, <- (sufk_at k) in OC.
          destruct (next_earlier (sufk k) (sufk (k + 1)) lo hi k b RK (sufk_spread k) (fun q _ => sufk_step k q) b q OC) as (Q & PQ). apply (UN (hi - k) ltac:(lia) q ltac:(lia)). now replace (hi - (hi - k)) with k by lia.
        + destruct (Z.le_gt_cases (hi - k) max_order) as [LE|GT]; [left|right; lia]. intros q Q PQ. exfalso. rewrite <- sufk_at in PQ. apply (UN (hi - k) ltac:(lia) q ltac:(lia)). now replace (hi - (hi - k)) with k by lia.
      - intros o cx O Z0. apply (held_other (sufk k) (sufk (k + 1)) lo hi k b RK (sufk_spread k) (fun q _ => sufk_step k q) f X f X (k <=? hi - o)); [lia|lia| |now apply HE].
        apply standing_loose. lia.
      - apply unseen_step; [lia|lia|exact UN].
    Qed.
    Lemma repeats_shorter p q : lo < p <= hi -> prev (sufk p) lo (p - 1) q -> exists q', lo <= q' < p /\ occurs (sufk p) lo hi (sufx text p ++ [b]) q'.
    Proof.
      intros P (Q & PQ & _). pose proof lo0. pose proof (text_len (p - 1) ltac:(lia)) as L1. pose proof (text_len q ltac:(lia)) as L2.
      unfold sufk in PQ. replace (p - 1 <? p) with true in PQ by lia. replace (q <? p) with true in PQ by lia. exists (q + 1). split; [lia|]. split; [lia|].
      assert (PT : prefix (sufx text p ++ [b]) (sufx text (q + 1))).
      { apply prefix_snoc_inv in PQ. destruct PQ as [PQ|PQ]; [apply snoc_inj in PQ; destruct PQ as (PQ & _); rewrite PQ in L1; lia|].
        rewrite <- sufx_app in PQ |- * by lia. apply (prefix_skip (Z.to_nat (8 * 1))) in PQ; [|rewrite sufx_app by lia; unfold zlen in L1; rewrite app_length; cbn [length]; lia].
        rewrite !sufx_skip in PQ by lia. replace (p - 1 + 1) with p in PQ by lia. exact PQ. }
      unfold sufk. destruct (q + 1 <? p); [exact (prefix_trans _ _ _ PT (prefix_app _ _))|exact PT].
    Qed.
    Lemma depth_ok o : 0 <= o <= max_order -> depth_of o (7 - u) = Ok (8 * o + u).
    Proof.
      intros O. unfold depth_of. rewrite mul_ok by (cbn [usize imin imax]; ib; lia). cbn [bind]. rewrite add_ok by (cbn [usize imin imax]; ib; lia). cbn [bind]. rewrite sub_ok by (cbn [usize imin imax]; ib; lia). f_equal. lia.
    Qed.
    Lemma bit_now : lo <= hi -> window_bit w (w_cursor w) (7 - u) = Ok b.
    Proof.
      intros L. pose proof lo0. rewrite (win_cursor _ _ M _ _ _ _ W), (win_bit _ _ M _ _ _ _ W) by (try rewrite snoc_len; lia). f_equal. rewrite sufx_app by lia. pose proof (text_len hi ltac:(lia)) as TL.
      unfold zlen in TL. rewrite app_nth2 by lia. now replace (Z.to_nat (7 - (7 - u)) - length (sufx text hi))%nat with 0%nat by lia.
    Qed.
    Lemma differ_at o q a : 0 <= o -> lo <= q < hi - o -> prefix (sufx text (hi - o) ++ [a]) (sufx text q) ->
      bytes_differ_on w (adr (q + o)) (w_cursor w) (7 - u) = Ok (xorb a b).
    Proof.
      intros O Q P. pose proof lo0. pose proof (text_len (hi - o) ltac:(lia)) as L1. pose proof (text_len q ltac:(lia)) as L2. pose proof (bit_now ltac:(lia)) as BN.
      rewrite (win_cursor _ _ M _ _ _ _ W) in *. rewrite (win_differ _ _ M _ _ _ _ W) by (try rewrite snoc_len; lia). rewrite (win_bit _ _ M _ _ _ _ W) in BN by (try rewrite snoc_len; lia).
      assert (BE : nth (Z.to_nat (7 - (7 - u))) (sufx (text ++ [b]) hi) Zero = b) by congruence. rewrite BE. do 2 f_equal. rewrite sufx_app by lia. pose proof (text_len (q + o) ltac:(lia)) as L3. rewrite app_nth1 by (unfold zlen in L3; lia).
      rewrite sufx_nth by lia. apply nth_prefix in P. replace (length (sufx text (hi - o))) with (Z.to_nat (8 * o + u)) in P by (unfold zlen in L1; lia). rewrite sufx_nth in P by lia. rewrite <- P. do 2 f_equal. lia.
    Qed.
    Lemma refresh_ok suf ns f free X r cx : core suf lo hi ns f free X -> held suf lo hi f X true r cx ->
      exists cx1, (if cx_in_leaf cx then
                     let* n := nodes_get ns (cx_node cx) in
                     let* d := of_opt (cx_direction cx) EAssert in
                     let child := nd_child n d in
                     if child_is_window_index child then Ok cx
                     else let* j := child_to_node_index child in Ok (mkContext (cx_suffix cx) j (cx_visits cx) false (cx_direction cx))
                   else Ok cx) = Ok cx1 /\ cx_suffix cx1 = cx_suffix cx /\ cx_visits cx1 = cx_visits cx /\ held suf lo hi f X false r cx1.
    Proof.
      intros C (Q & S & V). pose proof (co_stock _ _ _ _ _ _ _ C) as ST. destruct S as [(IL & A)|(IL & d & DE & [A|(_ & A)])]; rewrite IL.
      - exists cx. do 3 (split; [reflexivity|]). split; [exact Q|]. split; [left; auto|exact V].
      - pose proof A as (n & F & C0 & _). rewrite (stock_get _ _ _ _ _ ST F), DE. cbn [bind of_opt]. unfold child_is_window_index. replace (0 <=? nd_child n d) with true by lia. exists cx.
        do 3 (split; [reflexivity|]). split; [exact Q|]. split; [right; split; [exact IL|]; exists d; auto|exact V].
      - destruct (stale_node _ _ _ _ _ _ _ (co_trie _ _ _ _ _ _ _ C) _ _ _ A) as (n & j & F & J & CE & AN). rewrite (stock_get _ _ _ _ _ ST F), DE. cbn [bind of_opt]. unfold child_is_window_index.
        replace (0 <=? nd_child n d) with false by lia. rewrite CE, child_to_node by lia. cbn [bind]. eexists. split; [reflexivity|]. do 2 (split; [reflexivity|]).
        split; [exact Q|]. split; [left; auto|exact V].
    Qed.
    Lemma extend_one C k o st : looped C k st -> C <= max_order + 1 -> lo <= k -> k = hi - o -> 0 <= o < C -> exists st', extend_step t trackers (7 - u) st o = Ok st' /\ looped C (k + 1) st'.
    Proof.
      destruct st as ((tr, cs), cnt). intros (LW & LP & LC & CN & MN & f & free & X & CO & HE & UN) CM LK -> OC. set (k := hi - o) in *.
      assert (RK : lo <= k <= hi) by lia. pose proof (sufk_spread k) as SP. pose proof (fun q (_ : lo <= q <= hi) => sufk_step k q) as GR.
      pose proof (text_len k RK) as TL. replace (hi - k) with o in TL by lia. pose proof (co_trie _ _ _ _ _ _ _ CO) as T. pose proof (tk_part _ _ _ _ _ _ _ T) as P. pose proof (co_stock _ _ _ _ _ _ _ CO) as ST.
      assert (AT := sufk_at k). pose proof (win_fits _ _ _ _ _ _ W) as WF.
      destruct (znth_lt cs o ltac:(lia)) as (cx0 & Z0). assert (HO := HE o cx0 ltac:(lia) Z0). replace (k <=? hi - o) with true in HO by lia. replace (hi - o) with k in HO by lia.
      destruct (refresh_ok _ _ _ _ _ _ _ CO HO) as (cx & RE & SE & VE & HC). clear HO. pose proof HC as ((q & PV & CS) & SD & VS).
      assert (WB : window_bit (tr_window tr) (w_cursor (tr_window tr)) (7 - u) = Ok b) by (rewrite LW; apply bit_now; lia).
      assert (WS : index_subtract (tr_window tr) (w_cursor (tr_window tr)) o = Ok (adr k)) by (rewrite LW, (win_cursor _ _ M _ _ _ _ W); apply (win_sub _ _ M _ _ _ _ W); lia).
      assert (DO := depth_ok o ltac:(lia)).
      destruct (standing_live _ _ _ _ _ SD) as (n & F). destruct (pt_depth _ _ _ _ _ _ _ P _ _ F) as (DN & LD).
      set (cs1 := zupd cs o cx). assert (LC1 : zlen cs1 = C) by (unfold cs1; rewrite zlen_zupd; exact LC).
      assert (KEEP : forall c f' X' (cs' : list context), (forall o' x, o' <> o -> znth cs' o' = Some x -> znth cs o' = Some x) -> znth cs' o = Some c ->
                held (sufk (k + 1)) lo hi f' X' false k c -> (forall r x loose, standing f X loose (sufk k r) x -> standing f' X' loose (sufk k r) x) ->
                forall o' x, 0 <= o' < cnt -> znth cs' o' = Some x -> held (sufk (k + 1)) lo hi f' X' (k + 1 <=? hi - o') (hi - o') x).
      { intros c f' X' cs' CE1 CE2 HH SS o' x O' ZX. destruct (Z.eq_dec o' o) as [->|NO].
        - rewrite CE2 in ZX. injection ZX as <-. replace (k + 1 <=? hi - o) with false by lia. exact HH.
        - apply (held_other (sufk k) (sufk (k + 1)) lo hi k b RK SP GR f X f' X' (k <=? hi - o')); [lia|lia| |apply HE; [lia|now apply CE1]].
          intros S. replace (k + 1 <=? hi - o') with (k <=? hi - o') by lia. now apply SS. }
      unfold extend_step. rewrite (get_ok _ _ _ Z0). cbn [bind]. cbn zeta in RE |- *. rewrite RE. cbn [bind]. rewrite set_ok by lia. cbn [bind]. fold cs1. rewrite (stock_get _ _ _ _ _ ST F). cbn [bind]. rewrite DO. cbn [bind].
      destruct (Z.eqb_spec (nd_depth n) (8 * o + u)) as [ED|ND].
      - assert (NL : cx_in_leaf cx = false /\ X (cx_node cx) = sufk k k).
        { destruct SD as [(IL & _ & FB)|(_ & d & _ & [(n' & F' & _ & PX)|(? & _)])]; [split; [exact IL|symmetry; apply prefix_eq; [apply FB|rewrite AT; lia]]|exfalso|discriminate].
          apply prefix_len in PX. rewrite snoc_len, AT in PX. lia. }
        destruct NL as (IL & XE). rewrite IL. cbn [negb assert_ guard bind].
        assert (TO : o < zlen trackers).
        { apply TR; [lia|lia|]. intros a. destruct (node_branches _ _ _ _ _ _ _ P _ _ a F) as (q' & OQ). rewrite XE in OQ. destruct (next_earlier _ _ _ _ _ _ RK SP GR _ _ OQ) as (QR & _). exists q'. split; [lia|].
          change (hi - o) with k. apply sufk_next; [lia|lia|]. rewrite <- AT. apply OQ. }
        rewrite assert_true by lia. cbn [bind]. destruct (znth_lt trackers o ltac:(lia)) as (kk & ZK). rewrite (get_ok _ _ _ ZK). cbn [bind].
        assert (KK : trk k (zlen (sufk k k)) = kk) by (rewrite AT, TL; exact (TK o kk ZK)).
        destruct (descend_ok (sufk k) (sufk (k + 1)) lo hi k b RK SP GR tr f free X (cx_node cx) n cx o (7 - u) kk CO F XE IL eq_refl WB WS KK) as (tr' & cx' & f' & E & TW & TP & CO' & SHP & HC').
        rewrite E. cbn [bind snd fst]. rewrite set_ok by lia. cbn [bind]. eexists. split; [reflexivity|]. split; [congruence|]. split; [congruence|]. split; [rewrite zlen_zupd; exact LC1|]. split; [lia|]. split; [lia|].
        exists f', free, X. split; [exact CO'|]. split; [|apply unseen_step; [lia|lia|exact UN]]. apply (KEEP cx'); [|apply znth_zupd_same; lia|exact HC'|].
        + intros o' x NO. unfold cs1. rewrite !znth_zupd_other by congruence. auto.
        + intros r x loose. now apply standing_shape.
      - assert (SN : single_next (sufk k) lo hi (sufk k k) /\ (cx_in_leaf cx = false -> zlen (sufk k k) < zlen (X (cx_node cx)))).
        { destruct SD as [(IL & _ & FB)|(IL & d & _ & [(n' & F' & C0 & PX)|(? & _)])]; [|split; [|intros; congruence]|discriminate].
          - assert (LT : zlen (sufk k k) < zlen (X (cx_node cx))) by (pose proof (prefix_len _ _ (proj1 FB)) as L; rewrite AT in *; lia). split; [|auto]. exact (edge_single _ _ _ _ _ _ _ T _ _ _ F FB LT).
          - rewrite F in F'. injection F' as <-. destruct (pt_child _ _ _ _ _ _ _ P _ n d F) as [(_ & LF)|(j0 & J0 & CE0 & _)]; [|lia]. apply (leaf_single _ _ _ _ _ _ _ _ LF PX). rewrite AT. lia. }
        destruct SN as (SN & LT).
        assert (TO : zlen trackers <= o).
        { destruct (Z.le_gt_cases (zlen trackers) o) as [|G]; [assumption|exfalso]. pose proof (proj1 (TR o ltac:(lia) ltac:(lia)) ltac:(lia)) as B.
          destruct (B Zero) as (q0 & Q0 & P0). destruct (B One) as (q1 & Q1 & P1). change (hi - o) with k in Q0, P0, Q1, P1.
          assert (X0 : occurs (sufk k) lo hi (sufk k k ++ [Zero]) q0) by (split; [lia|rewrite AT; now apply sufk_next]).
          assert (X1 : occurs (sufk k) lo hi (sufk k k ++ [One]) q1) by (split; [lia|rewrite AT; now apply sufk_next]).
          discriminate (SN _ _ _ _ X0 X1). }
        rewrite assert_true by lia. cbn [bind]. rewrite CS. rewrite LW. pose proof PV as (QR & PQ & QL). rewrite (win_add _ _ M _ _ _ _ W) by lia. cbn [bind].
        destruct (earlier_next _ _ _ _ _ _ RK SP GR q QR PQ) as (a & OA). assert (PA : prefix (sufx text k ++ [a]) (sufx text q)) by (apply sufk_next; [lia|lia|rewrite <- AT; apply OA]).
        rewrite (differ_at o q a) by (lia || exact PA). cbn [bind]. assert (SA : forall q' a', occurs (sufk k) lo hi (sufk k k ++ [a']) q' -> a' = a) by (intros q' a' OO; exact (SN _ _ _ _ OO OA)).
        destruct (Bool.bool_dec a b) as [EB|NB].
        + rewrite EB, xorb_nilpotent. eexists. split; [reflexivity|]. split; [exact LW|]. split; [exact LP|]. split; [exact LC1|]. split; [lia|]. split; [lia|]. exists f, free, X.
          split; [|split; [|apply unseen_step; [lia|lia|exact UN]]].
          * apply (core_same (sufk k) (sufk (k + 1)) lo hi k b RK SP GR); [exact CO| |left].
            -- intros i x FI. exact (single_no_node _ _ _ _ _ _ _ _ _ _ P SN FI).
            -- intros q' Q' PQ'. destruct (earlier_next _ _ _ _ _ _ RK SP GR q' Q' PQ') as (a' & OA'). pose proof (SA _ _ OA') as EA. rewrite EA, EB in OA'. apply OA'.
          * apply (KEEP cx); [intros o' x NO; unfold cs1; rewrite znth_zupd_other by congruence; auto|apply znth_zupd_same; lia| |auto].
            apply (edge_stays (sufk k) (sufk (k + 1)) lo hi k b RK SP GR f X cx a T HC SN); [|exists q; auto|exact EB]. intros y IL -> XE. specialize (LT IL). rewrite XE in LT. lia.
        + assert (EA : a = negb b) by now apply negb_other. rewrite EA in OA. replace (xorb a b) with true by (rewrite EA; now destruct b).
          rewrite mul_ok by (cbn [usize imin imax]; ib; lia). cbn [bind].
          assert (AS : cx_in_leaf cx || (o * 8 <=? nd_depth n) = true). { destruct (cx_in_leaf cx); [reflexivity|]. specialize (LT eq_refl). rewrite AT in LT. cbn [orb]. lia. }
          rewrite AS. cbn [assert_ guard bind].
          assert (SPL : exists tr' f' free' X', split_edge t tr cx o (7 - u) = Ok tr' /\ tr_window tr' = tr_window tr /\ tr_proper tr' = tr_proper tr /\
                  core (sufk (k + 1)) lo hi (tr_nodes tr') f' free' X' /\ forall r c loose, k < r <= hi -> standing f X loose (sufk k r) c -> standing f' X' true (sufk k r) c).
          { assert (DO' : depth_of o (7 - u) = Ok (zlen (sufk k k))) by (rewrite AT, TL; exact DO).
            destruct SD as [(IL & _ & FB)|(IL & d & DE & [(n' & F' & C0 & PX)|(? & _)])]; [| |discriminate].
            - apply (split_node_ok (sufk k) (sufk (k + 1)) lo hi k b RK SP GR tr f free X cx o (7 - u) q n); auto.
            - rewrite F in F'. injection F' as <-. apply (split_leaf_ok (sufk k) (sufk (k + 1)) lo hi k b RK SP GR tr f free X cx d o (7 - u) q n); auto. rewrite AT. lia. }
          destruct SPL as (tr' & f' & free' & X' & E & TW & TP & CO' & KS). rewrite E. cbn [bind].
          assert (CE : cnt = o + 1).
          { destruct (Z.le_gt_cases cnt (o + 1)); [lia|exfalso]. destruct (znth_lt cs (o + 1) ltac:(lia)) as (cx2 & Z2). destruct (HE (o + 1) cx2 ltac:(lia) Z2) as ((q2 & P2 & _) & _).
            replace (hi - (o + 1)) with (k - 1) in P2 by lia. pose proof P2 as (R2 & _). destruct (repeats_shorter k q2 ltac:(lia) P2) as (q3 & _ & O3). rewrite <- AT in O3. apply SA in O3. apply NB. congruence. }
          rewrite sub_ok by (cbn [usize imin imax]; ib; lia). cbn [bind]. rewrite assert_true by lia. cbn [bind]. eexists. split; [reflexivity|]. split; [congruence|]. split; [congruence|]. split; [exact LC1|]. split; [lia|]. split; [lia|].
          exists f', free', X'. split; [exact CO'|]. split.
          * intros o' x O' ZX. unfold cs1 in ZX. rewrite znth_zupd_other in ZX by lia.
            apply (held_other (sufk k) (sufk (k + 1)) lo hi k b RK SP GR f X f' X' (k <=? hi - o')); [lia|lia| |apply HE; [lia|exact ZX]].
            intros S. replace (k + 1 <=? hi - o') with true by lia. apply KS with (k <=? hi - o'); [lia|exact S].
          * intros o' O'. destruct (Z.eq_dec o' o) as [->|NO]; [|apply (unseen_step k cnt); [lia|lia|exact UN|lia]].
            intros q' Q' PQ'. change (hi - o) with k in Q', PQ'. rewrite (gr_at (sufk k) (sufk (k + 1)) lo hi k b RK GR) in PQ'. rewrite (gr_same (sufk k) (sufk (k + 1)) lo hi k b GR) in PQ' by lia.
            assert (OO : occurs (sufk k) lo hi (sufk k k ++ [b]) q') by (split; [lia|exact PQ']). apply SA in OO. congruence.
    Qed.
    Lemma loop_silent C n : forall k st, looped C k st -> lo <= k -> k + Z.of_nat n <= hi + 1 - C -> looped C (k + Z.of_nat n) st.
    Proof.
      induction n as [|n IH]; intros k st L K B; [now replace (k + Z.of_nat 0) with k by lia|]. replace (k + Z.of_nat (Datatypes.S n)) with (k + 1 + Z.of_nat n) by lia.
      apply IH; [apply silent_step; [exact L|lia|lia]|lia|lia].
    Qed.
    Lemma loop_ok C n : C <= max_order + 1 -> forall st, Z.of_nat n <= C -> lo <= hi + 1 - Z.of_nat n -> looped C (hi + 1 - Z.of_nat n) st ->
      exists st', mfold (extend_step t trackers (7 - u)) (rev (range 0 (Z.of_nat n))) st = Ok st' /\ looped C (hi + 1) st'.
    Proof.
      intros CM. induction n as [|n IH]; intros st B K L; [exists st; split; [reflexivity|now replace (hi + 1 - Z.of_nat 0) with (hi + 1) in L by lia]|].
      replace (Z.of_nat (Datatypes.S n)) with (Z.of_nat n + 1) in * by lia. rewrite range_snoc by lia. cbn [mfold].
      destruct (extend_one C (hi + 1 - (Z.of_nat n + 1)) (Z.of_nat n) st L CM K ltac:(lia) ltac:(lia)) as (st1 & E & L1). rewrite E. cbn [bind].
      replace (hi + 1 - (Z.of_nat n + 1) + 1) with (hi + 1 - Z.of_nat n) in L1 by lia. apply IH; [lia|lia|exact L1].
    Qed.
    Lemma held_loose suf f X loose r cx : held suf lo hi f X false r cx -> held suf lo hi f X loose r cx.
    Proof. intros (Q & S & V). split; [exact Q|]. split; [|exact V]. now apply standing_loose with false. Qed.
    Lemma extend_proper tr cs : lo <= hi -> tr_proper tr = true -> proper (sufx text) lo hi (tr_nodes tr) cs -> set_bit_at_cursor (tr_window tr) b (7 - u) = Ok w ->
      exists tr' cs', tree_extend t tr cs trackers b (7 - u) max_order = Ok (tr', cs') /\ tr_window tr' = w /\ tr_proper tr' = true /\ proper (sufx (text ++ [b])) lo hi (tr_nodes tr') cs'.
    Proof.
      intros LH TP (f & free & X & CO & LC & HE & UN) SB. unfold tree_extend. rewrite SB. cbn [bind]. cbn [tr_proper with_window]. rewrite TP. pose proof (zlen_nonneg cs).
      set (C := zlen cs) in *. assert (E0 : forall q, lo <= q <= hi -> sufk lo q = sufx text q) by (intros q Q; unfold sufk; now replace (q <? lo) with false by lia).
      assert (CB : lo <= hi + 1 - C).
      { destruct (Z.eq_dec C 0) as [|NC]; [lia|]. destruct (znth_lt cs (C - 1) ltac:(unfold C in *; lia)) as (cx & Z0). destruct (HE _ _ Z0) as ((q & (Q & _) & _) & _). lia. }
      assert (L0 : looped C lo (with_window tr w, cs, C)).
      { split; [reflexivity|]. split; [exact TP|]. split; [reflexivity|]. split; [lia|]. split; [lia|]. exists f, free, X. split; [now apply core_ext with (sufx text)|]. split.
        - intros o cx O Z0. apply held_loose. apply held_ext with (sufx text); [exact E0|lia|]. now apply HE.
        - intros o O q Q. rewrite !E0 by lia. now apply UN. }
      pose proof (loop_silent C (Z.to_nat (hi + 1 - C - lo)) lo _ L0 ltac:(lia) ltac:(lia)) as L1. replace (lo + Z.of_nat (Z.to_nat (hi + 1 - C - lo))) with (hi + 1 - Z.of_nat (Z.to_nat C)) in L1 by lia.
      destruct (loop_ok C (Z.to_nat C) LC _ ltac:(lia) ltac:(lia) L1) as (((tr', cs'), cnt) & E & (LW & LP & LC' & CN & MN & f' & free' & X' & CO' & HE' & UN')).
      replace (Z.of_nat (Z.to_nat C)) with C in E by lia. rewrite E. cbn [bind]. assert (E1 : forall q, lo <= q <= hi -> sufx (text ++ [b]) q = sufk (hi + 1) q).
      { intros q Q. pose proof lo0. unfold sufk. replace (q <? hi + 1) with true by lia. apply sufx_app; lia. }
      exists tr', (firstn (Z.to_nat cnt) cs'). split; [reflexivity|]. split; [exact LW|]. split; [exact LP|]. exists f', free', X'.
      assert (LF : zlen (firstn (Z.to_nat cnt) cs') = cnt) by (unfold zlen in *; rewrite firstn_length; lia).
      split; [now apply core_ext with (sufk (hi + 1))|]. split; [lia|]. split.
      - intros o cx Z0. pose proof (znth_Some _ _ _ Z0) as RO. rewrite LF in RO. apply held_ext with (sufk (hi + 1)); [exact E1|lia|]. replace false with (hi + 1 <=? hi - o) by lia. apply HE'; [lia|].
        rewrite <- (firstn_skipn (Z.to_nat cnt) cs'). rewrite znth_app1 by lia. exact Z0.
      - rewrite LF. intros o O q Q. rewrite !E1 by lia. now apply UN'.
    Qed.
    (** *** The degenerate tree: every position begins like the ones after it. *)
    Section Flat.
      Hypothesis FL : forall q r, lo <= q -> q < r -> r <= hi -> prefix (sufx text r) (sufx text q).
      Hypothesis LH : lo < hi.
      Definition expected : bit := nth (Z.to_nat u) (sufx text (hi - 1)) Zero.
      Notation c := expected.
      Lemma next_is q r : lo <= q -> q < r -> r <= hi -> prefix (sufx text r ++ [c]) (sufx text q).
      Proof.
        intros Q QR R. pose proof lo0. pose proof (text_len q ltac:(lia)) as LQ. pose proof (text_len r ltac:(lia)) as LR. apply prefix_nth. split; [now apply FL|]. split; [lia|].
        replace (length (sufx text r)) with (Z.to_nat (8 * (hi - r) + u)) by (unfold zlen in LR; lia). rewrite sufx_nth by lia. unfold expected. set (q' := hi - (r - q)).
        replace (8 * q + (8 * (hi - r) + u)) with (8 * q' + u) by lia. rewrite <- (sufx_nth text q' u) by lia.
        destruct (Z.eq_dec q' (hi - 1)) as [->|N]; [reflexivity|]. destruct (FL q' (hi - 1) ltac:(lia) ltac:(lia) ltac:(lia)) as (rest & ->). pose proof (text_len (hi - 1) ltac:(lia)) as L1.
        apply app_nth1. unfold zlen in L1. lia.
      Qed.
      Notation suf' := (sufx (text ++ [b])).
      Lemma suf'_at q : lo <= q <= hi -> suf' q = sufx text q ++ [b].
      Proof. intros Q. pose proof lo0. apply sufx_app; lia. Qed.
      Lemma flat_stays : c = b -> forall q r, lo <= q -> q < r -> r <= hi -> prefix (suf' r) (suf' q).
      Proof. intros E q r Q QR R. rewrite !suf'_at by lia. rewrite <- E at 1. exact (prefix_trans _ _ _ (next_is q r Q QR R) (prefix_app _ _)). Qed.
      Lemma flat_differ : bytes_differ_on w (adr (hi - 1)) (w_cursor w) (7 - u) = Ok (xorb c b).
      Proof. replace (hi - 1) with (hi - 1 + 0) by lia. apply differ_at; [lia|lia|]. apply next_is; lia. Qed.

      Hypothesis NB : c = negb b.
      Lemma occurs_new k q : lo <= k <= hi -> (occurs suf' lo hi (sufx text k ++ [b]) q <-> q = k).
      Proof.
        intros K. split; [|intros ->; split; [lia|rewrite suf'_at by lia; apply prefix_refl]]. intros (Q & P). rewrite suf'_at in P by lia. pose proof (prefix_len _ _ P) as L. rewrite !snoc_len in L.
        pose proof (text_len q Q). pose proof (text_len k K). destruct (Z.eq_dec q k) as [|N]; [assumption|exfalso]. pose proof (next_is q k ltac:(lia) ltac:(lia) ltac:(lia)) as PN.
        pose proof (prefix_snoc_det _ _ _ _ P (prefix_trans _ _ _ PN (prefix_app _ _))) as E. rewrite NB in E. now destruct b.
      Qed.
      Lemma occurs_old k q : lo <= k <= hi -> (occurs suf' lo hi (sufx text k ++ [c]) q <-> lo <= q < k).
      Proof.
        intros K. split.
        - intros (Q & P). split; [lia|]. rewrite suf'_at in P by lia. pose proof (prefix_len _ _ P) as L. rewrite !snoc_len in L. pose proof (text_len q Q). pose proof (text_len k K).
          destruct (Z.eq_dec q k) as [->|N]; [exfalso|lia]. pose proof (prefix_snoc_det _ _ _ _ P (prefix_refl _)) as E. rewrite NB in E. now destruct b.
        - intros Q. split; [lia|]. rewrite suf'_at by lia. exact (prefix_trans _ _ _ (next_is q k ltac:(lia) ltac:(lia) ltac:(lia)) (prefix_app _ _)).
      Qed.
      Lemma flat_hist k : lo < k <= hi -> exists h, hist suf' lo hi (sufx text k) = h ++ [(k, b, trk k (zlen (sufx text k)))] /\ Forall (fun x => x = negb b) (bits h) /\ zlen h = k - lo.
      Proof.
        intros K. assert (RK : lo <= k <= hi) by lia. pose proof (sufk_spread k) as SP. pose proof (fun q (_ : lo <= q <= hi) => sufk_step k q) as GR. exists (hist (sufk k) lo hi (sufx text k)). pose proof (text_len k RK) as LK.
        split; [|split].
        - rewrite <- (sufk_at k). transitivity (hist (sufk (k + 1)) lo hi (sufk k k)); [|exact (hist_grow trk (sufk k) (sufk (k + 1)) lo hi k b RK SP GR)]. rewrite (sufk_at k).
          assert (EQ : forall q, lo <= q <= k -> suf' q = sufk (k + 1) q) by (intros q Q; unfold sufk; replace (q <? k + 1) with true by lia; apply suf'_at; lia).
          apply hist_ext.
          + intros q Q. destruct (Z.le_gt_cases q k) as [LE|GT]; [unfold longer; now rewrite EQ by lia|]. unfold longer. rewrite suf'_at by lia. unfold sufk. replace (q <? k + 1) with false by lia. rewrite snoc_len.
            pose proof (text_len q Q). replace (zlen (sufx text k) <? zlen (sufx text q) + 1) with false by lia. replace (zlen (sufx text k) <? zlen (sufx text q)) with false by lia. now rewrite !andb_false_r.
          + intros q Q LO. destruct (Z.le_gt_cases q k) as [LE|GT]; [now rewrite EQ by lia|]. unfold longer, sufk in LO. replace (q <? k + 1) with false in LO by lia. pose proof (text_len q Q).
            replace (zlen (sufx text k) <? zlen (sufx text q)) with false in LO by lia. rewrite andb_false_r in LO. discriminate.
        - apply Forall_forall. intros x I. apply hist_bits in I. destruct I as (q & OQ). rewrite <- (sufk_at k) in OQ. destruct (next_earlier _ _ _ _ _ _ RK SP GR _ _ OQ) as (Q & _). destruct OQ as (_ & PQ). rewrite sufk_at in PQ.
          apply sufk_next in PQ; [|lia|lia]. rewrite <- NB. exact (prefix_snoc_det _ _ _ _ PQ (next_is q k ltac:(lia) ltac:(lia) ltac:(lia))).
        - rewrite (hist_cut trk (sufk k) lo hi k); [rewrite hist_all; [lia|lia|]|lia|].
          + intros q Q. apply (proj2 (longer_iff trk _ _ _)). exists c. apply (proj2 (sufk_next k q c ltac:(lia) ltac:(lia))). apply next_is; lia.
          + intros q Q. unfold longer, sufk. replace (q <? k) with false by lia. pose proof (text_len q ltac:(lia)). replace (zlen (sufx text k) <? zlen (sufx text q)) with false by lia. apply andb_false_r.
      Qed.

      Definition top : Z := Z.min max_order (hi - lo + 1 - 2).
      Definition built (o : Z) (st : tree * option Z) : Prop := let '(tr, last) := st in tr_window tr = w /\ exists f free X l,
        stock (tr_nodes tr) f free /\ ns_limit (tr_nodes tr) = Z.max 1 (m - 1) /\ part adr D suf' lo hi f X /\ (forall i n, f i = Some n -> stat suf' lo hi (X i) n) /\
        (forall i n, f i = Some n -> In i l) /\ zlen l = top + 1 - o /\ (forall i n, f i = Some n -> o <= hi - lo /\ exists o', o <= o' <= top /\ X i = sufx text (hi - o')) /\
        (1 <= o -> f 0 = None) /\
        if o =? 0 then last = None /\ exists n, f 0 = Some n /\ X 0 = sufx text hi /\ nd_text_start n = adr hi
        else if o =? top + 1 then last = None
        else exists j n, 1 <= j /\ last = Some (- j - 1) /\ f j = Some n /\ X j = sufx text (hi - o) /\ nd_text_start n = adr (hi - o).
      Lemma build_one o st : built (o + 1) st -> 0 <= o <= top -> exists st', split_degenerate_step t (7 - u) st o = Ok st' /\ built o st'.
      Proof.
        destruct st as (tr, last). intros (TW & f & free & X & l & ST & LI & P & SS & IL & LL & XO & F0 & LA) O. unfold top in *. pose proof lo0. pose proof (win_fits _ _ _ _ _ _ W) as WF.
        set (k := hi - o). assert (RK : lo < k <= hi) by lia. pose proof (text_len k ltac:(lia)) as LK. replace (hi - k) with o in LK by lia.
        destruct (flat_hist k RK) as (h & HE & HU & HL).
        destruct (fits_new t trk ALL h b k (trk k (zlen (sufx text k))) (Z.min 1000 (k - lo))) as (e & r & qq & y & E1 & E2 & E3 & E4 & E5 & FT); [intros ->; rewrite zlen_nil in HL; lia|exact HU|f_equal; symmetry; exact HL|].
        set (chained := match last with Some x => x | None => adr (k - 1) end).
        set (ch := if b then (chained, adr k) else (adr k, chained)).
        set (n := mkNode ch (adr k) e (y, y) qq r (8 * o + u) (if b then Z.min 1000 (k - lo) else 1) (if b then 1 else Z.min 1000 (k - lo))).
        assert (CB : nd_child n b = adr k) by (unfold n, nd_child, ch; cbn [nd_children]; now destruct b).
        assert (CC : nd_child n c = chained) by (rewrite NB; unfold n, nd_child, ch; cbn [nd_children]; now destruct b).
        assert (HG : forall a, hangs adr D suf' lo hi f X (sufx text k ++ [a]) (nd_child n a)).
        { intros a. destruct (Bool.bool_dec a b) as [->|NA].
          - left. rewrite CB. split; [apply adr0|]. exists k. split; [|split; [reflexivity|]].
            + split; [apply occurs_new; lia|]. intros p OP. apply occurs_new in OP; lia.
            + intros p q OP OQ. apply occurs_new in OP, OQ; lia.
          - assert (EA : a = c) by (rewrite NB; now apply negb_other). rewrite EA, CC. assert (LT : latest suf' lo hi (sufx text k ++ [c]) (k - 1)).
            { split; [apply occurs_old; lia|]. intros p OP. apply occurs_old in OP; lia. }
            unfold chained. destruct (Z.eqb_spec (o + 1) 0) as [|_]; [lia|]. destruct (Z.eqb_spec (o + 1) (Z.min max_order (hi - lo + 1 - 2) + 1)) as [ET|NT].
            + rewrite LA. left. split; [apply adr0|]. exists (k - 1). split; [exact LT|]. split; [reflexivity|]. intros p q OP OQ PQ. apply occurs_old in OP; [|lia]. apply occurs_old in OQ; [|lia].
              destruct (Z.le_gt_cases max_order (hi - lo + 1 - 2)) as [MX|MX]; [|lia]. rewrite !suf'_at by lia. pose proof (text_len q ltac:(lia)). rewrite cut_snoc by lia.
              apply (prefix_trans _ _ _ (cut_prefix _ _)). apply (prefix_trans _ (sufx text p)); [|apply prefix_app]. apply FL; lia.
            + destruct LA as (j & nj & J & -> & FJ & XJ & TJ). right. exists j. split; [lia|]. split; [reflexivity|]. exists nj, (k - 1). split; [exact FJ|]. split; [exact LT|].
              replace (hi - (o + 1)) with (k - 1) in * by lia. split; [exact TJ|]. rewrite XJ. split; [apply next_is; lia|]. intros p OP. apply occurs_old in OP; [|lia]. right. rewrite suf'_at by lia.
              apply (prefix_trans _ (sufx text p)); [|apply prefix_app]. destruct (Z.eq_dec p (k - 1)) as [->|N]; [apply prefix_refl|]. apply FL; lia. }
        assert (CHV : chained <> -1 /\ chained < 2 ^ 31).
        { unfold chained. destruct (Z.eqb_spec (o + 1) 0) as [|_]; [lia|]. destruct (Z.eqb_spec (o + 1) (Z.min max_order (hi - lo + 1 - 2) + 1)) as [ET|NT].
          - rewrite LA. pose proof (adr0 (k - 1)). pose proof (adr_lt (k - 1)). lia.
          - destruct LA as (j & nj & J & -> & _). lia. }
        assert (VN : nd_is_valid n = true). { apply valid_iff. intros a. destruct (Bool.bool_dec a b) as [->|NA]; [rewrite CB; pose proof (adr0 k); lia|]. rewrite (negb_other _ _ NA), <- NB, CC. apply CHV. }
        assert (NX : forall i x, f i = Some x -> X i <> sufx text k).
        { intros i x FI E. destruct (XO i x FI) as (_ & o' & O' & XE). rewrite XE in E. pose proof (text_len (hi - o') ltac:(lia)) as L'. rewrite E in L'. lia. }
        assert (SN : stat suf' lo hi (sufx text k) n). { exists []. split; [change (0 <= lo); lia|]. cbn [app]. rewrite HE. apply FT. }
        unfold split_degenerate_step. rewrite TW. rewrite bit_now by lia. cbn [bind]. rewrite (win_cursor _ _ M _ _ _ _ W). rewrite (win_sub _ _ M _ _ _ _ W) by lia. cbn [bind]. fold k.
        rewrite child_of_window by (split; [apply adr0|apply adr_lt]). cbn [bind]. unfold index_decrement. rewrite (win_sub _ _ M _ _ _ _ W) by lia. cbn [bind].
        rewrite child_of_window by (split; [apply adr0|apply adr_lt]). cbn [bind]. rewrite (win_start _ _ _ _ _ _ W). rewrite (win_diff _ _ M _ _ _ _ W) by lia. cbn [bind]. change max_occurrence_count with 1000.
        rewrite wrap_id by (try (cbn [ibits u16]; ib); lia). rewrite E1. cbn [bind]. rewrite E2. cbn [bind]. rewrite E3. cbn [bind]. rewrite E4. cbn [bind]. rewrite depth_ok by lia. cbn [bind].
        unfold node_new. rewrite assert_true by (pose proof (adr_lt k); lia). cbn [bind]. rewrite assert_true by (clear - O MO U8; lia). cbn [bind]. rewrite E5. cbn [assert_ guard bind]. cbn zeta. fold chained ch.
        change (mkNode ch (adr k) e (y, y) qq r (8 * o + u) (if b then Z.min 1000 (k - lo) else 1) (if b then 1 else Z.min 1000 (k - lo))) with n.
        destruct (Z.eqb_spec o 0) as [EO|NO].
        - destruct (stock_update _ _ _ 0 n ST VN (or_introl eq_refl)) as (ns' & UE & ST' & L' & _). unfold root_index. rewrite UE. cbn [bind]. eexists. split; [reflexivity|]. split; [exact TW|].
          exists (fupd f 0 (Some n)), free, (xupd X 0 (sufx text k)), (0 :: l). cbn [tr_nodes with_nodes]. split; [exact ST'|]. split; [congruence|].
          split; [apply add_node; [exact P|apply F0; lia|lia|exact NX|symmetry; exact LK|rewrite LK; lia|exact HG]|].
          assert (LV : forall i x, fupd f 0 (Some n) i = Some x -> (i = 0 /\ x = n) \/ (i <> 0 /\ f i = Some x)).
          { intros i x FI. destruct (Z.eq_dec i 0) as [->|N]; [rewrite fupd_same in FI; injection FI as <-; auto|]. rewrite fupd_other in FI by exact N. auto. }
          replace (o =? 0) with true by lia. split; [|split; [|split; [|split; [|split; [|split]]]]].
          + intros i x FI. destruct (LV i x FI) as [(-> & ->)|(N & F1)]; [rewrite xupd_same; exact SN|rewrite xupd_other by exact N; eauto].
          + intros i x FI. destruct (LV i x FI) as [(-> & ->)|(N & F1)]; [now left|right; eauto].
          + rewrite zlen_cons. unfold top. lia.
          + intros i x FI. split; [lia|]. destruct (LV i x FI) as [(-> & ->)|(N & F1)]; [exists o; rewrite xupd_same; split; [unfold top; lia|reflexivity]|]. rewrite xupd_other by exact N. destruct (XO i x F1) as (_ & o' & O' & XE). exists o'. split; [unfold top; lia|exact XE].
          + lia.
          + reflexivity.
          + exists n. rewrite fupd_same, xupd_same. split; [reflexivity|]. replace k with hi by lia. split; [reflexivity|]. unfold n. cbn [nd_text_start]. f_equal. lia.
        - destruct (slot_free _ _ _ ST) as (FJ & J). set (j := next_slot (tr_nodes tr) free) in *.
          assert (ROOM : j < ns_limit (tr_nodes tr)).
          { unfold j, next_slot. destruct free as [|i0 r0].
            - assert (I : incl (zseq 1 (length (ns_items (tr_nodes tr)) - 1)) l).
              { intros i I. apply zseq_In in I. destruct (f i) as [x|] eqn:FI; [eauto|]. destruct (st_dead _ _ _ ST i); [unfold zlen; lia|exact FI]. }
              apply NoDup_incl_length in I; [|apply zseq_nodup]. rewrite zseq_length in I. unfold zlen in *. lia.
            - destruct (st_free _ _ _ ST i0 (or_introl eq_refl)). pose proof (st_limit _ _ _ ST). lia. }
          destruct (stock_add _ _ _ n ST VN ROOM) as (ns' & A & ST' & L' & JB & _ & _). fold j in A, ST', JB. rewrite A. cbn [bind fst snd]. eexists. split; [reflexivity|]. split; [exact TW|].
          exists (fupd f j (Some n)), (tl free), (xupd X j (sufx text k)), (j :: l). cbn [tr_nodes with_nodes]. split; [exact ST'|]. split; [congruence|].
          split; [apply add_node; [exact P|exact FJ|lia|exact NX|symmetry; exact LK|rewrite LK; lia|exact HG]|].
          assert (LV : forall i x, fupd f j (Some n) i = Some x -> (i = j /\ x = n) \/ (i <> j /\ f i = Some x)).
          { intros i x FI. destruct (Z.eq_dec i j) as [->|N]; [rewrite fupd_same in FI; injection FI as <-; auto|]. rewrite fupd_other in FI by exact N. auto. }
          replace (o =? 0) with false by lia. split; [|split; [|split; [|split; [|split]]]].
          + intros i x FI. destruct (LV i x FI) as [(-> & ->)|(N & F1)]; [rewrite xupd_same; exact SN|rewrite xupd_other by exact N; eauto].
          + intros i x FI. destruct (LV i x FI) as [(-> & ->)|(N & F1)]; [now left|right; eauto].
          + rewrite zlen_cons. unfold top. lia.
          + intros i x FI. split; [lia|]. destruct (LV i x FI) as [(-> & ->)|(N & F1)]; [exists o; rewrite xupd_same; split; [unfold top; lia|reflexivity]|]. rewrite xupd_other by exact N. destruct (XO i x F1) as (_ & o' & O' & XE). exists o'. split; [unfold top; lia|exact XE].
          + intros _. rewrite fupd_other by lia. apply F0. lia.
          + replace (o =? top + 1) with false by (unfold top; lia). exists j, n. split; [lia|]. split; [reflexivity|]. rewrite fupd_same, xupd_same. auto.
      Qed.
      Lemma build_all n : forall st, Z.of_nat n <= top + 1 -> built (Z.of_nat n) st -> exists st', mfold (split_degenerate_step t (7 - u)) (rev (range 0 (Z.of_nat n))) st = Ok st' /\ built 0 st'.
      Proof.
        induction n as [|n IH]; intros st B L; [exists st; split; [reflexivity|exact L]|]. replace (Z.of_nat (Datatypes.S n)) with (Z.of_nat n + 1) in * by lia. rewrite range_snoc by lia. cbn [mfold].
        destruct (build_one (Z.of_nat n) st L ltac:(lia)) as (st1 & E & L1). rewrite E. cbn [bind]. apply IH; [lia|exact L1].
      Qed.
      Lemma flat_splits tr free : tr_window tr = w -> stock (tr_nodes tr) (fun _ => None) free -> ns_limit (tr_nodes tr) = Z.max 1 (m - 1) ->
        exists tr', split_degenerate_root_edge t tr top (7 - u) = Ok tr' /\ tr_window tr' = w /\ proper suf' lo hi (tr_nodes tr') [].
      Proof.
        intros TW ST LI. pose proof lo0. unfold split_degenerate_root_edge. rewrite add_ok by (cbn [usize imin imax]; ib; unfold top; lia). cbn [bind].
        assert (B0 : built (top + 1) (tr, None)).
        { split; [exact TW|]. exists (fun _ => None), free, (fun _ => []), []. split; [exact ST|]. split; [exact LI|]. split; [split; intros; discriminate|]. split; [intros; discriminate|]. split; [intros; discriminate|].
          split; [rewrite zlen_nil; lia|]. split; [intros; discriminate|]. split; [reflexivity|]. replace (top + 1 =? 0) with false by (unfold top; lia). now rewrite Z.eqb_refl. }
        assert (TE : top + 1 = Z.of_nat (Z.to_nat (top + 1))) by (unfold top; lia). rewrite TE in B0 |- *.
        destruct (build_all (Z.to_nat (top + 1)) _ ltac:(unfold top; lia) B0) as ((tr', la) & E & (TW' & f & fr & X & l & ST' & LI' & P & SS & _ & _ & _ & _ & LA)). rewrite E. cbn [bind snd fst]. cbn in LA. destruct LA as (-> & n & F & XE & TS).
        cbn [assert_ guard bind]. exists tr'. split; [reflexivity|]. split; [exact TW'|]. exists f, fr, X. split; [|split; [rewrite zlen_nil; lia|split; [discriminate|]]].
        - split; try assumption.
          + split; [exact P|]. exists n, hi. split; [exact F|]. split; [split; [split; [lia|apply prefix_nil]|intros p (R & _); lia]|]. split; [exact TS|]. split; [apply prefix_nil|]. intros p (R & _). right. rewrite XE, suf'_at by lia.
            destruct (Z.eq_dec p hi) as [->|N]; [apply prefix_app|]. apply (prefix_trans _ (sufx text p)); [apply FL; lia|apply prefix_app].
          + rewrite XE. pose proof (text_len hi ltac:(lia)). lia.
        - intros o O q Q PQ. rewrite zlen_nil in O. rewrite (suf'_at (hi - o)) in PQ by lia. assert (OQ : occurs suf' lo hi (sufx text (hi - o) ++ [b]) q) by (split; [lia|exact PQ]). apply occurs_new in OQ; lia.
      Qed.
    End Flat.
    Lemma extend_flat tr cs : lo <= hi -> tr_proper tr = false -> flat text lo hi (tr_nodes tr) cs -> set_bit_at_cursor (tr_window tr) b (7 - u) = Ok w ->
      exists tr' cs', tree_extend t tr cs trackers b (7 - u) max_order = Ok (tr', cs') /\ tr_window tr' = w /\ grown (text ++ [b]) lo hi tr' cs'.
    Proof.
      intros LH TP (-> & (free & ST & LI) & FL) SB. pose proof lo0. unfold tree_extend. rewrite SB. cbn [bind]. cbn [tr_proper with_window]. rewrite TP. change (zlen (@nil context) =? 0) with true. cbn [assert_ guard bind].
      rewrite (win_size _ _ _ _ _ _ W). destruct (Z.leb_spec 2 (hi - lo + 1)) as [L2|L2].
      - assert (DEC : index_decrement w (w_cursor w) = Ok (adr (hi - 1))) by (rewrite (win_cursor _ _ M _ _ _ _ W); apply (win_sub _ _ M _ _ _ _ W); lia). rewrite DEC. cbn [bind]. rewrite (flat_differ FL) by lia. cbn [bind].
        destruct (Bool.bool_dec expected b) as [E|N].
        + rewrite E, xorb_nilpotent. eexists _, _. split; [reflexivity|]. split; [reflexivity|]. unfold grown. cbn [tr_proper with_window tr_nodes]. rewrite TP. split; [reflexivity|]. split; [eauto|].
          apply flat_stays; [exact FL|lia|exact E].
        + apply negb_other in N. replace (xorb expected b) with true by (rewrite N; now destruct b). rewrite sub_ok by (cbn [usize imin imax]; ib; pose proof (win_fits _ _ _ _ _ _ W); lia). cbn [bind].
          destruct (flat_splits FL ltac:(lia) N (with_window tr w) free eq_refl ST LI) as (tr' & E & TW & PR). unfold top in E. rewrite E. cbn [bind]. eexists _, _. split; [reflexivity|]. split; [exact TW|]. exact PR.
      - cbn [bind]. eexists _, _. split; [reflexivity|]. split; [reflexivity|]. unfold grown. cbn [tr_proper with_window tr_nodes]. rewrite TP. split; [reflexivity|]. split; [eauto|]. intros; lia.
    Qed.
    Lemma extend_ok tr cs : lo <= hi -> grown text lo hi tr cs -> set_bit_at_cursor (tr_window tr) b (7 - u) = Ok w ->
      exists tr' cs', tree_extend t tr cs trackers b (7 - u) max_order = Ok (tr', cs') /\ tr_window tr' = w /\ grown (text ++ [b]) lo hi tr' cs'.
    Proof.
      intros LH G SB. unfold grown in G. destruct (tr_proper tr) eqn:TP; [|now apply extend_flat]. destruct (extend_proper tr cs LH TP G SB) as (tr' & cs' & E & TW & TP' & PR).
      exists tr', cs'. split; [exact E|]. split; [exact TW|]. unfold grown. now rewrite TP'.
    Qed.
  End Loop.
End Tree.
