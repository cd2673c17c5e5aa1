(** What the tree tells about the contexts of the text in its window. *)
From Coq Require Import ZifyBool.
From Verif Require Import Base BaseFacts StateModel EstModel LogModel StatesModel StatesSpec StatesProofs WindowModel WindowProofs HistModel HistSpec HistProofs FatProofs
  NodesModel NodesProofs TrieProofs TrieContexts TreeStats TreeWindow TreeModel TreeLoop TreeRemove.
Ltac Zify.zify_post_hook ::= Z.div_mod_to_equations.

Lemma mfold_map {A B} (step : list B -> A -> res (list B)) (g : A -> B) l : (forall x items, In x l -> step items x = Ok (items ++ [g x])) -> forall items, mfold step l items = Ok (items ++ map g l).
Proof.
  induction l as [|x l IH]; intros H items; [cbn; now rewrite app_nil_r|]. cbn [mfold map]. rewrite H by now left. cbn [bind]. rewrite IH by (intros y i I; apply H; now right). now rewrite <- app_assoc.
Qed.
Lemma znth_zseq n : forall a i, 0 <= i < Z.of_nat n -> znth (zseq a n) i = Some (a + i).
Proof.
  induction n as [|n IH]; intros a i R; [lia|]. cbn [zseq znth]. destruct (Z.eqb_spec i 0) as [->|N]; [f_equal; lia|]. rewrite IH by lia. f_equal. lia.
Qed.
Lemma range_In a b i : In i (range a b) -> a <= i < b.
Proof. unfold range. intros I. apply zseq_In in I. lia. Qed.

Lemma bits_app h g : bits (h ++ g) = bits h ++ bits g.
Proof. apply map_app. Qed.

Section Gather.
  Variables (t : luts) (m shift max_order : Z) (trk : Z -> Z -> cost_trackers).
  Hypothesis ALL : forall l, l <> [] -> exists s, state_of t l = Ok s /\ stands_for (lt_rates t) (fst (fst (last l (0, Zero, ct_default)))) (bits l) s.
  Hypothesis M : 0 < m <= 2 ^ 31.
  Hypothesis MO : 0 <= max_order /\ 8 * max_order + 7 < 2 ^ 16.
  Notation adr := (addr m shift). Notation D := (8 * (max_order + 1)). Notation hist := (hist trk).
  Variables (text : list bit) (lo hi u : Z) (w : window).
  Notation suf := (sufx text).
  Hypothesis W : win m shift text lo hi w.
  Hypothesis U : zlen text = 8 * hi + u.
  Hypothesis U8 : 0 <= u < 8.
  Hypothesis LH : lo <= hi.
  Notation core := (core t m shift max_order trk). Notation held := (held m shift trk).
  Notation proper := (proper t m shift max_order trk).
  Lemma ga_lo : 0 <= lo. Proof. apply (wn_lo _ _ _ _ _ _ W). Qed.
  Lemma ga_len q : lo <= q <= hi -> zlen (suf q) = 8 * (hi - q) + u.
  Proof. intros Q. pose proof ga_lo. rewrite sufx_len by lia. lia. Qed.

  (** The next bits after the earlier occurrences of a context. *)
  Definition next r a : Prop := exists q, lo <= q < r /\ prefix (suf r ++ [a]) (suf q).
  Record answer (o : Z) (s : context_state) : Prop := {
    an_prev : exists q, prev suf lo (hi - o) q /\ last_occurrence_distance s = hi - o - q;
    an_state : exists older d, let h := hist suf lo hi (suf (hi - o)) in h <> [] /\ zlen older <= lo /\ uniform (bits (older ++ h)) = uniform (bits h) /\
      state_of t (older ++ h) = Ok (with_distance d s) }.

  Lemma next_occurs r a : lo <= r <= hi -> (next r a <-> exists q, occurs suf lo hi (suf r ++ [a]) q).
  Proof.
    intros R. split; intros (q & Q & P); exists q; [split; [lia|exact P]|]. split; [|exact P]. apply prefix_len in P. rewrite snoc_len, !ga_len in P by lia. lia.
  Qed.
  Lemma stands_distance d d' h s : stands_for (lt_rates t) d h s -> stands_for (lt_rates t) d' h (with_distance d' s).
  Proof. unfold stands_for. destruct (uniform h); [intros ->; reflexivity|]. intros (e & rc & q & c & -> & A). exists e, rc, q, c. split; [reflexivity|exact A]. Qed.
  Lemma next_after r q : prev suf lo r q -> r <= hi -> exists a, prefix (suf r ++ [a]) (suf q) /\ nth (Z.to_nat (8 * (hi - r) + u)) (suf q) Zero = a.
  Proof.
    intros (Q & P & _) R. pose proof (ga_len r ltac:(lia)) as LR. pose proof (ga_len q ltac:(lia)) as LQ. destruct (prefix_next _ _ P ltac:(lia)) as (a & PA). exists a. split; [exact PA|]. apply prefix_nth in PA. destruct PA as (_ & _ & N). rewrite <- N. f_equal. unfold zlen in LR. lia.
  Qed.

  Lemma gather_one tr ns f free X cx o rest items : tr_window tr = w -> tr_nodes tr = ns -> core suf lo hi ns f free X -> 0 <= o <= max_order -> held suf lo hi f X false (hi - o) cx ->
    exists s, gather_contexts tr (7 - u) (cx :: rest) o items = gather_contexts tr (7 - u) rest (o + 1) (items ++ [s]) /\ answer o s.
  Proof.
    intros TW <- CO O ((q & PV & CS) & SD & (VS & k & K0 & KV)). pose proof (co_trie _ _ _ _ _ _ _ _ _ _ _ _ CO) as T. pose proof (tk_part _ _ _ _ _ _ _ T) as P. pose proof (co_stock _ _ _ _ _ _ _ _ _ _ _ _ CO) as ST. pose proof ga_lo.
    pose proof PV as (Q & PQ & _). set (r := hi - o) in *. pose proof (ga_len r ltac:(unfold r; lia)) as LR. replace (8 * (hi - r) + u) with (8 * o + u) in LR by (unfold r; lia).
    destruct (standing_live _ _ _ _ _ SD) as (n & F). destruct (pt_depth _ _ _ _ _ _ _ P _ _ F) as (DN & DD).
    cbn [gather_contexts]. rewrite TW, (stock_get _ _ _ _ _ ST F). cbn [bind]. rewrite (win_cursor _ _ M _ _ _ _ W). rewrite (win_sub _ _ M _ _ _ _ W) by lia. cbn [bind]. fold r. rewrite CS.
    rewrite (win_smaller _ _ M _ _ _ _ W) by (unfold r in *; lia). cbn [bind]. replace (q <? r) with true by lia. rewrite assert_true by reflexivity. cbn [bind].
    rewrite (win_diff _ _ M _ _ _ _ W) by (unfold r in *; lia). cbn [bind]. unfold depth_of. rewrite mul_ok by (cbn [usize imin imax]; ib; lia). cbn [bind]. rewrite add_ok by (cbn [usize imin imax]; ib; lia). cbn [bind]. rewrite sub_ok by (cbn [usize imin imax]; ib; lia). cbn [bind].
    rewrite DN. destruct (next_after r q PV ltac:(unfold r; lia)) as (a & PA & NA). replace (8 * (hi - r) + u) with (8 * o + u) in NA by (unfold r; lia).
    assert (NX : next r a) by (exists q; split; [lia|exact PA]).
    destruct (Z.eqb_spec (zlen (X (cx_node cx))) (o * 8 + 7 - (7 - u))) as [EL|NL].
    - assert (EX : X (cx_node cx) = suf r).
      { destruct SD as [(_ & _ & (PX & _))|(_ & a0 & _ & [(n0 & _ & _ & PX)|(? & _)])]; [symmetry; apply prefix_eq; [exact PX|lia]| |discriminate]. apply prefix_len in PX. rewrite snoc_len in PX. lia. }
      destruct (co_stat _ _ _ _ _ _ _ _ _ _ _ _ CO _ _ F) as (h & EH & ((d0 & S0) & _ & _ & H0 & H1)). cbn [bind]. eexists. split; [reflexivity|]. split.
      + exists q. split; [exact PV|reflexivity].
      + assert (NX2 : forall x, In x (bits (hist suf lo hi (suf r)))). { intros x. apply hist_bits. rewrite <- EX. exact (node_branches _ _ _ _ _ _ _ P _ _ x F). }
        exists h, d0. cbv zeta. fold r. rewrite <- EX in NX2 |- *. split; [intros E0; specialize (NX2 Zero); rewrite E0 in NX2; destruct NX2|]. split; [exact EH|]. split; [|exact S0].
        rewrite (proj2 (uniform_iff (bits (hist suf lo hi (X (cx_node cx)))))) by (split; apply NX2). apply uniform_iff. rewrite bits_app. split; apply in_or_app; right; apply NX2.
    - rewrite assert_true by lia. cbn [bind]. replace (0 <? cx_visits cx) with true by lia. rewrite (win_add _ _ M _ _ _ _ W) by (unfold r in *; lia). cbn [bind]. rewrite (win_bit _ _ M _ _ _ _ W) by (unfold r in *; lia). cbn [bind].
      assert (EB : nth (Z.to_nat (7 - (7 - u))) (suf (q + o)) Zero = a) by (rewrite <- NA, !sufx_nth by lia; do 2 f_equal; lia). rewrite EB.
      rewrite wrap_id by (try (cbn [ibits u16]; ib); lia).
      assert (SG : single_next suf lo hi (suf r)).
      { destruct SD as [(_ & (n1 & F1) & FB)|(_ & a0 & _ & [(n0 & FN & C0 & PX)|(? & _)])]; [| |discriminate].
        - apply (edge_single _ _ _ _ _ _ _ T _ (cx_node cx) n F FB). pose proof (prefix_len _ _ (proj1 FB)). lia.
        - destruct (pt_child _ _ _ _ _ _ _ P _ n0 a0 FN) as [(_ & LF)|(j0 & J0 & CE0 & _)]; [|lia]. refine (leaf_single _ _ _ _ _ _ _ _ LF PX _). lia. }
      assert (NN : ~ next r (negb a)).
      { intros N. apply next_occurs in N; [|unfold r; lia]. apply next_occurs in NX; [|unfold r; lia]. destruct N as (k1 & O1), NX as (k2 & O2). exact (negb_neq a (SG _ _ _ _ O1 O2)). }
      eexists. split; [reflexivity|]. split.
      + exists q. split; [exact PV|reflexivity].
      + set (h := hist suf lo hi (suf r)). assert (NH : h <> []).
        { intros E0. assert (I : In a (bits h)) by (apply hist_bits; apply next_occurs; [unfold r; lia|exact NX]). rewrite E0 in I. destruct I. }
        assert (AH : Forall (fun x => x = a) (bits h)).
        { apply Forall_forall. intros x I. apply hist_bits in I. destruct I as (k1 & OK). apply next_occurs in NX; [|unfold r; lia]. destruct NX as (k2 & O2). exact (SG _ _ _ _ OK O2). }
        set (older := @repeat occurrence (0, a, ct_default) (Z.to_nat k)). assert (ZO : @zlen occurrence older = k) by (unfold older, zlen; rewrite repeat_length; lia).
        assert (AO : Forall (fun x => x = a) (bits (older ++ h))).
        { rewrite bits_app. apply Forall_app. split; [|exact AH]. apply Forall_forall. intros x I. unfold older, bits in I. apply in_map_iff in I. destruct I as (y & <- & I). apply repeat_spec in I. now subst y. }
        destruct (state_uniform t ALL (older ++ h) a) as (d & ED); [intros E0; apply app_eq_nil in E0; exact (NH (proj2 E0))|exact AO|].
        exists older, d. cbv zeta. fold r. fold h. split; [exact NH|]. split; [lia|]. split; [exact (eq_trans (uniform_all _ a AO) (eq_sym (uniform_all _ a AH)))|].
        rewrite ED, zlen_app, ZO. fold r in KV. fold h in KV. rewrite <- KV. reflexivity.
  Qed.
  Lemma gather_all tr ns f free X : tr_window tr = w -> tr_nodes tr = ns -> core suf lo hi ns f free X -> forall cs o items, 0 <= o -> o + zlen cs <= max_order + 1 ->
    (forall k cx, znth cs k = Some cx -> held suf lo hi f X false (hi - (o + k)) cx) ->
    exists st, gather_contexts tr (7 - u) cs o items = Ok (items ++ st) /\ zlen st = zlen cs /\ forall k s, znth st k = Some s -> answer (o + k) s.
  Proof.
    intros TW TN CO. induction cs as [|cx cs IH]; intros o items O B HE.
    - exists []. rewrite app_nil_r. split; [reflexivity|]. split; [reflexivity|]. discriminate.
    - rewrite zlen_cons in B. pose proof (zlen_nonneg cs). pose proof (HE 0 cx eq_refl) as H0. rewrite Z.add_0_r in H0. destruct (gather_one tr ns f free X cx o cs items TW TN CO ltac:(lia) H0) as (s & E & A). rewrite E.
      destruct (IH (o + 1) (items ++ [s]) ltac:(lia) ltac:(lia)) as (st & E' & L & AS).
      + intros k cx' Z0. pose proof (znth_Some _ _ _ Z0). replace (o + 1 + k) with (o + (k + 1)) by lia. apply HE. cbn [znth]. replace (k + 1 =? 0) with false by lia. now replace (k + 1 - 1) with k by lia.
      + exists (s :: st). rewrite E', <- app_assoc. split; [reflexivity|]. rewrite !zlen_cons. split; [lia|]. intros k s' Z0. cbn [znth] in Z0. destruct (Z.eqb_spec k 0) as [->|N].
        * injection Z0 as <-. now rewrite Z.add_0_r.
        * replace (o + k) with (o + 1 + (k - 1)) by lia. auto.
  Qed.
  Definition answers (st : list context_state) : Prop := (forall o s, znth st o = Some s -> answer o s) /\ zlen st <= max_order + 1 /\ unseen max_order suf lo hi (zlen st).

  Lemma flat_answer o a : (forall q r, lo <= q -> q < r -> r <= hi -> prefix (suf r) (suf q)) -> 0 <= o <= max_order -> o < hi - lo -> a = nth (Z.to_nat u) (suf lo) Zero -> answer o (ForEdge 1 (Z.min 1000 (hi - lo + 1 - o - 1)) a).
  Proof.
    intros FL O OL EA. pose proof ga_lo. set (r := hi - o) in *. pose proof (ga_len r ltac:(lia)) as LR.
    assert (NQ : forall q, lo <= q < r -> prefix (suf r ++ [a]) (suf q)).
    { intros q Q. pose proof (ga_len q ltac:(unfold r in *; lia)) as LQ. assert (PQ : prefix (suf r) (suf q)) by (apply FL; unfold r in *; lia). destruct (prefix_next _ _ PQ ltac:(lia)) as (x & PX). replace a with x; [exact PX|].
      apply prefix_nth in PX. destruct PX as (_ & _ & N). rewrite <- N, EA. assert (PL : prefix (suf (q + o)) (suf lo)) by (destruct (Z.eq_dec (q + o) lo) as [->|]; [apply prefix_refl|apply FL; unfold r in *; lia]).
      destruct PL as (z & ->). pose proof (ga_len (q + o) ltac:(unfold r in *; lia)) as LO. rewrite app_nth1 by (unfold zlen in LO; unfold r in *; lia). rewrite sufx_nth by lia. rewrite <- (Nat2Z.id (length (suf r))). fold (zlen (suf r)). rewrite sufx_nth by lia. f_equal. rewrite LR. unfold r. lia. }
    assert (NX : next r a) by (exists lo; split; [unfold r; lia|apply NQ; unfold r; lia]).
    assert (NN : forall x, next r x -> x = a) by (intros x (q & Q & P); exact (prefix_snoc_det _ _ _ _ P (NQ q Q))).
    split.
    - exists (r - 1). fold r. split; [|reflexivity || cbn [last_occurrence_distance]; lia]. split; [unfold r; lia|]. split; [apply FL; unfold r; lia|]. intros; lia.
    - set (h := hist suf lo hi (suf r)). assert (NH : h <> []).
      { intros E0. assert (I : In a (bits h)) by (apply hist_bits; apply next_occurs; [unfold r; lia|exact NX]). rewrite E0 in I. destruct I. }
      assert (AH : Forall (fun x => x = a) (bits h)). { apply Forall_forall. intros x I. apply hist_bits in I. apply NN. apply next_occurs; [unfold r; lia|exact I]. }
      destruct (state_uniform t ALL h a NH AH) as (d & ED). exists [], d. cbv zeta. fold r. fold h. split; [exact NH|]. split; [change (0 <= lo); lia|]. split; [reflexivity|]. cbn [app].
      rewrite ED. cbn [with_distance]. do 2 f_equal. f_equal. unfold h. rewrite (hist_cut trk suf lo hi r) by (try (unfold r; lia); intros q Q; unfold longer; pose proof (ga_len q ltac:(unfold r in *; lia)); replace (zlen (suf r) <? zlen (suf q)) with false by lia; apply andb_false_r).
      rewrite (hist_all trk); [unfold r; lia|unfold r; lia|]. intros q Q. apply longer_iff; [exact trk|]. exists a. apply NQ. lia.
  Qed.

  Lemma gather_ok tr cs : tr_window tr = w -> grown t m shift max_order trk text lo hi tr cs -> exists st, tree_gather_states tr cs max_order (7 - u) [] = Ok st /\ answers st.
  Proof.
    intros TW G. unfold grown in G. unfold tree_gather_states. rewrite assert_true by reflexivity. cbn [bind]. rewrite TW. destruct (tr_proper tr).
    - destruct G as (f & free & X & CO & LC & HE & UN). pose proof (co_trie _ _ _ _ _ _ _ _ _ _ _ _ CO) as T.
      assert (A0 : forall q, 0 <= adr q) by (intros q; apply (addr_range m shift); lia). pose proof (several_positions _ _ _ _ _ _ _ T A0). pose proof (win_fits _ _ _ _ _ _ W).
      assert (NE : negb (w_cursor w =? w_start w) = true).
      { rewrite (win_cursor _ _ M _ _ _ _ W), (win_start _ _ _ _ _ _ W). destruct (Z.eqb_spec (adr hi) (adr lo)) as [E|]; [|reflexivity]. apply (addr_inj m shift M) in E; lia. }
      rewrite assert_true by exact NE. cbn [bind]. destruct (gather_all tr _ f free X TW eq_refl CO cs 0 [] ltac:(lia) ltac:(lia) HE) as (st & E & L & A). exists st. split; [exact E|]. split; [exact A|]. rewrite L. split; [exact LC|exact UN].
    - destruct G as (-> & _ & FL). rewrite assert_true by reflexivity. cbn [bind]. rewrite (win_size _ _ _ _ _ _ W). pose proof (win_fits _ _ _ _ _ _ W). rewrite add_ok by (cbn [usize imin imax]; ib; lia). cbn [bind]. rewrite sub_ok by (cbn [usize imin imax]; ib; lia). cbn [bind].
      set (n := Z.min (max_order + 1) (hi - lo + 1 - 1)). set (a := nth (Z.to_nat u) (suf lo) Zero).
      assert (E : forall items, mfold (fun items order => let* x := sub usize (hi - lo + 1) order in let* y := sub usize x 1 in let* repeated_bit := window_bit w (w_start w) (7 - u) in
        Ok (items ++ [ForEdge 1 (wrap u16 (Z.min max_occurrence_count y)) repeated_bit])) (range 0 n) items = Ok (items ++ map (fun o => ForEdge 1 (Z.min 1000 (hi - lo + 1 - o - 1)) a) (range 0 n))).
      { apply mfold_map. intros o items I. apply range_In in I. unfold n in I. rewrite sub_ok by (cbn [usize imin imax]; ib; lia). cbn [bind]. rewrite sub_ok by (cbn [usize imin imax]; ib; lia). cbn [bind].
        rewrite (win_start _ _ _ _ _ _ W). rewrite (win_bit _ _ M _ _ _ _ W) by lia. cbn [bind]. change max_occurrence_count with 1000. rewrite wrap_id by (try (cbn [ibits u16]; ib); lia). unfold a. replace (7 - (7 - u)) with u by lia. reflexivity. }
      rewrite E. eexists. split; [reflexivity|]. cbn [app]. assert (L : zlen (map (fun o => ForEdge 1 (Z.min 1000 (hi - lo + 1 - o - 1)) a) (range 0 n)) = n) by (rewrite zlen_map; unfold zlen, range; rewrite zseq_length; unfold n; lia).
      split; [|rewrite L; split; [unfold n; lia|]].
      + intros o s Z0. pose proof (znth_Some _ _ _ Z0) as R. rewrite L in R. rewrite znth_map in Z0. unfold range in Z0. rewrite znth_zseq in Z0 by (unfold n in *; lia). cbn [option_map] in Z0. injection Z0 as <-. replace (0 + o) with o by lia. apply flat_answer; [exact FL|unfold n in R; lia|unfold n in R; lia|reflexivity].
      + intros o O q Q. unfold n in O. lia.
  Qed.
End Gather.
