(** What a node keeps about the bits that followed its string. *)
From Coq Require Import ZifyBool.
From Verif Require Import Base BaseFacts StateModel StateProofs EstModel LogModel StatesModel StatesSpec StatesProofs HistSpec HistProofs FatProofs NodesModel NodesProofs TrieProofs WindowProofs.
Ltac Zify.zify_post_hook ::= Z.div_mod_to_equations.

Definition prefixb (a b : list bit) : bool := same (firstn (length a) b) a.
Lemma prefixb_iff a b : prefixb a b = true <-> prefix a b.
Proof. unfold prefixb. rewrite same_iff, prefix_firstn. reflexivity. Qed.
Definition bits (h : list occurrence) : list bit := map (fun o => snd (fst o)) h.
Definition count (a : bit) (h : list occurrence) : Z := zlen (filter (Bool.eqb a) (bits h)).
Lemma count_snoc a h o : count a (h ++ [o]) = count a h + if Bool.eqb a (snd (fst o)) then 1 else 0.
Proof. unfold count, bits. rewrite map_app, filter_app, zlen_app. cbn [map filter]. destruct (Bool.eqb _ _); reflexivity. Qed.
Lemma count_app a h g : count a (h ++ g) = count a h + count a g.
Proof. unfold count, bits. now rewrite map_app, filter_app, zlen_app. Qed.
Lemma count_nonneg a h : 0 <= count a h. Proof. apply zlen_nonneg. Qed.
Lemma count_total h : count Zero h + count One h = zlen h.
Proof.
  induction h as [|o h IH] using rev_ind; [reflexivity|]. rewrite !count_snoc, zlen_app. change (zlen [o]) with 1. destruct (snd (fst o)); cbn [Bool.eqb Zero One]; unfold Zero, One in *; cbn [Bool.eqb]; lia.
Qed.
Lemma count_le a h : count a h <= zlen h.
Proof. pose proof (count_total h) as T. pose proof (count_nonneg Zero h). pose proof (count_nonneg One h). destruct a; fold One Zero; unfold One, Zero in *; lia. Qed.
Lemma count_uniform a h : Forall (fun x => x = a) (bits h) -> count a h = zlen h /\ count (negb a) h = 0.
Proof.
  induction h as [|o h IH] using rev_ind; intros F; [split; reflexivity|]. unfold bits in F. rewrite map_app in F. apply Forall_app in F. destruct F as (F1 & F2).
  apply Forall_inv in F2. destruct (IH F1) as (A & B). rewrite !count_snoc, A, B, F2, zlen_app, Bool.eqb_reflx. rewrite (proj2 (Bool.eqb_false_iff (negb a) a)) by (destruct a; discriminate).
  change (zlen [o]) with 1. lia.
Qed.

Lemma compat_nth a b i : compat a b -> (i < length a)%nat -> (i < length b)%nat -> nth i a Zero = nth i b Zero.
Proof. intros [(r & ->)|(r & ->)] A B; now rewrite app_nth1 by assumption. Qed.

Section Stats.
  Variables (t : luts) (trk : Z -> Z -> cost_trackers).
  Hypothesis ALL : forall l, l <> [] -> exists s, state_of t l = Ok s /\ stands_for (lt_rates t) (fst (fst (last l (0, Zero, ct_default)))) (bits l) s.

  (** ** Histories *)
  Definition longer (suf : Z -> list bit) (x : list bit) (q : Z) : bool := prefixb x (suf q) && (zlen x <? zlen (suf q)).
  Definition hist (suf : Z -> list bit) (lo hi : Z) (x : list bit) : list occurrence :=
    map (fun q => (q, nth (length x) (suf q) Zero, trk q (zlen x))) (filter (longer suf x) (zseq lo (Z.to_nat (hi + 1 - lo)))).
  Lemma longer_iff suf x q : longer suf x q = true <-> exists a, prefix (x ++ [a]) (suf q).
  Proof.
    unfold longer. rewrite andb_true_iff, prefixb_iff, Z.ltb_lt. split.
    - intros (P & L). exact (prefix_next _ _ P L).
    - intros (a & P). split; [exact (prefix_drop _ _ _ P)|]. apply prefix_len in P. rewrite snoc_len in P. lia.
  Qed.
  Lemma hist_bits suf lo hi x a : In a (bits (hist suf lo hi x)) <-> exists q, occurs suf lo hi (x ++ [a]) q.
  Proof.
    unfold bits, hist. rewrite map_map. cbn [fst snd]. rewrite in_map_iff. split.
    - intros (q & N & I). apply filter_In in I. destruct I as (R & L). apply zseq_In in R. unfold longer in L. rewrite andb_true_iff, prefixb_iff, Z.ltb_lt in L. exists q. split; [lia|]. apply prefix_nth. intuition.
    - intros (q & R & P). exists q. pose proof (proj1 (prefix_nth _ _ _) P) as (_ & _ & N). split; [exact N|]. apply filter_In. split; [apply zseq_In; lia|]. apply longer_iff. eauto.
  Qed.
  Lemma hist_ext suf suf' lo hi x : (forall q, lo <= q <= hi -> longer suf' x q = longer suf x q) ->
    (forall q, lo <= q <= hi -> longer suf x q = true -> nth (length x) (suf' q) Zero = nth (length x) (suf q) Zero) -> hist suf' lo hi x = hist suf lo hi x.
  Proof.
    intros E N. unfold hist. rewrite (filter_ext_Forall (longer suf' x) (longer suf x)).
    - apply map_ext_in. intros q I. apply filter_In in I. destruct I as (R & L). apply zseq_In in R. now rewrite N by (lia || assumption).
    - apply Forall_forall. intros q I. apply zseq_In in I. apply E. lia.
  Qed.
  Lemma hist_drop suf lo hi x : exists h, zlen h <= 1 /\ hist suf lo hi x = h ++ hist suf (lo + 1) hi x.
  Proof.
    unfold hist. destruct (Z.lt_ge_cases hi lo) as [G|G]; [exists []; split; [discriminate|]; now replace (Z.to_nat (hi + 1 - lo)) with 0%nat by lia; replace (Z.to_nat (hi + 1 - (lo + 1))) with 0%nat by lia|].
    replace (Z.to_nat (hi + 1 - lo)) with (S (Z.to_nat (hi + 1 - (lo + 1)))) by lia. cbn [zseq filter].
    destruct (longer suf x lo); cbn [map]; [eexists [_]|exists []]; (split; [discriminate|reflexivity]).
  Qed.
  Lemma nth_prefix x a c : prefix (x ++ [a]) c -> nth (length x) c Zero = a.
  Proof. intros P. now apply prefix_nth in P. Qed.

  Section GrowHist.
    Variables (suf suf' : Z -> list bit) (lo hi p : Z) (b : bit).
    Hypothesis RP : lo <= p <= hi.
    Hypothesis SP : spread suf lo hi.
    Hypothesis GR : forall q, lo <= q <= hi -> suf' q = if q =? p then suf p ++ [b] else suf q.
    Lemma hist_grow_same x : x <> suf p -> hist suf' lo hi x = hist suf lo hi x.
    Proof.
      intros NX. apply hist_ext.
      - intros q R. apply Bool.eq_true_iff_eq. rewrite !longer_iff, GR by exact R. destruct (Z.eqb_spec q p) as [->|N]; [|reflexivity].
        split; intros (a & P); exists a; [|exact (prefix_trans _ _ _ P (prefix_app _ _))]. apply prefix_snoc_inv in P. destruct P as [P|P]; [|exact P]. apply snoc_inj in P. now elim NX.
      - intros q R L. apply longer_iff in L. destruct L as (a & P). rewrite (nth_prefix x a) with (1 := P). apply nth_prefix. rewrite GR by exact R.
        destruct (Z.eqb_spec q p) as [->|N]; [|exact P]. exact (prefix_trans _ _ _ P (prefix_app _ _)).
    Qed.
    Lemma hist_grow : hist suf' lo hi (suf p) = hist suf lo hi (suf p) ++ [(p, b, trk p (zlen (suf p)))].
    Proof.
      unfold hist. replace (Z.to_nat (hi + 1 - lo)) with (Z.to_nat (p - lo) + (1 + Z.to_nat (hi - p)))%nat by lia. rewrite !zseq_app. rewrite !filter_app. cbn [zseq].
      replace (lo + Z.of_nat (Z.to_nat (p - lo))) with p by lia.
      assert (E : longer suf (suf p) p = false). { unfold longer. replace (zlen (suf p) <? zlen (suf p)) with false by lia. apply andb_false_r. }
      assert (E' : longer suf' (suf p) p = true). { apply longer_iff. exists b. rewrite GR by lia. rewrite Z.eqb_refl. apply prefix_refl. }
      assert (A : forall q, lo <= q <= hi -> q <> p -> suf' q = suf q). { intros q R N. rewrite GR by lia. now destruct (Z.eqb_spec q p). }
      assert (T0 : forall g, (forall q, p < q <= hi -> zlen (g q) < zlen (suf p)) -> filter (longer g (suf p)) (zseq (p + Z.of_nat 1) (Z.to_nat (hi - p))) = []).
      { intros g G. assert (F : Forall (fun q => longer g (suf p) q = false) (zseq (p + Z.of_nat 1) (Z.to_nat (hi - p)))).
        - apply Forall_forall. intros q I. apply zseq_In in I. unfold longer. specialize (G q ltac:(lia)). replace (zlen (suf p) <? zlen (g q)) with false by lia. apply andb_false_r.
        - induction F as [|q l Q F IH]; [reflexivity|]. cbn [filter]. now rewrite Q. }
      assert (TS : forall q, p < q <= hi -> zlen (suf q) < zlen (suf p)) by (intros q R; specialize (SP p q ltac:(lia) ltac:(lia) ltac:(lia)); lia).
      cbn [filter]. rewrite E, E'. rewrite (T0 suf) by exact TS. rewrite (T0 suf') by (intros q R; rewrite A by lia; now apply TS). cbn [app]. rewrite app_nil_r, map_app. f_equal.
      - rewrite (filter_ext_Forall (longer suf' (suf p)) (longer suf (suf p))).
        + apply map_ext_in. intros q I. apply filter_In in I. destruct I as (I & _). apply zseq_In in I. now rewrite A by lia.
        + apply Forall_forall. intros q I. apply zseq_In in I. unfold longer. now rewrite A by lia.
      - cbn [map]. rewrite GR by lia. rewrite Z.eqb_refl. rewrite app_nth2 by lia. now rewrite Nat.sub_diag.
    Qed.
    Lemma hist_next : zlen (hist suf' lo hi (suf p ++ [b])) = count b (hist suf lo hi (suf p)).
    Proof.
      unfold count, bits, hist. rewrite map_map. cbn [fst snd]. rewrite zlen_map. unfold zlen. f_equal.
      assert (G : forall l, Forall (fun q => lo <= q <= hi) l -> length (filter (longer suf' (suf p ++ [b])) l) =
        length (filter (Bool.eqb b) (map (fun q => nth (length (suf p)) (suf q) Zero) (filter (longer suf (suf p)) l)))).
      { induction 1 as [|q l R F IH]; [reflexivity|]. cbn [filter].
        assert (E : longer suf' (suf p ++ [b]) q = longer suf (suf p) q && Bool.eqb b (nth (length (suf p)) (suf q) Zero)).
        { apply Bool.eq_true_iff_eq. rewrite andb_true_iff, longer_iff. rewrite Bool.eqb_true_iff. unfold longer. rewrite andb_true_iff, prefixb_iff, Z.ltb_lt. rewrite GR by exact R. split.
          - intros (a & P). destruct (Z.eqb_spec q p) as [->|N]; [apply prefix_len in P; rewrite snoc_len in P; lia|]. apply prefix_drop in P. apply prefix_nth in P. intuition.
          - intros ((P & L) & Q). assert (N : q <> p) by (intros ->; lia). destruct (Z.eqb_spec q p) as [|_]; [contradiction|].
            assert (P1 : prefix (suf p ++ [b]) (suf q)) by (apply prefix_nth; auto). apply prefix_next; [exact P1|]. rewrite snoc_len.
            destruct (Z.lt_ge_cases q p); [specialize (SP q p); lia|]. specialize (SP p q). lia. }
        rewrite E. destruct (longer suf (suf p) q); cbn [andb]; [|exact IH]. cbn [map filter]. destruct (Bool.eqb b _); cbn [length]; now rewrite IH. }
      apply G. apply Forall_forall. intros q I. apply zseq_In in I. lia.
    Qed.
  End GrowHist.
  Lemma hist_push suf lo hi x : lo <= hi + 1 -> suf (hi + 1) = [] -> hist suf lo (hi + 1) x = hist suf lo hi x.
  Proof.
    intros R E. unfold hist. replace (Z.to_nat (hi + 1 + 1 - lo)) with (Z.to_nat (hi + 1 - lo) + 1)%nat by lia. rewrite zseq_app, filter_app. cbn [zseq filter].
    replace (lo + Z.of_nat (Z.to_nat (hi + 1 - lo))) with (hi + 1) by lia. unfold longer at 2. rewrite E. change (zlen (@nil bit)) with 0. pose proof (zlen_nonneg x).
    replace (zlen x <? 0) with false by lia. rewrite andb_false_r. now rewrite app_nil_r.
  Qed.
  Lemma hist_cut suf lo hi k x : lo <= k <= hi + 1 -> (forall q, k <= q <= hi -> longer suf x q = false) -> hist suf lo hi x = hist suf lo (k - 1) x.
  Proof.
    intros R N. unfold hist. replace (Z.to_nat (hi + 1 - lo)) with (Z.to_nat (k - 1 + 1 - lo) + Z.to_nat (hi + 1 - k))%nat by lia. rewrite zseq_app, filter_app.
    assert (E : forall l, Forall (fun q => k <= q <= hi) l -> filter (longer suf x) l = []).
    { induction l as [|q l IH]; intros F; [reflexivity|]. cbn [filter]. rewrite N by exact (Forall_inv F). exact (IH (Forall_inv_tail F)). }
    rewrite (E (zseq (lo + _) _)); [now rewrite app_nil_r|]. apply Forall_forall. intros q I. apply zseq_In in I. lia.
  Qed.
  Lemma hist_all suf lo hi x : lo <= hi + 1 -> (forall q, lo <= q <= hi -> longer suf x q = true) -> zlen (hist suf lo hi x) = hi + 1 - lo.
  Proof.
    intros R A. unfold hist. rewrite zlen_map. assert (F : Forall (fun q => longer suf x q = true) (zseq lo (Z.to_nat (hi + 1 - lo)))).
    { apply Forall_forall. intros q I. apply zseq_In in I. apply A. lia. }
    replace (filter (longer suf x) (zseq lo (Z.to_nat (hi + 1 - lo)))) with (zseq lo (Z.to_nat (hi + 1 - lo))); [unfold zlen; rewrite zseq_length; lia|].
    symmetry. induction F as [|q l Q F IH]; [reflexivity|]. cbn [filter]. now rewrite Q, IH.
  Qed.

  (** ** Statistics *)
  Definition fits (h : list occurrence) (n : node) : Prop :=
    (exists d, state_of t h = Ok (ForNode d (nd_estimator n) (nd_recent n) (nd_runs n) (nd_trackers n))) /\
    nd_left_count n = Z.min 1000 (count Zero h) /\ nd_right_count n = Z.min 1000 (count One h) /\ 1 <= count Zero h /\ 1 <= count One h.
  Lemma fits_child h n d c : fits h n -> fits h (nd_set_child n d c).
  Proof. destruct n as [[l r] ts e k q rc dp lc rc']. exact (fun x => x). Qed.
  Lemma fits_start h n x : fits h n -> fits h (nd_set_text_start n x).
  Proof. destruct n as [[l r] ts e k q rc dp lc rc']. exact (fun x => x). Qed.

  Lemma fits_update h n b d k : fits h n -> exists n', nd_update_on_next_bit (lt_rates t) n b k = Ok n' /\ fits (h ++ [(d, b, k)]) n' /\
    nd_children n' = nd_children n /\ nd_text_start n' = nd_text_start n /\ nd_depth n' = nd_depth n.
  Proof.
    intros ((d0 & S) & L & R & C0 & C1). assert (NE : h <> []) by (intros ->; discriminate S).
    destruct (ALL (h ++ [(d, b, k)]) ltac:(intros E; apply app_eq_nil in E; destruct E; discriminate)) as (s & E & _). rewrite state_of_snoc in E by exact NE. rewrite S in E. cbn [bind] in E.
    unfold advance in E. cbn [is_for_node next_state of_opt bind] in E. assert (E0 := E).
    destruct (de_update (lt_rates t) (nd_estimator n) b) as [e'|] eqn:E1; cbn [bind] in E; [|discriminate]. destruct (rb_updated (nd_recent n) b) as [r'|] eqn:E2; cbn [bind] in E; [|discriminate].
    destruct (br_updated (nd_runs n) b) as [q'|] eqn:E3; cbn [bind] in E; [|discriminate].
    assert (EL : (if b then Ok (nd_left_count n) else let* x := add u16 (nd_left_count n) 1 in Ok (Z.min max_occurrence_count x)) = Ok (Z.min 1000 (count Zero (h ++ [(d, b, k)])))).
    { rewrite count_snoc. cbn [fst snd]. rewrite L. destruct b; [change (Bool.eqb Zero true) with false; cbn iota; f_equal; lia|]. change (Bool.eqb Zero false) with true. cbn iota.
      rewrite add_ok by (ib; lia). cbn [bind]. change max_occurrence_count with 1000. f_equal. lia. }
    assert (ER : (if b then let* x := add u16 (nd_right_count n) 1 in Ok (Z.min max_occurrence_count x) else Ok (nd_right_count n)) = Ok (Z.min 1000 (count One (h ++ [(d, b, k)])))).
    { rewrite count_snoc. cbn [fst snd]. rewrite R. destruct b; [|change (Bool.eqb One false) with false; cbn iota; f_equal; lia]. change (Bool.eqb One true) with true. cbn iota.
      rewrite add_ok by (ib; lia). cbn [bind]. change max_occurrence_count with 1000. f_equal. lia. }
    unfold nd_update_on_next_bit. rewrite EL. cbn [bind]. rewrite ER. cbn [bind]. rewrite E3. cbn [bind]. rewrite E2. cbn [bind]. rewrite E1. cbn [bind]. eexists. split; [reflexivity|].
    split; [|split; [reflexivity|split; reflexivity]]. split; [|split; [reflexivity|split; [reflexivity|]]].
    - exists d. cbn [nd_estimator nd_recent nd_runs nd_trackers]. rewrite state_of_snoc by exact NE. rewrite S. cbn [bind]. unfold advance. cbn [is_for_node next_state of_opt bind]. rewrite E1. cbn [bind]. rewrite E2. cbn [bind]. rewrite E3. reflexivity.
    - rewrite !count_snoc. destruct (Bool.eqb Zero _), (Bool.eqb One _); lia.
  Qed.

  Lemma uniform_all h a : Forall (fun x => x = a) (bits h) -> uniform (bits h) = true.
  Proof.
    intros F. unfold uniform. apply forallb_forall. intros x I. rewrite Forall_forall in F. apply Bool.eqb_true_iff. rewrite (F x I). apply F.
    destruct (bits h); [destruct I|now left].
  Qed.
  Lemma state_uniform h a : h <> [] -> Forall (fun x => x = a) (bits h) -> exists d, state_of t h = Ok (ForEdge d (Z.min 1000 (zlen h)) a).
  Proof.
    intros NE F. destruct (ALL h NE) as (s & E & S). unfold stands_for in S. rewrite (uniform_all h a F) in S. eexists. rewrite E, S. do 2 f_equal.
    - f_equal. unfold bits. apply zlen_map.
    - destruct h as [|o h]; [congruence|]. cbn [bits map hd] in *. now apply Forall_inv in F.
  Qed.
  Lemma fits_new h b d k c : h <> [] -> Forall (fun x => x = negb b) (bits h) -> c = Z.min 1000 (zlen h) ->
    exists e r q y, cache_for_new_node (lt_cache t) b c = Ok e /\ rb_for_new_node b c = Ok r /\ br_for_new_node b c = Ok q /\ cost_lut_for_new_node (lt_cost t) c = Ok y /\
      rb_is_valid r = true /\ forall ch ts dp, fits (h ++ [(d, b, k)]) (mkNode ch ts e (y, y) q r dp (if b then c else 1) (if b then 1 else c)).
  Proof.
    intros NE F C. destruct (state_uniform h (negb b) NE F) as (d0 & S). rewrite <- C in S.
    destruct (ALL (h ++ [(d, b, k)]) ltac:(intros E; apply app_eq_nil in E; destruct E; discriminate)) as (s & E & _). rewrite state_of_snoc in E by exact NE. rewrite S in E. cbn [bind] in E.
    unfold advance in E. cbn [is_for_node next_state assert_ guard bind] in E. rewrite (proj2 (Bool.eqb_false_iff (negb b) b)) in E by (destruct b; discriminate). assert (E0 := E).
    destruct (cache_for_new_node (lt_cache t) b c) as [e|] eqn:E1; cbn [bind] in E; [|discriminate]. destruct (rb_for_new_node b c) as [r|] eqn:E2; cbn [bind] in E; [|discriminate].
    destruct (br_for_new_node b c) as [q|] eqn:E3; cbn [bind] in E; [|discriminate]. destruct (cost_lut_for_new_node (lt_cost t) c) as [y|] eqn:E4; cbn [bind] in E; [|discriminate].
    exists e, r, q, y. repeat (split; [reflexivity|]).
    assert (LH : 1 <= zlen h) by (destruct h; [congruence|rewrite zlen_cons; pose proof (zlen_nonneg h); lia]). split.
    - rewrite rb_for_new_node_eq in E2 by lia. injection E2 as <-. unfold rb_is_valid.
      match goal with |- context [rb_state ?l] => pose proof (rb_state_range l) as G end. lia.
    - intros ch ts dp. destruct (count_uniform _ _ F) as (U1 & U2). split; [|split; [|split; [|]]]; cbn [nd_estimator nd_recent nd_runs nd_trackers nd_left_count nd_right_count].
      + exists d. rewrite state_of_snoc by exact NE. rewrite S. cbn [bind]. unfold advance. cbn [is_for_node next_state assert_ guard bind].
        rewrite (proj2 (Bool.eqb_false_iff (negb b) b)) by (destruct b; discriminate). rewrite E1. cbn [bind]. rewrite E2. cbn [bind]. rewrite E3. cbn [bind]. rewrite E4. reflexivity.
      + rewrite count_snoc. cbn [fst snd]. destruct b; cbn [negb] in *; unfold Zero, One in *; cbn [Bool.eqb]; lia.
      + rewrite count_snoc. cbn [fst snd]. destruct b; cbn [negb] in *; unfold Zero, One in *; cbn [Bool.eqb]; lia.
      + rewrite !count_snoc. cbn [fst snd]. destruct b; cbn [negb] in *; unfold Zero, One in *; cbn [Bool.eqb]; lia.
  Qed.
End Stats.
