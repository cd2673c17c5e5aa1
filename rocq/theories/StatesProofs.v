(** Context states: the tables together, and a state as a function of the bits that followed its context. *)
From Coq Require Import ZifyBool.
From Verif Require Import Base BaseFacts FixedModel UtilSpec StateModel StateSpec StateProofs EstModel EstSpec EstProofs
  LogModel LogSpec LogProofs LutModel LutTable LutProofs LutRound ApmModel ApmProofs StatesModel StatesSpec.
Ltac Zify.zify_post_hook ::= Z.div_mod_to_equations.

(** ** The tables together *)
Record luts_ok (t : luts) : Prop := {
  lk_log2 : forall x, 2048 <= x < 4096 -> log2_restricted (lt_log2 t) x = Ok (lean_entry x);
  lk_rates : rates_ok (lt_rates t);
  lk_cache : forall n b, 0 <= n <= 1000 -> exists s, cache_for_new_node (lt_cache t) b n = Ok s /\
    de_run (lt_rates t) (repeat (negb b) (Z.to_nat n) ++ [b]) = Ok s;
  lk_direct : forall n, 0 <= n <= 1000 -> exists p c, 
    mfold (de_update (lt_rates t)) (repeat Zero (Z.to_nat n)) (2 ^ 21 * 1024 + 1) = Ok (p * 1024 + c) /\
    znth (lt_direct t) n = Some (p * 512, lean_stretch (p * 512)) /\ 0 < p < 2 ^ 22 /\ 0 <= c <= 1000;
  lk_cost : forall n b, 0 <= n <= 1000 -> exists c e, cost_lut_for_new_node (lt_cost t) n = Ok c /\ 0 <= c <= 65535 /\
    (let* s := de_new in mfold (cost_step (lt_log2 t) (lt_rates t)) (repeat (negb b) (Z.to_nat n) ++ [b]) (cost_initial, s)) = Ok (c, e);
  lk_stretch : stretch_lut_ok (lt_stretch t);
  lk_squash : squash_lut_ok (lt_squash t);
  lk_apm : lt_apm t = [lean_apm_lut 0; lean_apm_lut 1; lean_apm_lut 2]
}.

Lemma predictions_loop_spec rates n s : rates_ok rates -> de_valid s ->
  exists l, predictions_loop rates n s = Ok l /\ zlen l = Z.of_nat n /\
    forall i, 0 <= i < Z.of_nat n -> exists p c, mfold (de_update rates) (repeat Zero (Z.to_nat i)) s = Ok (p * 1024 + c) /\
      znth l i = Some (p * 512) /\ 0 < p < 2 ^ 22 /\ 0 <= c <= 1000.
Proof.
  intros R. revert s. induction n as [|n IH]; intros s V; [exists []; repeat split; intros; lia|].
  destruct (de_valid_step rates s Zero R V) as (s' & E & V'). destruct (IH s' V') as (l & EL & LL & H).
  destruct V as (p & m & -> & P & M & _). cbn [predictions_loop]. rewrite de_prediction_at by (clear - P M; lia). cbn [bind].
  rewrite E. cbn [bind]. rewrite EL. cbn [bind]. eexists. split; [reflexivity|]. split; [rewrite zlen_cons; lia|].
  intros i I. destruct (Z.eqb_spec i 0) as [->|N].
  - exists p, m. cbn [Z.to_nat repeat mfold]. repeat split; try reflexivity; lia.
  - destruct (H (i - 1)) as (q & c & A & B & C); [lia|]. exists q, c.
    replace (Z.to_nat i) with (S (Z.to_nat (i - 1))) by lia. cbn [repeat mfold]. rewrite E. cbn [bind].
    split; [exact A|]. split; [|exact C]. cbn [znth]. destruct (Z.eqb_spec i 0); [lia | exact B].
Qed.

Lemma bind_to {A B} (x : res A) (f : A -> res B) v w : x = Ok v -> f v = Ok w -> bind x f = Ok w.
Proof. intros ->. exact (fun H => H). Qed.
Lemma luts_new_of l2 rates cache cost st sq predictions direct a0 a1 a2 :
  log2_new = Ok l2 -> rates_default = Ok rates -> cache_new rates = Ok cache -> cost_lut_new l2 rates = Ok cost ->
  stretch_new = Ok st -> squash_new st = Ok sq -> predictions_new rates = Ok predictions ->
  mmap (fun p => let* s := stretch st p in Ok (p, s)) predictions = Ok direct ->
  apm_lut_new 0 sq = Ok a0 -> apm_lut_new 1 sq = Ok a1 -> apm_lut_new 2 sq = Ok a2 ->
  luts_new = Ok (mkLuts l2 rates cache direct cost st sq [a0; a1; a2]).
Proof.
  intros H1 H2 H3 H4 H5 H6 H7 H8 H9 H10 H11. unfold luts_new.
  refine (bind_to _ _ _ _ H1 _). refine (bind_to _ _ _ _ H2 _). refine (bind_to _ _ _ _ H3 _). refine (bind_to _ _ _ _ H4 _).
  refine (bind_to _ _ _ _ H5 _). refine (bind_to _ _ _ _ H6 _). refine (bind_to _ _ _ _ H7 _). refine (bind_to _ _ _ _ H8 _).
  refine (bind_to _ _ _ _ H9 _). refine (bind_to _ _ _ _ H10 _). refine (bind_to _ _ _ _ H11 _). exact eq_refl.
Qed.
Lemma predictions_new_ok rates : rates_ok rates -> exists l, predictions_new rates = Ok l /\ zlen l = 1024 /\
  forall i, 0 <= i < 1024 -> exists p c, mfold (de_update rates) (repeat Zero (Z.to_nat i)) (2 ^ 21 * 1024 + 1) = Ok (p * 1024 + c) /\
      znth l i = Some (p * 512) /\ 0 < p < 2 ^ 22 /\ 0 <= c <= 1000.
Proof.
  intros R. pose proof (de_make_at (2 ^ 21) 1 ltac:(lia) ltac:(lia)) as M.
  change (2 ^ 21 * 512) with (2 ^ 30) in M. change (Z.max 1 (Z.min (2 ^ 21) (2 ^ 22 - 1))) with (2 ^ 21) in M.
  assert (V1 : de_valid (2 ^ 21 * 1024 + 1)) by (exists (2 ^ 21), 1; pow2; lia).
  destruct (predictions_loop_spec rates (Z.to_nat 1024) _ R V1) as (l & EP & LL & HP).
  rewrite Z2Nat.id in LL, HP by lia. exists l. split; [exact (bind_to _ _ _ _ M EP)|]. split; [exact LL|exact HP].
Qed.

Lemma luts_new_ok : exists t, luts_new = Ok t /\ luts_ok t /\ rates_default = Ok (lt_rates t).
Proof.
  destruct log2_new_spec as (l2 & E1 & L2). destruct rates_default_ok as (rates & E2 & R & _).
  destruct (cache_correct rates 0 Zero R ltac:(lia)) as (cache & cs & EC & _).
  destruct (cost_lut_replay l2 rates L2 R Zero 0 ltac:(lia)) as (clut & cc & ce & EL & _).
  destruct tables_ok as (st & sq & E5 & E6 & S & Q).
  destruct (predictions_new_ok rates R) as (l & E7 & LL & HP).
  assert (ST : forall i, 0 <= i < 1024 -> forall x, znth l i = Some x -> stretch st x = Ok (lean_stretch x)).
  { clear - HP S. intros i I x X. destruct (HP i I) as (p & c & _ & Z1 & P & _). rewrite X in Z1. injection Z1 as ->.
    apply stretch_lean; [exact S|]. clear - P. pow2. lia. }
  destruct (mmap_ok (fun p => let* s := stretch st p in Ok (p, s)) l) as (direct & ED).
  { clear - ST LL. intros x X. apply in_znth in X as (i & I & X). rewrite LL in I. rewrite (ST i I x X). cbn [bind]. eauto. }
  pose proof (luts_new_of _ _ _ _ _ _ _ _ _ _ _ E1 E2 EC EL E5 E6 E7 ED (apm_lut_new_ok sq 0 Q ltac:(clear; lia))
    (apm_lut_new_ok sq 1 Q ltac:(clear; lia)) (apm_lut_new_ok sq 2 Q ltac:(clear; lia))) as NEW.
  eexists. apply (conj NEW). clear NEW E1 E5 E6 E7. refine (conj _ E2). clear E2.
  constructor; cbn [lt_log2 lt_rates lt_cache lt_direct lt_cost lt_stretch lt_squash lt_apm].
  - exact L2.
  - exact R.
  - intros n b N. destruct (cache_correct rates n b R N) as (cache' & s & A & B). rewrite EC in A. injection A as <-. eauto.
  - intros n N. destruct (HP n ltac:(lia)) as (p & c & A & B & P & C). exists p, c. split; [exact A|].
    split; [|auto]. destruct (mmap_znth _ _ _ ED n _ B) as (y & Y & ZY). rewrite (ST n ltac:(lia) _ B) in Y. cbn [bind] in Y.
    injection Y as <-. exact ZY.
  - intros n b N. destruct (cost_lut_replay l2 rates L2 R b n ltac:(lia)) as (clut' & c & e & A & B & C).
    rewrite EL in A. injection A as <-. exists c, e. split; [exact B|]. split; [|exact C].
    destruct (cost_replay l2 rates L2 R (repeat (negb b) (Z.to_nat n) ++ [b])) as (x' & p & X & _ & D & _).
    rewrite C in D. injection D as -> _. exact X.
  - exact S.
  - exact Q.
  - reflexivity.
Qed.

Lemma luts_ok_of t : luts_new = Ok t -> luts_ok t.
Proof. intros E. destruct luts_new_ok as (t' & E' & H & _). rewrite E in E'. injection E' as ->. exact H. Qed.
Lemma luts_rates t : luts_new = Ok t -> rates_default = Ok (lt_rates t).
Proof. intros E. destruct luts_new_ok as (t' & E' & _ & H). rewrite E in E'. injection E' as ->. exact H. Qed.

(** ** Histories *)
Lemma uniform_snoc h b : h <> [] -> uniform (h ++ [b]) = uniform h && Bool.eqb (hd Zero h) b.
Proof.
  destruct h as [|c h]; [congruence|]. intros _. unfold uniform. cbn [app hd forallb].
  rewrite forallb_app. cbn [forallb]. rewrite Bool.andb_true_r, Bool.eqb_reflx. reflexivity.
Qed.
Lemma uniform_repeat h : uniform h = true -> h = repeat (hd Zero h) (length h).
Proof.
  unfold uniform. generalize (hd Zero h). induction h as [|c h IH]; intros b H; [reflexivity|]. cbn [forallb length repeat] in *.
  apply andb_prop in H as [A B]. apply Bool.eqb_prop in A as <-. f_equal. now apply IH.
Qed.
Lemma run_length_repeat b n g : run_length b (repeat b n ++ negb b :: g) = n.
Proof.
  induction n as [|n IH]; cbn [repeat app run_length]; [destruct b; reflexivity|]. rewrite Bool.eqb_reflx, IH. reflexivity.
Qed.
Lemma run_length_split h b : forallb (Bool.eqb b) h = false -> exists g, h = repeat b (run_length b h) ++ negb b :: g.
Proof.
  induction h as [|c h IH]; [discriminate|]. cbn [forallb run_length]. destruct (Bool.eqb b c) eqn:E; cbn [andb].
  - intros H. destruct (IH H) as (g & G). apply Bool.eqb_prop in E as <-. exists g. cbn [repeat app]. now f_equal.
  - intros _. exists h. cbn [repeat app]. f_equal. destruct b, c; try reflexivity; discriminate.
Qed.
Lemma run_length_snoc h b : uniform h = false -> run_length (hd Zero (h ++ [b])) (h ++ [b]) = run_length (hd Zero h) h.
Proof.
  intros U. assert (HD : hd Zero (h ++ [b]) = hd Zero h) by (destruct h; [discriminate|reflexivity]). rewrite HD.
  destruct (run_length_split h _ U) as (g & G). revert G. generalize (hd Zero h). intros c G.
  rewrite G, <- app_assoc. cbn [app]. rewrite !run_length_repeat. rewrite G at 1. now rewrite run_length_repeat.
Qed.
Lemma run_length_le h b : (run_length b h <= length h)%nat.
Proof. induction h as [|c h IH]; cbn; [lia|]. destruct (Bool.eqb b c); lia. Qed.
Lemma cut_run_snoc h b : uniform h = false -> cut_run (h ++ [b]) = cut_run h ++ [b].
Proof.
  intros U. unfold cut_run. rewrite run_length_snoc by exact U. rewrite skipn_app.
  pose proof (run_length_le h (hd Zero h)).
  replace (run_length (hd Zero h) h - 1000 - length h)%nat with O by lia. reflexivity.
Qed.
Lemma skipn_repeat {A} (x : A) n k : skipn k (repeat x n) = repeat x (n - k).
Proof. revert k. induction n as [|n IH]; intros [|k]; cbn; try reflexivity. apply IH. Qed.
Lemma cut_run_switch c n : (1 <= n)%nat -> cut_run (repeat c n ++ [negb c]) = repeat c (Nat.min n 1000) ++ [negb c].
Proof.
  intros N. unfold cut_run. replace (hd Zero (repeat c n ++ [negb c])) with c by (destruct n; [lia|reflexivity]).
  rewrite run_length_repeat, skipn_app, skipn_repeat, repeat_length. replace (n - 1000 - n)%nat with O by lia.
  f_equal. f_equal. lia.
Qed.

Lemma rb_state_switch c n b : rb_state (repeat c (Nat.min n 1000) ++ [b]) = rb_state (repeat c n ++ [b]).
Proof. unfold rb_state. rewrite !lastn_snoc, !lastn_repeat. do 4 f_equal. lia. Qed.
Lemma br_state_switch c n : (1 <= n)%nat -> br_state (repeat c (Nat.min n 1000) ++ [negb c]) = br_state (repeat c n ++ [negb c]).
Proof.
  intros N. unfold br_state, capped_run. rewrite !runs_snoc.
  destruct n as [|n]; [lia|]. destruct (Nat.min (S n) 1000) as [|m] eqn:M; [lia|]. rewrite !runs_repeat.
  unfold run_step. replace (Bool.eqb (negb c) c) with false by (destruct c; reflexivity). cbn [nth fst snd]. f_equal. lia.
Qed.

(** ** One step *)
Lemma stands_switch_state t d h b : luts_ok t -> h <> [] -> uniform h = true -> b = negb (hd Zero h) ->
  exists e r q c x,
  (forall d', next_state t (ForEdge d (Z.min 1000 (zlen h)) (hd Zero h)) d' b None = Ok (ForNode d' e r q (c, c))) /\
  estimator_of (lt_rates t) (cut_run (h ++ [b])) = Ok e /\ recent_of (h ++ [b]) = Ok r /\ runs_of (h ++ [b]) = Ok q /\
  0 <= c <= 65535 /\
  (let* s := de_new in mfold (cost_step (lt_log2 t) (lt_rates t)) (cut_run (h ++ [b])) (cost_initial, s)) = Ok (c, x).
Proof.
  intros T NE U B. pose proof (uniform_repeat h U) as H. set (c := hd Zero h) in *. set (n := length h) in *.
  assert (N : (1 <= n)%nat) by (destruct h; [congruence|cbn [n length]; lia]).
  assert (ZL : Z.min 1000 (zlen h) = Z.of_nat (Nat.min n 1000)) by (unfold zlen; fold n; lia).
  rewrite ZL, H. clearbody c n. subst b. clear ZL H NE U h.
  rewrite cut_run_switch by exact N.
  destruct (lk_cache t T (Z.of_nat (Nat.min n 1000)) (negb c) ltac:(lia)) as (e & CE & RE).
  destruct (lk_cost t T (Z.of_nat (Nat.min n 1000)) (negb c) ltac:(lia)) as (k & x & CK & K & RK).
  rewrite Bool.negb_involutive, Nat2Z.id in RE, RK.
  exists e, (rb_state (repeat c n ++ [negb c])), (br_state (repeat c n ++ [negb c])), k, x.
  split.
  - intros d'. cbn [next_state assert_ guard bind]. replace (Bool.eqb c (negb c)) with false by (destruct c; reflexivity).
    rewrite CE. cbn [bind]. rewrite rb_for_new_node_eq, br_for_new_node_eq by lia. cbn [bind]. rewrite CK. cbn [bind].
    rewrite Bool.negb_involutive, Nat2Z.id, rb_state_switch, br_state_switch by exact N. reflexivity.
  - split; [exact RE|]. split; [apply rb_replay|]. split; [apply br_replay|]. split; [exact K|exact RK].
Qed.

Lemma stands_step t d h s d' b c : luts_ok t -> h <> [] -> stands_for (lt_rates t) d h s ->
  exists s', advance t s (d', b, c) = Ok s' /\ stands_for (lt_rates t) d' (h ++ [b]) s' /\
    (uniform h = false -> exists e r q, s' = ForNode d' e r q c).
Proof.
  intros T NE S. unfold stands_for in *. rewrite (uniform_snoc h b NE). destruct (uniform h) eqn:U; cbn [andb].
  - subst s. unfold advance. cbn [is_for_node]. destruct (Bool.eqb (hd Zero h) b) eqn:E.
    + cbn [next_state assert_ guard bind]. rewrite E. pose proof (zlen_nonneg h) as Z0.
      rewrite add_ok by (ib; lia). cbn [bind]. eexists. split; [reflexivity|]. split; [|discriminate].
      unfold max_occurrence_count, max_count. rewrite zlen_app. change (zlen [b]) with 1.
      replace (hd Zero (h ++ [b])) with (hd Zero h) by (destruct h; [congruence|reflexivity]).
      f_equal. lia.
    + assert (B : b = negb (hd Zero h)) by (destruct b, (hd Zero h); try reflexivity; discriminate).
      destruct (stands_switch_state t d h b T NE U B) as (e & r & q & k & x & A & E1 & E2 & E3 & _).
      rewrite A. eexists. split; [reflexivity|]. split; [|discriminate]. do 4 eexists. eauto.
  - destruct S as (e & r & q & k & -> & E1 & E2 & E3). unfold advance. cbn [is_for_node next_state of_opt bind].
    assert (R1 : r = rb_state h) by (unfold recent_of in E2; rewrite rb_replay in E2; congruence).
    assert (Q1 : q = br_state h) by (unfold runs_of in E3; rewrite br_replay in E3; congruence). subst r q.
    change (estimator_of (lt_rates t) (cut_run h)) with (de_run (lt_rates t) (cut_run h)) in E1.
    destruct (de_run_state (lt_rates t) (cut_run h ++ [b]) (lk_rates t T)) as (p & EP & _).
    pose proof (de_run_snoc _ _ b _ E1) as SN. rewrite EP in SN. rewrite <- SN. cbn [bind]. rewrite rb_step, br_step. cbn [bind].
    eexists. split; [reflexivity|]. split; [|intros _; eauto]. do 4 eexists. split; [reflexivity|].
    rewrite cut_run_snoc by exact U. split; [exact EP|]. split; [apply rb_replay|apply br_replay].
Qed.

Lemma stands_first rates d b : stands_for rates d [b] (starting_state d b).
Proof. unfold stands_for, uniform. cbn [hd forallb]. rewrite Bool.eqb_reflx. reflexivity. Qed.

Lemma bits_of_snoc first later o : bits_of first (later ++ [o]) = bits_of first later ++ [snd (fst o)].
Proof. unfold bits_of. rewrite map_app. reflexivity. Qed.
Lemma bits_of_ne first later : bits_of first later <> [].
Proof. discriminate. Qed.
Lemma last_distance_snoc first later o : last_distance first (later ++ [o]) = fst (fst o).
Proof. unfold last_distance. rewrite map_app. cbn [map]. apply last_last. Qed.

(** ** Statements used by PropStates.v *)
Lemma state_of_history t first later : luts_new = Ok t ->
  exists s, advance_all t first later = Ok s /\ stands_for (lt_rates t) (last_distance first later) (bits_of first later) s.
Proof.
  intros L. apply luts_ok_of in L. unfold advance_all. induction later as [|o later IH] using rev_ind.
  - eexists. split; [reflexivity|]. apply stands_first.
  - destruct IH as (s & E & S). rewrite mfold_app, E. cbn [bind mfold]. destruct o as [[d b] c].
    destruct (stands_step t _ _ s d b c L (bits_of_ne _ _) S) as (s' & E' & S' & _).
    rewrite E'. cbn [bind]. exists s'. split; [reflexivity|].
    rewrite bits_of_snoc, last_distance_snoc. exact S'.
Qed.

Lemma tables_built : exists t, luts_new = Ok t.
Proof. destruct luts_new_ok as (t & E & _). exact (ex_intro _ t E). Qed.

Lemma cut_run_long h : zlen (cut_run h) = zlen h \/ 1000 <= zlen (cut_run h) <= zlen h.
Proof.
  unfold cut_run, zlen. rewrite skipn_length. pose proof (run_length_le h (hd Zero h)). lia.
Qed.

Lemma accessors t first later s : luts_new = Ok t -> advance_all t first later = Ok s ->
  occurrence_count s = Z.min 1000 (zlen (bits_of first later)) /\
  last_occurrence_distance s = last_distance first later /\
  is_for_node s = negb (uniform (bits_of first later)) /\
  recent_bits s = recent_of (bits_of first later) /\
  exists e p, probability_estimator t s = Ok e /\ de_usage_count e = occurrence_count s /\ de_prediction e = Ok p /\ 0 < p < 2 ^ 31.
Proof.
  intros L E. destruct (state_of_history t first later L) as (s' & E' & S). rewrite E in E'. injection E' as <-.
  apply luts_ok_of in L. clear E. set (h := bits_of first later) in *. assert (NE : h <> []) by apply bits_of_ne. clearbody h.
  generalize dependent (last_distance first later). clear first later. intros d S.
  unfold stands_for in S. destruct (uniform h) eqn:U.
  - subst s. cbn [occurrence_count last_occurrence_distance is_for_node recent_bits probability_estimator negb].
    split; [reflexivity|]. split; [reflexivity|]. split; [reflexivity|]. pose proof (zlen_nonneg h) as Z0. split.
    + rewrite rb_for_bit_run_eq by lia. unfold recent_of. rewrite rb_replay. f_equal.
      pose proof (uniform_repeat h U) as HR. unfold zlen. set (n := length h) in *. set (b := hd Zero h) in *. rewrite HR. clearbody n b. clear.
      unfold rb_state. rewrite !lastn_repeat. do 3 f_equal. lia.
    + destruct (lk_direct t L (Z.min 1000 (zlen h)) ltac:(lia)) as (p & c & _ & A & P & _).
      unfold direct_for_0_bit_run, max_count. rewrite (proj2 (Z.leb_le _ _)) by lia. cbn [assert_ guard bind]. unfold get. rewrite A.
      cbn [of_opt bind fst]. rewrite de_make_at by lia. eexists _, _. split; [reflexivity|].
      replace (Z.max 1 (Z.min p (2 ^ 22 - 1))) with p by lia. rewrite de_usage_count_at, de_prediction_at by lia.
      split; [reflexivity|]. split; [reflexivity|]. clear - P. pow2. lia.
  - destruct S as (e & r & q & k & -> & E1 & E2 & E3).
    cbn [occurrence_count last_occurrence_distance is_for_node recent_bits probability_estimator negb].
    destruct (de_run_state (lt_rates t) (cut_run h) (lk_rates t L)) as (p & EP & P & _).
    change (de_run (lt_rates t) (cut_run h) = Ok e) in E1. rewrite E1 in EP. injection EP as ->.
    pose proof (cut_run_long h) as CL. pose proof (zlen_nonneg h) as Z0.
    rewrite de_usage_count_at by lia. split; [lia|]. split; [reflexivity|]. split; [reflexivity|]. split; [congruence|].
    eexists _, _. split; [reflexivity|]. split; [apply de_usage_count_at; lia|]. split; [apply de_prediction_at; lia|].
    clear - P. pow2. lia.
Qed.

(** Trackers: the first branching state gets the cost of its (cut) history under the same estimators; later states get
    what the caller supplies. *)
Lemma trackers_of_history t first later d b c s : luts_new = Ok t ->
  advance_all t first (later ++ [(d, b, c)]) = Ok s ->
  let h := bits_of first later in
  match uniform h, Bool.eqb (hd Zero h) b with
  | true, true => is_for_node s = false
  | true, false => exists e r q k x, s = ForNode d e r q (k, k) /\ 0 <= k <= 65535 /\
      (let* z := de_new in mfold (cost_step (lt_log2 t) (lt_rates t)) (cut_run (h ++ [b])) (cost_initial, z)) = Ok (k, x)
  | false, _ => exists e r q, s = ForNode d e r q c
  end.
Proof.
  intros L E h. destruct (state_of_history t first later L) as (s0 & E0 & S). apply luts_ok_of in L.
  unfold advance_all in E, E0. rewrite mfold_app, E0 in E. cbn [bind mfold] in E. fold h in S.
  assert (NE : h <> []) by apply bits_of_ne. clearbody h.
  destruct (stands_step t _ h s0 d b c L NE S) as (s' & A & S' & LAST). rewrite A in E. cbn [bind] in E. injection E as ->.
  destruct (uniform h) eqn:U; [|now apply LAST].
  unfold stands_for in S. rewrite U in S. subst s0. unfold advance in A. cbn [is_for_node] in A.
  destruct (Bool.eqb (hd Zero h) b) eqn:B.
  - unfold stands_for in S'. rewrite uniform_snoc, U, B in S' by exact NE. cbn [andb] in S'. now subst s.
  - assert (B' : b = negb (hd Zero h)) by (destruct b, (hd Zero h); try reflexivity; discriminate).
    destruct (stands_switch_state t (last_distance first later) h b L NE U B') as (e & r & q & k & x & N & _ & _ & _ & K & RK).
    rewrite N in A. injection A as <-. do 5 eexists. eauto.
Qed.

Lemma whole_history t first later s : luts_new = Ok t -> zlen (bits_of first later) <= 1001 ->
  advance_all t first later = Ok s -> uniform (bits_of first later) = false ->
  exists d e r q c, s = ForNode d e r q c /\ estimator_of (lt_rates t) (bits_of first later) = Ok e.
Proof.
  intros L N E U. destruct (state_of_history t first later L) as (s' & E' & S). rewrite E in E'. injection E' as <-.
  unfold stands_for in S. rewrite U in S. destruct S as (e & r & q & c & -> & E1 & _).
  do 5 eexists. split; [reflexivity|]. rewrite <- E1. f_equal. unfold cut_run.
  set (h := bits_of first later) in *. destruct (run_length_split h _ U) as (g & G).
  assert (LL : length h = (run_length (hd Zero h) h + S (length g))%nat).
  { rewrite G at 1. rewrite app_length, repeat_length. reflexivity. }
  unfold zlen in N. replace (run_length (hd Zero h) h - 1000)%nat with O by lia. reflexivity.
Qed.

(** A run of 1001 zeros ended by a one. *)
Definition long_run : list occurrence := repeat (0, Zero, ct_default) 1000 ++ [(0, One, ct_default)].
Lemma long_run_check : match rates_default with
  | Ok rates => match estimator_of rates (repeat Zero 1000 ++ [One]), estimator_of rates (repeat Zero 1001 ++ [One]) with
                | Ok a, Ok b => negb (a =? b) | _, _ => false end
  | _ => false end = true.
Proof. vm_compute. reflexivity. Qed.
Lemma truncated_run t : luts_new = Ok t ->
  exists s e r q c e', advance_all t (0, Zero) long_run = Ok s /\ s = ForNode 0 e r q c /\
    estimator_of (lt_rates t) (bits_of (0, Zero) long_run) = Ok e' /\ e <> e'.
Proof.
  intros L. destruct (state_of_history t (0, Zero) long_run L) as (s & E & S). pose proof (luts_rates t L) as R. clear L.
  assert (B : bits_of (0, Zero) long_run = repeat Zero 1001 ++ [negb Zero]) by (vm_compute; reflexivity).
  assert (D : last_distance (0, Zero) long_run = 0) by (vm_compute; reflexivity).
  assert (U : uniform (repeat Zero 1001 ++ [negb Zero]) = false) by (vm_compute; reflexivity).
  rewrite B, D in *. unfold stands_for in S. rewrite U in S. destruct S as (e & r & q & c & -> & E1 & _).
  rewrite cut_run_switch in E1 by lia. change (Nat.min 1001 1000) with 1000%nat in E1. change (negb Zero) with One in *.
  assert (E2 : estimator_of (lt_rates t) (repeat Zero 1000 ++ [One]) = Ok e) by exact E1.
  pose proof long_run_check as K. rewrite R in K. cbv beta iota in K. rewrite E2 in K.
  destruct (estimator_of (lt_rates t) (repeat Zero 1001 ++ [One])) as [e'|] eqn:E3; [|discriminate].
  exists (ForNode 0 e r q c), e, r, q, c, e'. split; [exact E|]. split; [reflexivity|]. split; [exact E3|].
  clear - K. lia.
Qed.

(** Three ones: the estimator a deterministic state offers expects a zero. *)
Lemma edge_check : match rates_default with
  | Ok rates => match mfold (de_update rates) (repeat Zero (Z.to_nat 3)) (2 ^ 21 * 1024 + 1) with
                | Ok x => 3 * 2 ^ 20 <? x / 1024 | _ => false end
  | _ => false end = true.
Proof. vm_compute. reflexivity. Qed.
Lemma edge_estimator_ignores_bit t : luts_new = Ok t ->
  exists s e p, advance_all t (5, One) [(4, One, ct_default); (3, One, ct_default)] = Ok s /\
    probability_estimator t s = Ok e /\ de_prediction e = Ok p /\ 3 * 2 ^ 29 < p.
Proof.
  intros L. pose proof (luts_rates t L) as R. apply luts_ok_of in L.
  destruct (lk_direct t L 3 ltac:(lia)) as (p & c & E & A & P & C).
  pose proof edge_check as K. rewrite R in K. cbv beta iota in K. rewrite E in K. clear R E.
  exists (ForEdge 3 3 One), (p * 1024 + 3), (p * 512). split; [reflexivity|]. split.
  - cbn [probability_estimator]. unfold direct_for_0_bit_run, max_count. cbn [Z.leb Z.compare Pos.compare Pos.compare_cont assert_ guard bind].
    unfold get. rewrite A. cbn [of_opt bind fst]. rewrite de_make_at by (clear - P; lia). do 3 f_equal. clear - P. lia.
  - split; [apply de_prediction_at; clear - P; lia|]. clear - K P C. pow2. lia.
Qed.
