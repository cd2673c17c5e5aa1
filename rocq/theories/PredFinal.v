(** The final refinement of a prediction. *)
From Coq Require Import ZifyBool.
From Verif Require Import Base BaseFacts FixedModel FixedProofs UtilModel UtilSpec UtilProofs StateModel StateSpec StateProofs EstModel EstProofs LogModel LogProofs LutModel LutTable LutProofs LutRound
  ApmModel ApmSpec ApmProofs StatesModel StatesSpec StatesProofs MixerModel MixerSpec MixerProofs TreeModel RandomProofs PredModel PredKits PredChain.
Ltac Zify.zify_post_hook ::= Z.div_mod_to_equations.

(** ** The contexts *)
Definition hashes_ok (c : lbc) : Prop := exists u h1 h2 h3,
  lb_unfinished_byte c = Ok u /\ lb_hash01_16 c = Ok h1 /\ lb_hash02_16 c = Ok h2 /\ lb_hash03_16 c = Ok h3 /\
  1 <= u < 256 /\ 0 <= h1 < 65536 /\ 0 <= h2 < 65536 /\ 0 <= h3 < 65536.
Lemma previous_byte h c k : lb_rel h c -> is_byte (previous h k).
Proof.
  intros (F & _). unfold previous. destruct (nth_in_or_default (k - 1) (h_done h) 0) as [I|E].
  - rewrite Forall_forall in F. exact (F _ I).
  - rewrite E. unfold is_byte. lia.
Qed.
Lemma hashes_of h c ps : lb_rel h c -> h_bits h = Some ps -> hashes_ok c.
Proof.
  intros R E. destruct (lb_unfinished_spec h c ps R E) as (U & UB & _). destruct (lb_hash01_spec h c ps R E) as (H1 & B1).
  assert (UI : is_byte (number_of (true :: ps))) by (unfold is_byte; lia).
  pose proof (previous_byte h c 1 R). pose proof (previous_byte h c 2 R). pose proof (previous_byte h c 3 R).
  pose proof (fnv_standard [previous h 2; previous h 1; number_of (true :: ps)] ltac:(repeat (constructor; [assumption|]); constructor)) as F2.
  pose proof (fnv_standard [previous h 3; previous h 2; previous h 1; number_of (true :: ps)] ltac:(repeat (constructor; [assumption|]); constructor)) as F3.
  cbv zeta in F2, F3. destruct F2 as (_ & _ & _ & _ & _ & F2). destruct F3 as (_ & _ & _ & _ & _ & F3).
  exists (number_of (true :: ps)), ((256 + previous h 1) * 2 ^ zlen ps + number_of ps),
    (fold16 (fnv1a [previous h 2; previous h 1; number_of (true :: ps)])), (fold16 (fnv1a [previous h 3; previous h 2; previous h 1; number_of (true :: ps)])).
  split; [exact U|]. split; [exact H1|]. split; [exact (lb_hash02_spec h c ps R E)|]. split; [exact (lb_hash03_spec h c ps R E)|].
  change (2 ^ 16) with 65536 in *. lia.
Qed.

(** ** One map *)
Definition map_idle (c : Z) (a : apm) : Prop := apm_inv 0 a /\ am_contexts a = c /\ am_saved_index a = -1.
Definition map_set (c : Z) (a : apm) : Prop := apm_inv 0 a /\ am_contexts a = c /\ 0 <= am_saved_index a < 24 /\ 1 <= am_saved_weight a <= 2 ^ 31.
Definition map_at (busy : bool) (c : Z) (a : apm) : Prop := if busy then map_set c a else map_idle c a.

Lemma map_made t c : luts_ok t -> 0 <= c <= 65536 -> exists a, apm_new c 0 (lt_squash t) = Ok a /\ map_idle c a.
Proof.
  intros T C. destruct (apm_new_ok (lt_squash t) c 0 (lk_squash t T) ltac:(lia) ltac:(lia) ltac:(change (2 ^ 64) with 18446744073709551616; change (2 ^ 0) with 1; lia)) as (E & I).
  exists (lean_apm c 0). split; [exact E|]. split; [exact I|]. split; reflexivity.
Qed.
Lemma apm_table t : luts_ok t -> luts_apm t 0 = Ok (lean_apm_lut 0).
Proof. intros T. unfold luts_apm. rewrite (lk_apm t T). reflexivity. Qed.
Lemma map_refine t a c context p s : luts_ok t -> map_idle c a -> 0 <= context < c -> probability_pair (lt_stretch t) (lt_squash t) p s ->
  exists a' r, refine a context p s (lean_apm_lut 0) = Ok (a', r) /\ map_set c a' /\ 3 <= r <= 2 ^ 31 - 2.
Proof.
  intros T (INV & C & SI) CX PP. destruct (pair_bracketed _ _ 0 p s (lk_stretch t T) (lk_squash t T) ltac:(lia) PP) as (S & BR).
  destruct (refine_ok 0 a (lean_apm_lut 0) context p s ltac:(lia) (lean_apm_lut_ok 0 ltac:(lia)) INV SI ltac:(lia) S BR)
    as (i & wl & wr & left & right & r & E & I & _ & WR & W & _ & GL & GR & _ & RB).
  destruct INV as (AB & AC & AL & AS & AF).
  pose proof (znth_Forall _ _ _ _ AF GL) as BL. pose proof (znth_Forall _ _ _ _ AF GR) as BR'. cbn beta in BL, BR'.
  eexists. eexists. split; [exact E|]. split; [|lia]. split; [|split; [exact C|split; cbn [am_saved_index am_saved_weight]; [change (2 ^ 0) with 1 in I; lia|lia]]].
  split; [reflexivity|]. cbn [am_contexts am_mappings]. auto.
Qed.
Lemma map_learn a c context x fixed : map_set c a -> 0 <= context < c -> exists a', update_predictions a context x 5 fixed = Ok a' /\ map_idle c a'.
Proof.
  intros ((AB & AC & AL & AS & AF) & C & SI & SW) CX. change (2 ^ 0) with 1 in *.
  destruct (znth_lt (am_mappings a) (context * 25 + am_saved_index a) ltac:(nia)) as (l & L).
  destruct (znth_lt (am_mappings a) (context * 25 + am_saved_index a + 1) ltac:(nia)) as (r & R).
  pose proof (znth_Forall _ _ _ _ AF L) as BL. pose proof (znth_Forall _ _ _ _ AF R) as BR. cbn beta in BL, BR.
  pose proof (ApmProofs.update_ok 0 a context (am_saved_index a) (am_saved_weight a) x 5 fixed l r ltac:(lia) AB eq_refl eq_refl ltac:(lia) ltac:(change (2 ^ 0) with 1; lia) SW ltac:(lia)) as U.
  change (1 + 24 * 2 ^ 0) with 25 in U. specialize (U ltac:(lia) AS L R ltac:(lia) ltac:(lia)). cbv zeta in U. rewrite U.
  eexists. split; [reflexivity|]. set (w := if fixed then 2 ^ 30 else am_saved_weight a) in *. assert (W : 0 <= w <= 2 ^ 31) by (unfold w; destruct fixed; pow2; lia). clearbody w.
  split; [|split; [exact C|reflexivity]]. split; [reflexivity|]. cbn [am_contexts am_mappings]. rewrite !zlen_zupd. split; [exact AC|]. split; [change (2 ^ 0) with 1; exact AL|]. split; [exact AS|].
  apply Forall_zupd; [apply Forall_zupd; [exact AF|]|]; apply moved_range; lia.
Qed.

(** ** The parts of refine *)
Lemma fract_new x : 0 <= x < 2 ^ 31 -> fix_new fract_only_u32 (wrap u32 x) 31 = Ok x.
Proof.
  intros X. rewrite wrap_id by (try (cbn; lia); ib; pow2; lia). change 31 with (f_frac fract_only_u32).
  rewrite fix_new_exact by (intros ?; reflexivity). replace (f_within fract_only_u32 x) with true by (cbn [f_within fract_only_u32]; lia). reflexivity.
Qed.
Lemma phase0_ok t f p s lb : luts_ok t -> map_idle 256 (pf_order0 f) -> 0 < p < 2 ^ 31 -> probability_pair (lt_stretch t) (lt_squash t) p s -> hashes_ok lb ->
  exists o p0 m, phase0 t f p s lb = Ok (o, p0, (m, lean_stretch m)) /\ map_set 256 o /\ 0 < p0 < 2 ^ 31 /\ 0 < m < 2 ^ 31.
Proof.
  intros T MI P PP (u & h1 & h2 & h3 & U & _ & _ & _ & UB & _). unfold phase0. rewrite U. cbn [bind]. rewrite (apm_table t T). cbn [bind].
  destruct (map_refine t (pf_order0 f) 256 u p s T MI ltac:(lia) PP) as (o & p0 & -> & MS & PB). cbn [bind]. pow2.
  rewrite mul_ok by (ib; lia). cbn [bind]. rewrite add_ok by (ib; lia). cbn [bind].
  rewrite scaled_down_u64_at by (change (2 ^ (2 - 1)) with 2; change (2 ^ 64) with 18446744073709551616; lia). cbn [bind]. change (2 ^ (2 - 1)) with 2. change (2 ^ 2) with 4.
  set (m := (p * 3 + p0 + 2) / 4). assert (M : 0 < m < 2147483648) by (unfold m; lia). clearbody m.
  rewrite fract_new by (pow2; lia). cbn [bind]. rewrite (stretch_lean _ m (lk_stretch t T)) by (pow2; lia). cbn [bind].
  exists o, p0, m. split; [reflexivity|]. split; [exact MS|]. pow2. lia.
Qed.
Lemma phase1_ok t a h m : luts_ok t -> map_idle 65536 a -> 0 <= h < 65536 -> 0 < m < 2 ^ 31 ->
  exists o p, phase1 t a (Ok h) (m, lean_stretch m) = Ok (o, p) /\ map_set 65536 o /\ 0 < p < 2 ^ 31.
Proof.
  intros T MI H M. unfold phase1. cbn [bind]. rewrite (apm_table t T). cbn [bind fst snd].
  destruct (map_refine t a 65536 h m (lean_stretch m) T MI H) as (o & p & -> & MS & PB).
  { left. split; [exact M|]. now apply stretch_lean; [apply lk_stretch|]. }
  exists o, p. split; [reflexivity|]. split; [exact MS|]. pow2. lia.
Qed.
Lemma set_refined_ok t size done index m i p : luts_ok t -> mixer_inv size done index m -> 0 <= i < 32 -> i < size -> member i done = false -> 0 < p < 2 ^ 31 ->
  exists m', set_refined t m i p = Ok m' /\ mixer_inv size (i :: done) index m'.
Proof.
  intros T INV I SZ NM P. unfold set_refined. rewrite (stretch_lean _ p (lk_stretch t T) P). cbn [bind]. pose proof (stretch_range p P).
  destruct (set_input_ok size done index m i p (lean_stretch p) INV I ltac:(pow2; lia)) as (-> & INV'). rewrite NM. replace (i <? size) with true by lia. cbn [andb negb].
  eexists. split; [reflexivity|]. exact (INV' SZ).
Qed.

(** ** The whole *)
(** Whether the map of order [i] takes part. *)
Definition takes (md : mode) (n i : Z) : bool :=
  match md with ModeNone => false | ModeLight => true | ModeAdaptive => i <=? quantize_contexts_count n end.
Definition maps_at (busy : Z -> bool) (f : finalizer) : Prop :=
  map_at (busy 0) 256 (pf_order0 f) /\ map_at (busy 1) 65536 (pf_order1 f) /\ map_at (busy 2) 65536 (pf_order2 f) /\ map_at (busy 3) 65536 (pf_order3 f).
Definition mixers_idle (ms : list mixer) : Prop := zlen ms = 4 /\ forall i m, znth ms i = Some m -> mixer_free (i + 2) 1000 m.
Definition fin_idle (md : mode) (f : finalizer) : Prop :=
  pf_result f = None /\ (md <> ModeNone -> maps_at (fun _ => false) f) /\ mixers_idle (pf_mixers f).
Definition fin_busy (md : mode) (n : Z) (f : finalizer) : Prop :=
  (md <> ModeNone -> maps_at (takes md n) f) /\
  match md with
  | ModeAdaptive => let q := quantize_contexts_count n in zlen (pf_mixers f) = 4 /\
      exists m r index done, pf_result f = Some r /\ znth (pf_mixers f) q = Some m /\ result_ok r /\ mixer_inv (q + 2) done index m /\ all_set (q + 2) done = true /\
        forall j x, znth (pf_mixers f) j = Some x -> j <> q -> mixer_free (j + 2) 1000 x
  | _ => pf_result f = None /\ mixers_idle (pf_mixers f)
  end.
Lemma quantized_count n : 0 <= quantize_contexts_count n <= 3.
Proof. unfold quantize_contexts_count. destruct (n <=? 1), (n =? 2), (n =? 3); lia. Qed.

Lemma finalizer_made md t : luts_ok t -> exists f, finalizer_new md t = Ok f /\ fin_idle md f.
Proof.
  intros T. unfold finalizer_new. cbn [mmap].
  destruct (sized_made 2 100 EqualSummingToOne ltac:(lia) ltac:(lia) ltac:(discriminate)) as (m2 & -> & I2 & _). cbn [bind].
  destruct (sized_made 3 100 EqualSummingToOne ltac:(lia) ltac:(lia) ltac:(discriminate)) as (m3 & -> & I3 & _). cbn [bind].
  destruct (sized_made 4 100 EqualSummingToOne ltac:(lia) ltac:(lia) ltac:(discriminate)) as (m4 & -> & I4 & _). cbn [bind].
  destruct (sized_made 5 100 EqualSummingToOne ltac:(lia) ltac:(lia) ltac:(discriminate)) as (m5 & -> & I5 & _). cbn [bind].
  assert (MI : mixers_idle [m2; m3; m4; m5]).
  { split; [reflexivity|]. intros i m M. pose proof (znth_Some _ _ _ M) as I. change (zlen [m2; m3; m4; m5]) with 4 in I.
    assert (i = 0 \/ i = 1 \/ i = 2 \/ i = 3) as [->|[->|[->| ->]]] by lia; injection M as <-; exists 100; (split; [assumption|lia]). }
  assert (exists small large, (match md with ModeNone => (0, 0) | _ => (256, 256 * 256) end) = (small, large) /\ 0 <= small <= 65536 /\ 0 <= large <= 65536 /\ (md <> ModeNone -> small = 256 /\ large = 65536))
    as (small & large & -> & S & L & MD).
  { destruct md; eexists; eexists; (split; [reflexivity|]); (split; [lia|]); (split; [lia|]); intros; try tauto; auto. }
  destruct (map_made t small T S) as (o0 & -> & M0). cbn [bind]. destruct (map_made t large T L) as (o1 & -> & M1). cbn [bind].
  eexists. split; [reflexivity|]. split; [reflexivity|]. split; [|exact MI]. intros N. destruct (MD N) as (-> & ->). unfold maps_at, map_at.
  cbn [pf_order0 pf_order1 pf_order2 pf_order3]. auto.
Qed.

Lemma final_range x : 0 <= x < 2 ^ 31 -> exists p, to_fix u32 fract_only_u32 final_probability x = Ok p /\ 1 <= p <= 2 ^ 23 - 1.
Proof. intros X. rewrite to_final by exact X. eexists. split; [reflexivity|]. pow2. lia. Qed.

Lemma all_set_seq k : 0 <= k <= 5 -> forall done, (forall i, 0 <= i < k -> member i done = true) -> all_set k done = true.
Proof. intros K done H. unfold all_set. apply forallb_forall. intros i I. apply zseq_In in I. apply H. lia. Qed.

Lemma finalizer_refine_ok md t f p s n lb : luts_ok t -> fin_idle md f -> result_ok (p, s) -> probability_pair (lt_stretch t) (lt_squash t) p s -> hashes_ok lb ->
  exists f' r, finalizer_refine md t f p s n lb = Ok (f', r) /\ fin_busy md n f' /\ 1 <= r <= 2 ^ 23 - 1.
Proof.
  intros T (NR & MI & XI) RO PP HO. pose proof HO as (u & h1 & h2 & h3 & U & H1 & H2 & H3 & UB & B1 & B2 & B3). unfold finalizer_refine. rewrite NR.
  rewrite assert_true by reflexivity. cbn [bind]. pose proof (proj1 RO) as P. cbn [fst] in P. destruct md.
  - destruct (final_range p ltac:(lia)) as (r & -> & R). cbn [bind]. eexists. eexists. split; [reflexivity|]. split; [|exact R]. split; [tauto|]. auto.
  - destruct (MI ltac:(discriminate)) as (M0 & M1 & M2 & M3). cbn [map_at] in M0, M1, M2, M3.
    destruct (phase0_ok t f p s lb T M0 P PP HO) as (o0 & p0 & m & -> & S0 & P0 & M). cbn [bind]. rewrite H1, H2, H3.
    destruct (phase1_ok t _ h1 m T M1 B1 M) as (o1 & p1 & -> & S1 & P1). cbn [bind].
    destruct (phase1_ok t _ h2 m T M2 B2 M) as (o2 & p2 & -> & S2 & P2). cbn [bind].
    destruct (phase1_ok t _ h3 m T M3 B3 M) as (o3 & p3 & -> & S3 & P3). cbn [bind]. pow2.
    rewrite mul_ok by (ib; lia). cbn [bind]. rewrite add_ok by (ib; lia). cbn [bind]. rewrite add_ok by (ib; lia). cbn [bind].
    rewrite scaled_down_u64_at by (change (2 ^ (2 - 1)) with 2; change (2 ^ 64) with 18446744073709551616; lia). cbn [bind]. change (2 ^ (2 - 1)) with 2. change (2 ^ 2) with 4.
    set (x := (p1 + p2 * 2 + p3 + 2) / 4). assert (X : 0 < x < 2147483648) by (unfold x; lia). clearbody x.
    rewrite fract_new by (pow2; lia). cbn [bind]. destruct (final_range x ltac:(pow2; lia)) as (r & -> & R). cbn [bind].
    eexists. eexists. split; [reflexivity|]. split; [|exact R]. split; [|auto]. intros _. unfold maps_at. cbn [takes map_at pf_order0 pf_order1 pf_order2 pf_order3]. auto.
  - destruct (MI ltac:(discriminate)) as (M0 & M1 & M2 & M3). cbn [map_at] in M0, M1, M2, M3. destruct XI as (XL & XF).
    pose proof (quantized_count n) as Q. set (q := quantize_contexts_count n) in *.
    assert (TK : forall i, takes ModeAdaptive n i = (i <=? q)) by reflexivity. assert (QE : quantize_contexts_count n = q) by reflexivity. clearbody q.
    destruct (znth_lt (pf_mixers f) q ltac:(lia)) as (x & X). rewrite (get_ok _ _ _ X). cbn [bind]. destruct (XF _ _ X) as (index & INV & LIM).
    destruct (phase0_ok t f p s lb T M0 P PP HO) as (o0 & p0 & m & -> & S0 & P0 & M). cbn [bind]. rewrite H1, H2, H3.
    destruct (set_input_ok (q + 2) [] index x 0 p s INV ltac:(lia) (proj2 RO)) as (-> & INV0). replace (0 <? q + 2) with true by lia. cbn [andb negb member existsb bind].
    specialize (INV0 ltac:(lia)). set (x0 := lean_set x 0 p s) in *. clearbody x0.
    destruct (set_refined_ok t (q + 2) [0] index x0 1 p0 T INV0 ltac:(lia) ltac:(lia) eq_refl P0) as (x1 & -> & INV1). cbn [bind].
    assert (C1 : exists o1 x2 done, (if 1 <=? q then let* '(o, p) := phase1 t (pf_order1 f) (Ok h1) (m, lean_stretch m) in let* m := set_refined t x1 2 p in Ok (o, m) else Ok (pf_order1 f, x1)) = Ok (o1, x2) /\
      map_at (1 <=? q) 65536 o1 /\ mixer_inv (q + 2) done index x2 /\ done = (if 1 <=? q then [2; 1; 0] else [1; 0])).
    { destruct (Z.leb_spec 1 q); cbn [map_at].
      - destruct (phase1_ok t _ h1 m T M1 B1 M) as (o1 & p1 & -> & S1 & P1). cbn [bind].
        destruct (set_refined_ok t (q + 2) [1; 0] index x1 2 p1 T INV1 ltac:(lia) ltac:(lia) eq_refl P1) as (x2 & -> & INV2). cbn [bind]. exists o1, x2, [2; 1; 0]. auto.
      - exists (pf_order1 f), x1, [1; 0]. auto. }
    destruct C1 as (o1 & x2 & d1 & -> & S1 & INV2 & D1). cbn [bind].
    assert (C2 : exists o2 x3 done, (if 2 <=? q then let* '(o, p) := phase1 t (pf_order2 f) (Ok h2) (m, lean_stretch m) in let* m := set_refined t x2 3 p in Ok (o, m) else Ok (pf_order2 f, x2)) = Ok (o2, x3) /\
      map_at (2 <=? q) 65536 o2 /\ mixer_inv (q + 2) done index x3 /\ done = (if 2 <=? q then 3 :: d1 else d1)).
    { destruct (Z.leb_spec 2 q); cbn [map_at].
      - destruct (phase1_ok t _ h2 m T M2 B2 M) as (o2 & p2 & -> & S2 & P2). cbn [bind].
        destruct (set_refined_ok t (q + 2) d1 index x2 3 p2 T INV2 ltac:(lia) ltac:(lia) ltac:(subst d1; destruct (1 <=? q); reflexivity) P2) as (x3 & -> & INV3). cbn [bind]. exists o2, x3, (3 :: d1). auto.
      - exists (pf_order2 f), x2, d1. auto. }
    destruct C2 as (o2 & x3 & d2 & -> & S2 & INV3 & D2). cbn [bind].
    assert (C3 : exists o3 x4 done, (if 3 <=? q then let* '(o, p) := phase1 t (pf_order3 f) (Ok h3) (m, lean_stretch m) in let* m := set_refined t x3 4 p in Ok (o, m) else Ok (pf_order3 f, x3)) = Ok (o3, x4) /\
      map_at (3 <=? q) 65536 o3 /\ mixer_inv (q + 2) done index x4 /\ done = (if 3 <=? q then 4 :: d2 else d2)).
    { destruct (Z.leb_spec 3 q); cbn [map_at].
      - destruct (phase1_ok t _ h3 m T M3 B3 M) as (o3 & p3 & -> & S3 & P3). cbn [bind].
        destruct (set_refined_ok t (q + 2) d2 index x3 4 p3 T INV3 ltac:(lia) ltac:(lia) ltac:(subst d2 d1; destruct (1 <=? q), (2 <=? q); reflexivity) P3) as (x4 & -> & INV4). cbn [bind]. exists o3, x4, (4 :: d2). auto.
      - exists (pf_order3 f), x3, d2. auto. }
    destruct C3 as (o3 & x4 & d3 & -> & S3 & INV4 & D3). cbn [bind].
    assert (AS : all_set (q + 2) d3 = true).
    { assert (q = 0 \/ q = 1 \/ q = 2 \/ q = 3) as [->|[->|[->| ->]]] by lia; cbn in D1, D2, D3; subst; reflexivity. }
    rewrite (mix_ok _ (q + 2) d3 index x4 (lk_squash t T) INV4), AS. cbn [bind]. rewrite set_ok by lia. cbn [bind].
    pose proof (lean_mix_ok x4) as LO. destruct (final_range (fst (lean_mix x4)) ltac:(destruct LO; lia)) as (r & -> & R). cbn [bind].
    eexists. eexists. split; [reflexivity|]. split; [|exact R]. split.
    + intros _. unfold maps_at. cbn [pf_order0 pf_order1 pf_order2 pf_order3]. rewrite !TK. replace (0 <=? q) with true by lia. cbn [map_at]. auto.
    + cbv zeta. rewrite QE. cbn [pf_mixers pf_result]. rewrite zlen_zupd. split; [exact XL|]. exists x4, (lean_mix x4), index, d3. split; [reflexivity|].
      split; [apply znth_zupd_same; lia|]. split; [exact LO|]. split; [exact INV4|]. split; [exact AS|]. intros j y Y N. rewrite znth_zupd_other in Y by congruence. exact (XF _ _ Y).
Qed.

Lemma finalizer_update_ok md t f x n lb : luts_ok t -> fin_busy md n f -> hashes_ok lb -> exists f', finalizer_update md t f x n lb = Ok f' /\ fin_idle md f'.
Proof.
  intros T (MS & ST) (u & h1 & h2 & h3 & U & H1 & H2 & H3 & UB & B1 & B2 & B3). unfold finalizer_update, learn. rewrite U, H1, H2, H3. cbn [bind]. destruct md.
  - destruct ST as (NR & XI). eexists. split; [reflexivity|]. split; [exact NR|]. split; [tauto|exact XI].
  - destruct ST as (NR & XI). destruct (MS ltac:(discriminate)) as (S0 & S1 & S2 & S3). cbn [takes map_at] in *.
    destruct (map_learn _ 256 u x true S0 ltac:(lia)) as (o0 & -> & I0). cbn [bind]. destruct (map_learn _ 65536 h1 x true S1 B1) as (o1 & -> & I1). cbn [bind].
    destruct (map_learn _ 65536 h2 x true S2 B2) as (o2 & -> & I2). cbn [bind]. destruct (map_learn _ 65536 h3 x true S3 B3) as (o3 & -> & I3). cbn [bind].
    eexists. split; [reflexivity|]. split; [exact NR|]. split; [|exact XI]. intros _. unfold maps_at. cbn [map_at pf_order0 pf_order1 pf_order2 pf_order3]. auto.
  - destruct (MS ltac:(discriminate)) as (S0 & S1 & S2 & S3). cbn [takes] in *. cbv zeta in ST. pose proof (quantized_count n) as Q. set (q := quantize_contexts_count n) in *. clearbody q.
    destruct ST as (XL & m & r & index & done & PR & M & RO & INV & AS & OTH). rewrite PR. rewrite assert_true by reflexivity. cbn [bind].
    replace (0 <=? q) with true in S0 by lia. cbn [map_at] in S0.
    destruct (map_learn _ 256 u x false S0 ltac:(lia)) as (o0 & -> & I0). cbn [bind].
    assert (C : forall i a h, map_at (i <=? q) 65536 a -> 0 <= h < 65536 -> exists o, (if i <=? q then update_predictions a h x 5 false else Ok a) = Ok o /\ map_idle 65536 o).
    { intros i a h A H. destruct (i <=? q); [exact (map_learn a 65536 h x false A H)|eauto]. }
    destruct (C 1 _ h1 S1 B1) as (o1 & -> & I1). cbn [bind]. destruct (C 2 _ h2 S2 B2) as (o2 & -> & I2). cbn [bind]. destruct (C 3 _ h3 S3 B3) as (o3 & -> & I3). cbn [bind].
    rewrite (get_ok _ _ _ M). cbn [bind of_opt]. assert (IR : 0 <= index <= 1000) by exact (proj1 (proj2 (proj2 (proj2 (proj2 INV))))).
    destruct (rates_at (lt_rates t) index (lk_rates t T) IR) as (rate & RT & RB).
    destruct (MixerProofs.update_ok (lt_rates t) rate (q + 2) done index m x (fst r) 1000 INV RT RB (proj1 RO) ltac:(pow2; lia)) as (E & INV').
    rewrite AS in E. replace (index <=? 1000) with true in E by lia. replace (1000 <=? 1000) with true in E by lia. cbn [andb] in E. rewrite E. cbn [bind].
    rewrite set_ok by lia. cbn [bind]. eexists. split; [reflexivity|]. split; [reflexivity|]. split.
    + intros _. unfold maps_at. cbn [map_at pf_order0 pf_order1 pf_order2 pf_order3]. auto.
    + cbn [pf_mixers]. split; [now rewrite zlen_zupd|]. intros j y Y. destruct (Z.eq_dec j q) as [->|N].
      * rewrite znth_zupd_same in Y by lia. injection Y as <-. exists (Z.min 1000 (index + 1)). split; [apply INV'; lia|lia].
      * rewrite znth_zupd_other in Y by congruence. exact (OTH _ _ Y N).
Qed.
