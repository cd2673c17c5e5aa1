(** Kits and chains in use. *)
From Verif Require Import Base BaseFacts UtilModel UtilSpec UtilProofs StateModel EstModel LutModel LutRound MixerModel MixerSpec MixerProofs StatesModel StatesProofs TreeModel PredModel PredKits PredChain PredFacts KitSpec KitProofs.

Lemma small_dims : dims_ok [2; 3]. Proof. apply dims_small; [reflexivity|vm_compute; discriminate|reflexivity]. Qed.
Lemma slots_used : exists t ix k k' predictions, luts_new = Ok t /\ ix_new 2 [2; 3] = Ok ix /\ est_kit_new ix = Ok k /\
  mfold (est_round t) [([1; 2], Zero); ([0; 1], One); ([1; 2], One)] (k, []) = Ok (k', predictions) /\ exists e p s, private_estimator t [Zero] = Ok e /\ de_prediction e = Ok p /\ nth_error predictions 2 = Some (p, s).
Proof.
  destruct tables_built as (t & L). exists t. destruct (ix_new_rel [2; 3] 2 eq_refl) as (ix & X & R). exists ix. destruct (est_kit_made [2; 3] ix small_dims R) as (k & K & _). exists k.
  destruct (estimators_apart t [2; 3] ix k [([1; 2], Zero); ([0; 1], One); ([1; 2], One)] L) as (k' & ps & M & LN & S).
  - repeat constructor; discriminate.
  - reflexivity.
  - reflexivity.
  - exact X.
  - exact K.
  - repeat constructor; cbn; try discriminate; reflexivity.
  - exists k', ps. split; [exact L|]. split; [exact X|]. split; [exact K|]. split; [exact M|]. destruct (S 2%nat [1; 2] One eq_refl) as (e & p & s & P & D & _ & N). exists e, p, s. split; [exact P|]. split; [exact D|exact N].
Qed.
Lemma mixer_used : exists t ix k k' r1 r2, luts_new = Ok t /\ ix_new 2 [2; 3] = Ok ix /\ mixer_kit_new (fixed_mixer_new 1 10 DominantFirst) ix = Ok k /\
  mfold (mixer_round t) [(([1], [2]), mkLesson [(0, (2 ^ 30, 0))] Zero 300); (([1; 2], []), mkLesson [(0, (2 ^ 30, 0))] One 300)] (k, []) = Ok (k', [r1; r2]).
Proof.
  destruct tables_built as (t & L). pose proof (luts_ok_of t L) as T. exists t. destruct (ix_new_rel [2; 3] 2 eq_refl) as (ix & X & R). exists ix.
  destruct (fixed_made 1 10 DominantFirst ltac:(clear L; lia) ltac:(clear L; lia)) as (m & MK & V & _).
  destruct (mixer_kit_made [2; 3] 1 300 (fixed_mixer_new 1 10 DominantFirst) m ix small_dims R MK ltac:(exists 10; split; [exact V|clear L; lia])) as (k & K & I). exists k.
  assert (ST : forall k rs pre setup b, mix_idle [2; 3] 1 300 k -> valid_tuple (firstn (length pre) [2; 3]) pre -> valid_tuple [2; 3] (pre ++ setup) ->
    exists k' r, mixer_round t (k, rs) ((pre, setup), mkLesson [(0, (2 ^ 30, 0))] b 300) = Ok (k', rs ++ [r]) /\ mix_idle [2; 3] 1 300 k').
  { clear L. intros k0 rs pre setup b I0 V1 V2. destruct (pre_predict_ok [2; 3] 1 300 k0 pre small_dims I0 V1) as (k1 & E1 & R1).
    destruct (mix_predict_ok t [2; 3] 1 300 pre k1 setup [(0, (2 ^ 30, 0))] T small_dims ltac:(lia) R1 V2 eq_refl eq_refl) as (k2 & r & E2 & B2 & _).
    { constructor; [|constructor]. unfold result_ok. cbn [fst snd]. lia. }
    destruct (mix_update_ok t [2; 3] 1 300 _ k2 b T ltac:(lia) B2) as (k3 & r3 & E3 & I3). exists k3, r. split; [|exact I3].
    unfold mixer_round. cbn [fst snd ml_inputs ml_bit ml_limit]. rewrite E1. cbn [bind]. rewrite E2. cbn [bind fst snd]. rewrite E3. reflexivity. }
  assert (V2 : valid_tuple [2; 3] [1; 2]) by (repeat constructor; cbn; try discriminate; reflexivity).
  destruct (ST k [] [1] [2] Zero I ltac:(repeat constructor; cbn; try discriminate; reflexivity) V2) as (k1 & r1 & E1 & I1). destruct (ST k1 ([] ++ [r1]) [1; 2] [] One I1 V2 V2) as (k2 & r2 & E2 & _).
  exists k2, r1, r2. split; [exact L|]. split; [exact X|]. split; [exact K|]. cbn [mfold]. rewrite E1. cbn [bind]. rewrite E2. reflexivity.
Qed.
Lemma edges_first cs : forallb (fun s => negb (is_for_node s)) cs = true -> nodes_first cs.
Proof. intros F i s s' _ S N. apply znth_In in S. rewrite forallb_forall in F. specialize (F s' S). rewrite N in F. discriminate. Qed.
Lemma rounds_made : exists t kits kits' results, luts_new = Ok t /\ chain_new t 1 = Ok kits /\
  mfold (chain_round t) [([ForEdge 1 3 Zero; ForEdge 1 2 Zero], 97, One); ([ForEdge 7 1 One], 3, Zero)] (kits, []) = Ok (kits', results).
Proof.
  destruct tables_built as (t & L). pose proof (luts_ok_of t L) as T. exists t. destruct (chain_made t 1 T ltac:(clear L; lia)) as (kits & E & I). exists kits.
  assert (ST : forall k rs cs byte b, chain_idle 1 k -> zlen cs <= 1 + 1 -> Forall state_ok cs -> forallb (fun s => negb (is_for_node s)) cs = true -> 0 <= byte < 256 ->
    exists k' rs', chain_round t (k, rs) (cs, byte, b) = Ok (k', rs') /\ chain_idle 1 k').
  { clear L. intros k rs cs byte b I0 Z S F B. destruct (chain_predict_ok t 1 k cs byte T I0 Z S (edges_first cs F) B ltac:(lia)) as (k1 & r & P & CP & _).
    destruct (chain_update_ok t 1 k1 cs b T CP Z S) as (k2 & trs & U & I2 & _). exists k2. eexists. split; [|exact I2]. unfold chain_round. cbn [fst snd]. rewrite P. cbn [bind fst snd]. rewrite U. reflexivity. }
  destruct (ST kits [] [ForEdge 1 3 Zero; ForEdge 1 2 Zero] 97 One I) as (k1 & o1 & E1 & I1); [cbn; discriminate|repeat constructor; cbn; discriminate|reflexivity|split; [discriminate|reflexivity]|].
  destruct (ST k1 o1 [ForEdge 7 1 One] 3 Zero I1) as (k2 & o2 & E2 & _); [cbn; discriminate|repeat constructor; cbn; discriminate|reflexivity|split; [discriminate|reflexivity]|].
  exists k2, o2. split; [exact L|]. split; [exact E|]. cbn [mfold]. rewrite E1. cbn [bind]. rewrite E2. reflexivity.
Qed.

(** ** Lessons that a kit of mixers accepts *)
Lemma fresh_of size inputs : forall done, NoDup (map fst inputs) -> (forall i, In i (map fst inputs) -> 0 <= i < size /\ ~ In i done) ->
  fresh size done inputs = true.
Proof.
  induction inputs as [|(i & v) l IH]; intros done N H; [reflexivity|]. cbn [fresh map fst] in *. inversion N as [|? ? NI N']; subst.
  destruct (H i (or_introl eq_refl)) as (B & ND). assert (M : member i done = false).
  { destruct (member i done) eqn:M; [|reflexivity]. apply member_In in M. contradiction. }
  rewrite M. replace (0 <=? i) with true by lia. replace (i <? size) with true by lia. cbn [andb negb]. apply IH; [exact N'|].
  intros j J. destruct (H j (or_intror J)) as (BJ & NJ). split; [exact BJ|]. intros [->|K]; contradiction.
Qed.
Lemma fair_round t dims size limit k rs pre setup x : luts_ok t -> dims_ok dims -> 0 <= size <= 30 -> 0 <= limit <= 1000 -> mix_idle dims size limit k ->
  valid_tuple dims (pre ++ setup) -> fair_lesson size limit x -> exists k' r, mixer_round t (k, rs) ((pre, setup), x) = Ok (k', rs ++ [r]) /\ mix_idle dims size limit k'.
Proof.
  intros T D SZ LI I V (N & IN & LX & F). unfold mixer_round. cbn [fst snd].
  assert (VP : valid_tuple (firstn (length pre) dims) pre).
  { apply valid_prefix with (1 := ltac:(rewrite <- (Forall2_length _ _ _ V), firstn_all; exact V)
                              : valid_tuple (firstn (length (pre ++ setup)) dims) (pre ++ setup)). }
  destruct (pre_predict_ok dims size limit k pre D I VP) as (k1 & -> & R1). cbn [bind].
  destruct (mix_predict_ok t dims size limit pre k1 setup (ml_inputs x) T D SZ R1 V) as (k2 & r & -> & B2 & _); [| | |cbn [bind fst snd]].
  - apply fresh_of; [exact N|]. intros i Hi. apply IN in Hi. split; [exact Hi|intros []].
  - unfold all_set. apply forallb_forall. intros i Hi. apply in_zseq in Hi. apply member_In. rewrite map_rev. apply in_rev. rewrite rev_involutive. apply IN. lia.
  - exact F.
  - destruct (mix_update_ok t dims size limit _ k2 (ml_bit x) T LI B2) as (k3 & r3 & E3 & I3). rewrite LX, E3. exists k3, r. auto.
Qed.
Lemma fair_rounds t dims size limit h : luts_ok t -> dims_ok dims -> 0 <= size <= 30 -> 0 <= limit <= 1000 ->
  Forall (fun x => valid_tuple dims (fst (fst x) ++ snd (fst x))) h -> Forall (fun x => fair_lesson size limit (snd x)) h ->
  forall k rs, mix_idle dims size limit k -> exists k' rs', mfold (mixer_round t) h (k, rs) = Ok (k', rs').
Proof.
  intros T D SZ LI. induction h as [|((pre & setup) & x) h IH]; intros V F k rs I; [eexists; eexists; reflexivity|].
  inversion V; inversion F; subst. cbn [fst snd] in *.
  destruct (fair_round t dims size limit k rs pre setup x T D SZ LI I) as (k1 & r & E & I1); try assumption. cbn [mfold]. rewrite E. cbn [bind]. apply IH; assumption.
Qed.
Lemma mixers_served t maker m size index mode limit dims ix h : luts_new = Ok t -> maker = Ok m -> makes size index mode m -> index <= limit <= 1000 ->
  Forall (fun d => 1 <= d) dims -> product dims < 2 ^ 64 -> zlen dims < 2 ^ 63 -> ix_new (length dims) dims = Ok ix ->
  Forall (fun x => valid_tuple dims (fst (fst x) ++ snd (fst x))) h -> Forall (fun x => fair_lesson size limit (snd x)) h ->
  exists k k' rs, mixer_kit_new maker ix = Ok k /\ mfold (mixer_round t) h (k, []) = Ok (k', rs) /\ mix_story t maker h rs.
Proof.
  intros L MK M LI F P ZL X V FL. pose proof (luts_ok_of t L) as T. clear L.
  destruct (makes_inv _ _ _ _ M) as (INV & _). pose proof (kit_dims dims F P ZL) as D.
  assert (SI : 0 <= size <= 30 /\ 0 <= index) by (destruct M as [M|M]; lia).
  destruct (ix_new_rel dims (length dims) eq_refl) as (ix' & X' & R). assert (ix' = ix) by congruence. subst ix'.
  destruct (mixer_kit_made dims size limit maker m ix D R MK ltac:(exists index; split; [exact INV|lia])) as (k & K & I).
  destruct (fair_rounds t dims size limit h T D (proj1 SI) ltac:(lia) V FL k [] I) as (k' & rs & E). exists k, k', rs. split; [exact K|]. split; [exact E|].
  exact (mixers_apart t maker dims ix k h k' rs F P ZL X K V E).
Qed.
