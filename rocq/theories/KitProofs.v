(** Each slot of a kit learns from its own bits only. *)
From Coq Require Import ZifyBool.
From Verif Require Import Base BaseFacts FixedModel UtilModel UtilSpec UtilProofs StateModel EstModel EstProofs LogModel LutModel LutTable LutProofs LutRound
  ApmModel ApmProofs StatesModel StatesProofs MixerModel TreeModel PredModel PredTree PredKits KitSpec.
Ltac Zify.zify_post_hook ::= Z.div_mod_to_equations.

Lemma same_key_eq a b : same_key a b = true <-> a = b.
Proof. unfold same_key. destruct (list_eq_dec Z.eq_dec a b); split; congruence. Qed.
Lemma own_snoc {B} key (h : list (list Z * B)) k b : own key (h ++ [(k, b)]) = if same_key k key then own key h ++ [b] else own key h.
Proof. unfold own. rewrite filter_app. cbn [filter fst]. rewrite map_app. destruct (same_key k key); cbn [map snd]; [reflexivity|apply app_nil_r]. Qed.
Lemma firstn_app_l {A} (l r : list A) i : (i <= length l)%nat -> firstn i (l ++ r) = firstn i l.
Proof. intros H. rewrite firstn_app. replace (i - length l)%nat with 0%nat by lia. cbn [firstn]. apply app_nil_r. Qed.
Lemma private_snoc t h e b e' : private_estimator t h = Ok e -> de_update (lt_rates t) e b = Ok e' -> private_estimator t (h ++ [b]) = Ok e'.
Proof.
  unfold private_estimator. intros P U. apply bind_ok in P. destruct P as (e0 & -> & P). cbn [bind]. rewrite mfold_app, P. cbn [bind mfold]. rewrite U. reflexivity.
Qed.

Definition est_slots (t : luts) (dims : list Z) (h : list (list Z * bit)) (k : est_kit) : Prop :=
  forall key, valid_tuple dims key -> exists e, private_estimator t (own key h) = Ok e /\ znth (ek_estimators k) (rank dims key) = Some e.
Lemma est_round_step t dims k ps h key b : luts_ok t -> dims_ok dims -> est_idle dims k -> est_slots t dims h k -> valid_tuple dims key ->
  exists k' e p s, est_round t (k, ps) (key, b) = Ok (k', ps ++ [(p, s)]) /\ est_idle dims k' /\ est_slots t dims (h ++ [(key, b)]) k' /\
    private_estimator t (own key h) = Ok e /\ de_prediction e = Ok p /\ stretch (lt_stretch t) p = Ok s.
Proof.
  intros T D I SL V. pose proof I as ((EV & EL & IR) & NI). destruct (est_predict_ok t dims k key T D I V) as (k1 & r & P & BU & _).
  destruct (est_update_ok t dims k1 b T BU) as (k2 & U & I2). exists k2. destruct (SL key V) as (e & PE & Z1). exists e.
  unfold est_kit_predict in P. rewrite NI in P. rewrite assert_true in P by reflexivity. cbn [bind] in P.
  assert (LD : length key = length dims) by (symmetry; exact (Forall2_length _ _ _ V)).
  destruct (sub_indices dims (proj2 (proj2 D)) key [] (ek_indexer k) IR ltac:(cbn [app]; rewrite LD, firstn_all; exact V)) as (ix1 & X1 & R1). cbn [app] in R1.
  unfold est_round. cbn [fst snd]. unfold est_kit_predict. rewrite NI. rewrite assert_true by reflexivity. cbn [bind]. rewrite X1 in P |- *. cbn [bind] in P |- *.
  destruct (read_index dims key ix1 D R1 V) as (ix2 & X2 & R2 & RB). rewrite X2 in P |- *. cbn [bind] in P |- *. rewrite (get_ok _ _ _ Z1) in P |- *. cbn [bind] in P |- *.
  apply bind_ok in P. destruct P as (p & DP & P). apply bind_ok in P. destruct P as (s & ST & P). injection P as <- <-. exists p, s. rewrite DP. cbn [bind]. rewrite ST. cbn [bind fst snd].
  rewrite U. cbn [bind]. split; [reflexivity|]. split; [exact I2|]. split; [|auto].
  unfold est_kit_update in U. cbn [ek_index ek_estimators of_opt bind] in U. rewrite (get_ok _ _ _ Z1) in U. cbn [bind] in U. apply bind_ok in U. destruct U as (e' & DU & U).
  apply bind_ok in U. destruct U as (es & SE & U). injection U as <-. apply set_inv in SE. destruct SE as (SB & ->).
  intros key' V'. cbn [ek_estimators]. rewrite own_snoc. destruct (same_key key key') eqn:K.
  - apply same_key_eq in K. subst key'. exists e'. split; [exact (private_snoc t _ e b e' PE DU)|]. apply znth_zupd_same. exact SB.
  - destruct (SL key' V') as (e2 & P2 & Z2). exists e2. split; [exact P2|]. rewrite znth_zupd_other; [exact Z2|]. intros EQ.
    pose proof (rank_inj dims key key' V V' EQ) as KK. apply same_key_eq in KK. congruence.
Qed.
Lemma est_kit_fresh t dims ix k : dims_ok dims -> ix_rel dims [] ix -> est_kit_new ix = Ok k -> est_idle dims k /\ est_slots t dims [] k.
Proof.
  intros D R E. split; [destruct (est_kit_made dims ix D R) as (k' & E' & I); assert (k' = k) by congruence; subst k'; exact I|].
  unfold est_kit_new in E. apply bind_ok in E. destruct E as (e & DN & E). rewrite (read_size dims ix D R) in E. cbn [bind] in E. injection E as <-.
  intros key V. exists e. split; [unfold private_estimator; rewrite DN; reflexivity|]. cbn [ek_estimators]. pose proof (rank_bound _ _ V) as B.
  destruct (znth_lt (repeat e (Z.to_nat (product dims))) (rank dims key) ltac:(rewrite zlen_repeat; lia)) as (x & X). rewrite X. f_equal. apply znth_In in X. now apply repeat_spec in X.
Qed.
Lemma est_run t dims ix k0 : luts_ok t -> dims_ok dims -> ix_rel dims [] ix -> est_kit_new ix = Ok k0 ->
  forall h, Forall (fun x => valid_tuple dims (fst x)) h -> exists k ps, mfold (est_round t) h (k0, []) = Ok (k, ps) /\ est_idle dims k /\ est_slots t dims h k /\ est_story t h ps.
Proof.
  intros T D R E. destruct (est_kit_fresh t dims ix k0 D R E) as (I0 & S0). intros h. induction h as [|(key & b) h IH] using rev_ind; intros F.
  - exists k0, []. split; [reflexivity|]. split; [exact I0|]. split; [exact S0|]. split; [reflexivity|]. intros [|i] key b H; discriminate.
  - apply Forall_app in F. destruct F as (F & F1). inversion F1 as [|? ? V _]; subst. cbn [fst] in V. destruct (IH F) as (k & ps & M & I & SL & (LN & ST)).
    destruct (est_round_step t dims k ps h key b T D I SL V) as (k' & e & p & s & Q & I' & SL' & PE & DP & DS). exists k', (ps ++ [(p, s)]).
    rewrite mfold_app, M. cbn [bind mfold]. rewrite Q. cbn [bind]. split; [reflexivity|]. split; [exact I'|]. split; [exact SL'|]. split; [rewrite !app_length; cbn; lia|].
    intros i key' b' N. destruct (Nat.lt_ge_cases i (length h)) as [Hl|Hg].
    + rewrite nth_error_app1 in N by exact Hl. destruct (ST i key' b' N) as (e1 & p1 & s1 & A1 & A2 & A3 & A4). exists e1, p1, s1. rewrite firstn_app_l by lia. rewrite nth_error_app1 by lia. auto.
    + rewrite nth_error_app2 in N by exact Hg. destruct (i - length h)%nat as [|j] eqn:J; [|destruct j; discriminate]. injection N as <- <-. assert (i = length h) by lia. subst i.
      exists e, p, s. rewrite firstn_app_l, firstn_all by lia. rewrite nth_error_app2 by lia. rewrite LN, Nat.sub_diag. auto.
Qed.

(** ** Mixers *)
Lemma private_mixer_snoc t maker h x m m' r m2 : private_mixer t maker h = Ok m -> private_mix t (ml_inputs x) m = Ok (m', r) ->
  update_and_reset (lt_rates t) m' (ml_bit x) (fst r) (ml_limit x) = Ok m2 -> private_mixer t maker (h ++ [x]) = Ok m2.
Proof.
  unfold private_mixer. intros P X U. apply bind_ok in P. destruct P as (m0 & -> & P). cbn [bind]. rewrite mfold_app, P. cbn [bind mfold]. unfold private_lesson. rewrite X. cbn [bind fst snd]. rewrite U. reflexivity.
Qed.
Definition mix_slots (t : luts) (maker : res mixer) (dims : list Z) (h : list (list Z * mix_lesson)) (k : mixer_kit) : Prop :=
  ix_rel dims [] (mk_indexer k) /\ mk_index k = None /\ mk_result k = None /\
  forall key, valid_tuple dims key -> exists m, private_mixer t maker (own key h) = Ok m /\ znth (mk_mixers k) (rank dims key) = Some m.
Lemma mixer_round_step t maker dims k rs h pre setup x k' rs' : dims_ok dims -> mix_slots t maker dims h k -> valid_tuple dims (pre ++ setup) ->
  mixer_round t (k, rs) ((pre, setup), x) = Ok (k', rs') ->
  exists m m' r, rs' = rs ++ [r] /\ mix_slots t maker dims (h ++ [(pre ++ setup, x)]) k' /\ private_mixer t maker (own (pre ++ setup) h) = Ok m /\ private_mix t (ml_inputs x) m = Ok (m', r).
Proof.
  intros D (IR & NI & NR & SL) V E. destruct (SL _ V) as (m & PM & Z1). unfold mixer_round in E. cbn [fst snd] in E.
  apply bind_ok in E. destruct E as (k1 & P1 & E). apply bind_ok in E. destruct E as ((k2 & r) & P2 & E). apply bind_ok in E. destruct E as ((k3 & r3) & P3 & E). cbn [fst snd] in *. injection E as <- <-.
  unfold mixer_kit_pre_predict in P1. rewrite NI, NR in P1. rewrite !assert_true in P1 by reflexivity. cbn [bind] in P1.
  assert (LD : length (pre ++ setup) = length dims) by (symmetry; exact (Forall2_length _ _ _ V)).
  assert (VF : valid_tuple (firstn (length (pre ++ setup)) dims) (pre ++ setup)) by (rewrite LD, firstn_all; exact V).
  destruct (sub_indices dims (proj2 (proj2 D)) pre [] (mk_indexer k) IR (valid_prefix _ _ _ VF)) as (ix1 & X1 & R1). cbn [app] in R1. rewrite X1 in P1. cbn [bind] in P1. injection P1 as <-.
  unfold mixer_kit_predict in P2. cbn [mk_result mk_index mk_indexer mk_mixers] in P2. rewrite !assert_true in P2 by reflexivity. cbn [bind] in P2.
  destruct (sub_indices dims (proj2 (proj2 D)) setup pre ix1 R1 VF) as (ix2 & X2 & R2). rewrite X2 in P2. cbn [bind] in P2.
  destruct (read_index dims (pre ++ setup) ix2 D R2 V) as (ix3 & X3 & R3 & RB). rewrite X3 in P2. cbn [bind] in P2. rewrite (get_ok _ _ _ Z1) in P2. cbn [bind] in P2.
  apply bind_ok in P2. destruct P2 as (m' & MI & P2). apply bind_ok in P2. destruct P2 as (r' & MX & P2). apply bind_ok in P2. destruct P2 as (ms & SE & P2). injection P2 as <- <-.
  apply set_inv in SE. destruct SE as (SB & ->).
  unfold mixer_kit_update in P3. cbn [mk_result mk_index mk_indexer mk_mixers of_opt bind] in P3. rewrite (get_ok _ _ _ (znth_zupd_same _ _ m' SB)) in P3. cbn [bind] in P3.
  apply bind_ok in P3. destruct P3 as (m2 & UR & P3). apply bind_ok in P3. destruct P3 as (ms2 & SE & P3). injection P3 as <- <-. apply set_inv in SE. destruct SE as (SB2 & ->).
  assert (PX : private_mix t (ml_inputs x) m = Ok (m', r')) by (unfold private_mix; rewrite MI; cbn [bind]; rewrite MX; reflexivity).
  exists m, m', r'. split; [reflexivity|]. split; [|auto]. split; [exact R3|]. cbn [mk_index mk_result mk_mixers]. split; [reflexivity|]. split; [reflexivity|].
  intros key V'. rewrite own_snoc. destruct (same_key (pre ++ setup) key) eqn:K.
  - apply same_key_eq in K. subst key. exists m2. split; [exact (private_mixer_snoc t maker _ x m m' r' m2 PM PX UR)|]. apply znth_zupd_same. exact SB2.
  - destruct (SL key V') as (e2 & P2 & Z2). exists e2. split; [exact P2|]. assert (NE : rank dims (pre ++ setup) <> rank dims key).
    { intros EQ. pose proof (rank_inj dims _ key V V' EQ) as KK. apply same_key_eq in KK. congruence. }
    rewrite !znth_zupd_other by exact NE. exact Z2.
Qed.
Lemma mmap_same {A B} (f : A -> res B) l r i y : mmap f l = Ok r -> znth r i = Some y -> exists x, In x l /\ f x = Ok y.
Proof.
  revert r i. induction l as [|x l IH]; intros r i E H; cbn [mmap] in E; [injection E as <-; discriminate|]. apply bind_ok in E. destruct E as (z & F & E). apply bind_ok in E. destruct E as (zs & M & E). injection E as <-.
  cbn [znth] in H. destruct (i =? 0); [injection H as <-; exists x; split; [now left|exact F]|]. destruct (IH _ _ M H) as (x' & I & F'). exists x'. split; [now right|exact F'].
Qed.
Lemma mmap_zlen {A B} (f : A -> res B) l r : mmap f l = Ok r -> zlen r = zlen l.
Proof.
  revert r. induction l as [|x l IH]; intros r E; cbn [mmap] in E; [injection E as <-; reflexivity|]. apply bind_ok in E. destruct E as (z & F & E). apply bind_ok in E. destruct E as (zs & M & E). injection E as <-.
  rewrite !zlen_cons. f_equal. exact (IH _ M).
Qed.
Lemma mixer_kit_fresh t maker dims ix k : dims_ok dims -> ix_rel dims [] ix -> mixer_kit_new maker ix = Ok k -> mix_slots t maker dims [] k.
Proof.
  intros D R E. unfold mixer_kit_new in E. rewrite (read_size dims ix D R) in E. cbn [bind] in E. apply bind_ok in E. destruct E as (ms & M & E). injection E as <-.
  split; [exact R|]. split; [reflexivity|]. split; [reflexivity|]. intros key V. cbn [mk_mixers]. pose proof (rank_bound _ _ V) as B.
  destruct (znth_lt ms (rank dims key) ltac:(rewrite (mmap_zlen _ _ _ M); rewrite zlen_zseq; lia)) as (x & X). exists x. split; [|exact X].
  destruct (mmap_same _ _ _ _ _ M X) as (y & _ & F). unfold private_mixer. cbv beta in F. rewrite F. reflexivity.
Qed.
Lemma joined_snoc h pre setup x : joined (h ++ [((pre, setup), x)]) = joined h ++ [(pre ++ setup, x)].
Proof. unfold joined. rewrite map_app. reflexivity. Qed.
Lemma joined_length h : length (joined h) = length h. Proof. apply map_length. Qed.
Lemma mix_run t maker dims ix k0 : dims_ok dims -> ix_rel dims [] ix -> mixer_kit_new maker ix = Ok k0 ->
  forall h k rs, Forall (fun x => valid_tuple dims (fst (fst x) ++ snd (fst x))) h -> mfold (mixer_round t) h (k0, []) = Ok (k, rs) ->
  mix_slots t maker dims (joined h) k /\ mix_story t maker h rs.
Proof.
  intros D R E h. induction h as [|((pre & setup) & x) h IH] using rev_ind; intros k rs F M.
  - cbn [mfold] in M. injection M as <- <-. split; [exact (mixer_kit_fresh t maker dims ix k0 D R E)|]. split; [reflexivity|]. intros [|i] pre setup x H; discriminate.
  - apply Forall_app in F. destruct F as (F & F1). inversion F1 as [|? ? V _]; subst. cbn [fst snd] in V. rewrite mfold_app in M. apply bind_ok in M. destruct M as ((k1 & rs1) & M1 & M). cbn [mfold] in M.
    apply bind_ok in M. destruct M as ((k2 & rs2) & M2 & M). injection M as <- <-. destruct (IH k1 rs1 F M1) as (SL & (LN & ST)).
    destruct (mixer_round_step t maker dims k1 rs1 (joined h) pre setup x k2 rs2 D SL V M2) as (m & m' & r & -> & SL' & PM & PX). rewrite joined_snoc. split; [exact SL'|].
    split; [rewrite !app_length; cbn; lia|]. intros i pre' setup' x' N. pose proof (joined_length h) as JL. destruct (Nat.lt_ge_cases i (length h)) as [Hl|Hg].
    + rewrite nth_error_app1 in N by exact Hl. destruct (ST i pre' setup' x' N) as (e1 & p1 & s1 & A1 & A2 & A3). exists e1, p1, s1. rewrite joined_snoc, firstn_app_l by lia. rewrite nth_error_app1 by lia. auto.
    + rewrite nth_error_app2 in N by exact Hg. destruct (i - length h)%nat as [|j] eqn:J; [|destruct j; discriminate]. injection N as <- <- <-. assert (i = length h) by lia. subst i.
      exists m, m', r. rewrite joined_snoc, firstn_app_l by lia. rewrite <- JL, firstn_all. rewrite nth_error_app2 by lia. rewrite LN, JL, Nat.sub_diag. auto.
Qed.

Lemma kit_dims dims : Forall (fun d => 1 <= d) dims -> product dims < 2 ^ 64 -> zlen dims < 2 ^ 63 -> dims_ok dims.
Proof. intros F P L. split; [exact F|]. split; [|exact L]. change (imax usize) with (2 ^ 64 - 1). lia. Qed.
Lemma estimators_apart t dims ix k h : luts_new = Ok t -> Forall (fun d => 1 <= d) dims -> product dims < 2 ^ 64 -> zlen dims < 2 ^ 63 -> ix_new (length dims) dims = Ok ix -> est_kit_new ix = Ok k ->
  Forall (fun x => valid_tuple dims (fst x)) h -> exists k' ps, mfold (est_round t) h (k, []) = Ok (k', ps) /\ est_story t h ps.
Proof.
  intros L F P ZL X K V. pose proof (luts_ok_of t L) as T. clear L. destruct (ix_new_rel dims (length dims) eq_refl) as (ix' & X' & R). assert (ix' = ix) by congruence. subst ix'.
  destruct (est_run t dims ix k T (kit_dims dims F P ZL) R K h V) as (k' & ps & M & _ & _ & S). exists k', ps. auto.
Qed.
Lemma mixers_apart t maker dims ix k h k' rs : Forall (fun d => 1 <= d) dims -> product dims < 2 ^ 64 -> zlen dims < 2 ^ 63 -> ix_new (length dims) dims = Ok ix -> mixer_kit_new maker ix = Ok k ->
  Forall (fun x => valid_tuple dims (fst (fst x) ++ snd (fst x))) h -> mfold (mixer_round t) h (k, []) = Ok (k', rs) -> mix_story t maker h rs.
Proof.
  intros F P ZL X K V M. destruct (ix_new_rel dims (length dims) eq_refl) as (ix' & X' & R). assert (ix' = ix) by congruence. subst ix'.
  exact (proj2 (mix_run t maker dims ix k (kit_dims dims F P ZL) R K h k' rs V M)).
Qed.
