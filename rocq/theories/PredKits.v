(** Indexers, estimator kits and mixer kits: what they look like between a prediction and its update. *)
From Coq Require Import ZifyBool.
From Verif Require Import Base BaseFacts FixedModel UtilModel UtilSpec UtilProofs StateModel EstModel EstProofs LogModel LogProofs LutModel LutTable LutProofs LutRound
  ApmModel ApmProofs StatesModel StatesSpec StatesProofs MixerModel MixerSpec MixerProofs TreeModel PredModel.
Ltac Zify.zify_post_hook ::= Z.div_mod_to_equations.

(** ** Indexers *)
Lemma sub_index dims given ix v : ix_rel dims given ix -> zlen dims < 2 ^ 63 -> valid_tuple (firstn (length (given ++ [v])) dims) (given ++ [v]) ->
  exists ix', ix_with_sub_index ix v = Ok ix' /\ ix_rel dims (given ++ [v]) ix'.
Proof.
  intros (V & C & rest & L & D) Hl VT. unfold ix_with_sub_index.
  assert (Lix : zlen (ix_dims ix) = zlen dims). { rewrite D. unfold zlen. rewrite combine_length. lia. }
  pose proof (Forall2_length _ _ _ VT) as LT. rewrite firstn_length, app_length in LT. cbn [length] in LT.
  assert (Lt : zlen given < zlen dims) by (unfold zlen; lia). pose proof (zlen_nonneg given) as Gn.
  rewrite Lix, C. rewrite assert_true by lia. cbn [bind].
  destruct rest as [|w rest]; [rewrite app_nil_r in L; unfold zlen in *; lia|].
  destruct (znth_lt dims (zlen given) ltac:(lia)) as [x Ex].
  assert (Ev : znth (given ++ w :: rest) (zlen given) = Some w) by (rewrite znth_app2 by lia; now rewrite Z.sub_diag).
  rewrite D. rewrite (get_ok _ _ _ (znth_combine _ _ _ _ _ Ex Ev)). cbn [bind fst].
  assert (F : firstn (length (given ++ [v])) dims = firstn (length given) dims ++ [x]).
  { rewrite app_length. cbn [length]. replace (length given + 1)%nat with (S (length given)) by lia. apply firstn_snoc. exact Ex. }
  pose proof VT as VT'. rewrite F in VT'. unfold valid_tuple in VT'. apply Forall2_snoc in VT' as (_ & VX).
  rewrite assert_true by lia. cbn [bind]. rewrite set_ok by (rewrite <- D, Lix; lia). cbn [bind].
  rewrite add_ok by (ib; pow2; lia). cbn [bind]. rewrite combine_upd by assumption. eexists. split; [reflexivity|].
  split; [exact VT|]. split; [cbn [ix_cur]; rewrite zlen_app; cbn; lia|].
  exists rest. rewrite <- app_assoc. cbn [app ix_dims]. split; [|reflexivity]. rewrite app_length in *. cbn [length] in *. lia.
Qed.
Lemma firstn_Forall2 {A B} (P : A -> B -> Prop) l r n : Forall2 P l r -> Forall2 P (firstn n l) (firstn n r).
Proof. intros H. revert n. induction H as [|x y l r R H IH]; intros [|n]; cbn; constructor; auto. Qed.
Lemma valid_prefix dims given more : valid_tuple (firstn (length (given ++ more)) dims) (given ++ more) -> valid_tuple (firstn (length given) dims) given.
Proof.
  intros V. apply (firstn_Forall2 _ _ _ (length given)) in V. rewrite firstn_firstn in V. rewrite Nat.min_l in V by (rewrite app_length; lia).
  rewrite firstn_app, firstn_all, Nat.sub_diag, firstn_O, app_nil_r in V. exact V.
Qed.
Lemma sub_indices dims : zlen dims < 2 ^ 63 -> forall vs given ix, ix_rel dims given ix -> valid_tuple (firstn (length (given ++ vs)) dims) (given ++ vs) ->
  exists ix', mfold ix_with_sub_index vs ix = Ok ix' /\ ix_rel dims (given ++ vs) ix'.
Proof.
  intros Hl. induction vs as [|v vs IH]; intros given ix R V.
  - exists ix. rewrite app_nil_r. auto.
  - cbn [mfold]. replace (given ++ v :: vs) with ((given ++ [v]) ++ vs) in * by (rewrite <- app_assoc; reflexivity).
    destruct (sub_index dims given ix v R Hl (valid_prefix _ _ _ V)) as (ix1 & -> & R1). cbn [bind]. apply IH; assumption.
Qed.
Definition dims_ok (dims : list Z) : Prop := Forall (fun d => 1 <= d) dims /\ product dims <= imax usize /\ zlen dims < 2 ^ 63.
Lemma read_index dims given ix : dims_ok dims -> ix_rel dims given ix -> valid_tuple dims given ->
  exists ix', ix_get_array_index_and_reset ix = Ok (rank dims given, ix') /\ ix_rel dims [] ix' /\ 0 <= rank dims given < product dims.
Proof.
  intros (Hd & Hp & Hl) (V & C & rest & L & D) VT. unfold ix_get_array_index_and_reset.
  assert (Lix : zlen (ix_dims ix) = zlen dims). { rewrite D. unfold zlen. rewrite combine_length. lia. }
  pose proof (Forall2_length _ _ _ VT) as E'.
  rewrite Lix, C. rewrite assert_true by (unfold zlen; lia). cbn [bind].
  assert (rest = []). { rewrite app_length in L. destruct rest; [reflexivity|cbn in L; lia]. } subst rest. rewrite app_nil_r in *.
  rewrite D, horner by (try assumption; try lia). cbn [bind]. rewrite Z.mul_0_l, Z.add_0_l. eexists. split; [reflexivity|]. split.
  - split; [constructor|]. split; [reflexivity|]. exists given. split; [symmetry; exact E'|reflexivity].
  - apply rank_bound. exact VT.
Qed.
Lemma read_size dims ix : dims_ok dims -> ix_rel dims [] ix -> ix_get_array_size ix = Ok (product dims).
Proof.
  intros (Hd & Hp & Hl) (V & C & rest & L & D). unfold ix_get_array_size. rewrite C. rewrite assert_true by reflexivity. cbn [bind].
  rewrite D, (size_loop _ dims) by (try assumption; try lia). now rewrite Z.mul_1_l.
Qed.

(** ** Kits of estimators *)
Definition each {A : Type} (P : A -> Prop) (l : list A) : Prop := forall i x, znth l i = Some x -> P x.
Lemma each_zupd {A} (P : A -> Prop) l i v : each P l -> P v -> each P (zupd l i v).
Proof.
  intros E V j x H. destruct (Z.eq_dec i j) as [->|N]; [|rewrite znth_zupd_other in H by exact N; exact (E _ _ H)].
  pose proof (znth_Some _ _ _ H) as B. rewrite zlen_zupd in B. rewrite znth_zupd_same in H by exact B. injection H as <-. exact V.
Qed.
Lemma each_repeat {A} (P : A -> Prop) x n : P x -> each P (repeat x n).
Proof. intros H i y E. apply znth_In in E. apply repeat_spec in E. now subst. Qed.

Definition est_kit_ok (dims : list Z) (k : est_kit) : Prop := each de_valid (ek_estimators k) /\ zlen (ek_estimators k) = product dims /\ ix_rel dims [] (ek_indexer k).
Definition est_idle (dims : list Z) (k : est_kit) : Prop := est_kit_ok dims k /\ ek_index k = None.
Definition est_busy (dims : list Z) (k : est_kit) : Prop := est_kit_ok dims k /\ exists i, ek_index k = Some i /\ 0 <= i < product dims.

Lemma product_nonneg dims : Forall (fun d => 1 <= d) dims -> 1 <= product dims.
Proof. induction 1 as [|d ds D F IH]; [cbn; lia|]. change (product (d :: ds)) with (d * product ds). nia. Qed.
Lemma zlen_repeat {A} (x : A) n : zlen (repeat x n) = Z.of_nat n.
Proof. unfold zlen. now rewrite repeat_length. Qed.
Lemma est_kit_made dims ix : dims_ok dims -> ix_rel dims [] ix -> exists k, est_kit_new ix = Ok k /\ est_idle dims k.
Proof.
  intros D R. unfold est_kit_new. rewrite de_new_eq. cbn [bind]. rewrite (read_size dims ix D R). cbn [bind]. eexists. split; [reflexivity|].
  split; [|reflexivity]. split; [apply each_repeat; exact de_valid_new|]. split; [|exact R]. cbn [ek_estimators]. rewrite zlen_repeat.
  pose proof (product_nonneg dims (proj1 D)). lia.
Qed.
Lemma est_predict_ok t dims k setup : luts_ok t -> dims_ok dims -> est_idle dims k -> valid_tuple dims setup ->
  exists k' r, est_kit_predict t k setup = Ok (k', r) /\ est_busy dims k' /\ result_ok r.
Proof.
  intros T D ((EV & EL & IR) & NI) VT. unfold est_kit_predict. rewrite NI. rewrite assert_true by reflexivity. cbn [bind].
  assert (LD : length setup = length dims) by (symmetry; exact (Forall2_length _ _ _ VT)).
  destruct (sub_indices dims (proj2 (proj2 D)) setup [] (ek_indexer k) IR ltac:(cbn [app]; rewrite LD, firstn_all; exact VT)) as (ix1 & -> & R1). cbn [bind app] in *.
  destruct (read_index dims setup ix1 D R1 VT) as (ix2 & -> & R2 & RB). cbn [bind].
  destruct (znth_lt (ek_estimators k) (rank dims setup) ltac:(lia)) as (e & E). rewrite (get_ok _ _ _ E). cbn [bind].
  destruct (EV _ _ E) as (p & n & -> & P & N & _). rewrite de_prediction_at by (pow2; lia). cbn [bind].
  rewrite (stretch_lean _ (p * 512) (lk_stretch t T)) by (pow2; lia). cbn [bind]. eexists. eexists. split; [reflexivity|]. split.
  - split; [split; [exact EV|split; [exact EL|exact R2]]|]. exists (rank dims setup). cbn [ek_index]. auto.
  - unfold result_ok. cbn [fst snd]. pose proof (stretch_range (p * 512) ltac:(pow2; lia)). split; pow2; lia.
Qed.
Lemma est_update_ok t dims k b : luts_ok t -> est_busy dims k -> exists k', est_kit_update t k b = Ok k' /\ est_idle dims k'.
Proof.
  intros T ((EV & EL & IR) & i & I & B). unfold est_kit_update. rewrite I. cbn [of_opt bind].
  destruct (znth_lt (ek_estimators k) i ltac:(lia)) as (e & E). rewrite (get_ok _ _ _ E). cbn [bind].
  destruct (de_valid_step _ e b (lk_rates t T) (EV _ _ E)) as (e' & -> & V'). cbn [bind]. rewrite set_ok by lia. cbn [bind].
  eexists. split; [reflexivity|]. split; [|reflexivity]. split; [apply each_zupd; assumption|]. cbn [ek_estimators ek_indexer]. rewrite zlen_zupd. auto.
Qed.

(** ** Kits of mixers *)
Definition mixer_free (size limit : Z) (m : mixer) : Prop := exists index, mixer_inv size [] index m /\ index <= limit.
Definition mixer_kit_ok (dims : list Z) (k : mixer_kit) : Prop := zlen (mk_mixers k) = product dims.
Definition mix_ready (dims : list Z) (size limit : Z) (given : list Z) (k : mixer_kit) : Prop :=
  mixer_kit_ok dims k /\ each (mixer_free size limit) (mk_mixers k) /\ ix_rel dims given (mk_indexer k) /\ mk_index k = None /\ mk_result k = None.
Definition mix_idle (dims : list Z) (size limit : Z) (k : mixer_kit) : Prop := mix_ready dims size limit [] k.
Definition mix_busy (dims : list Z) (size limit : Z) (acc : list (Z * (Z * Z))) (k : mixer_kit) : Prop :=
  mixer_kit_ok dims k /\ ix_rel dims [] (mk_indexer k) /\ exists i m r index, mk_index k = Some i /\ mk_result k = Some r /\ znth (mk_mixers k) i = Some m /\
    result_ok r /\ mixer_inv size (map fst acc) index m /\ index <= limit /\ holds acc m /\ all_set size (map fst acc) = true /\
    forall j x, znth (mk_mixers k) j = Some x -> j <> i -> mixer_free size limit x.

Lemma mmap_each {A B} (f : A -> res B) (P : B -> Prop) y l : (forall x, In x l -> f x = Ok y) -> P y -> exists r, mmap f l = Ok r /\ zlen r = zlen l /\ each P r.
Proof.
  intros F Py. induction l as [|x l IH]; [exists []; split; [reflexivity|split; [reflexivity|]]; intros i z; discriminate|].
  destruct IH as (r & E & L & EA); [intros z Z; apply F; now right|]. cbn [mmap]. rewrite (F x (or_introl eq_refl)). cbn [bind]. rewrite E. cbn [bind].
  exists (y :: r). split; [reflexivity|]. rewrite !zlen_cons. split; [lia|]. intros i z Ez. cbn [znth] in Ez. destruct (i =? 0); [injection Ez as <-; exact Py|]. exact (EA _ _ Ez).
Qed.
Lemma mixer_kit_made dims size limit maker m ix : dims_ok dims -> ix_rel dims [] ix -> maker = Ok m -> mixer_free size limit m ->
  exists k, mixer_kit_new maker ix = Ok k /\ mix_idle dims size limit k.
Proof.
  intros D R M F. unfold mixer_kit_new. rewrite (read_size dims ix D R). cbn [bind].
  destruct (mmap_each (fun _ : Z => maker) (mixer_free size limit) m (zseq 0 (Z.to_nat (product dims))) (fun _ _ => M) F) as (ms & -> & L & EA). cbn [bind].
  eexists. split; [reflexivity|]. pose proof (product_nonneg dims (proj1 D)). split; [unfold mixer_kit_ok; cbn [mk_mixers]; rewrite L, zlen_zseq; lia|].
  cbn [mk_mixers mk_indexer mk_index mk_result]. auto.
Qed.
Lemma pre_predict_ok dims size limit k setup : dims_ok dims -> mix_idle dims size limit k -> valid_tuple (firstn (length setup) dims) setup ->
  exists k', mixer_kit_pre_predict k setup = Ok k' /\ mix_ready dims size limit setup k'.
Proof.
  intros D (L & EA & R & NI & NR) V. unfold mixer_kit_pre_predict. rewrite NI, NR. rewrite assert_true by reflexivity. cbn [bind].
  rewrite assert_true by reflexivity. cbn [bind].
  destruct (sub_indices dims (proj2 (proj2 D)) setup [] (mk_indexer k) R V) as (ix & -> & R1). cbn [bind]. eexists. split; [reflexivity|].
  split; [exact L|]. cbn [mk_mixers mk_indexer mk_index mk_result]. auto.
Qed.

(** The places of inputs are new and exist. *)
Fixpoint fresh (size : Z) (done : list Z) (inputs : list (Z * (Z * Z))) : bool :=
  match inputs with
  | [] => true
  | x :: r => (0 <=? fst x) && (fst x <? size) && negb (member (fst x) done) && fresh size (fst x :: done) r
  end.
Lemma set_inputs_ok size index inputs : forall acc m, size <= 30 -> mixer_inv size (map fst acc) index m -> holds acc m -> fresh size (map fst acc) inputs = true ->
  Forall (fun x => result_ok (snd x)) inputs ->
  exists m', mfold (fun m x => set_input m (fst x) (fst (snd x)) (snd (snd x))) inputs m = Ok m' /\ mixer_inv size (map fst (rev inputs ++ acc)) index m' /\
    holds (rev inputs ++ acc) m'.
Proof.
  induction inputs as [|(i & (sq & st)) inputs IH]; intros acc m SZ INV H FR F.
  - exists m. auto.
  - cbn [fresh fst] in FR. apply andb_prop in FR as (FR & FR3). apply andb_prop in FR as (FR & NM). apply andb_prop in FR as (I0 & I1).
    apply Z.leb_le in I0. apply Z.ltb_lt in I1. apply Bool.negb_true_iff in NM. inversion F as [|? ? (_ & ST) F']; subst. cbn [fst snd] in ST.
    destruct (set_input_ok size (map fst acc) index m i sq st INV ltac:(lia) ST) as (E & INV'). rewrite NM in E.
    replace (i <? size) with true in E by lia. cbn [andb negb] in E. cbn [mfold fst snd]. rewrite E. cbn [bind].
    destruct (IH ((i, (sq, st)) :: acc) (lean_set m i sq st) SZ (INV' I1) (holds_set size acc index m i sq st INV (conj I0 I1) NM H) FR3 F') as (m' & E' & INV2 & H2).
    exists m'. split; [exact E'|]. cbn [rev]. rewrite <- !app_assoc. cbn [app]. auto.
Qed.

Lemma mix_predict_ok t dims size limit given k setup inputs : luts_ok t -> dims_ok dims -> 0 <= size <= 30 -> mix_ready dims size limit given k ->
  valid_tuple dims (given ++ setup) -> fresh size [] inputs = true -> all_set size (map fst (rev inputs)) = true -> Forall (fun x => result_ok (snd x)) inputs ->
  exists k' r, mixer_kit_predict t k setup inputs = Ok (k', r) /\ mix_busy dims size limit (rev inputs) k' /\ result_ok r /\ squash (lt_squash t) (snd r) = Ok (fst r).
Proof.
  intros T D SZ (L & EA & R & NI & NR) V FR AS F. unfold mixer_kit_predict. rewrite NI, NR. rewrite assert_true by reflexivity. cbn [bind].
  rewrite assert_true by reflexivity. cbn [bind].
  assert (LD : length (given ++ setup) = length dims) by (symmetry; exact (Forall2_length _ _ _ V)).
  destruct (sub_indices dims (proj2 (proj2 D)) setup given (mk_indexer k) R ltac:(rewrite LD, firstn_all; exact V)) as (ix1 & -> & R1). cbn [bind].
  destruct (read_index dims (given ++ setup) ix1 D R1 V) as (ix2 & -> & R2 & RB). cbn [bind]. set (i := rank dims (given ++ setup)) in *. clearbody i.
  unfold mixer_kit_ok in L. destruct (znth_lt (mk_mixers k) i ltac:(lia)) as (m & M). rewrite (get_ok _ _ _ M). cbn [bind].
  destruct (EA _ _ M) as (index & INV & LIM).
  destruct (set_inputs_ok size index inputs [] m (proj2 SZ) INV (fun _ _ _ H => match H with end) FR F) as (m' & -> & INV' & H'). cbn [bind].
  rewrite app_nil_r in *. rewrite (mix_ok _ size _ index m' (lk_squash t T) INV'), AS. cbn [bind]. rewrite set_ok by lia. cbn [bind].
  eexists. eexists. split; [reflexivity|]. split; [|split].
  - split; [unfold mixer_kit_ok; cbn [mk_mixers]; rewrite zlen_zupd; exact L|]. cbn [mk_mixers mk_indexer mk_index mk_result]. split; [exact R2|].
    exists i, m', (lean_mix m'), index. split; [reflexivity|]. split; [reflexivity|]. split; [apply znth_zupd_same; lia|].
    split; [apply lean_mix_ok|]. split; [exact INV'|]. split; [exact LIM|]. split; [exact H'|]. split; [exact AS|].
    intros j x X N. rewrite znth_zupd_other in X by congruence. exact (EA _ _ X).
  - apply lean_mix_ok.
  - change (fst (lean_mix m')) with (lean_squash (snd (lean_mix m'))). apply squash_lean; [exact (lk_squash t T)|apply lean_st_range].
Qed.
Lemma mix_update_ok t dims size limit acc k b : luts_ok t -> 0 <= limit <= 1000 -> mix_busy dims size limit acc k ->
  exists k' r, mixer_kit_update t k b limit = Ok (k', r) /\ mix_idle dims size limit k'.
Proof.
  intros T LI (L & R & i & m & r & index & MI & MR & M & RO & INV & LIM & H & AS & OTH). unfold mixer_kit_update. rewrite MI, MR. cbn [of_opt bind].
  rewrite (get_ok _ _ _ M). cbn [bind]. assert (IR : 0 <= index <= 1000) by exact (proj1 (proj2 (proj2 (proj2 (proj2 INV))))).
  destruct (rates_at (lt_rates t) index (lk_rates t T) IR) as (rate & RT & RB).
  destruct (MixerProofs.update_ok (lt_rates t) rate size (map fst acc) index m b (fst r) limit INV RT RB (proj1 RO) ltac:(pow2; lia)) as (E & INV').
  rewrite AS in E. replace (index <=? limit) with true in E by lia. replace (limit <=? 1000) with true in E by lia. cbn [andb] in E. rewrite E. cbn [bind].
  pose proof (znth_Some _ _ _ M). rewrite set_ok by lia. cbn [bind]. eexists. eexists. split; [reflexivity|]. unfold mix_idle, mix_ready, mixer_kit_ok in *.
  cbn [mk_mixers mk_indexer mk_index mk_result]. rewrite zlen_zupd. split; [exact L|]. split; [|auto].
  intros j x X. destruct (Z.eq_dec j i) as [->|N].
  - rewrite znth_zupd_same in X by lia. injection X as <-. exists (Z.min limit (index + 1)). split; [apply INV'; lia|lia].
  - rewrite znth_zupd_other in X by congruence. exact (OTH _ _ X N).
Qed.
(** What the mixer in use was given can be read back. *)
Lemma current_reads dims size limit acc k i sq st : mix_busy dims size limit acc k -> 0 <= i < 32 -> In (i, (sq, st)) acc -> NoDup (map fst acc) ->
  exists m, current_mixer k = Ok m /\ prediction_sq m i = Ok sq.
Proof.
  intros (L & R & j & m & r & index & MI & MR & M & RO & INV & LIM & H & AS & OTH) I IN ND. exists m. unfold current_mixer. rewrite MI.
  rewrite assert_true by reflexivity. cbn [bind of_opt]. rewrite (get_ok _ _ _ M). split; [reflexivity|].
  pose proof (read_set size acc index m i INV H I) as RD.
  assert (MB : member i (map fst acc) = true) by (apply member_fst; exists (sq, st); exact IN). rewrite MB in RD.
  destruct RD as (sq' & st' & IN' & E & _). rewrite E. f_equal.
  destruct (H _ _ _ IN) as (w & W). destruct (H _ _ _ IN') as (w' & W'). congruence.
Qed.
