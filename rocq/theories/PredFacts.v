(** What follows about files, call sequences, reports and statistics. *)
From Coq Require Import ZifyBool.
From Verif Require Import Base BaseFacts UtilModel UtilSpec UtilProofs WindowSpec WindowProofs StateModel EstModel EstProofs LogModel LogProofs LutModel LutProofs ApmModel MixerModel StatesModel StatesSpec StatesProofs
  HistModel HistSpec HistProofs FatProofs HistFacts TreeModel TreeSpec TreeRun TreeFacts PredModel PredKits PredChain PredFinal PredTree PredSpec PredStats PredRun.
Ltac Zify.zify_post_hook ::= Z.div_mod_to_equations.

(** ** Orders of states *)
Lemma true_window rates max_order text states : true_report rates max_order text states -> window_report rates max_order 0 text states.
Proof. intros (A & B & C). split; [|split; assumption]. intros o s S. destruct (A o s S) as (NE & ST). split; [exact NE|]. exists []. split; [discriminate|]. split; [reflexivity|exact ST]. Qed.
Lemma far_branching text o k : 0 <= o -> uniform (followers text (o + Z.of_nat k)) = false -> uniform (followers text o) = false.
Proof.
  intros O. induction k as [|k IH]; [now rewrite Z.add_0_r|]. intros H. apply IH. apply branching_longer; [lia|]. rewrite <- H. do 2 f_equal. lia.
Qed.
Lemma report_branching_first rates max_order gone text states : window_report rates max_order gone text states -> branching_first states.
Proof.
  intros R i j s s' IJ S S' N. rewrite (report_kind _ _ _ _ _ _ _ R S') in N. rewrite (report_kind _ _ _ _ _ _ _ R S). rewrite Bool.negb_true_iff in *. pose proof (znth_Some _ _ _ S).
  apply (far_branching text i (Z.to_nat (j - i))); [lia|]. rewrite <- N. do 2 f_equal. lia.
Qed.
Lemma report_comparable t max_order gone text states : luts_ok t -> window_report (lt_rates t) max_order gone text states -> comparable t states.
Proof.
  intros T R i s s' S S'. assert (E : forall i s, znth states i = Some s -> exists e, probability_estimator t s = Ok e).
  { intros j x X. destruct (report_shape _ _ _ _ _ _ _ R X) as (_ & _ & K). destruct x as [d c b|d e r q tr]; cbn [probability_estimator]; [|eauto]. destruct (direct_ok t c T ltac:(lia)) as (p & -> & P). cbn [bind fst].
    rewrite de_make_at by (pow2; lia). eauto. }
  destruct (E _ _ S) as (e & ES). destruct (E _ _ S') as (e' & ES'). pose proof (report_branching_first _ _ _ _ _ R i (i + 1) s s' ltac:(lia) S S') as O. unfold compare_context_states.
  destruct (is_for_node s), (is_for_node s'); try (rewrite ES, ES'; cbn [bind]; eauto); [eauto|]. specialize (O eq_refl). discriminate.
Qed.
Lemma tree_sorted t max max_order shift input : luts_new = Ok t -> 0 < max <= 2 ^ 31 -> 0 <= shift < max -> 0 <= max_order -> 8 * max_order + 7 < 2 ^ 16 -> supplied max max_order input ->
  exists s states, tree_after t max max_order shift input = Ok s /\ tree_gather s [] = Ok states /\ zlen states <= max_order + 1 /\ branching_first states /\ comparable t states.
Proof.
  intros L M S O D W. destruct (tree_window t max max_order shift input L M S O D W) as (s & states & E & G & R & _). exists s, states. split; [exact E|]. split; [exact G|]. split; [exact (proj1 (proj2 R))|].
  split; [exact (report_branching_first _ _ _ _ _ R)|exact (report_comparable _ _ _ _ _ (luts_ok_of t L) R)].
Qed.
Lemma naive_sorted t max max_order input items : luts_new = Ok t -> 0 < max < 2 ^ 63 -> 0 <= max_order < 2 ^ 64 - 1 -> zlen input / 8 < max -> all_default input ->
  exists states, naive_states t max max_order input items = Ok (items ++ states) /\ zlen states <= max_order + 1 /\ branching_first states /\ comparable t states.
Proof.
  intros L M O F D. destruct (naive_true t max max_order input items L M O F D) as (states & E & R). apply true_window in R. exists states. split; [exact E|]. split; [exact (proj1 (proj2 R))|].
  split; [exact (report_branching_first _ _ _ _ _ R)|exact (report_comparable _ _ _ _ _ (luts_ok_of t L) R)].
Qed.
Lemma fat_sorted t hash max max_order input items : luts_new = Ok t -> 0 < max < 2 ^ 63 -> 0 <= max_order -> 8 * (max_order + 1) < 2 ^ 64 -> zlen input / 8 < max -> well_supplied max_order input ->
  exists states, fat_states t hash max max_order input items = Ok (items ++ states) /\ zlen states <= max_order + 1 /\ branching_first states /\ comparable t states.
Proof.
  intros L M O B F D. destruct (fat_true t hash max max_order input items L M O B F D) as (states & E & R & _). apply true_window in R. exists states. split; [exact E|]. split; [exact (proj1 (proj2 R))|].
  split; [exact (report_branching_first _ _ _ _ _ R)|exact (report_comparable _ _ _ _ _ (luts_ok_of t L) R)].
Qed.

(** ** Files *)
Lemma allowed_bits bs : forall k rest, 0 <= k -> k + zlen bs = 8 -> bs <> [] -> allowed_all (Inside k) (flat_map (fun b => [Predict; Update b]) bs ++ rest) = allowed_all Between rest.
Proof.
  induction bs as [|b bs IH]; intros k rest K L N; [congruence|]. cbn [flat_map app allowed_all allowed]. rewrite zlen_cons in L. pose proof (zlen_nonneg bs). destruct bs as [|b' bs].
  - change (zlen (@nil bit)) with 0 in L. replace (k =? 7) with true by lia. reflexivity.
  - rewrite zlen_cons in *. pose proof (zlen_nonneg bs). replace (k =? 7) with false by lia. apply IH; [lia|lia|discriminate].
Qed.
Lemma allowed_file bytes : allowed_all Between (uses_of bytes) = Some Between.
Proof.
  induction bytes as [|x bytes IH]; [reflexivity|]. change (uses_of (x :: bytes)) with (Start :: flat_map (fun b => [Predict; Update b]) (byte_bits x) ++ uses_of bytes). cbn [allowed_all allowed].
  rewrite allowed_bits; [exact IH|lia|reflexivity|discriminate].
Qed.
Lemma told_file bytes : told (uses_of bytes) = flat_map byte_bits bytes.
Proof. induction bytes as [|x bytes IH]; [reflexivity|]. change (uses_of (x :: bytes)) with (uses_of_byte x ++ uses_of bytes). rewrite told_app, IH. reflexivity. Qed.
Lemma asked_file bytes : asked (uses_of bytes) = 8 * zlen bytes.
Proof. induction bytes as [|x bytes IH]; [reflexivity|]. change (uses_of (x :: bytes)) with (uses_of_byte x ++ uses_of bytes). rewrite asked_app, IH, zlen_cons. change (asked (uses_of_byte x)) with 8. lia. Qed.
Lemma started_file bytes : started (uses_of bytes) = zlen bytes.
Proof. induction bytes as [|x bytes IH]; [reflexivity|]. change (uses_of (x :: bytes)) with (uses_of_byte x ++ uses_of bytes). unfold started in *. rewrite filter_app, zlen_app, IH, zlen_cons. change (zlen (filter _ (uses_of_byte x))) with 1. lia. Qed.
Lemma zlen_bits bytes : zlen (flat_map byte_bits bytes) = 8 * zlen bytes.
Proof. induction bytes as [|x bytes IH]; [reflexivity|]. cbn [flat_map]. rewrite zlen_app, IH, zlen_cons. change (zlen (byte_bits x)) with 8. lia. Qed.

Lemma calls_ok md t max mo uses : luts_new = Ok t -> 0 < max <= 2 ^ 31 -> 0 <= mo -> 8 * mo + 7 < 2 ^ 16 -> zlen (told uses) < 2 ^ 47 - 1 ->
  match allowed_all Between uses with
  | Some ph => exists trace st, use_all md t max mo uses = Ok st /\ at_phase md t max mo ph trace st /\ map fst trace = told uses /\ zlen (snd st) = asked uses
  | None => use_all md t max mo uses = Fail EAssert
  end.
Proof. intros L M O D TL. exact (use_all_ok md t max mo (luts_ok_of t L) (costs_of t L) (all_of t L) M (conj O D) uses TL). Qed.
Lemma file_predicted md t max mo bytes : luts_new = Ok t -> 0 < max <= 2 ^ 31 -> 0 <= mo -> 8 * mo + 7 < 2 ^ 16 -> 8 * zlen bytes < 2 ^ 47 - 1 ->
  exists p probabilities, use_all md t max mo (uses_of bytes) = Ok (p, probabilities) /\ zlen probabilities = 8 * zlen bytes /\ Forall (fun r => 1 <= r <= 2 ^ 23 - 1) probabilities.
Proof.
  intros L M O D TL. pose proof (calls_ok md t max mo (uses_of bytes) L M O D) as H. rewrite allowed_file, told_file, zlen_bits, asked_file in H. destruct (H TL) as (trace & (p & probs) & E & (F & _) & _ & Z).
  exists p, probs. split; [exact E|]. split; [exact Z|]. eapply Forall_impl; [|exact F]. cbn beta. intros r R. lia.
Qed.
Lemma calls_predicted md t max mo uses p probabilities : luts_new = Ok t -> 0 < max <= 2 ^ 31 -> 0 <= mo -> 8 * mo + 7 < 2 ^ 16 -> zlen (told uses) < 2 ^ 47 - 1 ->
  use_all md t max mo uses = Ok (p, probabilities) -> Forall (fun r => 1 <= r <= 2 ^ 23 - 1) probabilities /\ zlen probabilities = asked uses.
Proof.
  intros L M O D TL E. pose proof (calls_ok md t max mo uses L M O D TL) as H. destruct (allowed_all Between uses); [|congruence]. destruct H as (trace & st & E' & (F & _) & _ & Z). rewrite E in E'. injection E' as <-. cbn [snd] in *.
  split; [|exact Z]. eapply Forall_impl; [|exact F]. cbn beta. intros r R. lia.
Qed.
Lemma calls_alternate md t max mo uses : luts_new = Ok t -> 0 < max <= 2 ^ 31 -> 0 <= mo -> 8 * mo + 7 < 2 ^ 16 -> zlen (told uses) < 2 ^ 47 - 1 ->
  match allowed_all Between uses with Some _ => exists st, use_all md t max mo uses = Ok st | None => use_all md t max mo uses = Fail EAssert end.
Proof.
  intros L M O D TL. pose proof (calls_ok md t max mo uses L M O D TL) as H. destruct (allowed_all Between uses); [|exact H]. destruct H as (trace & st & E & _). eauto.
Qed.

(** ** The parts of the predictor check it too *)
Lemma est_kit_twice t k setup k' r : est_kit_predict t k setup = Ok (k', r) -> (forall setup', est_kit_predict t k' setup' = Fail EAssert) /\
  forall b k'', est_kit_update t k' b = Ok k'' -> forall b', est_kit_update t k'' b' = Fail EUnwrap.
Proof.
  intros E. unfold est_kit_predict in E. apply bind_ok in E. destruct E as (? & _ & E). apply bind_ok in E. destruct E as (ix & _ & E). apply bind_ok in E. destruct E as ((i & ix') & _ & E). binds E. injection E as <- <-. split.
  - reflexivity.
  - intros b k'' U. unfold est_kit_update in U. binds U. injection U as <-. reflexivity.
Qed.
Lemma est_kit_first t ix k : est_kit_new ix = Ok k -> forall b, est_kit_update t k b = Fail EUnwrap.
Proof. intros E. unfold est_kit_new in E. binds E. injection E as <-. reflexivity. Qed.
Lemma mixer_kit_twice t k setup inputs k' r : mixer_kit_predict t k setup inputs = Ok (k', r) ->
  (forall setup' inputs', mixer_kit_pre_predict k' setup' = Fail EAssert /\ mixer_kit_predict t k' setup' inputs' = Fail EAssert) /\
  forall b f k'' r', mixer_kit_update t k' b f = Ok (k'', r') -> r' = r /\ forall b' f', mixer_kit_update t k'' b' f' = Fail EUnwrap.
Proof.
  intros E. unfold mixer_kit_predict in E. do 3 (apply bind_ok in E; destruct E as (? & _ & E)). apply bind_ok in E. destruct E as ((i & ix') & _ & E). binds E. injection E as <- <-. split.
  - intros. split; reflexivity.
  - intros b f k'' r' U. unfold mixer_kit_update in U. cbn [mk_index mk_result of_opt bind] in U. binds U. injection U as <- <-. split; reflexivity.
Qed.
Lemma mixer_kit_first t maker ix k : mixer_kit_new maker ix = Ok k -> forall b f, mixer_kit_update t k b f = Fail EUnwrap.
Proof. intros E. unfold mixer_kit_new in E. binds E. injection E as <-. reflexivity. Qed.
Lemma map_saved a c p s lut a' r : refine a c p s lut = Ok (a', r) -> 0 <= am_saved_index a'.
Proof.
  intros E. unfold refine in E. cbv zeta in E. binds E. injection E as <- <-. cbn [am_saved_index].
  match goal with H : get (al_shifts lut) ?i = Ok _ |- 0 <= ?i => unfold get in H; destruct (znth (al_shifts lut) i) eqn:Z; [|discriminate]; apply znth_Some in Z; lia end.
Qed.
Lemma map_twice a c p s lut a' r : refine a c p s lut = Ok (a', r) -> (forall c' p' s' lut', refine a' c' p' s' lut' = Fail EAssert) /\
  forall c' b rate fixed a'', update_predictions a' c' b rate fixed = Ok a'' -> forall c'' b' rate' fixed', update_predictions a'' c'' b' rate' fixed' = Fail EAssert.
Proof.
  intros E. apply map_saved in E. split.
  - intros. unfold refine. destruct (am_bits a' =? al_bits lut'); [|reflexivity]. cbn [assert_ guard bind]. replace (am_saved_index a' =? -1) with false by lia. reflexivity.
  - intros c' b rate fixed a'' U. intros. unfold update_predictions in U. cbv zeta in U. binds U. injection U as <-. reflexivity.
Qed.
Lemma map_first n bits lut a : apm_new n bits lut = Ok a -> forall c b rate fixed, update_predictions a c b rate fixed = Fail EAssert.
Proof. intros E. unfold apm_new in E. cbv zeta in E. binds E. injection E as <-. reflexivity. Qed.

(** The chain, given the same states *)
Definition busy_kit (s : context_state) (k : order_kit) : Prop := mk_result (if is_for_node s then ok_node k else ok_edge k) <> None.
Definition idle_kit (s : context_state) (k : order_kit) : Prop := ek_index (if is_for_node s then sg_node (ok_single k) else sg_edge (ok_single k)) = None.
Lemma mixer_kit_busy t k setup inputs k' r : mixer_kit_predict t k setup inputs = Ok (k', r) -> mk_result k' <> None.
Proof. intros E. unfold mixer_kit_predict in E. do 3 (apply bind_ok in E; destruct E as (? & _ & E)). apply bind_ok in E. destruct E as ((i & ix') & _ & E). binds E. injection E as <- <-. discriminate. Qed.
Lemma predict_busy t sg kit s byte lower sg' kit' r : single_predict t sg kit s byte lower = Ok (sg', kit', r) -> mk_result kit' <> None.
Proof.
  intros E. destruct s as [d c b|d e rb q tr]; cbn [single_predict] in E.
  - apply bind_ok in E. destruct E as (? & _ & E). cbv zeta in E. apply bind_ok in E. destruct E as ((? & ?) & _ & E). apply bind_ok in E. destruct E as (? & _ & E). apply bind_ok in E. destruct E as ((kk & xx) & P & E).
    injection E as _ <- _. exact (mixer_kit_busy _ _ _ _ _ _ P).
  - do 4 (apply bind_ok in E; destruct E as (? & _ & E)). apply bind_ok in E. destruct E as ((? & ?) & _ & E). do 3 (apply bind_ok in E; destruct E as (? & _ & E)). apply bind_ok in E. destruct E as ((kk & xx) & P & E).
    injection E as _ <- _. exact (mixer_kit_busy _ _ _ _ _ _ P).
Qed.
Lemma chain_step_inv t contexts byte kits lp o kits' r : chain_predict_step t contexts byte (kits, lp) o = Ok (kits', r) ->
  exists s k, get contexts o = Ok s /\ kits' = zupd kits o k /\ 0 <= o < zlen kits /\ busy_kit s k.
Proof.
  intros E. unfold chain_predict_step in E. apply bind_ok in E. destruct E as (s & S & E). apply bind_ok in E. destruct E as (m & _ & E). cbv zeta in E. apply bind_ok in E. destruct E as (c & _ & E).
  apply bind_ok in E. destruct E as (k & _ & E). unfold busy_kit. exists s. destruct (is_for_node s) eqn:N.
  - apply bind_ok in E. destruct E as (kit & _ & E). apply bind_ok in E. destruct E as (((sg & kit') & x) & P & E). apply bind_ok in E. destruct E as (ks & U & E). injection E as <- <-. apply set_inv in U. destruct U as (O & ->).
    eexists. split; [exact S|]. split; [reflexivity|]. split; [exact O|]. cbn [ok_node]. exact (predict_busy _ _ _ _ _ _ _ _ _ P).
  - apply bind_ok in E. destruct E as (kit & _ & E). apply bind_ok in E. destruct E as (((sg & kit') & x) & P & E). apply bind_ok in E. destruct E as (ks & U & E). injection E as <- <-. apply set_inv in U. destruct U as (O & ->).
    eexists. split; [exact S|]. split; [reflexivity|]. split; [exact O|]. cbn [ok_edge]. exact (predict_busy _ _ _ _ _ _ _ _ _ P).
Qed.
Lemma chain_rest t contexts byte n : forall a kits lp kits' r, 1 <= a -> mfold (chain_predict_step t contexts byte) (zseq a n) (kits, lp) = Ok (kits', r) -> znth kits' 0 = znth kits 0.
Proof.
  induction n as [|n IH]; intros a kits lp kits' r A E; cbn [zseq mfold] in E; [injection E as <- <-; reflexivity|]. apply bind_ok in E. destruct E as ((k1 & r1) & S & E).
  rewrite (IH (a + 1) k1 r1 kits' r ltac:(lia) E). apply chain_step_inv in S. destruct S as (s & k & _ & -> & _). apply znth_zupd_other. lia.
Qed.
Lemma chain_twice t kits contexts byte kits' r : contexts <> [] -> chain_predict t kits contexts byte = Ok (kits', r) -> forall byte', chain_predict t kits' contexts byte' = Fail EAssert.
Proof.
  intros NE E byte'. unfold chain_predict in *. destruct contexts as [|s0 rest]; [congruence|]. set (cs := s0 :: rest) in *. change (length cs) with (S (length rest)) in *. cbn [zseq mfold] in *.
  apply bind_ok in E. destruct E as ((k1 & r1) & S & E). apply chain_rest in E; [|lia]. pose proof S as S'. apply chain_step_inv in S'. destruct S' as (s & k & G & -> & O & B). rewrite znth_zupd_same in E by exact O.
  unfold chain_predict_step in S |- *. rewrite G in S |- *. cbn [bind] in *. apply bind_ok in S. destruct S as (m & -> & _). cbn [bind]. change (0 =? 0) with true. cbv iota. cbn [bind]. rewrite (get_ok _ _ _ E). cbn [bind]. unfold busy_kit in B.
  destruct (is_for_node s); unfold mixer_kit_pre_predict.
  - destruct (mk_result (ok_node k)); [reflexivity|congruence].
  - destruct (mk_result (ok_edge k)); [reflexivity|congruence].
Qed.
Lemma kit_updated t k b k' : est_kit_update t k b = Ok k' -> ek_index k' = None.
Proof. intros U. unfold est_kit_update in U. binds U. injection U as <-. reflexivity. Qed.
Lemma chain_update_inv t b contexts kits trs o kits' trs' : chain_update_step t b contexts (kits, trs) o = Ok (kits', trs') ->
  exists s k, get contexts o = Ok s /\ kits' = zupd kits o k /\ 0 <= o < zlen kits /\ idle_kit s k.
Proof.
  intros E. unfold chain_update_step in E. apply bind_ok in E. destruct E as (s & S & E). apply bind_ok in E. destruct E as (k & _ & E). apply bind_ok in E. destruct E as ((k' & c) & K & E). apply bind_ok in E. destruct E as (? & _ & E).
  apply bind_ok in E. destruct E as (ks & U & E). injection E as <- <-. apply set_inv in U. destruct U as (O & ->). exists s, k'. split; [exact S|]. split; [reflexivity|]. split; [exact O|]. unfold idle_kit.
  destruct s as [d n y|d e rb q tr]; cbn [is_for_node single_update] in *.
  - apply bind_ok in K. destruct K as (((sg & kit) & cc) & Q & K). injection K as <- _. apply bind_ok in Q. destruct Q as (edge & U & Q). apply bind_ok in Q. destruct Q as ((? & ?) & _ & Q). injection Q as <- _ _. cbn [ok_single sg_edge]. exact (kit_updated _ _ _ _ U).
  - apply bind_ok in K. destruct K as (((sg & kit) & cc) & Q & K). injection K as <- _. apply bind_ok in Q. destruct Q as (node & U & Q). do 4 (apply bind_ok in Q; destruct Q as (? & _ & Q)). apply bind_ok in Q. destruct Q as ((? & ?) & _ & Q). injection Q as <- _ _. cbn [ok_single sg_node]. exact (kit_updated _ _ _ _ U).
Qed.
Lemma chain_update_rest t b contexts n : forall a kits trs kits' trs', 1 <= a -> mfold (chain_update_step t b contexts) (zseq a n) (kits, trs) = Ok (kits', trs') -> znth kits' 0 = znth kits 0.
Proof.
  induction n as [|n IH]; intros a kits lp kits' r A E; cbn [zseq mfold] in E; [injection E as <- <-; reflexivity|]. apply bind_ok in E. destruct E as ((k1 & r1) & S & E).
  rewrite (IH (a + 1) k1 r1 kits' r ltac:(lia) E). apply chain_update_inv in S. destruct S as (s & k & _ & -> & _). apply znth_zupd_other. lia.
Qed.
Lemma chain_update_twice t kits contexts b kits' trs : contexts <> [] -> chain_update t kits b contexts = Ok (kits', trs) -> forall b', chain_update t kits' b' contexts = Fail EUnwrap.
Proof.
  intros NE E b'. unfold chain_update in *. destruct contexts as [|s0 rest]; [congruence|]. set (cs := s0 :: rest) in *. change (length cs) with (S (length rest)) in *. cbn [zseq mfold] in *.
  apply bind_ok in E. destruct E as ((k1 & r1) & S & E). apply chain_update_rest in E; [|lia]. apply chain_update_inv in S. destruct S as (s & k & G & -> & O & B). rewrite znth_zupd_same in E by exact O.
  unfold chain_update_step. rewrite G. cbn [bind]. rewrite (get_ok _ _ _ E). cbn [bind]. unfold idle_kit in B. destruct s as [d n y|d e rb q tr]; cbn [is_for_node single_update] in *; unfold est_kit_update; rewrite B; reflexivity.
Qed.

(** The finalizer *)
Lemma first_map_used t f sq st lb o0 p0 m : phase0 t f sq st lb = Ok (o0, p0, m) -> exists c lut, refine (pf_order0 f) c sq st lut = Ok (o0, p0).
Proof.
  intros E. unfold phase0 in E. apply bind_ok in E. destruct E as (u & _ & E). apply bind_ok in E. destruct E as (lut & _ & E). apply bind_ok in E. destruct E as ((a & p) & R & E). binds E. injection E as <- <- _. eauto.
Qed.
Lemma finalizer_twice md t f sq st n lb f' r : md <> ModeNone -> finalizer_refine md t f sq st n lb = Ok (f', r) -> forall sq' st' n' lb', exists e, finalizer_refine md t f' sq' st' n' lb' = Fail e.
Proof.
  intros MD E sq' st' n' lb'. unfold finalizer_refine in E. apply bind_ok in E. destruct E as (? & _ & E). destruct md; [congruence| |].
  - apply bind_ok in E. destruct E as (((o0 & p0) & mixed) & P0 & E). apply bind_ok in E. destruct E as ((o1 & p1) & _ & E). apply bind_ok in E. destruct E as ((o2 & p2) & _ & E). apply bind_ok in E. destruct E as ((o3 & p3) & _ & E).
    binds E. injection E as <- _. apply first_map_used in P0. destruct P0 as (c & lut & R). apply map_twice in R. destruct R as (R & _). unfold finalizer_refine. cbn [pf_result].
    destruct (is_none (pf_result f)); [|eexists; reflexivity]. cbn [assert_ guard bind]. unfold phase0 at 1. cbn [pf_order0]. destruct (lb_unfinished_byte lb'); [|eexists; reflexivity]. cbn [bind].
    destruct (luts_apm t 0); [|eexists; reflexivity]. cbn [bind]. rewrite R. eexists. reflexivity.
  - cbv zeta in E. apply bind_ok in E. destruct E as (m & _ & E). apply bind_ok in E. destruct E as (((o0 & p0) & mixed) & _ & E). apply bind_ok in E. destruct E as (? & _ & E). apply bind_ok in E. destruct E as (? & _ & E).
    apply bind_ok in E. destruct E as ((o1 & m1) & _ & E). apply bind_ok in E. destruct E as ((o2 & m2) & _ & E). apply bind_ok in E. destruct E as ((o3 & m3) & _ & E). binds E. injection E as <- _. eexists. reflexivity.
Qed.
Lemma finalizer_update_twice md t f b n lb f' : md <> ModeNone -> finalizer_update md t f b n lb = Ok f' -> forall b' n' lb', exists e, finalizer_update md t f' b' n' lb' = Fail e.
Proof.
  intros MD E b' n' lb'. destruct md; [congruence| |]; unfold finalizer_update in E.
  - binds E. injection E as <-. unfold finalizer_update. cbn [pf_order0]. unfold learn at 1. destruct (lb_unfinished_byte lb'); [|eexists; reflexivity]. cbn [bind].
    match goal with H : learn (pf_order0 f) _ _ _ = Ok ?a |- _ => unfold learn in H; apply bind_ok in H; destruct H as (? & _ & U) end. unfold update_predictions in U. cbv zeta in U. binds U. injection U as <-. eexists. reflexivity.
  - cbv zeta in E. binds E. injection E as <-. eexists. reflexivity.
Qed.

(** ** Statistics *)
Lemma listed {A} (l : list A) (f : Z -> A) n : zlen l = Z.of_nat n -> (forall i, 0 <= i < Z.of_nat n -> znth l i = Some (f i)) -> l = map f (zseq 0 n).
Proof.
  intros L H. apply znth_ext'; [rewrite zlen_map; unfold zlen; rewrite zseq_length; exact L|]. intros i x y X Y. pose proof (znth_Some _ _ _ X). rewrite H in X by lia. injection X as <-.
  rewrite znth_map in Y. replace (znth (zseq 0 n) i) with (Some i) in Y; [now injection Y as <-|]. symmetry. clear -H0 L. assert (G : forall n a i, 0 <= i < Z.of_nat n -> znth (zseq a n) i = Some (a + i)).
  { clear. induction n as [|n IH]; intros a i I; [lia|]. cbn [zseq znth]. destruct (Z.eqb_spec i 0); [f_equal; lia|]. rewrite IH by lia. f_equal. lia. }
  rewrite G by lia. reflexivity.
Qed.
Lemma stats_accounted mo starts text l s : stats_ok mo starts text l s -> accounted starts text l s.
Proof.
  intros [A B [C1 C2] [D1 D2] [E1 E2] [F1 F2] G H _]. split; try assumption; (apply listed; [assumption|]); intros i I; [now apply C2|now apply D2|exact (E2 i I)|exact (F2 i I)].
Qed.
Lemma started_phase uses : forall ph ph', allowed_all ph uses = Some ph' -> forall n, match ph with Between => n mod 8 = 0 | Inside k => n mod 8 = k | Asked k => n mod 8 = k end -> 0 <= n ->
  (match ph' with Between => 0 | _ => 1 end) + (n + zlen (told uses)) / 8 = (match ph with Between => 0 | _ => 1 end) + n / 8 + started uses.
Proof.
  induction uses as [|u uses IH]; intros ph ph' A n N N0; cbn [allowed_all] in A.
  - injection A as <-. change (zlen (told [])) with 0. change (started []) with 0. rewrite Z.add_0_r. lia.
  - destruct (allowed ph u) as [ph1|] eqn:U; [|discriminate]. destruct ph as [|k|k], u as [| |b]; cbn [allowed] in U; try discriminate; injection U as <-.
    + specialize (IH _ _ A n N N0). change (told (Start :: uses)) with (told uses). replace (started (Start :: uses)) with (1 + started uses) by (unfold started; cbn [filter]; rewrite zlen_cons; reflexivity). destruct ph'; lia.
    + specialize (IH _ _ A n N N0). change (told (Predict :: uses)) with (told uses). change (started (Predict :: uses)) with (started uses). destruct ph'; cbn beta iota in *; lia.
    + change (told (Update b :: uses)) with (b :: told uses). change (started (Update b :: uses)) with (started uses). rewrite zlen_cons. destruct (k =? 7) eqn:K.
      * specialize (IH _ _ A (n + 1) ltac:(cbn beta iota in *; lia) ltac:(lia)). cbn beta in IH. replace (n + 1 + zlen (told uses)) with (n + (1 + zlen (told uses))) in IH by lia. destruct ph'; cbn beta iota in *; lia.
      * specialize (IH _ _ A (n + 1) ltac:(cbn beta iota in *; lia) ltac:(lia)). cbn beta in IH. replace (n + 1 + zlen (told uses)) with (n + (1 + zlen (told uses))) in IH by lia. destruct ph'; cbn beta iota in *; lia.
Qed.
Lemma combine_trace (trace : list (bit * Z)) extra : List.combine (map fst trace) (map snd trace ++ extra) = trace.
Proof. induction trace as [|(b & p) trace IH]; cbn [map app List.combine]; [destruct extra; reflexivity|]. now rewrite IH. Qed.
Lemma calls_accounted md t max mo uses p probabilities : luts_new = Ok t -> 0 < max <= 2 ^ 31 -> 0 <= mo -> 8 * mo + 7 < 2 ^ 16 -> zlen (told uses) < 2 ^ 47 - 1 ->
  use_all md t max mo uses = Ok (p, probabilities) -> accounted (started uses) (told uses) (ledger t max mo [] (trace_of uses probabilities)) (pr_stats p).
Proof.
  intros L M O D TL E. pose proof (calls_ok md t max mo uses L M O D TL) as H. clear L. destruct (allowed_all Between uses) as [ph|] eqn:A; [|rewrite E in H; discriminate].
  destruct H as (trace & st & E' & (F & P) & T & Z). rewrite E in E'. injection E' as <-. cbn [fst snd] in *. pose proof (started_phase uses Between ph A 0 eq_refl (Z.le_refl 0)) as S. cbn beta iota in S. change (0 / 8) with 0 in S. rewrite !Z.add_0_l in S.
  assert (LT : zlen (told uses) = zlen trace) by (rewrite <- T; apply zlen_map). unfold trace_of. rewrite LT in S. rewrite <- T. destruct ph as [|k|k].
  - destruct P as ((_ & _ & _ & [_ K _] & _) & ->). rewrite <- (app_nil_r (map snd trace)), combine_trace. rewrite <- S. apply stats_accounted with (mo := mo). exact K.
  - destruct P as (_ & (_ & _ & [_ K _] & _) & ->). rewrite <- (app_nil_r (map snd trace)), combine_trace. rewrite <- S. rewrite Z.add_comm. apply stats_accounted with (mo := mo). exact K.
  - destruct P as (_ & r & (_ & _ & [_ K _] & _) & ->). rewrite combine_trace. rewrite <- S. rewrite Z.add_comm. apply stats_accounted with (mo := mo). exact K.
Qed.

(** Sums *)
Lemma zsum_plus {A} (f g : A -> Z) l : zsum (map (fun i => f i + g i) l) = zsum (map f l) + zsum (map g l).
Proof. induction l as [|x l IH]; [reflexivity|]. cbn [map zsum fold_right] in *. unfold zsum in *. rewrite IH. lia. Qed.
Lemma zsum_class v c n : forall a, a <= c < a + Z.of_nat n -> zsum (map (fun i => if c =? i then v else 0) (zseq a n)) = v.
Proof.
  induction n as [|n IH]; intros a H; [lia|]. cbn [zseq map]. unfold zsum in *. cbn [fold_right]. destruct (Z.eqb_spec c a) as [->|N].
  - assert (G : forall n b, a < b -> fold_right Z.add 0 (map (fun i => if a =? i then v else 0) (zseq b n)) = 0).
    { clear. induction n as [|n IH]; intros b B; [reflexivity|]. cbn [zseq map fold_right]. rewrite IH by lia. replace (a =? b) with false by lia. reflexivity. }
    rewrite G by lia. lia.
  - rewrite IH by lia. lia.
Qed.
Lemma zsum_zero {A} (l : list A) : zsum (map (fun _ => 0) l) = 0.
Proof. induction l as [|x l IH]; [reflexivity|]. cbn [map]. unfold zsum in *. cbn [fold_right]. rewrite IH. reflexivity. Qed.
Lemma zsum_ext {A} (f g : A -> Z) l : (forall x, f x = g x) -> zsum (map f l) = zsum (map g l).
Proof. intros H. f_equal. now apply map_ext. Qed.
Lemma costs_cons P x l : costs P (x :: l) = (if charged x && P x then ln_cost x else 0) + costs P l.
Proof. unfold costs. cbn [filter]. destruct (charged x && P x); [|lia]. reflexivity. Qed.
Lemma costs_classes (Q : line -> bool) c n l : (forall x, In x l -> charged x = true -> Q x = true -> 0 <= c x < Z.of_nat n) ->
  zsum (map (fun i => costs (fun x => Q x && (c x =? i)) l) (zseq 0 n)) = costs Q l.
Proof.
  induction l as [|x l IH]; intros H.
  - change (costs Q []) with 0. etransitivity; [|apply (zsum_zero (zseq 0 n))]. now apply zsum_ext.
  - rewrite costs_cons, <- IH by (intros y Y; apply H; now right).
    rewrite (zsum_ext _ (fun i => (if charged x && (Q x && (c x =? i)) then ln_cost x else 0) + costs (fun x => Q x && (c x =? i)) l)) by (intros i; apply costs_cons). rewrite zsum_plus. f_equal.
    destruct (charged x) eqn:C, (Q x) eqn:K; cbn [andb]; try apply zsum_zero. apply zsum_class. apply H; [now left|exact C|exact K].
Qed.
Lemma filter_classes {A} (f : A -> Z) n l : Forall (fun x => 0 <= f x < Z.of_nat n) l -> zsum (map (fun i => zlen (filter (fun x => f x =? i) l)) (zseq 0 n)) = zlen l.
Proof.
  induction 1 as [|x l H _ IH]; [apply zsum_zero|]. rewrite zlen_cons, <- IH.
  rewrite (zsum_ext _ (fun i => (if f x =? i then 1 else 0) + zlen (filter (fun x => f x =? i) l))).
  - rewrite zsum_plus, zsum_class by lia. lia.
  - intros i. cbn [filter]. destruct (f x =? i); [rewrite zlen_cons|]; lia.
Qed.
Lemma calls_lines md t max mo uses p probabilities : luts_new = Ok t -> 0 < max <= 2 ^ 31 -> 0 <= mo -> 8 * mo + 7 < 2 ^ 16 -> zlen (told uses) < 2 ^ 47 - 1 ->
  use_all md t max mo uses = Ok (p, probabilities) -> Forall (line_ok mo) (ledger t max mo [] (trace_of uses probabilities)) /\ zlen (trace_of uses probabilities) <= 8 * started uses /\ zlen (trace_of uses probabilities) = zlen (told uses).
Proof.
  intros L M O D TL E. pose proof (calls_ok md t max mo uses L M O D TL) as H. clear L. destruct (allowed_all Between uses) as [ph|] eqn:A; [|rewrite E in H; discriminate].
  destruct H as (trace & st & E' & (F & P) & T & Z). rewrite E in E'. injection E' as <-. cbn [fst snd] in *. pose proof (started_phase uses Between ph A 0 eq_refl (Z.le_refl 0)) as S. cbn beta iota in S. change (0 / 8) with 0 in S. rewrite !Z.add_0_l in S.
  assert (LT : zlen (told uses) = zlen trace) by (rewrite <- T; apply zlen_map). unfold trace_of. rewrite LT in *. rewrite <- T. pose proof (zlen_nonneg trace). destruct ph as [|k|k].
  - destruct P as ((N & _ & _ & [_ _ K] & _) & ->). rewrite <- (app_nil_r (map snd trace)), combine_trace. split; [exact K|]. split; [|reflexivity]. unfold unfinished in *. rewrite ?zlen_map in N. clear -S N H. lia.
  - destruct P as (_ & (_ & _ & [_ _ K] & _) & ->). rewrite <- (app_nil_r (map snd trace)), combine_trace. split; [exact K|]. split; [|reflexivity]. clear -S H. lia.
  - destruct P as (_ & r & (_ & _ & [_ _ K] & _) & ->). rewrite combine_trace. split; [exact K|]. split; [|reflexivity]. clear -S H. lia.
Qed.
Lemma ledger_bytes t max mo trace : forall before, Forall (fun x => zlen before / 8 <= ln_byte x /\ 8 * ln_byte x < zlen before + zlen trace) (ledger t max mo before trace).
Proof.
  induction trace as [|(b & p) trace IH]; intros before; cbn [ledger]; [constructor|]. pose proof (zlen_nonneg before). pose proof (zlen_nonneg trace). rewrite zlen_cons. constructor; [cbn [ln_byte]; lia|].
  eapply Forall_impl; [|apply IH]. cbn beta. intros x. rewrite zlen_app. change (zlen [b]) with 1. lia.
Qed.
Lemma text_byte_range text k : 0 <= text_byte text k < 256.
Proof.
  unfold text_byte. pose proof (number_of_nonneg (bits_at text k 8)) as N. assert (L : zlen (bits_at text k 8) <= 8) by (unfold bits_at, zlen; rewrite firstn_length; lia).
  pose proof (Z.pow_le_mono_r 2 (zlen (bits_at text k 8)) 8 ltac:(lia) L) as P. change (2 ^ 8) with 256 in P. split; [exact (proj1 N)|]. exact (Z.lt_le_trans _ _ _ (proj2 N) P).
Qed.
Lemma accounted_sums starts max mo t text trace s : 0 <= mo -> accounted starts text (ledger t max mo [] trace) s -> Forall (line_ok mo) (ledger t max mo [] trace) -> zlen trace <= 8 * starts -> zlen trace = zlen text ->
  zsum (st_order_costs s) = st_total_cost s /\ (0 < starts -> zsum (st_symbol_costs s) + st_byte_cost s = st_total_cost s) /\ (0 < starts -> zsum (st_symbol_counts s) = starts - 1).
Proof.
  intros O A F L LT. rewrite (ac_costs _ _ _ _ A), (ac_total _ _ _ _ A), (ac_symbol_costs _ _ _ _ A), (ac_symbol_counts _ _ _ _ A). set (l := ledger t max mo [] trace) in *. rewrite Forall_forall in F.
  assert (B : forall x, In x l -> 0 <= ln_byte x /\ 8 * ln_byte x < zlen trace).
  { apply Forall_forall. exact (ledger_bytes t max mo trace []). }
  split; [|split].
  - rewrite (zsum_ext _ (fun i => costs (fun x => every x && (type_of x =? i)) l)) by (intros i; now apply costs_ext). apply costs_classes. intros x X C _. exact (proj1 (type_range mo x (F x X) C)).
  - intros S. rewrite (ac_byte _ _ _ _ A S). rewrite costs_classes.
    + symmetry. apply costs_parts; intros x X; specialize (B x X); unfold every; lia.
    + intros x X _ _. exact (text_byte_range text (ln_byte x)).
  - intros S. rewrite filter_classes.
    + unfold zlen. rewrite zseq_length. lia.
    + apply Forall_forall. intros k _. exact (text_byte_range text k).
Qed.
Lemma calls_sums md t max mo uses p probabilities : luts_new = Ok t -> 0 < max <= 2 ^ 31 -> 0 <= mo -> 8 * mo + 7 < 2 ^ 16 -> zlen (told uses) < 2 ^ 47 - 1 ->
  use_all md t max mo uses = Ok (p, probabilities) ->
  zsum (st_order_costs (pr_stats p)) = st_total_cost (pr_stats p) /\ (0 < started uses -> zsum (st_symbol_costs (pr_stats p)) + st_byte_cost (pr_stats p) = st_total_cost (pr_stats p)) /\ (0 < started uses -> zsum (st_symbol_counts (pr_stats p)) = started uses - 1).
Proof.
  intros L M O D TL E. pose proof (calls_accounted md t max mo uses p probabilities L M O D TL E) as A. destruct (calls_lines md t max mo uses p probabilities L M O D TL E) as (F & B & T). exact (accounted_sums _ max mo t _ _ _ O A F B T).
Qed.

(** Files *)
Lemma byte_number x : 0 <= x < 256 -> number_of (byte_bits x) = x.
Proof.
  intros X. assert (C : forallb (fun x => number_of (byte_bits x) =? x) (zseq 0 256) = true) by (vm_compute; reflexivity). rewrite forallb_forall in C. apply Z.eqb_eq. apply C. apply zseq_In. lia.
Qed.
Lemma file_byte bytes k x : Forall (fun x => 0 <= x < 256) bytes -> znth bytes k = Some x -> text_byte (bit_string bytes) k = x.
Proof.
  intros F K. pose proof (znth_Some _ _ _ K) as R. unfold text_byte, bits_at. replace (Z.to_nat (8 * k)) with (8 * Z.to_nat k)%nat by lia. rewrite skip_bytes.
  assert (S : exists rest, skipn (Z.to_nat k) bytes = x :: rest).
  { clear F R. assert (KK : 0 <= k) by (pose proof (znth_Some _ _ _ K); lia). revert k K KK. induction bytes as [|y bytes IH]; intros k K KK; [discriminate|]. cbn [znth] in K. destruct (Z.eqb_spec k 0) as [Z0|N]; [rewrite Z0; injection K as <-; eexists; reflexivity|].
    replace (Z.to_nat k) with (S (Z.to_nat (k - 1))) by lia. cbn [skipn]. apply IH; [exact K|lia]. }
  destruct S as (rest & ->). rewrite bit_string_cons. change (firstn (Z.to_nat 8) (byte_bits x ++ bit_string rest)) with (byte_bits x). apply byte_number. rewrite Forall_forall in F. apply F. exact (znth_In _ _ _ K).
Qed.
Lemma file_front front x v : Forall (fun x => 0 <= x < 256) (front ++ [x]) ->
  zlen (filter (fun k => text_byte (bit_string (front ++ [x])) k =? v) (zseq 0 (length front))) = zlen (filter (fun y => y =? v) front).
Proof.
  intros F. assert (E : front = map (fun k => text_byte (bit_string (front ++ [x])) k) (zseq 0 (length front))).
  { apply listed; [reflexivity|]. intros i I. destruct (znth_lt front i ltac:(unfold zlen; lia)) as (y & Y). rewrite Y. f_equal. symmetry. apply file_byte; [exact F|]. rewrite znth_app1 by (unfold zlen; lia). exact Y. }
  transitivity (zlen (filter (fun y => y =? v) (map (fun k => text_byte (bit_string (front ++ [x])) k) (zseq 0 (length front))))); [|rewrite <- E; reflexivity]. generalize (zseq 0 (length front)) as l. clear E F. induction l as [|k l IH]; [reflexivity|]. cbn [filter map]. destruct (_ =? v); rewrite ?zlen_cons, IH; reflexivity.
Qed.
Lemma file_stats md t max mo bytes : luts_new = Ok t -> 0 < max <= 2 ^ 31 -> 0 <= mo -> 8 * mo + 7 < 2 ^ 16 -> 8 * zlen bytes < 2 ^ 47 - 1 -> Forall (fun x => 0 <= x < 256) bytes ->
  exists p probabilities, use_all md t max mo (uses_of bytes) = Ok (p, probabilities) /\ st_total_bytes (pr_stats p) = zlen bytes /\
    st_total_cost (pr_stats p) = costs every (ledger t max mo [] (List.combine (bit_string bytes) probabilities)) /\ zsum (st_order_costs (pr_stats p)) = st_total_cost (pr_stats p) /\
    (bytes <> [] -> zsum (st_symbol_costs (pr_stats p)) + st_byte_cost (pr_stats p) = st_total_cost (pr_stats p) /\
      st_symbol_counts (pr_stats p) = map (fun v => zlen (filter (fun y => y =? v) (removelast bytes))) (zseq 0 256) /\ zsum (st_symbol_counts (pr_stats p)) = zlen bytes - 1).
Proof.
  intros L M O D TL F. destruct (file_predicted md t max mo bytes L M O D TL) as (p & probs & E & _). exists p, probs. split; [exact E|].
  assert (TT : zlen (told (uses_of bytes)) < 2 ^ 47 - 1) by (rewrite told_file, zlen_bits; exact TL). pose proof (calls_accounted md t max mo _ p probs L M O D TT E) as A. destruct (calls_sums md t max mo _ p probs L M O D TT E) as (S1 & S2 & S3).
  clear L. unfold trace_of in *. rewrite started_file, told_file in *. split; [exact (ac_bytes _ _ _ _ A)|]. split; [exact (ac_total _ _ _ _ A)|]. split; [exact S1|]. intros NE.
  assert (P : 0 < zlen bytes) by (destruct bytes; [congruence|]; rewrite zlen_cons; pose proof (zlen_nonneg bytes); lia).
  split; [exact (S2 P)|]. split; [|exact (S3 P)]. rewrite (ac_symbol_counts _ _ _ _ A). apply map_ext. intros v. destruct (exists_last NE) as (front & x & ->). rewrite removelast_last. rewrite <- (file_front front x v F). f_equal. f_equal. f_equal. rewrite zlen_app. change (zlen [x]) with 1. unfold zlen. lia.
Qed.
Lemma nothing_met mo text : zlen text < 8 -> met mo text = 0.
Proof.
  intros T. unfold met. replace (filter _ _) with (@nil Z); [reflexivity|]. symmetry. assert (G : forall l, Forall (fun o => 0 <= o) l -> filter (fun o => match followers text o with [] => false | _ :: _ => true end) l = []).
  { induction 1 as [|o l O _ IH]; [reflexivity|]. cbn [filter]. rewrite IH. replace (followers text o) with (@nil bit); [reflexivity|]. unfold followers, earlier, last_start. pose proof (zlen_nonneg text). assert (ZZ : zlen text / 8 - o <= 0) by lia. destruct (Z.to_nat (zlen text / 8 - o)) eqn:N; [reflexivity|lia]. }
  apply G. apply Forall_forall. intros o H. apply zseq_In in H. lia.
Qed.
Lemma first_byte_free t max mo trace : 0 < max -> forall before, zlen before + zlen trace <= 8 -> costs every (ledger t max mo before trace) = 0.
Proof.
  intros M. induction trace as [|(b & p) trace IH]; intros before B; [reflexivity|]. cbn [ledger]. rewrite zlen_cons in B. pose proof (zlen_nonneg before). pose proof (zlen_nonneg trace). rewrite costs_cons, IH by (rewrite zlen_app; change (zlen [b]) with 1; lia).
  unfold charged. cbn [ln_met]. rewrite nothing_met; [reflexivity|]. unfold in_window, forgotten. destruct (Z.to_nat (8 * Z.max 0 (zlen before / 8 + 1 - max))) eqn:N; [cbn [skipn]; lia|lia].
Qed.
Lemma bits_cost t trace : luts_ok t -> Forall (fun x => 1 <= snd x < 2 ^ 23) trace -> zlen trace <= zsum (map (fun x => cost_of t (snd x) (fst x)) trace).
Proof.
  intros T. induction 1 as [|(b & p) trace P _ IH]; [reflexivity|]. rewrite zlen_cons. cbn [map fst snd] in *. unfold zsum in *. cbn [fold_right]. assert (1 <= cost_of t p b); [|lia].
  unfold cost_of. rewrite (estimate_cost_lean (lt_log2 t) p b (lk_log2 t T)) by lia. pose proof (neg_log_range (if b then 2 ^ 23 - p else p) ltac:(destruct b; lia)). lia.
Qed.
Lemma one_byte_free md t max mo x : luts_new = Ok t -> 0 < max <= 2 ^ 31 -> 0 <= mo -> 8 * mo + 7 < 2 ^ 16 ->
  exists p probabilities, use_all md t max mo (uses_of [x]) = Ok (p, probabilities) /\ st_total_cost (pr_stats p) = 0 /\
    8 <= zsum (map (fun x => cost_of t (snd x) (fst x)) (List.combine (byte_bits x) probabilities)).
Proof.
  intros L M O D. destruct (file_predicted md t max mo [x] L M O D ltac:(reflexivity)) as (p & probs & E & Z & F). exists p, probs. split; [exact E|].
  pose proof (calls_accounted md t max mo (uses_of [x]) p probs L M O D ltac:(reflexivity) E) as A. split.
  - rewrite (ac_total _ _ _ _ A). apply first_byte_free; [lia|]. unfold trace_of, zlen. rewrite combine_length. change (length (told (uses_of [x]))) with 8%nat. cbn [length]. lia.
  - pose proof (luts_ok_of t L) as T. clear L A. change (8 * zlen [x]) with 8 in Z. assert (ZC : zlen (List.combine (byte_bits x) probs) = 8) by (unfold zlen in *; rewrite combine_length; change (length (byte_bits x)) with 8%nat; lia).
    rewrite <- ZC. apply bits_cost; [exact T|]. apply Forall_forall. intros (b & q) I. apply in_combine_r in I. rewrite Forall_forall in F. specialize (F q I). cbn [snd]. lia.
Qed.

(** ** The chain can be used *)
Lemma chain_usable t : luts_new = Ok t -> exists kits kits' r, chain_new t 1 = Ok kits /\ chain_predict t kits [ForEdge 1 3 Zero; ForEdge 1 2 Zero] 97 = Ok (kits', r) /\
  exists kits'' trackers, chain_update t kits' One [ForEdge 1 3 Zero; ForEdge 1 2 Zero] = Ok (kits'', trackers).
Proof.
  intros L. apply luts_ok_of in L. destruct (chain_made t 1 L ltac:(lia)) as (kits & E & I). exists kits.
  assert (S : Forall state_ok [ForEdge 1 3 Zero; ForEdge 1 2 Zero]) by (repeat constructor; cbn; lia).
  destruct (chain_predict_ok t 1 kits [ForEdge 1 3 Zero; ForEdge 1 2 Zero] 97 L I ltac:(cbn; lia) S) as (kits' & r & P & B & _).
  - intros i s s' A C. destruct (Z.eq_dec i 0) as [->|N]; [injection A as <-; injection C as <-; discriminate|]. apply znth_Some in C. change (zlen [ForEdge 1 3 Zero; ForEdge 1 2 Zero]) with 2 in C. apply znth_Some in A. lia.
  - lia.
  - lia.
  - exists kits', r. split; [exact E|]. split; [exact P|]. destruct (chain_update_ok t 1 kits' [ForEdge 1 3 Zero; ForEdge 1 2 Zero] One L B ltac:(cbn; lia) S) as (k & trs & U & _). eauto.
Qed.
Lemma program_predicted t bytes : luts_new = Ok t -> 8 * zlen bytes < 2 ^ 47 - 1 ->
  exists p probabilities, (let* p := predictor_new t in mfold (use_step ModeLight t) (uses_of bytes) (p, [])) = Ok (p, probabilities) /\ zlen probabilities = 8 * zlen bytes /\
    Forall (fun r => 1 <= r <= 2 ^ 23 - 1) probabilities.
Proof.
  intros L B. unfold predictor_new. fold (use_all ModeLight t 10000000 20 (uses_of bytes)). apply file_predicted; [exact L|clear L; pow2; lia|discriminate|reflexivity|exact B].
Qed.
Lemma chain_blind : exists contexts, forall t kits byte b, chain_predict t kits contexts byte = Ok (kits, (2 ^ 30, 0)) /\ chain_update t kits b contexts = Ok (kits, []).
Proof. exists []. intros t kits byte b. split; reflexivity. Qed.
