(** The predictors of single contexts and the chain of them. *)
From Coq Require Import ZifyBool.
From Verif Require Import Base BaseFacts FixedModel FixedProofs UtilModel UtilSpec UtilProofs StateModel StateSpec StateProofs EstModel EstProofs LogModel LogProofs LutModel LutTable LutProofs LutRound
  ApmModel ApmProofs StatesModel StatesSpec StatesProofs MixerModel MixerSpec MixerProofs TreeModel RandomProofs PredModel PredKits.
Ltac Zify.zify_post_hook ::= Z.div_mod_to_equations.

Definition tracker_ok (c : cost_trackers) : Prop := 0 <= fst c <= 65535 /\ 0 <= snd c <= 65535.
(** What is needed of a context state. *)
Definition state_ok (s : context_state) : Prop :=
  match s with
  | ForEdge _ c _ => 1 <= c <= 1000
  | ForNode _ e _ q tr => de_valid e /\ (exists h, q = br_state h) /\ tracker_ok tr
  end.
Definition edge_dims : list Z := [20; 256].
Definition node_dims : list Z := [20; 2].
Definition edge_mixer_dims : list Z := [2; 3; 4; 2].
Definition node_mixer_dims : list Z := [2; 3; 6; 4; 32].
Lemma dims_small dims : forallb (fun d => 1 <=? d) dims = true -> product dims <= 100000 -> zlen dims < 100 -> dims_ok dims.
Proof.
  intros F P L. split; [|split].
  - apply Forall_forall. intros x X. rewrite forallb_forall in F. specialize (F x X). lia.
  - ib. lia.
  - change (2 ^ 63) with 9223372036854775808. lia.
Qed.
Lemma edge_dims_ok : dims_ok edge_dims. Proof. apply dims_small; [reflexivity|vm_compute; discriminate|reflexivity]. Qed.
Lemma node_dims_ok : dims_ok node_dims. Proof. apply dims_small; [reflexivity|vm_compute; discriminate|reflexivity]. Qed.
Lemma edge_mixer_dims_ok : dims_ok edge_mixer_dims. Proof. apply dims_small; [reflexivity|vm_compute; discriminate|reflexivity]. Qed.
Lemma node_mixer_dims_ok : dims_ok node_mixer_dims. Proof. apply dims_small; [reflexivity|vm_compute; discriminate|reflexivity]. Qed.

Lemma quantize_small x : 0 <= x <= 1000 -> exists q, quantize x = Ok q /\ 0 <= q <= 19.
Proof.
  intros X. destruct (quantize_spec x ltac:(lia)) as (q & E & B & _). exists q. split; [exact E|].
  pose proof (quantize_monotone x 1000 q 19 ltac:(lia) ltac:(lia) E ltac:(vm_compute; reflexivity)). lia.
Qed.
Lemma distance_small d : 0 <= quantize_distance d <= 3.
Proof. unfold quantize_distance. destruct (d <? 100), (d <? 1000), (d <? 10000); lia. Qed.
Lemma trackers_small c : tracker_ok c -> exists q, quantize_cost_trackers c = Ok q /\ 0 <= q <= 5.
Proof.
  destruct c as (s & n). intros (S & N). cbn [fst snd] in *. unfold quantize_cost_trackers.
  rewrite add_ok by (ib; lia). cbn [bind]. destruct (_ <? n); [eexists; split; [reflexivity|lia]|].
  rewrite add_ok by (ib; lia). cbn [bind]. destruct (_ <? n); [eexists; split; [reflexivity|lia]|].
  destruct (_ <? n); [eexists; split; [reflexivity|lia]|].
  rewrite add_ok by (ib; lia). cbn [bind]. destruct (s <? _); [eexists; split; [reflexivity|lia]|].
  rewrite add_ok by (ib; lia). cbn [bind]. destruct (s <? _); eexists; split; try reflexivity; lia.
Qed.
Lemma bit_small b : 0 <= bit_z b < 2. Proof. destruct b; cbn; lia. Qed.

(** ** One order *)
Definition single_fixed (sg : single) : Prop := result_ok (sg_fixed sg).
Definition single_idle (sg : single) : Prop := single_fixed sg /\ est_idle edge_dims (sg_edge sg) /\ est_idle node_dims (sg_node sg).
Definition single_busy (node : bool) (sg : single) : Prop :=
  single_fixed sg /\ (if node then est_idle edge_dims (sg_edge sg) /\ est_busy node_dims (sg_node sg) else est_busy edge_dims (sg_edge sg) /\ est_idle node_dims (sg_node sg)).
Definition edge_places (a b c d : Z * Z) : list (Z * (Z * Z)) := [(0, a); (1, b); (2, c); (3, d)].
Definition node_places (a b c : Z * Z) : list (Z * (Z * Z)) := [(0, a); (1, b); (2, c)].
Definition edge_mix_idle : mixer_kit -> Prop := mix_idle edge_mixer_dims 4 300.
Definition node_mix_idle : mixer_kit -> Prop := mix_idle node_mixer_dims 3 100.
Definition edge_mix_busy (k : mixer_kit) : Prop := exists a b c d, mix_busy edge_mixer_dims 4 300 (rev (edge_places a b c d)) k.
Definition node_mix_busy (k : mixer_kit) : Prop := exists a b c, mix_busy node_mixer_dims 3 100 (rev (node_places a b c)) k /\ result_ok b /\ result_ok c.

Lemma single_made t : luts_ok t -> exists sg, single_new t = Ok sg /\ single_idle sg.
Proof.
  intros T. unfold single_new. replace (quantize max_run_length) with (Ok 19) by (vm_compute; reflexivity). cbn [bind].
  replace (shl i32 2 21) with (Ok 4194304) by (vm_compute; reflexivity). cbn [bind].
  replace (fix_new stretched_d 4194304 21) with (Ok 4194304) by (vm_compute; reflexivity). cbn [bind].
  rewrite (squash_lean _ 4194304 (lk_squash t T)) by (pow2; lia). cbn [bind].
  replace (add usize 19 1) with (Ok 20) by (vm_compute; reflexivity). cbn [bind].
  destruct (ix_new_rel edge_dims 2 eq_refl) as (ix1 & E1 & R1). unfold edge_dims in E1. rewrite E1. cbn [bind].
  destruct (est_kit_made edge_dims ix1 edge_dims_ok R1) as (k1 & -> & I1). cbn [bind].
  destruct (ix_new_rel node_dims 2 eq_refl) as (ix2 & E2 & R2). unfold node_dims in E2. rewrite E2. cbn [bind].
  destruct (est_kit_made node_dims ix2 node_dims_ok R2) as (k2 & -> & I2). cbn [bind].
  eexists. split; [reflexivity|]. split; [|split; assumption]. unfold single_fixed, result_ok. cbn [sg_fixed fst snd].
  pose proof (lean_squash_range 4194304 ltac:(pow2; lia)). pow2. lia.
Qed.

Lemma direct_ok t n : luts_ok t -> 0 <= n <= 1000 -> exists p, direct_for_0_bit_run t n = Ok (p * 512, lean_stretch (p * 512)) /\ 0 < p < 2 ^ 22.
Proof.
  intros T N. destruct (lk_direct t T n N) as (p & c & _ & E & P & _). exists p. split; [|exact P]. unfold direct_for_0_bit_run.
  rewrite assert_true by (unfold max_count; lia). cbn [bind]. now apply get_ok.
Qed.
Lemma pair_result p : 0 < p < 2 ^ 31 -> result_ok (p, lean_stretch p).
Proof. intros P. unfold result_ok. cbn [fst snd]. pose proof (stretch_range p P). split; pow2; lia. Qed.

(** A prediction of the chain so far. *)
Definition paired (t : luts) (r : Z * Z) : Prop := result_ok r /\ squash (lt_squash t) (snd r) = Ok (fst r).

Lemma edge_predict_ok t sg kit given d c b byte lower : luts_ok t -> single_idle sg -> mix_ready edge_mixer_dims 4 300 given kit -> valid_tuple [2; 3] given ->
  1 <= c <= 1000 -> 0 <= byte < 256 -> result_ok lower ->
  exists sg' kit' r, single_predict t sg kit (ForEdge d c b) byte lower = Ok (sg', kit', r) /\ single_busy false sg' /\ edge_mix_busy kit' /\ paired t r.
Proof.
  intros T (SF & IE & IN) MR VG C BY LO. unfold single_predict. destruct (quantize_small c ltac:(lia)) as (q & -> & Q). cbn [bind].
  destruct (est_predict_ok t edge_dims (sg_edge sg) [q; byte] T edge_dims_ok IE) as (k' & r1 & -> & B1 & R1).
  { repeat constructor; lia. }
  cbn [bind]. destruct (direct_ok t c T ltac:(lia)) as (p & -> & P). cbn [bind].
  pose proof (pair_result (p * 512) ltac:(pow2; lia)) as R2. pose proof (distance_small d) as DS. pose proof (bit_small b) as BS.
  destruct (mix_predict_ok t edge_mixer_dims 4 300 given kit [quantize_distance d; bit_z b] (edge_places lower (p * 512, lean_stretch (p * 512)) (sg_fixed sg) r1)
    T edge_mixer_dims_ok ltac:(lia) MR) as (kit' & r & E & MB & RO & SQ).
  { unfold edge_mixer_dims. inversion VG as [|x y l l' A V1]; subst. inversion V1 as [|x' y' l2 l2' A' V2]; subst. inversion V2; subst. cbn [app]. repeat (constructor; [lia|]). constructor. }
  { reflexivity. } { reflexivity. }
  { unfold edge_places. repeat (constructor; [assumption|]). constructor. }
  unfold edge_places in E at 1. rewrite E. cbn [bind]. eexists. eexists. eexists. split; [reflexivity|]. split; [split; [exact SF|split; assumption]|].
  split; [exists lower, (p * 512, lean_stretch (p * 512)), (sg_fixed sg), r1; exact MB|]. split; assumption.
Qed.
Lemma node_predict_ok t sg kit given d e rb q tr byte lower : luts_ok t -> single_idle sg -> mix_ready node_mixer_dims 3 100 given kit -> valid_tuple [2; 3] given ->
  state_ok (ForNode d e rb q tr) -> result_ok lower ->
  exists sg' kit' r, single_predict t sg kit (ForNode d e rb q tr) byte lower = Ok (sg', kit', r) /\ single_busy true sg' /\ node_mix_busy kit' /\ paired t r.
Proof.
  intros T (SF & IE & IN) MR VG ((p & n & -> & P & N & _) & (h & ->) & TR) LO. unfold single_predict. rewrite de_prediction_at by (pow2; lia). cbn [bind].
  rewrite (stretch_lean _ (p * 512) (lk_stretch t T)) by (pow2; lia). cbn [bind].
  pose proof (capped_range h 0) as C0. pose proof (capped_range h 1) as C1. pose proof (capped_range h 2) as C2.
  unfold br_state. rewrite br_pack_1 by assumption. cbn [bind]. destruct (quantize_small _ C0) as (q1 & -> & Q1). cbn [bind].
  rewrite br_pack_last. set (b := fst (nth 0 (runs h) (false, 0))). pose proof (bit_small b) as BS.
  destruct (est_predict_ok t node_dims (sg_node sg) [q1; bit_z b] T node_dims_ok IN) as (k' & r1 & -> & B1 & R1).
  { repeat constructor; lia. }
  cbn [bind]. rewrite br_pack_2 by assumption. cbn [bind]. destruct (quantize_small _ C1) as (q2 & -> & Q2). cbn [bind].
  destruct (trackers_small tr TR) as (q3 & -> & Q3). cbn [bind].
  pose proof (pair_result (p * 512) ltac:(pow2; lia)) as R2. pose proof (distance_small d) as DS.
  destruct (mix_predict_ok t node_mixer_dims 3 100 given kit [q3; quantize_distance d; q2] (node_places lower (p * 512, lean_stretch (p * 512)) r1)
    T node_mixer_dims_ok ltac:(lia) MR) as (kit' & r & E & MB & RO & SQ).
  { unfold node_mixer_dims. inversion VG as [|x y l l' A V1]; subst. inversion V1 as [|x' y' l2 l2' A' V2]; subst. inversion V2; subst. cbn [app]. repeat (constructor; [lia|]). constructor. }
  { reflexivity. } { reflexivity. }
  { unfold node_places. repeat (constructor; [assumption|]). constructor. }
  unfold node_places in E at 1. rewrite E. cbn [bind]. eexists. eexists. eexists. split; [reflexivity|]. split; [split; [exact SF|split; assumption]|].
  split; [exists lower, (p * 512, lean_stretch (p * 512)), r1; auto|]. split; assumption.
Qed.

Lemma cost_step_ok t x p b : luts_ok t -> 0 <= x <= 65535 -> 0 < p < 2 ^ 31 -> exists x', cost_updated_on_bit (lt_log2 t) x p b = Ok x' /\ 0 <= x' <= 65535.
Proof.
  intros T X P. unfold cost_updated_on_bit. rewrite to_final by lia. cbn [bind].
  set (q := Z.max 1 (Z.min ((p + 128) / 256) (2 ^ 23 - 1))). assert (Q : 1 <= q < 2 ^ 23) by (clear - q; unfold q; pow2; lia). clearbody q.
  rewrite (estimate_cost_lean (lt_log2 t) q b (lk_log2 t T) Q).
  assert (N : 1 <= neg_log (if b then 2 ^ 23 - q else q) <= 23 * 2048) by (apply neg_log_range; destruct b; lia).
  revert N. generalize (neg_log (if b then 2 ^ 23 - q else q)). intros c N. cbn [bind].
  clear - X N. rewrite cost_updated_at by lia. eexists. split; [reflexivity|]. lia.
Qed.
Lemma edge_update_ok t sg kit d c b x : luts_ok t -> single_busy false sg -> edge_mix_busy kit ->
  exists sg' kit', single_update t sg kit (ForEdge d c b) x = Ok (sg', kit', None) /\ single_idle sg' /\ edge_mix_idle kit'.
Proof.
  intros T (SF & BE & IN) (a & b' & c' & d' & MB). unfold single_update. destruct (est_update_ok t edge_dims _ x T BE) as (k' & -> & I'). cbn [bind].
  destruct (mix_update_ok t edge_mixer_dims 4 300 _ kit x T ltac:(lia) MB) as (kit' & r & -> & MI). cbn [bind].
  eexists. eexists. split; [reflexivity|]. split; [split; [exact SF|split; assumption]|exact MI].
Qed.
Lemma node_update_ok t sg kit d e rb q tr x : luts_ok t -> single_busy true sg -> node_mix_busy kit -> tracker_ok tr ->
  exists sg' kit' c, single_update t sg kit (ForNode d e rb q tr) x = Ok (sg', kit', Some c) /\ single_idle sg' /\ node_mix_idle kit' /\ tracker_ok c.
Proof.
  intros T (SF & IE & BN) (a & (b1 & b2) & (c1 & c2) & MB & RB & RC) (T1 & T2). unfold single_update. destruct (est_update_ok t node_dims _ x T BN) as (k' & -> & I'). cbn [bind].
  assert (ND : NoDup (map fst (rev (node_places a (b1, b2) (c1, c2))))) by (cbn; repeat constructor; cbn; intuition discriminate).
  destruct (current_reads node_mixer_dims 3 100 _ kit 1 b1 b2 MB ltac:(lia) ltac:(cbn; auto) ND) as (m & CM & P1).
  destruct (current_reads node_mixer_dims 3 100 _ kit 2 c1 c2 MB ltac:(lia) ltac:(cbn; auto) ND) as (m' & CM' & P2).
  rewrite CM in CM'. injection CM' as <-. rewrite CM. cbn [bind]. rewrite P1, P2. cbn [bind]. unfold ct_updated.
  destruct (cost_step_ok t (fst tr) b1 x T T1 (proj1 RB)) as (x1 & -> & X1). cbn [bind].
  destruct (cost_step_ok t (snd tr) c1 x T T2 (proj1 RC)) as (x2 & -> & X2). cbn [bind].
  destruct (mix_update_ok t node_mixer_dims 3 100 _ kit x T ltac:(lia) MB) as (kit' & r & -> & MI). cbn [bind].
  eexists. eexists. eexists. split; [reflexivity|]. split; [split; [exact SF|split; assumption]|]. split; [exact MI|]. split; assumption.
Qed.

(** ** The chain *)
Definition order_idle (k : order_kit) : Prop := single_idle (ok_single k) /\ edge_mix_idle (ok_edge k) /\ node_mix_idle (ok_node k).
Definition order_busy (node : bool) (k : order_kit) : Prop :=
  single_busy node (ok_single k) /\ (if node then edge_mix_idle (ok_edge k) /\ node_mix_busy (ok_node k) else edge_mix_busy (ok_edge k) /\ node_mix_idle (ok_node k)).
Definition chain_idle (max_order : Z) (kits : list order_kit) : Prop := zlen kits = max_order + 1 /\ each order_idle kits.
(** The first [n] orders are between prediction and update, for the given contexts. *)
Definition chain_part (max_order : Z) (contexts : list context_state) (lo hi : Z) (kits : list order_kit) : Prop :=
  zlen kits = max_order + 1 /\ forall i k, znth kits i = Some k ->
    if (lo <=? i) && (i <? hi) then exists s, znth contexts i = Some s /\ order_busy (is_for_node s) k else order_idle k.
Lemma chain_part_none max_order contexts n kits : chain_part max_order contexts n n kits <-> chain_idle max_order kits.
Proof.
  unfold chain_part, chain_idle. split; intros (L & H); (split; [exact L|]).
  - intros i k K. specialize (H i k K). replace ((n <=? i) && (i <? n)) with false in H by lia. exact H.
  - intros i k K. replace ((n <=? i) && (i <? n)) with false by lia. exact (H _ _ K).
Qed.

Lemma order_kit_made t : luts_ok t -> exists k, order_kit_new t = Ok k /\ order_idle k.
Proof.
  intros T. unfold order_kit_new. destruct (single_made t T) as (sg & -> & SI). cbn [bind].
  destruct (ix_new_rel edge_mixer_dims 4 eq_refl) as (ix1 & E1 & R1). change ([2; 3] ++ edge_mixer_extra_dimensions) with edge_mixer_dims. rewrite E1. cbn [bind].
  destruct (fixed_made 4 10 DominantFirst ltac:(lia) ltac:(lia)) as (m1 & M1 & V1 & _).
  destruct (mixer_kit_made edge_mixer_dims 4 300 new_edge_mixer m1 ix1 edge_mixer_dims_ok R1 M1 ltac:(exists 10; split; [exact V1|lia])) as (k1 & -> & I1). cbn [bind].
  replace node_mixer_extra_dimensions with (Ok [6; 4; 32]) by (vm_compute; reflexivity). cbn [bind].
  destruct (ix_new_rel node_mixer_dims 5 eq_refl) as (ix2 & E2 & R2). change ([2; 3] ++ [6; 4; 32]) with node_mixer_dims. rewrite E2. cbn [bind].
  destruct (fixed_made 3 10 DominantFirst ltac:(lia) ltac:(lia)) as (m2 & M2 & V2 & _).
  destruct (mixer_kit_made node_mixer_dims 3 100 new_node_mixer m2 ix2 node_mixer_dims_ok R2 M2 ltac:(exists 10; split; [exact V2|lia])) as (k2 & -> & I2). cbn [bind].
  eexists. split; [reflexivity|]. split; [exact SI|]. split; assumption.
Qed.
Lemma chain_made t max_order : luts_ok t -> 0 <= max_order -> exists kits, chain_new t max_order = Ok kits /\ chain_idle max_order kits.
Proof.
  intros T M. unfold chain_new. destruct (order_kit_made t T) as (k & E & K).
  destruct (mmap_each (fun _ : Z => order_kit_new t) order_idle k (zseq 0 (Z.to_nat (max_order + 1))) (fun _ _ => E) K) as (kits & -> & L & EA).
  exists kits. split; [reflexivity|]. split; [|exact EA]. rewrite L, zlen_zseq. lia.
Qed.

(** Branching states come first. *)
Definition nodes_first (contexts : list context_state) : Prop :=
  forall i s s', znth contexts i = Some s -> znth contexts (i + 1) = Some s' -> is_for_node s' = true -> is_for_node s = true.

Lemma estimator_ok t s : luts_ok t -> state_ok s -> exists e, probability_estimator t s = Ok e.
Proof.
  intros T S. destruct s as [d c b|d e r q tr]; cbn [probability_estimator]; [|eauto]. destruct (direct_ok t c T ltac:(cbn in S; lia)) as (p & -> & P). cbn [bind fst].
  rewrite de_make_at by (cbn in S; pow2; lia). eauto.
Qed.
Lemma compare_ok t s s' : luts_ok t -> state_ok s -> state_ok s' -> (is_for_node s' = true -> is_for_node s = true) ->
  exists c, compare_context_states t s s' = Ok c /\ 0 <= c <= 2.
Proof.
  intros T S S' O. unfold compare_context_states. destruct (estimator_ok t s T S) as (e & E). destruct (estimator_ok t s' T S') as (e' & E').
  destruct (is_for_node s), (is_for_node s'); try (exists 2; split; [reflexivity|lia]).
  - rewrite E, E'. cbn [bind]. eexists. split; [reflexivity|]. destruct (e =? e'); lia.
  - now specialize (O eq_refl).
  - rewrite E, E'. cbn [bind]. eexists. split; [reflexivity|]. destruct (e =? e'); lia.
Qed.

Lemma chain_part_step max_order contexts i kits k s : chain_part max_order contexts 0 i kits -> 0 <= i < zlen kits -> znth contexts i = Some s ->
  order_busy (is_for_node s) k -> chain_part max_order contexts 0 (i + 1) (zupd kits i k).
Proof.
  intros (L & H) I S B. split; [now rewrite zlen_zupd|]. intros j x X. destruct (Z.eq_dec j i) as [->|N].
  - rewrite znth_zupd_same in X by exact I. injection X as <-. replace ((0 <=? i) && (i <? i + 1)) with true by lia. eauto.
  - rewrite znth_zupd_other in X by congruence. specialize (H _ _ X). replace ((0 <=? j) && (j <? i + 1)) with ((0 <=? j) && (j <? i)) by lia. exact H.
Qed.

Lemma chain_predict_ok t max_order kits contexts byte : luts_ok t -> chain_idle max_order kits -> zlen contexts <= max_order + 1 -> Forall state_ok contexts ->
  nodes_first contexts -> 0 <= byte < 256 -> max_order < 2 ^ 16 ->
  exists kits' r, chain_predict t kits contexts byte = Ok (kits', r) /\ chain_part max_order contexts 0 (zlen contexts) kits' /\ result_ok r /\
    (r = (2 ^ 30, 0) \/ squash (lt_squash t) (snd r) = Ok (fst r)).
Proof.
  intros T CI LE SO NF BY MO. unfold chain_predict.
  destruct (mfold_zseq (chain_predict_step t contexts byte) (fun i st => chain_part max_order contexts 0 i (fst st) /\ result_ok (snd st) /\
      (snd st = (2 ^ 30, 0) \/ squash (lt_squash t) (snd (snd st)) = Ok (fst (snd st)))) (length contexts) 0 (kits, (2 ^ 30, 0))) as ((kits' & r) & E & P1 & P2 & P3).
  2: { cbn [fst snd]. split; [apply chain_part_none; exact CI|]. split; [unfold result_ok; cbn [fst snd]; pow2; lia|now left]. }
  2: { exists kits', r. rewrite Z.add_0_l in P1. auto. }
  intros i (ks & last) I (CP & RO & _). cbn [fst snd] in *. unfold chain_predict_step. change (Z.of_nat (length contexts)) with (zlen contexts) in I.
  destruct (znth_lt contexts i ltac:(lia)) as (s & S). rewrite (get_ok _ _ _ S). cbn [bind]. pow2. rewrite sub_ok by (ib; lia). cbn [bind].
  pose proof (znth_Forall _ _ _ _ SO S) as SOK.
  assert (CMP : exists c, (if i =? 0 then Ok 0 else let* previous := get contexts (i - 1) in compare_context_states t previous s) = Ok c /\ 0 <= c <= 2).
  { destruct (Z.eqb_spec i 0); [exists 0; split; [reflexivity|lia]|]. destruct (znth_lt contexts (i - 1) ltac:(lia)) as (s0 & S0). rewrite (get_ok _ _ _ S0). cbn [bind].
    apply compare_ok; [exact T|exact (znth_Forall _ _ _ _ SO S0)|exact SOK|]. intros N. apply (NF (i - 1) s0 s S0); [now replace (i - 1 + 1) with i by lia|exact N]. }
  destruct CMP as (c & -> & CB). cbn [bind]. pose proof (proj1 CP) as KL. destruct (znth_lt ks i ltac:(lia)) as (k & K). rewrite (get_ok _ _ _ K). cbn [bind].
  pose proof (proj2 CP i k K) as OI. replace ((0 <=? i) && (i <? i)) with false in OI by lia. destruct OI as (SI & EI & NI).
  set (is_max := if zlen contexts - 1 =? i then 1 else 0). assert (MX : 0 <= is_max < 2) by (unfold is_max; destruct (_ =? i); lia). clearbody is_max.
  assert (VG : valid_tuple [2; 3] [is_max; c]) by (repeat (constructor; [lia|]); constructor).
  destruct s as [d n b|d e rb q tr]; cbn [is_for_node].
  - destruct (pre_predict_ok edge_mixer_dims 4 300 (ok_edge k) [is_max; c] edge_mixer_dims_ok EI VG) as (kit1 & -> & MR). cbn [bind].
    destruct (edge_predict_ok t (ok_single k) kit1 [is_max; c] d n b byte last T SI MR VG SOK ltac:(lia) RO) as (sg' & kit2 & r & -> & SB & MB & RO' & SQ). cbn [bind].
    rewrite set_ok by lia. cbn [bind]. eexists. split; [reflexivity|]. cbn [fst snd]. split; [|split; [exact RO'|now right]].
    eapply chain_part_step; [exact CP|lia|exact S|]. cbn [is_for_node]. split; [exact SB|]. split; [exact MB|exact NI].
  - destruct (pre_predict_ok node_mixer_dims 3 100 (ok_node k) [is_max; c] node_mixer_dims_ok NI VG) as (kit1 & -> & MR). cbn [bind].
    destruct (node_predict_ok t (ok_single k) kit1 [is_max; c] d e rb q tr byte last T SI MR VG SOK RO) as (sg' & kit2 & r & -> & SB & MB & RO' & SQ). cbn [bind].
    rewrite set_ok by lia. cbn [bind]. eexists. split; [reflexivity|]. cbn [fst snd]. split; [|split; [exact RO'|now right]].
    eapply chain_part_step; [exact CP|lia|exact S|]. cbn [is_for_node]. split; [exact SB|]. split; [exact EI|exact MB].
Qed.

Lemma filter_firstn_step (contexts : list context_state) i s : znth contexts i = Some s ->
  zlen (filter is_for_node (firstn (Z.to_nat (i + 1)) contexts)) = zlen (filter is_for_node (firstn (Z.to_nat i) contexts)) + (if is_for_node s then 1 else 0).
Proof.
  intros S. pose proof (znth_Some _ _ _ S) as I. replace (Z.to_nat (i + 1)) with (Datatypes.S (Z.to_nat i)) by lia.
  rewrite (firstn_snoc contexts (Z.to_nat i) s) by (rewrite Z2Nat.id by lia; exact S). rewrite filter_app, zlen_app. cbn [filter]. destruct (is_for_node s); reflexivity.
Qed.
Lemma chain_update_ok t max_order kits contexts x : luts_ok t -> chain_part max_order contexts 0 (zlen contexts) kits -> zlen contexts <= max_order + 1 -> Forall state_ok contexts ->
  exists kits' trackers, chain_update t kits x contexts = Ok (kits', trackers) /\ chain_idle max_order kits' /\
    zlen trackers = zlen (filter is_for_node contexts) /\ Forall tracker_ok trackers.
Proof.
  intros T CP LE SO. unfold chain_update.
  destruct (mfold_zseq (chain_update_step t x contexts) (fun i st => chain_part max_order contexts i (zlen contexts) (fst st) /\
      zlen (snd st) = zlen (filter is_for_node (firstn (Z.to_nat i) contexts)) /\ Forall tracker_ok (snd st)) (length contexts) 0 (kits, [])) as ((kits' & tr) & E & P1 & P2 & P3).
  2: { cbn [fst snd]. split; [exact CP|]. split; [reflexivity|constructor]. }
  2: { exists kits', tr. cbn [fst snd] in *. rewrite Z.add_0_l in *. change (Z.of_nat (length contexts)) with (zlen contexts) in *. split; [exact E|]. split; [exact (proj1 (chain_part_none _ _ _ _) P1)|].
    split; [|exact P3]. rewrite P2. unfold zlen. rewrite Nat2Z.id, firstn_all. reflexivity. }
  intros i (ks & trs) I (CP' & LN & TF). cbn [fst snd] in *. unfold chain_update_step. change (Z.of_nat (length contexts)) with (zlen contexts) in I.
  destruct (znth_lt contexts i ltac:(lia)) as (s & S). rewrite (get_ok _ _ _ S). cbn [bind]. pose proof (znth_Forall _ _ _ _ SO S) as SOK.
  pose proof (proj1 CP') as KL. destruct (znth_lt ks i ltac:(lia)) as (k & K). rewrite (get_ok _ _ _ K). cbn [bind].
  pose proof (proj2 CP' i k K) as OB. replace ((i <=? i) && (i <? zlen contexts)) with true in OB by lia. destruct OB as (s' & S' & OB). rewrite S in S'. injection S' as <-.
  assert (NEXT : forall k', order_idle k' -> chain_part max_order contexts (i + 1) (zlen contexts) (zupd ks i k')).
  { intros k' K'. split; [now rewrite zlen_zupd|]. intros j y Y. destruct (Z.eq_dec j i) as [->|N].
    - rewrite znth_zupd_same in Y by lia. injection Y as <-. replace ((i + 1 <=? i) && (i <? zlen contexts)) with false by lia. exact K'.
    - rewrite znth_zupd_other in Y by congruence. pose proof (proj2 CP' _ _ Y) as H. replace ((i + 1 <=? j) && (j <? zlen contexts)) with ((i <=? j) && (j <? zlen contexts)) by lia. exact H. }
  pose proof (filter_firstn_step contexts i s S) as FS.
  destruct s as [d n b|d e rb q tr]; cbn [is_for_node] in *.
  - destruct OB as (SB & EB & NI). destruct (edge_update_ok t (ok_single k) (ok_edge k) d n b x T SB EB) as (sg' & kit' & -> & SI & MI). cbn [bind].
    rewrite assert_true by reflexivity. cbn [bind]. rewrite set_ok by lia. cbn [bind]. eexists. split; [reflexivity|]. cbn [fst snd]. rewrite app_nil_r.
    split; [apply NEXT; split; [exact SI|split; assumption]|]. split; [lia|exact TF].
  - destruct OB as (SB & EI & NB). destruct (node_update_ok t (ok_single k) (ok_node k) d e rb q tr x T SB NB (proj2 (proj2 SOK))) as (sg' & kit' & c & -> & SI & MI & TC). cbn [bind].
    rewrite assert_true by reflexivity. cbn [bind]. rewrite set_ok by lia. cbn [bind]. eexists. split; [reflexivity|]. cbn [fst snd]. rewrite zlen_app.
    split; [apply NEXT; split; [exact SI|split; assumption]|]. split; [change (zlen [c]) with 1; lia|]. apply Forall_app. split; [exact TF|]. constructor; [exact TC|constructor].
Qed.
