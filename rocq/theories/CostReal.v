(** Estimated costs against information content and length of the stream. *)
From Coq Require Import ZifyBool Reals Lra.
From Verif Require Import Base BaseFacts FixedModel FixedProofs CodingModel CodingSpec LogModel LogSpec LogProofs LogReal StatesModel StatesProofs WindowSpec TreeSpec WindowProofs PredModel PredSpec PredStats PredFacts FileSpec FileProofs CostSpec.
Ltac Zify.zify_post_hook ::= Z.div_mod_to_equations.
Local Open Scope R_scope.

Definition codable (x : bit * Z) : Prop := (1 <= snd x <= 2 ^ 23 - 1)%Z.
Lemma units_range x : codable x -> (1 <= units x <= 2 ^ 23 - 1)%Z.
Proof. unfold codable, units. destruct x as (b, p). cbn [fst snd]. destruct b; lia. Qed.
Lemma rsum_le {A} (f g : A -> R) l : Forall (fun x => f x <= g x) l -> rsum (map f l) <= rsum (map g l).
Proof. unfold rsum; induction 1; cbn; lra. Qed.
Lemma rsum_plus {A} (f g : A -> R) l : rsum (map (fun x => f x + g x) l) = rsum (map f l) + rsum (map g l).
Proof. unfold rsum; induction l; cbn; lra. Qed.
Lemma rsum_const {A} (c : R) (l : list A) : rsum (map (fun _ => c) l) = c * IZR (zlen l).
Proof. induction l; cbn [map rsum fold_right]; [change (zlen []) with 0%Z; lra|]. fold (rsum (map (fun _ : A => c) l)). rewrite IHl, zlen_cons, plus_IZR. lra. Qed.
Lemma rsum_IZR {A} (f : A -> Z) l : rsum (map (fun x => IZR (f x)) l) = IZR (zsum (map f l)).
Proof. induction l; cbn; [reflexivity|]. rewrite plus_IZR. fold (rsum (map (fun x => IZR (f x)) l)). fold (zsum (map f l)). now rewrite IHl. Qed.

Lemma bit_cost_accurate t p b : luts_ok t -> codable (b, p) -> - (51 / 100) < IZR (cost_of t p b) - 2048 * info (b, p) < 2.
Proof.
  intros T C. unfold cost_of. rewrite (estimate_cost_lean (lt_log2 t) p b (lk_log2 t T)) by (unfold codable in C; cbn in C; lia).
  pose proof (units_range _ C) as U. unfold info. replace (if b then 2 ^ 23 - p else p)%Z with (units (b, p)) by reflexivity.
  set (q := units (b, p)) in *. clearbody q.
  destruct (fix_log2_accurate final_probability (lt_log2 t) q final_log_fmt (lk_log2 t T)) as (y & E & A).
  { cbn [f_ty final_probability]. ib. clear - U. pow2. lia. }
  assert (L : fix_log2 final_probability (lt_log2 t) q = Ok (lean_entry (top12 q) + (Z.log2 q - 23) * 2048)%Z).
  { apply (fix_log2_lean final_probability (lt_log2 t) q final_log_fmt (lk_log2 t T)). cbn [f_ty final_probability]. ib. clear - U. pow2. lia. }
  pose proof (neg_log_eq q) as NE. revert L NE. generalize (lean_entry (top12 q) + (Z.log2 q - 23) * 2048)%Z. generalize (neg_log q). intros n v L NE. rewrite E in L. injection L as ->. rewrite <- NE, opp_IZR. cbn [f_frac final_probability] in A.
  replace (IZR (2 ^ 23)) with (2 ^ 23) in A by (symmetry; exact (eq_sym (pow_IZR 2 23))). lra.
Qed.
Lemma estimated_accurate t trace : luts_ok t -> Forall codable trace ->
  - (51 / 100) * IZR (zlen trace) <= IZR (estimated t trace) - 2048 * information trace <= 2 * IZR (zlen trace).
Proof.
  intros T F. unfold estimated, information. rewrite <- rsum_IZR.
  replace (2048 * rsum (map info trace)) with (rsum (map (fun x => 2048 * info x) trace)) by (clear; unfold rsum; induction trace; cbn [map fold_right]; [lra|lra]).
  rewrite <- (rsum_const (- (51 / 100))), <- (rsum_const 2).
  assert (A : rsum (map (fun x => - (51 / 100) + 2048 * info x) trace) <= rsum (map (fun x => IZR (cost_of t (snd x) (fst x))) trace)).
  { apply rsum_le. eapply Forall_impl; [|exact F]. intros (b, p) C. pose proof (bit_cost_accurate t p b T C). cbn [fst snd]. lra. }
  assert (B : rsum (map (fun x => IZR (cost_of t (snd x) (fst x))) trace) <= rsum (map (fun x => 2 + 2048 * info x) trace)).
  { apply rsum_le. eapply Forall_impl; [|exact F]. intros (b, p) C. pose proof (bit_cost_accurate t p b T C). cbn [fst snd]. lra. }
  rewrite rsum_plus in A, B. lra.
Qed.
Lemma charged_costs t max mo trace : forall before, costs every (ledger t max mo before trace) = estimated t (met_bits max mo before trace).
Proof.
  induction trace as [|(b, p) trace IH]; intros before; [reflexivity|]. cbn [ledger met_bits fst]. unfold costs in *. cbn [filter]. unfold charged at 1, every at 1. cbn [ln_met].
  rewrite Bool.andb_true_r. unfold estimated in *. rewrite map_app. destruct (0 <? met mo (in_window max before))%Z.
  - cbn [map app ln_cost fst snd]. change (zsum (?a :: ?b)) with (a + zsum b)%Z. now rewrite IH.
  - cbn [map app]. apply IH.
Qed.
Lemma met_bits_sub (P : bit * Z -> Prop) max mo trace : Forall P trace -> forall before, Forall P (met_bits max mo before trace).
Proof. induction 1; intros before; [constructor|]. cbn [met_bits]. apply Forall_app. split; [destruct (0 <? _)%Z; repeat constructor; assumption | apply IHForall]. Qed.
Lemma trace_codable bits probs : Forall (fun r => (1 <= r <= 2 ^ 23 - 1)%Z) probs -> Forall codable (List.combine bits probs).
Proof.
  intros F. apply Forall_forall. intros (b, p) I. apply in_combine_r in I. exact (proj1 (Forall_forall _ _) F p I).
Qed.
Lemma total_cost_accurate md t max max_order uses p probabilities : luts_new = Ok t -> (0 < max <= 2 ^ 31)%Z -> (0 <= max_order)%Z -> (8 * max_order + 7 < 2 ^ 16)%Z -> (zlen (told uses) < 2 ^ 47 - 1)%Z ->
  use_all md t max max_order uses = Ok (p, probabilities) ->
  let counted := met_bits max max_order [] (trace_of uses probabilities) in
  - (51 / 100) * IZR (zlen counted) <= IZR (st_total_cost (pr_stats p)) - 2048 * information counted <= 2 * IZR (zlen counted).
Proof.
  intros L M O O2 N U counted. pose proof (calls_accounted md t max max_order uses p probabilities L M O O2 N U) as A. rewrite (ac_total _ _ _ _ A), charged_costs.
  destruct (calls_predicted md t max max_order uses p probabilities L M O O2 N U) as (F & _).
  apply estimated_accurate; [exact (luts_ok_of t L)|]. apply met_bits_sub. apply trace_codable. exact F.
Qed.

(** ** The stream *)
Lemma log2R_prod {A} (f : A -> Z) l : Forall (fun x => (0 < f x)%Z) l -> (0 < prodz (map f l))%Z /\ log2R (IZR (prodz (map f l))) = rsum (map (fun x => log2R (IZR (f x))) l).
Proof.
  induction 1 as [|x l P F (IP & IE)]; cbn [map prodz fold_right rsum]; [split; [lia | apply log2R_1]|].
  fold (prodz (map f l)) in *. split; [lia|]. rewrite mult_IZR, log2R_mult by (apply IZR_lt; assumption). now rewrite IE.
Qed.
Lemma log2R_powz a n : (0 < a)%Z -> (0 <= n)%Z -> log2R (IZR (a ^ n)) = IZR n * log2R (IZR a).
Proof.
  intros A N. revert n N. apply natlike_ind; [rewrite Z.pow_0_r, log2R_1; lra|]. intros n N IH. rewrite Z.pow_succ_r by exact N.
  rewrite mult_IZR, log2R_mult; [|apply IZR_lt; exact A | apply IZR_lt; apply Z.pow_pos_nonneg; lia]. rewrite IH, succ_IZR. lra.
Qed.
Lemma log2R_256 : log2R (IZR 256) = 8. Proof. exact (log2R_IZR_pow 8 ltac:(lia)). Qed.
Lemma log2R_31 : log2R (IZR (2 ^ 31)) = 31. Proof. exact (log2R_IZR_pow 31 ltac:(lia)). Qed.
Lemma log2R_23 : log2R (IZR (2 ^ 23)) = 23. Proof. exact (log2R_IZR_pow 23 ltac:(lia)). Qed.
Lemma p23 : IZR (2 ^ 23) = 2 ^ 23. Proof. exact (eq_sym (pow_IZR 2 23)). Qed.

Lemma info_eq x : codable x -> info x = 23 - log2R (IZR (units x)).
Proof.
  intros C. pose proof (units_range x C) as U. unfold info. rewrite <- p23, log2R_div, log2R_23; [ring | apply IZR_lt; lia | apply IZR_lt; pow2; lia].
Qed.
Definition event_of (x : bit * Z) : event := EvBit (snd x) (fst x).
Lemma share_units x : share (event_of x) = units x. Proof. destruct x as ([|], p); reflexivity. Qed.
Lemma lo_pos x : codable x -> (0 < lo_share (event_of x))%Z.
Proof. intros C. pose proof (units_range x C). unfold lo_share, event_of. fold (event_of x). rewrite share_units. change (2 ^ 7)%Z with 128%Z. lia. Qed.
Lemma lo_info x : codable x -> 31 - log2R (IZR (lo_share (event_of x))) <= info x + loss x.
Proof.
  intros C. pose proof (units_range x C) as U. rewrite (info_eq x C). unfold loss, lo_share, event_of. fold (event_of x). rewrite share_units. set (s := units x) in *. clearbody s.
  rewrite mult_IZR, log2R_mult; [|apply IZR_lt; lia | apply IZR_lt; lia]. rewrite (log2R_IZR_pow 7) by lia.
  destruct (Z.eqb_spec s 1) as [->|N].
  - replace (Z.max (2 * (1 - 1)) 1) with 1%Z by reflexivity. lra.
  - rewrite log2R_div by (apply IZR_lt; lia).
    pose proof (log2R_mono (IZR (2 * (s - 1))) (IZR (Z.max (2 * (s - 1)) s)) ltac:(apply IZR_lt; lia) ltac:(apply IZR_le; lia)) as M.
    rewrite mult_IZR, log2R_mult, log2R_2 in M by (lra || apply IZR_lt; lia). lra.
Qed.
Lemma coded_events bits probs : coded bits probs = map event_of (List.combine bits probs).
Proof. reflexivity. Qed.
Lemma stream_length md t max max_order bytes out : luts_new = Ok t -> (0 < max <= 2 ^ 31)%Z -> (0 <= max_order)%Z -> (8 * max_order + 7 < 2 ^ 16)%Z -> (8 * zlen bytes < 2 ^ 28)%Z ->
  compress_file md t max max_order bytes = Ok out -> exists p probabilities, use_all md t max max_order (uses_of bytes) = Ok (p, probabilities) /\
    let trace := List.combine (bit_string bytes) probabilities in zlen trace = (8 * zlen bytes)%Z /\
    information trace - rsum (map gain trace) + 1 <= 8 * IZR (zlen out) <= information trace + rsum (map loss trace) + 32.
Proof.
  intros L M O O2 N E. destruct (file_size md t max max_order bytes out L M O O2 N E) as (p & probs & U & B & HI & LO).
  destruct (file_predicted md t max max_order bytes L M O O2 ltac:(clear - N; change (2 ^ 47)%Z with 140737488355328%Z; change (2 ^ 28)%Z with 268435456%Z in N; lia)) as (p' & probs' & U' & PL & F). rewrite U in U'. injection U' as <- <-. clear L.
  exists p, probs. split; [exact U|]. cbv zeta. set (trace := List.combine (bit_string bytes) probs). rewrite coded_events in HI, LO. fold trace in HI, LO.
  assert (F' : Forall codable trace) by (apply trace_codable; exact F). 
  assert (BL : zlen (bit_string bytes) = (8 * zlen bytes)%Z) by (apply bit_string_length).
  assert (TL : zlen trace = (8 * zlen bytes)%Z). { unfold trace, zlen in *. rewrite combine_length. clear - BL PL. lia. }
  split; [exact TL|]. rewrite <- TL in HI, LO. clear TL BL PL F U E N. clearbody trace.
  assert (L4 : (0 <= zlen out - 4)%Z) by (clear - B; lia). clear B.
  rewrite !map_map in *. assert (P256 : (0 < 256 ^ (zlen out - 4))%Z) by (apply Z.pow_pos_nonneg; lia). assert (NN : (0 <= zlen trace)%Z) by apply zlen_nonneg.
  assert (IS : forall l, 31 * IZR (zlen l) = rsum (map (fun _ : bit * Z => 31) l)) by (intros l; now rewrite rsum_const).
  assert (IS' : forall l, 23 * IZR (zlen l) = rsum (map (fun _ : bit * Z => 23) l)) by (intros l; now rewrite rsum_const).
  split.
  - destruct (log2R_prod (fun x => share (event_of x) + 1)%Z trace) as (PP & PE).
    { eapply Forall_impl; [|exact F']. intros x C. pose proof (units_range x C). rewrite share_units. lia. }
    assert (Q : log2R (IZR ((2 ^ 23) ^ zlen trace)) <= log2R (IZR (256 ^ (zlen out - 4) * (2 ^ 31 - 1) * prodz (map (fun x => share (event_of x) + 1)%Z trace)))).
    { apply log2R_mono; [apply IZR_lt; apply Z.pow_pos_nonneg; lia | apply IZR_le; exact LO]. }
    rewrite !mult_IZR, !log2R_mult in Q by (try apply Rmult_lt_0_compat; apply IZR_lt; assumption || lia).
    rewrite !log2R_powz in Q by lia. rewrite log2R_256, log2R_2, PE in Q.
    assert (Q2 : log2R (IZR (2 ^ 31 - 1)) <= 31) by (rewrite <- log2R_31; apply log2R_mono; [apply IZR_lt; lia | apply IZR_le; lia]).
    assert (S : rsum (map (fun x => log2R (IZR (share (event_of x) + 1))) trace) <= rsum (map (fun x => (23 - info x) + gain x) trace)).
    { apply rsum_le. eapply Forall_impl; [|exact F']. intros x C. pose proof (units_range x C). rewrite share_units, (info_eq x C). unfold gain. rewrite log2R_div by (apply IZR_lt; lia). lra. }
    rewrite rsum_plus in S. assert (S2 : rsum (map (fun x => 23 - info x) trace) = 23 * IZR (zlen trace) - information trace).
    { rewrite IS'. unfold information. clear. unfold rsum. induction trace; cbn [map fold_right]; [lra|lra]. }
    rewrite S2 in S. rewrite minus_IZR in Q. lra.
  - destruct (log2R_prod (fun x => lo_share (event_of x)) trace) as (PP & PE).
    { eapply Forall_impl; [|exact F']. exact lo_pos. }
    assert (Q : log2R (IZR (256 ^ (zlen out - 4) * prodz (map (fun x => lo_share (event_of x)) trace))) <= log2R (IZR ((2 ^ 31) ^ zlen trace))).
    { apply log2R_mono; [apply IZR_lt; apply Z.mul_pos_pos; assumption | apply IZR_le; exact HI]. }
    rewrite mult_IZR, log2R_mult in Q by (apply IZR_lt; assumption).
    rewrite !log2R_powz in Q by lia. rewrite log2R_256, log2R_2, PE in Q.
    assert (S : rsum (map (fun x => 31 - log2R (IZR (lo_share (event_of x)))) trace) <= rsum (map (fun x => info x + loss x) trace)).
    { apply rsum_le. eapply Forall_impl; [|exact F']. exact lo_info. }
    rewrite rsum_plus in S. assert (S2 : rsum (map (fun x => 31 - log2R (IZR (lo_share (event_of x)))) trace) = 31 * IZR (zlen trace) - rsum (map (fun x => log2R (IZR (lo_share (event_of x)))) trace)).
    { rewrite IS. clear. unfold rsum. induction trace; cbn [map fold_right]; [lra|lra]. }
    rewrite S2 in S. rewrite minus_IZR in Q. fold (information trace) in S. lra.
Qed.

(** ** Estimate and stream *)
Lemma log2R_step s : (1 <= s)%Z -> log2R (IZR (s + 1) / IZR s) <= 3 / 2 / IZR s.
Proof.
  intros S. assert (1 <= IZR s) by (apply IZR_le; lia). replace (IZR (s + 1) / IZR s) with (1 + / IZR s) by (rewrite plus_IZR; field; lra).
  assert (I : 0 < / IZR s) by (apply Rinv_0_lt_compat; lra). destruct (log2R_le (1 + / IZR s) ltac:(lra)) as [A|A]; [|lra]. unfold Rdiv. lra.
Qed.
Lemma rsum_scale {A} c (f : A -> R) l : rsum (map (fun x => c * f x) l) = c * rsum (map f l).
Proof. unfold rsum. induction l; cbn [map fold_right]; [lra|]. rewrite IHl. lra. Qed.
Definition surprise (x : bit * Z) : R := if (units x <? 2 ^ 11)%Z then 1 else 0.
Lemma surprises_sum l : rsum (map surprise l) = IZR (surprises l).
Proof.
  unfold surprises. induction l as [|x l IH]; [reflexivity|]. cbn [map filter]. change (rsum (?a :: ?b)) with (a + rsum b). rewrite IH. unfold surprise.
  destruct (units x <? 2 ^ 11)%Z; [rewrite zlen_cons, plus_IZR; lra | lra].
Qed.
Lemma gain_bound x : codable x -> gain x <= 3 / 2 / 2048 + surprise x.
Proof.
  intros C. pose proof (units_range x C) as U. unfold surprise, gain. destruct (Z.ltb_spec (units x) (2 ^ 11)).
  - assert (1 <= IZR (units x)) by (apply IZR_le; lia). enough (log2R (IZR (units x + 1) / IZR (units x)) <= 1) by lra. rewrite <- log2R_2. apply log2R_mono.
    + apply Rdiv_lt_0_compat; apply IZR_lt; lia.
    + rewrite plus_IZR. apply (Rmult_le_reg_r (IZR (units x))); [lra|]. unfold Rdiv. rewrite Rmult_assoc, Rinv_l by lra. lra.
  - pose proof (log2R_step (units x) ltac:(lia)) as S. assert (2048 <= IZR (units x)) by (apply IZR_le; lia). assert (/ IZR (units x) <= / 2048) by (apply Rinv_le_contravar; lra). unfold Rdiv in *. lra.
Qed.
Lemma loss_bound x : codable x -> loss x <= 3 / 2 / 2047 + surprise x.
Proof.
  intros C. pose proof (units_range x C) as U. unfold surprise, loss. destruct (Z.eqb_spec (units x) 1) as [->|N]; [cbn; lra|]. destruct (Z.ltb_spec (units x) (2 ^ 11)).
  - assert (1 <= IZR (units x - 1)) by (apply IZR_le; lia). enough (log2R (IZR (units x) / IZR (units x - 1)) <= 1) by lra. rewrite <- log2R_2. apply log2R_mono.
    + apply Rdiv_lt_0_compat; apply IZR_lt; lia.
    + replace (units x) with (units x - 1 + 1)%Z at 1 by lia. rewrite plus_IZR. apply (Rmult_le_reg_r (IZR (units x - 1))); [lra|]. unfold Rdiv. rewrite Rmult_assoc, Rinv_l by lra. lra.
  - pose proof (log2R_step (units x - 1) ltac:(lia)) as S. replace (units x - 1 + 1)%Z with (units x) in S by lia.
    assert (2047 <= IZR (units x - 1)) by (apply IZR_le; lia). assert (/ IZR (units x - 1) <= / 2047) by (apply Rinv_le_contravar; lra). unfold Rdiv in *. lra.
Qed.
Lemma estimate_near_stream md t max max_order bytes out : luts_new = Ok t -> (0 < max <= 2 ^ 31)%Z -> (0 <= max_order)%Z -> (8 * max_order + 7 < 2 ^ 16)%Z -> (8 * zlen bytes < 2 ^ 28)%Z ->
  compress_file md t max max_order bytes = Ok out -> exists p probabilities, use_all md t max max_order (uses_of bytes) = Ok (p, probabilities) /\
    let trace := List.combine (bit_string bytes) probabilities in
    1 - IZR (zlen bytes) / 70 - IZR (surprises trace) <= 8 * IZR (zlen out) - IZR (estimated t trace) / 2048 <= 32 + IZR (zlen bytes) / 120 + IZR (surprises trace).
Proof.
  intros L M O O2 N E. destruct (stream_length md t max max_order bytes out L M O O2 N E) as (p & probs & U & Z & S). cbv zeta in Z, S.
  destruct (file_predicted md t max max_order bytes L M O O2 ltac:(clear - N; change (2 ^ 47)%Z with 140737488355328%Z; change (2 ^ 28)%Z with 268435456%Z in N; lia)) as (p' & probs' & U' & PL & F). rewrite U in U'. injection U' as <- <-.
  exists p, probs. split; [exact U|]. cbv zeta. pose proof (trace_codable (bit_string bytes) probs F) as C. pose proof (estimated_accurate t _ (luts_ok_of t L) C) as A.
  set (trace := List.combine (bit_string bytes) probs) in *. clear L U E. clearbody trace. rewrite Z in A. rewrite mult_IZR in A. rewrite <- surprises_sum.
  assert (G : rsum (map gain trace) <= rsum (map (fun x => 3 / 2 / 2048 + surprise x) trace)) by (apply rsum_le; eapply Forall_impl; [|exact C]; exact gain_bound).
  assert (LS : rsum (map loss trace) <= rsum (map (fun x => 3 / 2 / 2047 + surprise x) trace)) by (apply rsum_le; eapply Forall_impl; [|exact C]; exact loss_bound).
  rewrite rsum_plus, rsum_const, Z, mult_IZR in G, LS. assert (0 <= IZR (zlen bytes)) by (apply IZR_le, zlen_nonneg). lra.
Qed.
Lemma bit_cost_exists t p b : luts_new = Ok t -> (1 <= p <= 2 ^ 23 - 1)%Z -> exists c, estimate_cost (lt_log2 t) p b = Ok c /\ cost_of t p b = c /\ - (51 / 100) < IZR c - 2048 * info (b, p) < 2.
Proof.
  intros L P. pose proof (luts_ok_of t L) as T. pose proof (bit_cost_accurate t p b T P) as A. clear L.
  destruct (estimate_cost (lt_log2 t) p b) as [c|e] eqn:E.
  - exists c. unfold cost_of in *. rewrite E in *. repeat split; tauto.
  - rewrite (estimate_cost_lean (lt_log2 t) p b (lk_log2 t T)) in E by lia. discriminate.
Qed.
Lemma quarter_info : units (Zero, 2 ^ 21)%Z = (2 ^ 21)%Z /\ info (Zero, 2 ^ 21)%Z = 2 /\ surprises [(Zero, 2 ^ 21); (One, 2 ^ 23 - 1)]%Z = 1%Z.
Proof.
  split; [reflexivity|]. split; [|reflexivity]. rewrite info_eq by (split; cbn; discriminate). change (units (Zero, 2 ^ 21)%Z) with (2 ^ 21)%Z. rewrite (log2R_IZR_pow 21) by lia. lra.
Qed.
