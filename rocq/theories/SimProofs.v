(** The simulation loop. *)
From Coq Require Import ZifyBool.
From Verif Require Import Base BaseFacts FixedModel FixedProofs EstModel EstSpec EstProofs LogModel LogSpec LogProofs PredSpec PredStats SimModel SimSpec.
Ltac Zify.zify_post_hook ::= Z.div_mod_to_equations.

Lemma bind_val {A B} (a : A) (f : A -> res B) : bind (Ok a) f = f a.
Proof. reflexivity. Qed.

Section Loop.
  Variables (lut rates : list Z) (n : Z).
  Hypothesis HL : forall t, 2048 <= t < 4096 -> log2_restricted lut t = Ok (lean_entry t).
  Hypothesis HR : rates_ok rates.
  Hypothesis N : 1 <= n.

  Definition charge (x : bit * Z) : Z := neg_log (if fst x then 2 ^ 23 - snd x else snd x).
  Lemma cost_at p b : 0 < p < 2 ^ 22 -> estimate_cost lut (2 * p) b = Ok (pcost p b).
  Proof. intros P. rewrite (estimate_cost_lean lut _ b HL) by (clear - P; pow2; lia). reflexivity. Qed.
  Lemma charge_at p b : charge (b, 2 * p) = pcost p b.
  Proof. reflexivity. Qed.
  Lemma predicted_spec h : exists p, de_run rates h = Ok (p * 1024 + Z.min (zlen h) 1000) /\ 0 < p < 2 ^ 22 /\ predicted_after rates h = 2 * p.
  Proof using HR.
    clear HL lut. destruct (de_run_state rates h HR) as (p & E & P & _). exists p. split; [exact E|]. split; [exact P|]. unfold predicted_after. unfold de_run in E.
    destruct de_new as [s0|]; [|discriminate]. cbn [bind] in E |- *. rewrite E. cbn [bind]. pose proof (zlen_nonneg h). rewrite de_prediction_at by (pow2; lia). clear - P. pow2. lia.
  Qed.
  (** The state knows the bits of the current run. *)
  Definition follows (st : simulation) (c : list bit) : Prop :=
    0 <= sm_index st /\ zlen c = sm_index st mod n /\ (sm_index st mod n <> 0 -> de_run rates c = Ok (sm_estimator st)).
  Definition next_run (c : list bit) (b : bit) : list bit := if zlen (c ++ [b]) =? n then [] else c ++ [b].
  Lemma estimator_at st c : follows st c -> (if sm_index st mod n =? 0 then de_new else Ok (sm_estimator st)) = de_run rates c.
  Proof.
    intros (I0 & L & E). destruct (Z.eqb_spec (sm_index st mod n) 0) as [Z0|NZ]; [|symmetry; exact (E NZ)]. rewrite Z0 in L.
    destruct c; [|rewrite zlen_cons in L; pose proof (zlen_nonneg c); lia]. unfold de_run. destruct de_new; reflexivity.
  Qed.
  Lemma mod_next i : 0 <= i -> (i + 1) mod n = if i mod n + 1 =? n then 0 else i mod n + 1.
  Proof.
    intros I. pose proof (Z.mod_pos_bound i n ltac:(lia)) as MB. pose proof (Z_div_mod_eq_full i n) as DM. destruct (Z.eqb_spec (i mod n + 1) n) as [EQ|NE].
    - symmetry. apply Z.mod_unique with (q := i / n + 1); [lia|]. set (q := i / n) in *. set (m := i mod n) in *. clearbody q m. nia.
    - symmetry. apply Z.mod_unique with (q := i / n); [lia|]. set (q := i / n) in *. set (m := i mod n) in *. clearbody q m. lia.
  Qed.
  Lemma sim_step_eq st c b : follows st c -> 0 <= sm_zeros st <= sm_index st -> sm_index st < 2 ^ 32 - 1 -> 0 <= sm_total_cost st <= 47104 * sm_index st ->
    exists e, de_run rates (c ++ [b]) = Ok e /\ 1 <= charge (b, predicted_after rates c) <= 47104 /\
      sim_step lut rates n st b = Ok (mkSimulation (sm_index st + 1) e (sm_total_cost st + charge (b, predicted_after rates c)) (sm_zeros st + bit_z (negb b))).
  Proof.
    intros F ZR IB TB. destruct (de_run_state rates (c ++ [b]) HR) as (p' & D' & _). eexists. split; [exact D'|]. unfold sim_step. rewrite (estimator_at _ _ F).
    destruct (predicted_spec c) as (p & D & P & PA). pose proof (zlen_nonneg c) as NC. rewrite (de_run_snoc rates c b _ D) in D'. rewrite D. generalize dependent (p' * 1024 + Z.min (zlen (c ++ [b])) 1000).
    intros e' D'. rewrite PA, (charge_at p b). pose proof (pcost_range lut HL p b P) as B. change (23 * 2048) with 47104 in B. split; [exact B|].
    replace (n =? 0) with false by (clear - N; lia). cbn [negb guard]. rewrite !bind_val. cbv beta.
    rewrite de_prediction_at by (clear - NC P; pow2; lia). rewrite bind_val; cbv beta. rewrite (fp_of_prediction lut HL) by exact P. rewrite bind_val; cbv beta.
    rewrite (cost_at p b P). clear D PA. generalize dependent (pcost p b). intros c0 B. rewrite bind_val; cbv beta. rewrite log_dq by (clear - B; lia). rewrite bind_val; cbv beta.
    rewrite log_q_add by (clear - TB IB B; lia). rewrite bind_val; cbv beta.
    assert (ZO : (if b then Ok (sm_zeros st) else add u32 (sm_zeros st) 1) = Ok (sm_zeros st + bit_z (negb b))).
    { clear - ZR IB. destruct b; cbn [negb bit_z]; [f_equal; lia|]. apply add_ok. ib. lia. }
    rewrite ZO. rewrite bind_val; cbv beta. rewrite D'. reflexivity.
  Qed.
  Lemma sim_step_ok st c b : follows st c -> 0 <= sm_zeros st <= sm_index st -> sm_index st < 2 ^ 32 - 1 -> 0 <= sm_total_cost st <= 47104 * sm_index st ->
    exists st', sim_step lut rates n st b = Ok st' /\ follows st' (next_run c b) /\ sm_index st' = sm_index st + 1 /\
      sm_total_cost st' = sm_total_cost st + charge (b, predicted_after rates c) /\ sm_zeros st' = sm_zeros st + bit_z (negb b) /\ 1 <= charge (b, predicted_after rates c) <= 47104.
  Proof.
    intros F ZR IB TB. destruct (sim_step_eq st c b F ZR IB TB) as (e & D & B & E). eexists. split; [exact E|]. clear E. generalize dependent (charge (b, predicted_after rates c)). intros c0 B.
    cbn [sm_index sm_total_cost sm_zeros]. split; [|repeat split; apply B]. destruct F as (I0 & L & _).
    unfold follows, next_run. cbn [sm_index sm_estimator]. split; [lia|]. assert (LS : zlen (c ++ [b]) = zlen c + 1) by (rewrite zlen_app; reflexivity). rewrite LS, L, (mod_next _ I0).
    destruct (Z.eqb_spec (sm_index st mod n + 1) n); [split; [reflexivity|intros H; destruct (H eq_refl)]|]. split; [rewrite LS, L; reflexivity|]. intros _. exact D.
  Qed.
  Fixpoint charges (c rest : list bit) : Z := match rest with [] => 0 | b :: rest => charge (b, predicted_after rates c) + charges (next_run c b) rest end.
  Lemma sim_loop bits : forall st c, follows st c -> 0 <= sm_zeros st <= sm_index st -> sm_index st + zlen bits < 2 ^ 32 -> 0 <= sm_total_cost st <= 47104 * sm_index st ->
    exists st', mfold (sim_step lut rates n) bits st = Ok st' /\ sm_index st' = sm_index st + zlen bits /\ sm_total_cost st' = sm_total_cost st + charges c bits /\ sm_zeros st' = sm_zeros st + zeros bits.
  Proof.
    induction bits as [|b bits IH]; intros st c F ZR IB TB.
    - exists st. cbn [mfold charges]. change (zlen (@nil bit)) with 0. change (zeros []) with 0. repeat split; lia.
    - rewrite zlen_cons in IB. pose proof (zlen_nonneg bits). destruct (sim_step_ok st c b F ZR ltac:(lia) TB) as (st1 & E & F1 & I1 & T1 & Z1 & B1). cbn [mfold]. rewrite E. cbn [bind].
      destruct (IH st1 (next_run c b) F1) as (st2 & E2 & I2 & T2 & Z2); [rewrite I1, Z1; destruct b; cbn [negb bit_z]; lia|rewrite I1; lia|rewrite I1, T1; lia|].
      exists st2. split; [exact E2|]. cbn [charges]. rewrite zlen_cons. split; [lia|]. split; [lia|]. rewrite Z2, Z1. unfold zeros. cbn [filter]. destruct b; cbn [negb bit_z]; rewrite ?zlen_cons; lia.
  Qed.
  (** By runs. *)
  Lemma charges_within rest : forall c, zlen c + zlen rest <= n -> charges c rest = zsum (map charge (predicted rates c rest)).
  Proof.
    induction rest as [|b rest IH]; intros c L; [reflexivity|]. rewrite zlen_cons in L. pose proof (zlen_nonneg rest). cbn [charges predicted map]. unfold zsum. cbn [fold_right].
    fold (zsum (map charge (predicted rates (c ++ [b]) rest))). f_equal. unfold next_run. rewrite zlen_app. change (zlen [b]) with 1. destruct (Z.eqb_spec (zlen c + 1) n).
    - assert (zlen rest = 0) by lia. destruct rest; [reflexivity|]. rewrite zlen_cons in *. pose proof (zlen_nonneg rest). lia.
    - apply IH. rewrite zlen_app. change (zlen [b]) with 1. lia.
  Qed.
  Lemma charges_run run rest : forall c, zlen c + zlen run = n -> run <> [] -> charges c (run ++ rest) = zsum (map charge (predicted rates c run)) + charges [] rest.
  Proof.
    induction run as [|b run IH]; intros c L NE; [congruence|]. rewrite zlen_cons in L. pose proof (zlen_nonneg run). cbn [charges predicted map app]. unfold zsum at 1. cbn [fold_right].
    fold (zsum (map charge (predicted rates (c ++ [b]) run))). rewrite <- Z.add_assoc. f_equal. unfold next_run. rewrite zlen_app. change (zlen [b]) with 1. destruct (Z.eqb_spec (zlen c + 1) n).
    - assert (zlen run = 0) by lia. destruct run; [reflexivity|]. rewrite zlen_cons in *. pose proof (zlen_nonneg run). lia.
    - apply IH; [rewrite zlen_app; change (zlen [b]) with 1; lia|]. intros ->. change (zlen (@nil bit)) with 0 in *. lia.
  Qed.
  Lemma charges_cut fuel : forall bits, (length bits <= fuel)%nat -> charges [] bits = zsum (map (fun run => zsum (map charge (predicted rates [] run))) (cut fuel n bits)).
  Proof.
    induction fuel as [|fuel IH]; intros bits F; [destruct bits; [reflexivity|cbn [length] in F; lia]|]. destruct bits as [|b bits]; [reflexivity|].
    cbn [cut map]. unfold zsum at 1. cbn [fold_right]. set (bs := b :: bits) in *. fold (zsum (map (fun run => zsum (map charge (predicted rates [] run))) (cut fuel n (skipn (Z.to_nat n) bs)))).
    rewrite <- IH by (rewrite skipn_length; unfold bs in *; cbn [length] in *; lia). destruct (Z.le_gt_cases n (zlen bs)) as [GE|LT].
    - rewrite <- (firstn_skipn (Z.to_nat n) bs) at 1. apply charges_run.
      + change (zlen (@nil bit)) with 0. unfold zlen in *. rewrite firstn_length. lia.
      + intros E. apply (f_equal (@length bit)) in E. rewrite firstn_length in E. unfold zlen in GE. cbn [length] in E. lia.
    - rewrite firstn_all2, skipn_all2 by (unfold zlen in LT; lia). cbn [charges]. rewrite Z.add_0_r. apply charges_within. change (zlen (@nil bit)) with 0. lia.
  Qed.
End Loop.

Lemma simulation_ok factor addend n bits : 0 <= factor /\ 2 <= addend /\ 3 <= factor + addend /\ 1023 * factor + addend < 2 ^ 32 -> 1 <= n -> zlen bits < 2 ^ 32 ->
  exists rates s, rates_make factor addend = Ok rates /\ rates_ok rates /\ simulate factor addend n bits = Ok s /\ sm_zeros s = zeros bits /\ sm_index s = zlen bits /\
    sm_total_cost s = zsum (map (fun run => zsum (map charge (predicted rates [] run))) (in_runs n bits)).
Proof.
  intros (F & A & FA & B) N L. destruct (rates_make_ok factor addend F A FA B) as (rates & E & R). destruct log2_new_spec as (lut & EL & HL). unfold simulate. rewrite EL, E. cbn [bind].
  destruct de_new as [e0|] eqn:DN; [|rewrite de_new_eq in DN; discriminate]. cbn [bind].
  destruct (sim_loop lut rates n HL R N bits (mkSimulation 0 e0 0 0) []) as (s & ES & I & T & Z0).
  - split; [cbn; lia|]. cbn [sm_index]. rewrite Z.mod_0_l by lia. split; [reflexivity|congruence].
  - cbn. lia.
  - cbn. exact L.
  - cbn. lia.
  - exists rates, s. split; [reflexivity|]. split; [exact R|]. split; [exact ES|]. cbn [sm_zeros sm_index sm_total_cost] in *. split; [lia|]. split; [lia|]. rewrite T.
    rewrite (charges_cut lut rates n HL N (length bits)) by lia. reflexivity.
Qed.
