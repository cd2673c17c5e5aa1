(** Property C24: what a context state says about the bits that followed its context. *)
From Verif Require Import Base BaseFacts EstModel EstProofs LogModel LogSpec StatesModel StatesSpec StatesProofs.

(** The tables are built: the hypothesis [luts_new = Ok t] below is met. *)
Theorem C24_tables_built : exists t, luts_new = Ok t.
Proof. exact tables_built. Qed.
Print Assumptions C24_tables_built.

(** For every non-empty history the state is: deterministic with the repeated bit and the capped count while the bits agree;
    otherwise branching, with the recent bits and the runs of the whole history and the estimator of the history whose
    initial run is cut to its last 1000 bits. *)
Theorem C24_state_of_history : forall t first later, luts_new = Ok t ->
  exists s, advance_all t first later = Ok s /\ stands_for (lt_rates t) (last_distance first later) (bits_of first later) s.
Proof. exact state_of_history. Qed.
Print Assumptions C24_state_of_history.

(** Up to 1001 bits nothing is cut. *)
Theorem C24_whole_history : forall t first later s, luts_new = Ok t -> zlen (bits_of first later) <= 1001 ->
  advance_all t first later = Ok s -> uniform (bits_of first later) = false ->
  exists d e r q c, s = ForNode d e r q c /\ estimator_of (lt_rates t) (bits_of first later) = Ok e.
Proof. exact whole_history. Qed.
Print Assumptions C24_whole_history.

(** Beyond that the estimator is not that of the whole history. *)
Theorem C24_long_run_refuted : forall t, luts_new = Ok t ->
  exists s e r q c e', advance_all t (0, Zero) long_run = Ok s /\ s = ForNode 0 e r q c /\
    estimator_of (lt_rates t) (bits_of (0, Zero) long_run) = Ok e' /\ e <> e'.
Proof. exact truncated_run. Qed.
Print Assumptions C24_long_run_refuted.

Theorem C24_accessors : forall t first later s, luts_new = Ok t -> advance_all t first later = Ok s ->
  occurrence_count s = Z.min 1000 (zlen (bits_of first later)) /\
  last_occurrence_distance s = last_distance first later /\
  is_for_node s = negb (uniform (bits_of first later)) /\
  recent_bits s = recent_of (bits_of first later) /\
  exists e p, probability_estimator t s = Ok e /\ de_usage_count e = occurrence_count s /\ de_prediction e = Ok p /\ 0 < p < 2 ^ 31.
Proof. exact accessors. Qed.
Print Assumptions C24_accessors.

(** Both cost trackers of the first branching state hold the average cost of its (cut) history; later ones are the caller's. *)
Theorem C24_trackers : forall t first later d b c s, luts_new = Ok t ->
  advance_all t first (later ++ [(d, b, c)]) = Ok s ->
  let h := bits_of first later in
  match uniform h, Bool.eqb (hd Zero h) b with
  | true, true => is_for_node s = false
  | true, false => exists e r q k x, s = ForNode d e r q (k, k) /\ 0 <= k <= 65535 /\
      (let* z := de_new in mfold (cost_step (lt_log2 t) (lt_rates t)) (cut_run (h ++ [b])) (cost_initial, z)) = Ok (k, x)
  | false, _ => exists e r q, s = ForNode d e r q c
  end.
Proof. exact trackers_of_history. Qed.
Print Assumptions C24_trackers.

(** The estimator offered by a deterministic state expects zeros even after ones only: not the bit that was repeated. *)
Theorem C24_edge_estimator_refuted : forall t, luts_new = Ok t ->
  exists s e p, advance_all t (5, One) [(4, One, ct_default); (3, One, ct_default)] = Ok s /\
    probability_estimator t s = Ok e /\ de_prediction e = Ok p /\ 3 * 2 ^ 29 < p.
Proof. exact edge_estimator_ignores_bit. Qed.
Print Assumptions C24_edge_estimator_refuted.

(** Zero, zero, one, zero: estimator, last bits (1 0010 in binary) and runs. *)
Definition states_demo : list occurrence := [(7, Zero, (1, 1)); (4, One, (2, 2)); (2, Zero, (3, 4))].
Example C24_case : exists t, luts_new = Ok t /\
  advance_all t (9, Zero) states_demo = Ok (ForNode 2 (2936013 * 1024 + 4) 18 (2 + 2 ^ 11 + 2 * 2 ^ 21) (3, 4)) /\
  advance_all t (9, Zero) [(7, Zero, (1, 1))] = Ok (ForEdge 7 2 Zero).
Proof.
  destruct tables_built as (t & E). exists t. apply (conj E). pose proof (luts_rates t E) as R.
  destruct (state_of_history t (9, Zero) states_demo E) as (s & A & S).
  pose proof (trackers_of_history t (9, Zero) [(7, Zero, (1, 1)); (4, One, (2, 2))] 2 Zero (3, 4) s E A) as T. clear E.
  unfold stands_for in S. change (uniform (bits_of (9, Zero) states_demo)) with false in S. cbv iota in S.
  destruct S as (e & r & q & c & -> & E1 & E2 & E3). 
  cbv beta iota zeta in T. change (uniform _) with false in T. cbv iota in T. destruct T as (e0 & r0 & q0 & T). injection T as <- <- <- ->.
  vm_compute in E2, E3. injection E2 as <-. injection E3 as <-.
  assert (K : (let* rates := rates_default in estimator_of rates [Zero; Zero; One; Zero]) = Ok (2936013 * 1024 + 4)) by (vm_compute; reflexivity).
  rewrite R in K. cbn [bind] in K. change (cut_run (bits_of (9, Zero) states_demo)) with [Zero; Zero; One; Zero] in E1.
  rewrite E1 in K. injection K as ->. split; [exact A|]. reflexivity.
Qed.
