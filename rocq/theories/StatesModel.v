(** Model of src/history/mod.rs (context states) and of src/lut/mod.rs (the tables together). *)
From Verif Require Import Base FixedModel UtilModel StateModel EstModel LogModel LutModel ApmModel.

(** lut/mod.rs:34-45 LookUpTables *)
Record luts : Type := mkLuts {
  lt_log2 : list Z; lt_rates : list Z; lt_cache : list Z; lt_direct : list (Z * Z); lt_cost : list Z;
  lt_stretch : list (list Z); lt_squash : list Z; lt_apm : list apm_lut }.
(** lut/mod.rs:50-76 new; lut/estimator.rs:88-101 adds to each direct prediction its stretched value. *)
Definition luts_new : res luts :=
  let* log2_lut := log2_new in
  let* rates := rates_default in
  let* cache := cache_new rates in
  let* cost := cost_lut_new log2_lut rates in
  let* st := stretch_new in
  let* sq := squash_new st in
  let* predictions := predictions_new rates in
  let* direct := mmap (fun p => let* s := stretch st p in Ok (p, s)) predictions in
  let* apm0 := apm_lut_new 0 sq in
  let* apm1 := apm_lut_new 1 sq in
  let* apm2 := apm_lut_new 2 sq in
  Ok (mkLuts log2_lut rates cache direct cost st sq [apm0; apm1; apm2]).
(** lut/mod.rs:106-110 apm_lut *)
Definition luts_apm (t : luts) (bits : Z) : res apm_lut := assert_ (bits <=? 2) ;; get (lt_apm t) bits.
(** lut/estimator.rs:103-107 for_0_bit_run *)
Definition direct_for_0_bit_run (t : luts) (bit_0_run_length : Z) : res (Z * Z) :=
  assert_ (bit_0_run_length <=? max_count) ;; get (lt_direct t) bit_0_run_length.

(** history/tree/node.rs:33-61 CostTrackers: stationary and non-stationary, DEFAULT and updated *)
Definition cost_trackers : Type := (Z * Z)%type.
Definition ct_default : cost_trackers := (cost_initial, cost_initial).
Definition ct_eqb (a b : cost_trackers) : bool := (fst a =? fst b) && (snd a =? snd b).
Definition ct_updated (log2_lut : list Z) (c : cost_trackers) (p_stationary p_non_stationary : Z) (b : bit) : res cost_trackers :=
  let* s := cost_updated_on_bit log2_lut (fst c) p_stationary b in
  let* n := cost_updated_on_bit log2_lut (snd c) p_non_stationary b in
  Ok (s, n).

(** history/mod.rs:31-45 ContextState *)
Inductive context_state : Type :=
| ForEdge (last_occurrence_distance occurrence_count : Z) (repeated_bit : bit)
| ForNode (last_occurrence_distance probability_estimator recent_bits bits_runs : Z) (trackers : cost_trackers).
(** history/mod.rs:48-49 MAX_OCCURRENCE_COUNT *)
Definition max_occurrence_count : Z := max_count.
(** history/mod.rs:51-56 *)
Definition is_for_node (s : context_state) : bool := match s with ForEdge _ _ _ => false | ForNode _ _ _ _ _ => true end.
(** history/mod.rs:58-67 *)
Definition probability_estimator (t : luts) (s : context_state) : res Z :=
  match s with
  | ForEdge _ occurrence_count _ => let* d := direct_for_0_bit_run t occurrence_count in de_make (fst d) occurrence_count
  | ForNode _ e _ _ _ => Ok e
  end.
(** history/mod.rs:69-76 *)
Definition last_occurrence_distance (s : context_state) : Z := match s with ForEdge d _ _ => d | ForNode d _ _ _ _ => d end.
(** history/mod.rs:78-85 *)
Definition occurrence_count (s : context_state) : Z :=
  match s with ForEdge _ c _ => c | ForNode _ e _ _ _ => de_usage_count e end.
(** history/mod.rs:87-94 *)
Definition recent_bits (s : context_state) : res Z :=
  match s with ForEdge _ c b => rb_for_bit_run b c | ForNode _ _ r _ _ => Ok r end.
(** history/mod.rs:96-103 *)
Definition starting_state (first_occurrence_distance : Z) (bit_in_context : bit) : context_state :=
  ForEdge first_occurrence_distance 1 bit_in_context.
(** history/mod.rs:105-111 *)
Definition neutralize_cost_trackers (s : context_state) : context_state :=
  match s with ForEdge _ _ _ => s | ForNode d e r q _ => ForNode d e r q ct_default end.
(** history/mod.rs:113-166 *)
Definition next_state (t : luts) (s : context_state) (new_occurrence_distance : Z) (bit_in_context : bit)
    (cost_trackers_opt : option cost_trackers) : res context_state :=
  match s with
  | ForNode _ e r q _ =>
      let* c := of_opt cost_trackers_opt EAssert in
      let* e := de_update (lt_rates t) e bit_in_context in
      let* r := rb_updated r bit_in_context in
      let* q := br_updated q bit_in_context in
      Ok (ForNode new_occurrence_distance e r q c)
  | ForEdge _ occurrence_count repeated_bit =>
      assert_ (match cost_trackers_opt with None => true | Some _ => false end) ;;
      if Bool.eqb repeated_bit bit_in_context then
        let* n := add u16 occurrence_count 1 in
        Ok (ForEdge new_occurrence_distance (Z.min max_occurrence_count n) repeated_bit)
      else
        let* e := cache_for_new_node (lt_cache t) bit_in_context occurrence_count in
        let* r := rb_for_new_node bit_in_context occurrence_count in
        let* q := br_for_new_node bit_in_context occurrence_count in
        let* c := cost_lut_for_new_node (lt_cost t) occurrence_count in
        Ok (ForNode new_occurrence_distance e r q (c, c))
  end.

(** history/mod.rs:169-192 CollectedContextStates: the items; the capacity is max_order + 1 *)
Definition states_push (max_order : Z) (items : list context_state) (s : context_state) : res (list context_state) :=
  assert_ (negb (zlen items =? max_order + 1)) ;; Ok (items ++ [s]).
