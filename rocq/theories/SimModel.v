(** Model of src/bin/entropy_simulations.rs: the cost of bits predicted by a single estimator. *)
From Verif Require Import Base FixedModel EstModel LogModel.

(** entropy_simulations.rs:53-55 and 58: the variables of the loop *)
Record simulation : Type := mkSimulation { sm_index : Z; sm_estimator : Z; sm_total_cost : Z; sm_zeros : Z }.
(** entropy_simulations.rs:58-74: the loop body.  The bit comes from an [f64] accumulator (62-66), which is not modelled: any bit. *)
Definition sim_step (log_lut rates : list Z) (single_run_length : Z) (st : simulation) (b : bit) : res simulation :=
  guard (negb (single_run_length =? 0)) EDivZero ;;
  let* estimator := if sm_index st mod single_run_length =? 0 then de_new else Ok (sm_estimator st) in
  let* prediction := de_prediction estimator in
  let* probability := to_fix u32 fract_only_u32 final_probability prediction in
  let* cost := estimate_cost log_lut probability b in
  let* cost := to_fix i64 log2_d log2_q cost in
  let* total_cost := fix_add log2_q (sm_total_cost st) cost in
  let* zeros := if b then Ok (sm_zeros st) else add u32 (sm_zeros st) 1 in
  let* estimator := de_update rates estimator b in
  Ok (mkSimulation (sm_index st + 1) estimator total_cost zeros).
(** entropy_simulations.rs:48-74 check_decelerating_estimator_single up to the printing, with the tables of 29 and 39;
    total_predictions is the number of bits. *)
Definition simulate (factor addend single_run_length : Z) (bits : list bit) : res simulation :=
  let* log_lut := log2_new in
  let* rates := rates_make factor addend in
  let* estimator := de_new in
  mfold (sim_step log_lut rates single_run_length) bits (mkSimulation 0 estimator 0 0).
