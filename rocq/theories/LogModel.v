(** Model of src/lut/log2.rs, log2 of src/fixed_point/mod.rs, FinalProbability of src/coding/mod.rs,
    src/estimators/cost.rs and src/lut/cost.rs. *)
From Verif Require Import Base FixedModel EstModel.

(** [uN::leading_zeros]: width minus the bit length. *)
Definition leading_zeros (t : ity) (x : Z) : Z := if x =? 0 then ibits t else ibits t - 1 - Z.log2 x.

(** lut/log2.rs:61-69: one round of the squaring loop; the state is (a_power, log_raw). *)
Definition ol2_round (st : Z * Z) : res (Z * Z) :=
  let '(a_power, log_raw) := st in
  let* log_raw := shl u32 log_raw 1 in
  let* a2 := fix_mul u64 fract_only_u32 fract_only_u32 fract_only_u32 a_power a_power in
  if a2 <? 2 ^ 30 then
    let* d := mul u32 a2 2 in
    let* a := fix_new fract_only_u32 d 31 in
    Ok (a, log_raw)
  else Ok (a2, Z.lor log_raw 1).
Fixpoint ol2_loop (n : nat) (st : Z * Z) : res (Z * Z) :=
  match n with O => Ok st | S m => let* st' := ol2_round st in ol2_loop m st' end.

(** lut/log2.rs:54-71 one_plus_log2_restricted *)
Definition one_plus_log2_restricted (input : Z) : res Z :=
  assert_ (f_within fract_only_u32 input) ;;
  let* half := fix_new fract_only_u32 (2 ^ 30) 31 in
  let* t := fix_trunc fract_only_u32 input in
  assert_ (t =? 0) ;;
  assert_ (half <=? input) ;;
  let* ' (_, log_raw) := ol2_loop 31 (input, 0) in
  fix_new fract_only_u32 log_raw 31.

(** lut/log2.rs:28-38: the loop body of Log2Lut::new for one [input]; INDEX_BITS = 11 (24) *)
Definition log2_entry (input : Z) : res Z :=
  let* raw := shl u32 input (31 - 11 - 1) in
  let* half_input := fix_new fract_only_u32 raw 31 in
  let* log2 := one_plus_log2_restricted half_input in
  let* log2_scaled := scaled_down u32 log2 (31 - 11) in
  let* index := sub usize input (2 ^ 11) in
  let* diff := sub u32 log2_scaled (wrap u32 index) in
  assert_ (diff <=? 176) ;;
  Ok (wrap u8 diff).
(** lut/log2.rs:26-40 Log2Lut::new: every slot of the array is written once, in order. *)
Definition log2_new : res (list Z) := mmap log2_entry (zseq 2048 (Z.to_nat 2048)).

(** lut/log2.rs:45-48 log2_restricted *)
Definition log2_restricted (lut : list Z) (input : Z) : res Z :=
  let* fract := sub u32 input (2 ^ 11) in
  let* d := get lut fract in
  add u32 d fract.

(** fixed_point/mod.rs:261-271 (FixU32) and 480-490 (FixU64): log2; TOTAL_BITS is the width of the raw type,
    INTEGRAL_BITS = TOTAL_BITS - FRACTIONAL_BITS. *)
Definition fix_log2 (F : fmt) (lut : list Z) (raw : Z) : res Z :=
  assert_ (negb (raw =? 0)) ;;
  let lz := leading_zeros (f_ty F) raw in
  let* a := shl (f_ty F) raw lz in
  let* raw_shifted := shr (f_ty F) a (ibits (f_ty F) - 11 - 1) in
  let* result_fract := log2_restricted lut (wrap u32 raw_shifted) in
  let* t := sub i32 (ibits (f_ty F) - f_frac F) lz in
  let* result_trunc := sub i32 t 1 in
  let* hi := shl i32 result_trunc 11 in
  let* result := add i32 (wrap i32 result_fract) hi in
  fix_new log2_d result 11.

(** coding/mod.rs:42-52: FinalProbability as a fixed-point format with asserting, clamping constructor. *)
Definition final_probability : fmt :=
  mkFmt u32 23
    (fun raw => assert_ (raw <=? 2 ^ 23) ;; Ok (Z.max (Z.min raw (2 ^ 23 - 1)) 1))
    (fun _ => true).

(** coding/mod.rs:31-39 estimate_cost *)
Definition estimate_cost (lut : list Z) (p : Z) (b : bit) : res Z :=
  let* q := (if b then let* d := sub u32 (2 ^ 23) p in fix_new final_probability d 23 else Ok p) in
  let* l := fix_log2 final_probability lut q in
  fix_neg log2_d l.

(** estimators/cost.rs:31-32 INITIAL *)
Definition cost_initial : Z := 2 ^ (4 + 11).
(** estimators/cost.rs:46-54 updated; DECAY_SCALE = 4 *)
Definition cost_updated (tracker new_cost : Z) : res Z :=
  let* d := scaled_down u16 tracker 4 in
  let* decayed := sub u16 tracker d in
  assert_ (0 <? new_cost) ;;
  assert_ (wrap i32 (wrap u16 new_cost) =? new_cost) ;;
  Ok (sat u16 (decayed + wrap u16 new_cost)).
(** estimators/cost.rs:40-44 updated_on_bit *)
Definition cost_updated_on_bit (lut : list Z) (tracker probability_sq : Z) (b : bit) : res Z :=
  let* fp := to_fix u32 fract_only_u32 final_probability probability_sq in
  let* c := estimate_cost lut fp b in
  cost_updated tracker c.

(** lut/cost.rs:33-49 CostTrackersLut::new: loop over 1 << 10 indices *)
Fixpoint cost_lut_loop (log2_lut rates : list Z) (n : nat) (cost_tracker estimator : Z) : res (list Z) :=
  match n with
  | O => Ok []
  | S m =>
      let* prediction := de_prediction estimator in
      let* fp := to_fix u32 fract_only_u32 final_probability prediction in
      let* opposite_cost := estimate_cost log2_lut fp One in
      let* r := cost_updated cost_tracker opposite_cost in
      let* cost := estimate_cost log2_lut fp Zero in
      let* cost_tracker' := cost_updated cost_tracker cost in
      let* estimator' := de_update rates estimator Zero in
      let* rest := cost_lut_loop log2_lut rates m cost_tracker' estimator' in
      Ok (r :: rest)
  end.
Definition cost_lut_new (log2_lut rates : list Z) : res (list Z) :=
  let* estimator := de_new in cost_lut_loop log2_lut rates (Z.to_nat 1024) cost_initial estimator.
(** lut/cost.rs:51-54 for_new_node *)
Definition cost_lut_for_new_node (lut : list Z) (opposite_bit_run_length : Z) : res Z :=
  get lut (Z.min opposite_bit_run_length (1024 - 1)).
