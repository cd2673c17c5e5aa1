(** Model of src/estimators/{decelerating,fixed_speed}.rs and of the rate and cache tables of src/lut/estimator.rs. *)
From Verif Require Import Base FixedModel.

(** ** estimators/decelerating.rs: a u32 holding 22 bits of prediction above 10 bits of count.
    Constants (27-30): COUNT_BITS 10, PREDICTION_BITS 22, MAX_COUNT 1000; FractOnlyU32::FRACTIONAL_BITS 31,
    so diff_bits = 9 (44, 66) and the assertions of lines 43 and 65 compare the constants 31 > 22. *)
Definition max_count : Z := 1000.

(** decelerating.rs:41-60 make *)
Definition de_make (prediction count : Z) : res Z :=
  assert_ (Z.land prediction (2 ^ 9 - 1) =? 0) ;;
  let* p := shr u32 prediction 9 in
  let p := if p =? 0 then 1 else if p =? 2 ^ 22 then 2 ^ 22 - 1 else p in
  assert_ ((0 <? p) && (p <? 2 ^ 22)) ;;
  assert_ (count <=? max_count) ;;
  let* hi := shl u32 p 10 in
  Ok (Z.lor hi count).

(** decelerating.rs:35-39 new *)
Definition de_new : res Z :=
  let* prediction := fix_new fract_only_u32 (2 ^ 30) 31 in
  de_make prediction 0.

(** decelerating.rs:63-68 prediction (new_unchecked: no bounds check) *)
Definition de_prediction (s : Z) : res Z :=
  let* raw := shr u32 s 10 in shl u32 raw 9.

(** decelerating.rs:70-72 usage_count *)
Definition de_usage_count (s : Z) : Z := Z.land (wrap u16 s) (2 ^ 10 - 1).

(** decelerating.rs:74-90 update; [rates] is the table indexed at line 79 (lut/estimator.rs:46-52) *)
Definition de_update (rates : list Z) (s : Z) (value : bit) : res Z :=
  let* prediction := de_prediction s in
  let count := de_usage_count s in
  let* factor := get rates count in
  let* target := shl i64 (bit_z (negb value)) 31 in
  let* error := sub i64 target prediction in
  let* correction := mul i64 error factor in
  let* p0 := shl i64 prediction 31 in
  let* p1 := add i64 p0 correction in
  let* half := shl i64 1 61 in
  let* p2 := sub i64 p1 half in
  let* p3 := scaled_down i64 p2 40 in
  let* p4 := add i64 p3 (2 ^ 21) in
  let* hi := shl u32 (wrap u32 p4) 10 in
  let* c := add u16 count 1 in
  Ok (Z.lor hi (Z.min c max_count)).

(** ** lut/estimator.rs *)
(** lut/estimator.rs:34-43 DeceleratingEstimatorRates::make: 1 << COUNT_BITS entries *)
Definition rates_make (factor addend : Z) : res (list Z) :=
  mmap (fun index =>
    let* m := mul u32 index factor in
    let* denominator := add u32 m addend in
    let* one := shl u32 1 31 in
    divt u32 one denominator) (zseq 0 (Z.to_nat 1024)).
(** lut/estimator.rs:30-32 make_default *)
Definition rates_default : res (list Z) := rates_make 1 2.

(** lut/estimator.rs:58-69 DeceleratingEstimatorCache::new: the loop, [n] iterations left *)
Fixpoint cache_loop (rates : list Z) (n : nat) (estimator : Z) : res (list Z) :=
  match n with
  | O => Ok []
  | S m =>
      let* current := de_update rates estimator One in
      let* estimator' := de_update rates estimator Zero in
      let* rest := cache_loop rates m estimator' in
      Ok (current :: rest)
  end.
Definition cache_new (rates : list Z) : res (list Z) :=
  let* estimator := de_new in cache_loop rates (Z.to_nat 1024) estimator.

(** lut/estimator.rs:71-81 for_new_node *)
Definition cache_for_new_node (cache : list Z) (last_bit : bit) (opposite_bit_run_length : Z) : res Z :=
  assert_ (opposite_bit_run_length <=? max_count) ;;
  let* flipped := get cache opposite_bit_run_length in
  if last_bit then Ok flipped
  else
    let* p := de_prediction flipped in
    let* prediction := flip fract_only_u32 p in
    de_make prediction (de_usage_count flipped).

(** lut/estimator.rs:88-101 DeceleratingEstimatorPredictions::new: the FractOnlyU32 component;
    the StretchedProbD component is its image under the stretch table (line 96). *)
Fixpoint predictions_loop (rates : list Z) (n : nat) (estimator : Z) : res (list Z) :=
  match n with
  | O => Ok []
  | S m =>
      let* prediction_sq := de_prediction estimator in
      let* estimator' := de_update rates estimator Zero in
      let* rest := predictions_loop rates m estimator' in
      Ok (prediction_sq :: rest)
  end.
Definition predictions_new (rates : list Z) : res (list Z) :=
  let* estimator := de_make (2 ^ 30) 1 in predictions_loop rates (Z.to_nat 1024) estimator.
(** lut/estimator.rs:103-107 for_0_bit_run *)
Definition predictions_for_0_bit_run (predictions : list Z) (bit_0_run_length : Z) : res Z :=
  assert_ (bit_0_run_length <=? max_count) ;; get predictions bit_0_run_length.

(** ** estimators/fixed_speed.rs: a u16; BITS 16, LOG_RATE 7 (25-26) *)
(** fixed_speed.rs:28-31 new *)
Definition fs_new (fract : Z) : res Z := assert_ (negb (fract =? 0)) ;; Ok fract.
(** fixed_speed.rs:54-58 default *)
Definition fs_default : res Z := shl u16 1 15.
(** fixed_speed.rs:34-37 prediction *)
Definition fs_prediction (s : Z) : res Z := shl u32 s 15.
(** fixed_speed.rs:39-51 update *)
Definition fs_update (s : Z) (value : bit) : res Z :=
  match value with
  | false =>
      let* one := shl u32 1 16 in
      let* error := sub u32 one s in
      let* correction := shr u32 error 7 in
      add u16 s (wrap u16 correction)
  | true =>
      let* d := shr u16 s 7 in
      sub u16 s d
  end.
