(** Model of src/mixing/mixer.rs. *)
From Verif Require Import Base FixedModel LutModel.

(** mixer.rs:28-29 MixerInitializationMode *)
Inductive init_mode : Type := AllZero | DominantFirst | EqualSummingToOne.
(** mixer.rs:139-144 MixerInput; 160-164 MixerCommon; the structs of mixers are the list of inputs and the common part. *)
Record mixer_input : Type := mkInput { mi_weight : Z; mi_sq : Z; mi_st : Z }.
Record mixer : Type := mkMixer { mx_inputs : list mixer_input; mx_mask : Z; mx_index : Z }.
(** mixer.rs:40 UPDATE_FACTOR_INDEX_LIMIT = DeceleratingEstimator::MAX_COUNT *)
Definition index_limit : Z := 1000.
(** fixed_point/types.rs:319 MixerWeight::ONE *)
Definition weight_one : Z := 2 ^ 21.
(** mixer.rs:147-153 NEUTRAL (FractOnlyU32::HALF) *)
Definition neutral_input : mixer_input := mkInput 0 (2 ^ 30) 0.

(** mixer.rs:32-37 flat_mixer_weight *)
Definition flat_mixer_weight (inputs_count : Z) : res Z :=
  assert_ (negb (inputs_count =? 0)) ;;
  let* weight_raw := div_raw i32 weight_one (wrap i32 inputs_count) in
  fix_new mixer_weight weight_raw 21.
(** mixer.rs:202-203 FLAT_WEIGHT of the mixers of fixed size *)
Definition fixed_flat_weight (size : Z) : res Z :=
  let* one := shl i32 1 21 in divt i32 one (wrap i32 size).

(** mixer.rs:224-230 and likewise 249-256, 275-282, 301-308, 327-334 (new_neutral of Mixer1..Mixer5), 362-369 MixerN::new_neutral (whose test of the
    size repeats that of 353) *)
Definition neutral_mixer (size initial_index : Z) : res mixer :=
  assert_ (initial_index <=? index_limit) ;;
  Ok (mkMixer (repeat neutral_input (Z.to_nat size)) 0 initial_index).
(** mixer.rs:183-198 initialize_weights; [flat] is the closure *)
Definition initialize_weights (m : mixer) (mode : init_mode) (flat : res Z) : res mixer :=
  match mode with
  | AllZero => Ok m
  | DominantFirst =>
      let* first := get (mx_inputs m) 0 in
      let* inputs := set (mx_inputs m) 0 (mkInput weight_one (mi_sq first) (mi_st first)) in
      Ok (mkMixer inputs (mx_mask m) (mx_index m))
  | EqualSummingToOne =>
      let* w := flat in
      Ok (mkMixer (map (fun x => mkInput w (mi_sq x) (mi_st x)) (mx_inputs m)) (mx_mask m) (mx_index m))
  end.
(** mixer.rs:205-212 FixedSizeMixer::new; [size] is the constant SIZE of the type, 1 to 5 (the length test of 208 holds by
    construction of the arrays). *)
Definition fixed_mixer_new (size initial_index : Z) (mode : init_mode) : res mixer :=
  let* m := neutral_mixer size initial_index in
  initialize_weights m mode (fixed_flat_weight size).
(** mixer.rs:351-360 MixerN::new *)
Definition mixer_n_new (size initial_index : Z) (mode : init_mode) : res mixer :=
  assert_ (size <=? 30) ;;
  let* m := neutral_mixer size initial_index in
  assert_ (zlen (mx_inputs m) =? size) ;;
  initialize_weights m mode (flat_mixer_weight size).

(** mixer.rs:176, 234 and 373 size *)
Definition mx_size (m : mixer) : Z := zlen (mx_inputs m).
(** mixer.rs:72-77 assert_input_is_set *)
Definition assert_input_is_set (m : mixer) (index : Z) : res unit :=
  assert_ (index <? mx_size m) ;;
  let* flag := shl u32 1 index in
  assert_ (negb (Z.land (mx_mask m) flag =? 0)).
(** mixer.rs:48-51, 53-56 prediction_sq, prediction_st *)
Definition prediction_sq (m : mixer) (index : Z) : res Z :=
  assert_input_is_set m index ;; let* x := get (mx_inputs m) index in Ok (mi_sq x).
Definition prediction_st (m : mixer) (index : Z) : res Z :=
  assert_input_is_set m index ;; let* x := get (mx_inputs m) index in Ok (mi_st x).
(** mixer.rs:58-60 weight *)
Definition weight (m : mixer) (index : Z) : res Z := let* x := get (mx_inputs m) index in Ok (mi_weight x).
(** mixer.rs:62-70 set_input *)
Definition set_input (m : mixer) (index sq st : Z) : res mixer :=
  assert_ (index <? mx_size m) ;;
  let* flag := shl u32 1 index in
  assert_ (Z.land (mx_mask m) flag =? 0) ;;
  let* x := get (mx_inputs m) index in
  let* inputs := set (mx_inputs m) index (mkInput (mi_weight x) sq st) in
  Ok (mkMixer inputs (Z.lor (mx_mask m) flag) (mx_index m)).
(** mixer.rs:81, 96: (1u32 << size) - 1 *)
Definition full_mask (m : mixer) : res Z := let* x := shl u32 1 (mx_size m) in sub u32 x 1.
(** mixer.rs:79-91 mix_all *)
Definition mix_all (squash_lut : list Z) (m : mixer) : res (Z * Z) :=
  let* full := full_mask m in
  assert_ (mx_mask m =? full) ;;
  let* result := mfold (fun acc x =>
    let* weighted := fix_mul i64 mixer_weight stretched_d stretched_q (mi_weight x) (mi_st x) in
    fix_add stretched_q acc weighted) (mx_inputs m) 0 in
  let* result_st := to_fix i64 stretched_q stretched_d (stretched_q_clamped result) in
  let* result_sq := squash squash_lut result_st in
  Ok (result_sq, result_st).
(** mixer.rs:42-45 fixed_update_factor = FractOnlyI32::HALF *)
Definition fixed_update_factor : Z := 2 ^ 30.
(** mixer.rs:93-130 update_and_reset *)
Definition update_and_reset (rates : list Z) (m : mixer) (input_bit : bit) (mix_result_sq max_index : Z) : res mixer :=
  let* full := full_mask m in
  assert_ (mx_mask m =? full) ;;
  let* rate := get rates (mx_index m) in
  let* dynamic := fix_new fract_only_i32 (wrap i32 rate) 31 in
  let* factor := fix_mul i64 fract_only_i32 fract_only_i32 fract_only_i32 fixed_update_factor dynamic in
  let* inputs :=
    match input_bit with
    | false =>
        let* one := one_unsafe fract_only_u32 in
        let* error := fix_sub fract_only_u32 one mix_result_sq in
        let* error := fix_new fract_only_i32 (wrap i32 error) 31 in
        let* factor := fix_mul i64 fract_only_i32 fract_only_i32 fract_only_i32 error factor in
        mmap (fun x =>
          let* weighted_error := fix_mul i64 stretched_d fract_only_i32 mixer_weight (mi_st x) factor in
          let* w := fix_add mixer_weight (mi_weight x) weighted_error in
          Ok (mkInput (mixer_weight_clamped w) (mi_sq x) (mi_st x))) (mx_inputs m)
    | true =>
        let* error := fix_new fract_only_i32 (wrap i32 mix_result_sq) 31 in
        let* factor := fix_mul i64 fract_only_i32 fract_only_i32 fract_only_i32 error factor in
        mmap (fun x =>
          let* weighted_error := fix_mul i64 stretched_d fract_only_i32 mixer_weight (mi_st x) factor in
          let* w := fix_sub mixer_weight (mi_weight x) weighted_error in
          Ok (mkInput (mixer_weight_clamped w) (mi_sq x) (mi_st x))) (mx_inputs m)
    end in
  assert_ (mx_index m <=? max_index) ;;
  assert_ (max_index <=? index_limit) ;;
  let* next := add u16 (mx_index m) 1 in
  Ok (mkMixer inputs 0 (Z.min max_index next)).
