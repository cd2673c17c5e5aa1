(** lut/apm.rs and mixing/apm.rs: interpolation weights and the adaptive probability map. *)
From Verif Require Import Base FixedModel LogModel LutModel.

(** lut/apm.rs:47-50 and mixing/apm.rs:48-53: the probability at stop [index] of [bits] precision. *)
Definition stop_value (squash_lut : list Z) (bits offset index : Z) : res Z :=
  let* i := sub i32 index offset in
  let* k := sub u8 21 bits in
  let* s := shl i32 i k in
  let* stretched_prob := fix_new stretched_d s 21 in
  squash squash_lut stretched_prob.

(** lut/apm.rs:23-28 ApmWeightingLut *)
Record apm_lut : Type := mkApmLut { al_stops : list Z; al_shifts : list Z; al_extras : list Z; al_bits : Z }.

(** lut/apm.rs:107-117: the search loop of extra_factor. *)
Fixpoint extra_loop (fuel : nat) (shifted remainder low high : Z) : res Z :=
  match fuel with
  | O => Fail EFuel
  | S f =>
      let* d := fix_sub fract_only_u32 high low in
      if 1 <? d then
        let* diff_raw := sub u32 high low in
        let* mid := fix_add fract_only_u32 low (diff_raw / 2) in
        let* current := fix_mul u64 fract_only_u32 fract_only_u32 fract_only_u32 mid shifted in
        if current <? remainder then extra_loop f shifted remainder mid high
        else extra_loop f shifted remainder low mid
      else Ok low
  end.
(** lut/apm.rs:100-119 extra_factor; 33 rounds are enough for the loop *)
Definition extra_factor (shifted : Z) : res Z :=
  if shifted =? 0 then Ok 0
  else
    let* one := one_unsafe fract_only_u32 in
    let* remainder := fix_sub fract_only_u32 one shifted in
    let* high := fix_sub fract_only_u32 one 1 in
    extra_loop 33 shifted remainder 0 high.

(** lut/apm.rs:56-62, 74: shift and extra factor of one interval, and the running sum of lengths. *)
Definition interval_entry (stops : list Z) (st : list Z * list Z * Z) (index : Z) : res (list Z * list Z * Z) :=
  let '(shifts, extras, sum) := st in
  let* right := get stops (index + 1) in
  let* left := get stops index in
  let* len := fix_sub fract_only_u32 right left in
  let* shift := sub u8 (leading_zeros u32 len) 1 in
  let* s := shl u32 len shift in
  let* shifted := fix_new fract_only_u32 s 31 in
  let* extra := extra_factor shifted in
  let* m := fix_mul u64 fract_only_u32 fract_only_u32 fract_only_u32 shifted extra in
  let* scaled := fix_add fract_only_u32 shifted m in
  let* sum' := fix_add fract_only_u32 sum len in
  Ok (shifts ++ [shift], extras ++ [extra], sum').

(** lut/apm.rs:31-98 ApmWeightingLut::new; printing is not modelled. *)
Definition apm_lut_new (bits : Z) (squash_lut : list Z) : res apm_lut :=
  let n := interval_stops_count bits in
  let offset := n / 2 in
  let* stops := mmap (stop_value squash_lut bits offset) (zseq 0 (Z.to_nat n)) in
  let* '(shifts, extras, _) := mfold (interval_entry stops) (zseq 0 (Z.to_nat (n - 1))) ([], [], 0) in
  assert_ (zlen stops =? n) ;;
  assert_ (zlen shifts =? n - 1) ;;
  assert_ (zlen extras =? n - 1) ;;
  mfold (fun _ index =>
      let* a := get stops index in
      let* b := get stops (n - index - 1) in
      let* f := flip fract_only_u32 b in
      assert_ (a =? f)) (zseq 0 (Z.to_nat n)) tt ;;
  mfold (fun _ index =>
      let* a := get shifts index in
      let* b := get shifts (n - 1 - index - 1) in
      assert_ (a =? b) ;;
      let* c := get extras index in
      let* d := get extras (n - 1 - index - 1) in
      assert_ (c =? d)) (zseq 0 (Z.to_nat (n - 1))) tt ;;
  Ok (mkApmLut stops shifts extras bits).

(** mixing/apm.rs:25-31 AdaptiveProbabilityMap *)
Record apm : Type := mkApm {
  am_mappings : list Z; am_bits : Z; am_contexts : Z; am_saved_index : Z; am_saved_weight : Z }.

(** mixing/apm.rs:37-72 new; reserving capacity is not modelled. *)
Definition apm_new (contexts_number bits : Z) (squash_lut : list Z) : res apm :=
  let n := interval_stops_count bits in
  let offset := n / 2 in
  let* mappings_size := mul usize contexts_number n in
  let* first := (if 0 <? contexts_number then
      let* first := mmap (stop_value squash_lut bits offset) (zseq 0 (Z.to_nat n)) in
      mfold (fun _ i =>
          let* a := get first (offset + i) in
          let* f := flip fract_only_u32 a in
          let* b := get first (offset - i) in
          assert_ (f =? b)) (zseq 0 (Z.to_nat (offset + 1))) tt ;;
      Ok first
    else Ok []) in
  let mappings := first ++ concat (repeat first (Z.to_nat (contexts_number - 1))) in
  assert_ (zlen mappings =? mappings_size) ;;
  Ok (mkApm mappings bits contexts_number (-1) 0).

(** mixing/apm.rs:74-130 refine: the new state and the refined probability. *)
Definition refine (a : apm) (context input_sq input_st : Z) (lut : apm_lut) : res (apm * Z) :=
  assert_ (am_bits a =? al_bits lut) ;;
  assert_ (am_saved_index a =? -1) ;;
  let n := interval_stops_count (am_bits a) in
  let* last := get (al_stops lut) (n - 1) in
  let* first := get (al_stops lut) 0 in
  let input_sq := Z.max (Z.min input_sq last) first in
  let* input_st := (if input_st =? - (12 * 2 ^ 21) then fix_add stretched_d (- (12 * 2 ^ 21)) 1
    else if input_st =? 12 * 2 ^ 21 then fix_sub stretched_d (12 * 2 ^ 21) 1 else Ok input_st) in
  let* index_scale := sub u8 21 (am_bits a) in
  let* q := shr i32 input_st index_scale in
  let* index_left := add i32 q (n / 2) in
  assert_ ((0 <=? index_left) && (index_left + 1 <? n)) ;;
  let* stop := get (al_stops lut) index_left in
  let* index_left := (if input_sq <? stop then
      assert_ (negb (index_left =? 0)) ;; sub usize index_left 1 else Ok index_left) in
  let* index_right := add usize index_left 1 in
  let* stop_left := get (al_stops lut) index_left in
  assert_ (stop_left <=? input_sq) ;;
  let* stop_right := get (al_stops lut) index_right in
  assert_ (input_sq <=? stop_right) ;;
  let* mapping_start := mul usize context n in
  let* left_bound := get (am_mappings a) (mapping_start + index_left) in
  let* right_bound := get (am_mappings a) (mapping_start + index_right) in
  let* w := fix_sub fract_only_u32 input_sq stop_left in
  let* shift := get (al_shifts lut) index_left in
  let* s := shl u32 w shift in
  let* weight_right := fix_new fract_only_u32 s 31 in
  let* extra := get (al_extras lut) index_left in
  let* m := fix_mul u64 fract_only_u32 fract_only_u32 fract_only_u32 weight_right extra in
  let* weight_right := fix_add fract_only_u32 weight_right m in
  let* one := one_unsafe fract_only_u32 in
  let* weight_left := (if weight_right =? 0 then Ok one else fix_sub fract_only_u32 one weight_right) in
  let* result_right := fix_mul u64 fract_only_u32 fract_only_u32 fract_only_u32 right_bound weight_right in
  let* result_left := fix_mul u64 fract_only_u32 fract_only_u32 fract_only_u32 left_bound weight_left in
  let* result := fix_add fract_only_u32 result_left result_right in
  Ok (mkApm (am_mappings a) (am_bits a) (am_contexts a) index_left weight_left, result).

(** mixing/apm.rs:153-173 update_single_entry, on the table of mappings *)
Definition update_single_entry (mappings : list Z) (b : bit) (weight entry_index log_rate : Z) : res (list Z) :=
  assert_ ((0 <? log_rate) && (log_rate <? 30)) ;;
  let* entry := get mappings entry_index in
  let* one := one_unsafe fract_only_u32 in
  if negb b then
    let* error := fix_sub fract_only_u32 one entry in
    let* e := shr u32 error log_rate in
    let* e := fix_new fract_only_u32 e 31 in
    let* correction := fix_mul u64 fract_only_u32 fract_only_u32 fract_only_u32 weight e in
    let* v := fix_add fract_only_u32 entry correction in
    set mappings entry_index v
  else
    let* e := shr u32 entry log_rate in
    let* e := fix_new fract_only_u32 e 31 in
    let* correction := fix_mul u64 fract_only_u32 fract_only_u32 fract_only_u32 weight e in
    let* v := fix_sub fract_only_u32 entry correction in
    set mappings entry_index v.

(** mixing/apm.rs:132-151 update_predictions *)
Definition update_predictions (a : apm) (context : Z) (b : bit) (log_rate : Z) (fixed_weight : bool) : res apm :=
  assert_ (0 <=? am_saved_index a) ;;
  assert_ (context <? am_contexts a) ;;
  let* base_index := mul usize context (interval_stops_count (am_bits a)) in
  let left := am_saved_index a in
  let weight_left := if fixed_weight then 2 ^ 30 else am_saved_weight a in
  let* one := one_unsafe fract_only_u32 in
  let* weight_right := fix_sub fract_only_u32 one weight_left in
  let* m := update_single_entry (am_mappings a) b weight_left (base_index + left) log_rate in
  let* m := update_single_entry m b weight_right (base_index + left + 1) log_rate in
  Ok (mkApm m (am_bits a) (am_contexts a) (-1) (am_saved_weight a)).
