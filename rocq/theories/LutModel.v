(** Model of src/lut/stretch.rs and src/lut/squash.rs. *)
From Verif Require Import Base FixedModel LogModel.

(** lut/stretch.rs:147-155 StretchHelper *)
Definition stretch_helper : fmt := plain i32 25.

(** lut/stretch.rs:33-36 minimum_accurately_mapped_input; LAST_LEVEL = 7, IN_LEVEL_INDEX_BITS = 9 (28-31) *)
Definition minimum_accurately_mapped_input : res Z :=
  let* raw := shl u32 1 (31 - 1 - 7 - 9) in fix_new fract_only_u32 raw 31.

(** lut/stretch.rs:88-101 log2 *)
Definition stretch_log2 (fract : Z) : res Z :=
  assert_ (negb (fract =? 0)) ;;
  let lz := leading_zeros u32 fract in
  assert_ (0 <? lz) ;;
  let* s := shl u32 fract (lz - 1) in
  let* scaled := fix_new fract_only_u32 s 31 in
  let* pre := one_plus_log2_restricted scaled in
  let* pre_i := fix_new fract_only_i32 (wrap i32 pre) 31 in
  let* pre_log2 := to_fix i32 fract_only_i32 stretch_helper pre_i in
  let* e := add i32 1 (wrap i32 lz) in
  let* e := sub i32 e (32 - 31) in
  let* e := fix_new no_fract_i32 e 0 in
  let* excess := to_fix i32 no_fract_i32 stretch_helper e in
  fix_sub stretch_helper pre_log2 excess.

(** lut/stretch.rs:45-64: first input and step of a level *)
Definition level_start_fract (level : Z) : res Z :=
  if level =? 7 then Ok 0 else let* r := shl u32 1 (31 - 2 - level) in fix_new fract_only_u32 r 31.
Definition level_step_fract (level : Z) : res Z :=
  if level =? 7 then let* r := shl u32 1 (31 - 1 - 7 - 9) in fix_new fract_only_u32 r 31
  else let* r := shl u32 1 (31 - 2 - level - 9) in fix_new fract_only_u32 r 31.

(** lut/stretch.rs:65-82: one entry.  The comparison with an f64 logarithm (74, 81) and the printing (75-80)
    are not modelled. *)
Definition stretch_entry (level_start level_step index : Z) : res Z :=
  let* n := fix_new no_fract_u32 (wrap u32 index) 0 in
  let* m := fix_mul u64 fract_only_u32 no_fract_u32 fract_only_u32 level_step n in
  let* input := fix_add fract_only_u32 level_start m in
  let* direct := stretch_log2 input in
  let* flipped := flip fract_only_u32 input in
  let* log2_flipped := stretch_log2 flipped in
  let* log2 := fix_sub stretch_helper direct log2_flipped in
  let* ln2 := fix_new fract_only_i32 1488522236 31 in
  fix_mul i64 stretch_helper fract_only_i32 stretched_d log2 ln2.

(** lut/stretch.rs:43-84: one level; slot 0 of the last level keeps the filler i32::MAX (40). *)
Definition stretch_level (level : Z) : res (list Z) :=
  let* start := level_start_fract level in
  let* step := level_step_fract level in
  (if level =? 7 then
     let* s := fix_add fract_only_u32 start step in
     let* m := minimum_accurately_mapped_input in
     assert_ (s =? m)
   else Ok tt) ;;
  if level =? 7 then
    let* rest := mmap (stretch_entry start step) (zseq 1 511) in Ok (2 ^ 31 - 1 :: rest)
  else mmap (stretch_entry start step) (zseq 0 512).

(** lut/stretch.rs:38-86 StretchLut::new (the levels are independent, the order does not matter) *)
Definition stretch_new : res (list (list Z)) := mmap stretch_level (zseq 0 8).

(** self.0[level][index] *)
Definition get2 (lut : list (list Z)) (level index : Z) : res Z :=
  let* row := get lut level in get row index.

(** lut/stretch.rs:104-144 stretch *)
Definition stretch (lut : list (list Z)) (input : Z) : res Z :=
  let half := 2 ^ 30 in
  if input =? half then Ok 0
  else
    let is_flip := half <? input in
    let* flipped := flip fract_only_u32 input in
    let input := if is_flip then flipped else input in
    assert_ (negb (input =? 0)) ;;
    let* l := sub usize (leading_zeros u32 input) 2 in
    let level := Z.min 7 l in
    let* shift := (if level =? 7 then add usize level 2 else add usize level 3) in
    let* s := shl u32 input shift in
    let* left := shr u32 s (32 - 9) in
    let* left_bound :=
      (if negb (left =? 0) || negb (level =? 7) then get2 lut level left else get2 lut level 1) in
    let* right_bound :=
      (if negb (left =? 511) then let* i := add usize left 1 in get2 lut level i
       else if 0 <? level then get2 lut (level - 1) 0
       else Ok 0) in
    let* sh2 := add usize shift 9 in
    let* w := shl u32 input sh2 in
    let* w := shr u32 w 1 in
    let* weight_right := fix_new fract_only_i32 (wrap i32 w) 31 in
    let* lw := fix_mul i64 stretched_d fract_only_i32 stretched_d left_bound weight_right in
    let* result_left := fix_sub stretched_d left_bound lw in
    let* result_right := fix_mul i64 stretched_d fract_only_i32 stretched_d right_bound weight_right in
    let* result := fix_add stretched_d result_left result_right in
    if is_flip then fix_neg stretched_d result else Ok result.

(** ** lut/squash.rs: USED_FRACTIONAL_BITS = 7 (25), ARRAY_SIZE = 1 + 12*2*128 (26-27) *)
Definition array_size : Z := 3073.

(** lut/squash.rs:65-77: the search loop; [inl] is the early return. *)
Fixpoint find_loop (lut : list (list Z)) (fuel : nat) (stretched_prob lower upper : Z) : res (Z + Z * Z) :=
  match fuel with
  | O => Fail EFuel
  | S f =>
      let* d := sub u32 upper lower in
      if 1 <? d then
        let* middle := add u32 lower (d / 2) in
        let* sm := stretch lut middle in
        if stretched_prob <? sm then find_loop lut f stretched_prob lower middle
        else if sm <? stretched_prob then find_loop lut f stretched_prob middle upper
        else Ok (inl middle)
      else Ok (inr (lower, upper))
  end.

(** lut/squash.rs:60-100 find_squashed_prob; 32 rounds are enough for the loop *)
Definition find_squashed_prob (lut : list (list Z)) (stretched_prob : Z) : res Z :=
  let* lower := fix_add fract_only_u32 0 1 in
  let* one := one_unsafe fract_only_u32 in
  let* upper := fix_sub fract_only_u32 one 1 in
  let* r := find_loop lut 33 stretched_prob lower upper in
  match r with
  | inl middle => Ok middle
  | inr (lower, upper) =>
      let* l1 := add u32 lower 1 in
      assert_ (l1 =? upper) ;;
      let* lower_fract := fix_new fract_only_u32 lower 31 in
      let* upper_fract := fix_new fract_only_u32 upper 31 in
      let* ls := stretch lut lower_fract in
      let* us := stretch lut upper_fract in
      if negb (ls =? us) then
        assert_ (ls <=? stretched_prob) ;;
        assert_ (stretched_prob <=? us) ;;
        let* ld := fix_sub stretched_d stretched_prob ls in
        let* ud := fix_sub stretched_d us stretched_prob in
        Ok (if ld <? ud then lower_fract else upper_fract)
      else
        let* m := minimum_accurately_mapped_input in
        let* fm := flip fract_only_u32 m in
        Ok (Z.min (Z.max lower m) fm)
  end.

(** lut/squash.rs:35-53: an entry of the upper half; the f64 error tracking (38, 40-43) is not modelled. *)
Definition squash_entry (lut : list (list Z)) (index : Z) : res Z :=
  let* i := sub i32 (wrap i32 index) (array_size / 2) in
  let* s := shl i32 i (21 - 7) in
  let* stretched_prob := fix_new stretched_d s 21 in
  fix_neg stretched_d stretched_prob ;;
  find_squashed_prob lut stretched_prob.

(** lut/squash.rs:29-58 SquashLut::new: upper half by search, then the lower half mirrored.
    Lines 32-34 only need the sign of an f64 conversion, which is the sign of the raw value. *)
Definition squash_new (lut : list (list Z)) : res (list Z) :=
  let* m := minimum_accurately_mapped_input in
  let* s := stretch lut m in
  assert_ (0 <? - s) ;;
  let* upper := mmap (squash_entry lut) (zseq 1536 1537) in
  let* lower := mmap (fun index =>
      let* v := get upper (array_size - index - 1 - 1536) in flip fract_only_u32 v) (zseq 0 1536) in
  Ok (lower ++ upper).

(** lut/squash.rs:103-125 squash *)
Definition squash (lut : list Z) (input : Z) : res Z :=
  let* s := shr i32 input (21 - 7) in
  let* offset := shl i32 12 7 in
  let* index_left := add i32 s offset in
  assert_ (0 <=? index_left) ;;
  if index_left =? array_size - 1 then get lut index_left
  else
    let* index_right := add usize index_left 1 in
    let* left_bound := get lut index_left in
    let* right_bound := get lut index_right in
    let weight := Z.land (wrap u32 input) (2 ^ 14 - 1) in
    let* w := shl u32 weight (31 - 14) in
    let* weight_right := fix_new fract_only_u32 w 31 in
    let* lw := fix_mul u64 fract_only_u32 fract_only_u32 fract_only_u32 left_bound weight_right in
    let* result_left := fix_sub fract_only_u32 left_bound lw in
    let* result_right := fix_mul u64 fract_only_u32 fract_only_u32 fract_only_u32 right_bound weight_right in
    fix_add fract_only_u32 result_left result_right.
