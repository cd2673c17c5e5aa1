(** Model of src/history/state: recent_bits.rs and bits_runs.rs. *)
From Verif Require Import Base UtilModel.

(** ** recent_bits.rs: the state is the u16. *)

(** [u16::count_ones] *)
Definition count_ones16 (x : Z) : Z :=
  fold_left (fun a i => a + bit_z (Z.testbit x i)) [0;1;2;3;4;5;6;7;8;9;10;11;12;13;14;15] 0.

(** recent_bits.rs:24 *)
Definition rb_invalid : Z := 0.
(** recent_bits.rs:28 MASK (computed there in u16; the sum is 65535) *)
Definition rb_mask : Z := 2 ^ 15 - 1 + 2 ^ 15.
(** recent_bits.rs:34-41 *)
Definition rb_for_bit_run (repeating_bit : bit) (run_length : Z) : res Z :=
  let n := wrap u8 (Z.min run_length 15) in
  let b := bit_z repeating_bit in
  let* leading_bit := shl u16 1 n in
  let* x := shl u16 b n in
  let* y := sub u16 x b in
  let* history_bits := add u16 y x in
  Ok (Z.lor leading_bit history_bits).
(** recent_bits.rs:66-70 *)
Definition rb_updated (s : Z) (next_bit : bit) : res Z :=
  let highest_leading_bit := Z.land s (2 ^ 15) in
  let* x := shl u16 s 1 in
  let* y := add u16 x (bit_z next_bit) in
  Ok (Z.lor (Z.land y rb_mask) highest_leading_bit).
(** recent_bits.rs:43-45 *)
Definition rb_for_new_node (last_bit : bit) (opposite_bits_run_length : Z) : res Z :=
  let* s := rb_for_bit_run (negb last_bit) opposite_bits_run_length in rb_updated s last_bit.
(** recent_bits.rs:47-49 *)
Definition rb_is_valid (s : Z) : bool := negb (s =? 0).
(** recent_bits.rs:51-58 *)
Definition rb_histogram (s : Z) : res Z :=
  assert_ (negb (s =? 0)) ;;
  let* history_length := sub u8 15 (wrap u8 (leading_zeros16 s)) in
  let* c := sub u32 (count_ones16 s) 1 in
  let ones_count := wrap u8 c in
  let* zeros_count := sub u8 history_length ones_count in
  assert_ ((ones_count <=? 15) && (zeros_count <=? 15)) ;;
  let* hi := shl u8 ones_count 4 in
  Ok (Z.lor hi zeros_count).
(** recent_bits.rs:60-64 *)
Definition rb_last_7_bits (s : Z) : Z :=
  let capped := Z.land s 127 in
  let leading_bit := if 128 <=? s then 128 else 0 in
  wrap u8 (Z.lor leading_bit capped).

(** ** bits_runs.rs: the state is the u32. *)

(** bits_runs.rs:24, 30 *)
Definition br_new : Z := 0.
(** bits_runs.rs:26 *)
Definition max_run_length : Z := 1000.
(** bits_runs.rs:28 *)
Definition run_length_mask : Z := 2 ^ 10 - 1.
(** bits_runs.rs:32-35 *)
Definition br_for_bit_run (b : bit) (run_length : Z) : res Z :=
  let n := Z.min run_length max_run_length in
  let* x := shl u32 n 1 in
  add u32 (bit_z b) x.
(** bits_runs.rs:45-47 *)
Definition br_last_bit (s : Z) : bit := Z.land s 1 =? 1.
(** bits_runs.rs:41-43 *)
Definition br_is_single_bit_run (s : Z) : res bool :=
  let* x := shr u32 s 1 in Ok (x <=? max_run_length).
(** bits_runs.rs:49-51, 53-55, 57-59 *)
Definition br_field (k s : Z) : res Z :=
  let* x := shr u32 s k in Ok (wrap u16 (Z.land x run_length_mask)).
Definition br_last_bit_run_length : Z -> res Z := br_field 1.
Definition br_opposite_bit_run_length : Z -> res Z := br_field 11.
Definition br_last_bit_previous_run_length : Z -> res Z := br_field 21.
(** bits_runs.rs:61-73 *)
Definition br_updated (s : Z) (next_bit : bit) : res Z :=
  if Bool.eqb next_bit (br_last_bit s) then
    let* n := br_last_bit_run_length s in
    if n <? max_run_length then add u32 s 2 else Ok s
  else
    let* n := br_last_bit_run_length s in
    let* x := shl u32 n 11 in
    let* m := br_opposite_bit_run_length s in
    let* y := shl u32 m 21 in
    Ok (Z.lor (Z.lor (Z.lor (bit_z next_bit) 2) x) y).
(** bits_runs.rs:37-39 *)
Definition br_for_new_node (last_bit : bit) (opposite_bits_run_length : Z) : res Z :=
  let* s := br_for_bit_run (negb last_bit) opposite_bits_run_length in br_updated s last_bit.
