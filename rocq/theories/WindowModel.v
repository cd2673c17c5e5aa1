(** Model of src/history/window.rs. *)
From Verif Require Import Base.

(** window.rs:22-24 get_bit *)
Definition get_bit (byte bit_index : Z) : res bit :=
  let* shifted := shr u8 byte bit_index in Ok (Z.land shifted 1 =? 1).

(** window.rs:26-39 WindowIndex: its value; 47-53 InputWindow.  The capacity of the buffer is [w_max]: 60 asserts it and the
    buffer grows only below it (102-108), so that it is never reallocated. *)
Record window : Type := mkWindow { w_buffer : list Z; w_start : Z; w_cursor : Z; w_size : Z; w_max : Z }.

(** window.rs:55-74 new.  A capacity above isize::MAX panics; a larger [resize] reallocates and fails the test of 60. *)
Definition window_new (max_window_size initial_shift : Z) : res window :=
  assert_ (0 <? max_window_size) ;;
  guard (max_window_size <? 2 ^ 63) EOverflow ;;
  assert_ (initial_shift <=? max_window_size) ;;
  let cursor := if 0 <? initial_shift then initial_shift - 1 else max_window_size - 1 in
  Ok (mkWindow (repeat 0 (Z.to_nat initial_shift)) initial_shift cursor 0 max_window_size).

(** window.rs:131-138 index_add *)
Definition index_add (w : window) (index to_add : Z) : res Z :=
  let* result := add usize index to_add in
  if w_max w <=? result then
    assert_ (zlen (w_buffer w) =? w_max w) ;; sub usize result (w_max w)
  else Ok result.
(** window.rs:140-142 index_increment *)
Definition index_increment (w : window) (index : Z) : res Z := index_add w index 1.
(** window.rs:144-154 index_subtract *)
Definition index_subtract (w : window) (index to_subtract : Z) : res Z :=
  if to_subtract <=? index then sub usize index to_subtract
  else
    assert_ (zlen (w_buffer w) =? w_max w) ;;
    let* x := add usize index (w_max w) in
    sub usize x to_subtract.
(** window.rs:156-158 index_decrement *)
Definition index_decrement (w : window) (index : Z) : res Z := index_subtract w index 1.
(** window.rs:160-163 index_diff *)
Definition index_diff (w : window) (target source : Z) : res Z := index_subtract w target source.
(** window.rs:165-174 index_is_smaller *)
Definition index_is_smaller (w : window) (idx1 idx2 : Z) : res bool :=
  let* fst := if idx1 <? w_start w then add usize idx1 (w_max w) else Ok idx1 in
  let* snd := if idx2 <? w_start w then add usize idx2 (w_max w) else Ok idx2 in
  Ok (fst <? snd).
(** window.rs:176-179 index_is_smaller_or_equal *)
Definition index_is_smaller_or_equal (w : window) (idx1 idx2 : Z) : res bool :=
  let* b := index_is_smaller w idx2 idx1 in Ok (negb b).

(** window.rs:118-129 check_size_invariants *)
Definition check_size_invariants (w : window) : res unit :=
  assert_ (w_size w <=? w_max w) ;;
  if 1 <? w_size w then
    let* last := index_add w (w_start w) (w_size w - 1) in
    assert_ (w_cursor w =? last) ;;
    let* d := index_diff w (w_cursor w) (w_start w) in
    assert_ (w_size w - 1 =? d)
  else if w_size w =? 1 then assert_ (w_start w =? w_cursor w)
  else assert_ (w_size w =? 0).

(** window.rs:265-271 Index *)
Definition byte_at (w : window) (index : Z) : res Z := get (w_buffer w) index.
(** window.rs:260-262 set_byte_at_cursor *)
Definition set_byte_at_cursor (w : window) (byte_value : Z) : res window :=
  let* buffer := set (w_buffer w) (w_cursor w) byte_value in
  Ok (mkWindow buffer (w_start w) (w_cursor w) (w_size w) (w_max w)).
(** window.rs:255-258 set_bit_at_cursor *)
Definition set_bit_at_cursor (w : window) (bit_value : bit) (bit_index : Z) : res window :=
  let* flag := shl u8 1 bit_index in
  let* x := get (w_buffer w) (w_cursor w) in
  let cleared := Z.land x (255 - flag) in
  let* value := shl u8 (bit_z bit_value) bit_index in
  let* buffer := set (w_buffer w) (w_cursor w) (Z.lor cleared value) in
  Ok (mkWindow buffer (w_start w) (w_cursor w) (w_size w) (w_max w)).

(** window.rs:92-98 advance_start *)
Definition advance_start (w : window) : res window :=
  assert_ (negb (w_size w =? 0)) ;;
  let* buffer := set (w_buffer w) (w_start w) 0 in
  let w := mkWindow buffer (w_start w) (w_cursor w) (w_size w) (w_max w) in
  let* start := index_increment w (w_start w) in
  let* size := sub usize (w_size w) 1 in
  let w := mkWindow (w_buffer w) start (w_cursor w) size (w_max w) in
  check_size_invariants w ;; Ok w.
(** window.rs:100-116 advance_cursor *)
Definition advance_cursor (w : window) : res window :=
  assert_ (w_size w <? w_max w) ;;
  let* w :=
    if zlen (w_buffer w) =? w_max w then
      let* cursor := index_increment w (w_cursor w) in
      let* w := set_byte_at_cursor (mkWindow (w_buffer w) (w_start w) cursor (w_size w) (w_max w)) 0 in
      assert_ (zlen (w_buffer w) =? w_max w) ;; Ok w
    else
      assert_ (zlen (w_buffer w) <? w_max w) ;;
      let* cursor := add usize (w_cursor w) 1 in
      Ok (mkWindow (w_buffer w ++ [0]) (w_start w) (if cursor =? w_max w then 0 else cursor) (w_size w) (w_max w)) in
  let* size := add usize (w_size w) 1 in
  let w := mkWindow (w_buffer w) (w_start w) (w_cursor w) size (w_max w) in
  check_size_invariants w ;; Ok w.

(** Rust's range a..b *)
Definition range (a b : Z) : list Z := zseq a (Z.to_nat (b - a)).
(** window.rs:181-193 for_each_suffix: the indices the action is called with, in order. *)
Definition for_each_suffix (w : window) : res (list Z) :=
  let* past_cursor := add usize (w_cursor w) 1 in
  let suffices := if (w_size w =? 0) || (w_start w <=? w_cursor w) then range (w_start w) past_cursor
                  else range (w_start w) (w_max w) ++ range 0 past_cursor in
  assert_ (zlen suffices =? w_size w) ;; Ok suffices.

(** window.rs:251-253 get_bit *)
Definition window_bit (w : window) (byte_index bit_index : Z) : res bit := let* x := byte_at w byte_index in get_bit x bit_index.
(** window.rs:244-249 bytes_differ_on *)
Definition bytes_differ_on (w : window) (first second bit_index : Z) : res bool :=
  let* x := byte_at w first in let* y := byte_at w second in get_bit (Z.lxor x y) bit_index.
(** window.rs:228-232: the loop over full bytes; [n] iterations left, stops at the first difference. *)
Fixpoint equal_bytes (w : window) (first second : Z) (n : nat) : res bool :=
  match n with
  | O => Ok true
  | S n => let* x := get (w_buffer w) first in let* y := get (w_buffer w) second in
           if x =? y then equal_bytes w (first + 1) (second + 1) n else Ok false
  end.
(** window.rs:233-241: the loop over bits; [n] is bit_position - bit_index (0 when not positive). *)
Fixpoint equal_bits (w : window) (first second bit_position : Z) (n : nat) : res bool :=
  match n with
  | O => Ok true
  | S n => let* d := bytes_differ_on w first second bit_position in
           if d then Ok false else equal_bits w first second (bit_position - 1) n
  end.
(** window.rs:222-242 compare_for_equal_prefix_straight *)
Definition compare_straight (w : window) (first second bit_index full_byte_length : Z) : res bool :=
  let* equal := equal_bytes w first second (Z.to_nat full_byte_length) in
  if equal then
    let* a := add usize first full_byte_length in
    let* b := add usize second full_byte_length in
    equal_bits w a b 7 (Z.to_nat (7 - bit_index))
  else Ok false.
(** window.rs:207-215: the loop with wrapping indices; gives back [equal] and the two indices. *)
Fixpoint equal_wrapped (w : window) (first second : Z) (n : nat) : res (bool * (Z * Z)) :=
  match n with
  | O => Ok (true, (first, second))
  | S n => let* x := byte_at w first in let* y := byte_at w second in
           if x =? y then
             let* first := index_increment w first in
             let* second := index_increment w second in
             equal_wrapped w first second n
           else Ok (false, (first, second))
  end.
(** window.rs:195-220 compare_for_equal_prefix *)
Definition compare_for_equal_prefix (w : window) (first second bit_index full_byte_length : Z) : res bool :=
  let* reach := add usize (Z.max first second) full_byte_length in
  if reach <? w_max w then compare_straight w first second bit_index full_byte_length
  else
    let* r := equal_wrapped w first second (Z.to_nat full_byte_length) in
    let '(equal, (first, second)) := r in
    let* rest := compare_straight w first second bit_index 0 in
    Ok (equal && rest).
