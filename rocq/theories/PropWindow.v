(** Properties C25 and C26: the input window. *)
From Coq Require Import Lia.
From Verif Require Import Base WindowModel WindowSpec WindowProofs.

(** Whatever the size, the shift and the operations: the window holds the bytes of the queue, at the expected places. *)
Theorem C25_window_is_queue : forall max shift ops q, 0 < max < 2 ^ 63 -> 0 <= shift < max -> q_after max ops = Some q ->
  exists w, w_after max shift ops = Ok w /\ w_size w = zlen (q_bytes q) /\ w_start w = slot max shift q 0 /\
    w_cursor w = slot max shift q (zlen (q_bytes q) - 1) /\
    (forall j x, znth (q_bytes q) j = Some x -> byte_at w (slot max shift q j) = Ok x) /\
    (forall j x i, znth (q_bytes q) j = Some x -> 0 <= i < 8 -> window_bit w (slot max shift q j) i = Ok (Z.odd (x / 2 ^ i))).
Proof. exact window_is_queue. Qed.
Print Assumptions C25_window_is_queue.

(** A full window refuses another byte, an empty one refuses to drop. *)
Theorem C25_limits_enforced : forall max shift ops q w, 0 < max < 2 ^ 63 -> 0 <= shift < max -> q_after max ops = Some q ->
  w_after max shift ops = Ok w ->
  (zlen (q_bytes q) = max -> advance_cursor w = Fail EAssert) /\ (q_bytes q = [] -> advance_start w = Fail EAssert).
Proof. exact limits_enforced. Qed.
Print Assumptions C25_limits_enforced.

(** Arithmetic on indices is arithmetic on positions in the queue. *)
Theorem C25_arithmetic_agrees : forall max shift ops q w, 0 < max < 2 ^ 63 -> 0 <= shift < max -> q_after max ops = Some q ->
  w_after max shift ops = Ok w ->
  let n := zlen (q_bytes q) in let at_ := slot max shift q in
  (forall j k, 0 <= j -> 0 <= k -> j + k <= n -> index_add w (at_ j) k = Ok (at_ (j + k))) /\
  (forall j k, 0 <= k <= j -> j < n -> index_subtract w (at_ j) k = Ok (at_ (j - k))) /\
  (forall i j, 0 <= i <= j -> j < n -> index_diff w (at_ j) (at_ i) = Ok (j - i)) /\
  (forall i j, 0 <= i < max -> 0 <= j < max -> index_is_smaller w (at_ i) (at_ j) = Ok (i <? j) /\
    index_is_smaller_or_equal w (at_ i) (at_ j) = Ok (i <=? j)) /\
  (forall i j, 0 <= i < max -> 0 <= j < max -> at_ i = at_ j -> i = j).
Proof. exact arithmetic_agrees. Qed.
Print Assumptions C25_arithmetic_agrees.

(** All suffixes are visited, oldest first; but an empty window that would continue at index 0 (such as a new one) panics. *)
Theorem C25_suffixes_visited : forall max shift ops q w, 0 < max < 2 ^ 63 -> 0 <= shift < max -> q_after max ops = Some q ->
  w_after max shift ops = Ok w ->
  for_each_suffix w =
    if 0 <? zlen (q_bytes q) then Ok (map (slot max shift q) (zseq 0 (Z.to_nat (zlen (q_bytes q)))))
    else if slot max shift q 0 =? 0 then Fail EAssert else Ok [].
Proof. exact suffixes_visited. Qed.
Print Assumptions C25_suffixes_visited.

(** The constructor accepts a shift equal to the size, but then the first byte cannot be added; larger shifts are refused. *)
Theorem C25_full_shift_refuted : forall max, 0 < max < 2 ^ 63 -> exists w, window_new max max = Ok w /\ advance_cursor w = Fail EAssert.
Proof. exact full_shift_fails. Qed.
Print Assumptions C25_full_shift_refuted.
Theorem C25_large_shift : forall max shift, 0 < max < 2 ^ 63 -> max < shift -> window_new max shift = Fail EAssert.
Proof. exact large_shift_fails. Qed.
Print Assumptions C25_large_shift.

(** Comparison answers whether the bit strings from the two positions agree on [n] bytes and 7 - [k] bits; it looks at
    nothing else, and cannot fail while both strings are that long. *)
Theorem C26_compare_is_prefix : forall max shift ops q w i j n k, 0 < max < 2 ^ 63 -> 0 <= shift < max -> q_after max ops = Some q ->
  w_after max shift ops = Ok w ->
  0 <= i <= zlen (q_bytes q) -> 0 <= j <= zlen (q_bytes q) -> 0 <= n -> 0 <= k <= 7 ->
  8 * n + (7 - k) <= zlen (bits_from q i) -> 8 * n + (7 - k) <= zlen (bits_from q j) ->
  exists b, compare_for_equal_prefix w (slot max shift q i) (slot max shift q j) k n = Ok b /\
    (b = true <-> firstn (Z.to_nat (8 * n + (7 - k))) (bits_from q i) = firstn (Z.to_nat (8 * n + (7 - k))) (bits_from q j)).
Proof. exact compare_is_prefix. Qed.
Print Assumptions C26_compare_is_prefix.

(** A window of three bytes, first byte at index 2, that has wrapped: 97 98 (dropped 7). *)
Definition sample : list op := [Push; SetByte 7; Push; SetBit One 6; SetBit One 5; SetBit One 0; Drop; Push; SetByte 98].
Example sample_queue : q_after 3 sample = Some (mkQueue 1 [97; 98]).
Proof. vm_compute. reflexivity. Qed.
Example sample_window : w_after 3 2 sample = Ok (mkWindow [97; 98; 0] 0 1 2 3).
Proof. vm_compute. reflexivity. Qed.
Example sample_compare :
  (let* w := w_after 3 2 sample in compare_for_equal_prefix w 0 1 1 0) = Ok true /\
  (let* w := w_after 3 2 sample in compare_for_equal_prefix w 0 1 0 0) = Ok false.
Proof. split; vm_compute; reflexivity. Qed.
(** Contents 97 97 96 at indices 2, 0 and 1: comparison takes the wrapped path. *)
Example wrapped_compare :
  (let* w := w_after 3 2 [Push; SetByte 97; Push; SetByte 97; Push; SetByte 96] in compare_for_equal_prefix w 2 0 0 1) = Ok true /\
  (let* w := w_after 3 2 [Push; SetByte 97; Push; SetByte 97; Push; SetByte 48] in compare_for_equal_prefix w 2 0 0 1) = Ok false.
Proof. split; vm_compute; reflexivity. Qed.
Example new_window_panics : (let* w := w_after 3 0 [] in for_each_suffix w) = Fail EAssert.
Proof. vm_compute. reflexivity. Qed.
