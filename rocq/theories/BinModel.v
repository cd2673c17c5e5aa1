(** Model of src/bin/print_histories.rs: the listing of the bit histories that a history source reports. *)
From Verif Require Import Base StateModel StatesModel WindowModel HistModel TreeModel.

(** history/mod.rs:194-205 HistorySource; the tables are given to the functions that use them, [gather] gets the items collected so far. *)
Record history_source (S : Type) : Type := mkHistorySource {
  hs_new : Z -> Z -> res S; hs_start : S -> res S; hs_gather : S -> list context_state -> res (list context_state);
  hs_process : S -> bit -> list cost_trackers -> res S }.
Arguments mkHistorySource {S}. Arguments hs_new {S}. Arguments hs_start {S}. Arguments hs_gather {S}. Arguments hs_process {S}.
(** naive.rs:33-102, fat_map.rs:55-149, tree/mod.rs:66-106: the three implementations; tree/mod.rs:67-70 starts the window at 0. *)
Definition brute_force (t : luts) : history_source naive := mkHistorySource naive_new naive_start (naive_gather t) naive_process.
Definition fat_map (t : luts) (hash : hasher) : history_source fat := mkHistorySource fat_new fat_start (fat_gather hash) (fat_process t hash).
Definition tree_source (t : luts) : history_source source :=
  mkHistorySource (fun max_window_size max_order => tree_new max_window_size max_order 0) tree_start tree_gather (tree_process t).

(** What is printed, line by line: print_histories.rs:59, 64-70 and 78.  The numbers stand for their hexadecimal digits, the byte for its character. *)
Inductive printed : Type := Header (index byte : Z) | States (bit_index : Z) (recent : list Z) | Blank.

(** print_histories.rs:62-76: the loop body for a bit.  The collection holds max_order + 1 items (history/mod.rs:169-192). *)
Definition print_bit {S : Type} (hs : history_source S) (x : Z) (st : S * list printed) (bit_index : Z) : res (S * list printed) :=
  let '(s, out) := st in
  let* items := hs_gather hs s [] in
  let* out := if 0 <? zlen items then
                let* recent := mmap (fun item => let* r := recent_bits item in Ok (rb_last_7_bits r)) items in
                Ok (out ++ [States bit_index recent])
              else Ok out in
  let* incoming_bit := get_bit x bit_index in
  let new_cost_trackers := map (fun _ => ct_default) (filter is_for_node items) in
  let* s := hs_process hs s incoming_bit new_cost_trackers in
  Ok (s, out).
(** print_histories.rs:58-79: the loop body for a byte *)
Definition print_byte {S : Type} (hs : history_source S) (st : S * list printed) (ix : Z * Z) : res (S * list printed) :=
  let '(s, out) := st in
  let '(i, x) := ix in
  let out := out ++ [Header i x] in
  let* s := hs_start hs s in
  let* st := mfold (print_bit hs x) (rev (range 0 (7 + 1))) (s, out) in
  let '(s, out) := st in
  Ok (s, out ++ [Blank]).
(** print_histories.rs:54-80 print_bit_histories; MAX_ORDER of lib.rs:34 is [max_order]. *)
Definition print_bit_histories {S : Type} (hs : history_source S) (max_order : Z) (input : list Z) : res (list printed) :=
  let* s := hs_new hs (zlen input) max_order in
  let taken := firstn 1234 input in
  let* st := mfold (print_byte hs) (List.combine (range 0 (zlen taken)) taken) (s, []) in
  Ok (snd st).
(** lib.rs:34 MAX_ORDER *)
Definition lib_max_order : Z := 63.
