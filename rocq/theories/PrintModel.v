(** The tables of statistics that can be printed. *)
From Verif Require Import Base PredModel.

(** stats.rs:119-135 print_costs_and_occurrences_by_context_type: for each printed line the order, the number of unary contexts and the three entries read for it,
    in the order of reading. Simplified: the entries are printed as quotients in f64, here they are whole numbers. *)
Definition type_line (s : stats) (order unary_contexts : Z) : res (Z * Z * Z * Z * Z) :=
  let* i := mul usize order 5 in
  let* mixer_index := add usize i unary_contexts in
  let* occurrences := get (st_order_occurrences s) mixer_index in
  let* count := get (st_order_counts s) mixer_index in
  let* cost := get (st_order_costs s) mixer_index in
  Ok (order, unary_contexts, count, cost, occurrences).
Definition type_lines (s : stats) : res (list (Z * Z * Z * Z * Z)) :=
  let* rows := mmap (fun order => mmap (type_line s order) (zseq 0 5)) (zseq 0 5) in Ok (concat rows).

(** stats.rs:138-145 print_symbol: the code, the count and the cost (simplified as above, without the character) *)
Definition print_symbol (s : stats) (code : Z) : res (Z * Z * Z) :=
  let* count := get (st_symbol_counts s) code in
  let* cost := get (st_symbol_costs s) code in
  Ok (code, count, cost).
(** stats.rs:147-156: 32 rows of 4 columns; the code is computed as a u8 *)
Definition symbol_cell (s : stats) (row column : Z) : res (Z * Z * Z) :=
  let* c := mul u8 column 32 in
  let* code := add u8 row c in
  print_symbol s code.
Definition symbol_rows (s : stats) : res (list (list (Z * Z * Z))) := mmap (fun row => mmap (symbol_cell s row) (zseq 0 4)) (zseq 0 32).
