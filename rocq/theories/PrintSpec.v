(** What the printed tables are to show. *)
From Verif Require Import Base StatesModel WindowSpec PredModel PredSpec WireSpec.

(** The bits for which the number of contexts and the number of those that met one bit only are as given, four standing for any more. *)
Definition of_kind (order unary : Z) (x : line) : bool := (Z.min 4 (ln_met x - 1) =? order) && (Z.min 4 (ln_met x - ln_branching x) =? unary).
Definition report_of_kind (order unary : Z) (s : list context_state) : bool :=
  (0 <? zlen s) && (Z.min 4 (zlen s - 1) =? order) && (Z.min 4 (zlen (filter (fun x => negb (is_for_node x)) s)) =? unary).
(** One line for each kind: how many bits, their cost, and the sum of the occurrences of the highest contexts. *)
Definition kinds_table (l : list line) (states : list (list context_state)) : list (Z * Z * Z * Z * Z) :=
  flat_map (fun order => map (fun unary => (order, unary, counts (of_kind order unary) l, costs (of_kind order unary) l, zsum (map highest_count (filter (report_of_kind order unary) states)))) (zseq 0 5)) (zseq 0 5).
(** The cost of the complete bytes of a value in a file (all but the last byte). *)
Definition cost_of_value (t : luts) (max max_order : Z) (bytes probabilities : list Z) (v : Z) : Z :=
  costs (fun x => (ln_byte x <? zlen bytes - 1) && (nth (Z.to_nat (ln_byte x)) bytes (-1) =? v)) (ledger t max max_order [] (List.combine (bit_string bytes) probabilities)).
