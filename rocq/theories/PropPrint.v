(** C53, C54: the printed statistics, and what the tree reports to the chain while the window is not full. *)
From Verif Require Import Base StatesModel StatesSpec WindowSpec HistSpec TreeModel TreeSpec PredModel PredSpec PredFacts StatesProofs WireSpec PrintModel PrintSpec PrintProofs.

(** C53. From order 4 on the table by type of context can be printed and shows, for each kind, the number of bits, their cost and the occurrences of the highest contexts the tree reported.
    For smaller orders printing it panics, whatever was coded. *)
Theorem C53_context_types : forall t max max_order uses p probabilities, luts_new = Ok t -> 0 < max <= 2 ^ 31 -> 0 <= max_order -> 8 * max_order + 7 < 2 ^ 16 -> zlen (told uses) < 2 ^ 47 - 1 ->
  use_all ModeLight t max max_order uses = Ok (p, probabilities) -> asked uses = zlen (told uses) ->
  exists input states, map fst input = told uses /\ supplied max max_order input /\ length states = length (told uses) /\ tree_reports t max max_order input states /\
    (4 <= max_order -> type_lines (pr_stats p) = Ok (kinds_table (ledger t max max_order [] (trace_of uses probabilities)) states)) /\ (max_order < 4 -> type_lines (pr_stats p) = Fail EIndex).
Proof. exact calls_printed. Qed.
Print Assumptions C53_context_types.
(** The table by symbol has one cell for each code below 128, with the number and cost of the complete bytes of that value. *)
Theorem C53_symbols : forall md t max max_order bytes, luts_new = Ok t -> 0 < max <= 2 ^ 31 -> 0 <= max_order -> 8 * max_order + 7 < 2 ^ 16 -> 8 * zlen bytes < 2 ^ 47 - 1 -> Forall (fun x => 0 <= x < 256) bytes -> bytes <> [] ->
  exists p probabilities rows, use_all md t max max_order (uses_of bytes) = Ok (p, probabilities) /\ symbol_rows (pr_stats p) = Ok rows /\ length (concat rows) = 128%nat /\
    forall x, In x (concat rows) <-> exists code, 0 <= code < 128 /\ x = (code, zlen (filter (fun y => y =? code) (removelast bytes)), cost_of_value t max max_order bytes probabilities code).
Proof. exact file_printed. Qed.
Print Assumptions C53_symbols.
(** Symbols from 128 on are not printed: of a file of such bytes the table shows zeros only, although the statistics hold their counts and costs. *)
Theorem C53_all_symbols_refuted : forall md t max max_order bytes, luts_new = Ok t -> 0 < max <= 2 ^ 31 -> 0 <= max_order -> 8 * max_order + 7 < 2 ^ 16 -> 8 * zlen bytes < 2 ^ 47 - 1 -> Forall (fun x => 128 <= x < 256) bytes -> bytes <> [] ->
  exists p probabilities rows, use_all md t max max_order (uses_of bytes) = Ok (p, probabilities) /\ symbol_rows (pr_stats p) = Ok rows /\ Forall (fun x => snd (fst x) = 0 /\ snd x = 0) (concat rows) /\
    zsum (st_symbol_counts (pr_stats p)) = zlen bytes - 1 /\ zsum (st_symbol_costs (pr_stats p)) + st_byte_cost (pr_stats p) = st_total_cost (pr_stats p).
Proof. exact high_unprinted. Qed.
Print Assumptions C53_all_symbols_refuted.
(** The hypotheses hold for small files; a table of two bits of one kind each. *)
Example C53_files : exists t, luts_new = Ok t /\ Forall (fun x => 0 <= x < 256) [97; 98; 97; 200] /\ Forall (fun x => 128 <= x < 256) [200; 201; 200] /\ asked (uses_of [97; 98]) = zlen (told (uses_of [97; 98])).
Proof. destruct tables_built as (t & L). exists t. split; [exact L|]. repeat split; repeat constructor; try discriminate. Qed.
Example C53_table : firstn 7 (kinds_table [mkLine 0 1 0 100; mkLine 0 2 1 50; mkLine 0 0 0 9] [[ForEdge 1 3 Zero]; [ForNode 1 5 0 0 ct_default; ForEdge 1 2 One]; []]) =
  [(0, 0, 0, 0, 0); (0, 1, 1, 100, 3); (0, 2, 0, 0, 0); (0, 3, 0, 0, 0); (0, 4, 0, 0, 0); (1, 0, 0, 0, 0); (1, 1, 1, 50, 2)].
Proof. vm_compute. reflexivity. Qed.

(** C54. Before the window is full the states given to the chain are exactly those of the text so far: each order stands for all bits that followed its context.
    (C50 says that the predictor's tree is fed such an input and that the chain is given these reports.) *)
Theorem C54_reports_exact : forall t max max_order input states, luts_new = Ok t -> 0 < max <= 2 ^ 31 -> 0 <= max_order -> 8 * max_order + 7 < 2 ^ 16 ->
  supplied max max_order input -> zlen states <= zlen input -> tree_reports t max max_order input states ->
  forall i s, znth states i = Some s -> i / 8 < max -> true_report (lt_rates t) max_order (firstn (Z.to_nat i) (map fst input)) s.
Proof. exact reports_exact. Qed.
Print Assumptions C54_reports_exact.
(** For a file: after any calls there are such reports, one for each bit, that the chain was told. *)
Theorem C54_predictor : forall t max max_order uses p probabilities, luts_new = Ok t -> 0 < max <= 2 ^ 31 -> 0 <= max_order -> 8 * max_order + 7 < 2 ^ 16 -> zlen (told uses) < 2 ^ 47 - 1 ->
  use_all ModeLight t max max_order uses = Ok (p, probabilities) -> asked uses = zlen (told uses) ->
  exists states kits outs, length states = length (told uses) /\ chain_new t max_order = Ok kits /\
    mfold (KitSpec.chain_round t) (rounds_of [] (told uses) states) (kits, []) = Ok (pr_chain p, outs) /\ light t (told uses) outs probabilities (pr_finalizer p) /\
    forall i s, znth states i = Some s -> i / 8 < max -> true_report (lt_rates t) max_order (firstn (Z.to_nat i) (told uses)) s.
Proof. exact predictor_exact. Qed.
Print Assumptions C54_predictor.
Example C54_input : supplied 10 1 [(Zero, []); (One, [])] /\ exists t, luts_new = Ok t.
Proof. split; [|destruct tables_built as (t & L); exists t; exact L]. exact two_bits_supplied. Qed.
