(** C65: the listing of the tree is a dictionary of the window. *)
From Verif Require Import Base StatesModel StatesProofs WindowModel WindowSpec NodesModel HistSpec TreeModel TreeSpec TreeFacts IntegSpec SizeSpec ShowModel ShowSpec ShowProofs.

(** Whatever was fed, also after bytes left the window, the listing ends without a panic.  It has one line for each string that is followed by both bits in the window, and one for
    each way on from such a string that does not branch again.  The lines come as in a dictionary, each indented by the number of branching strings it begins with.  The line of
    a branching string has its length and statistics, the other lines have the last place in the window where the string is. *)
Theorem C65_listing_is_a_dictionary : forall t max max_order shift input,
  luts_new = Ok t -> 0 < max <= 2 ^ 31 -> 0 <= shift < max -> 0 <= max_order /\ 8 * max_order + 7 < 2 ^ 16 -> supplied max max_order input ->
  exists s lines, tree_after t max max_order shift input = Ok s /\ show_tree (ts_tree s) = Ok lines /\
    listing (forgotten max (map fst input)) max_order (tr_window (ts_tree s)) (in_window max (map fst input)) lines.
Proof. exact tree_listed. Qed.
Print Assumptions C65_listing_is_a_dictionary.

(** "abcab" in a window of four bytes that starts at index 2, before the last bit: 'b', 'c' and 'a' are at 3, 0 and 1.  'b' and 'c' begin alike with seven bits, 'a' with six of
    them.  The tables are small ones in place of the real ones. *)
Definition small_tables : luts := mkLuts [] (repeat (2 ^ 20) 20) (repeat (2 ^ 30 * 2 ^ 10 + 2) 20) [] (repeat 0 1024) [] [] [].
Example C65_lines : (let* s := tree_after small_tables 4 1 2 (supply_window 4 1 ct_default [] (firstn 39 (bit_string [97; 98; 99; 97; 98]))) in show_tree (ts_tree s)) =
  Ok [NodeLine 0 2 6 45 2 3 0; LeafLine 1 1; NodeLine 1 2 7 5 1 1 1; LeafLine 2 3; LeafLine 2 0].
Proof. vm_compute. reflexivity. Qed.
Example C65_order : dictionary_before [Zero; One] [Zero; One; Zero] /\ dictionary_before [Zero; One; Zero] [Zero; One; One] /\ ~ dictionary_before [Zero; One; One] [Zero; One].
Proof.
  split; [left; now exists Zero, []|]. split; [right; exists [Zero; One]; now split|].
  intros [(b & r & E)|([|a [|b [|c d]]] & S & T)]; [discriminate| | | |]; cbn in S, T; try discriminate; injection S; injection T; intros; subst; discriminate.
Qed.
(** The hypotheses hold for this input. *)
Example C65_supplied : (exists t, luts_new = Ok t) /\ supplied 4 1 (supply_window 4 1 ct_default [] (firstn 39 (bit_string [97; 98; 99; 97; 98]))).
Proof. split; [exact tables_built|]. apply (supply_window_ok 4 1 ct_default _ []). intros before b cs later E. destruct before; discriminate. Qed.
