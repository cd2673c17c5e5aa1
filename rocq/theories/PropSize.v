(** C64: the tree has one node for each string of the window that branches, with its statistics. *)
From Verif Require Import Base EstModel StatesModel StatesProofs WindowModel WindowSpec NodesModel HistSpec TreeModel TreeSpec TreeFacts IntegSpec SizeSpec SizeProofs.

(** Whatever was fed, also after bytes left the window: each node stands for one string that is followed by both bits in the window, each such string of up to
    8 * max_order + 7 bits has one node, there are no other live nodes, and the numbers in a node are those of the bits that follow its string in the window, after at most
    as many older ones as bytes left it. *)
Theorem C64_one_node_per_branching_string : forall t max max_order shift input,
  luts_new = Ok t -> 0 < max <= 2 ^ 31 -> 0 <= shift < max -> 0 <= max_order /\ 8 * max_order + 7 < 2 ^ 16 -> supplied max max_order input ->
  exists s, tree_after t max max_order shift input = Ok s /\
    one_node_each (lt_rates t) max_order (forgotten max (map fst input)) (ts_tree s) (in_window max (map fst input)).
Proof. exact tree_sized. Qed.
Print Assumptions C64_one_node_per_branching_string.

(** "abcaba" in a window of four bytes, two bits before the end: 'c', 'a' and 'b' begin alike with six bits and 'c' and 'b' with seven. *)
Definition window_text : list bit := in_window 4 (firstn 46 (bit_string [97; 98; 99; 97; 98; 97])).
Definition six : list bit := [Zero; One; One; Zero; Zero; Zero].
Example C64_strings : branches 1 window_text six /\ branches 1 window_text (six ++ [One]) /\ next_bits window_text six = [One; Zero; One] /\ next_bits window_text (six ++ [One]) = [One; Zero].
Proof.
  split; [split; [reflexivity|intros [|]; [exists 0|exists 1]; split; [discriminate|reflexivity|discriminate|reflexivity]]|].
  split; [split; [reflexivity|intros [|]; [exists 0|exists 2]; split; [discriminate|reflexivity|discriminate|reflexivity]]|]. split; vm_compute; reflexivity.
Qed.
(** With small tables in place of the real ones the tree then has these two nodes. The counts still include what left the window ('a' and 'b'). *)
Definition small_tables : luts := mkLuts [] (repeat (2 ^ 20) 20) (repeat (2 ^ 30 * 2 ^ 10 + 2) 20) [] (repeat 0 1024) [] [] [].
Example C64_nodes : (let* s := tree_after small_tables 4 1 2 (supply_window 4 1 ct_default [] (firstn 46 (bit_string [97; 98; 99; 97; 98; 97]))) in
  let ns := tr_nodes (ts_tree s) in let* live := live_nodes_count ns in let* a := nodes_get ns 0 in let* j := child_to_node_index (nd_child a One) in let* b := nodes_get ns j in
  Ok (live, (nd_depth a, nd_left_count a, nd_right_count a), (nd_depth b, nd_left_count b, nd_right_count b))) = Ok (2, (6, 2, 3), (7, 2, 1)).
Proof. vm_compute. reflexivity. Qed.
(** The hypotheses hold for this input. *)
Example C64_supplied : (exists t, luts_new = Ok t) /\ supplied 4 1 (supply_window 4 1 ct_default [] (firstn 46 (bit_string [97; 98; 99; 97; 98; 97]))).
Proof. split; [exact tables_built|]. apply (supply_window_ok 4 1 ct_default _ []). intros before b cs later E. destruct before; discriminate. Qed.
