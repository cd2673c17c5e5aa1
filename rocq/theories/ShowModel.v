(** Model of the listing of the tree: src/history/tree/mod.rs:365-392. *)
From Verif Require Import Base StateModel NodesModel TreeModel.

(** mod.rs:368, 377, 382-383 and 389-390: a line as the numbers printed on it.  A node is printed by node.rs:171-178: text start, depth, the last bits and the
    counts; then its index.  A leaf is the index of a byte of the window.  The first number is the indent, in steps of three blanks.  The digits are not
    modelled, nor is the length of the blanks. *)
Inductive line : Type :=
| EmptyTree
| NodeLine (indent text_start depth recent left_count right_count index : Z)
| LeafLine (indent index : Z).
(** mod.rs:374-392 print_node; 378-384 and 385-391 are [show_child].  Each call goes one node down; the fuel is the number of nodes. *)
Definition show_child (show : Z -> Z -> res (list line)) (child depth : Z) : res (list line) :=
  let* below := add usize depth 1 in
  if child_is_node_index child then
    let* j := child_to_node_index child in show j below
  else
    let* p := child_to_window_index child in Ok [LeafLine below p].
Fixpoint show_node (ns : nodes) (fuel : nat) (node_index depth : Z) : res (list line) :=
  match fuel with
  | O => Fail EFuel
  | S fuel =>
      let* n := nodes_get ns node_index in
      assert_ (nd_is_valid n) ;;
      let* left := show_child (show_node ns fuel) (nd_child n false) depth in
      let* right := show_child (show_node ns fuel) (nd_child n true) depth in
      Ok (NodeLine depth (nd_text_start n) (nd_depth n) (rb_last_7_bits (nd_recent n)) (nd_left_count n) (nd_right_count n) node_index :: left ++ right)
  end.
(** mod.rs:365-372 print *)
Definition show_tree (tr : tree) : res (list line) :=
  if tr_proper tr then show_node (tr_nodes tr) (length (ns_items (tr_nodes tr))) root_index 0 else Ok [EmptyTree].
