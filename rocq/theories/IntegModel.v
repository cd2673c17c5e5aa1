(** Model of the integrity check of the tree source, which the tests call at the start of each byte: src/history/tree/mod.rs:58-63, 276-363 and
    src/history/tree/context.rs:141-173. *)
From Verif Require Import Base WindowModel NodesModel TreeModel.

(** mod.rs:343-358 and context.rs:148-171: the loop over a stack of nodes (its top is the head of the list).  Both loops have this form and differ in
    what they do with each child; [on_child] gets the node, the child and what was gathered.  node_child.rs:82-84 items: first left, then right.
    The fuel is the number of nodes. *)
Definition push_child (child : Z) (stack : list Z) : res (list Z) :=
  if child_is_node_index child then let* j := child_to_node_index child in Ok (j :: stack) else Ok stack.
Definition each_child {A : Type} (on_child : Z -> A -> res A) (child : Z) (stack : list Z) (acc : A) : res (list Z * A) :=
  assert_ (child_is_valid child) ;;
  let* acc := on_child child acc in
  let* stack := push_child child stack in
  Ok (stack, acc).
Fixpoint depth_first {A : Type} (ns : nodes) (on_child : Z -> node -> Z -> A -> res A) (fuel : nat) (stack : list Z) (acc : A) : res A :=
  match stack with
  | [] => Ok acc
  | i :: stack =>
      match fuel with
      | O => Fail EFuel
      | S fuel =>
          let* n := nodes_get ns i in
          let* r := each_child (on_child i n) (nd_child n false) stack acc in
          let* r := each_child (on_child i n) (nd_child n true) (fst r) (snd r) in
          depth_first ns on_child fuel (fst r) (snd r)
      end
  end.

(** context.rs:143-147, 152-153: the suffix of the last context at the node, or else the text start of the node *)
Definition mapped_suffix (contexts : list context) (i text_start : Z) : Z :=
  fold_left (fun suffix cx => if cx_node cx =? i then cx_suffix cx else suffix) contexts text_start.
(** context.rs:154-169: what is asked of a child *)
Definition check_child (tr : tree) (contexts : list context) (i : Z) (n : node) (child : Z) (acc : unit) : res unit :=
  let text_start := mapped_suffix contexts i (nd_text_start n) in
  let full_byte_length := nd_depth n / 8 in
  let bit_index := 7 - nd_depth n mod 8 in
  let* other := if child_is_node_index child then
                  let* j := child_to_node_index child in
                  let* m := nodes_get (tr_nodes tr) j in Ok (nd_text_start m)
                else child_to_window_index child in
  let* equal := compare_for_equal_prefix (tr_window tr) text_start other bit_index full_byte_length in
  assert_ equal.
(** context.rs:141-173 ActiveContexts::check_integrity_on_next_byte *)
Definition check_contexts (tr : tree) (contexts : list context) : res unit :=
  if tr_proper tr then
    depth_first (tr_nodes tr) (check_child tr contexts) (length (ns_items (tr_nodes tr))) [root_index] tt
  else Ok tt.

(** mod.rs:287-338: the loop for one suffix.  The fuel is the number of nodes. *)
Fixpoint check_suffix (tr : tree) (max_order suffix_start : Z) (fuel : nat) (node_index : Z) : res unit :=
  match fuel with
  | O => Fail EFuel
  | S fuel =>
      let w := tr_window tr in
      let* n := nodes_get (tr_nodes tr) node_index in
      let* a := mul usize max_order 8 in
      let* limit := add usize a 7 in
      assert_ (nd_depth n <=? limit) ;;
      let* ordered := index_is_smaller_or_equal w suffix_start (nd_text_start n) in
      assert_ ordered ;;
      let* known := index_diff w (w_cursor w) (nd_text_start n) in
      if known <=? nd_depth n / 8 then
        let* equal := compare_for_equal_prefix w suffix_start (nd_text_start n) 7 known in
        assert_ equal
      else
        let full_byte_length := nd_depth n / 8 in
        let bit_index := 7 - nd_depth n mod 8 in
        let* equal := compare_for_equal_prefix w suffix_start (nd_text_start n) bit_index full_byte_length in
        assert_ equal ;;
        let* first := index_add w suffix_start full_byte_length in
        let* second := index_add w (nd_text_start n) full_byte_length in
        let* differ := bytes_differ_on w first second bit_index in
        if differ then Ok tt
        else
          let* byte_index := index_add w suffix_start full_byte_length in
          let* b := window_bit w byte_index bit_index in
          let child := nd_child n b in
          if child_is_node_index child then
            let* j := child_to_node_index child in
            check_suffix tr max_order suffix_start fuel j
          else
            let* leaf_index := child_to_window_index child in
            let* ordered := index_is_smaller_or_equal w suffix_start leaf_index in
            assert_ ordered ;;
            let* known := index_diff w (w_cursor w) leaf_index in
            let* equal := compare_for_equal_prefix w suffix_start leaf_index 7 (Z.min max_order known) in
            assert_ equal
  end.
(** mod.rs:280-339: the check that all suffixes are in the tree *)
Definition check_suffixes (tr : tree) (max_order : Z) : res unit :=
  let* suffixes := for_each_suffix (tr_window tr) in
  mfold (fun _ suffix_start =>
           if tr_proper tr then check_suffix tr max_order suffix_start (length (ns_items (tr_nodes tr))) root_index else Ok tt)
        suffixes tt.
(** mod.rs:351-355: a leaf is counted *)
Definition count_leaf (w : window) (i : Z) (n : node) (child : Z) (counters : list Z) : res (list Z) :=
  if child_is_node_index child then Ok counters
  else
    let* p := child_to_window_index child in
    let* offset := index_diff w p (w_start w) in
    let* k := get counters offset in
    let* k := add u8 k 1 in
    set counters offset k.
(** mod.rs:340-362: the check that the leaves are different suffixes *)
Definition check_leaves (tr : tree) : res unit :=
  if tr_proper tr then
    let w := tr_window tr in
    let* counters := depth_first (tr_nodes tr) (count_leaf w) (length (ns_items (tr_nodes tr))) [root_index] (repeat 0 (Z.to_nat (w_size w))) in
    assert_ (forallb (fun k => k <=? 1) counters)
  else Ok tt.
(** mod.rs:276-363 Tree::check_integrity_on_next_byte *)
Definition check_tree (tr : tree) (max_order : Z) : res unit :=
  let w := tr_window tr in
  let* sized := if w_size w =? w_max w then Ok true
                else let* d := index_diff w (w_cursor w) (w_start w) in let* e := add usize d 1 in Ok (e =? w_size w) in
  assert_ sized ;;
  check_suffixes tr max_order ;;
  check_leaves tr.
(** mod.rs:58-63 TreeHistorySource::check_integrity_on_next_byte *)
Definition check_integrity (s : source) : res unit :=
  assert_ (ts_bit_index s =? 7) ;;
  check_contexts (ts_tree s) (ts_contexts s) ;;
  check_tree (ts_tree s) (ts_max_order s).
