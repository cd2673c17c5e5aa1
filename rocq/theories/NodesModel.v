(** Model of src/history/tree/direction.rs, node_child.rs, node.rs and nodes.rs. *)
From Verif Require Import Base StateModel EstModel StatesModel.

(** direction.rs:22-26 Direction, 38-45 From<Bit>: Left is Zero, Right is One; 47-56 Not is [negb]. *)
Definition direction : Type := bit.

(** nodes.rs:56 NUM_ROOTS *)
Definition num_roots : Z := 1.
(** node_child.rs:25-27 NodeChild: its value, an i32; 31 INVALID *)
Definition child_invalid : Z := -1.
(** node_child.rs:33-35; [!x] of a signed number is -x - 1 *)
Definition child_is_valid (c : Z) : bool := (0 <=? c) || (num_roots <=? - c - 1).
(** node_child.rs:37-39, 41-43 *)
Definition child_is_window_index (c : Z) : bool := 0 <=? c.
Definition child_is_node_index (c : Z) : bool := c <? 0.
(** node_child.rs:45-48, 50-53 *)
Definition child_to_window_index (c : Z) : res Z := assert_ (0 <=? c) ;; Ok c.
Definition child_to_node_index (c : Z) : res Z := assert_ (c <? 0) ;; Ok (- c - 1).
(** node_child.rs:56-61 From<WindowIndex> *)
Definition child_of_window_index (index : Z) : res Z := assert_ (index <=? 2 ^ 31 - 1) ;; Ok index.
(** node_child.rs:63-69 From<NodeIndex> *)
Definition child_of_node_index (index : Z) : res Z :=
  assert_ ((num_roots <=? index) && (index <=? 2 ^ 31 - 1)) ;; Ok (- index - 1).

(** node.rs:65-75 Node; children (node_child.rs:72-109) are the pair (left, right). *)
Record node : Type := mkNode {
  nd_children : Z * Z; nd_text_start : Z; nd_estimator : Z; nd_trackers : cost_trackers; nd_runs : Z; nd_recent : Z;
  nd_depth : Z; nd_left_count : Z; nd_right_count : Z }.
(** estimators/decelerating.rs:32-33 INVALID *)
Definition de_invalid : Z := 0.
(** node.rs:78-88 INVALID *)
Definition node_invalid : node :=
  mkNode (child_invalid, child_invalid) 0 de_invalid ct_default br_new rb_invalid 0 0 0.
(** node.rs:90-111 new; the tests of the counts, of type u16, always hold *)
Definition node_new (text_start estimator depth : Z) (trackers : cost_trackers) (runs left_count right_count recent : Z) (children : Z * Z) : res node :=
  assert_ (text_start <? 2 ^ 31) ;;
  assert_ (depth <? 2 ^ 16) ;;
  assert_ (rb_is_valid recent) ;;
  Ok (mkNode children text_start estimator trackers runs recent depth left_count right_count).
(** node_child.rs:91-109 Index, IndexMut *)
Definition nd_child (n : node) (d : direction) : Z := if d then snd (nd_children n) else fst (nd_children n).
Definition nd_set_child (n : node) (d : direction) (c : Z) : node :=
  let '(l, r) := nd_children n in
  mkNode (if d then (l, c) else (c, r)) (nd_text_start n) (nd_estimator n) (nd_trackers n) (nd_runs n) (nd_recent n)
    (nd_depth n) (nd_left_count n) (nd_right_count n).
Definition nd_set_text_start (n : node) (text_start : Z) : node :=
  mkNode (nd_children n) text_start (nd_estimator n) (nd_trackers n) (nd_runs n) (nd_recent n) (nd_depth n) (nd_left_count n) (nd_right_count n).
(** node.rs:113-116 is_valid *)
Definition nd_is_valid (n : node) : bool :=
  negb (fst (nd_children n) =? child_invalid) && negb (snd (nd_children n) =? child_invalid).
(** node.rs:154-168 update_on_next_bit *)
Definition nd_update_on_next_bit (rates : list Z) (n : node) (b : bit) (new_cost_trackers : cost_trackers) : res node :=
  let* l := if b then Ok (nd_left_count n) else let* x := add u16 (nd_left_count n) 1 in Ok (Z.min max_occurrence_count x) in
  let* r := if b then let* x := add u16 (nd_right_count n) 1 in Ok (Z.min max_occurrence_count x) else Ok (nd_right_count n) in
  let* runs := br_updated (nd_runs n) b in
  let* recent := rb_updated (nd_recent n) b in
  let* e := de_update rates (nd_estimator n) b in
  Ok (mkNode (nd_children n) (nd_text_start n) e new_cost_trackers runs recent (nd_depth n) l r).

(** nodes.rs:25-27 NodeIndex: its value; 38-40 is_root *)
Definition index_is_root (i : Z) : bool := i <? num_roots.
(** nodes.rs:49-53 Nodes.  [ns_limit] is the capacity asked for; the vector never grows past it (88), so it is not reallocated. *)
Record nodes : Type := mkNodes { ns_items : list node; ns_last_deleted : option Z; ns_removed : Z; ns_limit : Z }.
(** nodes.rs:58-67 new; the allocation is not modelled *)
Definition nodes_new (nodes_limit : Z) : res nodes :=
  assert_ (num_roots <=? nodes_limit) ;;
  Ok (mkNodes (repeat node_invalid (Z.to_nat num_roots)) None 0 nodes_limit).
(** nodes.rs:118-127 Index *)
Definition nodes_get (ns : nodes) (index : Z) : res node :=
  let* n := get (ns_items ns) index in
  assert_ ((num_roots <=? index) || nd_is_valid n) ;; Ok n.
(** nodes.rs:95-97 update_node *)
Definition nodes_update (ns : nodes) (index : Z) (n : node) : res nodes :=
  let* items := set (ns_items ns) index n in
  Ok (mkNodes items (ns_last_deleted ns) (ns_removed ns) (ns_limit ns)).
(** nodes.rs:129-136 IndexMut followed by a store: the test is of the node before *)
Definition nodes_set (ns : nodes) (index : Z) (n : node) : res nodes :=
  nodes_get ns index ;; nodes_update ns index n.
(** nodes.rs:69-93 add_node: the child reference to the new node *)
Definition nodes_add (ns : nodes) (n : node) : res (Z * nodes) :=
  match ns_last_deleted ns with
  | Some last_deleted =>
      assert_ (0 <? ns_removed ns) ;;
      let removed := ns_removed ns - 1 in
      let* old := nodes_get ns last_deleted in
      assert_ (negb (child_is_valid (nd_child old false))) ;;
      let next := nd_child old true in
      let* last := if child_is_valid next then
                     assert_ (child_is_node_index next) ;;
                     let* i := child_to_node_index next in Ok (Some i)
                   else Ok None in
      let* ns := nodes_update (mkNodes (ns_items ns) last removed (ns_limit ns)) last_deleted n in
      let* c := child_of_node_index last_deleted in
      Ok (c, ns)
  | None =>
      assert_ (ns_removed ns =? 0) ;;
      assert_ (zlen (ns_items ns) <? ns_limit ns) ;;
      let* c := child_of_node_index (zlen (ns_items ns)) in
      Ok (c, mkNodes (ns_items ns ++ [n]) (ns_last_deleted ns) (ns_removed ns) (ns_limit ns))
  end.
(** nodes.rs:99-107 delete_node *)
Definition nodes_delete (ns : nodes) (index : Z) : res nodes :=
  let* right := match ns_last_deleted ns with Some i => child_of_node_index i | None => Ok child_invalid end in
  let n := nd_set_child (nd_set_child node_invalid false child_invalid) true right in
  let* ns := nodes_set ns index n in
  let* removed := add usize (ns_removed ns) 1 in
  Ok (mkNodes (ns_items ns) (Some index) removed (ns_limit ns)).
(** nodes.rs:109-115 live_nodes_count *)
Definition live_nodes_count (ns : nodes) : res Z :=
  let* root := get (ns_items ns) 0 in
  if nd_is_valid root then sub usize (zlen (ns_items ns)) (ns_removed ns) else Ok 0.
