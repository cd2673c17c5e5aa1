(** Model of src/history/tree/context.rs and of src/history/tree/mod.rs.  Printing (PRINT_DEBUG, print, print_node) is not modelled. *)
From Verif Require Import Base StateModel EstModel LogModel StatesModel WindowModel NodesModel.

(** context.rs:32-39 Context *)
Record context : Type := mkContext { cx_suffix : Z; cx_node : Z; cx_visits : Z; cx_in_leaf : bool; cx_direction : option direction }.
(** mod.rs:96-102 TreeState ([tr_proper]: true is Proper, false is Degenerate), 104-110 Tree.  The tables are passed where they are used;
    [root_index] is always 0 (52), so it is not kept. *)
Record tree : Type := mkTree { tr_nodes : nodes; tr_window : window; tr_proper : bool }.
(** mod.rs:405-407 get_root_node_index *)
Definition root_index : Z := 0.
(** context.rs:91-101 ActiveContexts: its items, 134-136 keep_only being [firstn].  The capacity is max_order + 1 for good, since a context is inserted only after one was
    removed from full items (108-110), so [ts_max_order] stands for context.rs:126-128.  mod.rs:38-42 TreeHistorySource. *)
Record source : Type := mkSource { ts_tree : tree; ts_contexts : list context; ts_max_order : Z; ts_bit_index : Z }.

(** mod.rs:104-110: one field of the tree replaced *)
Definition with_nodes (tr : tree) (ns : nodes) : tree := mkTree ns (tr_window tr) (tr_proper tr).
Definition with_window (tr : tree) (w : window) : tree := mkTree (tr_nodes tr) w (tr_proper tr).
Definition with_proper (tr : tree) (p : bool) : tree := mkTree (tr_nodes tr) (tr_window tr) p.

(** mod.rs:394-403 Tree::new, 45-56 new_special (67-70 new has initial_shift 0) *)
Definition tree_new (max_window_size max_order initial_shift : Z) : res source :=
  assert_ (0 <? max_window_size) ;;
  assert_ (initial_shift <? max_window_size) ;;
  let* limit := sub usize max_window_size 1 in
  let* ns := nodes_new (Z.max num_roots limit) in
  let* w := window_new max_window_size initial_shift in
  let* _capacity := add usize max_order 1 in
  Ok (mkSource (mkTree ns w false) [] max_order (-1)).

(** context.rs:42-77 Context::descend *)
Definition descend (t : luts) (tr : tree) (cx : context) (order bit_index : Z) (new_cost_trackers : cost_trackers) : res (tree * context) :=
  assert_ (negb (cx_in_leaf cx)) ;;
  let w := tr_window tr in
  let* b := window_bit w (w_cursor w) bit_index in
  let direction := b in
  let node_index := cx_node cx in
  let* n := nodes_get (tr_nodes tr) node_index in
  let visits := if direction then nd_right_count n else nd_left_count n in
  let* n := nd_update_on_next_bit (lt_rates t) n b new_cost_trackers in
  let* ns := nodes_set (tr_nodes tr) node_index n in
  let* n := nodes_get ns node_index in
  let child := nd_child n direction in
  if child_is_window_index child then
    let* suffix := child_to_window_index child in
    let* i := index_subtract w (w_cursor w) order in
    let* c := child_of_window_index i in
    let* ns := nodes_set ns node_index (nd_set_child n direction c) in
    Ok (with_nodes tr ns, mkContext suffix node_index visits true (Some direction))
  else
    let* j := child_to_node_index child in
    let* m := nodes_get ns j in
    let suffix := nd_text_start m in
    let* i := index_subtract w (w_cursor w) order in
    let* ns := nodes_set ns j (nd_set_text_start m (wrap u32 i)) in
    Ok (with_nodes tr ns, mkContext suffix j visits (cx_in_leaf cx) (Some direction)).

(** context.rs:103-124 shift *)
Definition shift (tr : tree) (contexts : list context) (max_order : Z) : res (tree * list context) :=
  if tr_proper tr then
    let contexts := if max_order + 1 =? zlen contexts then removelast contexts else contexts in
    let w := tr_window tr in
    let* root := nodes_get (tr_nodes tr) root_index in
    let* ns := nodes_set (tr_nodes tr) root_index (nd_set_text_start root (wrap u32 (w_cursor w))) in
    let* root := nodes_get ns root_index in
    let* sum := add u16 (nd_left_count root) (nd_right_count root) in
    let visits := Z.min max_occurrence_count sum in
    let* suffix := index_decrement w (w_cursor w) in
    Ok (with_nodes tr ns, mkContext suffix root_index visits false None :: contexts)
  else
    assert_ (zlen contexts =? 0) ;; Ok (tr, contexts).

(** mod.rs:133-157: the way from the root to the leaf of the oldest suffix: the node above the last one with the direction taken from it,
    the last node and the direction of the leaf.  The fuel is the number of nodes, the loop going down each time. *)
Fixpoint walk (tr : tree) (fuel : nat) (parent : option (Z * direction)) (node_index : Z) : res (option (Z * direction) * Z * direction) :=
  match fuel with
  | O => Fail EFuel
  | S fuel =>
      let w := tr_window tr in
      let* n := nodes_get (tr_nodes tr) node_index in
      let depth := nd_depth n in
      let* byte_index := index_add w (w_start w) (depth / 8) in
      let* direction := window_bit w byte_index (7 - depth mod 8) in
      let child := nd_child n direction in
      if child_is_node_index child then
        let* j := child_to_node_index child in
        walk tr fuel (Some (node_index, direction)) j
      else Ok (parent, node_index, direction)
  end.
(** mod.rs:169-176: the contexts that stay when the oldest suffix was repeated later; [order] is that of the head of the list, which is the
    items in reverse order *)
Fixpoint drop_contexts (start : Z) (reversed : list context) (order count : Z) : res Z :=
  match reversed with
  | [] => Ok count
  | cx :: rest =>
      let* count := if cx_suffix cx =? start then
                      let* c := sub usize count 1 in assert_ (c =? order) ;; Ok c
                    else Ok count in
      drop_contexts start rest (order - 1) count
  end.
(** mod.rs:183-187, 225-233, 239-247: changes the contexts at a node *)
Definition redirect (node_index : Z) (change : context -> context) (contexts : list context) : list context :=
  map (fun cx => if cx_node cx =? node_index then change cx else cx) contexts.
(** mod.rs:127-274 remove_leftmost_suffix *)
Definition remove_leftmost_suffix (tr : tree) (contexts : list context) : res (tree * list context) :=
  let w := tr_window tr in
  let* r :=
    if tr_proper tr then
      let* found := walk tr (length (ns_items (tr_nodes tr))) None root_index in
      let '(parent, node_index, leaf_direction) := found in
      let* n := nodes_get (tr_nodes tr) node_index in
      let leaf_sibling := nd_child n (negb leaf_direction) in
      let* leaf_window_index := child_to_window_index (nd_child n leaf_direction) in
      let node_found := existsb (fun cx => cx_node cx =? node_index) contexts in
      if negb (leaf_window_index =? w_start w) then
        let* count := drop_contexts (w_start w) (rev contexts) (zlen contexts - 1) (zlen contexts) in
        Ok (tr, firstn (Z.to_nat count) contexts)
      else if index_is_root node_index then
        assert_ (match parent with None => true | Some _ => false end) ;;
        if child_is_node_index leaf_sibling then
          let* j := child_to_node_index leaf_sibling in
          let contexts := redirect j (fun cx => mkContext (cx_suffix cx) node_index (cx_visits cx) (cx_in_leaf cx) (cx_direction cx)) contexts in
          let* m := nodes_get (tr_nodes tr) j in
          let* root := nodes_get (tr_nodes tr) node_index in
          let* ns := nodes_update (tr_nodes tr) node_index (nd_set_text_start m (nd_text_start root)) in
          let* ns := nodes_delete ns j in
          Ok (with_nodes tr ns, contexts)
        else
          let* ns := nodes_update (tr_nodes tr) node_index node_invalid in
          Ok (with_proper (with_nodes tr ns) false, [])
      else if node_found then
        assert_ (negb (existsb (fun cx => (cx_node cx =? node_index) &&
                   match cx_direction cx with Some d => Bool.eqb d leaf_direction | None => false end && cx_in_leaf cx) contexts)) ;;
        let* p := of_opt parent EAssert in
        let '(parent_index, node_direction) := p in
        if child_is_window_index leaf_sibling then
          let contexts := redirect node_index (fun cx => mkContext (cx_suffix cx) parent_index (cx_visits cx) true (Some node_direction)) contexts in
          let* c := child_of_window_index (nd_text_start n) in
          let* pn := nodes_get (tr_nodes tr) parent_index in
          let* ns := nodes_set (tr_nodes tr) parent_index (nd_set_child pn node_direction c) in
          let* ns := nodes_delete ns node_index in
          Ok (with_nodes tr ns, contexts)
        else
          let* j := child_to_node_index leaf_sibling in
          let contexts := redirect node_index (fun cx => mkContext (cx_suffix cx) j (cx_visits cx) false (Some node_direction)) contexts in
          let* m := nodes_get (tr_nodes tr) j in
          let* ns := nodes_update (tr_nodes tr) j (nd_set_text_start m (nd_text_start n)) in
          let* pn := nodes_get ns parent_index in
          let* ns := nodes_set ns parent_index (nd_set_child pn node_direction leaf_sibling) in
          let* ns := nodes_delete ns node_index in
          Ok (with_nodes tr ns, contexts)
      else
        let* p := of_opt parent EAssert in
        let '(parent_index, node_direction) := p in
        let* pn := nodes_get (tr_nodes tr) parent_index in
        let* ns := nodes_set (tr_nodes tr) parent_index (nd_set_child pn node_direction leaf_sibling) in
        let* ns := nodes_delete ns node_index in
        Ok (with_nodes tr ns, contexts)
    else Ok (tr, contexts) in
  let '(tr, contexts) := r in
  let* w := advance_start (tr_window tr) in
  Ok (with_window tr w, contexts).

(** mod.rs:117-125 Tree::start_new_byte *)
Definition tree_start_byte (tr : tree) (contexts : list context) : res (tree * list context) :=
  let* r := if w_size (tr_window tr) =? w_max (tr_window tr) then
              let* r := remove_leftmost_suffix tr contexts in
              let w := tr_window (fst r) in
              let* next_cursor := index_increment w (w_cursor w) in
              let* x := byte_at w next_cursor in
              assert_ (x =? 0) ;; Ok r
            else Ok (tr, contexts) in
  let '(tr, contexts) := r in
  assert_ (w_size (tr_window tr) <? w_max (tr_window tr)) ;;
  let* w := advance_cursor (tr_window tr) in
  Ok (with_window tr w, contexts).
(** mod.rs:72-77 start_new_byte *)
Definition tree_start (s : source) : res source :=
  assert_ (ts_bit_index s =? -1) ;;
  let* r := tree_start_byte (ts_tree s) (ts_contexts s) in
  let* r := shift (fst r) (snd r) (ts_max_order s) in
  Ok (mkSource (fst r) (snd r) (ts_max_order s) 7).

(** order * 8 + 7 - bit_index, checked (mod.rs:430, 495, 603, 647) *)
Definition depth_of (order bit_index : Z) : res Z :=
  let* a := mul usize order 8 in let* b := add usize a 7 in sub usize b bit_index.
(** mod.rs:420-452: the loop over active contexts *)
Fixpoint gather_contexts (tr : tree) (bit_index : Z) (contexts : list context) (order : Z) (items : list context_state) : res (list context_state) :=
  match contexts with
  | [] => Ok items
  | cx :: rest =>
      let w := tr_window tr in
      let* n := nodes_get (tr_nodes tr) (cx_node cx) in
      let last_occurrence_index := cx_suffix cx in
      let* current := index_subtract w (w_cursor w) order in
      let* smaller := index_is_smaller w last_occurrence_index current in
      assert_ smaller ;;
      let* distance := index_diff w current last_occurrence_index in
      let* depth := depth_of order bit_index in
      let* items :=
        if nd_depth n =? depth then
          Ok (items ++ [ForNode distance (nd_estimator n) (nd_recent n) (nd_runs n) (nd_trackers n)])
        else
          assert_ (negb (cx_visits cx =? -1)) ;;
          if 0 <? cx_visits cx then
            let* i := index_add w last_occurrence_index order in
            let* repeated_bit := window_bit w i bit_index in
            Ok (items ++ [ForEdge distance (wrap u16 (cx_visits cx)) repeated_bit])
          else Ok items in
      gather_contexts tr bit_index rest (order + 1) items
  end.
(** mod.rs:413-470 gather_states *)
Definition tree_gather_states (tr : tree) (contexts : list context) (max_order bit_index : Z) (items : list context_state) : res (list context_state) :=
  assert_ (zlen items =? 0) ;;
  let w := tr_window tr in
  if tr_proper tr then
    assert_ (negb (w_cursor w =? w_start w)) ;;
    gather_contexts tr bit_index contexts 0 items
  else
    assert_ (zlen contexts =? 0) ;;
    let* a := add usize max_order 1 in
    let* b := sub usize (w_size w) 1 in
    mfold (fun items order =>
             let* x := sub usize (w_size w) order in
             let* y := sub usize x 1 in
             let* repeated_bit := window_bit w (w_start w) bit_index in
             Ok (items ++ [ForEdge 1 (wrap u16 (Z.min max_occurrence_count y)) repeated_bit]))
          (range 0 (Z.min a b)) items.
(** mod.rs:79-84 gather_history_states *)
Definition tree_gather (s : source) (items : list context_state) : res (list context_state) :=
  assert_ (0 <=? ts_bit_index s) ;;
  tree_gather_states (ts_tree s) (ts_contexts s) (ts_max_order s) (ts_bit_index s) items.

(** mod.rs:583-610 setup_split_edge *)
Definition setup_split_edge (t : luts) (tr : tree) (cx : context) (context_order bit_index text_start : Z) : res node :=
  let w := tr_window tr in
  assert_ (negb (cx_visits cx =? -1)) ;;
  let visits := wrap u16 (cx_visits cx) in
  let* b := window_bit w (w_cursor w) bit_index in
  let* e := cache_for_new_node (lt_cache t) b (Z.min max_count visits) in
  let* c := cost_lut_for_new_node (lt_cost t) visits in
  let* q := br_for_new_node b visits in
  let* r := rb_for_new_node b visits in
  let* depth := depth_of context_order bit_index in
  node_new text_start e depth (c, c) q (if b then visits else 1) (if b then 1 else visits) r (child_invalid, child_invalid).
(** mod.rs:541-581 split_edge *)
Definition split_edge (t : luts) (tr : tree) (cx : context) (context_order bit_index : Z) : res tree :=
  let w := tr_window tr in
  let* direction := window_bit w (w_cursor w) bit_index in
  let node_index := cx_node cx in
  if negb (cx_in_leaf cx) then
    let* new_node := nodes_get (tr_nodes tr) node_index in
    let* n := setup_split_edge t tr cx context_order bit_index (nd_text_start new_node) in
    let new_node := nd_set_text_start new_node (wrap u32 (cx_suffix cx)) in
    let* i := index_subtract w (w_cursor w) context_order in
    let* c := child_of_window_index i in
    let n := nd_set_child n direction c in
    let* added := nodes_add (tr_nodes tr) new_node in
    let n := nd_set_child n (negb direction) (fst added) in
    let* ns := nodes_update (snd added) node_index n in
    Ok (with_nodes tr ns)
  else
    let* n := nodes_get (tr_nodes tr) node_index in
    let* d := of_opt (cx_direction cx) EAssert in
    let* text_start := child_to_window_index (nd_child n d) in
    let* new_node := setup_split_edge t tr cx context_order bit_index text_start in
    let* i := index_subtract w (w_cursor w) context_order in
    let* c := child_of_window_index i in
    let new_node := nd_set_child new_node direction c in
    let* c := child_of_window_index (cx_suffix cx) in
    let new_node := nd_set_child new_node (negb direction) c in
    let* added := nodes_add (tr_nodes tr) new_node in
    let n := nd_set_child n d (fst added) in
    let* ns := nodes_update (snd added) node_index n in
    Ok (with_nodes tr ns).
(** mod.rs:621-662: one pass of the loop of split_degenerate_root_edge; the child to chain is passed along *)
Definition split_degenerate_step (t : luts) (bit_index : Z) (st : tree * option Z) (order : Z) : res (tree * option Z) :=
  let '(tr, last) := st in
  let w := tr_window tr in
  let* b := window_bit w (w_cursor w) bit_index in
  let* suffix_start := index_subtract w (w_cursor w) order in
  let* branching_child := child_of_window_index suffix_start in
  let* before := index_decrement w suffix_start in
  let* before_child := child_of_window_index before in
  let chained_child := match last with Some c => c | None => before_child end in
  let children := if b then (chained_child, branching_child) else (branching_child, chained_child) in
  let* distance := index_diff w suffix_start (w_start w) in
  let count := wrap u16 (Z.min max_occurrence_count distance) in
  let* e := cache_for_new_node (lt_cache t) b count in
  let* r := rb_for_new_node b count in
  let* q := br_for_new_node b count in
  let* c := cost_lut_for_new_node (lt_cost t) count in
  let* depth := depth_of order bit_index in
  let* n := node_new suffix_start e depth (c, c) q (if b then count else 1) (if b then 1 else count) r children in
  if order =? 0 then
    let* ns := nodes_update (tr_nodes tr) root_index n in Ok (with_nodes tr ns, None)
  else
    let* added := nodes_add (tr_nodes tr) n in Ok (with_nodes tr (snd added), Some (fst added)).
(** mod.rs:612-664 split_degenerate_root_edge *)
Definition split_degenerate_root_edge (t : luts) (tr : tree) (context_order bit_index : Z) : res tree :=
  let* stop := add usize context_order 1 in
  let* r := mfold (split_degenerate_step t bit_index) (rev (range 0 stop)) (tr, None) in
  assert_ (match snd r with None => true | Some _ => false end) ;; Ok (fst r).

(** mod.rs:479-517: the body of the loop over active contexts, highest order first; the number of contexts kept so far goes along *)
Definition extend_step (t : luts) (new_cost_trackers : list cost_trackers) (bit_index : Z) (st : tree * list context * Z) (order : Z)
    : res (tree * list context * Z) :=
  let '(tr, contexts, count) := st in
  let w := tr_window tr in
  let* cx := get contexts order in
  let* cx := if cx_in_leaf cx then
               let* n := nodes_get (tr_nodes tr) (cx_node cx) in
               let* d := of_opt (cx_direction cx) EAssert in
               let child := nd_child n d in
               if child_is_window_index child then Ok cx
               else let* j := child_to_node_index child in Ok (mkContext (cx_suffix cx) j (cx_visits cx) false (cx_direction cx))
             else Ok cx in
  let* contexts := set contexts order cx in
  let* n := nodes_get (tr_nodes tr) (cx_node cx) in
  let* depth := depth_of order bit_index in
  if nd_depth n =? depth then
    assert_ (negb (cx_in_leaf cx)) ;;
    assert_ (order <? zlen new_cost_trackers) ;;
    let* trackers := get new_cost_trackers order in
    let* r := descend t tr cx order bit_index trackers in
    let* contexts := set contexts order (snd r) in
    Ok (fst r, contexts, count)
  else
    assert_ (zlen new_cost_trackers <=? order) ;;
    let* i := index_add w (cx_suffix cx) order in
    let* differ := bytes_differ_on w i (w_cursor w) bit_index in
    if differ then
      let* a := mul usize order 8 in
      assert_ (cx_in_leaf cx || (a <=? nd_depth n)) ;;
      let* tr := split_edge t tr cx order bit_index in
      let* c := sub usize count 1 in
      assert_ (c =? order) ;;
      Ok (tr, contexts, order)
    else Ok (tr, contexts, count).
(** mod.rs:472-535 extend *)
Definition tree_extend (t : luts) (tr : tree) (contexts : list context) (new_cost_trackers : list cost_trackers) (incoming_bit : bit)
    (bit_index max_order : Z) : res (tree * list context) :=
  let* w := set_bit_at_cursor (tr_window tr) incoming_bit bit_index in
  let tr := with_window tr w in
  if tr_proper tr then
    let* r := mfold (extend_step t new_cost_trackers bit_index) (rev (range 0 (zlen contexts))) (tr, contexts, zlen contexts) in
    let '(tr, contexts, count) := r in
    Ok (tr, firstn (Z.to_nat count) contexts)
  else
    assert_ (zlen contexts =? 0) ;;
    let* differ := if 2 <=? w_size w then
                     let* i := index_decrement w (w_cursor w) in bytes_differ_on w i (w_cursor w) bit_index
                   else Ok false in
    if differ then
      let* a := sub usize (w_size w) 2 in
      let* tr := split_degenerate_root_edge t tr (Z.min max_order a) bit_index in
      Ok (with_proper tr true, contexts)
    else Ok (tr, contexts).
(** mod.rs:86-93 process_input_bit *)
Definition tree_process (t : luts) (s : source) (input_bit : bit) (new_cost_trackers : list cost_trackers) : res source :=
  assert_ (0 <=? ts_bit_index s) ;;
  let* r := tree_extend t (ts_tree s) (ts_contexts s) new_cost_trackers input_bit (ts_bit_index s) (ts_max_order s) in
  let* bit_index := sub i32 (ts_bit_index s) 1 in
  Ok (mkSource (fst r) (snd r) (ts_max_order s) bit_index).
