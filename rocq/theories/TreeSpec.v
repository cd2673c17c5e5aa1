(** What the tree source reports when old bytes are forgotten, and what its nodes refer to. *)
From Verif Require Import Base StatesModel StatesSpec WindowModel NodesModel HistSpec TreeModel.

(** The source after the input and the states it reports. *)
Definition tree_after (t : luts) (max max_order shift : Z) (input : fed) : res source :=
  let* s := tree_new max max_order shift in
  feed tree_start (tree_process t) s input.
Definition tree_states (t : luts) (max max_order shift : Z) (input : fed) (items : list context_state) : res (list context_state) :=
  let* s := tree_after t max max_order shift input in
  tree_gather s items.

(** How many bytes of the text have left a window of [max] bytes, the unfinished one among them, and what is left. *)
Definition forgotten (max : Z) (text : list bit) : Z := Z.max 0 (zlen text / 8 + 1 - max).
Definition in_window (max : Z) (text : list bit) : list bit := skipn (Z.to_nat (8 * forgotten max text)) text.
(** As many trackers come with each bit as orders have met both bits in the window. *)
Definition supplied (max max_order : Z) (input : fed) : Prop :=
  forall before b trackers later, input = before ++ (b, trackers) :: later -> zlen trackers = branching max_order (in_window max (map fst before)).

(** The report on what is left of the text after [gone] bytes: a context is there when it is met earlier in the window, at the true distance of the last place, and its
    state stands for the bits that followed it in the window after at most [gone] older ones, which make no edge a node. *)
Definition window_report (rates : list Z) (max_order gone : Z) (text : list bit) (states : list context_state) : Prop :=
  (forall o s, znth states o = Some s -> followers text o <> [] /\ exists older, zlen older <= gone /\ uniform (older ++ followers text o) = uniform (followers text o) /\
     stands_for rates (distance text o) (older ++ followers text o) s) /\
  zlen states <= max_order + 1 /\
  (zlen states < max_order + 1 -> followers text (zlen states) = []).

(** The nodes below the root, and the places of the bytes in the window. *)
Inductive reachable (ns : nodes) : Z -> Prop :=
| at_root : reachable ns 0
| at_child i n d j : reachable ns i -> nodes_get ns i = Ok n -> child_to_node_index (nd_child n d) = Ok j -> reachable ns j.
Definition inside (w : window) (i : Z) : Prop := exists k, 0 <= k < w_size w /\ i = (w_start w + k) mod w_max w.
Definition sound_tree (tr : tree) : Prop :=
  (tr_proper tr = true -> forall i, reachable (tr_nodes tr) i -> exists n, nodes_get (tr_nodes tr) i = Ok n /\ inside (tr_window tr) (nd_text_start n) /\
     forall d, (exists j, child_to_node_index (nd_child n d) = Ok j /\ 0 < j) \/ (exists p, child_to_window_index (nd_child n d) = Ok p /\ inside (tr_window tr) p)) /\
  exists live, live_nodes_count (tr_nodes tr) = Ok live /\ 0 <= live <= w_size (tr_window tr) - 1.
