(** What the integrity check is about: leaves that differ, and suffixes that are found in the tree. *)
From Verif Require Import Base WindowModel NodesModel TreeModel TreeSpec.

(** The leaf of a reachable node in a direction. *)
Definition leaf_of (ns : nodes) (i : Z) (d : bit) (p : Z) : Prop :=
  reachable ns i /\ exists n, nodes_get ns i = Ok n /\ child_to_window_index (nd_child n d) = Ok p.
(** No two of them stand for the same suffix. *)
Definition different_leaves (tr : tree) : Prop :=
  forall i d i' d' p, leaf_of (tr_nodes tr) i d p -> leaf_of (tr_nodes tr) i' d' p -> i = i' /\ d = d'.

(** The nodes on the way down along the bits of [s]. *)
Inductive leads (ns : nodes) (s : list bit) : Z -> Prop :=
| leads_root : leads ns s 0
| leads_down i n j : leads ns s i -> nodes_get ns i = Ok n -> nd_depth n < zlen s ->
    child_to_node_index (nd_child n (nth (Z.to_nat (nd_depth n)) s Zero)) = Ok j -> leads ns s j.
(** The index of the byte [q] of the window, and the bytes from it on in a text. *)
Definition spot (w : window) (q : Z) : Z := (w_start w + q) mod w_max w.
Definition tail_of (text : list bit) (q : Z) : list bit := skipn (Z.to_nat (8 * q)) text.
Definition starts_with (s x : list bit) : Prop := firstn (length x) s = x.
(** A child stands for a byte of the window: a leaf is its index, a node keeps it. *)
Definition stands_at (ns : nodes) (child p : Z) : Prop :=
  child_to_window_index child = Ok p \/ exists j n, child_to_node_index child = Ok j /\ nodes_get ns j = Ok n /\ nd_text_start n = p.
(** The suffix that starts with byte [k] of the window is found: the way down along its bits either ends in a leaf that stands for it or for a later suffix
    and goes on alike for [max_order] + 1 bytes or to the end of the text; or the suffix is used up before the tree branches, and then it begins
    everything below. *)
Definition suffix_found (tr : tree) (max_order : Z) (text : list bit) (k : Z) : Prop :=
  let s := tail_of text k in let w := tr_window tr in
  exists i n, leads (tr_nodes tr) s i /\ nodes_get (tr_nodes tr) i = Ok n /\
    ((nd_depth n < zlen s /\ exists q, k <= q < w_size w /\ child_to_window_index (nd_child n (nth (Z.to_nat (nd_depth n)) s Zero)) = Ok (spot w q) /\
        starts_with s (firstn (Z.to_nat (8 * (max_order + 1))) (tail_of text q))) \/
     (zlen s <= nd_depth n /\ forall d, exists q, 0 <= q < w_size w /\ stands_at (tr_nodes tr) (nd_child n d) (spot w q) /\ starts_with (tail_of text q) s)).
(** All suffixes; in a tree without nodes they are all alike. *)
Definition suffixes_found (tr : tree) (max_order : Z) (text : list bit) : Prop :=
  if tr_proper tr then forall k, 0 <= k < w_size (tr_window tr) -> suffix_found tr max_order text k
  else forall k q, 0 <= k <= q -> q < w_size (tr_window tr) -> starts_with (tail_of text k) (tail_of text q).
