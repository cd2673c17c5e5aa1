(** C68: where the window begins in its buffer does not matter. *)
From Verif Require Import Base WindowSpec StatesModel StatesProofs WindowModel NodesModel HistModel HistSpec TreeModel TreeSpec TreeFacts RotRun PropTree.

(** C68. Two trees whose windows begin at different places of the buffer, fed the same bits, report the same states, also after the windows have slid. *)
Theorem C68_same_reports : forall t max max_order shift shift' input,
  luts_new = Ok t -> 0 < max <= 2 ^ 31 -> 0 <= shift < max -> 0 <= shift' < max -> 0 <= max_order -> 8 * max_order + 7 < 2 ^ 16 -> supplied max max_order input ->
  exists states, tree_states t max max_order shift input [] = Ok states /\ tree_states t max max_order shift' input [] = Ok states.
Proof. exact (fun t max mo shift shift' input L M S S' O D => turned_states t max shift shift' mo input L M S S' O D). Qed.
Print Assumptions C68_same_reports.
(** They need the same room: as many nodes are alive in both, and as many were ever made. *)
Theorem C68_same_size : forall t max max_order shift shift' input,
  luts_new = Ok t -> 0 < max <= 2 ^ 31 -> 0 <= shift < max -> 0 <= shift' < max -> 0 <= max_order -> 8 * max_order + 7 < 2 ^ 16 -> supplied max max_order input ->
  exists s s', tree_after t max max_order shift input = Ok s /\ tree_after t max max_order shift' input = Ok s' /\
    live_nodes_count (tr_nodes (ts_tree s)) = live_nodes_count (tr_nodes (ts_tree s')) /\ zlen (ns_items (tr_nodes (ts_tree s))) = zlen (ns_items (tr_nodes (ts_tree s'))).
Proof. exact (fun t max mo shift shift' input L M S S' O D => turned_size t max shift shift' mo input L M S S' O D). Qed.
Print Assumptions C68_same_size.

(** Six bytes less two bits through windows of four bytes that begin at the first and at the third place: the windows have slid by two bytes. *)
Example turned_slid : forgotten 4 (map fst (sliding 46)) = 2 /\
  exists t states, luts_new = Ok t /\ tree_states t 4 1 0 (sliding 46) [] = Ok states /\ tree_states t 4 1 2 (sliding 46) [] = Ok states.
Proof.
  split; [vm_compute; reflexivity|]. destruct tables_built as (t & L). exists t.
  destruct (C68_same_reports t 4 1 0 2 (sliding 46) L) as (st & E); [split; [reflexivity|discriminate]|split; [discriminate|reflexivity]|split; [discriminate|reflexivity]|discriminate|reflexivity|apply (supply_window_ok 4 1 ct_default _ []); intros before b cs later Q; destruct before; discriminate|].
  exists st. split; [exact L|exact E].
Qed.
(** The places themselves differ: the windows of both, with the bits of the byte begun. *)
Example turned_places : (let* s := tree_after small_tables 4 1 0 (sliding 46) in Ok (w_start (tr_window (ts_tree s)), w_buffer (tr_window (ts_tree s)))) = Ok (2, [98; 96; 99; 97]) /\
  (let* s := tree_after small_tables 4 1 2 (sliding 46) in Ok (w_start (tr_window (ts_tree s)), w_buffer (tr_window (ts_tree s)))) = Ok (0, [99; 97; 98; 96]).
Proof. vm_compute. split; reflexivity. Qed.
