(** C29, C30: the history source that keeps a tree of the window. *)
From Verif Require Import Base EstModel StatesModel StatesSpec WindowModel WindowSpec NodesModel HistModel HistSpec TreeModel TreeSpec TreeFacts.

(** C29. While the input fits in the window the tree reports the same as the exhaustive source up to cost trackers, wherever the window starts. *)
Theorem C29_tree_agrees : forall t max max_order shift input,
  luts_new = Ok t -> 0 < max <= 2 ^ 31 -> 0 <= shift < max -> 0 <= max_order -> 8 * max_order + 7 < 2 ^ 16 -> zlen input / 8 < max -> well_supplied max_order input ->
  exists tree naive, tree_states t max max_order shift input [] = Ok tree /\ naive_states t max max_order (bare input) [] = Ok naive /\
    map neutralize_cost_trackers tree = map neutralize_cost_trackers naive.
Proof. exact tree_as_naive. Qed.
Print Assumptions C29_tree_agrees.
(** It reports true statistics itself, and as many branching states as trackers are expected with the next bit. *)
Theorem C29_tree_is_true : forall t max max_order shift input,
  luts_new = Ok t -> 0 < max <= 2 ^ 31 -> 0 <= shift < max -> 0 <= max_order -> 8 * max_order + 7 < 2 ^ 16 -> zlen input / 8 < max -> well_supplied max_order input ->
  exists states, tree_states t max max_order shift input [] = Ok states /\ true_report (lt_rates t) max_order (map fst input) states /\
    zlen (filter is_for_node states) = branching max_order (map fst input).
Proof. exact tree_true. Qed.
Print Assumptions C29_tree_is_true.
(** Exactly, with the trackers supplied at each occurrence. *)
Theorem C29_tree_replays : forall t max max_order shift input,
  luts_new = Ok t -> 0 < max <= 2 ^ 31 -> 0 <= shift < max -> 0 <= max_order -> 8 * max_order + 7 < 2 ^ 16 -> zlen input / 8 < max -> well_supplied max_order input ->
  tree_states t max max_order shift input [] = report t max_order input.
Proof. exact tree_replays. Qed.
Print Assumptions C29_tree_replays.
(** So it cannot be told from the hash-map source. *)
Theorem C29_tree_is_hash_map : forall t hash max max_order shift input,
  luts_new = Ok t -> 0 < max <= 2 ^ 31 -> 0 <= shift < max -> 0 <= max_order -> 8 * max_order + 7 < 2 ^ 16 -> zlen input / 8 < max -> well_supplied max_order input ->
  tree_states t max max_order shift input [] = fat_states t hash max max_order input [].
Proof. exact tree_as_fat. Qed.
Print Assumptions C29_tree_is_hash_map.

(** C30. Whatever the input and the size of the window: no panic; the report is about the text in the window, each state standing for the bits that followed the context
    there after at most as many older ones as bytes left the window; nodes and leaves refer to the window only, and there are fewer live nodes than bytes in it. *)
Theorem C30_sliding_tree_is_sound : forall t max max_order shift input,
  luts_new = Ok t -> 0 < max <= 2 ^ 31 -> 0 <= shift < max -> 0 <= max_order -> 8 * max_order + 7 < 2 ^ 16 -> supplied max max_order input ->
  exists s states, tree_after t max max_order shift input = Ok s /\ tree_gather s [] = Ok states /\
    window_report (lt_rates t) max_order (forgotten max (map fst input)) (in_window max (map fst input)) states /\ zlen (filter is_for_node states) = branching max_order (in_window max (map fst input)) /\
    w_size (tr_window (ts_tree s)) = Z.min max (zlen input / 8 + 1) /\ sound_tree (ts_tree s).
Proof. exact tree_window. Qed.
Print Assumptions C30_sliding_tree_is_sound.
(** Every text can be fed with the right number of trackers. *)
Theorem C30_trackers_can_be_supplied : forall max max_order c text,
  exists input, map fst input = text /\ supplied max max_order input /\ Forall (fun x => Forall (eq c) (snd x)) input.
Proof. exact supply_sliding. Qed.
Print Assumptions C30_trackers_can_be_supplied.

(** Runs that branch nowhere need no tables. *)
Example tree_run : forall t, tree_states t 4 7 3 (map (fun b => (b, [])) (bit_string [97; 97; 97])) [] =
  Ok [ForEdge 1 3 Zero; ForEdge 1 2 Zero; ForEdge 1 1 Zero].
Proof. intros t. vm_compute. reflexivity. Qed.
(** Others, with small tables in place of the real ones: "abcaba" in a window of four bytes that starts in the middle of the buffer. *)
Definition small_tables : luts := mkLuts [] (repeat (2 ^ 20) 20) (repeat (2 ^ 30 * 2 ^ 10 + 2) 20) [] (repeat 0 1024) [] [] [].
Definition sliding (n : nat) : fed := supply_window 4 1 ct_default [] (firstn n (bit_string [97; 98; 99; 97; 98; 97])).
Definition shown (r : res (list context_state)) : res (list (bool * Z)) := let* l := r in Ok (map (fun s => (is_for_node s, last_occurrence_distance s)) l).
(** Six bits into the last 'a' the bytes 'c', 'a' and 'b' in the window begin alike and differ next. *)
Example slid_branching : shown (tree_states small_tables 4 1 2 (sliding 46) []) = Ok [(true, 1)] /\ followers (in_window 4 (map fst (sliding 46))) 0 = [One; Zero; One].
Proof. vm_compute. split; reflexivity. Qed.
(** Occurrences that left the window still count: before the seventh byte of "abababa" three bytes are in the window and three are gone, and the count is six. *)
Example slid_older : tree_states small_tables 4 0 0 (supply_window 4 0 ct_default [] (bit_string [97; 98; 97; 98; 97; 98])) [] = Ok [ForEdge 1 6 Zero] /\
  followers (in_window 4 (bit_string [97; 98; 97; 98; 97; 98])) 0 = [Zero; Zero; Zero] /\ forgotten 4 (bit_string [97; 98; 97; 98; 97; 98]) = 3.
Proof. vm_compute. repeat split; reflexivity. Qed.
(** And how many nodes are alive then. *)
Example slid_live : (let* s := tree_after small_tables 4 1 2 (sliding 46) in live_nodes_count (tr_nodes (ts_tree s))) = Ok 2.
Proof. vm_compute. reflexivity. Qed.
