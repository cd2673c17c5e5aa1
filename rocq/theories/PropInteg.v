(** C58, C59: the integrity check of the tree source. *)
From Verif Require Import Base EstModel StatesModel StatesSpec WindowModel WindowSpec NodesModel HistModel HistSpec TreeModel TreeSpec TreeFacts IntegModel IntegSpec IntegProofs.

(** C58. The check never panics at the start of a byte, whatever was fed, however large the window and wherever it starts. *)
Theorem C58_check_passes : forall t max max_order shift input,
  luts_new = Ok t -> 0 < max <= 2 ^ 31 -> 0 <= shift < max -> 0 <= max_order /\ 8 * max_order + 7 < 2 ^ 16 -> supplied max max_order input -> zlen input mod 8 = 0 ->
  exists s, tree_after t max max_order shift input = Ok s /\ check_integrity s = Ok tt.
Proof. exact (fun t max max_order shift input L M S O => check_passes t max shift max_order L M S O input). Qed.
Print Assumptions C58_check_passes.
(** Of any tree, sound or not: when the check passes, different leaves stand for different suffixes. *)
Theorem C58_leaves_differ : forall s, check_integrity s = Ok tt -> tr_proper (ts_tree s) = true -> different_leaves (ts_tree s).
Proof. exact integrity_leaves. Qed.
Print Assumptions C58_leaves_differ.
(** But "all suffices are present in tree" is not checked: as the root is marked with the cursor the loop leaves at the root, whatever is below. *)
Theorem C58_suffixes_unchecked : forall max shift ops q tr r max_order,
  0 < max < 2 ^ 63 -> 0 <= shift < max -> q_after max ops = Some q -> w_after max shift ops = Ok (tr_window tr) -> q_bytes q <> [] ->
  nodes_get (tr_nodes tr) root_index = Ok r -> nd_text_start r = w_cursor (tr_window tr) -> 0 <= nd_depth r <= 8 * max_order + 7 ->
  8 * max_order + 7 < 2 ^ 64 -> 0 <= max_order ->
  check_suffixes tr max_order = Ok tt.
Proof. exact suffixes_unchecked. Qed.
Print Assumptions C58_suffixes_unchecked.
(** And it always is marked so. *)
Theorem C58_root_marks_cursor : forall t max max_order shift input,
  luts_new = Ok t -> 0 < max <= 2 ^ 31 -> 0 <= shift < max -> 0 <= max_order /\ 8 * max_order + 7 < 2 ^ 16 -> supplied max max_order input ->
  exists s, tree_after t max max_order shift input = Ok s /\
    (tr_proper (ts_tree s) = true -> exists r, nodes_get (tr_nodes (ts_tree s)) root_index = Ok r /\
       nd_text_start r = w_cursor (tr_window (ts_tree s)) /\ 0 <= nd_depth r <= 8 * max_order + 7).
Proof. exact (fun t max max_order shift input L M S O => root_marks_cursor t max shift max_order L M S O input). Qed.
Print Assumptions C58_root_marks_cursor.
(** So a tree that leads astray passes. *)
Theorem C58_suffixes_checked_refuted : exists s, check_integrity s = Ok tt /\ ~ suffixes_found (ts_tree s) 1 (bit_string [97; 98]).
Proof. exists crossed. exact crossed_passes. Qed.
Print Assumptions C58_suffixes_checked_refuted.

(** C59. What the check does not see is so: every suffix in the window is found in the tree, after any bit. *)
Theorem C59_every_suffix_found : forall t max max_order shift input,
  luts_new = Ok t -> 0 < max <= 2 ^ 31 -> 0 <= shift < max -> 0 <= max_order /\ 8 * max_order + 7 < 2 ^ 16 -> supplied max max_order input ->
  exists s, tree_after t max max_order shift input = Ok s /\ suffixes_found (ts_tree s) max_order (in_window max (map fst input)).
Proof. exact (fun t max max_order shift input L M S O => all_found t max shift max_order L M S O input). Qed.
Print Assumptions C59_every_suffix_found.

(** Small tables in place of the real ones: "abcaba" in a window of four bytes that has moved. *)
Definition small_tables : luts := mkLuts [] (repeat (2 ^ 20) 20) (repeat (2 ^ 30 * 2 ^ 10 + 2) 20) [] (repeat 0 1024) [] [] [].
Definition slid (n : nat) : res source := tree_after small_tables 4 1 2 (supply_window 4 1 ct_default [] (firstn n (bit_string [97; 98; 99; 97; 98; 97]))).
Example slid_supplied : supplied 4 1 (supply_window 4 1 ct_default [] (bit_string [97; 98; 99; 97; 98; 97])).
Proof. apply (supply_window_ok 4 1 ct_default _ []). intros before b cs later E. destruct before; discriminate. Qed.
Example slid_passes : (let* s := slid 48 in check_integrity s) = Ok tt /\ (let* s := slid 40 in check_integrity s) = Ok tt /\ (let* s := slid 48 in Ok (tr_proper (ts_tree s))) = Ok true.
Proof. vm_compute. auto. Qed.
(** In the middle of a byte the check may not be called. *)
Example unfinished_fails : (let* s := slid 44 in check_integrity s) = Fail EAssert.
Proof. vm_compute. reflexivity. Qed.
(** The tree of "ab" with both leaves the same does not pass. *)
Example shared_fails :
  check_integrity (mkSource (mkTree (mkNodes [mkNode (3, 3) 0 1099511627778 (0, 0) 2051 5 6 1 1] None 0 3) (mkWindow [0; 0; 97; 98] 2 0 3 4) true) [mkContext 3 0 2 false None] 1 7) = Fail EAssert.
Proof. vm_compute. reflexivity. Qed.
(** Its window is one that arises, and its root is marked with the cursor. *)
Example crossed_window : w_after 4 2 [Push; SetByte 97; Push; SetByte 98; Push] = Ok (tr_window (ts_tree crossed)) /\
  (let* r := nodes_get (tr_nodes (ts_tree crossed)) root_index in Ok (nd_text_start r, nd_depth r)) = Ok (w_cursor (tr_window (ts_tree crossed)), 6).
Proof. vm_compute. auto. Qed.
