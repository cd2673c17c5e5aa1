(** C69: which numbers of trackers the tree and the hash-map source take. *)
From Verif Require Import Base WindowSpec StatesModel StatesProofs WindowModel HistModel HistSpec HistFacts TreeModel TreeSpec TreeFacts SupplySpec SupplyProofs PropTree.

(** C69. After any input the tree takes a bit with exactly the numbers of trackers named by [tree_takes], without using those past the due number; all others make it panic. *)
Theorem C69_tree_counts : forall t max max_order shift input b trackers,
  luts_new = Ok t -> 0 < max <= 2 ^ 31 -> 0 <= shift < max -> 0 <= max_order -> 8 * max_order + 7 < 2 ^ 16 -> supplied max max_order input ->
  let text := in_window max (map fst input) in let due := branching max_order text in
  exists s, tree_after t max max_order shift input = Ok s /\
    (tree_takes max_order text (zlen trackers) -> exists s', tree_process t s b trackers = Ok s' /\ tree_process t s b (firstn (Z.to_nat due) trackers) = Ok s') /\
    (~ tree_takes max_order text (zlen trackers) -> tree_process t s b trackers = Fail EAssert).
Proof. exact tree_count. Qed.
Print Assumptions C69_tree_counts.
(** The hash-map source in the same way, whatever its hash function. *)
Theorem C69_hash_map_counts : forall t hash max max_order input b trackers,
  luts_new = Ok t -> 0 < max < 2 ^ 63 -> 0 <= max_order -> 8 * (max_order + 1) < 2 ^ 64 -> zlen input / 8 < max -> well_supplied max_order input ->
  let text := map fst input in let due := branching max_order text in
  exists f, (let* f := fat_new max max_order in feed fat_start (fat_process t hash) f input) = Ok f /\
    (map_takes max_order text (zlen trackers) -> exists f', fat_process t hash f b trackers = Ok f' /\ fat_process t hash f b (firstn (Z.to_nat due) trackers) = Ok f') /\
    (~ map_takes max_order text (zlen trackers) -> fat_process t hash f b trackers = Fail EAssert).
Proof. exact map_count. Qed.
Print Assumptions C69_hash_map_counts.
(** The claim that every wrong number is refused fails for both, and the two sources do not take the same numbers: the first bit with a tracker too many. *)
Theorem C69_every_wrong_number_refused_refuted : exists max max_order input b trackers, supplied max max_order input /\ well_supplied max_order input /\
  zlen trackers <> branching max_order (map fst input) /\
  forall t hash, is_ok (let* s := tree_after t max max_order 0 input in tree_process t s b trackers) = true /\
    (let* f := fat_new max max_order in let* f := feed fat_start (fat_process t hash) f input in fat_process t hash f b trackers) = Fail EAssert.
Proof. exact too_many_taken. Qed.
Print Assumptions C69_every_wrong_number_refused_refuted.

(** Six bits into the last 'a' of "abcaba", in a window of four bytes: one tracker is due, none are too few. Order 1 is new there, so two are not noticed. *)
Example slid_due : branching 1 (in_window 4 (map fst (sliding 46))) = 1 /\ followers (in_window 4 (map fst (sliding 46))) 1 = [] /\
  (let* s := tree_after small_tables 4 1 2 (sliding 46) in tree_process small_tables s One []) = Fail EAssert /\
  is_ok (let* s := tree_after small_tables 4 1 2 (sliding 46) in tree_process small_tables s One [ct_default; ct_default]) = true.
Proof. vm_compute. repeat split; reflexivity. Qed.
(** After "abab" the order is known to which the next tracker would belong, so one too many is refused. *)
Definition known : fed := supply_window 8 1 ct_default [] (bit_string [97; 98; 97; 98]).
Example known_due : branching 1 (in_window 8 (map fst known)) = 0 /\ followers (in_window 8 (map fst known)) 0 <> [] /\
  (let* s := tree_after small_tables 8 1 0 known in tree_process small_tables s Zero [ct_default]) = Fail EAssert.
Proof. split; [vm_compute; reflexivity|split; [vm_compute; discriminate|vm_compute; reflexivity]]. Qed.
(** And "aaa" is a text that repeats. *)
Example aaa_repeats : repeating (bit_string [97; 97; 97]) /\ ~ tree_takes 1 (bit_string [97; 98; 97; 98]) 1.
Proof.
  split; [exists (byte_bits 97); vm_compute; reflexivity|]. intros [E|(_ & [E|[E|(r & E)]])]; vm_compute in E; discriminate E.
Qed.
