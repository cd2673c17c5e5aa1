(** C27, C28: the history sources that keep everything. *)
From Verif Require Import Base StatesModel StatesSpec WindowModel WindowSpec HistModel HistSpec HistFacts.

(** C27. The exhaustive source reports, after any input, the true statistics of the contexts of the last bits. *)
Theorem C27_exhaustive_source_is_true : forall t max max_order input items,
  luts_new = Ok t -> 0 < max < 2 ^ 63 -> 0 <= max_order < 2 ^ 64 - 1 -> zlen input / 8 < max -> all_default input ->
  exists states, naive_states t max max_order input items = Ok (items ++ states) /\ true_report (lt_rates t) max_order (map fst input) states.
Proof. exact naive_true. Qed.
Print Assumptions C27_exhaustive_source_is_true.
(** And exactly the states replayed from the first occurrence on. *)
Theorem C27_exhaustive_source_replays : forall t max max_order input items,
  0 < max < 2 ^ 63 -> 0 <= max_order < 2 ^ 64 - 1 -> zlen input / 8 < max -> all_default input ->
  naive_states t max max_order input items = let* r := report t max_order input in Ok (items ++ r).
Proof. exact HistProofs.naive_report. Qed.
Print Assumptions C27_exhaustive_source_replays.

(** C28. The hash-map source reports the same up to cost trackers, whatever the hash function and the trackers supplied. *)
Theorem C28_hash_map_source_agrees : forall t hash max max_order input,
  luts_new = Ok t -> 0 < max < 2 ^ 63 -> 0 <= max_order -> 8 * (max_order + 1) < 2 ^ 64 -> zlen input / 8 < max -> well_supplied max_order input ->
  exists fat naive, fat_states t hash max max_order input [] = Ok fat /\ naive_states t max max_order (bare input) [] = Ok naive /\
    map neutralize_cost_trackers fat = map neutralize_cost_trackers naive.
Proof. exact fat_as_naive. Qed.
Print Assumptions C28_hash_map_source_agrees.
(** It reports true statistics itself, and as many branching states as trackers are expected with the next bit. *)
Theorem C28_hash_map_source_is_true : forall t hash max max_order input items,
  luts_new = Ok t -> 0 < max < 2 ^ 63 -> 0 <= max_order -> 8 * (max_order + 1) < 2 ^ 64 -> zlen input / 8 < max -> well_supplied max_order input ->
  exists states, fat_states t hash max max_order input items = Ok (items ++ states) /\ true_report (lt_rates t) max_order (map fst input) states /\
    zlen (filter is_for_node states) = branching max_order (map fst input).
Proof. exact fat_true. Qed.
Print Assumptions C28_hash_map_source_is_true.
(** Exactly, with the trackers supplied at each occurrence. *)
Theorem C28_hash_map_source_replays : forall t hash max max_order input items,
  luts_new = Ok t -> 0 < max < 2 ^ 63 -> 0 <= max_order -> 8 * (max_order + 1) < 2 ^ 64 -> zlen input / 8 < max -> well_supplied max_order input ->
  fat_states t hash max max_order input items = let* r := report t max_order input in Ok (items ++ r).
Proof. exact fat_exact. Qed.
Print Assumptions C28_hash_map_source_replays.
Theorem C28_hash_function_is_irrelevant : forall t hash hash' max max_order input items,
  luts_new = Ok t -> 0 < max < 2 ^ 63 -> 0 <= max_order -> 8 * (max_order + 1) < 2 ^ 64 -> zlen input / 8 < max -> well_supplied max_order input ->
  fat_states t hash max max_order input items = fat_states t hash' max max_order input items.
Proof. exact hash_irrelevant. Qed.
Print Assumptions C28_hash_function_is_irrelevant.
(** Every text can be fed with the right number of trackers. *)
Theorem C28_trackers_can_be_supplied : forall max_order c text,
  exists input, map fst input = text /\ well_supplied max_order input /\ Forall (fun x => Forall (eq c) (snd x)) input.
Proof. exact supply. Qed.
Print Assumptions C28_trackers_can_be_supplied.

(** After "abcabdab" and the first four bits of a byte 'c': order 2 has met "ab" followed by 'c' and by 'd', both starting with these bits. *)
Definition sample : list bit := bit_string [97; 98; 99; 97; 98; 100; 97; 98] ++ firstn 4 (byte_bits 99).
Example sample_order_2 : (earlier sample 2, followers sample 2, distance sample 2) = ([0; 3], [Zero; Zero], 3).
Proof. vm_compute. reflexivity. Qed.
Example sample_order_2_later : followers (sample ++ [Zero]) 2 = [Zero; One] /\ branching 7 (sample ++ [Zero]) = 3 /\ followers sample 3 = [].
Proof. vm_compute. repeat split. Qed.
(** Runs that branch nowhere need no tables. *)
Example naive_run : forall t, naive_states t 4 7 (map (fun b => (b, [])) (bit_string [97; 97; 97])) [] =
  Ok [ForEdge 1 3 Zero; ForEdge 1 2 Zero; ForEdge 1 1 Zero].
Proof. intros t. vm_compute. reflexivity. Qed.
Example fat_run_constant_hash : forall t, fat_states t (fun _ _ _ => 0) 4 7 (map (fun b => (b, [])) (bit_string [97; 97; 97])) [] =
  Ok [ForEdge 1 3 Zero; ForEdge 1 2 Zero; ForEdge 1 1 Zero].
Proof. intros t. vm_compute. reflexivity. Qed.
