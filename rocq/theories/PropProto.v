(** C62: which orders of calls the history sources accept. *)
From Verif Require Import Base StatesModel StatesProofs WindowModel WindowSpec HistModel HistSpec HistFacts TreeModel TreeSpec TreeFacts ProtoSpec ProtoProofs PropTree.

Theorem C62_tree_protocol t max max_order shift asks : luts_new = Ok t -> 0 < max <= 2 ^ 31 -> 0 <= shift < max -> 0 <= max_order /\ 8 * max_order + 7 < 2 ^ 16 ->
  supplied max max_order (heard asks) ->
  let run := (let* s := tree_new max max_order shift in mfold (act tree_start tree_gather (tree_process t)) asks (s, [])) in
  let right := fun input items => window_report (lt_rates t) max_order (forgotten max (map fst input)) (in_window max (map fst input)) items in
  if accepted always never 0 false asks
  then exists s reports, run = Ok (s, reports) /\ Forall2 (answered right) (questions [] false asks) reports
  else exists e, run = Fail e.
Proof. intros L M S O. exact (tree_protocol t max shift max_order L M S O asks). Qed.
Print Assumptions C62_tree_protocol.

Theorem C62_exhaustive_protocol t max max_order asks : luts_new = Ok t -> 0 < max < 2 ^ 63 -> 0 <= max_order < 2 ^ 64 - 1 -> all_default (heard asks) ->
  let run := (let* s := naive_new max max_order in mfold (act naive_start (naive_gather t) naive_process) asks (s, [])) in
  let right := fun input items => true_report (lt_rates t) max_order (map fst input) items in
  if accepted (window_room max) (nothing_to_see max) 0 false asks
  then exists s reports, run = Ok (s, reports) /\ Forall2 (answered right) (questions [] false asks) reports
  else exists e, run = Fail e.
Proof. intros L M O. exact (naive_protocol t max max_order L M O asks). Qed.
Print Assumptions C62_exhaustive_protocol.

Theorem C62_hash_map_protocol t hash max max_order asks : luts_new = Ok t -> 0 < max < 2 ^ 63 -> 0 <= max_order /\ 8 * (max_order + 1) < 2 ^ 64 ->
  well_supplied max_order (heard asks) -> accepted (window_room max) never 0 false asks = true ->
  exists s reports, (let* s := fat_new max max_order in mfold (act fat_start (fat_gather hash) (fat_process t hash)) asks (s, [])) = Ok (s, reports) /\
    Forall2 (answered (fun input items => true_report (lt_rates t) max_order (map fst input) items)) (questions [] false asks) reports.
Proof. exact (fat_protocol_plain t hash max max_order asks). Qed.
Print Assumptions C62_hash_map_protocol.

(** When the hash-map source begins a byte: not within a byte, but also a second time. *)
Theorem C62_hash_map_begins t hash max max_order asks : luts_new = Ok t -> 0 < max < 2 ^ 63 -> 0 <= max_order /\ 8 * (max_order + 1) < 2 ^ 64 ->
  well_supplied max_order (heard asks) -> accepted (window_room max) never 0 false asks = true ->
  let bytes := zlen (heard asks) / 8 + (if open_after 0 false asks then 1 else 0) in
  is_ok (let* s := fat_new max max_order in mfold (act fat_start (fat_gather hash) (fat_process t hash)) (asks ++ [Begin]) (s, [])) =
    (zlen (heard asks) mod 8 =? 0) && (bytes <? max).
Proof. intros L M O. exact (fat_begins t hash max max_order L M O asks). Qed.
Print Assumptions C62_hash_map_begins.

(** The exhaustive source accepts a report without a byte, and then hides the byte that was told. *)
Theorem C62_exhaustive_early_report_refuted : exists max max_order asks, all_default (heard asks) /\ accepted (window_room max) never 0 false asks = true /\
  forall t, exists s, (let* s := naive_new max max_order in mfold (act naive_start (naive_gather t) naive_process) (asks ++ [Report; Begin; Report]) (s, [])) = Ok (s, [[]; [ForEdge 1 1 Zero]]).
Proof. exact early_report. Qed.
Print Assumptions C62_exhaustive_early_report_refuted.

(** The hash-map source accepts eight bits without a byte: it counts them, but has them in the place of the byte before. *)
Theorem C62_hash_map_no_begin_refuted : exists hash max max_order asks, well_supplied max_order (heard asks) /\ accepted (window_room max) never 0 false asks = false /\
  (forall t, exists s, (let* s := fat_new max max_order in mfold (act fat_start (fat_gather hash) (fat_process t hash)) asks (s, [])) = Ok (s, [[ForEdge 1 2 Zero]]) /\
    w_size (fm_input s) = 2) /\ zlen (heard asks) = 16.
Proof. exact no_begin. Qed.
Print Assumptions C62_hash_map_no_begin_refuted.

(** A byte is begun before its first bit, and a report asked before each bit: forty-six bits in a window of four bytes, in the tree. *)
Definition asks_of (input : fed) : list ask := flat_map (fun x => (if fst x mod 8 =? 0 then [Begin] else []) ++ [Report; Tell (fst (snd x)) (snd (snd x))]) (combine (zseq 0 (length input)) input).
Example slid_asks : supplied 4 1 (heard (asks_of (sliding 46))) /\ accepted always never 0 false (asks_of (sliding 46)) = true /\ accepted always never 0 false (asks_of (sliding 46) ++ [Begin]) = false.
Proof.
  replace (heard (asks_of (sliding 46))) with (sliding 46) by (vm_compute; reflexivity). split; [|split; vm_compute; reflexivity].
  apply (supply_window_ok 4 1 ct_default _ []). intros before b cs later E. destruct before; discriminate.
Qed.
Example slid_run : is_ok (let* s := tree_new 4 1 2 in mfold (act tree_start tree_gather (tree_process small_tables)) (asks_of (sliding 46)) (s, [])) = true /\
  is_ok (let* s := tree_new 4 1 2 in mfold (act tree_start tree_gather (tree_process small_tables)) (asks_of (sliding 46) ++ [Begin]) (s, [])) = false.
Proof. split; vm_compute; reflexivity. Qed.
(** In a window of two bytes the others end with the second byte; what they are told of it is all they can be asked about. *)
Definition two_bytes : fed := map (fun b => (b, [])) (bit_string [97; 97]).
Example full_window : all_default (heard (asks_of two_bytes)) /\ accepted (window_room 2) never 0 false (asks_of two_bytes) = true /\
  accepted (window_room 2) (nothing_to_see 2) 0 false (asks_of two_bytes ++ [Begin]) = false /\ accepted (window_room 2) (nothing_to_see 2) 0 false (asks_of two_bytes ++ [Report]) = false.
Proof. split; [repeat constructor|]. repeat split; vm_compute; reflexivity. Qed.
Example full_supplied : well_supplied 1 (heard (asks_of two_bytes)) /\ zlen (heard (asks_of two_bytes)) / 8 = 2.
Proof.
  split; [|vm_compute; reflexivity]. replace (heard (asks_of two_bytes)) with (supply_from 1 ct_default [] (bit_string [97; 97])) by (vm_compute; reflexivity).
  apply (supply_ok 1 ct_default _ []). intros before b cs later E. destruct before; discriminate.
Qed.
(** After the first call the hash-map source begins another byte, and then a third one is refused. *)
Example begun_twice : accepted (window_room 2) never 0 false [Begin] = true /\ (let bytes := zlen (heard [Begin]) / 8 + (if open_after 0 false [Begin] then 1 else 0) in bytes <? 2) = true /\
  is_ok (let* s := fat_new 2 0 in mfold (act fat_start (fat_gather (fun _ _ _ => 0)) (fat_process small_tables (fun _ _ _ => 0))) [Begin; Begin] (s, [])) = true /\
  is_ok (let* s := fat_new 2 0 in mfold (act fat_start (fat_gather (fun _ _ _ => 0)) (fat_process small_tables (fun _ _ _ => 0))) [Begin; Begin; Begin] (s, [])) = false.
Proof. repeat split; vm_compute; reflexivity. Qed.
