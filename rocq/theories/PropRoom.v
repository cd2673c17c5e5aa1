(** C66: the size of the window does not matter to a text that fits into it. *)
From Verif Require Import Base CodingModel WindowSpec StatesModel StatesProofs WindowModel HistModel HistSpec TreeModel TreeSpec PredModel PredSpec FileSpec FileProofs RoomSpec TreeFacts RoomProofs PropTree.

(** C66. Two predictors with windows of different sizes, given the same calls that both have room for: the same probabilities, and all but their trees is the same. *)
Theorem C66_same_probabilities : forall md t max max' max_order uses p probabilities,
  luts_new = Ok t -> 0 < max <= 2 ^ 31 -> 0 < max' <= 2 ^ 31 -> 0 <= max_order -> 8 * max_order + 7 < 2 ^ 16 -> zlen (told uses) < 2 ^ 47 - 1 -> fits uses max -> fits uses max' ->
  use_all md t max max_order uses = Ok (p, probabilities) -> exists q, use_all md t max' max_order uses = Ok (q, probabilities) /\ same_but_tree p q.
Proof. exact (fun md t max max' mo uses p probs L M M' O D => calls_same md t max max' mo L M M' O D uses p probs). Qed.
Print Assumptions C66_same_probabilities.
(** The streams are the same. *)
Theorem C66_same_stream : forall md t max max' max_order bytes,
  luts_new = Ok t -> 0 < max <= 2 ^ 31 -> 0 < max' <= 2 ^ 31 -> 0 <= max_order -> 8 * max_order + 7 < 2 ^ 16 -> 8 * zlen bytes < 2 ^ 28 -> zlen bytes <= max -> zlen bytes <= max' ->
  compress_file md t max max_order bytes = compress_file md t max' max_order bytes.
Proof. exact (fun md t max max' mo bytes L M M' O D => files_same md t max max' mo L M M' O D bytes). Qed.
Print Assumptions C66_same_stream.
(** What one compressed the other decompresses. *)
Theorem C66_windows_interchangeable : forall md t max max' max_order bytes,
  luts_new = Ok t -> 0 < max <= 2 ^ 31 -> 0 < max' <= 2 ^ 31 -> 0 <= max_order -> 8 * max_order + 7 < 2 ^ 16 -> 8 * zlen bytes < 2 ^ 28 -> Forall (fun x => 0 <= x < 256) bytes -> zlen bytes <= max -> zlen bytes <= max' ->
  exists out, compress_file md t max max_order bytes = Ok out /\ forall tail, decompress_file md t max' max_order (out ++ tail) (length bytes) = Ok (bytes, tail).
Proof. exact (fun md t max max' mo bytes L M M' O D => crossed md t max max' mo L M M' O D bytes). Qed.
Print Assumptions C66_windows_interchangeable.
(** Whatever the stream, also a damaged one, both give the same bytes or fail alike. *)
Theorem C66_same_decoding : forall md t max max' max_order input n,
  luts_new = Ok t -> 0 < max <= 2 ^ 31 -> 0 < max' <= 2 ^ 31 -> 0 <= max_order -> 8 * max_order + 7 < 2 ^ 16 -> 8 * Z.of_nat n < 2 ^ 47 - 1 -> Z.of_nat n <= max -> Z.of_nat n <= max' ->
  decompress_file md t max max_order input n = decompress_file md t max' max_order input n.
Proof. exact (fun md t max max' mo input n L M M' O D => streams_same md t max max' mo L M M' O D input n). Qed.
Print Assumptions C66_same_decoding.

(** Eleven bytes in windows of eleven and of ten million bytes. *)
Example small_window : exists t out, luts_new = Ok t /\ compress_file ModeLight t 11 20 [97; 98; 114; 97; 99; 97; 100; 97; 98; 114; 97] = Ok out /\
  decompress_file ModeLight t 10000000 20 (out ++ [1; 2; 3]) 11 = Ok ([97; 98; 114; 97; 99; 97; 100; 97; 98; 114; 97], [1; 2; 3]).
Proof.
  destruct tables_built as (t & L). destruct (C66_windows_interchangeable ModeLight t 11 10000000 20 [97; 98; 114; 97; 99; 97; 100; 97; 98; 114; 97] L) as (out & C & D);
    [split; [reflexivity|discriminate]|split; [reflexivity|discriminate]|discriminate|reflexivity|reflexivity|repeat constructor; discriminate|discriminate|discriminate|].
  exists t, out. split; [exact L|]. split; [exact C|exact (D [1; 2; 3])].
Qed.
(** Room for the byte begun is needed too. *)
Example room_needed : fits (uses_of [97; 98]) 2 /\ ~ fits (uses_of [97; 98] ++ [Start]) 2 /\ fits (uses_of [97; 98] ++ [Start]) 3.
Proof. split; [discriminate|]. split; [discriminate|reflexivity]. Qed.
(** Without room the contexts differ: the fourth byte after "aba". *)
Definition begun (max : Z) : res (list (bool * Z)) := shown (tree_states small_tables max 1 0 (supply_window max 1 ct_default [] (bit_string [97; 98; 97])) []).
Example too_long : begun 3 = Ok [(false, 1)] /\ begun 4 = Ok [(false, 1); (false, 2)] /\ begun 5 = begun 4.
Proof. vm_compute. auto. Qed.
