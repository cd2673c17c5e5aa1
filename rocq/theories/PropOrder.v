(** C67: the maximum order does not matter to a text that is shorter. *)
From Verif Require Import Base CodingModel WindowSpec StatesModel StatesProofs WindowModel HistModel HistSpec TreeModel TreeSpec TreeFacts PredModel PredSpec FileSpec FileProofs RoomSpec OrderSpec OrderProofs PropTree.

(** C67. Two predictors with windows of different sizes and different maximum orders, given the same calls that fit into both: the same probabilities, the same statistics,
    and the mixers of the orders both have are the same. *)
Theorem C67_same_probabilities : forall md t max max' max_order max_order' uses p probabilities,
  luts_new = Ok t -> 0 < max <= 2 ^ 31 -> 0 < max' <= 2 ^ 31 -> 0 <= max_order -> 8 * max_order + 7 < 2 ^ 16 -> 0 <= max_order' -> 8 * max_order' + 7 < 2 ^ 16 ->
  zlen (told uses) < 2 ^ 47 - 1 -> fits uses max -> fits uses max' -> orders_suffice uses max_order -> orders_suffice uses max_order' ->
  use_all md t max max_order uses = Ok (p, probabilities) ->
  exists q, use_all md t max' max_order' uses = Ok (q, probabilities) /\ same_to (Z.min max_order max_order' + 1) p q.
Proof. exact (fun md t max max' mo mo' uses p probs L M M' O D O' D' => settings_same md t max max' mo mo' L M M' O D O' D' uses p probs). Qed.
Print Assumptions C67_same_probabilities.
(** The streams are the same for files at most two bytes longer than both orders. *)
Theorem C67_same_stream : forall md t max max' max_order max_order' bytes,
  luts_new = Ok t -> 0 < max <= 2 ^ 31 -> 0 < max' <= 2 ^ 31 -> 0 <= max_order -> 8 * max_order + 7 < 2 ^ 16 -> 0 <= max_order' -> 8 * max_order' + 7 < 2 ^ 16 ->
  8 * zlen bytes < 2 ^ 28 -> zlen bytes <= max -> zlen bytes <= max' -> zlen bytes <= max_order + 2 -> zlen bytes <= max_order' + 2 ->
  compress_file md t max max_order bytes = compress_file md t max' max_order' bytes.
Proof. exact (fun md t max max' mo mo' bytes L M M' O D O' D' => settings_files md t max max' mo mo' L M M' O D O' D' bytes). Qed.
Print Assumptions C67_same_stream.
(** What one compressed the other decompresses. *)
Theorem C67_settings_interchangeable : forall md t max max' max_order max_order' bytes,
  luts_new = Ok t -> 0 < max <= 2 ^ 31 -> 0 < max' <= 2 ^ 31 -> 0 <= max_order -> 8 * max_order + 7 < 2 ^ 16 -> 0 <= max_order' -> 8 * max_order' + 7 < 2 ^ 16 ->
  8 * zlen bytes < 2 ^ 28 -> Forall (fun x => 0 <= x < 256) bytes -> zlen bytes <= max -> zlen bytes <= max' -> zlen bytes <= max_order + 2 -> zlen bytes <= max_order' + 2 ->
  exists out, compress_file md t max max_order bytes = Ok out /\ forall tail, decompress_file md t max' max_order' (out ++ tail) (length bytes) = Ok (bytes, tail).
Proof. exact (fun md t max max' mo mo' bytes L M M' O D O' D' => settings_crossed md t max max' mo mo' L M M' O D O' D' bytes). Qed.
Print Assumptions C67_settings_interchangeable.
(** Whatever the stream, also a damaged one, both give the same bytes or fail alike. *)
Theorem C67_same_decoding : forall md t max max' max_order max_order' input n,
  luts_new = Ok t -> 0 < max <= 2 ^ 31 -> 0 < max' <= 2 ^ 31 -> 0 <= max_order -> 8 * max_order + 7 < 2 ^ 16 -> 0 <= max_order' -> 8 * max_order' + 7 < 2 ^ 16 ->
  8 * Z.of_nat n < 2 ^ 47 - 1 -> Z.of_nat n <= max -> Z.of_nat n <= max' -> Z.of_nat n <= max_order + 2 -> Z.of_nat n <= max_order' + 2 ->
  decompress_file md t max max_order input n = decompress_file md t max' max_order' input n.
Proof. exact (fun md t max max' mo mo' input n L M M' O D O' D' => settings_streams md t max max' mo mo' L M M' O D O' D' input n). Qed.
Print Assumptions C67_same_decoding.

(** Eleven bytes: order 9 in a window of eleven bytes, and the order and window of the program. *)
Example low_order : exists t out, luts_new = Ok t /\ compress_file ModeLight t 11 9 [97; 98; 114; 97; 99; 97; 100; 97; 98; 114; 97] = Ok out /\
  decompress_file ModeLight t 10000000 20 (out ++ [1; 2; 3]) 11 = Ok ([97; 98; 114; 97; 99; 97; 100; 97; 98; 114; 97], [1; 2; 3]).
Proof.
  destruct tables_built as (t & L). destruct (C67_settings_interchangeable ModeLight t 11 10000000 9 20 [97; 98; 114; 97; 99; 97; 100; 97; 98; 114; 97] L) as (out & C & D);
    [split; [reflexivity|discriminate]|split; [reflexivity|discriminate]|discriminate|reflexivity|discriminate|reflexivity|reflexivity|repeat constructor; discriminate|discriminate..|].
  exists t, out. split; [exact L|]. split; [exact C|exact (D [1; 2; 3])].
Qed.
(** The limit is sharp: in the third byte after "aa" order 1 was met, in the second it cannot be. *)
Definition orders_met (max_order : Z) (bytes : list Z) : res (list (bool * Z)) := shown (tree_states small_tables 10 max_order 0 (supply_window 10 max_order ct_default [] (bit_string bytes)) []).
Example too_low : orders_met 0 [97; 97] = Ok [(false, 1)] /\ orders_met 1 [97; 97] = Ok [(false, 1); (false, 1)] /\ orders_met 0 [97] = orders_met 5 [97] /\
  orders_suffice (uses_of [97; 97]) 0 /\ ~ orders_suffice (uses_of [97; 97] ++ [Start]) 0.
Proof. split; [vm_compute; reflexivity|]. split; [vm_compute; reflexivity|]. split; [vm_compute; reflexivity|]. split; [discriminate|]. unfold orders_suffice, fits. cbn. discriminate. Qed.
