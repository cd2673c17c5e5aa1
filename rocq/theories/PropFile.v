(** C46, C47: the predictor and the coder together. *)
From Verif Require Import Base CodingModel CodingSpec WindowSpec StatesModel StatesProofs PredModel PredSpec FileSpec FileProofs.

(** C46. Every file of fewer than 2^25 bytes can be compressed, and decompressing gives it back and leaves what follows in the stream. *)
Theorem C46_file_round_trip : forall md t max max_order bytes,
  luts_new = Ok t -> 0 < max <= 2 ^ 31 -> 0 <= max_order -> 8 * max_order + 7 < 2 ^ 16 -> 8 * zlen bytes < 2 ^ 28 -> Forall (fun x => 0 <= x < 256) bytes ->
  exists out, compress_file md t max max_order bytes = Ok out /\ byte_list out /\ forall tail, decompress_file md t max max_order (out ++ tail) (length bytes) = Ok (bytes, tail).
Proof. exact file_round_trip. Qed.
Print Assumptions C46_file_round_trip.
(** So no two files of the same length have the same stream. *)
Theorem C46_files_never_collide : forall md t max max_order bytes bytes' out,
  luts_new = Ok t -> 0 < max <= 2 ^ 31 -> 0 <= max_order -> 8 * max_order + 7 < 2 ^ 16 -> 8 * zlen bytes < 2 ^ 28 -> Forall (fun x => 0 <= x < 256) bytes -> Forall (fun x => 0 <= x < 256) bytes' ->
  length bytes' = length bytes -> compress_file md t max max_order bytes = Ok out -> compress_file md t max max_order bytes' = Ok out -> bytes' = bytes.
Proof. exact files_never_collide. Qed.
Print Assumptions C46_files_never_collide.
(** The length of the stream follows from the probabilities the predictor gave to the bits. *)
Theorem C46_file_size : forall md t max max_order bytes out,
  luts_new = Ok t -> 0 < max <= 2 ^ 31 -> 0 <= max_order -> 8 * max_order + 7 < 2 ^ 16 -> 8 * zlen bytes < 2 ^ 28 -> compress_file md t max max_order bytes = Ok out ->
  exists p probabilities, use_all md t max max_order (uses_of bytes) = Ok (p, probabilities) /\ 4 <= zlen out <= 4 + 24 * zlen bytes /\
    256 ^ (zlen out - 4) * prodz (map lo_share (coded (bit_string bytes) probabilities)) <= (2 ^ 31) ^ (8 * zlen bytes) /\
    (2 ^ 23) ^ (8 * zlen bytes) <= 256 ^ (zlen out - 4) * (2 ^ 31 - 1) * prodz (map (fun e => share e + 1) (coded (bit_string bytes) probabilities)).
Proof. exact file_size. Qed.
Print Assumptions C46_file_size.
Example real_round_trip : exists t out, luts_new = Ok t /\ compress_file ModeLight t 10000000 20 [97; 98; 114; 97; 99; 97; 100; 97; 98; 114; 97] = Ok out /\
  decompress_file ModeLight t 10000000 20 (out ++ [1; 2; 3]) 11 = Ok ([97; 98; 114; 97; 99; 97; 100; 97; 98; 114; 97], [1; 2; 3]).
Proof. destruct tables_built as (t & L). destruct (small_round_trip t L) as (out & C & D). exists t, out. split; [exact L|]. split; [exact C|exact (D [1; 2; 3])]. Qed.

(** C47. Whatever the stream, decompressing gives as many bytes as asked or runs out of input; it never panics. *)
Theorem C47_any_stream : forall md t max max_order input n,
  luts_new = Ok t -> 0 < max <= 2 ^ 31 -> 0 <= max_order -> 8 * max_order + 7 < 2 ^ 16 -> byte_list input -> 8 * Z.of_nat n < 2 ^ 47 - 1 ->
  (exists bytes rest, decompress_file md t max max_order input n = Ok (bytes, rest) /\ length bytes = n /\ byte_list bytes) \/ decompress_file md t max max_order input n = Fail EEof.
Proof. exact garbage_tolerated. Qed.
Print Assumptions C47_any_stream.
(** What was given back is what was read: a longer stream changes only the rest. *)
Theorem C47_rest_untouched : forall md t max max_order input n bytes rest tail,
  decompress_file md t max max_order input n = Ok (bytes, rest) -> decompress_file md t max max_order (input ++ tail) n = Ok (bytes, rest ++ tail).
Proof. exact rest_untouched. Qed.
Print Assumptions C47_rest_untouched.
Example streams : byte_list [255; 0; 17; 230; 4; 4; 4] /\ dec_new [255; 0; 17] = Fail EEof.
Proof. split; [repeat constructor; discriminate|reflexivity]. Qed.
