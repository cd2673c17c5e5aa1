(** C52: estimated costs, information content and the length of the stream. Costs are in units of 2^-11 bits. *)
From Coq Require Import Reals.
From Verif Require Import Base LogModel LogSpec CodingModel CodingSpec WindowSpec StatesModel StatesProofs PredModel PredSpec FileSpec CostSpec CostReal.
Local Open Scope R_scope.

(** The estimated cost of a bit is its information content, to -0.51 and +2 units. *)
Theorem C52_bit_cost : forall t p b, luts_new = Ok t -> (1 <= p <= 2 ^ 23 - 1)%Z ->
  exists c, estimate_cost (lt_log2 t) p b = Ok c /\ cost_of t p b = c /\ - (51 / 100) < IZR c - 2048 * info (b, p) < 2.
Proof. exact bit_cost_exists. Qed.
Print Assumptions C52_bit_cost.
(** So the total cost in the statistics is the information content of the bits for which a context was met. *)
Theorem C52_total_cost : forall md t max max_order uses p probabilities, luts_new = Ok t -> (0 < max <= 2 ^ 31)%Z -> (0 <= max_order)%Z -> (8 * max_order + 7 < 2 ^ 16)%Z -> (zlen (told uses) < 2 ^ 47 - 1)%Z ->
  use_all md t max max_order uses = Ok (p, probabilities) ->
  let counted := met_bits max max_order [] (trace_of uses probabilities) in
  - (51 / 100) * IZR (zlen counted) <= IZR (st_total_cost (pr_stats p)) - 2048 * information counted <= 2 * IZR (zlen counted).
Proof. exact total_cost_accurate. Qed.
Print Assumptions C52_total_cost.
(** The stream is as long as the information content of all bits, but for what rounding the intervals takes, one bit and four bytes. *)
Theorem C52_stream_length : forall md t max max_order bytes out, luts_new = Ok t -> (0 < max <= 2 ^ 31)%Z -> (0 <= max_order)%Z -> (8 * max_order + 7 < 2 ^ 16)%Z -> (8 * zlen bytes < 2 ^ 28)%Z ->
  compress_file md t max max_order bytes = Ok out -> exists p probabilities, use_all md t max max_order (uses_of bytes) = Ok (p, probabilities) /\
    let trace := List.combine (bit_string bytes) probabilities in zlen trace = (8 * zlen bytes)%Z /\
    information trace - rsum (map gain trace) + 1 <= 8 * IZR (zlen out) <= information trace + rsum (map loss trace) + 32.
Proof. exact stream_length. Qed.
Print Assumptions C52_stream_length.
(** And the estimate for all bits tells the length of the stream to 32 bits, one bit in 70 bytes and one bit for each bit that came with a probability below 2^-12. *)
Theorem C52_estimate_near_stream : forall md t max max_order bytes out, luts_new = Ok t -> (0 < max <= 2 ^ 31)%Z -> (0 <= max_order)%Z -> (8 * max_order + 7 < 2 ^ 16)%Z -> (8 * zlen bytes < 2 ^ 28)%Z ->
  compress_file md t max max_order bytes = Ok out -> exists p probabilities, use_all md t max max_order (uses_of bytes) = Ok (p, probabilities) /\
    let trace := List.combine (bit_string bytes) probabilities in
    1 - IZR (zlen bytes) / 70 - IZR (surprises trace) <= 8 * IZR (zlen out) - IZR (estimated t trace) / 2048 <= 32 + IZR (zlen bytes) / 120 + IZR (surprises trace).
Proof. exact estimate_near_stream. Qed.
Print Assumptions C52_estimate_near_stream.

(** A file meeting the hypotheses (compressed by the program's own window and order), and a trace: "0" at one in four costs two bits, a "1" at 2^-23 is a surprise. *)
Example C52_file : exists t out, luts_new = Ok t /\ compress_file ModeLight t 10000000 20 [97; 98; 114; 97; 99; 97; 100; 97; 98; 114; 97]%Z = Ok out.
Proof. destruct tables_built as (t & L). destruct (FileProofs.small_round_trip t L) as (out & C & _). exists t, out. split; [exact L|exact C]. Qed.
Example C52_trace : units (Zero, 2 ^ 21)%Z = (2 ^ 21)%Z /\ info (Zero, 2 ^ 21)%Z = 2 /\ surprises [(Zero, 2 ^ 21); (One, 2 ^ 23 - 1)]%Z = 1%Z.
Proof. exact quarter_info. Qed.
