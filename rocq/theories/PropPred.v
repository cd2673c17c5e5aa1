(** C41, C42, C43, C45: the whole predictor. *)
From Verif Require Import Base UtilModel UtilSpec LogModel StatesModel StatesSpec ApmModel MixerModel WindowSpec HistModel HistSpec TreeModel TreeSpec StatesProofs PredModel PredSpec PredFacts.

(** C41. Whatever the file, no call fails and each of its bits gets a probability that the coder accepts. *)
Theorem C41_every_bit_predicted : forall md t max max_order bytes, luts_new = Ok t -> 0 < max <= 2 ^ 31 -> 0 <= max_order -> 8 * max_order + 7 < 2 ^ 16 -> 8 * zlen bytes < 2 ^ 47 - 1 ->
  exists p probabilities, use_all md t max max_order (uses_of bytes) = Ok (p, probabilities) /\ zlen probabilities = 8 * zlen bytes /\
    Forall (fun r => 1 <= r <= 2 ^ 23 - 1) probabilities.
Proof. exact file_predicted. Qed.
Print Assumptions C41_every_bit_predicted.
(** The same for any sequence of calls that succeeds, also in the middle of a byte. *)
Theorem C41_every_call_in_range : forall md t max max_order uses p probabilities, luts_new = Ok t -> 0 < max <= 2 ^ 31 -> 0 <= max_order -> 8 * max_order + 7 < 2 ^ 16 -> zlen (told uses) < 2 ^ 47 - 1 ->
  use_all md t max max_order uses = Ok (p, probabilities) -> Forall (fun r => 1 <= r <= 2 ^ 23 - 1) probabilities /\ zlen probabilities = asked uses.
Proof. exact calls_predicted. Qed.
Print Assumptions C41_every_call_in_range.
(** With the parameters of the program: a window of ten million bytes, orders up to 20 and the light finalizer. *)
Theorem C41_program : forall t bytes, luts_new = Ok t -> 8 * zlen bytes < 2 ^ 47 - 1 ->
  exists p probabilities, (let* p := predictor_new t in mfold (use_step ModeLight t) (uses_of bytes) (p, [])) = Ok (p, probabilities) /\ zlen probabilities = 8 * zlen bytes /\
    Forall (fun r => 1 <= r <= 2 ^ 23 - 1) probabilities.
Proof. exact program_predicted. Qed.
Print Assumptions C41_program.
Example real_file : exists t p probabilities, luts_new = Ok t /\
  (let* p := predictor_new t in mfold (use_step ModeLight t) (uses_of [97; 98; 114; 97; 99; 97; 100; 97; 98; 114; 97]) (p, [])) = Ok (p, probabilities) /\
  zlen probabilities = 88 /\ Forall (fun r => 1 <= r <= 2 ^ 23 - 1) probabilities.
Proof.
  destruct tables_built as (t & L). destruct (program_predicted t [97; 98; 114; 97; 99; 97; 100; 97; 98; 114; 97] L eq_refl) as (p & probs & E & Z & F).
  exists t, p, probs. split; [exact L|]. split; [exact E|]. split; [exact Z|exact F].
Qed.

(** C42. Calls succeed exactly if each byte is started first and then predictions and updates alternate eight times; the first call out of this order fails an assertion. *)
Theorem C42_predictor_alternates : forall md t max max_order uses, luts_new = Ok t -> 0 < max <= 2 ^ 31 -> 0 <= max_order -> 8 * max_order + 7 < 2 ^ 16 -> zlen (told uses) < 2 ^ 47 - 1 ->
  match allowed_all Between uses with Some _ => exists st, use_all md t max max_order uses = Ok st | None => use_all md t max max_order uses = Fail EAssert end.
Proof. exact calls_alternate. Qed.
Print Assumptions C42_predictor_alternates.
(** The parts, whatever their state: a second prediction or a second update is refused. *)
Theorem C42_estimator_kit : forall t k setup k' r, est_kit_predict t k setup = Ok (k', r) -> (forall setup', est_kit_predict t k' setup' = Fail EAssert) /\
  forall b k'', est_kit_update t k' b = Ok k'' -> forall b', est_kit_update t k'' b' = Fail EUnwrap.
Proof. exact est_kit_twice. Qed.
Print Assumptions C42_estimator_kit.
Theorem C42_estimator_kit_first : forall t ix k, est_kit_new ix = Ok k -> forall b, est_kit_update t k b = Fail EUnwrap.
Proof. exact est_kit_first. Qed.
Print Assumptions C42_estimator_kit_first.
Theorem C42_mixer_kit : forall t k setup inputs k' r, mixer_kit_predict t k setup inputs = Ok (k', r) ->
  (forall setup' inputs', mixer_kit_pre_predict k' setup' = Fail EAssert /\ mixer_kit_predict t k' setup' inputs' = Fail EAssert) /\
  forall b f k'' r', mixer_kit_update t k' b f = Ok (k'', r') -> r' = r /\ forall b' f', mixer_kit_update t k'' b' f' = Fail EUnwrap.
Proof. exact mixer_kit_twice. Qed.
Print Assumptions C42_mixer_kit.
Theorem C42_mixer_kit_first : forall t maker ix k, mixer_kit_new maker ix = Ok k -> forall b f, mixer_kit_update t k b f = Fail EUnwrap.
Proof. exact mixer_kit_first. Qed.
Print Assumptions C42_mixer_kit_first.
Theorem C42_map : forall a c p s lut a' r, refine a c p s lut = Ok (a', r) -> (forall c' p' s' lut', refine a' c' p' s' lut' = Fail EAssert) /\
  forall c' b rate fixed a'', update_predictions a' c' b rate fixed = Ok a'' -> forall c'' b' rate' fixed', update_predictions a'' c'' b' rate' fixed' = Fail EAssert.
Proof. exact map_twice. Qed.
Print Assumptions C42_map.
Theorem C42_map_first : forall n bits lut a, apm_new n bits lut = Ok a -> forall c b rate fixed, update_predictions a c b rate fixed = Fail EAssert.
Proof. exact map_first. Qed.
Print Assumptions C42_map_first.
(** The chain, asked about the same states again. *)
Theorem C42_chain_predict : forall t kits contexts byte kits' r, contexts <> [] -> chain_predict t kits contexts byte = Ok (kits', r) ->
  forall byte', chain_predict t kits' contexts byte' = Fail EAssert.
Proof. exact chain_twice. Qed.
Print Assumptions C42_chain_predict.
Theorem C42_chain_update : forall t kits contexts b kits' trackers, contexts <> [] -> chain_update t kits b contexts = Ok (kits', trackers) ->
  forall b', chain_update t kits' b' contexts = Fail EUnwrap.
Proof. exact chain_update_twice. Qed.
Print Assumptions C42_chain_update.
(** The finalizer in the modes that refine. *)
Theorem C42_finalizer_predict : forall md t f sq st n lb f' r, md <> ModeNone -> finalizer_refine md t f sq st n lb = Ok (f', r) ->
  forall sq' st' n' lb', exists e, finalizer_refine md t f' sq' st' n' lb' = Fail e.
Proof. exact finalizer_twice. Qed.
Print Assumptions C42_finalizer_predict.
Theorem C42_finalizer_update : forall md t f b n lb f', md <> ModeNone -> finalizer_update md t f b n lb = Ok f' ->
  forall b' n' lb', exists e, finalizer_update md t f' b' n' lb' = Fail e.
Proof. exact finalizer_update_twice. Qed.
Print Assumptions C42_finalizer_update.
(** But the chain does not notice anything when no context was met, as throughout the first byte of a file, and neither does the finalizer that is switched off; there only the predictor itself does. *)
Theorem C42_chain_refuted : exists contexts, forall t kits byte b, chain_predict t kits contexts byte = Ok (kits, (2 ^ 30, 0)) /\ chain_update t kits b contexts = Ok (kits, []).
Proof. exact chain_blind. Qed.
Print Assumptions C42_chain_refuted.
(** The chain of two orders works once. *)
Example chain_used : exists t, luts_new = Ok t /\ exists kits kits' r, chain_new t 1 = Ok kits /\ chain_predict t kits [ForEdge 1 3 Zero; ForEdge 1 2 Zero] 97 = Ok (kits', r) /\
  exists kits'' trackers, chain_update t kits' One [ForEdge 1 3 Zero; ForEdge 1 2 Zero] = Ok (kits'', trackers).
Proof. destruct tables_built as (t & L). exists t. split; [exact L|exact (chain_usable t L)]. Qed.
Example orders_of_calls : allowed_all Between (uses_of [97; 98] ++ [Start; Predict]) = Some (Asked 0) /\ allowed_all Between (uses_of [97; 98] ++ [Start; Predict; Predict]) = None /\
  allowed_all Between (uses_of [97; 98] ++ [Predict]) = None /\ allowed_all Between [Start; Predict; Update One; Start] = None /\ allowed_all Between [Start; Update One] = None.
Proof. repeat split; reflexivity. Qed.

(** C43. In the report of the tree, of the exhaustive and of the hash-map source no deterministic state comes before a branching one, and neighbours can be compared. *)
Theorem C43_tree_sorted : forall t max max_order shift input, luts_new = Ok t -> 0 < max <= 2 ^ 31 -> 0 <= shift < max -> 0 <= max_order -> 8 * max_order + 7 < 2 ^ 16 -> supplied max max_order input ->
  exists s states, tree_after t max max_order shift input = Ok s /\ tree_gather s [] = Ok states /\ zlen states <= max_order + 1 /\ branching_first states /\ comparable t states.
Proof. exact tree_sorted. Qed.
Print Assumptions C43_tree_sorted.
Theorem C43_exhaustive_sorted : forall t max max_order input items, luts_new = Ok t -> 0 < max < 2 ^ 63 -> 0 <= max_order < 2 ^ 64 - 1 -> zlen input / 8 < max -> all_default input ->
  exists states, naive_states t max max_order input items = Ok (items ++ states) /\ zlen states <= max_order + 1 /\ branching_first states /\ comparable t states.
Proof. exact naive_sorted. Qed.
Print Assumptions C43_exhaustive_sorted.
Theorem C43_hash_map_sorted : forall t hash max max_order input items, luts_new = Ok t -> 0 < max < 2 ^ 63 -> 0 <= max_order -> 8 * (max_order + 1) < 2 ^ 64 -> zlen input / 8 < max -> well_supplied max_order input ->
  exists states, fat_states t hash max max_order input items = Ok (items ++ states) /\ zlen states <= max_order + 1 /\ branching_first states /\ comparable t states.
Proof. exact fat_sorted. Qed.
Print Assumptions C43_hash_map_sorted.
(** The case that would be refused. *)
Example not_comparable : forall t, compare_context_states t (ForEdge 1 3 Zero) (ForNode 1 0 0 0 (0, 0)) = Fail EAssert.
Proof. reflexivity. Qed.

(** C45. After any calls the statistics are those of the ledger of all bits told and the probabilities predicted for them. *)
Theorem C45_statistics_accounted : forall md t max max_order uses p probabilities, luts_new = Ok t -> 0 < max <= 2 ^ 31 -> 0 <= max_order -> 8 * max_order + 7 < 2 ^ 16 -> zlen (told uses) < 2 ^ 47 - 1 ->
  use_all md t max max_order uses = Ok (p, probabilities) -> accounted (started uses) (told uses) (ledger t max max_order [] (trace_of uses probabilities)) (pr_stats p).
Proof. exact calls_accounted. Qed.
Print Assumptions C45_statistics_accounted.
(** The costs by type of context add up to the total, and so do those by symbol with that of the last byte. *)
Theorem C45_statistics_add_up : forall md t max max_order uses p probabilities, luts_new = Ok t -> 0 < max <= 2 ^ 31 -> 0 <= max_order -> 8 * max_order + 7 < 2 ^ 16 -> zlen (told uses) < 2 ^ 47 - 1 -> use_all md t max max_order uses = Ok (p, probabilities) ->
  zsum (st_order_costs (pr_stats p)) = st_total_cost (pr_stats p) /\ (0 < started uses -> zsum (st_symbol_costs (pr_stats p)) + st_byte_cost (pr_stats p) = st_total_cost (pr_stats p)) /\
  (0 < started uses -> zsum (st_symbol_counts (pr_stats p)) = started uses - 1).
Proof. exact calls_sums. Qed.
Print Assumptions C45_statistics_add_up.
(** For a file: the bytes are counted, and each symbol as often as it occurs before the last byte. *)
Theorem C45_file_statistics : forall md t max max_order bytes, luts_new = Ok t -> 0 < max <= 2 ^ 31 -> 0 <= max_order -> 8 * max_order + 7 < 2 ^ 16 -> 8 * zlen bytes < 2 ^ 47 - 1 -> Forall (fun x => 0 <= x < 256) bytes ->
  exists p probabilities, use_all md t max max_order (uses_of bytes) = Ok (p, probabilities) /\ st_total_bytes (pr_stats p) = zlen bytes /\
    st_total_cost (pr_stats p) = costs every (ledger t max max_order [] (List.combine (bit_string bytes) probabilities)) /\ zsum (st_order_costs (pr_stats p)) = st_total_cost (pr_stats p) /\
    (bytes <> [] -> zsum (st_symbol_costs (pr_stats p)) + st_byte_cost (pr_stats p) = st_total_cost (pr_stats p) /\
      st_symbol_counts (pr_stats p) = map (fun v => zlen (filter (fun y => y =? v) (removelast bytes))) (zseq 0 256) /\ zsum (st_symbol_counts (pr_stats p)) = zlen bytes - 1).
Proof. exact file_stats. Qed.
Print Assumptions C45_file_statistics.
(** Not every bit is accounted for: the total cost of a file of one byte is zero, although each of its bits costs something. *)
Theorem C45_every_bit_refuted : forall md t max max_order x, luts_new = Ok t -> 0 < max <= 2 ^ 31 -> 0 <= max_order -> 8 * max_order + 7 < 2 ^ 16 ->
  exists p probabilities, use_all md t max max_order (uses_of [x]) = Ok (p, probabilities) /\ st_total_cost (pr_stats p) = 0 /\
    8 <= zsum (map (fun x => cost_of t (snd x) (fst x)) (List.combine (byte_bits x) probabilities)).
Proof. exact one_byte_free. Qed.
Print Assumptions C45_every_bit_refuted.
(** A ledger: of "aab" all bits but the first eight are charged until the text leaves what was seen; at the seventh bit of 'b' the bit 0 was seen twice, at order 0 and 1. *)
Example ledger_of_aab : map (fun x => (ln_byte x, ln_met x, ln_branching x)) (ledger (mkLuts [] [] [] [] [] [] [] []) 4 1 [] (map (fun b => (b, 1)) (bit_string [97; 97; 98]))) =
  map (fun _ => (0, 0, 0)) (zseq 0 8) ++ map (fun _ => (1, 1, 0)) (zseq 0 8) ++ map (fun _ => (2, 2, 0)) (zseq 0 7) ++ [(2, 0, 0)].
Proof. vm_compute. reflexivity. Qed.
