(** C48, C49, C50: who learns what in the predictor. *)
From Coq Require Import Lia.
From Verif Require Import Base UtilModel UtilSpec StateModel EstModel LutModel MixerModel MixerSpec StatesModel WindowSpec TreeModel TreeSpec PredModel PredSpec StatesProofs PredFacts
  KitSpec KitProofs KitChain KitUse WireSpec WireProofs.

(** C48. In a kit of estimators each prediction is that of an estimator which was taught exactly the bits that followed the earlier predictions for the same sub-indices. *)
Theorem C48_estimators_apart : forall t dims ix k lessons, luts_new = Ok t -> Forall (fun d => 1 <= d) dims -> product dims < 2 ^ 64 -> zlen dims < 2 ^ 63 -> ix_new (length dims) dims = Ok ix -> est_kit_new ix = Ok k ->
  Forall (fun x => valid_tuple dims (fst x)) lessons -> exists k' predictions, mfold (est_round t) lessons (k, []) = Ok (k', predictions) /\ est_story t lessons predictions.
Proof. exact estimators_apart. Qed.
Print Assumptions C48_estimators_apart.
(** In a kit of mixers each result is that of a mixer which was taught exactly the earlier lessons for the same sub-indices, however these were split between the two calls. *)
Theorem C48_mixers_apart : forall t maker dims ix k lessons k' results, Forall (fun d => 1 <= d) dims -> product dims < 2 ^ 64 -> zlen dims < 2 ^ 63 -> ix_new (length dims) dims = Ok ix -> mixer_kit_new maker ix = Ok k ->
  Forall (fun x => valid_tuple dims (fst (fst x) ++ snd (fst x))) lessons -> mfold (mixer_round t) lessons (k, []) = Ok (k', results) -> mix_story t maker lessons results.
Proof. exact mixers_apart. Qed.
Print Assumptions C48_mixers_apart.
(** Fair lessons are never refused: each input once, the limit of the rate index that of the kit. *)
Theorem C48_mixers_served : forall t maker m size index mode limit dims ix lessons, luts_new = Ok t -> maker = Ok m -> makes size index mode m -> index <= limit <= 1000 ->
  Forall (fun d => 1 <= d) dims -> product dims < 2 ^ 64 -> zlen dims < 2 ^ 63 -> ix_new (length dims) dims = Ok ix ->
  Forall (fun x => valid_tuple dims (fst (fst x) ++ snd (fst x))) lessons -> Forall (fun x => fair_lesson size limit (snd x)) lessons ->
  exists k k' results, mixer_kit_new maker ix = Ok k /\ mfold (mixer_round t) lessons (k, []) = Ok (k', results) /\ mix_story t maker lessons results.
Proof. exact mixers_served. Qed.
Print Assumptions C48_mixers_served.
Example fair_two : fair_lesson 2 300 (mkLesson [(1, (2 ^ 29, -2303957)); (0, (2 ^ 30, 0))] One 300).
Proof. unfold fair_lesson. cbn. repeat split; try lia; repeat constructor; cbn; lia. Qed.
Example two_slots : exists t ix k k' predictions, luts_new = Ok t /\ ix_new 2 [2; 3] = Ok ix /\ est_kit_new ix = Ok k /\
  mfold (est_round t) [([1; 2], Zero); ([0; 1], One); ([1; 2], One)] (k, []) = Ok (k', predictions) /\ exists e p s, private_estimator t [Zero] = Ok e /\ de_prediction e = Ok p /\ nth_error predictions 2 = Some (p, s).
Proof. exact slots_used. Qed.
Example one_mixer : exists t ix k k' r1 r2, luts_new = Ok t /\ ix_new 2 [2; 3] = Ok ix /\ mixer_kit_new (fixed_mixer_new 1 10 DominantFirst) ix = Ok k /\
  mfold (mixer_round t) [(([1], [2]), mkLesson [(0, (2 ^ 30, 0))] Zero 300); (([1; 2], []), mkLesson [(0, (2 ^ 30, 0))] One 300)] (k, []) = Ok (k', [r1; r2]).
Proof. exact mixer_used. Qed.

(** C49. After any rounds of the chain there are predictions of all orders, the last of which are its results, such that each order is what its own kits learnt:
    its estimators the bits it was told by count and unfinished byte or by last run, its mixers the result of the order below, the inputs of its state and its estimator, and these bits. *)
Theorem C49_orders_learn_apart : forall t max_order kits rounds kits' results, chain_new t max_order = Ok kits -> mfold (chain_round t) rounds (kits, []) = Ok (kits', results) ->
  exists rows, rows_fit rounds rows /\ results = map (fun row => last row (2 ^ 30, 0)) rows /\ zlen kits' = zlen kits /\
    forall o k, znth kits' o = Some k -> order_learnt t o (List.combine rounds rows) k.
Proof. exact (fun t n kits rounds kits' results CN => chain_learns t n kits CN rounds kits' results). Qed.
Print Assumptions C49_orders_learn_apart.
Example two_rounds : exists t kits kits' results, luts_new = Ok t /\ chain_new t 1 = Ok kits /\
  mfold (chain_round t) [([ForEdge 1 3 Zero; ForEdge 1 2 Zero], 97, One); ([ForEdge 7 1 One], 3, Zero)] (kits, []) = Ok (kits', results).
Proof. exact rounds_made. Qed.

(** C50. After any calls with as many updates as predictions, the chain was told the reports on the window before each bit with the unfinished byte and the bit,
    the four maps refined in the contexts of the last bytes, and the probabilities are the weighted means of what the maps said. *)
Theorem C50_parts_are_told_the_text : forall t max max_order uses p probabilities, luts_new = Ok t -> 0 < max <= 2 ^ 31 -> 0 <= max_order -> 8 * max_order + 7 < 2 ^ 16 -> zlen (told uses) < 2 ^ 47 - 1 ->
  use_all ModeLight t max max_order uses = Ok (p, probabilities) -> asked uses = zlen (told uses) -> wired t max max_order (told uses) p probabilities.
Proof. exact calls_wired. Qed.
Print Assumptions C50_parts_are_told_the_text.
(** With the parameters of the program, for any file. *)
Theorem C50_file : forall t bytes, luts_new = Ok t -> 8 * zlen bytes < 2 ^ 47 - 1 -> exists p probabilities,
  (let* p := predictor_new t in mfold (use_step ModeLight t) (uses_of bytes) (p, [])) = Ok (p, probabilities) /\ wired t 10000000 20 (bit_string bytes) p probabilities.
Proof. exact file_wired. Qed.
Print Assumptions C50_file.
Example contexts_of_maps : let text := bit_string [97; 98; 99] ++ [Zero; One; One] in
  map_context0 text = 11 /\ map_context1 text = (256 + 99) * 8 + 3 /\ map_context2 text = fold16 (fnv1a [98; 99; 11]) /\ map_context3 text = fold16 (fnv1a [97; 98; 99; 11]).
Proof. repeat split; reflexivity. Qed.
Example means : final_of 1000000 2000000 4000000 = 8789 /\ finals [0] [0] [0] = [1] /\ finals [2 ^ 31 - 1] [2 ^ 31 - 1] [2 ^ 31 - 1] = [2 ^ 23 - 1].
Proof. repeat split; reflexivity. Qed.
