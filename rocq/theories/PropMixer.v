(** Properties C37, C38 and C39: the mixer. *)
From Coq Require Import Lia.
From Verif Require Import Base EstModel LutModel MixerModel MixerSpec MixerProofs.

(** The tables are built: the hypothesis [tables_for] below is met. *)
Theorem C37_tables_built : exists squash_lut rates, tables_for squash_lut rates.
Proof. exact tables_exist. Qed.
Print Assumptions C37_tables_built.

(** Every size and mode can be made, with the weights the mode promises. *)
Theorem C37_constructed : forall size index mode, 0 <= index <= 1000 ->
  (1 <= size <= 5 -> exists m, fixed_mixer_new size index mode = Ok m /\ zlen (weights m) = size /\ initial_weights size mode (weights m)) /\
  (0 <= size <= 30 -> (size = 0 -> mode = AllZero) ->
    exists m, mixer_n_new size index mode = Ok m /\ zlen (weights m) = size /\ initial_weights size mode (weights m)).
Proof. exact new_total. Qed.
Print Assumptions C37_constructed.

(** Except an empty mixer with a mode other than zero weights. *)
Theorem C37_empty_mixer_refuted : forall index, 0 <= index <= 1000 ->
  mixer_n_new 0 index DominantFirst = Fail EIndex /\ mixer_n_new 0 index EqualSummingToOne = Fail EAssert.
Proof. exact empty_mixer_fails. Qed.
Print Assumptions C37_empty_mixer_refuted.

(** No sequence of calls in protocol order panics; weights stay within [-8, 8]; mixed probabilities strictly inside (0, 1). *)
Theorem C37_never_panics : forall squash_lut rates size index mode m calls, tables_for squash_lut rates -> makes size index mode m ->
  Forall sane calls -> follows size [] index calls = true ->
  exists m' results, perform_all squash_lut rates calls m = Ok (m', results) /\ zlen (weights m') = size /\ weights_bounded m' /\
    Forall probability_inside results.
Proof. exact never_panics. Qed.
Print Assumptions C37_never_panics.

(** Mixing squashes the dot product of weights and inputs, clamped to [-12, 12]; the rounding error is half a unit and a bit. *)
Theorem C37_mixing_is_dot_product : forall squash_lut rates size index mode m calls m' results,
  tables_for squash_lut rates -> makes size index mode m -> Forall sane calls ->
  perform_all squash_lut rates calls m = Ok (m', results) -> all_set size (map fst (pending [] calls)) = true ->
  exists sq st, mix_all squash_lut m' = Ok (sq, st) /\ squash squash_lut st = Ok sq /\
    Z.abs (st * 2 ^ 21 - clamp (12 * 2 ^ 42) (dot m')) <= 2 ^ 20 + 2 * size.
Proof. exact mixing_is_dot. Qed.
Print Assumptions C37_mixing_is_dot_product.

(** An update adds (for a one: subtracts) half of input times error times the rate, clamped to [-8, 8], to within one unit,
    and never in the wrong direction. *)
Theorem C37_update_moves_weights : forall squash_lut rates size index mode m calls m' results b p mx m'',
  tables_for squash_lut rates -> makes size index mode m -> Forall sane calls -> 0 < p < 2 ^ 31 -> 0 <= mx < 2 ^ 16 ->
  perform_all squash_lut rates calls m = Ok (m', results) -> update_and_reset rates m' b p mx = Ok m'' ->
  exists rate, get rates (mx_index m') = Ok rate /\
  forall i w st, 0 <= i < size -> weight m' i = Ok w -> prediction_st m' i = Ok st -> exists w', weight m'' i = Ok w' /\
    let towards := if b then - st else st in let error := if b then p else 2 ^ 31 - p in
    Z.abs (2 ^ 63 * w' - clamp (8 * 2 ^ 84) (2 ^ 63 * w + towards * error * rate)) < 2 ^ 63 /\
    (0 <= towards -> w <= w') /\ (towards <= 0 -> w' <= w).
Proof. exact update_moves. Qed.
Print Assumptions C37_update_moves_weights.

(** The calls that succeed are exactly those in protocol order; the others stop at a failed assertion. *)
Theorem C38_protocol : forall squash_lut rates size index mode m calls, tables_for squash_lut rates -> makes size index mode m ->
  Forall sane calls ->
  (follows size [] index calls = true -> exists m' results, perform_all squash_lut rates calls m = Ok (m', results)) /\
  (follows size [] index calls = false -> perform_all squash_lut rates calls m = Fail EAssert).
Proof. exact protocol_exact. Qed.
Print Assumptions C38_protocol.

(** Inputs read back as set, and only if set since the last update. *)
Theorem C38_inputs_readable : forall squash_lut rates size index mode m calls m' results i,
  tables_for squash_lut rates -> makes size index mode m -> Forall sane calls ->
  perform_all squash_lut rates calls m = Ok (m', results) -> 0 <= i < 32 ->
  if member i (map fst (pending [] calls)) then
    exists sq st, In (i, (sq, st)) (pending [] calls) /\ prediction_sq m' i = Ok sq /\ prediction_st m' i = Ok st
  else prediction_sq m' i = Fail EAssert /\ prediction_st m' i = Fail EAssert.
Proof. exact inputs_readable. Qed.
Print Assumptions C38_inputs_readable.

(** New and updated mixers are [rested], the hypothesis of the two theorems on symmetry. *)
Theorem C39_rested_when_new : forall size index mode m, makes size index mode m -> rested size index m.
Proof. exact rested_new. Qed.
Print Assumptions C39_rested_when_new.
Theorem C39_rested_when_updated : forall squash_lut rates size index mode m calls b p mx m' results,
  tables_for squash_lut rates -> makes size index mode m -> Forall sane (calls ++ [Update b p mx]) ->
  perform_all squash_lut rates (calls ++ [Update b p mx]) m = Ok (m', results) -> exists index', rested size index' m'.
Proof. exact rested_after. Qed.
Print Assumptions C39_rested_when_updated.

(** Opposite weights, the same inputs and opposite bits: complementary probabilities and opposite weights, for ever. *)
Theorem C39_opposite_bits : forall squash_lut rates size index m1 m2 calls, tables_for squash_lut rates ->
  rested size index m1 -> rested size index m2 -> weights m2 = map Z.opp (weights m1) ->
  Forall sane calls -> follows size [] index calls = true ->
  exists m1' m2' results, perform_all squash_lut rates calls m1 = Ok (m1', results) /\
    perform_all squash_lut rates (map opposite_bit calls) m2 = Ok (m2', map complementary results) /\
    weights m2' = map Z.opp (weights m1').
Proof. exact opposite_bits. Qed.
Print Assumptions C39_opposite_bits.

(** Equal weights, complemented inputs and bits: complementary probabilities and equal weights. *)
Theorem C39_opposite_inputs_and_bits : forall squash_lut rates size index m1 m2 calls, tables_for squash_lut rates ->
  rested size index m1 -> rested size index m2 -> weights m2 = weights m1 ->
  Forall sane calls -> follows size [] index calls = true ->
  exists m1' m2' results, perform_all squash_lut rates calls m1 = Ok (m1', results) /\
    perform_all squash_lut rates (map opposite_all calls) m2 = Ok (m2', map complementary results) /\ weights m2' = weights m1'.
Proof. exact opposite_everything. Qed.
Print Assumptions C39_opposite_inputs_and_bits.

(** Two rounds with a mixer of two inputs. *)
Definition sample : list call :=
  [SetInput 0 (2 ^ 29) (-2303957); SetInput 1 (3 * 2 ^ 29) 2303957; MixAll; Update Zero (2 ^ 29) 300;
   SetInput 1 (2 ^ 30) 0; SetInput 0 (2 ^ 29) (-2303957); MixAll; Update One (2 ^ 29) 300].
Example sample_sane : Forall sane sample.
Proof. repeat constructor; cbn; lia. Qed.
Example sample_follows : follows 2 [] 10 sample = true.
Proof. reflexivity. Qed.
Example sample_made : exists m, makes 2 10 DominantFirst m /\ weights m = [2 ^ 21; 0].
Proof.
  exists (mkMixer [mkInput (2 ^ 21) (2 ^ 30) 0; neutral_input] 0 10). split; [|reflexivity]. left. repeat split; lia.
Qed.
Example out_of_order : follows 2 [] 10 [SetInput 0 (2 ^ 30) 0; MixAll] = false /\
  follows 2 [] 10 [SetInput 0 (2 ^ 30) 0; SetInput 0 (2 ^ 30) 0] = false /\
  follows 2 [] 10 [SetInput 0 (2 ^ 30) 0; SetInput 1 (2 ^ 30) 0; Update Zero (2 ^ 30) 9] = false /\
  follows 0 [] 10 [MixAll; Update Zero (2 ^ 30) 300; MixAll] = true.
Proof. repeat split. Qed.
(** One third three times is not quite one. *)
Example thirds : exists m, fixed_mixer_new 3 10 EqualSummingToOne = Ok m /\ weights m = [699050; 699050; 699050] /\ 3 * 699050 = 2 ^ 21 - 2.
Proof. eexists. split; [vm_compute; reflexivity|]. split; reflexivity. Qed.
