(** Property C60: learning a bit never makes the answer to the same question worse. *)
From Coq Require Import Lia.
From Verif Require Import Base LutModel ApmModel ApmSpec MixerModel MixerSpec LearnSpec LearnProofs.

(** A mixer in any reachable state is given inputs and mixes them, learns a bit, is given the same inputs and mixes them again, in protocol order.
    The second stretched answer is not farther from the bit than the first; the probability not by more than one unit. *)
Theorem C60_mixer : forall squash_lut rates size index mode m calls inputs b p mx,
  tables_for squash_lut rates -> makes size index mode m ->
  Forall sane (calls ++ ask_learn_ask inputs b p mx) -> Forall is_input inputs ->
  follows size [] index (calls ++ ask_learn_ask inputs b p mx) = true ->
  exists m' results r1 r2, perform_all squash_lut rates (calls ++ ask_learn_ask inputs b p mx) m = Ok (m', results ++ [r1; r2]) /\
  no_worse b 0 (snd r1) (snd r2) /\ no_worse b 1 (fst r1) (fst r2).
Proof. exact mixer_improves. Qed.
Print Assumptions C60_mixer.

(** The unit is needed: a new mixer of one input that is told its own answer was right lowers that answer. *)
Theorem C60_mixer_exact_refuted : exists squash_lut rates m m' p1 s1 p2 s2,
  tables_for squash_lut rates /\ makes 1 100 DominantFirst m /\ Forall sane (ask_learn_ask dip_inputs Zero p1 1000) /\
  perform_all squash_lut rates (ask_learn_ask dip_inputs Zero p1 1000) m = Ok (m', [(p1, s1); (p2, s2)]) /\ s1 <= s2 /\ p2 < p1.
Proof. exact one_unit_worse. Qed.
Print Assumptions C60_mixer_exact_refuted.

(** A probability map in any reachable state refines a probability, learns a bit and refines the same probability again: the
    second answer is not farther from the bit than the first. *)
Theorem C60_map : forall st sq b c al a0 a us, stretch_new = Ok st -> squash_new st = Ok sq -> 0 <= b <= 2 -> 0 <= c ->
  c * (1 + 24 * 2 ^ b) < 2 ^ 64 -> apm_lut_new b sq = Ok al -> apm_new c b sq = Ok a0 ->
  Forall (fair_use st sq c) us -> apm_run al us a0 = Ok a ->
  forall u, fair_use st sq c u ->
  exists a1 r1 a2 a3 r2, refine a (u_context u) (u_p u) (u_s u) al = Ok (a1, r1) /\
  update_predictions a1 (u_context u) (u_bit u) (u_rate u) (u_fixed u) = Ok a2 /\
  refine a2 (u_context u) (u_p u) (u_s u) al = Ok (a3, r2) /\ no_worse (u_bit u) 0 r1 r2.
Proof. exact map_learns. Qed.
Print Assumptions C60_map.

(** Two inputs asked twice, in protocol order: the hypotheses of C60_mixer are met. *)
Example asked_twice : let inputs := [SetInput 1 (3 * 2 ^ 29) 2303957; SetInput 0 (2 ^ 29) (-2303957)] in
  Forall is_input inputs /\ Forall sane (ask_learn_ask inputs One (2 ^ 29) 300) /\ follows 2 [] 10 (ask_learn_ask inputs One (2 ^ 29) 300) = true.
Proof. cbv zeta. repeat split; repeat constructor; cbn; lia. Qed.
Example better_and_worse : no_worse Zero 0 10 11 /\ ~ no_worse Zero 0 10 9 /\ no_worse One 0 10 9 /\ ~ no_worse One 1 10 12.
Proof. unfold no_worse, Zero, One. lia. Qed.
