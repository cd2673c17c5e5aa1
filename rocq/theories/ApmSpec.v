(** What the callers of the probability map hand over, and histories of its use. *)
From Verif Require Import Base FixedModel LutModel ApmModel.

(** A probability and a stretched value that belong together: one was computed from the other. *)
Definition probability_pair (stretch_lut : list (list Z)) (squash_lut : list Z) (p s : Z) : Prop :=
  (0 < p < 2 ^ 31 /\ stretch stretch_lut p = Ok s) \/ (- (12 * 2 ^ 21) <= s <= 12 * 2 ^ 21 /\ squash squash_lut s = Ok p).

(** One use of the map: a prediction is refined in a context, then the bit is learnt in that context. *)
Record apm_use : Type := mkUse { u_context : Z; u_p : Z; u_s : Z; u_bit : bit; u_rate : Z; u_fixed : bool }.
Definition apm_step (lut : apm_lut) (a : apm) (u : apm_use) : res apm :=
  let* r := refine a (u_context u) (u_p u) (u_s u) lut in
  update_predictions (fst r) (u_context u) (u_bit u) (u_rate u) (u_fixed u).
Definition apm_run (lut : apm_lut) (us : list apm_use) (a : apm) : res apm := mfold (apm_step lut) us a.

(** [x] is the integer nearest to [num / 2^31], halves up. *)
Definition nearest31 (num x : Z) : Prop := 2 * num - 2 ^ 31 < 2 * (x * 2 ^ 31) <= 2 * num + 2 ^ 31.

(** Uses the callers can make of a map with [contexts] contexts; the program's own rate is 5. *)
Definition fair_use (stretch_lut : list (list Z)) (squash_lut : list Z) (contexts : Z) (u : apm_use) : Prop :=
  0 <= u_context u < contexts /\ probability_pair stretch_lut squash_lut (u_p u) (u_s u) /\ 2 <= u_rate u < 30.

(** A probability of Zero, [e], becomes [e'] after seeing [b]: it moves towards the bit by the nearest value to [weight] times
    the distance shifted right by [rate]. *)
Definition learns (b : bit) (rate weight e e' : Z) : Prop :=
  if b then e' <= e /\ nearest31 (weight * (e / 2 ^ rate)) (e - e')
  else e <= e' /\ nearest31 (weight * ((2 ^ 31 - e) / 2 ^ rate)) (e' - e).
