(** C51: how close stretch and squash are to ln (p / (1 - p)) and 1 / (1 + exp (-s)). Probabilities have 31 fractional bits, stretched values 21. *)
From Coq Require Import Reals.
From Verif Require Import Base LutModel LutReal.
Local Open Scope R_scope.

(** Each entry of the stretch table is that close to the logarithm at its input that the comparison in the constructor (limit 0.000001) passes. *)
Theorem C51_table_entries : exists st, stretch_new = Ok st /\ forall level index, (0 <= level <= 7)%Z -> (0 <= index <= 511)%Z -> (level = 7 -> 1 <= index)%Z ->
  let p := IZR (if (level =? 7)%Z then index * 2 ^ 14 else 2 ^ (29 - level) + index * 2 ^ (20 - level)) / 2 ^ 31 in
  exists e, get2 st level index = Ok e /\ Rabs (IZR e / 2 ^ 21 - ln (p / (1 - p))) < 0.0000004.
Proof. exact entries_accurate. Qed.
Print Assumptions C51_table_entries.

(** Between 2^-8 and 1 - 2^-8. *)
Theorem C51_stretch : exists st, stretch_new = Ok st /\ forall p, (2 ^ 23 <= p <= 2 ^ 31 - 2 ^ 23)%Z ->
  exists s, stretch st p = Ok s /\ Rabs (IZR s / 2 ^ 21 - ln (IZR p / 2 ^ 31 / (1 - IZR p / 2 ^ 31))) < 0.0000013.
Proof. exact stretch_accurate. Qed.
Print Assumptions C51_stretch.
(** Further out, down to 2^-17, the error grows with the square of the distance of the entries. *)
Theorem C51_stretch_outside : exists st, stretch_new = Ok st /\ forall p, (2 ^ 14 <= p < 2 ^ 23)%Z ->
  let bound := 0.0000008 + 1 / (8 * IZR (p / 2 ^ 14) * IZR (p / 2 ^ 14)) in
  exists s, stretch st p = Ok s /\ Rabs (IZR s / 2 ^ 21 - ln (IZR p / 2 ^ 31 / (1 - IZR p / 2 ^ 31))) < bound /\
    stretch st (2 ^ 31 - p) = Ok (- s)%Z /\ Rabs (IZR (- s) / 2 ^ 21 - ln (IZR (2 ^ 31 - p) / 2 ^ 31 / (1 - IZR (2 ^ 31 - p) / 2 ^ 31))) < bound.
Proof. exact stretch_accurate_outside. Qed.
Print Assumptions C51_stretch_outside.
(** At the ends stretch is flat: ln (p / (1 - p)) is missed by more than 9. *)
Theorem C51_stretch_everywhere_refuted : exists st s, stretch_new = Ok st /\ stretch st 1 = Ok s /\ IZR s / 2 ^ 21 - ln (1 / 2 ^ 31 / (1 - 1 / 2 ^ 31)) > 9.
Proof. exact stretch_flat_end. Qed.
Print Assumptions C51_stretch_everywhere_refuted.

(** squash everywhere. *)
Theorem C51_squash : exists st sq, stretch_new = Ok st /\ squash_new st = Ok sq /\ forall s, (- (12 * 2 ^ 21) <= s <= 12 * 2 ^ 21)%Z ->
  exists p, squash sq s = Ok p /\ Rabs (IZR p / 2 ^ 31 - 1 / (1 + exp (- (IZR s / 2 ^ 21)))) < 0.000003.
Proof. exact squash_accurate. Qed.
Print Assumptions C51_squash.

(** Cases within the hypotheses: p = 1/4 in the middle, p = 3/2^17 outside, s = 12 at the end. *)
Example C51_cases : (2 ^ 23 <= 2 ^ 29 <= 2 ^ 31 - 2 ^ 23)%Z /\ (2 ^ 14 <= 3 * 2 ^ 14 < 2 ^ 23)%Z /\ (- (12 * 2 ^ 21) <= 12 * 2 ^ 21 <= 12 * 2 ^ 21)%Z.
Proof. repeat split; discriminate || reflexivity. Qed.
Example C51_values : exists st sq, stretch_new = Ok st /\ squash_new st = Ok sq /\ stretch st (2 ^ 29) = Ok (-2303957)%Z /\ squash sq (2 ^ 21) = Ok 1569936383%Z.
Proof. exact table_values. Qed.
