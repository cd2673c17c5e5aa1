(** Properties C33, C34 and C35: the stretch and squash tables. Probabilities have 31 fractional bits, stretched
    values 21. *)
From Verif Require Import Base BaseFacts LutModel LutTable LutProofs LutRound.

(** C33: exactly odd, bounded by 12, sign of the argument relative to one half; loud failure at 0. *)
Theorem C33_odd_bounded : exists st, stretch_new = Ok st /\ stretch st 0 = Fail EAssert /\
  forall p, 0 < p < 2 ^ 31 -> exists s, stretch st p = Ok s /\ stretch st (2 ^ 31 - p) = Ok (- s) /\
    - (12 * 2 ^ 21) < s < 12 * 2 ^ 21 /\ (p < 2 ^ 30 -> s <= 0) /\ (2 ^ 30 < p -> 0 <= s).
Proof. exact stretch_odd_bounded. Qed.
Print Assumptions C33_odd_bounded.

(** Monotone up to one unit in the last place (2^-21). *)
Theorem C33_monotone_to_one_unit : exists st, stretch_new = Ok st /\ forall p q, 0 < p <= q -> q < 2 ^ 31 ->
  exists s t, stretch st p = Ok s /\ stretch st q = Ok t /\ s <= t + 1.
Proof. exact stretch_monotone_unit. Qed.
Print Assumptions C33_monotone_to_one_unit.

(** The exact claim is false: the two interpolation terms are rounded separately. *)
Theorem C33_monotone_refuted : exists st p q s t, stretch_new = Ok st /\ 0 < p < q /\ q < 2 ^ 31 /\
  stretch st p = Ok s /\ stretch st q = Ok t /\ t < s.
Proof. exact stretch_not_monotone. Qed.
Print Assumptions C33_monotone_refuted.

(** p = 1/4: ln(1/3) = -1.0986 is -2303956.8 units. *)
Example C33_case : exists st, stretch_new = Ok st /\ stretch st (2 ^ 29) = Ok (-2303957) /\ stretch st (3 * 2 ^ 29) = Ok 2303957.
Proof.
  destruct stretch_new_ok as (st & E & H). exists st. apply (conj E). clear E.
  rewrite !(stretch_lean st _ H) by lia. split; vm_compute; reflexivity.
Qed.

(** C34 *)
Theorem C34_mirror_symmetric : exists st sq, stretch_new = Ok st /\ squash_new st = Ok sq /\
  forall s, - (12 * 2 ^ 21) <= s <= 12 * 2 ^ 21 ->
  exists p, squash sq s = Ok p /\ squash sq (- s) = Ok (2 ^ 31 - p) /\ 0 < p < 2 ^ 31.
Proof. exact squash_symmetric_inside. Qed.
Print Assumptions C34_mirror_symmetric.

(** Monotone up to one unit in the last place (2^-31). *)
Theorem C34_monotone_to_one_unit : exists st sq, stretch_new = Ok st /\ squash_new st = Ok sq /\
  forall s t, - (12 * 2 ^ 21) <= s <= t -> t <= 12 * 2 ^ 21 ->
  exists p q, squash sq s = Ok p /\ squash sq t = Ok q /\ p <= q + 1.
Proof. exact squash_monotone_unit. Qed.
Print Assumptions C34_monotone_to_one_unit.

Theorem C34_monotone_refuted : exists st sq s t p q, stretch_new = Ok st /\ squash_new st = Ok sq /\
  - (12 * 2 ^ 21) <= s < t /\ t <= 12 * 2 ^ 21 /\ squash sq s = Ok p /\ squash sq t = Ok q /\ q < p.
Proof. exact squash_not_monotone. Qed.
Print Assumptions C34_monotone_refuted.

(** squash(1) = 0.7310585 *)
Example C34_case : exists st sq, stretch_new = Ok st /\ squash_new st = Ok sq /\
  squash sq (2 ^ 21) = Ok 1569936383 /\ squash sq 0 = Ok (2 ^ 30) /\ squash sq (12 * 2 ^ 21) = Ok (2 ^ 31 - 2 ^ 14).
Proof.
  destruct tables_ok as (st & sq & E & E' & _ & H). exists st, sq. apply (conj E). apply (conj E'). clear E E'.
  rewrite !(squash_lean sq _ H) by lia. repeat split; vm_compute; reflexivity.
Qed.

(** C35: below 0.000001 on [2^-17, 1 - 2^-17], below 0.000008 everywhere. *)
Theorem C35_round_trip : exists st sq, stretch_new = Ok st /\ squash_new st = Ok sq /\
  forall p, 0 < p < 2 ^ 31 -> exists s q, stretch st p = Ok s /\ squash sq s = Ok q /\
    (2 ^ 14 <= p <= 2 ^ 31 - 2 ^ 14 -> 1000000 * Z.abs (q - p) < 2 ^ 31) /\ 1000000 * Z.abs (q - p) < 8 * 2 ^ 31.
Proof. exact squash_of_stretch. Qed.
Print Assumptions C35_round_trip.

(** The claim for every p is false: the smallest probability comes back 0.0000076 larger. *)
Theorem C35_everywhere_refuted : exists st sq s q, stretch_new = Ok st /\ squash_new st = Ok sq /\
  stretch st 1 = Ok s /\ squash sq s = Ok q /\ 7 * 2 ^ 31 < 1000000 * (q - 1).
Proof. exact squash_of_stretch_ends. Qed.
Print Assumptions C35_everywhere_refuted.

Example C35_case : exists st sq s q, stretch_new = Ok st /\ squash_new st = Ok sq /\
  stretch st (2 ^ 29) = Ok s /\ squash sq s = Ok q /\ s = -2303957 /\ q = 536872325.
Proof.
  destruct tables_ok as (st & sq & E & E' & H & H'). exists st, sq, (-2303957), 536872325.
  apply (conj E). apply (conj E'). clear E E'. rewrite !(stretch_lean st _ H) by lia. rewrite !(squash_lean sq _ H') by lia.
  repeat split; vm_compute; reflexivity.
Qed.
