(** What rounding is supposed to mean, independently of the code. *)
From Verif Require Import Base.

(** [q] is [n / d] rounded to nearest, ties away from zero. *)
Definition nearest_away (n d q : Z) : Prop :=
  2 * Z.abs (q * d - n) <= d /\ (2 * Z.abs (q * d - n) = d -> Z.abs n < Z.abs q * d).

(** [q] is less than one unit from [n / d], on the side of zero. *)
Definition cut_towards_zero (n d q : Z) : Prop := Z.abs (n - q * d) < d /\ Z.abs q * d <= Z.abs n.

(** What a narrowing conversion promises for a value [n] held in a type with maximum [mx]:
    nearest with ties away from zero unless adding half a unit leaves the type; never more than
    one unit off. *)
Definition rounds (mx n d q : Z) : Prop :=
  (Z.abs n + d / 2 <= mx -> nearest_away n d q) /\ Z.abs (n - q * d) <= d.
