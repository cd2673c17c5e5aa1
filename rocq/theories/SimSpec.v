(** What bits cost that are predicted by an estimator, and what they cost with one fixed probability. *)
From Coq Require Import Reals.
From Verif Require Import Base EstModel EstSpec LogSpec CostSpec.

(** The bits in runs of [n], the last one possibly shorter. *)
Fixpoint cut (fuel : nat) (n : Z) (bits : list bit) : list (list bit) :=
  match fuel, bits with
  | S fuel, _ :: _ => firstn (Z.to_nat n) bits :: cut fuel n (skipn (Z.to_nat n) bits)
  | _, _ => []
  end.
Definition in_runs (n : Z) (bits : list bit) : list (list bit) := cut (length bits) n bits.
(** The probability of zero, in units of 2^-23, that a new estimator gives after the bits [h]. *)
Definition predicted_after (rates : list Z) (h : list bit) : Z :=
  match (let* s0 := de_new in let* s := mfold (de_update rates) h s0 in de_prediction s) with Ok p => p / 2 ^ 8 | Fail _ => 0 end.
(** Each bit of a run with the probability given before it. *)
Fixpoint predicted (rates : list Z) (before rest : list bit) : list (bit * Z) :=
  match rest with [] => [] | b :: rest => (b, predicted_after rates before) :: predicted rates (before ++ [b]) rest end.

Local Open Scope R_scope.
(** The cost in bits with the fixed probability [q] of zero. *)
Definition fixed_cost (q : R) (h : list bit) : R := IZR (zeros h) * - log2R q + IZR (zlen h - zeros h) * - log2R (1 - q).
(** The cost in bits with an estimator that starts anew in each run. *)
Definition adaptive_cost (rates : list Z) (n : Z) (bits : list bit) : R := rsum (map (fun run => information (predicted rates [] run)) (in_runs n bits)).
