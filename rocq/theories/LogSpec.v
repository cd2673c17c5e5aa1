(** Base-2 logarithm as a real number, and the replay of a context's bits. *)
From Coq Require Import Reals.
From Verif Require Import Base EstModel LogModel.
Definition log2R (x : R) : R := (ln x / ln 2)%R.

(** One bit seen in a context: the tracker is charged with the estimator's prediction, then the estimator learns. *)
Definition cost_step (lut rates : list Z) (st : Z * Z) (b : bit) : res (Z * Z) :=
  let '(tracker, estimator) := st in
  let* prediction := de_prediction estimator in
  let* tracker' := cost_updated_on_bit lut tracker prediction b in
  let* estimator' := de_update rates estimator b in
  Ok (tracker', estimator').
