(** The information content of bits with predicted probabilities. *)
From Coq Require Import Reals.
From Verif Require Import Base LogSpec WindowSpec StatesModel TreeSpec PredModel PredSpec.
Local Open Scope R_scope.

(** The probability that was given to the bit that came, in units of 2^-23 ([p] is that of zero), and its information content in bits. *)
Definition units (x : bit * Z) : Z := if fst x then (2 ^ 23 - snd x)%Z else snd x.
Definition info (x : bit * Z) : R := - log2R (IZR (units x) / 2 ^ 23).
Definition rsum (l : list R) : R := fold_right Rplus 0 l.
Definition information (trace : list (bit * Z)) : R := rsum (map info trace).
(** The bits of a trace for which some context was met. *)
Fixpoint met_bits (max max_order : Z) (before : list bit) (trace : list (bit * Z)) : list (bit * Z) :=
  match trace with
  | [] => []
  | x :: rest => (if (0 <? met max_order (in_window max before))%Z then [x] else []) ++ met_bits max max_order (before ++ [fst x]) rest
  end.
(** The sum of the estimated costs of all bits, in units of 2^-11 bits. *)
Definition estimated (t : luts) (trace : list (bit * Z)) : Z := zsum (map (fun x => cost_of t (snd x) (fst x)) trace).
(** At most this much is lost on a bit by rounding the interval of the coder: one bit for a probability of one unit. *)
Definition loss (x : bit * Z) : R := if (units x =? 1)%Z then 1 else log2R (IZR (units x) / IZR (units x - 1)).
Definition gain (x : bit * Z) : R := log2R (IZR (units x + 1) / IZR (units x)).
(** The number of bits that came with a probability below 2^-12. *)
Definition surprises (trace : list (bit * Z)) : Z := zlen (filter (fun x => units x <? 2 ^ 11)%Z trace).
