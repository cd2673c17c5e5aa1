(** Independent descriptions of bit histories (lists in chronological order). *)
From Verif Require Import Base UtilSpec.

(** The last [n] elements. *)
Definition lastn {A : Type} (n : nat) (l : list A) : list A := skipn (length l - n) l.

(** Ones (or zeros) in a list. *)
Definition count_bit (b : bool) (l : list bool) : Z := zlen (filter (Bool.eqb b) l).

(** Run-length encoding, most recent run first. *)
Definition run_step (rs : list (bool * Z)) (b : bool) : list (bool * Z) :=
  match rs with
  | (c, n) :: r => if Bool.eqb b c then (c, n + 1) :: r else (b, 1) :: rs
  | [] => [(b, 1)]
  end.
Definition runs (h : list bool) : list (bool * Z) := fold_left run_step h [].
(** Length of the k-th run from the end (0 if there is none), capped. *)
Definition capped_run (k : nat) (h : list bool) : Z := Z.min 1000 (snd (nth k (runs h) (false, 0))).
