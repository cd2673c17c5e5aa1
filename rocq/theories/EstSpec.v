(** What the estimators are supposed to do, independently of their representation. *)
From Verif Require Import Base.

(** Number of zeros of a history. *)
Definition zeros (h : list bit) : Z := zlen (filter negb h).

(** The probability of bit 0 that bit [b] asks for, in units of 2^-31. *)
Definition target (b : bit) : Z := if b then 0 else 2 ^ 31.

(** Moves from [x] towards the target of [b] without passing it. *)
Definition towards (b : bit) (x y : Z) : Prop :=
  if b then 0 < y <= x else x <= y < 2 ^ 31.

(** All bits complemented. *)
Definition complement (h : list bit) : list bit := map negb h.
