(** What the sigmoid benchmark draws from a sequence of 64-bit numbers. *)
From Verif Require Import Base.

(** The low half of a number, with a sign. *)
Definition low_signed (x : Z) : Z := if x mod 2 ^ 32 <? 2 ^ 31 then x mod 2 ^ 32 else x mod 2 ^ 32 - 2 ^ 32.
(** Read with 27 fractional bits it has to lie between -12 and 12. *)
Definition usable (x : Z) : bool := Z.abs (low_signed x) <=? 12 * 2 ^ 27.
(** Six of the fractional bits are dropped. *)
Definition drawn (numbers : list Z) : list Z := map (fun x => low_signed x / 2 ^ 6) (filter usable numbers).
Fixpoint total (l : list Z) : Z := match l with [] => 0 | x :: r => x + total r end.
