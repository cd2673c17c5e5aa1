(** Coding as a stream: how many bytes an event needs, on the range alone. *)
From Verif Require Import Base CodingModel.

(** Factors of 256 that bring a range of 1 .. 2^31 - 1 up to 2^23 or more. *)
Definition shifts_needed (range : Z) : Z :=
  if range <? 2 ^ 7 then 3 else if range <? 2 ^ 15 then 2 else if range <? 2 ^ 23 then 1 else 0.
(** The part of a range an outcome keeps. *)
Definition part_kept (e : event) (range : Z) : Z :=
  match e with
  | EvBit p v => let zero := range * p / 2 ^ 23 in if v then range - zero else zero
  | EvRare h => if h then 1 else range - 1
  end.
(** Bytes shifted out for [evs], starting with the range [range]. *)
Fixpoint bytes_shifted (range : Z) (evs : list event) : Z :=
  match evs with
  | [] => 0
  | e :: rest => let k := shifts_needed range in k + bytes_shifted (part_kept e (range * 256 ^ k)) rest
  end.
(** Bytes a decoder has read when it has returned [evs]. *)
Definition bytes_needed (evs : list event) : Z := 4 + bytes_shifted (2 ^ 31 - 1) evs.
