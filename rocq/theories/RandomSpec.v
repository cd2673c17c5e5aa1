(** MT19937-64 as a sequence of words. *)
From Verif Require Import Base.

(** The words before the first output, from a scalar seed. *)
Definition xor_high (a : Z) : Z := Z.lxor a (a / 2 ^ 62).
Fixpoint seed_word (seed : Z) (n : nat) : Z :=
  match n with O => seed | S k => (6364136223846793005 * xor_high (seed_word seed k) + Z.of_nat n) mod 2 ^ 64 end.
Definition scalar_words (seed : Z) : list Z := map (seed_word seed) (seq 0 312).

(** From a key: a longer and longer sequence that starts with the words of the seed 19650218. Each new word is made from the word 311 places before and from
    the last one, except that the first new word takes the very first one for the last. *)
Definition absorb (factor : Z) (extra : nat -> Z) (q : list Z) : list Z :=
  let k := (length q - 312)%nat in
  let last := match k with O => hd 0 q | S _ => last q 0 end in
  q ++ [(Z.lxor (nth (k + 1) q 0) ((factor * xor_high last) mod 2 ^ 64) + extra k) mod 2 ^ 64].
Definition key_extra (key : list Z) (k : nat) : Z := nth (k mod length key) key 0 + Z.of_nat (k mod length key).
Definition blend_extra (k : nat) : Z := - Z.of_nat (1 + k mod 311).
Definition key_sequence (key : list Z) : list Z :=
  Nat.iter 311 (absorb 2862933555777941757 blend_extra) (Nat.iter (max 312 (length key)) (absorb 3935559000370003845 (key_extra key)) (scalar_words 19650218)).
(** The last 311 of them, each at its place 1 + k mod 311, after a word with only the top bit set. *)
Definition key_words (key : list Z) : list Z :=
  let rounds := Z.of_nat (max 312 (length key)) in
  let words := key_sequence key in
  2 ^ 63 :: map (fun i => nth (Z.to_nat (312 + rounds + (i - 1 - rounds) mod 311)) words 0) (zseq 1 311).

(** The recurrence: a sequence [x] with given first 312 words. *)
Definition twist (a b : Z) : Z :=
  let y := a / 2 ^ 31 * 2 ^ 31 + b mod 2 ^ 31 in
  Z.lxor (y / 2) (if Z.odd y then 0xB5026F5AA96619E9 else 0).
Definition recurrent (first : list Z) (x : nat -> Z) : Prop :=
  (forall k, (k < 312)%nat -> x k = nth k first 0) /\ forall k, x (k + 312)%nat = Z.lxor (x (k + 156)%nat) (twist (x k) (x (k + 1)%nat)).
(** Tempering, on words of 64 bits. *)
Definition temper (x : Z) : Z :=
  let x := Z.lxor x (Z.land (x / 2 ^ 29) 0x5555555555555555) in
  let x := Z.lxor x (Z.land (x * 2 ^ 17) 0x71D67FFFEDA60000) in
  let x := Z.lxor x (Z.land (x * 2 ^ 37) 0xFFF7EEE000000000) in
  Z.lxor x (x / 2 ^ 43).
(** Such a sequence, by keeping its last 312 words. *)
Definition slide (l : list Z) : list Z := tl l ++ [Z.lxor (nth 156 l 0) (twist (nth 0 l 0) (nth 1 l 0))].
Definition sequence (first : list Z) (k : nat) : Z := nth 0 (Nat.iter k slide first) 0.
