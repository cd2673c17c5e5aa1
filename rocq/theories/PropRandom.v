(** C44: the pseudo-random generator is MT19937-64. *)
From Verif Require Import Base RandomModel RandomSpec RandomProofs.

(** For every scalar seed the n-th output is the tempered (312+n)-th word of the recurrence that starts with the words of the seed. *)
Theorem C44_by_number : forall seed x n, 0 <= seed < 2 ^ 64 -> recurrent (scalar_words seed) x ->
  exists mt, new_by_scalar_seed seed = Ok mt /\ outputs n mt = Ok (map (fun k => temper (x (312 + k)%nat)) (seq 0 n)).
Proof. exact scalar_outputs. Qed.
Print Assumptions C44_by_number.
(** The same for every key that is not empty. *)
Theorem C44_by_key : forall key x n, key <> [] -> zlen key < 2 ^ 63 -> recurrent (key_words key) x ->
  exists mt, new_by_vector_seed key = Ok mt /\ outputs n mt = Ok (map (fun k => temper (x (312 + k)%nat)) (seq 0 n)).
Proof. exact key_outputs. Qed.
Print Assumptions C44_by_key.
(** There is exactly one such recurrence for given first words. *)
Theorem C44_recurrence_exists : forall first, length first = 312%nat ->
  recurrent first (sequence first) /\ forall x, recurrent first x -> forall k, x k = sequence first k.
Proof. exact one_recurrence. Qed.
Print Assumptions C44_recurrence_exists.
(** An empty key fails loudly. *)
Theorem C44_empty_key_fails : new_by_vector_seed [] = Fail EIndex.
Proof. exact empty_key. Qed.
Print Assumptions C44_empty_key_fails.
(** A generator made from a seed never panics, whatever was drawn before, and its numbers are in their advertised ranges. *)
Theorem C44_ranges : forall mt, produced mt ->
  exists x mt', next_int64 mt = Ok (x, mt') /\ 0 <= x < 2 ^ 64 /\ next_int63 mt = Ok (x / 2, mt') /\ 0 <= x / 2 <= 2 ^ 63 - 1.
Proof. exact never_fails. Qed.
Print Assumptions C44_ranges.

(** The model draws the numbers published for MT19937-64 (mt19937-64.out.txt, line 2). *)
Example published_numbers : (let* mt := new_by_vector_seed [0x12345; 0x23456; 0x34567; 0x45678] in outputs 2 mt) = Ok [7266447313870364031; 4946485549665804864].
Proof. vm_compute. reflexivity. Qed.
(** The default generator is among those made from a seed. *)
Example default_is_produced : exists mt, twister_default = Ok mt /\ produced mt.
Proof. unfold twister_default. apply scalar_produced. split; [discriminate|reflexivity]. Qed.
