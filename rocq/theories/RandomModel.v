(** Model of src/random/mod.rs.  The three functions that give f64 (117-130) are not modelled beyond the integer they divide. *)
From Verif Require Import Base.

(** mod.rs:18-21 MersenneTwister *)
Record twister : Type := mkTwister { mt_state : list Z; mt_index : Z }.
(** mod.rs:24-28 NN, MM, MATRIX_A, UM, LM *)
Definition nn : Z := 312.
Definition mm : Z := 156.
Definition matrix_a : Z := 0xB5026F5AA96619E9.
Definition um : Z := 0xFFFFFFFF80000000.
Definition lm : Z := 0x7FFFFFFF.
(** mod.rs:29 MAG01 *)
Definition mag01 : list Z := [0; matrix_a].

(** mod.rs:36, 51, 67: a ^ (a >> 62) *)
Definition folded (a : Z) : Z := Z.lxor a (Z.shiftr a 62).
(** mod.rs:34-38: the body of the loop *)
Definition seed_step (state : list Z) (index : Z) : res (list Z) :=
  let* last := get state (index - 1) in
  set state index (wrap u64 (wrap u64 (6364136223846793005 * folded last) + wrap u64 index)).
(** mod.rs:31-43 new_by_scalar_seed *)
Definition new_by_scalar_seed (seed : Z) : res twister :=
  let* state := set (repeat 0 (Z.to_nat nn)) 0 seed in
  let* state := mfold seed_step (zseq 1 (Z.to_nat (nn - 1))) state in
  Ok (mkTwister state nn).

(** mod.rs:55-60, 70-74: to the next word *)
Definition step_over (state : list Z) (i : Z) : res (list Z * Z) :=
  let* i := add usize i 1 in
  if nn <=? i then
    let* last := get state (nn - 1) in
    let* state := set state 0 last in
    Ok (state, 1)
  else Ok (state, i).
(** mod.rs:49-64: the body of the first loop *)
Definition key_step (init_key : list Z) (st : list Z * Z * Z) (_pass : Z) : res (list Z * Z * Z) :=
  let '(state, i, j) := st in
  let* old := get state i in
  let* last := get state (i - 1) in
  let* key := get init_key j in
  let* state := set state i (wrap u64 (wrap u64 (Z.lxor old (wrap u64 (folded last * 3935559000370003845)) + key) + wrap u64 j)) in
  let* r := step_over state i in
  let* j := add usize j 1 in
  let j := if zlen init_key <=? j then 0 else j in
  Ok (fst r, snd r, j).
(** mod.rs:65-75: the body of the second loop *)
Definition blend_step (st : list Z * Z) (_pass : Z) : res (list Z * Z) :=
  let '(state, i) := st in
  let* old := get state i in
  let* last := get state (i - 1) in
  let* state := set state i (wrap u64 (Z.lxor old (wrap u64 (folded last * 2862933555777941757)) - wrap u64 i)) in
  step_over state i.
(** mod.rs:45-78 new_by_vector_seed *)
Definition new_by_vector_seed (init_key : list Z) : res twister :=
  let* mt := new_by_scalar_seed 19650218 in
  let* st := mfold (key_step init_key) (zseq 0 (Z.to_nat (Z.max nn (zlen init_key)))) (mt_state mt, 1, 0) in
  let '(state, i, _) := st in
  let* st := mfold blend_step (zseq 1 (Z.to_nat (nn - 1))) (state, i) in
  let* state := set (fst st) 0 (2 ^ 63) in
  Ok (mkTwister state (mt_index mt)).

(** mod.rs:87-89, 92-94, 96-99: the word at [i] renewed from the words at [i], [next] and [far] *)
Definition renew (state : list Z) (i next far : Z) : res (list Z) :=
  let* a := get state i in
  let* b := get state next in
  let x := Z.lor (Z.land a um) (Z.land b lm) in
  let* c := get state far in
  let* m := get mag01 (Z.land x 1) in
  set state i (Z.lxor (Z.lxor c (Z.shiftr x 1)) m).
(** mod.rs:105-108: tempering *)
Definition tempered (x : Z) : Z :=
  let x := Z.lxor x (Z.land (Z.shiftr x 29) 0x5555555555555555) in
  let x := Z.lxor x (Z.land (wrap u64 (Z.shiftl x 17)) 0x71D67FFFEDA60000) in
  let x := Z.lxor x (Z.land (wrap u64 (Z.shiftl x 37)) 0xFFF7EEE000000000) in
  Z.lxor x (Z.shiftr x 43).
(** mod.rs:81-110 next_int64 *)
Definition next_int64 (mt : twister) : res (Z * twister) :=
  assert_ (mt_index mt <=? nn) ;;
  let* mt := if mt_index mt =? nn then
               let* state := mfold (fun state i => renew state i (i + 1) (i + mm)) (zseq 0 (Z.to_nat (nn - mm))) (mt_state mt) in
               let* state := mfold (fun state i => renew state i (i + 1) (i + mm - nn)) (zseq (nn - mm) (Z.to_nat (mm - 1))) state in
               let* state := renew state (nn - 1) 0 (mm - 1) in
               Ok (mkTwister state 0)
             else Ok mt in
  let* x := get (mt_state mt) (mt_index mt) in
  let* index := add usize (mt_index mt) 1 in
  Ok (tempered x, mkTwister (mt_state mt) index).
(** mod.rs:113-115 next_int63 *)
Definition next_int63 (mt : twister) : res (Z * twister) :=
  let* r := next_int64 mt in Ok (wrap i64 (Z.shiftr (fst r) 1), snd r).
(** mod.rs:133-137 Default *)
Definition twister_default : res twister := new_by_scalar_seed 5489.
(** mod.rs:81-110: so many numbers one after another *)
Fixpoint outputs (n : nat) (mt : twister) : res (list Z) :=
  match n with
  | O => Ok []
  | S n => let* r := next_int64 mt in let* rest := outputs n (snd r) in Ok (fst r :: rest)
  end.
