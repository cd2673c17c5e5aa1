(** Model of src/bin/bench_sigmoid.rs without the clock and the times it prints. *)
From Verif Require Import Base FixedModel LutModel StatesModel RandomModel.

(** bench_sigmoid.rs:78-87 generate_stretched_prob.  The function calls itself until a number is usable, at most [fuel] numbers are drawn here. *)
Fixpoint generate_stretched_prob (fuel : nat) (prng : twister) : res (Z * twister) :=
  match fuel with
  | O => Fail EFuel
  | S fuel =>
    let* r := next_int64 prng in
    let unscaled := wrap i32 (fst r) in
    let* low := shl i32 (-12) (32 - 5) in
    let* high := shl i32 12 (32 - 5) in
    if (unscaled <? low) || (high <? unscaled) then generate_stretched_prob fuel (snd r)
    else
      let fract_bits := f_frac stretched_d in
      let* raw := shr i32 unscaled (32 - 5 - fract_bits) in
      let* prob := fix_new stretched_d raw fract_bits in
      Ok (prob, snd r)
  end.
(** bench_sigmoid.rs:32-33: so many of them *)
Fixpoint generate_probs (fuel elems : nat) (prng : twister) : res (list Z) :=
  match elems with
  | O => Ok []
  | S elems => let* r := generate_stretched_prob fuel prng in let* rest := generate_probs fuel elems (snd r) in Ok (fst r :: rest)
  end.
(** bench_sigmoid.rs:36-41, 43-48 (with squash, u64) and 51-57 (with stretch, i64): the same sum over the list so many times *)
Definition sum_up (ty : ity) (f : Z -> res Z) (loops : nat) (probs : list Z) : res Z :=
  mfold (fun sum _ => mfold (fun sum prob => let* x := f prob in add ty sum x) probs sum) (zseq 0 loops) 0.
(** bench_sigmoid.rs:26-76 main: the checksums printed in lines 73 to 75; its constants (27-29), tables (30) and generator (31) are arguments. *)
Definition bench (fuel elems warm_up_loops loops : nat) (t : luts) (prng : twister) : res (Z * Z * Z) :=
  let* stretched_probs := generate_probs fuel elems prng in
  let* squashed_probs := mmap (squash (lt_squash t)) stretched_probs in
  let* sum_warmup := sum_up u64 (squash (lt_squash t)) warm_up_loops stretched_probs in
  let* sum_squash := sum_up u64 (squash (lt_squash t)) loops stretched_probs in
  let* sum_stretch := sum_up i64 (stretch (lt_stretch t)) loops squashed_probs in
  Ok (sum_warmup, sum_squash, sum_stretch).
(** bench_sigmoid.rs:26-31: the program itself *)
Definition bench_sigmoid (fuel : nat) : res (Z * Z * Z) :=
  let* t := luts_new in
  let* prng := twister_default in
  bench fuel (Z.to_nat 1000) (Z.to_nat 10000) (Z.to_nat 10000) t prng.
