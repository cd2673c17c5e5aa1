(** C63: the sigmoid benchmark (src/bin/bench_sigmoid.rs) without its clock. Stretched values have 21 fractional bits. *)
From Verif Require Import Base LutModel StatesModel StatesProofs RandomModel BenchModel BenchSpec BenchProofs.

(** Of any generator: a draw takes the first number whose low 32 bits, signed and with 27 fractional bits, lie between -12 and 12, and leaves the generator behind it. *)
Theorem C63_draw : forall skipped x fuel mt, outputs (S (length skipped)) mt = Ok (skipped ++ [x]) ->
  forallb (fun y => negb (usable y)) skipped = true -> usable x = true -> (length skipped < fuel)%nat ->
  - (12 * 2 ^ 21) <= low_signed x / 2 ^ 6 <= 12 * 2 ^ 21 /\
  exists mt', generate_stretched_prob fuel mt = Ok (low_signed x / 2 ^ 6, mt') /\ forall n ys, outputs n mt' = Ok ys -> outputs (S (length skipped) + n) mt = Ok ((skipped ++ [x]) ++ ys).
Proof. exact draw_ok. Qed.
Print Assumptions C63_draw.
(** It goes on as long as there is none. *)
Theorem C63_draw_goes_on : forall fuel mt xs, outputs fuel mt = Ok xs -> forallb (fun y => negb (usable y)) xs = true -> generate_stretched_prob fuel mt = Fail EFuel.
Proof. exact draw_none. Qed.
Print Assumptions C63_draw_goes_on.

(** With up to 2^33 steps in a loop nothing overflows or panics, and the three check sums are so many times the sums of squash over the drawn values
    and of stretch over those. *)
Theorem C63_check_sums : forall fuel elems warm loops t mt n xs, luts_new = Ok t ->
  outputs n mt = Ok xs -> (elems <= length (drawn xs))%nat -> (n <= fuel)%nat -> Z.of_nat elems * Z.of_nat warm <= 2 ^ 33 -> Z.of_nat elems * Z.of_nat loops <= 2 ^ 33 ->
  exists ps ss, mmap (squash (lt_squash t)) (firstn elems (drawn xs)) = Ok ps /\ mmap (stretch (lt_stretch t)) ps = Ok ss /\
    bench fuel elems warm loops t mt = Ok (Z.of_nat warm * total ps, Z.of_nat loops * total ps, Z.of_nat loops * total ss).
Proof. exact sums. Qed.
Print Assumptions C63_check_sums.

(** The program itself ends, after 1325 numbers at most, and prints these check sums. *)
Theorem C63_program : forall fuel, (1325 <= fuel)%nat -> bench_sigmoid fuel = Ok (10699864371220000, 10699864371220000, -4197659520000).
Proof. exact program_sums. Qed.
Print Assumptions C63_program.

(** A generator whose first two numbers are not usable. *)
Example C63_skips : exists mt x y z, new_by_scalar_seed 3 = Ok mt /\ outputs 3 mt = Ok [x; y; z] /\ map usable [x; y; z] = [false; false; true] /\ drawn [x; y; z] = [7066967] /\
  exists mt', generate_stretched_prob 3 mt = Ok (7066967, mt').
Proof.
  assert (H : match new_by_scalar_seed 3 with Ok mt => match outputs 3 mt with Ok [x; y; z] => (x =? 10307413207671831467) && (y =? 3611203882987592167) && (z =? 10888029678232491475) | _ => false end | _ => false end = true) by (vm_compute; reflexivity).
  destruct (new_by_scalar_seed 3) as [mt|]; [|discriminate]. destruct (outputs 3 mt) as [[|x [|y [|z [|]]]]|] eqn:O; try discriminate.
  apply andb_prop in H. destruct H as [H Z3]. apply andb_prop in H. destruct H as [Z1 Z2]. apply Z.eqb_eq in Z1, Z2, Z3. exists mt, x, y, z. subst. repeat (split; [reflexivity || exact O|]).
  destruct (draw_ok [10307413207671831467; 3611203882987592167] 10888029678232491475 3 mt O eq_refl eq_refl (le_n 3)) as (_ & mt' & G & _). exists mt'. exact G.
Qed.
(** The tables exist. *)
Example C63_tables : exists t, luts_new = Ok t. Proof. exact tables_built. Qed.
