(** C56, C57: the simulations of src/bin/entropy_simulations.rs, and an estimator against a fixed probability. Total costs are in units of 2^-11 bits. *)
From Coq Require Import Reals Lra.
From Verif Require Import Base EstModel EstSpec LogSpec CostSpec SimModel SimSpec SimReal.
Local Open Scope R_scope.

(** A simulation ends, counts the zeros and adds up the information content of the bits, predicted by an estimator that starts anew in each run. *)
Theorem C56_simulation_total : forall factor addend n bits,
  (0 <= factor /\ 2 <= addend /\ 3 <= factor + addend /\ 1023 * factor + addend < 2 ^ 32)%Z -> (1 <= n)%Z -> (zlen bits < 2 ^ 32)%Z ->
  exists rates s, rates_make factor addend = Ok rates /\ simulate factor addend n bits = Ok s /\ sm_zeros s = zeros bits /\
    - (51 / 100) * IZR (zlen bits) <= IZR (sm_total_cost s) - 2048 * adaptive_cost rates n bits <= 2 * IZR (zlen bits).
Proof. exact simulation_accurate. Qed.
Print Assumptions C56_simulation_total.
(** What is learnt in a run is forgotten after it: the run and what follows it can be simulated apart. *)
Theorem C56_runs_are_independent : forall factor addend n run rest,
  (0 <= factor /\ 2 <= addend /\ 3 <= factor + addend /\ 1023 * factor + addend < 2 ^ 32)%Z -> (1 <= n)%Z -> zlen run = n -> (zlen (run ++ rest) < 2 ^ 32)%Z ->
  exists s1 s2 s, simulate factor addend n run = Ok s1 /\ simulate factor addend n rest = Ok s2 /\ simulate factor addend n (run ++ rest) = Ok s /\
    (sm_total_cost s = sm_total_cost s1 + sm_total_cost s2 /\ sm_zeros s = sm_zeros s1 + sm_zeros s2)%Z.
Proof. exact simulation_sum. Qed.
Print Assumptions C56_runs_are_independent.
(** Runs of no bits divide by zero. *)
Theorem C56_run_length_zero : forall factor addend b bits,
  (0 <= factor /\ 2 <= addend /\ 3 <= factor + addend /\ 1023 * factor + addend < 2 ^ 32)%Z -> simulate factor addend 0 (b :: bits) = Fail EDivZero.
Proof. exact simulation_zero. Qed.
Print Assumptions C56_run_length_zero.

(** The information content of up to 1002 bits, predicted by a new estimator with the default rates, exceeds that with the best fixed
    probability by at most half the logarithm of their number, one bit and a share for rounding, and does not fall below it but for rounding. *)
Theorem C57_estimator_against_fixed : forall rates h, rates_default = Ok rates -> (1 <= zlen h <= 1002)%Z ->
  (forall q, 0 < q < 1 -> information (predicted rates [] h) <= fixed_cost q h + 1 / 2 * log2R (IZR (zlen h)) + 1 + IZR (zlen h) * IZR (zlen h + 1) / 500000) /\
  fixed_cost (IZR (zeros h) / IZR (zlen h)) h <= information (predicted rates [] h) + IZR (zlen h) * IZR (zlen h + 1) / 500000.
Proof. exact run_regret. Qed.
Print Assumptions C57_estimator_against_fixed.
(** So the total of a simulation with these rates exceeds the cost with any fixed probability at most by that much for each run, and the error of the logarithm. *)
Theorem C57_simulation_against_fixed : forall n bits, (1 <= n <= 1002)%Z -> (zlen bits < 2 ^ 32)%Z -> exists s, simulate 1 2 n bits = Ok s /\ forall q, 0 < q < 1 ->
  IZR (sm_total_cost s) / 2048 <= fixed_cost q bits + IZR ((zlen bits + n - 1) / n) * (1 / 2 * log2R (IZR n) + 1 + IZR n * IZR (n + 1) / 500000) + IZR (zlen bits) / 1024.
Proof. exact simulation_overhead. Qed.
Print Assumptions C57_simulation_against_fixed.

(** The rates of the program meet the hypotheses. *)
Example C56_rates : Forall (fun r => let '(factor, addend) := r in 0 <= factor /\ 2 <= addend /\ 3 <= factor + addend /\ 1023 * factor + addend < 2 ^ 32)%Z [(1, 2); (1, 3); (2, 2); (2, 3)]%Z.
Proof. repeat constructor; cbv; congruence || (intros H; discriminate H). Qed.
(** The ideal predictions 1/2, 3/4 and 1/2 of the first bits, and the runs. *)
Example C57_predicted : (let* rates := rates_default in Ok (predicted rates [] [Zero; One; Zero])) = Ok [(Zero, 2 ^ 22); (One, 3 * 2 ^ 21); (Zero, 2 ^ 22)]%Z.
Proof. vm_compute. reflexivity. Qed.
Example C56_runs : in_runs 2 [Zero; One; Zero] = [[Zero; One]; [Zero]]. Proof. reflexivity. Qed.
(** These bits cost four bits (1 + 2 + 1); the frequencies themselves, a third and two thirds, need 3 log 3 - 2, which is less than three. *)
Example C57_cost : information [(Zero, 2 ^ 22); (One, 3 * 2 ^ 21); (Zero, 2 ^ 22)]%Z = 4.
Proof. exact small_cost. Qed.
