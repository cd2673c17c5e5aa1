(** How a mixer is used, and what it should compute, independently of its bit mask. *)
From Verif Require Import Base EstModel LutModel MixerModel.

(** Ways to make a mixer: the five fixed sizes and the sized one. *)
Definition makes (size index : Z) (mode : init_mode) (m : mixer) : Prop :=
  (1 <= size <= 5 /\ 0 <= index <= 1000 /\ fixed_mixer_new size index mode = Ok m) \/
  (0 <= size <= 30 /\ 0 <= index <= 1000 /\ (size = 0 -> mode = AllZero) /\ mixer_n_new size index mode = Ok m).

(** Calls: set one input, mix, update with the coded bit (the mixed probability and the largest rate index are arguments). *)
Inductive call : Type :=
| SetInput (index sq st : Z)
| MixAll
| Update (b : bit) (mixed_sq max_index : Z).

Section Run.
  Variables (squash_lut rates : list Z).
  (** Runs the calls; collects what mixing returned. *)
  Definition perform (s : mixer * list (Z * Z)) (c : call) : res (mixer * list (Z * Z)) :=
    let '(m, results) := s in
    match c with
    | SetInput i sq st => let* m' := set_input m i sq st in Ok (m', results)
    | MixAll => let* r := mix_all squash_lut m in Ok (m, results ++ [r])
    | Update b p mx => let* m' := update_and_reset rates m b p mx in Ok (m', results)
    end.
  Definition perform_all (calls : list call) (m : mixer) : res (mixer * list (Z * Z)) := mfold perform calls (m, []).
End Run.

(** Arguments of the right types: inputs stretched within [-12, 12], mixed probability strictly between 0 and 1. *)
Definition sane (c : call) : Prop :=
  match c with
  | SetInput i sq st => 0 <= i < 32 /\ - (12 * 2 ^ 21) <= st <= 12 * 2 ^ 21
  | MixAll => True
  | Update b p mx => 0 < p < 2 ^ 31 /\ 0 <= mx < 2 ^ 16
  end.

(** The protocol, on the set of inputs set so far and the rate index. *)
Definition member (i : Z) (done : list Z) : bool := existsb (Z.eqb i) done.
Definition all_set (size : Z) (done : list Z) : bool := forallb (fun i => member i done) (zseq 0 (Z.to_nat size)).
Fixpoint follows (size : Z) (done : list Z) (index : Z) (calls : list call) : bool :=
  match calls with
  | [] => true
  | SetInput i _ _ :: r => (i <? size) && negb (member i done) && follows size (i :: done) index r
  | MixAll :: r => all_set size done && follows size done index r
  | Update _ _ mx :: r => all_set size done && (index <=? mx) && (mx <=? 1000) && follows size [] (Z.min mx (index + 1)) r
  end.

(** Weights and inputs currently held, and their exact dot product in units of 2^-42. *)
Definition weights (m : mixer) : list Z := map mi_weight (mx_inputs m).
Definition stretched_inputs (m : mixer) : list Z := map mi_st (mx_inputs m).
Definition dot (m : mixer) : Z := fold_right Z.add 0 (map (fun x => mi_weight x * mi_st x) (mx_inputs m)).
Definition clamp (limit x : Z) : Z := Z.max (- limit) (Z.min limit x).

(** The same calls with the coded bits and mixed probabilities complemented; the same with complemented inputs as well. *)
Definition opposite_bit (c : call) : call :=
  match c with Update b p mx => Update (negb b) (2 ^ 31 - p) mx | c => c end.
Definition opposite_all (c : call) : call :=
  match c with
  | SetInput i sq st => SetInput i (2 ^ 31 - sq) (- st)
  | Update b p mx => Update (negb b) (2 ^ 31 - p) mx
  | c => c
  end.
Definition complementary (r : Z * Z) : Z * Z := (2 ^ 31 - fst r, - snd r).

(** The inputs set since the last update. *)
Fixpoint pending (acc : list (Z * (Z * Z))) (calls : list call) : list (Z * (Z * Z)) :=
  match calls with
  | [] => acc
  | SetInput i sq st :: r => pending ((i, (sq, st)) :: acc) r
  | MixAll :: r => pending acc r
  | Update _ _ _ :: r => pending [] r
  end.

(** Initial weights; the equal ones sum to one up to less than [size] units. *)
Definition initial_weights (size : Z) (mode : init_mode) (ws : list Z) : Prop :=
  match mode with
  | AllZero => ws = repeat 0 (Z.to_nat size)
  | DominantFirst => ws = 2 ^ 21 :: repeat 0 (Z.to_nat (size - 1))
  | EqualSummingToOne => exists w, ws = repeat w (Z.to_nat size) /\ Z.abs (size * w - 2 ^ 21) < size
  end.

(** The tables a mixer uses: the squash table and a table of rates of the families the programs use. *)
Definition tables_for (squash_lut rates : list Z) : Prop :=
  (exists stretch_lut, stretch_new = Ok stretch_lut /\ squash_new stretch_lut = Ok squash_lut) /\
  exists factor addend, 0 <= factor /\ 2 <= addend /\ 3 <= factor + addend /\ 1023 * factor + addend < 2 ^ 32 /\
    rates_make factor addend = Ok rates.
Definition weights_bounded (m : mixer) : Prop := Forall (fun w => - (8 * 2 ^ 21) <= w <= 8 * 2 ^ 21) (weights m).
Definition probability_inside (r : Z * Z) : Prop := 0 < fst r < 2 ^ 31 /\ - (12 * 2 ^ 21) <= snd r <= 12 * 2 ^ 21.
(** A mixer with no input set (new, or just updated). *)
Definition rested (size index : Z) (m : mixer) : Prop :=
  mx_size m = size /\ 0 <= size <= 30 /\ mx_mask m = 0 /\ mx_index m = index /\ 0 <= index <= 1000 /\ weights_bounded m /\
  Forall (fun st => - (12 * 2 ^ 21) <= st <= 12 * 2 ^ 21) (stretched_inputs m).
