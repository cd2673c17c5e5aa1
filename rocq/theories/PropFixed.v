(** Properties C07 - C10: fixed-point numbers. *)
From Verif Require Import Base BaseFacts FixedModel FixedSpec FixedProofs.

(** C07: dropping [s] fractional bits never fails and rounds to nearest, ties away from zero, unless the
    value is within half a unit of the end of its type; it is then cut (or, at the most negative value,
    one whole unit off). *)
Theorem C07_scaled_down_rounds : forall t raw s,
  In t int_types -> inb t raw = true ->
  1 <= s <= ibits t - (if isigned t then 2 else 1) ->
  exists q, scaled_down t raw s = Ok q /\ inb t q = true /\ rounds (imax t) raw (2 ^ s) q.
Proof. exact scaled_down_all. Qed.
Print Assumptions C07_scaled_down_rounds.

Theorem C07_scaled_down_near_the_end : forall t raw s,
  In t int_types -> inb t raw = true ->
  1 <= s <= ibits t - (if isigned t then 2 else 1) ->
  Z.abs raw + 2 ^ (s - 1) > imax t -> raw <> - 2 ^ (ibits t - 1) ->
  exists q, scaled_down t raw s = Ok q /\ cut_towards_zero raw (2 ^ s) q.
Proof. exact scaled_down_cut. Qed.
Print Assumptions C07_scaled_down_near_the_end.

(** The largest shift of a signed type divides by the most negative number: the result is always 0. *)
Theorem C07_largest_signed_shift : forall t raw,
  In t int_types -> isigned t = true -> inb t raw = true -> scaled_down t raw (ibits t - 1) = Ok 0.
Proof. exact scaled_down_last_shift. Qed.
Print Assumptions C07_largest_signed_shift.

(** Rounding to nearest for every value is false: each kind of raw type has values that are not. *)
Theorem C07_always_nearest_refuted :
  (exists q, scaled_down u32 (2 ^ 32 - 1) 1 = Ok q /\ ~ nearest_away (2 ^ 32 - 1) (2 ^ 1) q) /\
  (exists q, scaled_down i32 (- 2 ^ 31) 1 = Ok q /\ ~ nearest_away (- 2 ^ 31) (2 ^ 1) q) /\
  (exists q, scaled_down i64 (2 ^ 63 - 1) 63 = Ok q /\ ~ nearest_away (2 ^ 63 - 1) (2 ^ 63) q).
Proof.
  split; [|split]; (eexists; split; [vm_compute; reflexivity|]);
    unfold nearest_away; intros [A B]; vm_compute in A, B; (now apply A) || (specialize (B eq_refl); discriminate).
Qed.
Print Assumptions C07_always_nearest_refuted.

Example C07_case :
  scaled_down i32 (-5) 1 = Ok (-3) /\ scaled_down u16 5 1 = Ok 3 /\ scaled_down i64 (2 ^ 62) 62 = Ok 1 /\
  scaled_down i16 32767 1 = Ok 16383 /\ Z.abs 32767 + 2 ^ (1 - 1) > imax i16.
Proof. repeat split; vm_compute; reflexivity. Qed.

(** C08: division by a positive divisor. *)
Theorem C08_div_rounds : forall t raw d,
  In t int_types -> inb t raw = true -> 1 <= d <= imax t ->
  exists q, div_raw t raw d = Ok q /\ inb t q = true /\ rounds (imax t) raw d q /\
    (imin t < raw \/ isigned t = false -> Z.abs (raw - q * d) < d).
Proof. exact div_all. Qed.
Print Assumptions C08_div_rounds.

(** Dividing the most negative value by one changes it. *)
Theorem C08_min_divided_by_one_refuted :
  exists q, div_raw i32 (- 2 ^ 31) 1 = Ok q /\ q <> - 2 ^ 31.
Proof. eexists. split; [vm_compute; reflexivity|discriminate]. Qed.
Print Assumptions C08_min_divided_by_one_refuted.

Example C08_case :
  div_raw i32 (-7) 2 = Ok (-4) /\ div_raw u64 7 3 = Ok 2 /\ div_raw i64 (2 ^ 63 - 1) (2 ^ 63 - 1) = Ok 1 /\
  div_raw u32 (2 ^ 32 - 1) 3 = Ok 1431655765.
Proof. repeat split; vm_compute; reflexivity. Qed.

(** C09: conversions between formats of the same signedness: gaining fractional bits is exact or
    fails, losing them rounds as in C07 or fails; a failure happens only if the result does not fit. *)
Theorem C09_convert_up : forall w S R raw,
  conv_ok w S R -> f_frac S <= f_frac R -> f_frac R - f_frac S < ibits w ->
  to_fix w S R raw =
    if fits R (raw * 2 ^ (f_frac R - f_frac S)) then Ok (raw * 2 ^ (f_frac R - f_frac S)) else Fail EAssert.
Proof. exact to_fix_up. Qed.
Print Assumptions C09_convert_up.

Theorem C09_convert_down : forall w S R raw,
  conv_ok w S R -> f_frac R < f_frac S ->
  f_frac S - f_frac R <= ibits w - (if isigned w then 2 else 1) -> inb (f_ty S) raw = true ->
  exists q, rounds (imax w) raw (2 ^ (f_frac S - f_frac R)) q /\
    to_fix w S R raw = if fits R q then Ok q else Fail EAssert.
Proof. exact to_fix_down. Qed.
Print Assumptions C09_convert_down.

(** Products of 32-bit numbers, to a 32-bit or a 64-bit result. *)
Theorem C09_product : forall t w A B R a b,
  mul_ok_types t w -> isigned (f_ty R) = isigned w -> 0 < ibits (f_ty R) <= 64 -> exact_fmt R ->
  inb t a = true -> inb t b = true ->
  0 <= f_frac A <= 32 -> 0 <= f_frac B <= 32 -> 0 <= f_frac R <= 63 ->
  f_frac A + f_frac B - f_frac R <= 62 ->
  let total := f_frac A + f_frac B in
  if f_frac R <? total then
    exists q, rounds (imax w) (a * b) (2 ^ (total - f_frac R)) q /\
      (isigned w = true -> nearest_away (a * b) (2 ^ (total - f_frac R)) q) /\
      fix_mul w A B R a b = if fits R q then Ok q else Fail EAssert
  else
    fix_mul w A B R a b =
      if fits R (a * b * 2 ^ (f_frac R - total)) then Ok (a * b * 2 ^ (f_frac R - total)) else Fail EAssert.
Proof. exact fix_mul_spec. Qed.
Print Assumptions C09_product.

Theorem C09_sum : forall F a b, exact_fmt F ->
  fix_add F a b = if inb (f_ty F) (a + b) then (if f_within F (a + b) then Ok (a + b) else Fail EAssert)
                  else Fail EOverflow.
Proof. exact fix_add_spec. Qed.
Print Assumptions C09_sum.

Theorem C09_difference : forall F a b, exact_fmt F ->
  fix_sub F a b = if inb (f_ty F) (a - b) then (if f_within F (a - b) then Ok (a - b) else Fail EAssert)
                  else Fail EOverflow.
Proof. exact fix_sub_spec. Qed.
Print Assumptions C09_difference.

(** Formats of the library: StretchedProbD -> StretchedProbQ and back, and an overflow. *)
Example C09_case :
  conv_ok i64 stretched_q stretched_d /\ conv_ok i64 stretched_d stretched_q /\
  to_fix i64 stretched_d stretched_q (-5) = Ok (-5 * 2 ^ 19) /\
  to_fix i64 stretched_q stretched_d (-5 * 2 ^ 18) = Ok (-3) /\
  to_fix i64 stretched_q stretched_d (13 * 2 ^ 40) = Fail EAssert /\
  fix_mul i64 stretched_d mixer_weight stretched_q (12 * 2 ^ 21) (-8 * 2 ^ 21) = Ok (-96 * 2 ^ 40) /\
  fix_mul u64 fract_only_u32 no_fract_u32 no_fract_u32 (2 ^ 30) 5 = Ok 3.
Proof.
  split; [|split]; [unfold conv_ok, ity_ok; cbn; repeat split; lia|unfold conv_ok, ity_ok; cbn; repeat split; lia|].
  repeat split; vm_compute; reflexivity.
Qed.

(** C10: complement of a fraction, for the two unsigned fraction types. *)
Theorem C10_flip_unsigned : forall F, F = fract_only_u32 \/ F = fract_only_u64 ->
  forall x, 0 < x < 2 ^ f_frac F ->
  flip F x = Ok (2 ^ f_frac F - x) /\ flip F (2 ^ f_frac F - x) = Ok x.
Proof. exact flip_u. Qed.
Print Assumptions C10_flip_unsigned.

(** The signed fraction types cannot flip any fraction: the constant one does not fit in them. *)
Theorem C10_flip_signed_refuted : forall F, F = fract_only_i32 \/ F = fract_only_i64 ->
  forall x, 0 <= x < 2 ^ f_frac F -> is_ok (flip F x) = false.
Proof. exact flip_s_fails. Qed.
Print Assumptions C10_flip_signed_refuted.

Example C10_case :
  flip fract_only_u32 1 = Ok (2 ^ 31 - 1) /\ flip fract_only_u64 (2 ^ 62) = Ok (2 ^ 62) /\
  flip fract_only_u32 0 = Fail EAssert /\ flip fract_only_i32 (2 ^ 30) = Fail EOverflow.
Proof. repeat split; vm_compute; reflexivity. Qed.
