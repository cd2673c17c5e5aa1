(** Properties C06, C11, C20 and the cost half of C21. *)
From Coq Require Import Reals.
From Verif Require Import Base BaseFacts FixedModel EstModel EstSpec EstProofs LogModel LogProofs LogSpec LogReal.
Open Scope Z_scope.

(** C06 *)
Theorem C06_codable : forall raw, 0 <= raw < 2 ^ 32 ->
  (raw <= 2 ^ 23 -> exists p, fix_new final_probability raw 23 = Ok p /\ 1 <= p <= 2 ^ 23 - 1 /\
     (1 <= raw <= 2 ^ 23 - 1 -> p = raw)) /\
  (2 ^ 23 < raw -> fix_new final_probability raw 23 = Fail EAssert).
Proof. exact final_probability_codable. Qed.
Print Assumptions C06_codable.

(** Every conversion from a 31-bit probability gives a codable one, the nearest. *)
Theorem C06_conversion : forall x, 0 <= x < 2 ^ 31 ->
  to_fix u32 fract_only_u32 final_probability x = Ok (Z.max 1 (Z.min ((x + 128) / 256) (2 ^ 23 - 1))).
Proof. exact to_final. Qed.
Print Assumptions C06_conversion.

Theorem C06_cost_positive : exists lut, log2_new = Ok lut /\ forall p b, 1 <= p <= 2 ^ 23 - 1 ->
  exists c, estimate_cost lut p b = Ok c /\ 1 <= c <= 23 * 2048.
Proof. exact cost_in_range. Qed.
Print Assumptions C06_cost_positive.
(** A likelier bit never costs more. *)
Theorem C06_cost_monotone : exists lut, log2_new = Ok lut /\ forall p q, 1 <= p <= q -> q <= 2 ^ 23 - 1 ->
  exists c d, estimate_cost lut p Zero = Ok c /\ estimate_cost lut q Zero = Ok d /\ d <= c.
Proof. exact cost_monotone. Qed.
Print Assumptions C06_cost_monotone.
Example C06_case :
  fix_new final_probability 0 23 = Ok 1 /\ fix_new final_probability (2 ^ 23) 23 = Ok (2 ^ 23 - 1) /\
  to_fix u32 fract_only_u32 final_probability (2 ^ 31 - 1) = Ok (2 ^ 23 - 1) /\
  neg_log (2 ^ 23 - 1) = 1 /\ neg_log (2 ^ 22) = 2048 /\ neg_log 1 = 23 * 2048.
Proof. repeat split; vm_compute; reflexivity. Qed.

(** C11: any FixU32 or FixU64 format [F] (raw type u32 or u64, fractional bits up to the width). *)
Theorem C11_accurate : exists lut, log2_new = Ok lut /\ forall F raw, log_fmt F -> 0 < raw <= imax (f_ty F) ->
  exists y, fix_log2 F lut raw = Ok y /\
    (- 2 < IZR y - 2048 * log2R (IZR raw / IZR (2 ^ f_frac F)) < 51 / 100)%R.
Proof. exact log2_accurate. Qed.
Print Assumptions C11_accurate.
Theorem C11_monotone : exists lut, log2_new = Ok lut /\ forall F x y, log_fmt F ->
  0 < x <= y -> y <= imax (f_ty F) ->
  exists lx ly, fix_log2 F lut x = Ok lx /\ fix_log2 F lut y = Ok ly /\ lx <= ly.
Proof. exact log2_monotone. Qed.
Print Assumptions C11_monotone.
(** The bit-by-bit logarithm itself: five units of 2^-31. *)
Theorem C11_bitwise_logarithm : forall x, 2 ^ 30 <= x < 2 ^ 31 ->
  exists l, one_plus_log2_restricted x = Ok l /\
    (- 5 < IZR l - 2 ^ 31 * (1 + log2R (IZR x / 2 ^ 31)) < 4)%R.
Proof. exact one_plus_log2_accurate. Qed.
Print Assumptions C11_bitwise_logarithm.
Example C11_case : log_fmt fract_only_u32 /\ log_fmt no_fract_u64 /\
  one_plus_log2_restricted (3 * 2 ^ 29) = Ok 1256197404 /\ lean_entry 3072 = 1198.
Proof. repeat split; try (right; reflexivity); try (left; reflexivity); try (cbn; discriminate); vm_compute; reflexivity. Qed.

(** C20 *)
Theorem C20_reported_cost_accepted : exists lut, log2_new = Ok lut /\
  forall x p b, 0 <= x <= 65535 -> 0 <= p < 2 ^ 31 ->
  exists x', cost_updated_on_bit lut x p b = Ok x' /\ 0 <= x' <= 65535.
Proof. exact reported_cost_accepted. Qed.
Print Assumptions C20_reported_cost_accepted.
(** A larger tracker and pointwise larger costs never end in a smaller tracker. *)
Theorem C20_ordered : forall cs ds x y, Forall2 (fun c d => 1 <= c <= d /\ d <= 65535) cs ds ->
  0 <= x <= y -> y <= 65535 ->
  exists x' y', mfold cost_updated cs x = Ok x' /\ mfold cost_updated ds y = Ok y' /\ 0 <= x' <= y' /\ y' <= 65535.
Proof. exact cost_run_ordered. Qed.
Print Assumptions C20_ordered.
(** With all costs between [lo] and [hi] (below two bits, beyond which the tracker saturates) the tracker
    stays within half a unit of sixteen times that interval. *)
Theorem C20_bounded_average : forall lo hi cs x, 1 <= lo -> hi <= 4095 -> Forall (fun c => lo <= c <= hi) cs ->
  16 * lo - 8 <= x <= 16 * hi + 7 ->
  exists x', mfold cost_updated cs x = Ok x' /\ 16 * lo - 8 <= x' <= 16 * hi + 7.
Proof. exact cost_run_bounds. Qed.
Print Assumptions C20_bounded_average.
Theorem C20_one_bit_costs : forall n, mfold cost_updated (repeat 2048 n) cost_initial = Ok cost_initial.
Proof. exact cost_run_ones. Qed.
Print Assumptions C20_one_bit_costs.
Example C20_case :
  mfold cost_updated [47104; 47104] cost_initial = Ok 65535 /\
  mfold cost_updated [1; 1; 1] cost_initial = Ok 27003.
Proof. split; vm_compute; reflexivity. Qed.

(** C21, cost half: [cost_step] charges the tracker with the estimator's prediction, then updates the estimator. *)
Theorem C21_cost_cache_equals_replay : forall factor addend b n,
  0 <= factor /\ 2 <= addend /\ 3 <= factor + addend /\ 1023 * factor + addend < 2 ^ 32 -> 0 <= n <= 1000 ->
  exists lut rates clut c e, log2_new = Ok lut /\ rates_make factor addend = Ok rates /\
    cost_lut_new lut rates = Ok clut /\ cost_lut_for_new_node clut n = Ok c /\
    (let* s := de_new in mfold (cost_step lut rates) (repeat (negb b) (Z.to_nat n) ++ [b]) (cost_initial, s)) = Ok (c, e).
Proof. exact cost_cache_replay. Qed.
Print Assumptions C21_cost_cache_equals_replay.
(** The default table (factor 1, addend 2) and every run length up to the limit meet the hypotheses. *)
Example C21_cost_case : sane_table 1 2 /\ rates_default = rates_make 1 2 /\ 0 <= 1000 <= 1000.
Proof. repeat split; try (vm_compute; congruence); lia. Qed.
