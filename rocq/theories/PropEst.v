(** Properties C17, C18, C19 and the estimator half of C21. *)
From Verif Require Import Base BaseFacts FixedModel EstModel EstSpec EstProofs.

(** C17.  [sane_table factor addend]: first rate at most one half, all later rates below one half,
    denominators fit in u32.  make_default is [rates_make 1 2]. *)
Theorem C17_stays_strictly_inside : forall factor addend h,
  0 <= factor /\ 2 <= addend /\ 3 <= factor + addend /\ 1023 * factor + addend < 2 ^ 32 ->
  exists rates s p, rates_make factor addend = Ok rates /\
    (let* s0 := de_new in mfold (de_update rates) h s0) = Ok s /\
    de_prediction s = Ok p /\ 0 < p < 2 ^ 31 /\ de_usage_count s = Z.min (zlen h) 1000.
Proof. exact de_total. Qed.
Print Assumptions C17_stays_strictly_inside.

(** Every update moves towards the bit and lands on the nearest multiple of 2^-22 to the exact update
    with rate [f] = 1 / (count * factor + addend) rounded down to 31 bits. *)
Theorem C17_moves_towards_bit : forall factor addend h b,
  0 <= factor /\ 2 <= addend /\ 3 <= factor + addend /\ 1023 * factor + addend < 2 ^ 32 ->
  exists rates s s' p p' f, rates_make factor addend = Ok rates /\
    (let* s0 := de_new in mfold (de_update rates) h s0) = Ok s /\
    (let* s0 := de_new in mfold (de_update rates) (h ++ [b]) s0) = Ok s' /\
    de_prediction s = Ok p /\ de_prediction s' = Ok p' /\ towards b p p' /\
    f = 2 ^ 31 / (Z.min (zlen h) 1000 * factor + addend) /\
    2 * Z.abs (p' * 2 ^ 31 - (p * 2 ^ 31 + (target b - p) * f)) <= 2 ^ 9 * 2 ^ 31.
Proof. exact de_step_near. Qed.
Print Assumptions C17_moves_towards_bit.

(** Under the default rates the prediction after n <= 1001 bits with z zeros is (z + 1/2) / (n + 1),
    the Krichevsky-Trofimov frequency, up to accumulated rounding below (n + 3) * 2^-23.99. *)
Theorem C17_tracks_frequency : forall h, zlen h <= 1001 ->
  exists rates s p, rates_default = Ok rates /\
    (let* s0 := de_new in mfold (de_update rates) h s0) = Ok s /\ de_prediction s = Ok p /\
    Z.abs (2 * (zlen h + 1) * p - (2 * zeros h + 1) * 2 ^ 31) <= 257 * zlen h * (zlen h + 3).
Proof. exact de_frequency_default. Qed.
Print Assumptions C17_tracks_frequency.

Example C17_case :
  (let* r := rates_default in let* s0 := de_new in
   let* s := mfold (de_update r) [false; false; true] s0 in de_prediction s) = Ok 1342177280 /\
  (let* r := rates_default in let* s0 := de_new in
   let* s := mfold (de_update r) (repeat false 12) s0 in Ok (de_usage_count s)) = Ok 12.
Proof. repeat split; vm_compute; reflexivity. Qed.

(** The hypothesis on the table is needed: with a constant rate of one half (make(0, 2)) a run of zeros
    drives the prediction to "1.0", which wraps to probability 0; with addend 1 the first update does. *)
Theorem C17_constant_half_refuted : exists n,
  (let* rates := rates_make 0 2 in let* s0 := de_new in
   let* s := mfold (de_update rates) (repeat Zero n) s0 in de_prediction s) = Ok 0.
Proof. exists 22%nat. vm_compute. reflexivity. Qed.
Print Assumptions C17_constant_half_refuted.
Theorem C17_addend_one_refuted :
  (let* rates := rates_make 1 1 in let* s0 := de_new in
   let* s := de_update rates s0 Zero in de_prediction s) = Ok 0.
Proof. vm_compute. reflexivity. Qed.
Print Assumptions C17_addend_one_refuted.
(** A table asked for addend 0 panics (division by zero), and an estimator made by hand with a prediction
    next to 1 and count 0 wraps to 0 under the default rates. *)
Theorem C17_handmade_refuted : rates_make 1 0 = Fail EDivZero /\
  (let* rates := rates_default in let* s0 := de_make (2 ^ 31 - 2 ^ 9) 0 in
   let* s := de_update rates s0 Zero in de_prediction s) = Ok 0.
Proof. split; vm_compute; reflexivity. Qed.
Print Assumptions C17_handmade_refuted.

(** C18 *)
Theorem C18_decelerating_symmetric : forall factor addend h,
  0 <= factor /\ 2 <= addend /\ 3 <= factor + addend /\ 1023 * factor + addend < 2 ^ 32 ->
  exists rates s s' p, rates_make factor addend = Ok rates /\
    (let* s0 := de_new in mfold (de_update rates) h s0) = Ok s /\
    (let* s0 := de_new in mfold (de_update rates) (complement h) s0) = Ok s' /\
    de_prediction s = Ok p /\ de_prediction s' = Ok (2 ^ 31 - p) /\ de_usage_count s' = de_usage_count s.
Proof. exact de_symmetric. Qed.
Print Assumptions C18_decelerating_symmetric.
Theorem C18_fixed_speed_symmetric : forall h, exists t t' p,
  (let* s0 := fs_default in mfold fs_update h s0) = Ok t /\
  (let* s0 := fs_default in mfold fs_update (complement h) s0) = Ok t' /\
  fs_prediction t = Ok p /\ fs_prediction t' = Ok (2 ^ 31 - p).
Proof. exact fs_symmetric. Qed.
Print Assumptions C18_fixed_speed_symmetric.
Example C18_case :
  let run h := (let* r := rates_default in let* s0 := de_new in let* s := mfold (de_update r) h s0 in de_prediction s) in
  exists p, run [false; true; true; true; false] = Ok p /\ run [true; false; false; false; true] = Ok (2 ^ 31 - p) /\
    p <> 2 ^ 30.
Proof. eexists. split; [vm_compute; reflexivity|]. split; [vm_compute; reflexivity | discriminate]. Qed.

(** C19 *)
Theorem C19_fixed_speed_total : forall s h, 0 < s < 65536 ->
  exists t p, (let* s0 := fs_new s in mfold fs_update h s0) = Ok t /\ fs_prediction t = Ok p /\ 0 < p < 2 ^ 31.
Proof. exact fs_total. Qed.
Print Assumptions C19_fixed_speed_total.
(** ... and each step is 1/128 of the distance, cut to the 16-bit grid. *)
Theorem C19_fixed_speed_moves : forall s h b, 0 < s < 65536 -> exists t t' p p',
  (let* s0 := fs_new s in mfold fs_update h s0) = Ok t /\
  (let* s0 := fs_new s in mfold fs_update (h ++ [b]) s0) = Ok t' /\
  fs_prediction t = Ok p /\ fs_prediction t' = Ok p' /\ towards b p p' /\
  Z.abs (128 * (p' - p) - (target b - p)) < 128 * 2 ^ 15.
Proof. exact fs_moves. Qed.
Print Assumptions C19_fixed_speed_moves.
Example C19_case :
  (let* s0 := fs_new 1 in let* t := mfold fs_update (repeat true 3 ++ [false; false]) s0 in fs_prediction t) = Ok (1020 * 32768).
Proof. vm_compute. reflexivity. Qed.

(** C21, estimator half *)
Theorem C21_estimator_cache_equals_replay : forall factor addend n b,
  0 <= factor /\ 2 <= addend /\ 3 <= factor + addend /\ 1023 * factor + addend < 2 ^ 32 -> 0 <= n <= 1000 ->
  exists rates cache s, rates_make factor addend = Ok rates /\ cache_new rates = Ok cache /\
    cache_for_new_node cache b n = Ok s /\
    (let* s0 := de_new in mfold (de_update rates) (repeat (negb b) (Z.to_nat n) ++ [b]) s0) = Ok s.
Proof. exact cache_replay. Qed.
Print Assumptions C21_estimator_cache_equals_replay.
Example C21_estimator_case :
  (let* r := rates_default in let* s0 := de_new in let* c := cache_loop r 8 s0 in cache_for_new_node c Zero 6) =
  (let* r := rates_default in let* s0 := de_new in mfold (de_update r) (repeat One 6 ++ [Zero]) s0).
Proof. vm_compute. reflexivity. Qed.
