(** Properties C36 and C40: interpolation weights and the adaptive probability map. Probabilities have 31 fractional bits,
    stretched values 21. *)
From Verif Require Import Base BaseFacts LutModel LutTable LutProofs LutRound ApmModel ApmSpec ApmProofs.

(** C36: for every precision up to that of the squash table the weighting table passes its own checks, and its stops are the
    squashed multiples of the interval length. *)
Theorem C36_table_built : forall st sq b, stretch_new = Ok st -> squash_new st = Ok sq -> 0 <= b <= 7 ->
  exists al, apm_lut_new b sq = Ok al /\ al_bits al = b /\ zlen (al_stops al) = 1 + 24 * 2 ^ b /\
  forall i, 0 <= i <= 24 * 2 ^ b -> exists x, znth (al_stops al) i = Some x /\ squash sq ((i - 12 * 2 ^ b) * 2 ^ (21 - b)) = Ok x.
Proof. exact weighting_table. Qed.
Print Assumptions C36_table_built.

(** For the shipped precisions 0, 1 and 2 the selected stops bracket the input (clamped to the outermost stops), both weights
    are between zero and one and sum to one (the right one is one minus the saved left one), and they are the position of
    the input between the stops to within 3 units of 2^-31. *)
Theorem C36_brackets : forall st sq b c al a0 a us, stretch_new = Ok st -> squash_new st = Ok sq -> 0 <= b <= 2 -> 0 <= c ->
  c * (1 + 24 * 2 ^ b) < 2 ^ 64 -> apm_lut_new b sq = Ok al -> apm_new c b sq = Ok a0 ->
  Forall (fair_use st sq c) us -> apm_run al us a0 = Ok a ->
  forall context p s, 0 <= context < c -> probability_pair st sq p s ->
  exists a' r first last low high, refine a context p s al = Ok (a', r) /\
  znth (al_stops al) 0 = Some first /\ znth (al_stops al) (24 * 2 ^ b) = Some last /\
  znth (al_stops al) (am_saved_index a') = Some low /\ znth (al_stops al) (am_saved_index a' + 1) = Some high /\
  (let x := Z.max first (Z.min p last) in let weight_right := 2 ^ 31 - am_saved_weight a' in
   low <= x <= high /\ 0 <= weight_right <= 2 ^ 31 /\
   Z.abs (weight_right * (high - low) - 2 ^ 31 * (x - low)) <= 3 * (high - low)).
Proof. exact brackets. Qed.
Print Assumptions C36_brackets.

(** With 3 bits of precision the table is built, but a probability just above a stop whose stretched value is one unit too
    small is not bracketed, and refining it panics. *)
Theorem C36_three_bits_refuted : exists st sq al a s, stretch_new = Ok st /\ squash_new st = Ok sq /\
  apm_lut_new 3 sq = Ok al /\ apm_new 1 3 sq = Ok a /\ stretch st 874741763 = Ok s /\ refine a 0 874741763 s al = Fail EAssert.
Proof. exact three_bits_fail. Qed.
Print Assumptions C36_three_bits_refuted.

(** C40 *)
Theorem C40_total : forall st sq b c al a0 us, stretch_new = Ok st -> squash_new st = Ok sq -> 0 <= b <= 2 -> 0 <= c ->
  c * (1 + 24 * 2 ^ b) < 2 ^ 64 -> apm_lut_new b sq = Ok al -> apm_new c b sq = Ok a0 -> Forall (fair_use st sq c) us ->
  exists a, apm_run al us a0 = Ok a /\ am_saved_index a = -1 /\ zlen (am_mappings a) = c * (1 + 24 * 2 ^ b) /\
  Forall (fun e => 0 < e < 2 ^ 31) (am_mappings a).
Proof. exact run_total. Qed.
Print Assumptions C40_total.

Theorem C40_refined_between : forall st sq b c al a0 a us, stretch_new = Ok st -> squash_new st = Ok sq -> 0 <= b <= 2 -> 0 <= c ->
  c * (1 + 24 * 2 ^ b) < 2 ^ 64 -> apm_lut_new b sq = Ok al -> apm_new c b sq = Ok a0 ->
  Forall (fair_use st sq c) us -> apm_run al us a0 = Ok a ->
  forall context p s, 0 <= context < c -> probability_pair st sq p s ->
  exists a' r left right, refine a context p s al = Ok (a', r) /\ am_mappings a' = am_mappings a /\
  0 <= am_saved_index a' < 24 * 2 ^ b /\
  (let k := context * (1 + 24 * 2 ^ b) + am_saved_index a' in
   znth (am_mappings a) k = Some left /\ znth (am_mappings a) (k + 1) = Some right) /\
  Z.min left right <= r <= Z.max left right + 1 /\ 0 < r < 2 ^ 31 /\
  exists x y, r = x + y /\ nearest31 (left * am_saved_weight a') x /\ nearest31 (right * (2 ^ 31 - am_saved_weight a')) y.
Proof. exact refined_between. Qed.
Print Assumptions C40_refined_between.

Theorem C40_updates_local : forall st sq b c al a0 a us, stretch_new = Ok st -> squash_new st = Ok sq -> 0 <= b <= 2 -> 0 <= c ->
  c * (1 + 24 * 2 ^ b) < 2 ^ 64 -> apm_lut_new b sq = Ok al -> apm_new c b sq = Ok a0 ->
  Forall (fair_use st sq c) us -> apm_run al us a0 = Ok a ->
  forall context p s, 0 <= context < c -> probability_pair st sq p s -> forall x rate fixed, 2 <= rate < 30 ->
  exists a1 r a2 left right left' right', refine a context p s al = Ok (a1, r) /\
  update_predictions a1 context x rate fixed = Ok a2 /\ am_saved_index a2 = -1 /\
  (let k := context * (1 + 24 * 2 ^ b) + am_saved_index a1 in
   let w := if fixed then 2 ^ 30 else am_saved_weight a1 in
   znth (am_mappings a) k = Some left /\ znth (am_mappings a2) k = Some left' /\ learns x rate w left left' /\
   znth (am_mappings a) (k + 1) = Some right /\ znth (am_mappings a2) (k + 1) = Some right' /\ learns x rate (2 ^ 31 - w) right right' /\
   (forall j, j <> k -> j <> k + 1 -> znth (am_mappings a2) j = znth (am_mappings a) j)).
Proof. exact updates_local. Qed.
Print Assumptions C40_updates_local.

Theorem C40_alternates : forall st sq b c al a0 a us, stretch_new = Ok st -> squash_new st = Ok sq -> 0 <= b <= 2 -> 0 <= c ->
  c * (1 + 24 * 2 ^ b) < 2 ^ 64 -> apm_lut_new b sq = Ok al -> apm_new c b sq = Ok a0 ->
  Forall (fair_use st sq c) us -> apm_run al us a0 = Ok a ->
  forall context p s, 0 <= context < c -> probability_pair st sq p s ->
  (forall x rate fixed, update_predictions a context x rate fixed = Fail EAssert) /\
  exists a1 r, refine a context p s al = Ok (a1, r) /\ forall context' p' s', refine a1 context' p' s' al = Fail EAssert.
Proof. exact alternate. Qed.
Print Assumptions C40_alternates.

(** With rate 1, which the map accepts, 68 equal bits make both entries the largest value below one; halves are then rounded
    up twice and the refined probability is one, which panics. *)
Theorem C40_rate_one_refuted : exists st sq al a0 a s, stretch_new = Ok st /\ squash_new st = Ok sq /\
  apm_lut_new 0 sq = Ok al /\ apm_new 1 0 sq = Ok a0 /\ stretch st 1730716837 = Ok s /\
  apm_run al (repeat (mkUse 0 1730716837 s Zero 1 true) 68) a0 = Ok a /\ refine a 0 1730716837 s al = Fail EAssert.
Proof. exact rate_one_fails. Qed.
Print Assumptions C40_rate_one_refuted.

(** Two contexts, one refined at p = 3/4 and updated with One: entries 13 and 14 of the second context go down. *)
Example C40_case : exists st sq al a0 s a r a', stretch_new = Ok st /\ squash_new st = Ok sq /\ apm_lut_new 0 sq = Ok al /\
  apm_new 2 0 sq = Ok a0 /\ stretch st (3 * 2 ^ 29) = Ok s /\ Forall (fair_use st sq 2) [mkUse 1 (3 * 2 ^ 29) s One 5 true] /\
  refine a0 1 (3 * 2 ^ 29) s al = Ok (a, r) /\ Z.abs (r - 3 * 2 ^ 29) <= 1 /\ am_saved_index a = 13 /\
  apm_run al [mkUse 1 (3 * 2 ^ 29) s One 5 true] a0 = Ok a' /\
  map (fun j => znth (am_mappings a') j) [37; 38; 39; 40] = [Some 1073741824; Some 1545406127; Some 1861942646; Some 2045637375].
Proof.
  destruct tables_ok as (st & sq & E & E' & H & H'). set (p := 3 * 2 ^ 29).
  pose proof (stretch_lean st p H ltac:(unfold p; lia)) as S.
  exists st, sq, (lean_apm_lut 0), (lean_apm 2 0), (lean_stretch p).
  destruct (refine (lean_apm 2 0) 1 p (lean_stretch p) (lean_apm_lut 0)) as [[a r]|] eqn:R; [|vm_compute in R; discriminate R].
  exists a, r. vm_compute in R. injection R as <- <-.
  destruct (apm_run (lean_apm_lut 0) [mkUse 1 p (lean_stretch p) One 5 true] (lean_apm 2 0)) as [a'|] eqn:Q; [|vm_compute in Q; discriminate Q].
  exists a'. vm_compute in Q. injection Q as <-.
  apply (conj E). apply (conj E'). clear E E'. apply (conj (apm_lut_new_ok sq 0 H' ltac:(lia))).
  apply (conj (proj1 (apm_new_ok sq 2 0 H' ltac:(lia) ltac:(lia) ltac:(lia)))). apply (conj S).
  assert (F : Forall (fair_use st sq 2) [mkUse 1 p (lean_stretch p) One 5 true]).
  { constructor; [|constructor]. split; [cbn; lia|]. split; [left; split; [cbn; lia|exact S]|cbn; lia]. }
  apply (conj F). clear. repeat split; vm_compute; try reflexivity; discriminate.
Qed.
