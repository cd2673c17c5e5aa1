(** Facts about real functions used for the accuracy of the tables: interpolation error, the logarithm of 2, logit and its inverse. *)
From Coq Require Import Reals Lra.
Local Open Scope R_scope.

Lemma rises f f' a b : a <= b -> (forall c, a <= c <= b -> derivable_pt_lim f c (f' c)) -> (forall c, a <= c <= b -> 0 <= f' c) -> f a <= f b.
Proof.
  intros [L|E] D P; [|rewrite E; lra]. destruct (MVT_cor2 f f' a b L D) as (c & H & I).
  assert (0 <= f' c * (b - a)) by (apply Rmult_le_pos; [apply P|]; lra). lra.
Qed.
Lemma falls f f' a b : a <= b -> (forall c, a <= c <= b -> derivable_pt_lim f c (f' c)) -> (forall c, a <= c <= b -> f' c <= 0) -> f b <= f a.
Proof.
  intros [L|E] D P; [|rewrite E; lra]. destruct (MVT_cor2 f f' a b L D) as (c & H & I).
  assert (0 <= - f' c * (b - a)) by (apply Rmult_le_pos; [specialize (P c)|]; lra). lra.
Qed.
Lemma steep f f' a b M : a <= b -> (forall c, a <= c <= b -> derivable_pt_lim f c (f' c)) -> (forall c, a <= c <= b -> f' c <= M) -> f b - f a <= M * (b - a).
Proof.
  intros [L|E] D P; [|rewrite E; lra]. destruct (MVT_cor2 f f' a b L D) as (c & H & I).
  assert (0 <= (M - f' c) * (b - a)) by (apply Rmult_le_pos; [specialize (P c)|]; lra). lra.
Qed.

Lemma dlim_affine k m c : derivable_pt_lim (fun x => k * x + m) c k.
Proof.
  cut (derivable_pt_lim (fun x => k * x + m) c (k * 1 + 0)); [intros H; now replace (k * 1 + 0) with k in H by ring|].
  apply (derivable_pt_lim_plus (fun x => k * x) (fun _ => m)); [apply (derivable_pt_lim_scal (fun x => x)), derivable_pt_lim_id | apply derivable_pt_lim_const].
Qed.
Lemma dlim_square M z c : derivable_pt_lim (fun x => M / 2 * ((x - z) * (x - z))) c (M * (c - z)).
Proof.
  replace (M * (c - z)) with (M / 2 * (1 * (c - z) + (c - z) * 1)) by field.
  apply (derivable_pt_lim_scal (fun x => (x - z) * (x - z))).
  assert (S : derivable_pt_lim (fun x => x - z) c 1).
  { cut (derivable_pt_lim (fun x => x - z) c (1 - 0)); [intros H; now rewrite Rminus_0_r in H|]. apply (derivable_pt_lim_minus (fun x => x) (fun _ => z)); [apply derivable_pt_lim_id | apply derivable_pt_lim_const]. }
  apply (derivable_pt_lim_mult (fun x => x - z) (fun x => x - z)); exact S.
Qed.

(** Tangents: with a second derivative of at most [M], a function rises above its tangent at most by half of M times the square. *)
Lemma above_tangent f f1 f2 a b M z y : (forall c, a <= c <= b -> derivable_pt_lim f c (f1 c)) -> (forall c, a <= c <= b -> derivable_pt_lim f1 c (f2 c)) ->
  (forall c, a <= c <= b -> f2 c <= M) -> a <= z <= b -> a <= y <= b -> f y - f z - f1 z * (y - z) <= M / 2 * ((y - z) * (y - z)).
Proof.
  intros D1 D2 B Z Y.
  set (G := fun x => M / 2 * ((x - z) * (x - z)) + (f1 z * x + 0 - f x)).
  assert (DG : forall c, a <= c <= b -> derivable_pt_lim G c (M * (c - z) + (f1 z - f1 c))).
  { intros c C. apply (derivable_pt_lim_plus (fun x => M / 2 * ((x - z) * (x - z))) (fun x => f1 z * x + 0 - f x)); [apply dlim_square|].
    apply (derivable_pt_lim_minus (fun x => f1 z * x + 0) f); [apply dlim_affine | apply D1, C]. }
  assert (R : G z <= G y).
  { destruct (Rle_or_lt z y) as [L|L].
    - apply (rises G (fun c => M * (c - z) + (f1 z - f1 c))); [exact L | intros c C; apply DG; lra|].
      intros c C. pose proof (steep f1 f2 z c M (proj1 C) ltac:(intros; apply D2; lra) ltac:(intros; apply B; lra)). lra.
    - apply (falls G (fun c => M * (c - z) + (f1 z - f1 c))); [lra | intros c C; apply DG; lra|].
      intros c C. pose proof (steep f1 f2 c z M (proj2 C) ltac:(intros; apply D2; lra) ltac:(intros; apply B; lra)). lra. }
  unfold G in R. lra.
Qed.
Lemma near_tangent f f1 f2 a b M z y : (forall c, a <= c <= b -> derivable_pt_lim f c (f1 c)) -> (forall c, a <= c <= b -> derivable_pt_lim f1 c (f2 c)) ->
  (forall c, a <= c <= b -> - M <= f2 c <= M) -> a <= z <= b -> a <= y <= b -> Rabs (f y - f z - f1 z * (y - z)) <= M / 2 * ((y - z) * (y - z)).
Proof.
  intros D1 D2 B Z Y. apply Rabs_le. split; [|apply (above_tangent f f1 f2 a b); auto; intros c C; apply B, C].
  pose proof (above_tangent (fun x => - f x) (fun x => - f1 x) (fun x => - f2 x) a b M z y) as H.
  assert (- f y - - f z - - f1 z * (y - z) <= M / 2 * ((y - z) * (y - z))); [|lra].
  apply H; auto; intros c C; [apply derivable_pt_lim_opp, D1, C | apply derivable_pt_lim_opp, D2, C | pose proof (B c C); lra].
Qed.

(** Linear interpolation. *)
Lemma chord_error f f1 f2 a b M t : (forall c, a <= c <= b -> derivable_pt_lim f c (f1 c)) -> (forall c, a <= c <= b -> derivable_pt_lim f1 c (f2 c)) ->
  (forall c, a <= c <= b -> - M <= f2 c <= M) -> a <= b -> 0 <= t <= 1 ->
  Rabs ((1 - t) * f a + t * f b - f (a + t * (b - a))) <= M * ((b - a) * (b - a)) / 8.
Proof.
  intros D1 D2 B L T. set (h := b - a). set (z := a + t * h).
  assert (H0 : 0 <= h) by (unfold h; lra).
  assert (T1 : 0 <= t * h <= h) by (split; [apply Rmult_le_pos; lra | rewrite <- (Rmult_1_l h) at 2; apply Rmult_le_compat_r; lra]).
  assert (Z : a <= z <= b) by (unfold z, h in *; lra).
  pose proof (near_tangent f f1 f2 a b M z a D1 D2 B Z ltac:(lra)) as A.
  pose proof (near_tangent f f1 f2 a b M z b D1 D2 B Z ltac:(lra)) as C.
  replace ((1 - t) * f a + t * f b - f z) with ((1 - t) * (f a - f z - f1 z * (a - z)) + t * (f b - f z - f1 z * (b - z))) by (unfold z, h; ring).
  eapply Rle_trans; [apply Rabs_triang|]. rewrite !Rabs_mult, (Rabs_right (1 - t)), (Rabs_right t) by lra.
  apply Rle_trans with ((1 - t) * (M / 2 * ((a - z) * (a - z))) + t * (M / 2 * ((b - z) * (b - z)))).
  { apply Rplus_le_compat; apply Rmult_le_compat_l; lra. }
  replace ((1 - t) * (M / 2 * ((a - z) * (a - z))) + t * (M / 2 * ((b - z) * (b - z)))) with (M / 2 * (h * h) * (t * (1 - t))) by (unfold z, h; ring).
  assert (M0 : 0 <= M) by (pose proof (B a ltac:(lra)); lra).
  assert (Q : t * (1 - t) <= 1 / 4). { assert (0 <= (t - 1 / 2) * (t - 1 / 2)) by apply Rle_0_sqr. lra. }
  assert (P : 0 <= M / 2 * (h * h)) by (apply Rmult_le_pos; [lra | apply Rle_0_sqr]).
  pose proof (Rmult_le_compat_l _ _ _ P Q). lra.
Qed.

(** ** The logarithm near one *)
Definition atanh3 (x : R) : R := 2 * x + 2 / 3 * (x * x * x) + 2 / 5 * (x * x * x * x * x).
Lemma dlim_inv_shift s m c : s * c + m <> 0 -> derivable_pt_lim (fun x => ln (s * x + m)) c (s / (s * c + m)) \/ s * c + m < 0.
Proof.
  intros N. destruct (Rlt_or_le (s * c + m) 0) as [L|L]; [now right|left].
  replace (s / (s * c + m)) with (/ (s * c + m) * s) by (unfold Rdiv; ring).
  apply (derivable_pt_lim_comp (fun x => s * x + m) ln); [apply dlim_affine | apply derivable_pt_lim_ln; lra].
Qed.
Lemma dlim_ln_affine s m c : 0 < s * c + m -> derivable_pt_lim (fun x => ln (s * x + m)) c (s / (s * c + m)).
Proof. intros P. destruct (dlim_inv_shift s m c) as [H|H]; [lra | exact H | lra]. Qed.
Lemma dlim_pow3 c : derivable_pt_lim (fun x => x * x * x) c (3 * (c * c)).
Proof.
  replace (3 * (c * c)) with ((1 * c + c * 1) * c + (c * c) * 1) by ring.
  apply (derivable_pt_lim_mult (fun x => x * x) (fun x => x)); [apply (derivable_pt_lim_mult (fun x => x) (fun x => x)) |]; apply derivable_pt_lim_id.
Qed.
Lemma dlim_pow5 c : derivable_pt_lim (fun x => x * x * x * x * x) c (5 * (c * c * c * c)).
Proof.
  replace (5 * (c * c * c * c)) with ((3 * (c * c) * c + (c * c * c) * 1) * c + (c * c * c * c) * 1) by ring.
  apply (derivable_pt_lim_mult (fun x => x * x * x * x) (fun x => x)); [apply (derivable_pt_lim_mult (fun x => x * x * x) (fun x => x)); [apply dlim_pow3|] |]; apply derivable_pt_lim_id.
Qed.
Lemma dlim_atanh3 c : derivable_pt_lim atanh3 c (2 + 2 * (c * c) + 2 * (c * c * c * c)).
Proof.
  replace (2 + 2 * (c * c) + 2 * (c * c * c * c)) with (2 * 1 + 2 / 3 * (3 * (c * c)) + 2 / 5 * (5 * (c * c * c * c))) by field.
  apply (derivable_pt_lim_plus (fun x => 2 * x + 2 / 3 * (x * x * x)) (fun x => 2 / 5 * (x * x * x * x * x))).
  - apply (derivable_pt_lim_plus (fun x => 2 * x) (fun x => 2 / 3 * (x * x * x))); [apply (derivable_pt_lim_scal (fun x => x)), derivable_pt_lim_id | apply (derivable_pt_lim_scal (fun x => x * x * x)), dlim_pow3].
  - apply (derivable_pt_lim_scal (fun x => x * x * x * x * x)), dlim_pow5.
Qed.
(** ln ((1 + x) / (1 - x)) by the first three terms of its series. *)
Lemma ln_ratio x : 0 <= x <= 1 / 10 -> atanh3 x <= ln (1 + x) - ln (1 - x) <= atanh3 x + 21 / 10 * (x * x * x * x * x * x * x).
Proof.
  intros X.
  set (F := fun y => ln (1 * y + 1) - ln (-1 * y + 1) - atanh3 y).
  set (F' := fun c => 2 * (c * c * c * c * c * c) / (1 - c * c)).
  assert (DF : forall c, 0 <= c <= x -> derivable_pt_lim F c (F' c)).
  { intros c C. replace (F' c) with (1 / (1 * c + 1) - -1 / (-1 * c + 1) - (2 + 2 * (c * c) + 2 * (c * c * c * c))).
    - apply (derivable_pt_lim_minus (fun y => ln (1 * y + 1) - ln (-1 * y + 1)) atanh3); [|apply dlim_atanh3].
      apply (derivable_pt_lim_minus (fun y => ln (1 * y + 1)) (fun y => ln (-1 * y + 1))); apply dlim_ln_affine; lra.
    - unfold F'. assert (c * c < 1). { apply Rle_lt_trans with (c * 1); [apply Rmult_le_compat_l; lra | lra]. } field. repeat split; lra. }
  assert (F0 : F 0 = 0). { unfold F, atanh3. rewrite !Rmult_0_r, Rplus_0_l, ln_1. ring. }
  assert (B : forall c, 0 <= c <= x -> 0 <= F' c <= 21 / 10 * (x * x * x * x * x * x)).
  { intros c C. assert (CC : 0 <= c * c <= 1 / 100). { split; [apply Rle_0_sqr|]. replace (1 / 100) with (1 / 10 * (1 / 10)) by field. apply Rmult_le_compat; lra. }
    assert (CX : 0 <= c * c <= x * x) by (split; [apply Rle_0_sqr | apply Rmult_le_compat; lra]).
    assert (P6 : 0 <= c * c * c * c * c * c <= x * x * x * x * x * x).
    { replace (c * c * c * c * c * c) with ((c * c) * ((c * c) * (c * c))) by ring. replace (x * x * x * x * x * x) with ((x * x) * ((x * x) * (x * x))) by ring.
      split; [repeat apply Rmult_le_pos; lra|]. repeat (apply Rmult_le_compat; try lra). all: repeat apply Rmult_le_pos; lra. }
    unfold F', Rdiv. assert (I : 0 < / (1 - c * c) <= 105 / 100).
    { split; [apply Rinv_0_lt_compat; lra|]. apply Rmult_le_reg_l with (1 - c * c); [lra|]. rewrite Rinv_r by lra. lra. }
    split; [apply Rmult_le_pos; lra|].
    replace (21 * / 10 * (x * x * x * x * x * x)) with (2 * (x * x * x * x * x * x) * (105 / 100)) by field. apply Rmult_le_compat; lra. }
  assert (L : F 0 <= F x) by (apply (rises F F'); [lra | exact DF | intros c C; apply B, C]).
  pose proof (steep F F' 0 x (21 / 10 * (x * x * x * x * x * x)) (proj1 X) DF ltac:(intros c C; apply B, C)) as U.
  rewrite F0 in L, U. unfold F in L, U. replace (1 * x + 1) with (1 + x) in * by ring. replace (-1 * x + 1) with (1 - x) in * by ring. lra.
Qed.

Lemma ln_frac a b : 0 < a -> 0 < b -> ln (a / b) = ln a - ln b.
Proof. intros A B. unfold Rdiv. rewrite ln_mult, ln_Rinv; auto using Rinv_0_lt_compat. Qed.
(** ln 2 = 7 ln (16/15) + 5 ln (25/24) + 3 ln (81/80), each a ratio (1 + x) / (1 - x) for x = 1/31, 1/49, 1/161. *)
Lemma ln2_value : 1488522236 / 2 ^ 31 - 1 / 2 ^ 31 < ln 2 < 1488522236 / 2 ^ 31 + 1 / 2 ^ 31.
Proof.
  pose proof (ln_ratio (1 / 31) ltac:(lra)) as A. pose proof (ln_ratio (1 / 49) ltac:(lra)) as B. pose proof (ln_ratio (1 / 161) ltac:(lra)) as C.
  unfold atanh3 in A, B, C.
  replace (1 + 1 / 31) with (2 * 2 * 2 * 2 * 2 / 31) in A by field. replace (1 - 1 / 31) with (2 * 3 * 5 / 31) in A by field.
  replace (1 + 1 / 49) with (2 * 5 * 5 / 49) in B by field. replace (1 - 1 / 49) with (2 * 2 * 2 * 2 * 3 / 49) in B by field.
  replace (1 + 1 / 161) with (2 * 3 * 3 * 3 * 3 / 161) in C by field. replace (1 - 1 / 161) with (2 * 2 * 2 * 2 * 2 * 5 / 161) in C by field.
  rewrite !ln_frac in A by lra. rewrite !ln_frac in B by lra. rewrite !ln_frac in C by lra.
  rewrite !ln_mult in A by lra. rewrite !ln_mult in B by lra. rewrite !ln_mult in C by lra. lra.
Qed.

(** ** Logit and its inverse *)
Definition logit (p : R) : R := ln (p / (1 - p)).
Definition sigmoid (s : R) : R := 1 / (1 + exp (- s)).

Lemma logit_eq p : 0 < p < 1 -> logit p = ln (1 * p + 0) - ln (-1 * p + 1).
Proof. intros P. unfold logit. rewrite ln_frac by lra. f_equal; f_equal; ring. Qed.
Lemma dlim_inv_affine s m c : s * c + m <> 0 -> derivable_pt_lim (fun x => s / (s * x + m)) c (- (s * s) / ((s * c + m) * (s * c + m))).
Proof.
  intros N. replace (- (s * s) / ((s * c + m) * (s * c + m))) with ((0 * (s * c + m) - s * s) / Rsqr (s * c + m)) by (unfold Rsqr; field; exact N).
  apply (derivable_pt_lim_div (fun _ => s) (fun x => s * x + m)); [apply derivable_pt_lim_const | apply dlim_affine | exact N].
Qed.
Lemma logit_chord a b t : 0 < a -> a <= b -> b <= 1 / 2 -> 0 <= t <= 1 ->
  Rabs ((1 - t) * logit a + t * logit b - logit (a + t * (b - a))) <= (b - a) / a * ((b - a) / a) / 8.
Proof.
  intros A L B T. assert (I : 0 <= t * (b - a) <= b - a).
  { split; [apply Rmult_le_pos; lra|]. rewrite <- (Rmult_1_l (b - a)) at 2. apply Rmult_le_compat_r; lra. }
  rewrite !logit_eq by lra.
  pose proof (chord_error (fun x => ln (1 * x + 0) - ln (-1 * x + 1)) (fun x => 1 / (1 * x + 0) - -1 / (-1 * x + 1))
    (fun c => - (1 * 1) / ((1 * c + 0) * (1 * c + 0)) - - (-1 * -1) / ((-1 * c + 1) * (-1 * c + 1))) a b (1 / (a * a)) t) as H.
  cbv beta in H. replace ((b - a) / a * ((b - a) / a) / 8) with (1 / (a * a) * ((b - a) * (b - a)) / 8) by (field; lra).
  apply H; auto; intros c C.
  - apply (derivable_pt_lim_minus (fun x => ln (1 * x + 0)) (fun x => ln (-1 * x + 1))); apply dlim_ln_affine; lra.
  - apply (derivable_pt_lim_minus (fun x => 1 / (1 * x + 0)) (fun x => -1 / (-1 * x + 1))); apply dlim_inv_affine; lra.
  - assert (P : 0 < a * a) by (apply Rmult_lt_0_compat; lra).
    assert (Q : a * a <= c * c) by (apply Rmult_le_compat; lra).
    assert (Q' : c * c <= (1 - c) * (1 - c)) by (apply Rmult_le_compat; lra).
    replace (1 * c + 0) with c by ring. replace (-1 * c + 1) with (1 - c) by ring.
    replace (- (1 * 1) / (c * c) - - (-1 * -1) / ((1 - c) * (1 - c))) with (/ ((1 - c) * (1 - c)) - / (c * c)) by (field; lra).
    assert (0 < / ((1 - c) * (1 - c))) by (apply Rinv_0_lt_compat; lra).
    assert (/ ((1 - c) * (1 - c)) <= / (c * c)) by (apply Rinv_le_contravar; lra).
    assert (/ (c * c) <= / (a * a)) by (apply Rinv_le_contravar; lra).
    unfold Rdiv. lra.
Qed.

Lemma exp_1p s : 1 < 1 + exp (- s). Proof. pose proof (exp_pos (- s)). lra. Qed.
Lemma sigmoid_inside s : 0 < sigmoid s < 1.
Proof.
  unfold sigmoid. pose proof (exp_1p s) as E. split; [apply Rdiv_lt_0_compat; lra|].
  apply Rmult_lt_reg_r with (1 + exp (- s)); [lra|]. unfold Rdiv. rewrite Rmult_assoc, Rinv_l by lra. lra.
Qed.
Lemma sigmoid_logit p : 0 < p < 1 -> sigmoid (logit p) = p.
Proof. intros P. unfold sigmoid, logit. rewrite <- ln_Rinv, exp_ln; [field; lra | apply Rinv_0_lt_compat | ]; apply Rdiv_lt_0_compat; lra. Qed.
Lemma sigmoid_opp s : sigmoid (- s) = 1 - sigmoid s.
Proof.
  unfold sigmoid. rewrite Ropp_involutive, exp_Ropp. pose proof (exp_pos s). field. lra.
Qed.
Lemma dlim_sigmoid c : derivable_pt_lim sigmoid c (sigmoid c * (1 - sigmoid c)).
Proof.
  pose proof (exp_1p c) as E.
  assert (D : derivable_pt_lim (fun x => 1 + exp (- x)) c (0 + exp (- c) * -1)).
  { apply (derivable_pt_lim_plus (fun _ => 1) (fun x => exp (- x))); [apply derivable_pt_lim_const|].
    apply (derivable_pt_lim_comp (fun x => - x) exp); [apply (derivable_pt_lim_opp (fun x => x)), derivable_pt_lim_id | apply derivable_pt_lim_exp]. }
  replace (sigmoid c * (1 - sigmoid c)) with ((0 * (1 + exp (- c)) - (0 + exp (- c) * -1) * 1) / Rsqr (1 + exp (- c))) by (unfold sigmoid, Rsqr; field; lra).
  apply (derivable_pt_lim_div (fun _ => 1) (fun x => 1 + exp (- x))); [apply derivable_pt_lim_const | exact D | lra].
Qed.
Lemma dlim_sigmoid2 c : derivable_pt_lim (fun x => sigmoid x * (1 - sigmoid x)) c (sigmoid c * (1 - sigmoid c) * (1 - 2 * sigmoid c)).
Proof.
  set (d := sigmoid c * (1 - sigmoid c)).
  replace (d * (1 - 2 * sigmoid c)) with (d * (1 - sigmoid c) + sigmoid c * (0 - d)) by ring.
  apply (derivable_pt_lim_mult sigmoid (fun x => 1 - sigmoid x)); [apply dlim_sigmoid|].
  apply (derivable_pt_lim_minus (fun _ => 1) sigmoid); [apply derivable_pt_lim_const | apply dlim_sigmoid].
Qed.
Lemma cubic u : 0 <= u <= 1 -> u * (1 - u) * (1 - 2 * u) <= 1 / 10.
Proof.
  intros U. set (v := 1 - 2 * u). assert (V : -1 <= v <= 1) by (unfold v; lra).
  replace (u * (1 - u) * v) with ((v - v * v * v) / 4) by (unfold v; field).
  assert (H : 0 <= (v - 577 / 1000) * (v - 577 / 1000) * (v + 2 * (577 / 1000))) by (apply Rmult_le_pos; [apply Rle_0_sqr | lra]).
  replace ((v - 577 / 1000) * (v - 577 / 1000) * (v + 2 * (577 / 1000))) with (v * v * v - 3 * (577 / 1000) * (577 / 1000) * v + 2 * (577 / 1000) * (577 / 1000) * (577 / 1000)) in H by ring.
  lra.
Qed.
Lemma sigmoid_chord a b t : a <= b -> 0 <= t <= 1 -> Rabs ((1 - t) * sigmoid a + t * sigmoid b - sigmoid (a + t * (b - a))) <= (b - a) * (b - a) / 80.
Proof.
  intros L T. pose proof (chord_error sigmoid (fun x => sigmoid x * (1 - sigmoid x)) (fun c => sigmoid c * (1 - sigmoid c) * (1 - 2 * sigmoid c)) a b (1 / 10) t) as H.
  replace ((b - a) * (b - a) / 80) with (1 / 10 * ((b - a) * (b - a)) / 8) by field.
  apply H; auto; intros c C; [apply dlim_sigmoid | apply dlim_sigmoid2|].
  pose proof (sigmoid_inside c) as I. split; [|apply cubic; lra].
  pose proof (cubic (1 - sigmoid c) ltac:(lra)). replace (sigmoid c * (1 - sigmoid c) * (1 - 2 * sigmoid c)) with (- ((1 - sigmoid c) * (1 - (1 - sigmoid c)) * (1 - 2 * (1 - sigmoid c)))) by ring. lra.
Qed.
Lemma sigmoid_mono a b : a <= b -> sigmoid a <= sigmoid b.
Proof.
  intros L. apply (rises sigmoid (fun c => sigmoid c * (1 - sigmoid c))); [exact L | intros; apply dlim_sigmoid|].
  intros c _. pose proof (sigmoid_inside c). apply Rmult_le_pos; lra.
Qed.
(** The slope is at most a quarter; *)
Lemma sigmoid_quarter a b : Rabs (sigmoid a - sigmoid b) <= Rabs (a - b) / 4.
Proof.
  assert (G : forall x y, x <= y -> Rabs (sigmoid x - sigmoid y) <= Rabs (x - y) / 4).
  { intros x y L. pose proof (sigmoid_mono x y L).
    pose proof (steep sigmoid (fun c => sigmoid c * (1 - sigmoid c)) x y (1 / 4) L ltac:(intros; apply dlim_sigmoid)) as H1.
    assert (H2 : forall c, x <= c <= y -> sigmoid c * (1 - sigmoid c) <= 1 / 4).
    { intros c _. assert (0 <= (sigmoid c - 1 / 2) * (sigmoid c - 1 / 2)) by apply Rle_0_sqr. lra. }
    specialize (H1 H2). rewrite !Rabs_left1 by lra. lra. }
  destruct (Rle_or_lt a b) as [L|L]; [now apply G|]. rewrite (Rabs_minus_sym (sigmoid a)), (Rabs_minus_sym a). apply G. lra.
Qed.
(** and at most the value itself. *)
Lemma sigmoid_scaled a d : 0 <= d -> sigmoid (a + d) <= exp d * sigmoid a.
Proof.
  intros D. unfold sigmoid. replace (- (a + d)) with (- a + - d) by ring. rewrite exp_plus, (exp_Ropp d). set (x := exp (- a)).
  assert (X : 0 < x) by apply exp_pos. assert (E : 1 <= exp d) by (rewrite <- exp_0; destruct D as [D|D]; [left; now apply exp_increasing | rewrite D; lra]).
  replace (1 / (1 + x * / exp d)) with (exp d * (1 / (exp d + x))).
  2:{ field. split; [|lra]. assert (0 < x * / exp d) by (apply Rmult_lt_0_compat; [exact X | apply Rinv_0_lt_compat; lra]). lra. }
  apply Rmult_le_compat_l; [lra|]. unfold Rdiv. rewrite !Rmult_1_l. apply Rinv_le_contravar; lra.
Qed.
Lemma exp_small d : 0 <= d < 1 -> 1 - d <= exp (- d) /\ exp d <= / (1 - d).
Proof.
  intros D. assert (H : 1 - d <= exp (- d)). { pose proof (exp_ineq1_le (- d)). lra. }
  split; [exact H|]. rewrite <- (Ropp_involutive d), exp_Ropp, Ropp_involutive. apply Rinv_le_contravar; lra.
Qed.
Lemma sigmoid_small a b d : 0 <= d < 1 -> Rabs (a - b) <= d -> Rabs (sigmoid a - sigmoid b) <= d * (sigmoid b * / (1 - d)).
Proof.
  intros D H. assert (I : - d <= a - b <= d) by (unfold Rabs in H; destruct (Rcase_abs (a - b)); lra).
  assert (B : forall c, c <= b + d -> sigmoid c * (1 - sigmoid c) <= sigmoid b * / (1 - d)).
  { intros c C. pose proof (sigmoid_inside c). pose proof (sigmoid_inside b). pose proof (sigmoid_mono c (b + d) C). pose proof (sigmoid_scaled b d ltac:(lra)).
    pose proof (proj2 (exp_small d D)). assert (exp d * sigmoid b <= / (1 - d) * sigmoid b) by (apply Rmult_le_compat_r; lra).
    assert (sigmoid c * (1 - sigmoid c) <= sigmoid c * 1) by (apply Rmult_le_compat_l; lra). lra. }
  set (M := sigmoid b * / (1 - d)) in *.
  assert (M0 : 0 <= M) by (apply Rmult_le_pos; [pose proof (sigmoid_inside b); lra | left; apply Rinv_0_lt_compat; lra]).
  assert (G : forall x y, x <= y -> y <= b + d -> y - x <= d -> 0 <= sigmoid y - sigmoid x <= d * M).
  { intros x y L Y W. pose proof (sigmoid_mono x y L). pose proof (steep sigmoid (fun c => sigmoid c * (1 - sigmoid c)) x y M L ltac:(intros; apply dlim_sigmoid) ltac:(intros; apply B; lra)).
    assert (M * (y - x) <= M * d) by (apply Rmult_le_compat_l; lra). lra. }
  destruct (Rle_or_lt a b) as [L|L].
  - pose proof (G a b L ltac:(lra) ltac:(lra)). rewrite Rabs_left1; lra.
  - pose proof (G b a ltac:(lra) ltac:(lra) ltac:(lra)). rewrite Rabs_right; lra.
Qed.
