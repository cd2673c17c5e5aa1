(** The cost of bits under an estimator against the cost with the best fixed probability. *)
From Coq Require Import ZifyBool Reals Lra.
From Verif Require Import Base BaseFacts EstModel EstSpec EstProofs LogModel LogSpec LogProofs LogReal RealFacts PredSpec StatesModel StatesProofs PredStats CostSpec CostReal SimModel SimSpec SimProofs.
Ltac Zify.zify_post_hook ::= Z.div_mod_to_equations.
Local Open Scope R_scope.

(** ** Two inequalities *)
Lemma ln_up k : 0 < k -> 1 / (k + 1 / 2) <= ln (k + 1) - ln k.
Proof.
  intros K. set (f := fun x => (ln (1 * x + 1) - ln (-1 * x + 1)) - 2 * x). set (u := 1 / (2 * k + 1)).
  assert (U : 0 < u < 1). { unfold u. split; [apply Rdiv_lt_0_compat; lra|]. apply Rmult_lt_reg_r with (2 * k + 1); [lra|]. unfold Rdiv. rewrite Rmult_assoc, Rinv_l; lra. }
  assert (H : f 0 <= f u).
  { apply (rises f (fun x => (1 / (1 * x + 1) - (-1) / (-1 * x + 1)) - 2) 0 u); [lra| |].
    - intros c C. unfold f. apply (derivable_pt_lim_minus (fun x => ln (1 * x + 1) - ln (-1 * x + 1)) (fun x => 2 * x)).
      + apply (derivable_pt_lim_minus (fun x => ln (1 * x + 1)) (fun x => ln (-1 * x + 1))); apply dlim_ln_affine; lra.
      + pose proof (dlim_affine 2 0 c) as D. apply derivable_pt_lim_ext with (f := fun x => 2 * x + 0); [intros x; ring|exact D].
    - intros c C. replace (1 / (1 * c + 1) - -1 / (-1 * c + 1) - 2) with (2 * (c * c) / ((1 + c) * (1 - c))) by (field; lra).
      apply Rmult_le_pos; [nra|]. left. apply Rinv_0_lt_compat. nra. }
  unfold f in H. replace (1 * 0 + 1) with 1 in H by ring. replace (-1 * 0 + 1) with 1 in H by ring. rewrite ln_1 in H.
  assert (E1 : 1 * u + 1 = (2 * k + 2) / (2 * k + 1)) by (unfold u; field; lra). assert (E2 : -1 * u + 1 = (2 * k) / (2 * k + 1)) by (unfold u; field; lra).
  rewrite E1, E2, !ln_frac in H by lra. replace (2 * k + 2) with (2 * (k + 1)) in H by ring. rewrite (ln_mult 2 (k + 1)), (ln_mult 2 k) in H by lra.
  replace (1 / (k + 1 / 2)) with (2 * u) by (unfold u; field; lra). lra.
Qed.
Lemma xlnx_step a : 1 / 2 <= a -> (a + 1) * ln (a + 1) - a * ln a <= 1 + ln (a + 1 / 2).
Proof.
  intros A. set (m := a + 1 / 2). set (u := 1 / (2 * m)).
  assert (U : 0 < u <= 1 / 2). { unfold u, m. split; [apply Rdiv_lt_0_compat; lra|]. apply Rmult_le_reg_r with (2 * (a + 1 / 2)); [lra|]. unfold Rdiv. rewrite Rmult_assoc, Rinv_l; lra. }
  set (f := fun x => (1 * x + 1) * ln (1 * x + 1) - (-1 * x + 1) * ln (-1 * x + 1)).
  assert (H : f u - f 0 <= 2 * (u - 0)).
  { apply (steep f (fun x => (1 * ln (1 * x + 1) + (1 * x + 1) * (1 / (1 * x + 1))) - ((-1) * ln (-1 * x + 1) + (-1 * x + 1) * (-1 / (-1 * x + 1)))) 0 u 2); [lra| |].
    - intros c C. unfold f. apply (derivable_pt_lim_minus (fun x => (1 * x + 1) * ln (1 * x + 1)) (fun x => (-1 * x + 1) * ln (-1 * x + 1))).
      + apply (derivable_pt_lim_mult (fun x => 1 * x + 1) (fun x => ln (1 * x + 1))); [apply dlim_affine|apply dlim_ln_affine; lra].
      + apply (derivable_pt_lim_mult (fun x => -1 * x + 1) (fun x => ln (-1 * x + 1))); [apply dlim_affine|apply dlim_ln_affine; lra].
    - intros c C. assert (E : ln (1 * c + 1) + ln (-1 * c + 1) <= 0).
      { rewrite <- ln_mult by lra. rewrite <- ln_1. apply ln_mono; nra. }
      replace ((1 * c + 1) * (1 / (1 * c + 1))) with 1 by (field; lra). replace ((-1 * c + 1) * (-1 / (-1 * c + 1))) with (-1) by (field; lra). lra. }
  unfold f in H. replace (1 * 0 + 1) with 1 in H by ring. replace (-1 * 0 + 1) with 1 in H by ring. rewrite ln_1 in H.
  assert (M : 0 < m) by (unfold m; lra). assert (E1 : 1 * u + 1 = (a + 1) / m) by (unfold u, m; field; lra). assert (E2 : -1 * u + 1 = a / m) by (unfold u, m; field; lra).
  rewrite E1, E2, !ln_frac in H by lra.
  assert (G : m * ((a + 1) / m * (ln (a + 1) - ln m) - a / m * (ln a - ln m)) <= m * (2 * u)) by (apply Rmult_le_compat_l; lra).
  replace (m * (2 * u)) with 1 in G by (unfold u; field; lra).
  replace (m * ((a + 1) / m * (ln (a + 1) - ln m) - a / m * (ln a - ln m))) with ((a + 1) * (ln (a + 1) - ln m) - a * (ln a - ln m)) in G by (field; lra). lra.
Qed.

(** ** Products of half-integers and of integers, and a harmonic sum *)
Fixpoint lg (a : nat) : R := match a with O => 0 | S k => lg k + ln (INR k + 1 / 2) end.
Fixpoint lf (a : nat) : R := match a with O => 0 | S k => lf k + ln (INR k + 1) end.
Fixpoint hs (a : nat) : R := match a with O => 0 | S k => hs k + 1 / (INR k + 1 / 2) end.
Lemma lg_lower a : (1 <= a)%nat -> INR a * ln (INR a) - INR a + 1 - ln 2 <= lg a.
Proof.
  induction a as [|a IH]; [lia|]. intros _. destruct a as [|a].
  - cbn [lg]. change (INR 1) with 1. change (INR 0) with 0. rewrite ln_1. replace (0 + 1 / 2) with (/ 2) by lra. rewrite ln_Rinv by lra. lra.
  - specialize (IH ltac:(lia)). set (k := Datatypes.S a) in *. cbn [lg]. rewrite S_INR. assert (K : 1 <= INR k) by (unfold k; rewrite S_INR; pose proof (pos_INR a); lra).
    pose proof (xlnx_step (INR k) ltac:(lra)). lra.
Qed.
Lemma lf_upper n : (1 <= n)%nat -> lf n <= INR n * ln (INR n) - INR n + 1 + 1 / 2 * ln (INR n).
Proof.
  induction n as [|n IH]; [lia|]. intros _. destruct n as [|n].
  - cbn [lf]. change (INR 1) with 1. change (INR 0) with 0. replace (0 + 1) with 1 by lra. rewrite ln_1. lra.
  - specialize (IH ltac:(lia)). set (k := Datatypes.S n) in *. cbn [lf]. rewrite S_INR. assert (K : 1 <= INR k) by (unfold k; rewrite S_INR; pose proof (pos_INR n); lra).
    pose proof (ln_up (INR k) ltac:(lra)) as U. assert (V : 1 <= (INR k + 1 / 2) * (ln (INR k + 1) - ln (INR k))).
    { apply Rmult_le_compat_l with (r := INR k + 1 / 2) in U; [|lra]. replace ((INR k + 1 / 2) * (1 / (INR k + 1 / 2))) with 1 in U by (field; lra). lra. }
    lra.
Qed.
Lemma hs_upper a : (1 <= a)%nat -> hs a <= 2 + ln (INR a).
Proof.
  induction a as [|a IH]; [lia|]. intros _. destruct a as [|a].
  - cbn [hs]. change (INR 1) with 1. change (INR 0) with 0. rewrite ln_1. lra.
  - specialize (IH ltac:(lia)). set (k := Datatypes.S a) in *. cbn [hs]. rewrite S_INR. assert (K : 1 <= INR k) by (unfold k; rewrite S_INR; pose proof (pos_INR a); lra).
    pose proof (ln_up (INR k) ltac:(lra)). lra.
Qed.
Lemma hs_bound a : (a <= 1002)%nat -> hs a <= 894 / 100.
Proof.
  intros A. destruct a as [|a]; [cbn; lra|]. set (k := Datatypes.S a) in *. pose proof (hs_upper k ltac:(lia)) as H. assert (K : 1 <= INR k) by (unfold k; rewrite S_INR; pose proof (pos_INR a); lra).
  assert (K2 : INR k <= 1024). { apply Rle_trans with (INR 1002); [now apply le_INR|]. rewrite INR_IZR_INZ. apply IZR_le. reflexivity || (cbn; lia). }
  assert (L : ln (INR k) <= ln (2 ^ 10)) by (apply ln_mono; lra). rewrite ln_pow in L by lra. pose proof ln2_value. change (INR 10) with (1+1+1+1+1+1+1+1+1+1) in L. lra.
Qed.
Lemma hs_nonneg a : 0 <= hs a.
Proof. induction a as [|a IH]; cbn [hs]; [lra|]. pose proof (pos_INR a). assert (0 < 1 / (INR a + 1 / 2)) by (apply Rdiv_lt_0_compat; lra). lra. Qed.

(** ** The ideal estimator against a fixed probability *)
Lemma gibbs q a n : 0 < q -> 0 < n -> 0 < a -> a * ln q <= a * (ln a - ln n) + (q * n - a).
Proof.
  intros Q N A. pose proof (ln_le_sub1 (q * n / a)) as H. assert (P : 0 < q * n / a) by (apply Rdiv_lt_0_compat; nra). specialize (H P).
  rewrite ln_frac, ln_mult in H by nra. apply Rmult_le_compat_l with (r := a) in H; [|lra]. replace (a * (q * n / a - 1)) with (q * n - a) in H by (field; lra). lra.
Qed.
Lemma ideal_regret a b q : (1 <= a + b)%nat -> 0 < q < 1 ->
  INR a * ln q + INR b * ln (1 - q) - ln 2 - 1 / 2 * ln (INR (a + b)) <= lg a + lg b - lf (a + b).
Proof.
  intros N Q. pose proof (lf_upper (a + b) N) as F. assert (NP : 1 <= INR (a + b)) by (change 1 with (INR 1); now apply le_INR). assert (E : INR (a + b) = INR a + INR b) by apply plus_INR.
  assert (Q1 : ln q <= 0) by (rewrite <- ln_1; apply ln_mono; lra). assert (Q2 : ln (1 - q) <= 0) by (rewrite <- ln_1; apply ln_mono; lra).
  pose proof ln2_value as L2. destruct a as [|a].
  - cbn [Nat.add] in *. pose proof (lg_lower b N) as G. change (lg 0) with 0. change (INR 0) with 0 in *. pose proof (pos_INR b). nra.
  - destruct b as [|b].
    + rewrite Nat.add_0_r in *. pose proof (lg_lower (Datatypes.S a) N) as G. change (lg 0) with 0. change (INR 0) with 0 in *. pose proof (pos_INR (Datatypes.S a)). nra.
    + set (x := Datatypes.S a) in *. set (y := Datatypes.S b) in *. pose proof (lg_lower x ltac:(lia)) as GX. pose proof (lg_lower y ltac:(lia)) as GY.
      assert (X : 1 <= INR x) by (change 1 with (INR 1); apply le_INR; lia). assert (Y : 1 <= INR y) by (change 1 with (INR 1); apply le_INR; lia).
      pose proof (gibbs q (INR x) (INR (x + y)) ltac:(lra) ltac:(lra) ltac:(lra)) as B1. pose proof (gibbs (1 - q) (INR y) (INR (x + y)) ltac:(lra) ltac:(lra) ltac:(lra)) as B2.
      rewrite E in *. lra.
Qed.

(** ** The estimator against the ideal one *)
Definition zc (h : list bit) : nat := Z.to_nat (zeros h).
Definition oc (h : list bit) : nat := Z.to_nat (zlen h - zeros h).
Lemma zeros_le h : (0 <= zeros h <= zlen h)%Z.
Proof. induction h as [|b h IH] using rev_ind; [cbn; lia|]. rewrite zeros_snoc, zlen_app. change (zlen [b]) with 1%Z. destruct b; cbn; lia. Qed.
Lemma counts_snoc h (b : bit) : if b then zc (h ++ [b]) = zc h /\ oc (h ++ [b]) = Datatypes.S (oc h) else zc (h ++ [b]) = Datatypes.S (zc h) /\ oc (h ++ [b]) = oc h.
Proof. pose proof (zeros_le h). unfold zc, oc. rewrite zeros_snoc, zlen_app. change (zlen [b]) with 1%Z. destruct b; cbn -[Z.to_nat Z.add Z.sub]; lia. Qed.
Definition phi (E : R) (h : list bit) : R := lf (zc h + oc h) - lg (zc h) - lg (oc h) + E * (hs (zc h) + hs (oc h)).
(** A share [x] of a bit that is close to [(k + 1/2) / (i + 1)]. *)
Lemma share_cost x k i d E : 0 < x -> 0 <= k -> 0 <= i -> 0 <= d <= 1 / 16 -> 8 / 7 * d <= E -> (k + 1 / 2) - d <= x * (i + 1) ->
  - ln x <= ln (i + 1) - ln (k + 1 / 2) + E * (1 / (k + 1 / 2)).
Proof.
  intros X K I D HE L. set (c := k + 1 / 2) in *. assert (C : 1 / 2 <= c) by (unfold c; lra). set (y := 1 - d / c).
  assert (DC : 0 <= d / c <= 1 / 8).
  { split; [apply Rmult_le_pos; [lra|]; left; apply Rinv_0_lt_compat; lra|]. apply Rmult_le_reg_r with c; [lra|]. replace (d / c * c) with d by (field; lra). lra. }
  assert (Y : 7 / 8 <= y) by (unfold y; lra). assert (XY : c * y / (i + 1) <= x).
  { apply Rmult_le_reg_r with (i + 1); [lra|]. replace (c * y / (i + 1) * (i + 1)) with (c - d) by (unfold y; field; lra). exact L. }
  assert (LN : ln (c * y / (i + 1)) <= ln x) by (apply ln_mono; [apply Rdiv_lt_0_compat; nra|exact XY]). rewrite ln_frac, ln_mult in LN by nra.
  pose proof (ln_ge_inv y ltac:(lra)) as G. assert (I2 : / y <= 1 + 8 / 7 * (d / c)).
  { apply Rmult_le_reg_r with y; [lra|]. rewrite Rinv_l by lra. unfold y at 1. set (t := d / c) in *. nra. }
  assert (EC : 8 / 7 * (d / c) <= E * (1 / c)).
  { replace (8 / 7 * (d / c)) with ((8 / 7 * d) * (1 / c)) by (field; lra). apply Rmult_le_compat_r; [|exact HE]. left. apply Rdiv_lt_0_compat; lra. }
  lra.
Qed.
Lemma share_cost_low x k i d E : 0 < x -> 0 <= k -> 0 <= i -> 0 <= d -> d <= E -> x * (i + 1) <= (k + 1 / 2) + d ->
  ln (i + 1) - ln (k + 1 / 2) + - E * (1 / (k + 1 / 2)) <= - ln x.
Proof.
  intros X K I D HE L. set (c := k + 1 / 2) in *. assert (C : 1 / 2 <= c) by (unfold c; lra). assert (XY : x <= c * (1 + d / c) / (i + 1)).
  { apply Rmult_le_reg_r with (i + 1); [lra|]. replace (c * (1 + d / c) / (i + 1) * (i + 1)) with (c + d) by (field; lra). exact L. }
  assert (DC : 0 <= d / c) by (apply Rmult_le_pos; [lra|]; left; apply Rinv_0_lt_compat; lra).
  assert (LN : ln x <= ln (c * (1 + d / c) / (i + 1))) by (apply ln_mono; assumption). rewrite ln_frac, ln_mult in LN by nra.
  pose proof (ln_le_sub1 (1 + d / c) ltac:(lra)) as G. assert (EC : d / c <= E * (1 / c)).
  { replace (d / c) with (d * (1 / c)) by (field; lra). apply Rmult_le_compat_r; [|exact HE]. left. apply Rdiv_lt_0_compat; lra. }
  lra.
Qed.
Lemma bit_step rates h b n E : rates_ok rates -> (forall n, (0 <= n <= 1023)%Z -> znth rates n = Some (2 ^ 31 / (n + 2))%Z) -> (zlen h + 1 <= n <= 1002)%Z ->
  8 / 7 * (257 * (IZR (n - 1) * IZR (n + 2)) / 2 ^ 32) <= E -> info (b, predicted_after rates h) * ln 2 + phi E h <= phi E (h ++ [b]) /\ phi (- E) (h ++ [b]) <= info (b, predicted_after rates h) * ln 2 + phi (- E) h.
Proof.
  intros R K L HE. destruct (de_frequency rates h R K ltac:(lia)) as (p & ER & P & F). destruct (predicted_spec rates R h) as (p' & ER' & _ & EP).
  rewrite ER in ER'. injection ER' as EQ. assert (p' = p) by (clear - EQ; lia). subst p'. clear EQ ER. rewrite EP. clear EP. set (i := zlen h) in *. pose proof (zlen_nonneg h) as I0. fold i in I0.
  pose proof (zeros_le h) as ZL. fold i in ZL.
  set (d := 257 * (IZR i * IZR (i + 3)) / 2 ^ 32).
  assert (DE : d <= 257 * (IZR (n - 1) * IZR (n + 2)) / 2 ^ 32).
  { unfold d. rewrite <- !mult_IZR. apply Rmult_le_compat_r; [left; apply Rinv_0_lt_compat; lra|]. apply IZR_le. apply Z.mul_le_mono_nonneg_l; [lia|]. apply Z.mul_le_mono_nonneg; lia. }
  assert (D : 0 <= d <= 1 / 16).
  { unfold d. rewrite plus_IZR. assert (0 <= i <= 1001)%Z as (A1 & A2) by lia. apply IZR_le in A1, A2. clear - A1 A2. assert (0 <= IZR i * (IZR i + 3) <= 1001 * 1004) by nra. lra. }
  assert (Z1 : INR (zc h) = IZR (zeros h)) by (unfold zc; rewrite INR_IZR_INZ, Z2Nat.id; [reflexivity|lia]).
  assert (O1 : INR (oc h) = IZR i - IZR (zeros h)) by (unfold oc; rewrite INR_IZR_INZ, Z2Nat.id by (fold i; lia); fold i; now rewrite minus_IZR).
  assert (N1 : INR (zc h + oc h) = IZR i) by (rewrite plus_INR; lra).
  assert (F2 : Rabs (IZR p / 2 ^ 22 * (IZR i + 1) - (IZR (zeros h) + 1 / 2)) <= d).
  { apply IZR_le in F. rewrite mult_IZR, abs_IZR, minus_IZR, !mult_IZR, !plus_IZR, mult_IZR in F. change (IZR (2 ^ 22)) with 4194304 in F. unfold d. rewrite plus_IZR.
    replace (IZR p / 2 ^ 22 * (IZR i + 1) - (IZR (zeros h) + 1 / 2)) with ((2 * (IZR i + 1) * IZR p - (2 * IZR (zeros h) + 1) * 4194304) * (1 / 8388608)) by field.
    rewrite Rabs_mult, (Rabs_right (1 / 8388608)) by lra. lra. }
  apply Rabs_le_inv in F2. assert (HD : 8 / 7 * d <= E) by (eapply Rle_trans; [|exact HE]; apply Rmult_le_compat_l; [lra|exact DE]). clear HE DE. clearbody d. assert (PP : 0 < IZR p < 4194304) by (split; [apply (IZR_lt 0)|apply (IZR_lt p 4194304)]; lia). assert (IP : 0 <= IZR i) by (apply (IZR_le 0); exact I0).
  assert (ZP : 0 <= IZR (zeros h) <= IZR i) by (split; [apply (IZR_le 0)|apply IZR_le]; lia).
  pose proof (counts_snoc h b) as CS. unfold info, log2R. pose proof ln2_lower as L2.
  replace (- (ln (IZR (units (b, (2 * p)%Z)) / 2 ^ 23) / ln 2) * ln 2) with (- ln (IZR (units (b, (2 * p)%Z)) / 2 ^ 23)) by (field; lra).
  unfold phi. destruct b; destruct CS as (-> & ->); [rewrite Nat.add_succ_r | rewrite Nat.add_succ_l]; cbn [lf lg hs]; rewrite N1.
  - match goal with |- - ln ?x + _ <= _ /\ _ => replace x with (1 - IZR p / 2 ^ 22) end.
    2: { unfold units. cbn [fst snd]. rewrite minus_IZR, mult_IZR, p23. field. }
    rewrite O1. pose proof (share_cost (1 - IZR p / 2 ^ 22) (IZR i - IZR (zeros h)) (IZR i) d E ltac:(lra) ltac:(lra) ltac:(lra) ltac:(lra) ltac:(lra) ltac:(lra)) as S.
    pose proof (share_cost_low (1 - IZR p / 2 ^ 22) (IZR i - IZR (zeros h)) (IZR i) d E ltac:(lra) ltac:(lra) ltac:(lra) ltac:(lra) ltac:(lra) ltac:(lra)) as S'. rewrite !Rmult_plus_distr_l.
    split; lra.
  - match goal with |- - ln ?x + _ <= _ /\ _ => replace x with (IZR p / 2 ^ 22) end.
    2: { unfold units. cbn [fst snd]. rewrite mult_IZR. field. }
    rewrite Z1. pose proof (share_cost (IZR p / 2 ^ 22) (IZR (zeros h)) (IZR i) d E ltac:(lra) ltac:(lra) ltac:(lra) ltac:(lra) ltac:(lra) ltac:(lra)) as S.
    pose proof (share_cost_low (IZR p / 2 ^ 22) (IZR (zeros h)) (IZR i) d E ltac:(lra) ltac:(lra) ltac:(lra) ltac:(lra) ltac:(lra) ltac:(lra)) as S'. rewrite !Rmult_plus_distr_l.
    split; lra.
Qed.
Lemma run_phi rates n E rest : rates_ok rates -> (forall n, (0 <= n <= 1023)%Z -> znth rates n = Some (2 ^ 31 / (n + 2))%Z) -> (n <= 1002)%Z ->
  8 / 7 * (257 * (IZR (n - 1) * IZR (n + 2)) / 2 ^ 32) <= E -> forall before, (zlen before + zlen rest <= n)%Z ->
  information (predicted rates before rest) * ln 2 + phi E before <= phi E (before ++ rest) /\ phi (- E) (before ++ rest) <= information (predicted rates before rest) * ln 2 + phi (- E) before.
Proof.
  intros R K N HE. induction rest as [|b rest IH]; intros before L.
  - rewrite app_nil_r. cbn. lra.
  - rewrite zlen_cons in L. pose proof (zlen_nonneg rest). cbn [predicted]. unfold information in *. cbn [map rsum fold_right]. fold (rsum (map info (predicted rates (before ++ [b]) rest))).
    assert (L' : (zlen (before ++ [b]) + zlen rest <= n)%Z) by (rewrite zlen_app; change (zlen [b]) with 1%Z; lia). specialize (IH (before ++ [b]) L'). rewrite <- app_assoc in IH. cbn [app] in IH.
    pose proof (bit_step rates before b n E R K ltac:(lia) HE). split; lra.
Qed.
(** ** The other side: no estimator of this kind is better than the frequencies themselves *)
Lemma lf_lower n : (1 <= n)%nat -> INR n * ln (INR n) - INR n + 1 <= lf n.
Proof.
  induction n as [|n IH]; [lia|]. intros _. destruct n as [|n].
  - cbn [lf]. change (INR 1) with 1. change (INR 0) with 0. replace (0 + 1) with 1 by lra. rewrite ln_1. lra.
  - specialize (IH ltac:(lia)). set (k := Datatypes.S n) in *. cbn [lf]. rewrite S_INR. assert (K : 1 <= INR k) by (unfold k; rewrite S_INR; pose proof (pos_INR n); lra).
    pose proof (ln_le_sub1 ((INR k + 1) / INR k) ltac:(apply Rdiv_lt_0_compat; lra)) as U. rewrite ln_frac in U by lra.
    apply Rmult_le_compat_l with (r := INR k) in U; [|lra]. replace (INR k * ((INR k + 1) / INR k - 1)) with 1 in U by (field; lra). lra.
Qed.
Lemma lg_upper a : (1 <= a)%nat -> lg a + 1 / 8 * / INR a <= INR a * ln (INR a) - INR a + 1 - ln 2 + 1 / 8.
Proof.
  induction a as [|a IH]; [lia|]. intros _. destruct a as [|a].
  - cbn [lg]. change (INR 1) with 1. change (INR 0) with 0. rewrite ln_1, Rinv_1. replace (0 + 1 / 2) with (/ 2) by lra. rewrite ln_Rinv by lra. lra.
  - specialize (IH ltac:(lia)). set (k := Datatypes.S a) in *. cbn [lg]. rewrite S_INR. assert (K : 1 <= INR k) by (unfold k; rewrite S_INR; pose proof (pos_INR a); lra).
    set (x := INR k) in *. clearbody x. pose proof (ln_up x ltac:(lra)) as U. apply Rmult_le_compat_l with (r := x + 1 / 2) in U; [|lra]. replace ((x + 1 / 2) * (1 / (x + 1 / 2))) with 1 in U by (field; lra).
    pose proof (ln_le_sub1 ((x + 1 / 2) * (x + 1 / 2) / (x * (x + 1))) ltac:(apply Rdiv_lt_0_compat; nra)) as V. rewrite ln_frac, !ln_mult in V by nra.
    replace ((x + 1 / 2) * (x + 1 / 2) / (x * (x + 1)) - 1) with (1 / 4 * / x - 1 / 4 * / (x + 1)) in V by (field; lra). lra.
Qed.
Lemma ideal_best a b : (1 <= a + b)%nat -> lg a + lg b - lf (a + b) <= INR a * (ln (INR a) - ln (INR (a + b))) + INR b * (ln (INR b) - ln (INR (a + b))).
Proof.
  intros N. pose proof (lf_lower (a + b) N) as F. pose proof (plus_INR a b) as E. pose proof ln2_value as L2. destruct a as [|a].
  - cbn [Nat.add] in *. pose proof (lg_upper b N) as G. assert (0 < / INR b) by (apply Rinv_0_lt_compat; apply (lt_INR 0); lia). change (lg 0) with 0. change (INR 0) with 0 in *. lra.
  - destruct b as [|b].
    + rewrite Nat.add_0_r in *. pose proof (lg_upper (Datatypes.S a) N) as G. assert (0 < / INR (Datatypes.S a)) by (apply Rinv_0_lt_compat; apply (lt_INR 0); lia). change (lg 0) with 0. change (INR 0) with 0 in *. lra.
    + set (x := Datatypes.S a) in *. set (y := Datatypes.S b) in *. pose proof (lg_upper x ltac:(lia)) as GX. pose proof (lg_upper y ltac:(lia)) as GY.
      assert (0 < / INR x) by (apply Rinv_0_lt_compat; apply (lt_INR 0); lia). assert (0 < / INR y) by (apply Rinv_0_lt_compat; apply (lt_INR 0); lia). rewrite E in *. lra.
Qed.

Lemma run_regret rates h : rates_default = Ok rates -> (1 <= zlen h <= 1002)%Z ->
  (forall q, 0 < q < 1 -> information (predicted rates [] h) <= fixed_cost q h + 1 / 2 * log2R (IZR (zlen h)) + 1 + IZR (zlen h) * IZR (zlen h + 1) / 500000) /\
  fixed_cost (IZR (zeros h) / IZR (zlen h)) h <= information (predicted rates [] h) + IZR (zlen h) * IZR (zlen h + 1) / 500000.
Proof.
  intros ED N. destruct rates_default_ok as (r & E' & R & K). rewrite ED in E'. injection E' as <-. clear ED. set (n := zlen h) in *. set (E := 8 / 7 * (257 * (IZR (n - 1) * IZR (n + 2)) / 2 ^ 32)).
  destruct (run_phi rates n E h R K ltac:(lia) ltac:(unfold E; lra) [] ltac:(change (zlen (@nil bit)) with 0%Z; fold n; lia)) as (H & H'). cbn [app] in H, H'.
  assert (P0 : forall e, phi e [] = 0) by (intros e; unfold phi; cbn; lra). rewrite !P0 in H, H'. unfold phi in H, H'. pose proof (zeros_le h) as ZL. fold n in ZL.
  assert (ZN : INR (zc h) = IZR (zeros h)) by (unfold zc; rewrite INR_IZR_INZ, Z2Nat.id; [reflexivity|lia]).
  assert (ON : INR (oc h) = IZR (n - zeros h)) by (unfold oc; rewrite INR_IZR_INZ, Z2Nat.id by (fold n; lia); reflexivity).
  assert (NN : INR (zc h + oc h) = IZR n) by (rewrite plus_INR, ZN, ON, minus_IZR; lra).
  pose proof (hs_bound (zc h) ltac:(unfold zc; lia)) as H1. pose proof (hs_bound (oc h) ltac:(unfold oc; fold n; lia)) as H2. pose proof ln2_value as L2.
  assert (EP : 0 <= E).
  { unfold E. rewrite minus_IZR, plus_IZR. assert (1 <= IZR n) as A by (apply (IZR_le 1); lia). clear - A. assert (0 <= (IZR n - 1) * (IZR n + 2)) by nra. lra. }
  assert (EH : E * (hs (zc h) + hs (oc h)) <= IZR n * IZR (n + 1) / 500000 * ln 2).
  { apply Rle_trans with (E * (1788 / 100)); [apply Rmult_le_compat_l; lra|]. unfold E. rewrite minus_IZR, !plus_IZR. assert (1 <= IZR n) by (apply (IZR_le 1); lia). nra. }
  assert (NZ : (1 <= zc h + oc h)%nat) by (unfold zc, oc; fold n; lia). split.
  - intros q Q. pose proof (ideal_regret (zc h) (oc h) q NZ Q) as I. rewrite NN, ZN, ON in I.
    apply Rmult_le_reg_r with (ln 2); [lra|]. unfold fixed_cost, log2R.
    replace ((IZR (zeros h) * - (ln q / ln 2) + IZR (zlen h - zeros h) * - (ln (1 - q) / ln 2) + 1 / 2 * (ln (IZR n) / ln 2) + 1 + IZR n * IZR (n + 1) / 500000) * ln 2)
      with (- (IZR (zeros h) * ln q) - IZR (n - zeros h) * ln (1 - q) + 1 / 2 * ln (IZR n) + ln 2 + IZR n * IZR (n + 1) / 500000 * ln 2) by (fold n; field; lra).
    lra.
  - pose proof (ideal_best (zc h) (oc h) NZ) as I. rewrite NN, ZN, ON in I. set (w := IZR (zeros h)) in *. assert (NP : 1 <= IZR n) by (apply (IZR_le 1); lia).
    assert (A : w * ln (w / IZR n) = w * (ln w - ln (IZR n))).
    { destruct (Z.eq_dec (zeros h) 0) as [Z0|Z0]; [unfold w; rewrite Z0; lra|]. rewrite ln_frac; [lra| |lra]. unfold w. apply (IZR_lt 0). lia. }
    assert (B : IZR (n - zeros h) * ln (1 - w / IZR n) = IZR (n - zeros h) * (ln (IZR (n - zeros h)) - ln (IZR n))).
    { destruct (Z.eq_dec (n - zeros h) 0) as [Z0|Z0]; [rewrite Z0; lra|]. replace (1 - w / IZR n) with (IZR (n - zeros h) / IZR n) by (rewrite minus_IZR; fold w; field; lra).
      rewrite ln_frac; [lra| |lra]. apply (IZR_lt 0). lia. }
    apply Rmult_le_reg_r with (ln 2); [lra|]. unfold fixed_cost, log2R. fold n. fold w.
    replace ((w * - (ln (w / IZR n) / ln 2) + IZR (n - zeros h) * - (ln (1 - w / IZR n) / ln 2)) * ln 2) with (- (w * ln (w / IZR n)) - IZR (n - zeros h) * ln (1 - w / IZR n)) by (field; lra).
    rewrite A, B. lra.
Qed.

(** ** Runs *)
Lemma cut_fuel n bits f : (1 <= n)%Z -> (length bits <= f)%nat -> cut f n bits = in_runs n bits.
Proof.
  intros N. unfold in_runs. remember (length bits) as m eqn:M. revert bits f M. induction m as [m IH] using lt_wf_ind. intros bits f M F.
  destruct bits as [|b bits]; [destruct f, m; reflexivity|]. cbn [length] in M. destruct m as [|m]; [lia|]. destruct f as [|f]; [lia|]. cbn [cut]. f_equal.
  assert (L : (length (skipn (Z.to_nat n) (b :: bits)) <= m)%nat) by (rewrite skipn_length; cbn [length]; lia).
  rewrite (IH (length (skipn (Z.to_nat n) (b :: bits))) ltac:(lia) _ f eq_refl) by lia. symmetry. apply IH; lia.
Qed.
Lemma in_runs_app n run rest : (1 <= n)%Z -> zlen run = n -> in_runs n (run ++ rest) = run :: in_runs n rest.
Proof.
  intros N L. unfold zlen in L. unfold in_runs at 1. destruct run as [|b run]; [cbn [length] in L; lia|]. change ((b :: run) ++ rest) with (b :: run ++ rest). cbn [length cut].
  change (b :: run ++ rest) with ((b :: run) ++ rest). replace (Z.to_nat n) with (length (b :: run)) by lia.
  rewrite firstn_app, Nat.sub_diag, firstn_O, app_nil_r, firstn_all, skipn_app, Nat.sub_diag, skipn_all. cbn [app skipn]. f_equal. apply cut_fuel; [exact N|]. rewrite app_length. lia.
Qed.
Lemma in_runs_short n bits : (1 <= zlen bits <= n)%Z -> in_runs n bits = [bits].
Proof.
  intros L. unfold in_runs, zlen in *. destruct bits as [|b bits]; [cbn [length] in L; lia|]. cbn [length cut]. rewrite firstn_all2 by lia. rewrite skipn_all2 by lia. destruct (length bits); reflexivity.
Qed.
Lemma runs_ind n (P : list bit -> Prop) : (1 <= n)%Z -> P [] -> (forall bits, (1 <= zlen bits <= n)%Z -> P bits) -> (forall run rest, zlen run = n -> P rest -> P (run ++ rest)) -> forall bits, P bits.
Proof.
  intros N P0 P1 P2 bits. remember (length bits) as m eqn:M. revert bits M. induction m as [m IH] using lt_wf_ind. intros bits M. destruct bits as [|b bits]; [exact P0|].
  destruct (Z.le_gt_cases (zlen (b :: bits)) n) as [LE|GT]; [apply P1; rewrite zlen_cons in *; pose proof (zlen_nonneg bits); lia|].
  rewrite <- (firstn_skipn (Z.to_nat n) (b :: bits)). apply P2.
  - unfold zlen in *. rewrite firstn_length. lia.
  - apply (IH (length (skipn (Z.to_nat n) (b :: bits)))); [|reflexivity]. rewrite skipn_length. subst m. cbn [length]. lia.
Qed.
Lemma runs_number n bits : (1 <= n)%Z -> zlen (in_runs n bits) = ((zlen bits + n - 1) / n)%Z.
Proof.
  intros N. revert bits. apply (runs_ind n _ N).
  - change (zlen (in_runs n [])) with 0%Z. change (zlen (@nil bit)) with 0%Z. symmetry. apply Z.div_small. lia.
  - intros bits L. rewrite in_runs_short by lia. change (zlen [bits]) with 1%Z. apply Z.div_unique with (zlen bits - 1)%Z; lia.
  - intros run rest L IH. rewrite in_runs_app, zlen_cons, zlen_app, IH, L by lia. replace (n + zlen rest + n - 1)%Z with (zlen rest + n - 1 + 1 * n)%Z by ring. rewrite Z.div_add; lia.
Qed.
Lemma runs_short n bits : (1 <= n)%Z -> Forall (fun run => (1 <= zlen run <= n)%Z) (in_runs n bits).
Proof.
  intros N. revert bits. apply (runs_ind n _ N); [constructor| |].
  - intros bits L. rewrite in_runs_short by lia. repeat constructor; lia.
  - intros run rest L IH. rewrite in_runs_app by lia. constructor; [lia|exact IH].
Qed.
Lemma zeros_app a b : zeros (a ++ b) = (zeros a + zeros b)%Z. Proof. unfold zeros. rewrite filter_app. apply zlen_app. Qed.
Lemma fixed_runs q n bits : (1 <= n)%Z -> fixed_cost q bits = rsum (map (fixed_cost q) (in_runs n bits)).
Proof.
  intros N. revert bits. apply (runs_ind n _ N).
  - cbn. unfold fixed_cost. cbn. lra.
  - intros bits L. rewrite in_runs_short by lia. cbn. lra.
  - intros run rest L IH. rewrite in_runs_app by lia. cbn [map rsum fold_right]. fold (rsum (map (fixed_cost q) (in_runs n rest))). rewrite <- IH. unfold fixed_cost. rewrite zeros_app, zlen_app, !minus_IZR, !plus_IZR. lra.
Qed.
Lemma runs_length n bits : (1 <= n)%Z -> zlen bits = zsum (map zlen (in_runs n bits)).
Proof.
  intros N. revert bits. apply (runs_ind n _ N); [reflexivity| |].
  - intros bits L. rewrite in_runs_short by lia. cbn. lia.
  - intros run rest L IH. rewrite in_runs_app, zlen_app, IH by lia. reflexivity.
Qed.

(** ** The simulated totals *)
Lemma charge_accurate x : codable x -> - (51 / 100) < IZR (charge x) - 2048 * info x < 2.
Proof.
  destruct x as (b, p). intros C. destruct tables_built as (t & L). pose proof (luts_ok_of t L) as T. clear L. pose proof (bit_cost_accurate t p b T C) as A. unfold cost_of in A.
  rewrite (estimate_cost_lean (lt_log2 t) p b (lk_log2 t T)) in A by (unfold codable in C; cbn in C; lia). exact A.
Qed.
Lemma charges_accurate l : Forall codable l -> - (51 / 100) * IZR (zlen l) <= IZR (zsum (map charge l)) - 2048 * information l <= 2 * IZR (zlen l).
Proof.
  intros F. unfold information. rewrite <- rsum_IZR.
  replace (2048 * rsum (map info l)) with (rsum (map (fun x => 2048 * info x) l)) by (clear; unfold rsum; induction l; cbn [map fold_right]; [lra|lra]).
  rewrite <- (rsum_const (- (51 / 100))), <- (rsum_const 2).
  assert (A : rsum (map (fun x => - (51 / 100) + 2048 * info x) l) <= rsum (map (fun x => IZR (charge x)) l)).
  { apply rsum_le. eapply Forall_impl; [|exact F]. intros x C. pose proof (charge_accurate x C). lra. }
  assert (B : rsum (map (fun x => IZR (charge x)) l) <= rsum (map (fun x => 2 + 2048 * info x) l)).
  { apply rsum_le. eapply Forall_impl; [|exact F]. intros x C. pose proof (charge_accurate x C). lra. }
  rewrite rsum_plus in A, B. lra.
Qed.
Lemma predicted_codable rates rest : rates_ok rates -> forall before, Forall codable (predicted rates before rest).
Proof.
  intros R. induction rest as [|b rest IH]; intros before; [constructor|]. cbn [predicted]. constructor; [|apply IH]. destruct (predicted_spec rates R before) as (p & _ & P & ->). unfold codable. cbn [snd]. clear - P. pow2. lia.
Qed.
Lemma predicted_length rates rest : forall before, zlen (predicted rates before rest) = zlen rest.
Proof. induction rest as [|b rest IH]; intros before; [reflexivity|]. cbn [predicted]. now rewrite !zlen_cons, IH. Qed.
Definition sane (factor addend : Z) : Prop := (0 <= factor /\ 2 <= addend /\ 3 <= factor + addend /\ 1023 * factor + addend < 2 ^ 32)%Z.
Lemma total_accurate rates n bits : rates_ok rates -> (1 <= n)%Z ->
  let total := zsum (map (fun run => zsum (map charge (predicted rates [] run))) (in_runs n bits)) in
  - (51 / 100) * IZR (zlen bits) <= IZR total - 2048 * adaptive_cost rates n bits <= 2 * IZR (zlen bits).
Proof.
  intros R N total. rewrite (runs_length n bits N). unfold total, adaptive_cost. rewrite <- !rsum_IZR, <- !rsum_scale.
  assert (A : rsum (map (fun run => - (51 / 100) * IZR (zlen run) + 2048 * information (predicted rates [] run)) (in_runs n bits)) <= rsum (map (fun run => IZR (zsum (map charge (predicted rates [] run)))) (in_runs n bits))).
  { apply rsum_le. apply Forall_forall. intros run _. pose proof (charges_accurate _ (predicted_codable rates run R [])) as A. rewrite predicted_length in A. lra. }
  assert (B : rsum (map (fun run => IZR (zsum (map charge (predicted rates [] run)))) (in_runs n bits)) <= rsum (map (fun run => 2 * IZR (zlen run) + 2048 * information (predicted rates [] run)) (in_runs n bits))).
  { apply rsum_le. apply Forall_forall. intros run _. pose proof (charges_accurate _ (predicted_codable rates run R [])) as B. rewrite predicted_length in B. lra. }
  rewrite rsum_plus in A, B. rewrite !rsum_scale in *. lra.
Qed.
Lemma simulation_sum factor addend n run rest : sane factor addend -> (1 <= n)%Z -> zlen run = n -> (zlen (run ++ rest) < 2 ^ 32)%Z ->
  exists s1 s2 s, simulate factor addend n run = Ok s1 /\ simulate factor addend n rest = Ok s2 /\ simulate factor addend n (run ++ rest) = Ok s /\
    (sm_total_cost s = sm_total_cost s1 + sm_total_cost s2 /\ sm_zeros s = sm_zeros s1 + sm_zeros s2)%Z.
Proof.
  intros S N L B. pose proof (zlen_nonneg run). pose proof (zlen_nonneg rest). rewrite zlen_app in B.
  destruct (simulation_ok factor addend n run S N ltac:(lia)) as (r1 & s1 & E1 & _ & S1 & Z1 & _ & T1). destruct (simulation_ok factor addend n rest S N ltac:(lia)) as (r2 & s2 & E2 & _ & S2 & Z2 & _ & T2).
  destruct (simulation_ok factor addend n (run ++ rest) S N ltac:(rewrite zlen_app; lia)) as (r & s & E & _ & S3 & Z3 & _ & T3). rewrite E in E1, E2. injection E1 as <-. injection E2 as <-.
  exists s1, s2, s. split; [exact S1|]. split; [exact S2|]. split; [exact S3|]. clear S1 S2 S3 E S. split.
  - rewrite T1, T2, T3. clear T1 T2 T3 Z1 Z2 Z3. rewrite (in_runs_app n run rest), (in_runs_short n run) by lia. cbn [map].
    change (zsum (?a :: ?l)) with (a + zsum l)%Z. generalize (zsum (map charge (predicted r [] run))). intros v. cbn [zsum fold_right]. lia.
  - rewrite Z1, Z2, Z3. apply zeros_app.
Qed.
Lemma simulation_overhead n bits : (1 <= n <= 1002)%Z -> (zlen bits < 2 ^ 32)%Z -> exists s, simulate 1 2 n bits = Ok s /\ forall q, 0 < q < 1 ->
  IZR (sm_total_cost s) / 2048 <= fixed_cost q bits + IZR ((zlen bits + n - 1) / n) * (1 / 2 * log2R (IZR n) + 1 + IZR n * IZR (n + 1) / 500000) + IZR (zlen bits) / 1024.
Proof.
  intros N L. destruct (simulation_ok 1 2 n bits ltac:(lia) ltac:(lia) L) as (rates & s & E & R & S & _ & _ & T). exists s. split; [exact S|]. clear S. intros q Q.
  pose proof (total_accurate rates n bits R ltac:(lia)) as A. cbv zeta in A. rewrite <- T in A. rewrite <- (runs_number n bits) by lia. rewrite (fixed_runs q n bits) by lia.
  assert (G : adaptive_cost rates n bits <= rsum (map (fun run => fixed_cost q run + (1 / 2 * log2R (IZR n) + 1 + IZR n * IZR (n + 1) / 500000)) (in_runs n bits))).
  { unfold adaptive_cost. apply rsum_le. eapply Forall_impl; [|apply runs_short; lia]. intros run RL. cbv beta in RL. destruct (run_regret rates run E ltac:(lia)) as (G & _). specialize (G q Q).
    assert (M : log2R (IZR (zlen run)) <= log2R (IZR n)) by (apply log2R_mono; [apply (IZR_lt 0); lia|apply IZR_le; lia]).
    assert (M2 : IZR (zlen run) * IZR (zlen run + 1) <= IZR n * IZR (n + 1)) by (rewrite <- !mult_IZR; apply IZR_le; apply Z.mul_le_mono_nonneg; lia). lra. }
  rewrite rsum_plus, rsum_const in G. lra.
Qed.
Lemma simulation_accurate factor addend n bits : sane factor addend -> (1 <= n)%Z -> (zlen bits < 2 ^ 32)%Z ->
  exists rates s, rates_make factor addend = Ok rates /\ simulate factor addend n bits = Ok s /\ sm_zeros s = zeros bits /\
    - (51 / 100) * IZR (zlen bits) <= IZR (sm_total_cost s) - 2048 * adaptive_cost rates n bits <= 2 * IZR (zlen bits).
Proof.
  intros S N L. destruct (simulation_ok factor addend n bits S N L) as (rates & s & E & R & ES & Z0 & _ & T). exists rates, s. split; [exact E|]. split; [exact ES|]. split; [exact Z0|]. clear ES E.
  rewrite T. exact (total_accurate rates n bits R N).
Qed.
Lemma simulation_zero factor addend b bits : sane factor addend -> simulate factor addend 0 (b :: bits) = Fail EDivZero.
Proof.
  intros (F & A & FA & B). destruct (rates_make_ok factor addend F A FA B) as (rates & E & R). destruct log2_new_spec as (lut & EL & _). unfold simulate. rewrite EL, E. cbn [bind].
  destruct de_new as [e0|] eqn:DN; [|rewrite de_new_eq in DN; discriminate]. cbn [bind mfold]. reflexivity.
Qed.
Lemma small_cost : information [(Zero, 2 ^ 22); (One, 3 * 2 ^ 21); (Zero, 2 ^ 22)]%Z = 4.
Proof.
  assert (A : info (Zero, 2 ^ 22)%Z = 1).
  { rewrite info_eq by (unfold codable; cbn; lia). change (units (Zero, 2 ^ 22)%Z) with (2 ^ 22)%Z. rewrite log2R_IZR_pow by lia. lra. }
  assert (B : info (One, 3 * 2 ^ 21)%Z = 2).
  { rewrite info_eq by (unfold codable; cbn; lia). change (units (One, 3 * 2 ^ 21)%Z) with (2 ^ 21)%Z. rewrite log2R_IZR_pow by lia. lra. }
  unfold information. cbn [map rsum fold_right]. rewrite A, B. lra.
Qed.
