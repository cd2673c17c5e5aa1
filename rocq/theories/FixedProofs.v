From Verif Require Import Base BaseFacts FixedModel FixedSpec.

Lemma nearest_away_unique n d q1 q2 : 0 < d -> nearest_away n d q1 -> nearest_away n d q2 -> q1 = q2.
Proof.
  unfold nearest_away. intros D (A1 & B1) (A2 & B2).
  assert (X : forall q, Z.abs q * d = Z.abs (q * d)) by (intros; rewrite Z.abs_mul; lia).
  rewrite X in B1, B2. clear X.
  assert (Y1 : q1 * d <= - d \/ 0 <= q1 * d) by (destruct (Z.ltb_spec q1 0); [left|right]; nia).
  assert (Y2 : q2 * d <= - d \/ 0 <= q2 * d) by (destruct (Z.ltb_spec q2 0); [left|right]; nia).
  destruct (Z.lt_trichotomy q1 q2) as [L|[E|L]]; [exfalso|exact E|exfalso].
  - assert (G : q1 * d + d <= q2 * d) by nia.
    set (m1 := q1 * d) in *. set (m2 := q2 * d) in *. clearbody m1 m2. lia.
  - assert (G : q2 * d + d <= q1 * d) by nia.
    set (m1 := q1 * d) in *. set (m2 := q2 * d) in *. clearbody m1 m2. lia.
Qed.

Lemma pow_split n k : 0 <= k <= n -> 2 ^ n = 2 ^ k * 2 ^ (n - k).
Proof. intros H. rewrite <- Z.pow_add_r by lia. f_equal. lia. Qed.
Lemma pow2_pos n : 0 <= n -> 0 < 2 ^ n.
Proof. intros; apply Z.pow_pos_nonneg; lia. Qed.
Lemma pow2_half n : 1 <= n -> 2 ^ n = 2 * 2 ^ (n - 1).
Proof. intros. rewrite <- Z.pow_succ_r by lia. f_equal. lia. Qed.

(** Truncated division facts. *)
Lemma quot_nonneg a d : 0 <= a -> 0 < d -> Z.quot a d = a / d.
Proof. intros. apply Z.quot_div_nonneg; lia. Qed.
Lemma quot_neg a d : 0 <= a -> 0 < d -> Z.quot (- a) d = - (a / d).
Proof. intros. rewrite Z.quot_opp_l by lia. now rewrite quot_nonneg. Qed.

Lemma div_bounds a d : 0 < d -> d * (a / d) <= a < d * (a / d) + d.
Proof. intros H. pose proof (Z.mod_pos_bound a d H). pose proof (Z.div_mod a d ltac:(lia)). lia. Qed.

Section Width.
  Variable t : ity.
  Hypothesis Hbits : 2 <= ibits t.
  Notation b := (ibits t).

  (** Core of signed rounding: add half with the sign of [n], clamp, truncate. [h] is half of [d]. *)
  Lemma round_signed_core n d h :
    isigned t = true -> inb t n = true -> 1 <= d -> 0 <= h -> 2 * h <= d <= 2 * h + 1 ->
    d <= imax t ->
    let x := Z.max (sat t (n + Z.sgn n * h)) (imin t + 1) in
    let q := Z.quot x d in
    inb t q = true /\
    (Z.abs n + h <= imax t -> nearest_away n d q) /\
    (Z.abs n + h > imax t -> q = Z.sgn n * (imax t / d)).
  Proof.
    intros S Hn Hd Hh Hdh Hdm. cbv zeta.
    unfold inb, sat, nearest_away in *; unfold imin, imax in *. rewrite S in *.

    pose proof (pow2_pos (b - 1) ltac:(lia)) as HM. set (M := 2 ^ (b - 1)) in *. clearbody M.
    destruct (Z.lt_trichotomy n 0) as [L|[E|L]].
    - rewrite (Z.sgn_neg n L).
      replace (Z.max (Z.max (- M) (Z.min (M - 1) (n + -1 * h))) (- M + 1))
        with (- (Z.min (M - 1) (h - n))) by lia.
      rewrite quot_neg by lia.
      pose proof (div_bounds (Z.min (M - 1) (h - n)) d ltac:(lia)) as DB.
      set (q := Z.min (M - 1) (h - n) / d) in *. 
      assert (Q : 0 <= q) by (apply Z.div_pos; lia).
      assert (E : Z.abs n + h > M - 1 -> - q = -1 * ((M - 1) / d)).
      { intros. unfold q. rewrite Z.min_l by lia. ring. }
      rewrite (Z.mul_comm (- q) d), Z.mul_opp_r. clearbody q.
      assert (q <= q * d) by nia. rewrite (Z.mul_comm q d) in *.
      rewrite (Z.abs_opp q), (Z.abs_eq q) by lia. rewrite (Z.mul_comm q d).
      set (m := d * q) in *. clearbody m.
      split; [lia|]. split; [intros; split; lia|exact E].
    - subst n. cbn [Z.sgn]. rewrite Z.mul_0_l, Z.add_0_l.
      replace (Z.max (Z.max (- M) (Z.min (M - 1) 0)) (- M + 1)) with 0 by lia.
      rewrite Z.quot_0_l by lia. rewrite ?Z.mul_0_l. split; [lia|]. split; [split; lia|intros; reflexivity].
    - rewrite (Z.sgn_pos n L).
      replace (Z.max (Z.max (- M) (Z.min (M - 1) (n + 1 * h))) (- M + 1))
        with (Z.min (M - 1) (n + h)) by lia.
      rewrite quot_nonneg by lia.
      pose proof (div_bounds (Z.min (M - 1) (n + h)) d ltac:(lia)) as DB.
      set (q := Z.min (M - 1) (n + h) / d) in *. 
      assert (Q : 0 <= q) by (apply Z.div_pos; lia).
      assert (E : Z.abs n + h > M - 1 -> q = 1 * ((M - 1) / d)).
      { intros. unfold q. rewrite Z.min_l by lia. ring. }
      clearbody q. assert (q <= q * d) by nia. rewrite (Z.abs_eq q) by lia. rewrite (Z.mul_comm q d) in *.
      set (m := d * q) in *. clearbody m.
      split; [lia|]. split; [intros; split; lia|exact E].
  Qed.

  (** At the very bottom of the range the result is one unit short exactly when [d] divides it. *)
  Lemma round_signed_min d h :
    isigned t = true -> 1 <= d -> 0 <= h -> 2 * h <= d <= 2 * h + 1 -> d <= imax t ->
    let x := Z.max (sat t (imin t + Z.sgn (imin t) * h)) (imin t + 1) in
    Z.quot x d = - (imax t / d).
  Proof.
    intros S Hd Hh Hdh Hdm. cbv zeta. unfold sat in *. unfold imin, imax in *. rewrite S in *.

    pose proof (pow2_pos (b - 1) ltac:(lia)) as HM. set (M := 2 ^ (b - 1)) in *. clearbody M.
    rewrite (Z.sgn_neg (- M)) by lia.
    replace (Z.max (Z.max (- M) (Z.min (M - 1) (- M + -1 * h))) (- M + 1)) with (- (M - 1)) by lia.
    apply quot_neg; lia.
  Qed.

  Lemma divt_ok a d q : d <> 0 -> Z.quot a d = q -> inb t q = true -> divt t a d = Ok q.
  Proof.
    intros Hd <- Hq. unfold divt. destruct (Z.eqb_spec d 0); [contradiction|]. unfold chk. now rewrite Hq.
  Qed.

  Lemma scaled_down_s_eq raw s : isigned t = true -> inb t raw = true -> 1 <= s <= b - 2 ->
    scaled_down_s t raw s =
      Ok (Z.quot (Z.max (sat t (raw + Z.sgn raw * 2 ^ (s - 1))) (imin t + 1)) (2 ^ s)).
  Proof.
    intros S Hr Hs. unfold scaled_down_s. rewrite assert_true by lia. cbn [bind].
    rewrite !shl_ok by lia. cbn [bind].
    pose proof (pow2_pos (s - 1) ltac:(lia)) as P1.
    pose proof (pow_split (b - 1) (s + 1) ltac:(lia)) as PS.
    pose proof (pow2_pos (b - 1 - (s + 1)) ltac:(lia)) as P2.
    pose proof (pow2_half (s + 1) ltac:(lia)) as PH. replace (s + 1 - 1) with s in PH by lia.
    pose proof (pow2_half s ltac:(lia)) as PH2.
    assert (B : 2 ^ (s + 1) <= 2 ^ (b - 1)) by nia.
    assert (Imin : imin t = - 2 ^ (b - 1)) by (unfold imin; now rewrite S).
    assert (Imax : imax t = 2 ^ (b - 1) - 1) by (unfold imax; now rewrite S).
    rewrite !wrap_id by (try lia; rewrite Imin, Imax; destruct (Z.sgn_spec raw) as [[? ->]|[[? ->]|[? ->]]]; lia).
    rewrite Z.mul_1_l.
    destruct (round_signed_core raw (2 ^ s) (2 ^ (s - 1)) S Hr) as (Q & _); try lia.
    apply divt_ok; [lia|reflexivity|exact Q].
  Qed.

  Lemma scaled_down_s_spec raw s : isigned t = true -> inb t raw = true -> 1 <= s <= b - 2 ->
    exists q, scaled_down_s t raw s = Ok q /\ inb t q = true /\
      (Z.abs raw + 2 ^ (s - 1) <= imax t -> nearest_away raw (2 ^ s) q) /\
      (Z.abs raw + 2 ^ (s - 1) > imax t -> imin t < raw -> cut_towards_zero raw (2 ^ s) q) /\
      (raw = imin t -> q * 2 ^ s = raw + 2 ^ s).
  Proof.
    intros S Hr Hs. rewrite scaled_down_s_eq by assumption.
    eexists. split; [reflexivity|].
    pose proof (pow2_pos (s - 1) ltac:(lia)) as P1.
    pose proof (pow_split (b - 1) (s + 1) ltac:(lia)) as PS.
    pose proof (pow2_pos (b - 1 - (s + 1)) ltac:(lia)) as P2.
    pose proof (pow2_half (s + 1) ltac:(lia)) as PH. replace (s + 1 - 1) with s in PH by lia.
    pose proof (pow2_half s ltac:(lia)) as PH2.
    assert (B : 2 ^ (s + 1) <= 2 ^ (b - 1)) by nia.
    assert (Imax : imax t = 2 ^ (b - 1) - 1) by (unfold imax; now rewrite S).
    assert (Imin : imin t = - 2 ^ (b - 1)) by (unfold imin; now rewrite S).
    destruct (round_signed_core raw (2 ^ s) (2 ^ (s - 1)) S Hr) as (Q & N & C); try lia.
    pose proof (pow_split (b - 1) s ltac:(lia)) as PS2. pose proof (pow2_pos (b - 1 - s) ltac:(lia)) as P3.
    set (D := 2 ^ s) in *. set (K := 2 ^ (b - 1 - s)) in *.
    assert (E : imax t / D = K - 1).
    { symmetry. rewrite Imax, PS2. clear - P1 PH2. apply (Z.div_unique_pos _ _ _ (D - 1)); lia. }
    split; [exact Q|]. split; [exact N|]. split.
    - intros G1 G2. rewrite (C G1), E. unfold cut_towards_zero.
      unfold inb in Hr. rewrite Imin, Imax in *. rewrite PS2 in *.
      assert (KD : (K - 1) * D = D * K - D) by ring.
      assert (K1 : 1 <= K) by (clear - P3; lia).
      assert (XD : D <= D * K) by (clear - PH2 P1 K1; nia). clear - G1 G2 Hr KD K1 PH2 P1 XD.
      destruct (Z.sgn_spec raw) as [[R ->]|[[R ->]|[R ->]]].
      + rewrite Z.mul_1_l, (Z.abs_eq (K - 1)), KD by lia. set (x := D * K) in *. clearbody x D K. lia.
      + subst raw. exfalso. set (x := D * K) in *. clearbody x D K. lia.
      + replace (- (1) * (K - 1) * D) with (- ((K - 1) * D)) by ring.
        replace (- (1) * (K - 1)) with (- (K - 1)) by ring.
        rewrite Z.abs_opp, (Z.abs_eq (K - 1)), KD by lia. set (x := D * K) in *. clearbody x D K. lia.
    - intros ->. rewrite round_signed_min by (try assumption; clear Q N C E; lia).
      rewrite E, Imin, PS2. ring.
  Qed.

  (** A shift by all bits but the sign: always zero. *)
  Lemma scaled_down_s_full raw : isigned t = true -> inb t raw = true -> 3 <= b ->
    scaled_down_s t raw (b - 1) = Ok 0.
  Proof.
    intros S Hr Hb. unfold scaled_down_s. rewrite assert_true by lia. cbn [bind].
    rewrite !shl_ok by lia. cbn [bind].
    assert (Imin : imin t = - 2 ^ (b - 1)) by (unfold imin; now rewrite S).
    assert (Imax : imax t = 2 ^ (b - 1) - 1) by (unfold imax; now rewrite S).
    pose proof (pow2_pos (b - 1) ltac:(lia)) as P1.
    pose proof (pow2_half b ltac:(lia)) as P2.
    assert (W : wrap t (1 * 2 ^ (b - 1)) = - 2 ^ (b - 1)).
    { rewrite Z.mul_1_l. unfold wrap. rewrite S. rewrite Z.mod_small by lia.
      destruct (Z.leb_spec (2 ^ (b - 1)) (2 ^ (b - 1))); [cbn [andb]; lia|lia]. }
    rewrite W. set (k := wrap t _). clearbody k.
    unfold sat. rewrite Imin, Imax.
    set (x := Z.max (Z.max (- 2 ^ (b - 1)) (Z.min (2 ^ (b - 1) - 1) (raw + k))) (- 2 ^ (b - 1) + 1)).
    assert (X : - 2 ^ (b - 1) + 1 <= x <= 2 ^ (b - 1) - 1) by (unfold x; lia). clearbody x.
    apply divt_ok; [lia| |unfold inb; lia].
    rewrite Z.quot_opp_r by lia.
    destruct (Z.leb_spec 0 x) as [L|L].
    - rewrite Z.quot_small by lia. reflexivity.
    - replace x with (- (- x)) by lia. rewrite Z.quot_opp_l, Z.quot_small by lia. reflexivity.
  Qed.

  Lemma scaled_down_u_spec raw s : isigned t = false -> inb t raw = true -> 1 <= s <= b - 1 ->
    exists q, scaled_down_u t raw s = Ok q /\ inb t q = true /\
      (raw + 2 ^ (s - 1) <= imax t -> nearest_away raw (2 ^ s) q) /\
      (raw + 2 ^ (s - 1) > imax t -> cut_towards_zero raw (2 ^ s) q).
  Proof.
    intros S Hr Hs. unfold scaled_down_u. rewrite assert_true by lia. cbn [bind].
    rewrite !shl_ok by lia. cbn [bind].
    pose proof (pow2_pos (s - 1) ltac:(lia)) as P1.
    pose proof (pow_split b s ltac:(lia)) as PS.
    pose proof (pow2_pos (b - s) ltac:(lia)) as P2.
    pose proof (pow2_half s ltac:(lia)) as PH2.
    assert (Imin : imin t = 0) by (unfold imin; now rewrite S).
    assert (Imax : imax t = 2 ^ b - 1) by (unfold imax; now rewrite S).
    unfold inb in *. rewrite Imin, Imax in *.
    rewrite wrap_id by (try lia; nia). rewrite Z.mul_1_l, shr_ok by lia.
    eexists. split; [reflexivity|]. unfold sat, nearest_away, cut_towards_zero. rewrite Imin, Imax.
    assert (E : Z.max 0 (Z.min (2 ^ b - 1) (raw + 2 ^ (s - 1))) = Z.min (2 ^ b - 1) (raw + 2 ^ (s - 1))) by lia.
    rewrite E.
    pose proof (div_bounds (Z.min (2 ^ b - 1) (raw + 2 ^ (s - 1))) (2 ^ s) ltac:(lia)) as DB.
    set (q := Z.min (2 ^ b - 1) (raw + 2 ^ (s - 1)) / 2 ^ s) in *.
    assert (Q : 0 <= q) by (apply Z.div_pos; lia).
    assert (q <= q * 2 ^ s) by nia.
    rewrite (Z.abs_eq q) by lia. rewrite (Z.mul_comm q (2 ^ s)) in *. clearbody q.
    set (m := 2 ^ s * q) in *.
    assert (Lq : q <= 2 ^ b - 1) by lia. 
    assert (QK : raw + 2 ^ (s - 1) > 2 ^ b - 1 -> m = 2 ^ b - 2 ^ s).
    { intros G. rewrite Z.min_l in DB by lia. unfold m in *. rewrite PS in *.
      assert (q = 2 ^ (b - s) - 1) by nia. subst q. ring. }
    clearbody m. split; [lia|]. split; intros; split; lia.
  Qed.

  Lemma div_s_spec raw d : isigned t = true -> inb t raw = true -> 1 <= d <= imax t ->
    exists q, div_s t raw d = Ok q /\ inb t q = true /\
      (Z.abs raw + d / 2 <= imax t -> nearest_away raw d q) /\
      (imin t < raw -> Z.abs (raw - q * d) < d) /\
      (raw = imin t -> q = - (imax t / d)).
  Proof.
    intros S Hr Hd. unfold div_s. rewrite assert_true by lia. cbn [bind].
    assert (Imin : imin t = - 2 ^ (b - 1)) by (unfold imin; now rewrite S).
    assert (Imax : imax t = 2 ^ (b - 1) - 1) by (unfold imax; now rewrite S).
    rewrite (divt_ok d 2 (d / 2)) by (try lia; try (apply quot_nonneg; lia); unfold inb; lia). cbn [bind].
    rewrite mul_ok by (destruct (Z.sgn_spec raw) as [[? ->]|[[? ->]|[? ->]]]; lia). cbn [bind].
    rewrite (Z.mul_comm (d / 2)).
    destruct (round_signed_core raw d (d / 2) S Hr) as (Q & N & C); try lia.
    eexists. split; [apply divt_ok; [lia|reflexivity|exact Q]|].
    split; [exact Q|]. split; [exact N|]. split.
    - intros R. destruct (Z.leb_spec (Z.abs raw + d / 2) (imax t)) as [L|L].
      + specialize (N L). destruct N as [N _].
        match goal with |- Z.abs (raw - ?q * d) < d => set (m := q * d) in * end.
        clearbody m. clear - N Hd. lia.
      + rewrite (C ltac:(lia)). pose proof (div_bounds (imax t) d ltac:(lia)) as DB.
        unfold inb in Hr. rewrite Imin, Imax in *.
        set (q := (2 ^ (b - 1) - 1) / d) in *. clearbody q.
        destruct (Z.sgn_spec raw) as [[G ->]|[[G ->]|[G ->]]].
        * rewrite Z.mul_1_l, (Z.mul_comm q d). lia.
        * subst raw. cbn [Z.abs] in L. lia.
        * replace (- (1) * q * d) with (- (d * q)) by ring. lia.
    - intros ->. apply round_signed_min; try assumption; clear - Hd; lia.
  Qed.

  Lemma div_u_spec raw d : isigned t = false -> inb t raw = true -> 1 <= d <= imax t ->
    exists q, div_u t raw d = Ok q /\ inb t q = true /\
      (raw + d / 2 <= imax t -> nearest_away raw d q) /\
      (raw + d / 2 > imax t -> Z.abs (raw - q * d) < d).
  Proof.
    intros S Hr Hd. unfold div_u. rewrite assert_true by lia. cbn [bind].
    assert (Imin : imin t = 0) by (unfold imin; now rewrite S).
    unfold inb in Hr. rewrite Imin in *.
    rewrite (divt_ok d 2 (d / 2)) by (try lia; try (apply quot_nonneg; lia); unfold inb; rewrite Imin; lia). cbn [bind].
    unfold sat. rewrite Imin.
    replace (Z.max 0 (Z.min (imax t) (raw + d / 2))) with (Z.min (imax t) (raw + d / 2)) by lia.
    pose proof (div_bounds (Z.min (imax t) (raw + d / 2)) d ltac:(lia)) as DB.
    set (x := Z.min (imax t) (raw + d / 2)) in *.
    assert (X : 0 <= x <= imax t) by lia.
    assert (Q : 0 <= x / d) by (apply Z.div_pos; lia).
    assert (QX : x / d <= x / d * d) by nia.
    exists (x / d). split; [apply divt_ok; [lia|apply quot_nonneg; lia|unfold inb; rewrite Imin; lia]|].
    unfold inb, nearest_away. rewrite Imin. rewrite (Z.abs_eq (x / d)) by lia.
    rewrite (Z.mul_comm (x / d) d) in *. set (q := x / d) in *. clearbody q. set (m := d * q) in *. clearbody m.
    split; [lia|]. split; [intros; split; lia|intros; lia].
  Qed.
End Width.

(** * Conversions and arithmetic *)
Definition ity_ok (t : ity) : Prop := 8 <= ibits t <= 64.
Definition exact_fmt (F : fmt) : Prop := forall x, f_new F x = Ok x.

Lemma fix_new_exact F x : exact_fmt F ->
  fix_new F x (f_frac F) = if f_within F x then Ok x else Fail EAssert.
Proof.
  intros H. unfold fix_new. rewrite Z.eqb_refl. cbn [assert_ guard bind]. rewrite H. cbn [bind].
  unfold assert_, guard. destruct (f_within F x); reflexivity.
Qed.

Lemma wrap_range_iff t z : 0 < ibits t -> (wrap t z = z <-> inb t z = true).
Proof.
  intros H. split.
  - intros E. pose proof (wrap_range t z H). unfold inb. lia.
  - intros E. apply wrap_id; [exact H|]. now apply inb_true.
Qed.

Lemma inb_wider t w z : isigned t = isigned w -> 0 < ibits t <= ibits w -> inb t z = true -> inb w z = true.
Proof.
  intros S B. unfold inb, imin, imax. rewrite S.
  pose proof (Z.pow_le_mono_r 2 (ibits t) (ibits w) ltac:(lia) ltac:(lia)).
  pose proof (Z.pow_le_mono_r 2 (ibits t - 1) (ibits w - 1) ltac:(lia) ltac:(lia)).
  destruct (isigned w); lia.
Qed.

Lemma narrow_to_spec w R x : isigned (f_ty R) = isigned w -> 0 < ibits (f_ty R) <= ibits w ->
  inb w x = true ->
  narrow_to w R x = if inb (f_ty R) x then Ok x else Fail EAssert.
Proof.
  intros S B X. unfold narrow_to.
  destruct (Z.ltb_spec (ibits (f_ty R)) (ibits w)) as [L|L].
  - assert (W : wrap w (wrap (f_ty R) x) = wrap (f_ty R) x).
    { apply wrap_range_iff; [lia|]. eapply inb_wider; [exact S|exact B|].
      apply inb_true. apply wrap_range. lia. }
    rewrite W. unfold assert_, guard.
    destruct (inb (f_ty R) x) eqn:E.
    + apply wrap_range_iff in E; [|lia]. rewrite E, Z.eqb_refl. reflexivity.
    + destruct (Z.eqb_spec (wrap (f_ty R) x) x) as [W'|W']; [|reflexivity].
      apply wrap_range_iff in W'; [congruence|lia].
  - assert (E : f_ty R = w).
    { destruct (f_ty R) as [rb rs], w as [wb ws]. cbn [ibits isigned] in *. subst. f_equal. lia. }
    rewrite E, X. reflexivity.
Qed.

Lemma shl_shr_exact w raw d : 0 < ibits w -> 0 <= d < ibits w ->
  (wrap w (raw * 2 ^ d) / 2 ^ d = raw <-> inb w (raw * 2 ^ d) = true).
Proof.
  intros B Hd. pose proof (pow2_pos d ltac:(lia)) as Pd. split.
  - intros E. pose proof (wrap_mod w (raw * 2 ^ d) B) as M.
    pose proof (wrap_range w (raw * 2 ^ d) B) as R.
    set (y := wrap w (raw * 2 ^ d)) in *.
    assert (D : y mod 2 ^ d = 0).
    { assert (P : 2 ^ ibits w = 2 ^ d * 2 ^ (ibits w - d)) by (apply pow_split; lia).
      pose proof (pow2_pos (ibits w - d) ltac:(lia)) as Pe.
      assert (Q : y mod 2 ^ ibits w mod 2 ^ d = y mod 2 ^ d).
      { rewrite P, Z.rem_mul_r by lia.
        rewrite (Z.mul_comm (2 ^ d)), Z.mod_add by lia. apply Z.mod_mod. lia. }
      rewrite <- Q, M. rewrite P, Z.rem_mul_r by lia.
      rewrite (Z.mul_comm (2 ^ d)), Z.mod_add, Z.mod_mod by lia. apply Z.mod_mul. lia. }
    assert (Y : y = raw * 2 ^ d).
    { rewrite (Z.div_mod y (2 ^ d)) by lia. rewrite D, E. ring. }
    rewrite <- Y. now apply inb_true.
  - intros E. apply wrap_range_iff in E; [|exact B]. rewrite E. apply Z.div_mul. lia.
Qed.

(** Formats one can convert between: same signedness, the raw type [w] of the computation is at
    least as wide as both. *)
Definition conv_ok (w : ity) (S R : fmt) : Prop :=
  ity_ok w /\ isigned (f_ty S) = isigned w /\ isigned (f_ty R) = isigned w /\
  0 < ibits (f_ty S) <= ibits w /\ 0 < ibits (f_ty R) <= ibits w /\ exact_fmt R.

Definition fits (R : fmt) (q : Z) : bool := inb (f_ty R) q && f_within R q.

Lemma to_fix_up w S R raw : conv_ok w S R -> f_frac S <= f_frac R -> f_frac R - f_frac S < ibits w ->
  to_fix w S R raw =
    if fits R (raw * 2 ^ (f_frac R - f_frac S)) then Ok (raw * 2 ^ (f_frac R - f_frac S)) else Fail EAssert.
Proof.
  intros (Hw & S1 & S2 & B1 & B2 & X) Hle Hd. unfold to_fix, ity_ok in *.
  destruct (Z.ltb_spec (f_frac R) (f_frac S)); [lia|]. cbv zeta.
  set (d := f_frac R - f_frac S) in *.
  rewrite shl_ok by lia. cbn [bind]. rewrite shr_ok by lia. cbn [bind].
  pose proof (shl_shr_exact w raw d ltac:(lia) ltac:(lia)) as E.
  unfold fits. destruct (inb w (raw * 2 ^ d)) eqn:I.
  - rewrite (proj2 E eq_refl), Z.eqb_refl. cbn [assert_ guard bind].
    assert (W : wrap w (raw * 2 ^ d) = raw * 2 ^ d) by (apply wrap_range_iff; [lia|exact I]).
    rewrite W, narrow_to_spec by assumption.
    destruct (inb (f_ty R) (raw * 2 ^ d)); cbn [bind andb]; [|reflexivity]. now apply fix_new_exact.
  - assert (N : wrap w (raw * 2 ^ d) / 2 ^ d <> raw) by (intros N; apply E in N; discriminate).
    destruct (Z.eqb_spec (wrap w (raw * 2 ^ d) / 2 ^ d) raw); [contradiction|]. cbn [assert_ guard bind].
    destruct (inb (f_ty R) (raw * 2 ^ d)) eqn:J; [|reflexivity].
    apply (inb_wider _ w) in J; [congruence|assumption|lia].
Qed.

Lemma scaled_down_spec w raw s : ity_ok w -> inb w raw = true ->
  1 <= s <= ibits w - (if isigned w then 2 else 1) ->
  exists q, scaled_down w raw s = Ok q /\ inb w q = true /\ rounds (imax w) raw (2 ^ s) q.
Proof.
  intros Hw Hr Hs. unfold ity_ok, scaled_down, rounds in *.
  assert (H2 : 2 ^ s / 2 = 2 ^ (s - 1)).
  { rewrite (pow2_half s) by lia. rewrite Z.mul_comm. apply Z.div_mul. lia. }
  rewrite H2. pose proof (pow2_pos s ltac:(lia)) as Ps.
  destruct (isigned w) eqn:S.
  - destruct (scaled_down_s_spec w ltac:(lia) raw s S Hr ltac:(lia)) as (q & E & I & N & C & M).
    exists q. split; [exact E|]. split; [exact I|]. split; [exact N|].
    destruct (Z.eqb_spec raw (imin w)) as [->|NE].
    + rewrite (M eq_refl). lia.
    + destruct (Z.leb_spec (Z.abs raw + 2 ^ (s - 1)) (imax w)) as [L|L].
      * destruct (N L) as [A _]. set (m := q * 2 ^ s) in *. clearbody m. clear - A Ps. lia.
      * assert (imin w < raw) by (unfold inb in Hr; lia).
        destruct (C ltac:(lia) H) as [A _]. lia.
  - destruct (scaled_down_u_spec w ltac:(lia) raw s S Hr ltac:(lia)) as (q & E & I & N & C).
    assert (imin w = 0) by (unfold imin; now rewrite S).
    assert (0 <= raw) by (unfold inb in Hr; lia).
    exists q. split; [exact E|]. split; [exact I|]. rewrite Z.abs_eq by lia. split; [exact N|].
    destruct (Z.leb_spec (raw + 2 ^ (s - 1)) (imax w)) as [L|L].
    + destruct (N L) as [A _]. set (m := q * 2 ^ s) in *. clearbody m. clear - A Ps. lia.
    + destruct (C ltac:(lia)) as [A _]. lia.
Qed.

Lemma to_fix_down w S R raw : conv_ok w S R -> f_frac R < f_frac S ->
  f_frac S - f_frac R <= ibits w - (if isigned w then 2 else 1) -> inb (f_ty S) raw = true ->
  exists q, rounds (imax w) raw (2 ^ (f_frac S - f_frac R)) q /\
    to_fix w S R raw = if fits R q then Ok q else Fail EAssert.
Proof.
  intros (Hw & S1 & S2 & B1 & B2 & X) Hlt Hd Hr. unfold to_fix.
  destruct (Z.ltb_spec (f_frac R) (f_frac S)); [|lia].
  assert (Hr' : inb w raw = true) by (apply (inb_wider (f_ty S)); assumption).
  destruct (scaled_down_spec w raw (f_frac S - f_frac R) Hw Hr' ltac:(lia)) as (q & E & I & Rd).
  exists q. split; [exact Rd|]. rewrite E. cbn [bind]. rewrite narrow_to_spec by assumption.
  unfold fits. destruct (inb (f_ty R) q); cbn [bind andb]; [|reflexivity]. now apply fix_new_exact.
Qed.

Lemma fix_add_spec F a b : exact_fmt F ->
  fix_add F a b = if inb (f_ty F) (a + b) then (if f_within F (a + b) then Ok (a + b) else Fail EAssert)
                  else Fail EOverflow.
Proof.
  intros H. unfold fix_add, add, chk. destruct (inb (f_ty F) (a + b)); [|reflexivity].
  cbn [bind]. now apply fix_new_exact.
Qed.
Lemma fix_sub_spec F a b : exact_fmt F ->
  fix_sub F a b = if inb (f_ty F) (a - b) then (if f_within F (a - b) then Ok (a - b) else Fail EAssert)
                  else Fail EOverflow.
Proof.
  intros H. unfold fix_sub, sub, chk. destruct (inb (f_ty F) (a - b)); [|reflexivity].
  cbn [bind]. now apply fix_new_exact.
Qed.
Lemma fix_neg_spec F a : exact_fmt F ->
  fix_neg F a = if inb (f_ty F) (- a) then (if f_within F (- a) then Ok (- a) else Fail EAssert)
                else Fail EOverflow.
Proof.
  intros H. unfold fix_neg, neg, chk. destruct (inb (f_ty F) (- a)); [|reflexivity].
  cbn [bind]. now apply fix_new_exact.
Qed.

(** Products: operands in the 32-bit type [t], computed in the 64-bit type [w]. *)
Definition mul_ok_types (t w : ity) : Prop := (t = i32 /\ w = i64) \/ (t = u32 /\ w = u64).

Lemma product_in_wide t w a b : mul_ok_types t w -> inb t a = true -> inb t b = true ->
  inb w (a * b) = true /\ (isigned w = true -> Z.abs (a * b) <= 2 ^ 62).
Proof.
  intros [(-> & ->)|(-> & ->)] Ha Hb; apply inb_true in Ha, Hb; rewrite inb_true; ib; pow2.
  - split; [nia|]. intros _. rewrite Z.abs_mul. nia.
  - split; [nia|]. discriminate.
Qed.

Lemma fix_mul_spec t w A B R a b : mul_ok_types t w ->
  isigned (f_ty R) = isigned w -> 0 < ibits (f_ty R) <= 64 -> exact_fmt R ->
  inb t a = true -> inb t b = true ->
  0 <= f_frac A <= 32 -> 0 <= f_frac B <= 32 -> 0 <= f_frac R <= 63 ->
  f_frac A + f_frac B - f_frac R <= 62 ->
  let total := f_frac A + f_frac B in
  if f_frac R <? total then
    exists q, rounds (imax w) (a * b) (2 ^ (total - f_frac R)) q /\
      (isigned w = true -> nearest_away (a * b) (2 ^ (total - f_frac R)) q) /\
      fix_mul w A B R a b = if fits R q then Ok q else Fail EAssert
  else
    fix_mul w A B R a b =
      if fits R (a * b * 2 ^ (f_frac R - total)) then Ok (a * b * 2 ^ (f_frac R - total)) else Fail EAssert.
Proof.
  intros T S BR X Ha Hb FA FB FR FD total. unfold total. clear total.
  destruct (product_in_wide t w a b T Ha Hb) as [I62 A62].
  assert (W : ity_ok w /\ ibits w = 64) by (destruct T as [(-> & ->)|(-> & ->)]; unfold ity_ok; cbn; lia).
  destruct W as [Hw W64].
  unfold fix_mul. unfold mul. rewrite chk_ok by (now apply inb_true). cbn [bind].
  rewrite add_ok by (ib; lia). cbn [bind].
  destruct (Z.ltb_spec (f_frac R) (f_frac A + f_frac B)) as [L|L].
  - set (s := f_frac A + f_frac B - f_frac R) in *.
    destruct (scaled_down_spec w (a * b) s Hw I62 ltac:(destruct (isigned w); lia)) as (q & E & I & Rd).
    exists q. split; [exact Rd|]. split.
    { intros Sw. apply Rd. specialize (A62 Sw).
      assert (Mx : imax w = 2 ^ 63 - 1) by (destruct T as [(-> & ->)|(-> & ->)]; [reflexivity|discriminate]).
      assert (2 ^ s / 2 <= 2 ^ 61).
      { rewrite (pow2_half s) by lia. rewrite Z.mul_comm, Z.div_mul by lia. apply Z.pow_le_mono_r; lia. }
      rewrite Mx. pow2. lia. }
    rewrite E. cbn [bind]. rewrite narrow_to_spec by (try assumption; lia).
    unfold fits. destruct (inb (f_ty R) q); cbn [bind andb]; [|reflexivity]. now apply fix_new_exact.
  - cbv zeta. set (d := f_frac R - (f_frac A + f_frac B)) in *.
    rewrite shl_ok by lia. cbn [bind].
    pose proof (shl_shr_exact w (a * b) d ltac:(lia) ltac:(lia)) as E.
    rewrite narrow_to_spec by (try assumption; try lia; apply inb_true; apply wrap_range; lia).
    unfold fits. set (y := wrap w (a * b * 2 ^ d)) in *.
    destruct (inb w (a * b * 2 ^ d)) eqn:I.
    + assert (Y : y = a * b * 2 ^ d) by (apply wrap_range_iff; [lia|exact I]).
      rewrite Y in *. destruct (inb (f_ty R) (a * b * 2 ^ d)); cbn [bind andb]; [|reflexivity].
      rewrite shr_ok by lia. cbn [bind]. rewrite (proj2 E eq_refl), Z.eqb_refl. cbn [assert_ guard bind].
      now apply fix_new_exact.
    + assert (N : y / 2 ^ d <> a * b) by (intros N; apply E in N; discriminate).
      assert (J : inb (f_ty R) (a * b * 2 ^ d) = false).
      { destruct (inb (f_ty R) (a * b * 2 ^ d)) eqn:J; [|reflexivity].
        apply (inb_wider _ w) in J; [congruence|assumption|lia]. }
      rewrite J. cbn [andb]. destruct (inb (f_ty R) y); cbn [bind]; [|reflexivity].
      rewrite shr_ok by lia. cbn [bind].
      destruct (Z.eqb_spec (y / 2 ^ d) (a * b)); [contradiction|]. reflexivity.
Qed.

(** * flip *)
Lemma flip_u (F : fmt) : F = fract_only_u32 \/ F = fract_only_u64 ->
  forall x, 0 < x < 2 ^ f_frac F ->
  flip F x = Ok (2 ^ f_frac F - x) /\ flip F (2 ^ f_frac F - x) = Ok x.
Proof.
  intros HF.
  assert (G : forall x, 0 < x < 2 ^ f_frac F -> flip F x = Ok (2 ^ f_frac F - x)).
  { intros x Hx. unfold flip, one_unsafe.
    destruct HF as [-> | ->]; cbn [f_frac f_ty fract_only_u32 fract_only_u64] in *;
      rewrite shl_ok by (cbn; lia); cbn [bind];
      rewrite wrap_id by (cbn [ibits u32 u64]; ib; pow2; lia);
      rewrite fix_sub_spec by (intros ?; reflexivity); rewrite Z.mul_1_l;
      cbn [f_frac f_ty f_within fract_only_u32 fract_only_u64].
    - rewrite (proj2 (inb_true _ _)) by (ib; pow2; lia).
      rewrite Z.div_small by lia. reflexivity.
    - rewrite (proj2 (inb_true _ _)) by (ib; pow2; lia).
      rewrite Z.div_small by lia. reflexivity. }
  intros x Hx. split; [now apply G|]. rewrite G by lia. f_equal. lia.
Qed.

(** The signed fraction types: ONE_UNSAFE is the most negative value, so nothing can be flipped. *)
Lemma flip_s_fails (F : fmt) : F = fract_only_i32 \/ F = fract_only_i64 ->
  forall x, 0 <= x < 2 ^ f_frac F -> is_ok (flip F x) = false.
Proof.
  intros HF x Hx. unfold flip, one_unsafe.
  destruct HF as [-> | ->]; cbn [f_frac f_ty fract_only_i32 fract_only_i64] in *;
    rewrite shl_ok by (cbn; lia); cbn [bind].
  - change (wrap i32 (1 * 2 ^ 31)) with (- 2 ^ 31).
    rewrite fix_sub_spec by (intros ?; reflexivity). cbn [f_frac f_ty f_within fract_only_i32].
    destruct (inb i32 (- 2 ^ 31 - x)); [|reflexivity].
    destruct (Z.leb_spec 0 (- 2 ^ 31 - x)); [pow2; lia|reflexivity].
  - change (wrap i64 (1 * 2 ^ 63)) with (- 2 ^ 63).
    rewrite fix_sub_spec by (intros ?; reflexivity). cbn [f_frac f_ty f_within fract_only_i64].
    destruct (inb i64 (- 2 ^ 63 - x)); [|reflexivity].
    destruct (Z.leb_spec 0 (- 2 ^ 63 - x)); [pow2; lia|reflexivity].
Qed.

(** * Signed <-> unsigned *)
Lemma to_unsigned_spec check S R raw : exact_fmt R -> f_frac R = f_frac S ->
  inb (f_ty R) raw = true -> 0 <= raw -> 0 < ibits (f_ty R) ->
  to_unsigned check S R raw = if f_within R raw then Ok raw else Fail EAssert.
Proof.
  intros X F I P B. unfold to_unsigned.
  assert (E : (if check then assert_ (0 <=? raw) else Ok tt) = Ok tt).
  { destruct check; [|reflexivity]. apply assert_true. lia. }
  rewrite E. cbn [bind]. apply wrap_range_iff in I; [|exact B]. rewrite I, <- F. now apply fix_new_exact.
Qed.
Lemma to_signed_spec check S R raw : exact_fmt R -> f_frac R = f_frac S ->
  inb (f_ty R) raw = true -> 0 < ibits (f_ty R) ->
  to_signed check S R raw = if f_within R raw then Ok raw else Fail EAssert.
Proof.
  intros X F I B. unfold to_signed.
  assert (E : (if check then assert_ (raw <=? imax (f_ty R)) else Ok tt) = Ok tt).
  { destruct check; [|reflexivity]. apply assert_true. apply inb_true in I. lia. }
  rewrite E. cbn [bind]. apply wrap_range_iff in I; [|exact B]. rewrite I, <- F. now apply fix_new_exact.
Qed.

(** * Statements over the raw types the library instantiates *)
Definition int_types : list ity := [i16; u16; i32; u32; i64; u64].
Lemma int_types_ok t : In t int_types -> ity_ok t.
Proof. intros H. unfold ity_ok. repeat (destruct H as [<-|H]; [cbn; lia|]). destruct H. Qed.

Lemma scaled_down_all t raw s : In t int_types -> inb t raw = true ->
  1 <= s <= ibits t - (if isigned t then 2 else 1) ->
  exists q, scaled_down t raw s = Ok q /\ inb t q = true /\ rounds (imax t) raw (2 ^ s) q.
Proof. intros H. apply scaled_down_spec. now apply int_types_ok. Qed.

(** The saturating end is reached only by values within half a unit of the extreme; they are cut. *)
Lemma scaled_down_cut t raw s : In t int_types -> inb t raw = true ->
  1 <= s <= ibits t - (if isigned t then 2 else 1) ->
  Z.abs raw + 2 ^ (s - 1) > imax t -> raw <> - 2 ^ (ibits t - 1) ->
  exists q, scaled_down t raw s = Ok q /\ cut_towards_zero raw (2 ^ s) q.
Proof.
  intros H Hr Hs G N. apply int_types_ok in H. unfold ity_ok, scaled_down in *.
  destruct (isigned t) eqn:S.
  - destruct (scaled_down_s_spec t ltac:(lia) raw s S Hr ltac:(lia)) as (q & E & I & _ & C & _).
    exists q. split; [exact E|]. apply C; [exact G|].
    assert (imin t = - 2 ^ (ibits t - 1)) by (unfold imin; now rewrite S).
    unfold inb in Hr. lia.
  - destruct (scaled_down_u_spec t ltac:(lia) raw s S Hr ltac:(lia)) as (q & E & I & _ & C).
    exists q. split; [exact E|]. apply C.
    assert (imin t = 0) by (unfold imin; now rewrite S). unfold inb in Hr. lia.
Qed.

Lemma scaled_down_last_shift t raw : In t int_types -> isigned t = true -> inb t raw = true ->
  scaled_down t raw (ibits t - 1) = Ok 0.
Proof.
  intros H S Hr. apply int_types_ok in H. unfold ity_ok, scaled_down in *. rewrite S.
  apply scaled_down_s_full; (assumption || lia).
Qed.

Lemma div_all t raw d : In t int_types -> inb t raw = true -> 1 <= d <= imax t ->
  exists q, div_raw t raw d = Ok q /\ inb t q = true /\ rounds (imax t) raw d q /\
    (imin t < raw \/ isigned t = false -> Z.abs (raw - q * d) < d).
Proof.
  intros H Hr Hd. apply int_types_ok in H. unfold ity_ok, div_raw, rounds in *.
  destruct (isigned t) eqn:S.
  - destruct (div_s_spec t ltac:(lia) raw d S Hr Hd) as (q & E & I & N & C & M).
    exists q. split; [exact E|]. split; [exact I|].
    assert (Imin : imin t = - imax t - 1) by (unfold imin, imax; rewrite S; lia).
    assert (HH : imin t < raw -> Z.abs (raw - q * d) < d) by exact C.
    split; [split; [exact N|]|].
    + destruct (Z.eqb_spec raw (imin t)) as [Eq|NE].
      * rewrite (M Eq), Eq, Imin. clear - Hd.
        pose proof (Z.div_mod (imax t) d ltac:(lia)). pose proof (Z.mod_pos_bound (imax t) d ltac:(lia)).
        set (z := imax t / d) in *. set (r := imax t mod d) in *. clearbody z r. nia.
      * assert (imin t < raw) by (unfold inb in Hr; lia). specialize (HH H0). lia.
    + intros [L|L]; [auto|discriminate].
  - destruct (div_u_spec t ltac:(lia) raw d S Hr Hd) as (q & E & I & N & C).
    assert (imin t = 0) by (unfold imin; now rewrite S).
    assert (0 <= raw) by (unfold inb in Hr; lia).
    exists q. split; [exact E|]. split; [exact I|]. rewrite Z.abs_eq by lia.
    assert (HH : Z.abs (raw - q * d) < d).
    { destruct (Z.leb_spec (raw + d / 2) (imax t)) as [L|L].
      - destruct (N L) as [A _]. set (m := q * d) in *. clearbody m. clear - A Hd. lia.
      - apply C. lia. }
    split; [split; [exact N|lia]|auto].
Qed.
