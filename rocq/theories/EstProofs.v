(** Proofs about the estimators. *)
From Verif Require Import Base BaseFacts FixedModel FixedSpec FixedProofs UtilProofs EstModel EstSpec.

(** Packing of prediction and count. *)
Lemma pack p n : 0 <= n < 1024 -> 0 <= p -> Z.lor (p * 1024) n = p * 1024 + n.
Proof.
  intros N P. apply (lor_disjoint _ _ 10); [lia | | exact N].
  change (2 ^ 10) with 1024. now apply Z.mod_mul.
Qed.

Lemma de_prediction_at p n : 0 <= p < 2 ^ 22 -> 0 <= n < 1024 ->
  de_prediction (p * 1024 + n) = Ok (p * 512).
Proof.
  intros P N. unfold de_prediction. rewrite shr_ok by (cbn; lia). cbn [bind].
  rewrite shl_ok by (cbn; lia). change (2 ^ 10) with 1024. change (2 ^ 9) with 512.
  replace ((p * 1024 + n) / 1024) with p by (rewrite Z.div_add_l by lia; rewrite Z.div_small; lia).
  rewrite wrap_id; [reflexivity | cbn; lia | ib; pow2; lia].
Qed.

Lemma de_usage_count_at p n : 0 <= p < 2 ^ 22 -> 0 <= n < 1024 -> de_usage_count (p * 1024 + n) = n.
Proof.
  intros P N. unfold de_usage_count. rewrite land_ones_mod by lia.
  unfold wrap. cbn [isigned u16 andb ibits]. change (2 ^ 16) with 65536. change (2 ^ 10) with 1024.
  pow2. clear P. lia.
Qed.

Lemma de_make_at p n : 0 <= p <= 2 ^ 22 -> 0 <= n <= 1000 ->
  de_make (p * 512) n = Ok (Z.max 1 (Z.min p (2 ^ 22 - 1)) * 1024 + n).
Proof.
  intros P N. unfold de_make. rewrite land_ones_mod by lia. change (2 ^ 9) with 512.
  rewrite Z.mod_mul by lia. cbn [Z.eqb assert_ guard bind].
  rewrite shr_ok by (cbn; lia). cbn [bind]. change (2 ^ 9) with 512. rewrite Z.div_mul by lia.
  change (2 ^ 22) with 4194304 in *. cbv zeta.
  replace (if p =? 0 then 1 else if p =? 4194304 then 4194304 - 1 else p) with (Z.max 1 (Z.min p (4194304 - 1))).
  2: { destruct (Z.eqb_spec p 0), (Z.eqb_spec p 4194304); lia. }
  set (q := Z.max 1 (Z.min p (4194304 - 1))). assert (Q : 1 <= q < 4194304) by lia. clearbody q.
  unfold assert_, guard, max_count.
  destruct (Z.ltb_spec 0 q), (Z.ltb_spec q 4194304); try lia. cbn [andb bind].
  destruct (Z.leb_spec n 1000); try lia. cbn [bind].
  rewrite shl_ok by (cbn; lia). cbn [bind]. change (2 ^ 10) with 1024.
  rewrite wrap_id; [| cbn; lia | ib; lia]. rewrite pack by lia. reflexivity.
Qed.

Lemma de_new_eq : de_new = Ok (2 ^ 21 * 1024 + 0).
Proof. reflexivity. Qed.

(** The number the update rounds, in units of 2^-62 around one half. *)
Definition de_exact (p f : Z) (b : bit) : Z :=
  (p - 2 ^ 21) * 2 ^ 40 + (bit_z (negb b) * 2 ^ 22 - p) * 2 ^ 9 * f.

Lemma nearest_between n d q lo hi : 0 < d -> nearest_away n d q ->
  2 * n + d > 2 * lo * d -> 2 * n - d < 2 * hi * d ->
  lo <= q <= hi.
Proof. intros D (A & B) L H. assert (lo * d < (q + 1) * d) by nia. assert ((q - 1) * d < hi * d) by nia. nia. Qed.

Lemma de_exact_bounds p f b : 0 < p < 2 ^ 22 -> 0 <= f -> (f < 2 ^ 30 \/ f = 2 ^ 30 /\ p = 2 ^ 21) ->
  - (2 ^ 61 - 2 ^ 39) < de_exact p f b < 2 ^ 61 - 2 ^ 39.
Proof.
  intros P F0 F. unfold de_exact. change (2 ^ 39) with 549755813888. change (2 ^ 9) with 512. pow2.
  destruct F as [F | (-> & ->)]; [|destruct b; cbn [negb bit_z]; lia].
  destruct b; cbn [negb bit_z].
  - replace ((p - 2097152) * 1099511627776 + (0 * 4194304 - p) * 512 * f)
      with (p * (512 * (2147483648 - f)) - 2305843009213693952) by ring.
    split; nia.
  - replace ((p - 2097152) * 1099511627776 + (1 * 4194304 - p) * 512 * f)
      with (2305843009213693952 - (4194304 - p) * (512 * (2147483648 - f))) by ring.
    set (g := 4194304 - p). assert (0 < g < 4194304) by lia. clearbody g. split; nia.
Qed.

Lemma de_update_at rates p n f b : 0 < p < 2 ^ 22 -> 0 <= n <= 1000 ->
  znth rates n = Some f -> 0 <= f -> (f < 2 ^ 30 \/ f = 2 ^ 30 /\ p = 2 ^ 21) ->
  exists p', de_update rates (p * 1024 + n) b = Ok (p' * 1024 + Z.min (n + 1) 1000) /\
    0 < p' < 2 ^ 22 /\ nearest_away (de_exact p f b) (2 ^ 40) (p' - 2 ^ 21).
Proof.
  intros P N E F0 F. pose proof (de_exact_bounds p f b P F0 F) as B.
  assert (FB : f <= 2 ^ 30) by (destruct F as [F|[F _]]; lia).
  assert (IB : inb i64 (de_exact p f b) = true).
  { apply inb_true. ib. change (2 ^ 61) with 2305843009213693952 in B.
    change (2 ^ 39) with 549755813888 in B. lia. }
  destruct (scaled_down_spec i64 (de_exact p f b) 40) as (q & Eq & _ & R & _);
    [unfold ity_ok; cbn; lia | exact IB | cbn; lia |].
  change (2 ^ 40 / 2) with 549755813888 in R.
  change (2 ^ 39) with 549755813888 in B.
  specialize (R ltac:(ib; change (2 ^ 61) with 2305843009213693952 in B; lia)).
  assert (Q : - 2097151 <= q <= 2097151).
  { eapply nearest_between; [| exact R | |]; pow2; lia. }
  exists (q + 2 ^ 21). split; [|split; [pow2; lia | replace (q + 2 ^ 21 - 2 ^ 21) with q by ring; exact R]].
  unfold de_update. rewrite de_prediction_at, de_usage_count_at by lia. cbn [bind].
  unfold get at 1. rewrite E. cbn [bind].
  rewrite (shl_ok i64 _ 31) by (cbn; lia). cbn [bind].
  rewrite wrap_id; [| cbn; lia | destruct b; cbn; ib; lia].
  rewrite sub_ok by (destruct b; cbn [negb bit_z]; ib; pow2; lia). cbn [bind].
  assert (M : - (2 ^ 62) < (bit_z (negb b) * 2 ^ 31 - p * 512) * f < 2 ^ 62).
  { clear - P F0 FB. pow2. destruct b; cbn [negb bit_z]; split; nia. }
  rewrite mul_ok by (clear - M; ib; pow2; lia). cbn [bind].
  rewrite shl_ok by (cbn; lia). cbn [bind].
  rewrite wrap_id; [| cbn; lia | clear - P; ib; pow2; lia].
  assert (X : p * 512 * 2 ^ 31 + (bit_z (negb b) * 2 ^ 31 - p * 512) * f = de_exact p f b + 2 ^ 61).
  { unfold de_exact. change (2 ^ 9) with 512. pow2. ring. }
  rewrite add_ok by (rewrite X; clear - B; ib; pow2; lia). cbn [bind].
  rewrite shl_ok by (cbn; lia). cbn [bind]. change (wrap i64 (1 * 2 ^ 61)) with (2 ^ 61).
  rewrite X. rewrite sub_ok by (clear - IB; apply inb_true in IB; ib; pow2; lia). cbn [bind].
  replace (de_exact p f b + 2 ^ 61 - 2 ^ 61) with (de_exact p f b) by ring.
  rewrite Eq. cbn [bind].
  rewrite add_ok by (clear - Q; ib; pow2; lia). cbn [bind].
  rewrite wrap_id; [| cbn; lia | clear - Q; ib; pow2; lia].
  rewrite shl_ok by (cbn; lia). cbn [bind]. change (2 ^ 10) with 1024.
  rewrite wrap_id; [| cbn; lia | clear - Q; ib; pow2; lia].
  rewrite add_ok by (clear - N; ib; lia). cbn [bind]. unfold max_count.
  rewrite pack by (clear - N Q; pow2; lia). reflexivity.
Qed.

(** Rate tables the estimator is safe with: one half only for the very first update. *)
Definition rates_ok (rates : list Z) : Prop :=
  forall n, 0 <= n <= 1000 -> exists f, znth rates n = Some f /\ 0 <= f /\
    (if n =? 0 then f <= 2 ^ 30 else f < 2 ^ 30).

(** A valid estimator: prediction strictly inside, one half at count 0. *)
Definition de_valid (s : Z) : Prop :=
  exists p n, s = p * 1024 + n /\ 0 < p < 2 ^ 22 /\ 0 <= n <= 1000 /\ (n = 0 -> p = 2 ^ 21).

Lemma de_step rates p n b : rates_ok rates ->
  0 < p < 2 ^ 22 -> 0 <= n <= 1000 -> (n = 0 -> p = 2 ^ 21) ->
  exists f p', znth rates n = Some f /\ 0 <= f <= 2 ^ 30 /\
    de_update rates (p * 1024 + n) b = Ok (p' * 1024 + Z.min (n + 1) 1000) /\
    0 < p' < 2 ^ 22 /\ nearest_away (de_exact p f b) (2 ^ 40) (p' - 2 ^ 21).
Proof.
  intros R P N I. destruct (R n N) as (f & E & F0 & F).
  assert (C : f < 2 ^ 30 \/ f = 2 ^ 30 /\ p = 2 ^ 21).
  { destruct (Z.eqb_spec n 0) as [Z0|NZ]; [|now left].
    destruct (Z.eq_dec f (2 ^ 30)) as [->|NE]; [right; auto | left; lia]. }
  destruct (de_update_at rates p n f b P N E F0 C) as (p' & U & P' & NA).
  exists f, p'. split; [exact E|]. split; [split; [exact F0 | destruct C as [C|[C _]]; lia]|]. split; [exact U|]. split; [exact P'|exact NA].
Qed.

Lemma de_valid_new : de_valid (2 ^ 21 * 1024 + 0).
Proof. exists (2 ^ 21), 0. repeat split; try lia. Qed.

Lemma de_valid_step rates s b : rates_ok rates -> de_valid s ->
  exists s', de_update rates s b = Ok s' /\ de_valid s'.
Proof.
  intros R (p & n & -> & P & N & I). destruct (de_step rates p n b R P N I) as (f & p' & _ & _ & U & P' & _).
  exists (p' * 1024 + Z.min (n + 1) 1000). split; [exact U|].
  exists p', (Z.min (n + 1) 1000). split; [reflexivity|]. split; [exact P'|]. lia.
Qed.

(** The update never overshoots and never goes backwards. *)
Lemma de_towards p f b p' : 0 < p < 2 ^ 22 -> 0 <= f <= 2 ^ 30 -> 0 < p' < 2 ^ 22 ->
  nearest_away (de_exact p f b) (2 ^ 40) (p' - 2 ^ 21) ->
  if b then p' <= p else p <= p'.
Proof.
  intros P F P' (A & _). unfold de_exact in A. change (2 ^ 9) with 512 in *. pow2. destruct b; cbn [negb bit_z] in A.
  - assert (0 <= p * f) by nia. clear F. nia.
  - assert (0 <= (4194304 - p) * f) by nia. clear F. nia.
Qed.

(** Exact complement. *)
Lemma de_exact_mirror p f b : de_exact (2 ^ 22 - p) f (negb b) = - de_exact p f b.
Proof. unfold de_exact. pow2. destruct b; cbn [negb bit_z]; ring. Qed.
Lemma nearest_away_opp n d q : nearest_away n d q -> nearest_away (- n) d (- q).
Proof. unfold nearest_away. intros (A & B). rewrite !Z.abs_opp. replace (- q * d - - n) with (- (q * d - n)) by ring. rewrite Z.abs_opp. auto. Qed.

Lemma de_mirror_step rates p n b p' : rates_ok rates ->
  0 < p < 2 ^ 22 -> 0 <= n <= 1000 -> (n = 0 -> p = 2 ^ 21) ->
  de_update rates (p * 1024 + n) b = Ok (p' * 1024 + Z.min (n + 1) 1000) ->
  de_update rates ((2 ^ 22 - p) * 1024 + n) (negb b) = Ok ((2 ^ 22 - p') * 1024 + Z.min (n + 1) 1000).
Proof.
  intros R P N I U.
  destruct (de_step rates p n b R P N I) as (f & q & E & F & U1 & Q & NA).
  destruct (de_step rates (2 ^ 22 - p) n (negb b) R) as (f2 & q2 & E2 & _ & U2 & Q2 & NA2);
    [lia | lia | intros Z0; rewrite (I Z0); reflexivity |].
  rewrite E in E2. injection E2 as <-.
  rewrite U1 in U. injection U as U. assert (q = p') by lia. subst q.
  rewrite de_exact_mirror in NA2. apply nearest_away_opp in NA.
  pose proof (nearest_away_unique _ (2 ^ 40) _ _ (pow2_pos 40 ltac:(lia)) NA NA2) as X.
  rewrite U2. f_equal. pow2. lia.
Qed.

(** Running a history. *)
Definition de_run (rates : list Z) (h : list bit) : res Z :=
  let* s := de_new in mfold (de_update rates) h s.

Lemma de_run_snoc rates h b s : de_run rates h = Ok s -> de_run rates (h ++ [b]) = de_update rates s b.
Proof.
  unfold de_run. rewrite de_new_eq. cbn [bind]. rewrite mfold_app. intros ->. cbn [bind mfold].
  destruct (de_update rates s b); reflexivity.
Qed.

Lemma de_run_state rates h : rates_ok rates ->
  exists p, de_run rates h = Ok (p * 1024 + Z.min (zlen h) 1000) /\ 0 < p < 2 ^ 22 /\ (h = [] -> p = 2 ^ 21) /\
    de_run rates (complement h) = Ok ((2 ^ 22 - p) * 1024 + Z.min (zlen h) 1000).
Proof.
  intros R. induction h as [|b h IH] using rev_ind.
  - exists (2 ^ 21). unfold de_run. rewrite de_new_eq. cbn. repeat split; reflexivity.
  - destruct IH as (p & E & P & I & C).
    assert (I' : Z.min (zlen h) 1000 = 0 -> p = 2 ^ 21).
    { intros Z0. apply I. destruct h; [reflexivity|]. rewrite zlen_cons in Z0. pose proof (zlen_nonneg h). lia. }
    pose proof (zlen_nonneg h) as L.
    destruct (de_step rates p (Z.min (zlen h) 1000) b R P ltac:(lia) I') as (f & p' & _ & _ & U & P' & _).
    pose proof (de_mirror_step rates p (Z.min (zlen h) 1000) b p' R P ltac:(lia) I' U) as M.
    assert (LN : Z.min (zlen (h ++ [b])) 1000 = Z.min (Z.min (zlen h) 1000 + 1) 1000).
    { rewrite zlen_app. change (zlen [b]) with 1. lia. }
    exists p'. rewrite LN, (de_run_snoc _ _ _ _ E).
    repeat split; auto; try (pow2; lia).
    + intros Z0. destruct h; discriminate.
    + unfold complement in *. rewrite map_app. cbn [map]. rewrite (de_run_snoc _ _ _ _ C). exact M.
Qed.

(** Rate tables. *)
Lemma mmap_znth {A B} (f : A -> res B) l ys : mmap f l = Ok ys ->
  forall i x, znth l i = Some x -> exists y, f x = Ok y /\ znth ys i = Some y.
Proof.
  revert ys. induction l as [|a l IH]; intros ys H i x E; [discriminate|].
  cbn in H. inv_bind H. inv_bind H. injection H as <-. cbn [znth] in *.
  destruct (i =? 0); [injection E as <-; eauto|]. eapply IH; eauto.
Qed.
Lemma mmap_ok {A B} (f : A -> res B) l : (forall x, In x l -> exists y, f x = Ok y) -> exists ys, mmap f l = Ok ys.
Proof.
  induction l as [|a l IH]; intros H; cbn; [eauto|].
  destruct (H a (or_introl eq_refl)) as (y & ->). destruct IH as (ys & ->); [intros; apply H; now right|].
  cbn. eauto.
Qed.
Lemma mmap_length {A B} (f : A -> res B) l ys : mmap f l = Ok ys -> length ys = length l.
Proof.
  revert ys. induction l as [|a l IH]; intros ys H; cbn in H; [now injection H as <-|].
  inv_bind H. inv_bind H. injection H as <-. cbn. f_equal. auto.
Qed.

Definition rate_at (factor addend index : Z) : res Z :=
  let* m := mul u32 index factor in
  let* denominator := add u32 m addend in
  let* one := shl u32 1 31 in divt u32 one denominator.

Lemma rate_at_ok factor addend index : 0 <= factor -> 1 <= addend -> 0 <= index <= 1023 ->
  1023 * factor + addend < 2 ^ 32 ->
  rate_at factor addend index = Ok (2 ^ 31 / (index * factor + addend)).
Proof.
  intros F A I B. unfold rate_at. change (2 ^ 32) with 4294967296 in *.
  assert (M : 0 <= index * factor <= 1023 * factor) by nia.
  rewrite mul_ok by (ib; lia). cbn [bind]. rewrite add_ok by (ib; lia). cbn [bind].
  rewrite shl_ok by (cbn; lia). cbn [bind]. change (wrap u32 (1 * 2 ^ 31)) with (2 ^ 31).
  set (d := index * factor + addend). assert (D : 1 <= d) by lia. clearbody d. clear - D.
  unfold divt. destruct (Z.eqb_spec d 0); [lia|]. rewrite Z.quot_div_nonneg by lia.
  apply chk_ok. ib.
  split; [apply Z.div_pos; lia|]. etransitivity; [apply Z.div_le_upper_bound with (q := 2 ^ 31); nia|pow2; lia].
Qed.

Lemma rates_make_spec factor addend : 0 <= factor -> 1 <= addend ->
  1023 * factor + addend < 2 ^ 32 ->
  exists rates, rates_make factor addend = Ok rates /\
    forall n, 0 <= n <= 1023 -> znth rates n = Some (2 ^ 31 / (n * factor + addend)).
Proof.
  intros F A B. unfold rates_make. change (fun index : Z => _) with (rate_at factor addend).
  destruct (mmap_ok (rate_at factor addend) (zseq 0 (Z.to_nat 1024))) as (ys & E).
  { intros x Hx. apply zseq_In in Hx. eexists. apply rate_at_ok; lia. }
  exists ys. split; [exact E|]. intros n N.
  destruct (mmap_znth _ _ _ E n n) as (y & Y & Z1); [rewrite znth_zseq by lia; f_equal; lia|].
  rewrite rate_at_ok in Y by lia. injection Y as <-. exact Z1.
Qed.

Lemma rates_make_ok factor addend : 0 <= factor -> 2 <= addend -> 3 <= factor + addend ->
  1023 * factor + addend < 2 ^ 32 ->
  exists rates, rates_make factor addend = Ok rates /\ rates_ok rates.
Proof.
  intros F A FA B. destruct (rates_make_spec factor addend) as (rates & E & H); try lia.
  exists rates. split; [exact E|]. intros n N. exists (2 ^ 31 / (n * factor + addend)).
  split; [apply H; lia|]. change (2 ^ 31) with (2147483648) . change (2 ^ 30) with 1073741824.
  split; [apply Z.div_pos; nia|].
  destruct (Z.eqb_spec n 0) as [->|NZ].
  - apply Z.div_le_upper_bound; nia.
  - assert (3 <= n * factor + addend) by nia. apply Z.div_lt_upper_bound; nia.
Qed.

Lemma rates_default_ok : exists rates, rates_default = Ok rates /\ rates_ok rates /\
  forall n, 0 <= n <= 1023 -> znth rates n = Some (2 ^ 31 / (n + 2)).
Proof.
  destruct (rates_make_spec 1 2) as (rates & E & H); try lia. exists rates. split; [exact E|]. split.
  - destruct (rates_make_ok 1 2) as (r' & E' & H'); try lia. rewrite E in E'. injection E' as <-. exact H'.
  - intros n N. rewrite H by lia. do 2 f_equal. lia.
Qed.

(** ** Cache *)
Lemma cache_loop_spec rates n s : rates_ok rates -> de_valid s ->
  exists l, cache_loop rates n s = Ok l /\
    forall i, 0 <= i < Z.of_nat n ->
      exists e c, mfold (de_update rates) (repeat Zero (Z.to_nat i)) s = Ok e /\
        de_update rates e One = Ok c /\ znth l i = Some c.
Proof.
  intros R. revert s. induction n as [|n IH]; intros s V.
  - exists []. split; [reflexivity|]. intros; lia.
  - cbn [cache_loop]. destruct (de_valid_step rates s One R V) as (c & E1 & _).
    destruct (de_valid_step rates s Zero R V) as (s' & E2 & V'). rewrite E1, E2. cbn [bind].
    destruct (IH s' V') as (l & E & H). rewrite E. cbn [bind]. exists (c :: l). split; [reflexivity|].
    intros i I. destruct (Z.eqb_spec i 0) as [->|NZ].
    + exists s, c. repeat split; auto.
    + destruct (H (i - 1)) as (e & c' & A & B & C); [lia|]. exists e, c'.
      replace (Z.to_nat i) with (S (Z.to_nat (i - 1))) by lia. cbn [repeat mfold]. rewrite E2. cbn [bind].
      repeat split; auto. cbn [znth]. destruct (Z.eqb_spec i 0); [lia | exact C].
Qed.

Lemma map_repeat {A B} (f : A -> B) x n : map f (repeat x n) = repeat (f x) n.
Proof. induction n; cbn; congruence. Qed.
Lemma complement_repeat b n : complement (repeat b n) = repeat (negb b) n.
Proof. unfold complement. apply map_repeat. Qed.

Lemma cache_correct rates n b : rates_ok rates -> 0 <= n <= 1000 ->
  exists cache s, cache_new rates = Ok cache /\ cache_for_new_node cache b n = Ok s /\
    de_run rates (repeat (negb b) (Z.to_nat n) ++ [b]) = Ok s.
Proof.
  intros R N. unfold cache_new. rewrite de_new_eq. cbn [bind].
  destruct (cache_loop_spec rates (Z.to_nat 1024) _ R de_valid_new) as (l & E & H).
  rewrite E. destruct (H n ltac:(lia)) as (e & c & A & B & C).
  destruct (de_run_state rates (repeat Zero (Z.to_nat n) ++ [One]) R) as (p & D1 & P & _ & D2).
  assert (D1' : de_run rates (repeat Zero (Z.to_nat n) ++ [One]) = Ok c).
  { unfold de_run. rewrite de_new_eq. cbn [bind]. rewrite mfold_app, A. cbn [bind mfold]. now rewrite B. }
  assert (LZ : zlen (repeat Zero (Z.to_nat n) ++ [One]) = n + 1).
  { unfold zlen. rewrite app_length, repeat_length. cbn. lia. }
  rewrite LZ in *.
  exists l. unfold cache_for_new_node. unfold max_count.
  assert (L1000 : (n <=? 1000) = true) by lia. rewrite L1000. cbn [assert_ guard bind].
  unfold get. rewrite C. cbn [bind]. rewrite D1 in D1'. injection D1' as <-.
  destruct b.
  - eexists. split; [reflexivity|]. split; [reflexivity|]. exact D1.
  - rewrite de_prediction_at, de_usage_count_at by lia. cbn [bind].
    assert (FL : flip fract_only_u32 (p * 512) = Ok ((2 ^ 22 - p) * 512)).
    { destruct (flip_u fract_only_u32 (or_introl eq_refl) (p * 512)) as (G & _).
      - cbn [f_frac fract_only_u32]. pow2. lia.
      - rewrite G. cbn [f_frac fract_only_u32]. f_equal. pow2. lia. }
    rewrite FL. cbn [bind]. rewrite de_make_at by (pow2; lia).
    replace (Z.max 1 (Z.min (2 ^ 22 - p) (2 ^ 22 - 1))) with (2 ^ 22 - p) by (pow2; lia).
    eexists. split; [reflexivity|]. split; [reflexivity|].
    unfold complement in D2. rewrite map_app in D2. rewrite map_repeat in D2. exact D2.
Qed.

(** ** Frequencies under the default rates *)
Lemma zeros_snoc h b : zeros (h ++ [b]) = zeros h + bit_z (negb b).
Proof. unfold zeros. rewrite filter_app, zlen_app. destruct b; reflexivity. Qed.

Lemma kt_step (p p' f n z t : Z) : 0 < p < 4194304 -> 0 <= n -> (t = 0 \/ t = 1) ->
  (n + 2) * f <= 2147483648 < (n + 2) * f + (n + 2) ->
  2 * Z.abs ((p' - 2097152) * 1099511627776 - ((p - 2097152) * 1099511627776 + (t * 4194304 - p) * 512 * f)) <= 1099511627776 ->
  512 * Z.abs (2 * (n + 1) * p - (2 * z + 1) * 4194304) <= 257 * (n * (n + 3)) ->
  512 * Z.abs (2 * (n + 2) * p' - (2 * (z + t) + 1) * 4194304) <= 257 * ((n + 1) * (n + 4)).
Proof.
  intros P N T F A I.
  set (w := (n + 2) * f) in *. set (e := t * 4194304 - p) in *.
  assert (E : - 4194304 < e < 4194304) by (destruct T as [-> | ->]; lia).
  (* (n+2)*X with X = p*2^31*512 + e*512*f *)
  assert (S : 2 * Z.abs ((n + 2) * p' * 2147483648 - ((n + 2) * p * 2147483648 + e * w)) <= (n + 2) * 2147483648).
  { replace ((n + 2) * p' * 2147483648 - ((n + 2) * p * 2147483648 + e * w))
      with ((n + 2) * (p' * 2147483648 - (p * 2147483648 + e * f))) by (unfold w; ring).
    rewrite Z.abs_mul, (Z.abs_eq (n + 2)) by lia.
    assert (2 * Z.abs (p' * 2147483648 - (p * 2147483648 + e * f)) <= 2147483648) by (clear - A; lia).
    nia. }
  set (r := 2147483648 - w). assert (Rr : 0 <= r < n + 2) by lia.
  assert (ER : Z.abs (e * r) <= 4194304 * (n + 2)) by (rewrite Z.abs_mul; nia).
  replace (e * w) with (e * 2147483648 - e * r) in S by (unfold r; ring).
  set (er := e * r) in *. clearbody er.
  set (q := (n + 2) * p') in *. set (s := (n + 1) * p) in *.
  replace ((n + 2) * p) with (s + p) in S by (unfold s; ring).
  replace (2 * (n + 2) * p') with (2 * q) by (unfold q; ring).
  replace (2 * (n + 1) * p) with (2 * s) in I by (unfold s; ring).
  replace ((n + 1) * (n + 4)) with (n * (n + 3) + 2 * (n + 2)) by ring.
  set (k := n * (n + 3)) in *. clearbody k q s.
  unfold e in S. clear A w r Rr F P e E.
  replace ((2 * (z + t) + 1) * 4194304) with (2 * z * 4194304 + 2 * t * 4194304 + 4194304) by ring.
  replace ((2 * z + 1) * 4194304) with (2 * z * 4194304 + 4194304) in I by ring. lia.
Qed.

Lemma de_frequency rates h :
  rates_ok rates -> (forall n, 0 <= n <= 1023 -> znth rates n = Some (2 ^ 31 / (n + 2))) ->
  zlen h <= 1001 ->
  exists p, de_run rates h = Ok (p * 1024 + Z.min (zlen h) 1000) /\ 0 < p < 2 ^ 22 /\
    512 * Z.abs (2 * (zlen h + 1) * p - (2 * zeros h + 1) * 2 ^ 22) <= 257 * (zlen h * (zlen h + 3)).
Proof.
  intros R K. induction h as [|b h IH] using rev_ind; intros L.
  - exists (2 ^ 21). unfold de_run. rewrite de_new_eq. repeat split; cbn; lia.
  - rewrite zlen_app in *. change (zlen [b]) with 1 in *. pose proof (zlen_nonneg h) as L0.
    destruct IH as (p & E & P & I); [lia|].
    assert (I' : Z.min (zlen h) 1000 = 0 -> p = 2 ^ 21).
    { intros Z0. destruct (de_run_state rates h R) as (p2 & E2 & _ & X & _). rewrite E in E2. injection E2 as E2.
      assert (p = p2) by lia. subst p2. apply X. destruct h; [reflexivity|]. rewrite zlen_cons in Z0. pose proof (zlen_nonneg h). lia. }
    destruct (de_step rates p (Z.min (zlen h) 1000) b R P ltac:(lia) I') as (f & p' & F & _ & U & P' & (NA & _)).
    exists p'. rewrite (de_run_snoc _ _ _ _ E). split; [rewrite U; do 2 f_equal; lia|]. split; [exact P'|].
    rewrite zeros_snoc. rewrite K in F by lia.
    replace (Z.min (zlen h) 1000) with (zlen h) in F by lia.
    assert (F' : 2 ^ 31 / (zlen h + 2) = f) by congruence. clear F. rename F' into F.
    replace (zlen h + 1 + 1) with (zlen h + 2) by ring. replace (zlen h + 1 + 3) with (zlen h + 4) by ring.
    change (2 ^ 22) with 4194304 in *. eapply kt_step with (p := p) (f := f); try lia.
    + destruct b; cbn; lia.
    + unfold de_exact in NA. change (2 ^ 9) with 512 in NA. pow2. exact NA.
Qed.

(** ** Fixed speed *)
Lemma fs_step s b : 0 < s < 65536 -> exists s', fs_update s b = Ok s' /\ 0 < s' < 65536 /\
  (if b then s - s / 128 = s' else s + (65536 - s) / 128 = s').
Proof.
  intros S. destruct b; cbn [fs_update].
  - rewrite shr_ok by (cbn; lia). cbn [bind]. change (2 ^ 7) with 128.
    rewrite sub_ok by (ib; lia). eexists. split; [reflexivity|]. lia.
  - rewrite shl_ok by (cbn; lia). cbn [bind]. change (wrap u32 (1 * 2 ^ 16)) with 65536.
    rewrite sub_ok by (ib; lia). cbn [bind]. rewrite shr_ok by (cbn; lia). cbn [bind]. change (2 ^ 7) with 128.
    rewrite wrap_id; [| cbn; lia | ib; lia].
    rewrite add_ok by (ib; lia). eexists. split; [reflexivity|]. lia.
Qed.
Lemma fs_prediction_at s : 0 < s < 65536 -> fs_prediction s = Ok (s * 32768).
Proof.
  intros S. unfold fs_prediction. rewrite shl_ok by (cbn; lia). change (2 ^ 15) with 32768.
  rewrite wrap_id; [reflexivity | cbn; lia | ib; lia].
Qed.
Lemma fs_mirror s b s' : 0 < s < 65536 -> fs_update s b = Ok s' -> fs_update (65536 - s) (negb b) = Ok (65536 - s').
Proof.
  intros S E. destruct (fs_step s b S) as (x & E1 & _ & H). rewrite E in E1. injection E1 as <-.
  destruct (fs_step (65536 - s) (negb b)) as (y & E2 & _ & H2); [lia|]. rewrite E2. f_equal.
  destruct b; cbn [negb] in H2; lia.
Qed.
Lemma fs_run_mirror h s : 0 < s < 65536 -> exists s', mfold fs_update h s = Ok s' /\ 0 < s' < 65536 /\
  mfold fs_update (complement h) (65536 - s) = Ok (65536 - s').
Proof.
  revert s. induction h as [|b h IH]; intros s S; [exists s; repeat split; cbn; lia|].
  destruct (fs_step s b S) as (x & E & X & _). pose proof (fs_mirror s b x S E) as M.
  cbn [complement map mfold]. rewrite E, M. cbn [bind]. apply IH. exact X.
Qed.

(** ** Statements used by PropEst.v *)
Definition sane_table (factor addend : Z) : Prop :=
  0 <= factor /\ 2 <= addend /\ 3 <= factor + addend /\ 1023 * factor + addend < 2 ^ 32.

Lemma de_total factor addend h : sane_table factor addend ->
  exists rates s p, rates_make factor addend = Ok rates /\ de_run rates h = Ok s /\
    de_prediction s = Ok p /\ 0 < p < 2 ^ 31 /\ de_usage_count s = Z.min (zlen h) 1000.
Proof.
  intros (F & A & FA & B). destruct (rates_make_ok factor addend F A FA B) as (rates & E & R).
  destruct (de_run_state rates h R) as (p & D & P & _). pose proof (zlen_nonneg h).
  exists rates, (p * 1024 + Z.min (zlen h) 1000), (p * 512). split; [exact E|]. split; [exact D|].
  rewrite de_prediction_at, de_usage_count_at by lia. repeat split; pow2; lia.
Qed.

Lemma de_step_near factor addend h b : sane_table factor addend ->
  exists rates s s' p p' f, rates_make factor addend = Ok rates /\
    de_run rates h = Ok s /\ de_run rates (h ++ [b]) = Ok s' /\
    de_prediction s = Ok p /\ de_prediction s' = Ok p' /\ towards b p p' /\
    f = 2 ^ 31 / (Z.min (zlen h) 1000 * factor + addend) /\
    2 * Z.abs (p' * 2 ^ 31 - (p * 2 ^ 31 + (target b - p) * f)) <= 2 ^ 9 * 2 ^ 31.
Proof.
  intros (F & A & FA & B). destruct (rates_make_ok factor addend F A FA B) as (rates & E & R).
  destruct (rates_make_spec factor addend F ltac:(lia) B) as (rates2 & E2 & K).
  rewrite E in E2. injection E2 as <-.
  destruct (de_run_state rates h R) as (p & D & P & I & _). pose proof (zlen_nonneg h).
  assert (I' : Z.min (zlen h) 1000 = 0 -> p = 2 ^ 21).
  { intros Z0. apply I. destruct h; [reflexivity|]. rewrite zlen_cons in Z0. pose proof (zlen_nonneg h). lia. }
  destruct (de_step rates p (Z.min (zlen h) 1000) b R P ltac:(lia) I') as (f & p' & FE & FB & U & P' & NA).
  pose proof (de_towards p f b p' P FB P' NA) as T.
  rewrite K in FE by lia.
  assert (FE' : f = 2 ^ 31 / (Z.min (zlen h) 1000 * factor + addend)) by congruence.
  exists rates, (p * 1024 + Z.min (zlen h) 1000), (p' * 1024 + Z.min (Z.min (zlen h) 1000 + 1) 1000), (p * 512), (p' * 512), f.
  split; [exact E|]. split; [exact D|]. split; [rewrite (de_run_snoc _ _ _ _ D); exact U|].
  split; [apply de_prediction_at; lia|]. split; [apply de_prediction_at; lia|].
  split; [unfold towards; destruct b; pow2; lia|]. split; [exact FE'|].
  clear FE FE' T. destruct NA as (NA & _). unfold de_exact in NA. change (2 ^ 9) with 512 in *.
  unfold target. pow2. destruct b; cbn [negb bit_z] in NA; lia.
Qed.

Lemma de_frequency_default h : zlen h <= 1001 ->
  exists rates s p, rates_default = Ok rates /\ de_run rates h = Ok s /\ de_prediction s = Ok p /\
    Z.abs (2 * (zlen h + 1) * p - (2 * zeros h + 1) * 2 ^ 31) <= 257 * zlen h * (zlen h + 3).
Proof.
  intros L. destruct rates_default_ok as (rates & E & R & K).
  destruct (de_frequency rates h R K L) as (p & D & P & B). pose proof (zlen_nonneg h).
  exists rates, (p * 1024 + Z.min (zlen h) 1000), (p * 512). split; [exact E|]. split; [exact D|].
  split; [apply de_prediction_at; lia|].
  replace (2 * (zlen h + 1) * (p * 512) - (2 * zeros h + 1) * 2 ^ 31)
    with (512 * (2 * (zlen h + 1) * p - (2 * zeros h + 1) * 2 ^ 22)) by (pow2; ring).
  rewrite Z.abs_mul. replace (257 * zlen h * (zlen h + 3)) with (257 * (zlen h * (zlen h + 3))) by ring. exact B.
Qed.

Lemma de_symmetric factor addend h : sane_table factor addend ->
  exists rates s s' p, rates_make factor addend = Ok rates /\
    de_run rates h = Ok s /\ de_run rates (complement h) = Ok s' /\
    de_prediction s = Ok p /\ de_prediction s' = Ok (2 ^ 31 - p) /\ de_usage_count s' = de_usage_count s.
Proof.
  intros (F & A & FA & B). destruct (rates_make_ok factor addend F A FA B) as (rates & E & R).
  destruct (de_run_state rates h R) as (p & D & P & _ & D2). pose proof (zlen_nonneg h).
  exists rates, (p * 1024 + Z.min (zlen h) 1000), ((2 ^ 22 - p) * 1024 + Z.min (zlen h) 1000), (p * 512).
  rewrite !de_usage_count_at, !de_prediction_at by lia. repeat split; auto. f_equal. pow2. ring.
Qed.

Lemma fs_total s h : 0 < s < 65536 -> exists t p, (let* s0 := fs_new s in mfold fs_update h s0) = Ok t /\
  fs_prediction t = Ok p /\ 0 < p < 2 ^ 31.
Proof.
  intros S. unfold fs_new. assert (E : negb (s =? 0) = true) by lia. rewrite E. cbn [assert_ guard bind].
  destruct (fs_run_mirror h s S) as (t & D & T & _). exists t, (t * 32768). split; [exact D|].
  split; [now apply fs_prediction_at | pow2; lia].
Qed.
Lemma fs_moves s h b : 0 < s < 65536 -> exists t t' p p',
  (let* s0 := fs_new s in mfold fs_update h s0) = Ok t /\
  (let* s0 := fs_new s in mfold fs_update (h ++ [b]) s0) = Ok t' /\
  fs_prediction t = Ok p /\ fs_prediction t' = Ok p' /\ towards b p p' /\
  Z.abs (128 * (p' - p) - (target b - p)) < 128 * 2 ^ 15.
Proof.
  intros S. unfold fs_new. assert (E : negb (s =? 0) = true) by lia. rewrite E. cbn [assert_ guard bind].
  destruct (fs_run_mirror h s S) as (t & D & T & _). destruct (fs_step t b T) as (t' & D' & T' & X).
  exists t, t', (t * 32768), (t' * 32768). split; [exact D|].
  split; [rewrite mfold_app, D; cbn [bind mfold]; now rewrite D'|].
  split; [now apply fs_prediction_at|]. split; [now apply fs_prediction_at|].
  unfold towards, target. pow2. destruct b; lia.
Qed.
Lemma fs_symmetric h : exists t t' p, (let* s0 := fs_default in mfold fs_update h s0) = Ok t /\
  (let* s0 := fs_default in mfold fs_update (complement h) s0) = Ok t' /\
  fs_prediction t = Ok p /\ fs_prediction t' = Ok (2 ^ 31 - p).
Proof.
  change fs_default with (@Ok Z 32768). cbn [bind]. destruct (fs_run_mirror h 32768) as (t & D & T & M); [lia|].
  exists t, (65536 - t), (t * 32768). split; [exact D|]. split; [exact M|].
  rewrite !fs_prediction_at by lia. split; [reflexivity|]. f_equal. pow2. lia.
Qed.
Lemma cache_replay factor addend n b : sane_table factor addend -> 0 <= n <= 1000 ->
  exists rates cache s, rates_make factor addend = Ok rates /\ cache_new rates = Ok cache /\
    cache_for_new_node cache b n = Ok s /\ de_run rates (repeat (negb b) (Z.to_nat n) ++ [b]) = Ok s.
Proof.
  intros (F & A & FA & B) N. destruct (rates_make_ok factor addend F A FA B) as (rates & E & R).
  destruct (cache_correct rates n b R N) as (cache & s & H). exists rates, cache, s. split; [exact E | exact H].
Qed.
