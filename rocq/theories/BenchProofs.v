(** Proofs for C63. *)
From Coq Require Import Lia.
From Verif Require Import Base BaseFacts FixedModel LutModel LutTable LutProofs LutRound StatesModel StatesProofs RandomModel RandomProofs BenchModel BenchSpec.

Lemma low_signed_eq x : wrap i32 x = low_signed x.
Proof.
  unfold wrap, low_signed. cbn [i32 ibits isigned andb]. change (32 - 1) with 31. destruct (Z.leb_spec (2 ^ 31) (x mod 2 ^ 32)); destruct (Z.ltb_spec (x mod 2 ^ 32) (2 ^ 31)); lia.
Qed.
Lemma one_draw fuel mt : generate_stretched_prob (S fuel) mt =
  let* r := next_int64 mt in if usable (fst r) then Ok (low_signed (fst r) / 2 ^ 6, snd r) else generate_stretched_prob fuel (snd r).
Proof.
  cbn [generate_stretched_prob]. destruct (next_int64 mt) as [[x mt']|e]; [|reflexivity]. cbn [bind fst snd]. rewrite low_signed_eq.
  change (shl i32 (-12) (32 - 5)) with (Ok (-1610612736)). change (shl i32 12 (32 - 5)) with (Ok 1610612736). cbn [bind]. unfold usable. change (12 * 2 ^ 27) with 1610612736. set (u := low_signed x).
  destruct (Z.ltb_spec u (-1610612736)); [cbn [orb]; destruct (Z.leb_spec (Z.abs u) 1610612736); [lia|reflexivity]|]. cbn [orb].
  destruct (Z.ltb_spec 1610612736 u); [destruct (Z.leb_spec (Z.abs u) 1610612736); [lia|reflexivity]|]. destruct (Z.leb_spec (Z.abs u) 1610612736); [|lia].
  change (f_frac stretched_d) with 21. change (32 - 5 - 21) with 6. unfold shr. cbn [i32 ibits]. change ((0 <=? 6) && (6 <? 32)) with true. cbn [bind]. change (2 ^ 6) with 64.
  unfold fix_new. change (21 =? f_frac stretched_d) with true. cbn [assert_ guard bind stretched_d f_new f_within]. change (12 * 2 ^ 21) with 25165824.
  replace (- (25165824) <=? u / 64) with true by (symmetry; apply Z.leb_le; lia). replace (u / 64 <=? 25165824) with true by (symmetry; apply Z.leb_le; lia). reflexivity.
Qed.
Lemma drawn_range xs : Forall (fun s => - (12 * 2 ^ 21) <= s <= 12 * 2 ^ 21) (drawn xs).
Proof.
  apply Forall_forall. intros s H. unfold drawn in H. apply in_map_iff in H. destruct H as (x & <- & H). apply filter_In in H. destruct H as [_ H]. unfold usable in H. apply Z.leb_le in H.
  change (12 * 2 ^ 27) with 1610612736 in H. change (2 ^ 6) with 64. change (12 * 2 ^ 21) with 25165824. lia.
Qed.

(** The generator after so many numbers. *)
Fixpoint later (n : nat) (mt : twister) : res twister := match n with O => Ok mt | S n => let* r := next_int64 mt in later n (snd r) end.
Lemma later_outputs : forall n m mt xs ys mt', outputs n mt = Ok xs -> later n mt = Ok mt' -> outputs m mt' = Ok ys -> outputs (n + m) mt = Ok (xs ++ ys).
Proof.
  induction n as [|n IH]; intros m mt xs ys mt' A B C; cbn in *.
  - injection A as <-. injection B as <-. exact C.
  - destruct (next_int64 mt) as [[x mt1]|]; [|discriminate]. cbn [bind fst snd] in *. destruct (outputs n mt1) as [r|] eqn:O; [|discriminate]. cbn [bind] in A. injection A as <-.
    rewrite (IH m mt1 r ys mt' O B C). reflexivity.
Qed.
Lemma outputs_later : forall n mt xs, outputs n mt = Ok xs -> exists mt', later n mt = Ok mt'.
Proof.
  induction n as [|n IH]; intros mt xs A; cbn in *; [eauto|]. destruct (next_int64 mt) as [[x mt1]|]; [|discriminate]. cbn [bind fst snd] in *. destruct (outputs n mt1) as [r|] eqn:O; [|discriminate]. exact (IH _ _ O).
Qed.
Lemma outputs_split : forall n m mt zs mt', outputs (n + m) mt = Ok zs -> later n mt = Ok mt' -> outputs n mt = Ok (firstn n zs) /\ outputs m mt' = Ok (skipn n zs).
Proof.
  induction n as [|n IH]; intros m mt zs mt' A B; cbn in *; [injection B as <-; auto|]. destruct (next_int64 mt) as [[x mt1]|]; [|discriminate]. cbn [bind fst snd] in *.
  destruct (outputs (n + m) mt1) as [r|] eqn:O; [|discriminate]. cbn [bind] in A. injection A as <-. destruct (IH m mt1 r mt' O B) as [E F]. rewrite E. cbn [bind firstn skipn]. auto.
Qed.

Lemma draw_first : forall skipped x fuel mt, outputs (S (length skipped)) mt = Ok (skipped ++ [x]) -> forallb (fun y => negb (usable y)) skipped = true -> usable x = true -> (length skipped < fuel)%nat ->
  exists mt', generate_stretched_prob fuel mt = Ok (low_signed x / 2 ^ 6, mt') /\ later (S (length skipped)) mt = Ok mt'.
Proof.
  induction skipped as [|y l IH]; intros x fuel mt O U X F; (destruct fuel as [|fuel]; [lia|]); rewrite one_draw; cbn [length later app] in *; cbn [outputs] in O; destruct (next_int64 mt) as [[v mt1]|]; try discriminate; cbn [bind fst snd] in *.
  - injection O as ->. rewrite X. eauto.
  - cbn [forallb] in U. apply andb_prop in U. destruct U as [Y U]. change (let* r := next_int64 mt1 in let* rest := outputs (length l) (snd r) in Ok (fst r :: rest)) with (outputs (S (length l)) mt1) in O.
    destruct (outputs (S (length l)) mt1) as [r|] eqn:O1; [|discriminate]. cbn [bind] in O. injection O as -> ->. apply Bool.negb_true_iff in Y. rewrite Y. exact (IH x fuel mt1 O1 U X ltac:(lia)).
Qed.
Lemma draw_none : forall fuel mt xs, outputs fuel mt = Ok xs -> forallb (fun y => negb (usable y)) xs = true -> generate_stretched_prob fuel mt = Fail EFuel.
Proof.
  induction fuel as [|fuel IH]; intros mt xs O U; [reflexivity|]. rewrite one_draw. cbn [outputs] in O. destruct (next_int64 mt) as [[v mt1]|]; [|discriminate]. cbn [bind fst snd] in *.
  destruct (outputs fuel mt1) as [r|] eqn:O1; [|discriminate]. cbn [bind] in O. injection O as <-. cbn [forallb] in U. apply andb_prop in U. destruct U as [Y U]. apply Bool.negb_true_iff in Y. rewrite Y. exact (IH mt1 r O1 U).
Qed.
Lemma draw_ok skipped x fuel mt : outputs (S (length skipped)) mt = Ok (skipped ++ [x]) -> forallb (fun y => negb (usable y)) skipped = true -> usable x = true -> (length skipped < fuel)%nat ->
  - (12 * 2 ^ 21) <= low_signed x / 2 ^ 6 <= 12 * 2 ^ 21 /\
  exists mt', generate_stretched_prob fuel mt = Ok (low_signed x / 2 ^ 6, mt') /\ forall n ys, outputs n mt' = Ok ys -> outputs (S (length skipped) + n) mt = Ok ((skipped ++ [x]) ++ ys).
Proof.
  intros O U X F. split.
  - pose proof (drawn_range [x]) as D. unfold drawn in D. cbn [filter] in D. rewrite X in D. exact (Forall_inv D).
  - destruct (draw_first skipped x fuel mt O U X F) as (mt' & G & L). exists mt'. split; [exact G|]. intros n ys Y. exact (later_outputs _ _ _ _ _ _ O L Y).
Qed.

Lemma drawn_app a b : drawn (a ++ b) = drawn a ++ drawn b. Proof. unfold drawn. rewrite filter_app. apply map_app. Qed.
Lemma drawn_skip l : forallb (fun y => negb (usable y)) l = true -> drawn l = [].
Proof. unfold drawn. induction l as [|y l IH]; intros H; [reflexivity|]. cbn in H |- *. apply andb_prop in H. destruct H as [A B]. apply Bool.negb_true_iff in A. rewrite A. exact (IH B). Qed.
Lemma first_usable xs : drawn xs <> [] -> exists skipped x rest, xs = skipped ++ x :: rest /\ forallb (fun y => negb (usable y)) skipped = true /\ usable x = true.
Proof.
  induction xs as [|y l IH]; intros H; [now elim H|]. destruct (usable y) eqn:U; [exists [], y, l; auto|].
  unfold drawn in H. cbn [filter] in H. rewrite U in H. destruct (IH H) as (s & x & r & -> & A & B). exists (y :: s), x, r. cbn [app forallb]. rewrite U. auto.
Qed.
Lemma outputs_length : forall n mt xs, outputs n mt = Ok xs -> length xs = n.
Proof.
  induction n as [|n IH]; intros mt xs O; cbn in O; [injection O as <-; reflexivity|]. destruct (next_int64 mt) as [[v mt1]|]; [|discriminate]. cbn [bind fst snd] in *.
  destruct (outputs n mt1) as [r|] eqn:O1; [|discriminate]. cbn [bind] in O. injection O as <-. cbn. now rewrite (IH _ _ O1).
Qed.
Lemma probs_ok : forall elems n fuel mt xs, outputs n mt = Ok xs -> (elems <= length (drawn xs))%nat -> (n <= fuel)%nat -> generate_probs fuel elems mt = Ok (firstn elems (drawn xs)).
Proof.
  induction elems as [|elems IH]; intros n fuel mt xs O L F; [reflexivity|]. cbn [generate_probs].
  destruct (first_usable xs) as (s & x & r & -> & A & B). { intros E. rewrite E in L. cbn in L. lia. }
  pose proof (outputs_length _ _ _ O) as LN. rewrite app_length in LN. cbn [length] in LN. replace n with (S (length s) + length r)%nat in O by lia.
  assert (exists mt', later (S (length s)) mt = Ok mt') as (mt' & LT).
  { destruct (outputs_later _ _ _ O) as (m2 & L2). revert L2. generalize (S (length s)). clear. intros a. generalize (length r). intros b. revert mt. induction a as [|a IH]; intros mt H; [eexists; reflexivity|]. cbn [Nat.add later] in *.
    destruct (next_int64 mt) as [[v mt1]|]; [|discriminate]. cbn [bind fst snd] in *. exact (IH _ H). }
  destruct (outputs_split _ _ _ _ _ O LT) as [O1 O2].
  replace (s ++ x :: r) with ((s ++ [x]) ++ r) in O1, O2 by (rewrite <- app_assoc; reflexivity).
  assert (LS : length (s ++ [x]) = S (length s)) by (rewrite app_length; cbn; lia).
  rewrite <- LS in O1 at 2. rewrite <- LS in O2 at 1. rewrite firstn_app, firstn_all, Nat.sub_diag, app_nil_r in O1. rewrite skipn_app, skipn_all, Nat.sub_diag in O2. cbn [app skipn] in O2.
  destruct (draw_first s x fuel mt O1 A B ltac:(lia)) as (mt2 & G & LT2). rewrite LT in LT2. injection LT2 as <-. rewrite G. cbn [bind fst snd].
  rewrite drawn_app, drawn_skip in L |- * by exact A. cbn [app] in *. change (x :: r) with ([x] ++ r) in *. rewrite drawn_app in *. assert (D : drawn [x] = [low_signed x / 2 ^ 6]) by (unfold drawn; cbn [filter]; rewrite B; reflexivity). rewrite D in *. cbn [app length firstn] in *.
  rewrite (IH (length r) fuel mt' r O2 ltac:(lia) ltac:(lia)). reflexivity.
Qed.

(** Sums that do not overflow. *)
Lemma total_bound m l : 0 <= m -> Forall (fun x => Z.abs x <= m) l -> Z.abs (total l) <= m * zlen l.
Proof. intros M. unfold zlen. induction 1 as [|x l X F IH]; cbn [total length]; [lia|]. rewrite Nat2Z.inj_succ. lia. Qed.
Lemma inner_sum (ty : ity) (f : Z -> res Z) (g : Z -> Z) (m : Z) probs : 0 <= m -> (forall p, In p probs -> f p = Ok (g p) /\ Z.abs (g p) <= m /\ (isigned ty = false -> 0 <= g p)) ->
  forall s, (isigned ty = false -> 0 <= s) -> Z.abs s + m * zlen probs <= imax ty -> imin ty = (if isigned ty then - imax ty - 1 else 0) -> mfold (fun sum prob => let* x := f prob in add ty sum x) probs s = Ok (s + total (map g probs)).
Proof.
  intros M. unfold zlen. induction probs as [|p l IH]; intros H s S0 B I; cbn [mfold map total length] in *; [now rewrite Z.add_0_r|].
  destruct (H p (or_introl eq_refl)) as (E & BP & NN). rewrite E. cbn [bind]. unfold add, chk, inb. rewrite Nat2Z.inj_succ in B.
  replace ((imin ty <=? s + g p) && (s + g p <=? imax ty)) with true. 2: { symmetry. apply andb_true_intro. split; apply Z.leb_le; rewrite ?I; destruct (isigned ty); try specialize (S0 eq_refl); try specialize (NN eq_refl); lia. }
  cbn [bind].   rewrite IH; [f_equal; lia|intros q Q; apply H; now right| |lia|exact I]. intros U. specialize (S0 U). specialize (NN U). lia.
Qed.
Lemma outer_sum (ty : ity) (f : Z -> res Z) (g : Z -> Z) (m : Z) probs loops : 0 <= m -> (forall p, In p probs -> f p = Ok (g p) /\ Z.abs (g p) <= m /\ (isigned ty = false -> 0 <= g p)) ->
  imin ty = (if isigned ty then - imax ty - 1 else 0) -> Z.of_nat loops * (m * zlen probs) <= imax ty -> sum_up ty f loops probs = Ok (Z.of_nat loops * total (map g probs)).
Proof.
  intros M H I B. unfold sum_up. set (step := fun (sum _ : Z) => _).
  assert (T : Z.abs (total (map g probs)) <= m * zlen probs).
  { replace (zlen probs) with (zlen (map g probs)) by (unfold zlen; now rewrite map_length). apply total_bound; [exact M|]. apply Forall_forall. intros y Y. apply in_map_iff in Y. destruct Y as (p & <- & P). apply (H p P). }
  assert (TN : isigned ty = false -> 0 <= total (map g probs)).
  { intros U. clear -H U. induction probs as [|p l IH]; cbn; [lia|]. pose proof (proj2 (proj2 (H p (or_introl eq_refl))) U). specialize (IH (fun q Q => H q (or_intror Q))). lia. }
  set (T0 := total (map g probs)) in *.
  assert (G : forall n a done, (done + n = loops)%nat -> mfold step (zseq a n) (Z.of_nat done * T0) = Ok (Z.of_nat loops * T0)).
  { induction n as [|n IH]; intros a done E; cbn [zseq mfold]; [repeat f_equal; lia|].
    unfold step at 1. rewrite (inner_sum ty f g m probs M H); [cbn [bind]|intros U; specialize (TN U); nia| |exact I].
    - fold T0. replace (Z.of_nat done * T0 + T0) with (Z.of_nat (S done) * T0) by lia. apply IH. lia.
    - rewrite Z.abs_mul, Z.abs_eq by lia. assert (Z.of_nat done * Z.abs T0 <= Z.of_nat done * (m * zlen probs)) by (apply Z.mul_le_mono_nonneg_l; lia).
      assert ((Z.of_nat done + 1) * (m * zlen probs) <= Z.of_nat loops * (m * zlen probs)) by (apply Z.mul_le_mono_nonneg_r; lia). lia. }
  exact (G loops 0 0%nat eq_refl).
Qed.

Lemma mmap_map {A B} (f : A -> res B) (g : A -> B) l : (forall x, In x l -> f x = Ok (g x)) -> mmap f l = Ok (map g l).
Proof. induction l as [|x l IH]; intros H; [reflexivity|]. cbn. rewrite (H x (or_introl eq_refl)). cbn. rewrite IH by (intros y Y; apply H; now right). reflexivity. Qed.

Lemma sums_lean st sq fuel elems warm loops t mt n xs : lt_stretch t = st -> lt_squash t = sq -> stretch_lut_ok st -> squash_lut_ok sq ->
  outputs n mt = Ok xs -> (elems <= length (drawn xs))%nat -> (n <= fuel)%nat -> Z.of_nat elems * Z.of_nat warm <= 2 ^ 33 -> Z.of_nat elems * Z.of_nat loops <= 2 ^ 33 ->
  bench fuel elems warm loops t mt = Ok (Z.of_nat warm * total (map lean_squash (firstn elems (drawn xs))), Z.of_nat loops * total (map lean_squash (firstn elems (drawn xs))),
    Z.of_nat loops * total (map lean_stretch (map lean_squash (firstn elems (drawn xs))))).
Proof.
  intros <- <- HS HQ O L F W LP. unfold bench. rewrite (probs_ok elems n fuel mt xs O L F). cbn [bind]. set (ds := firstn elems (drawn xs)).
  assert (LD : zlen ds = Z.of_nat elems) by (unfold ds, zlen; rewrite firstn_length_le by exact L; reflexivity).
  assert (RD : forall s, In s ds -> - (12 * 2 ^ 21) <= s <= 12 * 2 ^ 21).
  { intros s S. pose proof (drawn_range xs) as D. rewrite Forall_forall in D. apply D. rewrite <- (firstn_skipn elems (drawn xs)). apply in_or_app. now left. }
  assert (Q : forall s, In s ds -> squash (lt_squash t) s = Ok (lean_squash s) /\ Z.abs (lean_squash s) <= 2 ^ 31 - 16384 /\ (isigned u64 = false -> 0 <= lean_squash s)).
  { intros s S. specialize (RD s S). pose proof (lean_squash_range s RD). split; [now apply squash_lean|]. split; [lia|intros _; lia]. }
  rewrite (mmap_map _ lean_squash) by (intros s S; apply Q; exact S). cbn [bind].
  change (2 ^ 31) with 2147483648 in *. change (2 ^ 33) with 8589934592 in *.
  rewrite (outer_sum u64 _ lean_squash (2147483648 - 16384) ds warm ltac:(lia) Q eq_refl); [|rewrite LD; change (imax u64) with 18446744073709551615; nia]. cbn [bind].
  rewrite (outer_sum u64 _ lean_squash (2147483648 - 16384) ds loops ltac:(lia) Q eq_refl); [|rewrite LD; change (imax u64) with 18446744073709551615; nia]. cbn [bind].
  rewrite (outer_sum i64 _ lean_stretch 24711779 (map lean_squash ds) loops ltac:(lia)); [reflexivity| |reflexivity|].
  - intros p P. apply in_map_iff in P. destruct P as (s & <- & S). pose proof (lean_squash_range s (RD s S)). change (2 ^ 31) with 2147483648 in *. split; [apply stretch_lean; [exact HS|lia]|]. split; [apply stretch_range; change (2 ^ 31) with 2147483648; lia|discriminate].
  - unfold zlen. rewrite map_length. fold (zlen ds). rewrite LD. change (imax i64) with 9223372036854775807. nia.
Qed.
Lemma built_luts t : luts_new = Ok t -> stretch_lut_ok (lt_stretch t) /\ squash_lut_ok (lt_squash t).
Proof. intros E. destruct luts_new_ok as (t' & E' & H & _). rewrite E in E'. injection E' as <-. clear E. exact (conj (lk_stretch _ H) (lk_squash _ H)). Qed.
Lemma sums fuel elems warm loops t mt n xs : luts_new = Ok t ->
  outputs n mt = Ok xs -> (elems <= length (drawn xs))%nat -> (n <= fuel)%nat -> Z.of_nat elems * Z.of_nat warm <= 2 ^ 33 -> Z.of_nat elems * Z.of_nat loops <= 2 ^ 33 ->
  exists ps ss, mmap (squash (lt_squash t)) (firstn elems (drawn xs)) = Ok ps /\ mmap (stretch (lt_stretch t)) ps = Ok ss /\
    bench fuel elems warm loops t mt = Ok (Z.of_nat warm * total ps, Z.of_nat loops * total ps, Z.of_nat loops * total ss).
Proof.
  intros LUTS O L F W LP. destruct (built_luts t LUTS) as [HS HQ]. clear LUTS. exists (map lean_squash (firstn elems (drawn xs))), (map lean_stretch (map lean_squash (firstn elems (drawn xs)))).
  assert (RD : forall s, In s (firstn elems (drawn xs)) -> - (12 * 2 ^ 21) <= s <= 12 * 2 ^ 21).
  { intros s S. pose proof (drawn_range xs) as D. rewrite Forall_forall in D. apply D. rewrite <- (firstn_skipn elems (drawn xs)). apply in_or_app. now left. }
  split; [apply mmap_map; intros s S; now apply squash_lean, RD|]. split.
  - apply mmap_map. intros p P. apply in_map_iff in P. destruct P as (s & <- & S). pose proof (lean_squash_range s (RD s S)). apply stretch_lean; [exact HS|lia].
  - exact (sums_lean _ _ fuel elems warm loops t mt n xs eq_refl eq_refl HS HQ O L F W LP).
Qed.

(** ** The program *)
Definition program_check (start : res twister) : bool :=
  match start with
  | Ok mt => match outputs 1325 mt with
             | Ok xs => let ps := map lean_squash (firstn (Z.to_nat 1000) (drawn xs)) in
                        (1000 <=? zlen (drawn xs)) && (total ps =? 1069986437122) && (total (map lean_stretch ps) =? -419765952)
             | Fail _ => false
             end
  | Fail _ => false
  end.
Lemma program_checked : program_check twister_default = true. Proof. vm_compute. reflexivity. Qed.
Lemma program_bench t start fuel : stretch_lut_ok (lt_stretch t) -> squash_lut_ok (lt_squash t) -> program_check start = true -> (1325 <= fuel)%nat ->
  (let* prng := start in bench fuel (Z.to_nat 1000) (Z.to_nat 10000) (Z.to_nat 10000) t prng) = Ok (10000 * 1069986437122, 10000 * 1069986437122, 10000 * -419765952).
Proof.
  intros HS HQ C F. unfold program_check in C. destruct start as [mt|]; [|discriminate]. cbn [bind]. destruct (outputs 1325 mt) as [xs|] eqn:O; [|discriminate].
  cbv zeta in C. apply andb_prop in C. destruct C as [C T2]. apply andb_prop in C. destruct C as [L T1]. apply Z.leb_le in L. apply Z.eqb_eq in T1, T2. unfold zlen in L.
  assert (LE : (Z.to_nat 1000 <= length (drawn xs))%nat) by (clear -L; lia). assert (I : Z.of_nat (Z.to_nat 10000) = 10000) by (apply Z2Nat.id; discriminate). assert (I' : Z.of_nat (Z.to_nat 1000) = 1000) by (apply Z2Nat.id; discriminate).
  assert (B : Z.of_nat (Z.to_nat 1000) * Z.of_nat (Z.to_nat 10000) <= 2 ^ 33) by (rewrite I, I'; discriminate).
  pose proof (sums_lean _ _ fuel (Z.to_nat 1000) (Z.to_nat 10000) (Z.to_nat 10000) t mt 1325 xs eq_refl eq_refl HS HQ O LE F B B) as E. rewrite T1, T2, I in E. exact E.
Qed.
Lemma program_sums fuel : (1325 <= fuel)%nat -> bench_sigmoid fuel = Ok (10699864371220000, 10699864371220000, -4197659520000).
Proof.
  intros F. unfold bench_sigmoid. destruct tables_built as (t & LUTS). rewrite LUTS. cbn [bind]. destruct (built_luts t LUTS) as [HS HQ]. clear LUTS.
  exact (program_bench t twister_default fuel HS HQ program_checked F).
Qed.
