(** Learning a bit never makes the answer to the same question worse. *)
From Verif Require Import Base BaseFacts FixedModel FixedSpec FixedProofs EstModel EstProofs LutModel LutTable LutProofs LutRound ApmModel ApmSpec ApmProofs
  MixerModel MixerSpec MixerProofs LearnSpec.
Ltac Zify.zify_post_hook ::= Z.div_mod_to_equations.

(** ** Mixer *)
Lemma rnda_mono n m s : 1 <= s -> n <= m -> rnda n s <= rnda m s.
Proof.
  intros S L. pose proof (rnda_sign n s S) as (N1 & N2). pose proof (rnda_sign m s S) as (M1 & M2).
  destruct (Z.le_gt_cases n 0), (Z.le_gt_cases 0 m); try lia; unfold rnda.
  - rewrite !Z.sgn_neg, !Z.abs_neq by lia. pose proof (Z.div_le_mono (- m + 2 ^ (s - 1)) (- n + 2 ^ (s - 1)) (2 ^ s) (pow2_pos s ltac:(lia)) ltac:(lia)). lia.
  - rewrite !Z.sgn_pos, !Z.abs_eq by lia. pose proof (Z.div_le_mono (n + 2 ^ (s - 1)) (m + 2 ^ (s - 1)) (2 ^ s) (pow2_pos s ltac:(lia)) ltac:(lia)). lia.
Qed.
Lemma weights_set m i sq st : weights (lean_set m i sq st) = weights m.
Proof.
  unfold weights, lean_set. cbn [mx_inputs]. rewrite map_zupd. cbn [mi_weight]. apply MixerProofs.znth_ext; [now rewrite zlen_zupd|].
  intros j J. rewrite znth_zupd, !MixerProofs.znth_map. destruct (Z.eqb_spec i j) as [<-|]; cbn [andb]; [|reflexivity].
  destruct (znth (mx_inputs m) i) as [x|] eqn:X; cbn [option_map]; destruct (_ && _) eqn:B; try reflexivity.
  rewrite zlen_zupd, MixerProofs.zlen_map in J. destruct (znth_lt (mx_inputs m) i ltac:(lia)) as (y & Y). congruence.
Qed.

Lemma inputs_run lut rates ins : Forall is_input ins -> Forall sane ins ->
  forall size acc index m m' rs, mixer_inv size (map fst acc) index m -> holds acc m -> perform_all lut rates ins m = Ok (m', rs) ->
  rs = [] /\ weights m' = weights m /\ mixer_inv size (map fst (pending acc ins)) index m' /\ holds (pending acc ins) m'.
Proof.
  unfold perform_all. induction 1 as [|c ins C F IH]; intros S size acc index m m' rs I H E.
  { cbn in E. injection E as <- <-. auto. }
  inversion S as [|? ? SC S']; subst. destruct c as [i sq st| |]; try contradiction. destruct SC as (IR & ST).
  destruct (set_input_ok size (map fst acc) index m i sq st I IR ST) as (E1 & I1). cbn [mfold perform pending] in *. rewrite E1 in E.
  destruct (Z.ltb_spec i size) as [L|]; cbn [andb bind] in E; [|discriminate].
  destruct (member i (map fst acc)) eqn:M; cbn [negb bind] in E; [discriminate|].
  destruct (IH S' size ((i, (sq, st)) :: acc) index (lean_set m i sq st) m' rs (I1 L)
    ltac:(eapply holds_set; eauto; lia) E) as (R & W & I2 & H2).
  rewrite weights_set in W. auto.
Qed.
Lemma pending_inputs ins : Forall is_input ins -> forall acc, exists more, pending acc ins = more ++ acc /\ pending [] ins = more.
Proof.
  induction 1 as [|c ins C F IH]; intros acc; [exists []; auto|]. destruct c as [i sq st| |]; try contradiction. cbn [pending].
  destruct (IH ((i, (sq, st)) :: acc)) as (more & E & E'). destruct (IH [(i, (sq, st))]) as (more' & E2 & E3).
  exists (more ++ [(i, (sq, st))]). rewrite E, E2. rewrite E' in E3. subst more'. rewrite <- app_assoc. auto.
Qed.

Lemma total_moves f b xs : 0 <= f -> Forall input_ok xs ->
  let t := total (map (fun x => mkInput (new_weight f b x) (mi_sq x) (mi_st x)) xs) in if b then t <= total xs else total xs <= t.
Proof.
  intros F H. induction H as [|x xs (W & _) H IH]; [destruct b; cbn; lia|]. cbv zeta in *. unfold total in *. cbn [map fold_right mi_weight mi_st] in *.
  assert (P : if b then new_weight f b x * mi_st x <= mi_weight x * mi_st x else mi_weight x * mi_st x <= new_weight f b x * mi_st x).
  { clear IH. unfold new_weight. pose proof (rnda_sign (mi_st x * f) 31 ltac:(lia)) as (S1 & S2). set (e := rnda (mi_st x * f) 31) in *. clearbody e.
    assert (M : forall w, - (8 * 2 ^ 21) <= w <= 8 * 2 ^ 21 -> forall d, (0 <= d -> w <= mixer_weight_clamped (w + d)) /\ (d <= 0 -> mixer_weight_clamped (w + d) <= w)).
    { intros w WB d. unfold mixer_weight_clamped. pow2. lia. }
    specialize (M _ W). destruct (Z.le_gt_cases 0 (mi_st x)).
    - destruct b; [destruct (M (- e)) as (_ & M2); specialize (M2 ltac:(nia))|destruct (M e) as (M2 & _); specialize (M2 ltac:(nia))]; unfold Z.sub; nia.
    - destruct b; [destruct (M (- e)) as (M2 & _); specialize (M2 ltac:(nia))|destruct (M e) as (_ & M2); specialize (M2 ltac:(nia))]; unfold Z.sub; nia. }
  destruct b; pose proof (rnda_mono _ _ 2 ltac:(lia) P); lia.
Qed.
Lemma mix_mono m1 m2 : total (mx_inputs m1) <= total (mx_inputs m2) ->
  snd (lean_mix m1) <= snd (lean_mix m2) /\ fst (lean_mix m1) <= fst (lean_mix m2) + 1.
Proof.
  intros L. assert (S : snd (lean_mix m1) <= snd (lean_mix m2)).
  { cbn [lean_mix snd]. apply rnda_mono; [lia|]. unfold stretched_q_clamped. lia. }
  split; [exact S|]. change (fst (lean_mix m1)) with (lean_squash (snd (lean_mix m1))). change (fst (lean_mix m2)) with (lean_squash (snd (lean_mix m2))).
  pose proof (lean_st_range m1). pose proof (lean_st_range m2). apply lean_squash_almost_mono; lia.
Qed.

Lemma mixer_learns lut rates size index mode m calls inputs b p mx m' results r1 r2 : tables_for lut rates -> makes size index mode m ->
  Forall sane (calls ++ ask_learn_ask inputs b p mx) -> Forall is_input inputs ->
  perform_all lut rates (calls ++ ask_learn_ask inputs b p mx) m = Ok (m', results ++ [r1; r2]) ->
  no_worse b 0 (snd r1) (snd r2) /\ no_worse b 1 (fst r1) (fst r2).
Proof.
  intros T M S IN E. unfold ask_learn_ask in *. rewrite !Forall_app in S. destruct S as (S & SI & SU & _ & _).
  apply Forall_inv_tail, Forall_inv in SU. destruct SU as (P & MX).
  unfold perform_all in E. rewrite mfold_app in E.
  destruct (mfold (perform lut rates) calls (m, [])) as [(ma, rs)|] eqn:EA; cbn [bind] in E; [|discriminate].
  destruct (reached_inv _ _ _ _ _ _ _ _ _ T M S EA) as (L & R & _ & ix & I & H). clear T M EA m index mode.
  rewrite mfold_app, perform_fails in E. destruct (mfold (perform lut rates) inputs (ma, [])) as [(m2, rs2)|] eqn:E2; cbn [bind fst snd] in E; [|discriminate].
  destruct (inputs_run lut rates inputs IN SI size _ ix ma m2 rs2 I H E2) as (-> & _ & I2 & H2). rewrite app_nil_r in E.
  rewrite mfold_app in E. cbn [mfold perform] in E. rewrite (mix_ok lut size _ ix m2 L I2) in E.
  destruct (all_set size _) eqn:A2 in E; cbn [bind mfold perform] in E; [|discriminate].
  pose proof I2 as (SZ2 & SR & _ & _ & IR & F2). destruct (rates_at rates ix R IR) as (rate & RT & RR).
  destruct (update_ok rates rate size _ ix m2 b p mx I2 RT RR P MX) as (E3 & I3). rewrite E3, A2 in E. cbn [andb] in E.
  destruct (ix <=? mx); cbn [andb bind] in E; [|discriminate]. destruct (Z.leb_spec mx 1000) as [ML|]; cbn [bind mfold] in E; [|discriminate].
  specialize (I3 ML). clear E3 E2. set (m3 := lean_update rate m2 b p mx) in *.
  rewrite mfold_app, perform_fails in E. destruct (mfold (perform lut rates) inputs (m3, [])) as [(m4, rs4)|] eqn:E4; cbn [bind fst snd] in E; [|discriminate].
  destruct (inputs_run lut rates inputs IN SI size [] _ m3 m4 rs4 I3 (holds_nil m3) E4) as (-> & W4 & I4 & H4). rewrite app_nil_r in E.
  cbn [mfold perform] in E. rewrite (mix_ok lut size _ _ m4 L I4) in E. destruct (all_set size _) eqn:A4 in E; cbn [bind] in E; [|discriminate].
  injection E as <- E. change [r1; r2] with ([r1] ++ [r2]) in E. rewrite !app_assoc in E.
  apply app_inj_tail in E as (E & <-). apply app_inj_tail in E as (_ & <-). clear E4.
  assert (SAME : mx_inputs m4 = mx_inputs m3).
  { pose proof I3 as (SZ3 & _). pose proof I4 as (SZ4 & _). unfold mx_size in *. apply MixerProofs.znth_ext; [lia|]. intros j J.
    assert (MJ : member j (map fst (pending [] inputs)) = true).
    { unfold all_set in A4. rewrite forallb_forall in A4. apply A4. apply in_zseq. lia. }
    apply member_fst in MJ as ((sq & st) & IJ). destruct (H4 _ _ _ IJ) as (w4 & W). 
    destruct (pending_inputs inputs IN (pending [] calls)) as (more & PE & PE'). rewrite PE' in IJ.
    destruct (H2 j sq st) as (w2 & V); [rewrite PE; apply in_or_app; auto|].
    assert (K : znth (weights m4) j = znth (weights m3) j) by now rewrite W4. unfold weights in K. rewrite !MixerProofs.znth_map, W in K.
    unfold m3, lean_update in *. cbn [mx_inputs] in *. rewrite !MixerProofs.znth_map in *. rewrite V in *. cbn [option_map mi_weight mi_sq mi_st] in *.
    rewrite W. congruence. }
  destruct (step_factor_range rate b p RR P) as (_ & SF).
  pose proof (total_moves (step_factor rate b p) b (mx_inputs m2) ltac:(lia) F2) as TM. cbv zeta in TM.
  assert (T4 : total (mx_inputs m4) = total (map (fun x => mkInput (new_weight (step_factor rate b p) b x) (mi_sq x) (mi_st x)) (mx_inputs m2))) by now rewrite SAME.
  rewrite <- T4 in TM. clear -TM. unfold no_worse. destruct b.
  - destruct (mix_mono m4 m2 TM). lia.
  - destruct (mix_mono m2 m4 TM). lia.
Qed.

Lemma inputs_silent lut rates inputs : Forall is_input inputs -> forall m rs m' rs', mfold (perform lut rates) inputs (m, rs) = Ok (m', rs') -> rs' = rs.
Proof.
  induction 1 as [|c l C _ IH]; intros m rs m' rs' E; [cbn in E; congruence|].
  destruct c as [i sq st| |]; try contradiction. cbn [mfold perform] in E. destruct (set_input m i sq st); cbn [bind] in E; [eauto|discriminate].
Qed.
Lemma asked_and_answered lut rates calls inputs b p mx m m' rs : Forall is_input inputs ->
  perform_all lut rates (calls ++ ask_learn_ask inputs b p mx) m = Ok (m', rs) -> exists results r1 r2, rs = results ++ [r1; r2].
Proof.
  intros I E. unfold perform_all, ask_learn_ask in E. rewrite mfold_app in E.
  destruct (mfold (perform lut rates) calls (m, [])) as [(ma, ra)|]; cbn [bind] in E; [|discriminate].
  rewrite mfold_app in E. destruct (mfold (perform lut rates) inputs (ma, ra)) as [(mb, rb)|] eqn:EB; cbn [bind] in E; [|discriminate].
  apply (inputs_silent _ _ _ I) in EB as ->. cbn [app mfold perform] in E.
  destruct (mix_all lut mb) as [r1|]; cbn [bind mfold perform] in E; [|discriminate]. destruct (update_and_reset rates mb b p mx) as [mc|]; cbn [bind] in E; [|discriminate].
  rewrite mfold_app in E. destruct (mfold (perform lut rates) inputs (mc, ra ++ [r1])) as [(md, rd)|] eqn:ED; cbn [bind] in E; [|discriminate].
  apply (inputs_silent _ _ _ I) in ED as ->. cbn [mfold perform] in E.
  destruct (mix_all lut md) as [r2|]; cbn [bind] in E; [|discriminate]. injection E as <- <-. exists ra, r1, r2. now rewrite <- app_assoc.
Qed.
Lemma mixer_improves lut rates size index mode m calls inputs b p mx : tables_for lut rates -> makes size index mode m ->
  Forall sane (calls ++ ask_learn_ask inputs b p mx) -> Forall is_input inputs -> follows size [] index (calls ++ ask_learn_ask inputs b p mx) = true ->
  exists m' results r1 r2, perform_all lut rates (calls ++ ask_learn_ask inputs b p mx) m = Ok (m', results ++ [r1; r2]) /\
    no_worse b 0 (snd r1) (snd r2) /\ no_worse b 1 (fst r1) (fst r2).
Proof.
  intros T M S I F. destruct (never_panics lut rates size index mode m _ T M S F) as (m' & rs & E & _).
  destruct (asked_and_answered _ _ _ _ _ _ _ _ _ _ I E) as (results & r1 & r2 & ->). exists m', results, r1, r2. split; [exact E|].
  exact (mixer_learns _ _ _ _ _ _ _ _ _ _ _ _ _ _ _ T M S I E).
Qed.

(** ** Probability map *)
Lemma refine_place a a2 context p s lut a' r a2' r2 : refine a context p s lut = Ok (a', r) -> refine a2 context p s lut = Ok (a2', r2) ->
  am_bits a = am_bits a2 -> am_saved_index a' = am_saved_index a2' /\ am_saved_weight a' = am_saved_weight a2'.
Proof.
  unfold refine. intros E E2 B. rewrite <- B in E2. cbv zeta in E, E2.
  repeat match type of E with
  | bind ?x _ = _ =>
      match type of E2 with
      | bind x _ = _ => destruct x; cbn [bind] in E, E2; [|discriminate E]
      | bind ?y _ = _ => destruct x; cbn [bind] in E; [|discriminate E]; destruct y; cbn [bind] in E2; [|discriminate E2]
      end
  end.
  injection E as <- _. injection E2 as <- _. auto.
Qed.
Lemma nearest31_mono n m x y : n <= m -> nearest31 n x -> nearest31 m y -> x <= y.
Proof. unfold nearest31. pow2. lia. Qed.

Section Map.
Variables (st : list (list Z)) (sq : list Z) (b c : Z) (al : apm_lut) (a0 a : apm) (us : list apm_use).
Hypotheses (HST : stretch_new = Ok st) (HSQ : squash_new st = Ok sq) (HB : 0 <= b <= 2) (HC : 0 <= c)
  (HM : c * (1 + 24 * 2 ^ b) < 2 ^ 64) (HAL : apm_lut_new b sq = Ok al) (HA0 : apm_new c b sq = Ok a0)
  (HUS : Forall (fair_use st sq c) us) (HRUN : apm_run al us a0 = Ok a).
Lemma map_learns u : fair_use st sq c u ->
  exists a1 r1 a2 a3 r2, refine a (u_context u) (u_p u) (u_s u) al = Ok (a1, r1) /\
  update_predictions a1 (u_context u) (u_bit u) (u_rate u) (u_fixed u) = Ok a2 /\
  refine a2 (u_context u) (u_p u) (u_s u) al = Ok (a3, r2) /\ no_worse (u_bit u) 0 r1 r2.
Proof.
  intros U. pose proof U as (CX & PP & RT).
  destruct (refined_between st sq b c al a0 a us HST HSQ HB HC HM HAL HA0 HUS HRUN _ _ _ CX PP)
    as (a1 & r1 & left & right & R1 & M1 & I1 & (L1 & L2) & _ & RR1 & x & y & RX & NX & NY).
  destruct (updates_local st sq b c al a0 a us HST HSQ HB HC HM HAL HA0 HUS HRUN _ _ _ CX PP (u_bit u) (u_rate u) (u_fixed u) RT)
    as (a1' & r1' & a2 & left' & right' & left2 & right2 & R1' & UP & SV & L1' & LL & LE & L2' & LR & RE & _).
  rewrite R1 in R1'. injection R1' as <- <-. cbv zeta in *. rewrite L1 in L1'. injection L1' as <-. rewrite L2 in L2'. injection L2' as <-.
  assert (HUS2 : Forall (fair_use st sq c) (us ++ [u])) by (apply Forall_app; split; [exact HUS|constructor; [exact U|constructor]]).
  assert (HRUN2 : apm_run al (us ++ [u]) a0 = Ok a2).
  { unfold apm_run in *. rewrite mfold_app, HRUN. cbn [bind mfold apm_step]. unfold apm_step. rewrite R1. cbn [bind fst]. rewrite UP. reflexivity. }
  destruct (refined_between st sq b c al a0 a2 (us ++ [u]) HST HSQ HB HC HM HAL HA0 HUS2 HRUN2 _ _ _ CX PP)
    as (a3 & r2 & left3 & right3 & R2 & M2 & I2 & (L3 & L4) & _ & RR2 & x2 & y2 & RX2 & NX2 & NY2).
  exists a1, r1, a2, a3, r2. split; [exact R1|]. split; [exact UP|]. split; [exact R2|].
  assert (BB : am_bits a = am_bits a2).
  { destruct (hist_run st sq b c al a0 us HST HSQ HB HC HM HAL HA0 HUS) as (z & Z1 & (Z2 & _) & _). rewrite HRUN in Z1. injection Z1 as <-.
    destruct (hist_run st sq b c al a0 (us ++ [u]) HST HSQ HB HC HM HAL HA0 HUS2) as (z & Z3 & (Z4 & _) & _). rewrite HRUN2 in Z3. injection Z3 as <-.
    congruence. }
  destruct (brackets st sq b c al a0 a us HST HSQ HB HC HM HAL HA0 HUS HRUN _ _ _ CX PP) as (a1' & r1' & _ & _ & _ & _ & R1' & _ & _ & _ & _ & _ & WB & _).
  rewrite R1 in R1'. injection R1' as <- <-.
  destruct (refine_place _ _ _ _ _ _ _ _ _ _ R1 R2 BB) as (SI & SW).
  rewrite <- SI in L3, L4. rewrite <- SW in NX2, NY2. rewrite L3 in LL. injection LL as <-. rewrite L4 in LR. injection LR as <-.
  clear - LE RE NX NY NX2 NY2 RX RX2 WB. subst r1 r2. unfold learns in *. unfold no_worse. set (w := am_saved_weight a1) in *. clearbody w.
  destruct (u_bit u); destruct LE as (LE & _); destruct RE as (RE & _).
  - pose proof (nearest31_mono (left3 * w) (left * w) x2 x ltac:(nia) NX2 NX).
    pose proof (nearest31_mono (right3 * (2 ^ 31 - w)) (right * (2 ^ 31 - w)) y2 y ltac:(apply Z.mul_le_mono_nonneg_r; lia) NY2 NY). lia.
  - pose proof (nearest31_mono (left * w) (left3 * w) x x2 ltac:(nia) NX NX2).
    pose proof (nearest31_mono (right * (2 ^ 31 - w)) (right3 * (2 ^ 31 - w)) y y2 ltac:(apply Z.mul_le_mono_nonneg_r; lia) NY NY2). lia.
Qed.
End Map.

(** ** A mixed probability can get worse by a unit *)
Definition dip_inputs : list call := [SetInput 0 (2 ^ 31 - 22973) 24000001].
Definition dip_start : mixer := mkMixer [mkInput (2 ^ 21) (2 ^ 30) 0] 0 100.
Definition dip_asked : mixer := mkMixer [mkInput (2 ^ 21) (2 ^ 31 - 22973) 24000001] 1 100.
Lemma one_unit_worse : exists lut rates m m' p1 s1 p2 s2, tables_for lut rates /\ makes 1 100 DominantFirst m /\
  Forall sane (ask_learn_ask dip_inputs Zero p1 1000) /\
  perform_all lut rates (ask_learn_ask dip_inputs Zero p1 1000) m = Ok (m', [(p1, s1); (p2, s2)]) /\ s1 <= s2 /\ p2 < p1.
Proof.
  destruct tables_ok as (st & lut & E & E' & _ & LUT). destruct (rates_make_spec 1 2 ltac:(lia) ltac:(lia) ltac:(lia)) as (rates & R & RV).
  assert (T : tables_for lut rates).
  { split; [exists st; exact (conj E E')|]. clear E E'. exists 1, 2. do 4 (split; [clear; lia|]). exact R. }
  clear E E'. pose (r1 := lean_mix dip_asked). pose (m3 := lean_update (2 ^ 31 / (100 * 1 + 2)) dip_asked Zero (fst r1) 1000).
  pose (m4 := lean_set m3 0 (2 ^ 31 - 22973) 24000001). pose (r2 := lean_mix m4).
  assert (M : makes 1 100 DominantFirst dip_start) by (left; repeat split; lia).
  exists lut, rates, dip_start, m4, (fst r1), (snd r1), (fst r2), (snd r2). apply (conj T). apply (conj M).
  destruct (tables_use _ _ T) as (_ & RO). destruct (makes_inv _ _ _ _ M) as (I0 & _). clear T M R.
  pose proof (lean_mix_ok dip_asked) as (P1 & _). fold r1 in P1.
  assert (ST : - (12 * 2 ^ 21) <= 24000001 <= 12 * 2 ^ 21) by (pow2; lia).
  assert (SA : Forall sane dip_inputs) by (constructor; [split; [lia|exact ST]|constructor]).
  assert (SE : Forall sane (ask_learn_ask dip_inputs Zero (fst r1) 1000)).
  { unfold ask_learn_ask. rewrite !Forall_app. repeat split; try exact SA; repeat constructor; try (exact (proj1 P1)); try (exact (proj2 P1)); lia. }
  apply (conj SE). clear SE SA.
  destruct (set_input_ok 1 [] 100 dip_start 0 (2 ^ 31 - 22973) 24000001 I0 ltac:(lia) ST) as (S1 & I1). specialize (I1 ltac:(lia)).
  change (lean_set dip_start 0 (2 ^ 31 - 22973) 24000001) with dip_asked in *. cbn [Z.ltb andb] in S1.
  destruct (update_ok rates (2 ^ 31 / (100 * 1 + 2)) 1 [0] 100 dip_asked Zero (fst r1) 1000 I1 (RV 100 ltac:(lia)) ltac:(vm_compute; split; discriminate)
    P1 ltac:(lia)) as (U & I3). specialize (I3 ltac:(lia)). fold m3 in U, I3.
  destruct (set_input_ok 1 [] _ m3 0 (2 ^ 31 - 22973) 24000001 I3 ltac:(lia) ST) as (S4 & I4). specialize (I4 ltac:(lia)). fold m4 in S4, I4.
  pose proof (mix_ok lut 1 [0] 100 dip_asked LUT I1) as X1. fold r1 in X1. pose proof (mix_ok lut 1 [0] _ m4 LUT I4) as X4. fold r2 in X4.
  change (all_set 1 [0]) with true in *. change ((0 <? 1) && negb (member 0 [])) with true in *. cbv iota in *. cbn [andb] in *.
  change ((100 <=? 1000) && (1000 <=? 1000)) with true in U. cbv iota in U.
  split.
  - unfold perform_all, ask_learn_ask, dip_inputs. cbn [app mfold perform]. rewrite S1. cbn [bind mfold perform]. rewrite X1. cbn [bind mfold perform].
    rewrite U. cbn [bind mfold perform]. rewrite S4. cbn [bind mfold perform]. rewrite X4. cbn [bind mfold perform app]. 
    destruct r1, r2. reflexivity.
  - clear. assert (A : (snd r1 <=? snd r2) && (fst r2 <? fst r1) = true) by (vm_compute; reflexivity). apply andb_prop in A as (A & B).
    apply Z.leb_le in A. apply Z.ltb_lt in B. auto.
Qed.
