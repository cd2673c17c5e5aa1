(** The parts of the predictor are told the text. *)
From Coq Require Import ZifyBool.
From Verif Require Import Base BaseFacts FixedModel UtilModel UtilSpec UtilProofs StateModel EstModel EstProofs LogModel LogProofs LutModel LutTable LutProofs LutRound ApmModel ApmSpec ApmProofs StatesModel StatesSpec StatesProofs
  MixerModel MixerSpec MixerProofs WindowSpec HistModel HistSpec HistProofs FatProofs HistFacts TreeStats TreeWindow TreeModel TreeSpec TreeRun TreeFacts PredModel PredKits PredChain PredFinal PredTree PredSpec PredStats PredRun PredFacts
  KitSpec KitProofs KitChain WireSpec.
Ltac Zify.zify_post_hook ::= Z.div_mod_to_equations.

(** ** The bytes *)
Definition hist_of (text : list bit) (open : bool) : lb_hist :=
  mkHist (rev (map (text_byte text) (zseq 0 (Z.to_nat (zlen text / 8))))) (if open then Some (begun text) else None).
Lemma zseq_nth n : forall a i d, (i < n)%nat -> nth i (zseq a n) d = a + Z.of_nat i.
Proof. induction n as [|n IH]; intros a i d H; [lia|]. destruct i as [|i]; cbn [zseq nth]; [lia|]. rewrite IH by lia. lia. Qed.
Lemma previous_of text open k : 1 <= k -> previous (hist_of text open) (Z.to_nat k) = byte_before text k.
Proof.
  intros K. unfold previous, byte_before, hist_of. cbn [h_done]. set (n := Z.to_nat (zlen text / 8)). pose proof (zlen_nonneg text) as L.
  assert (LM : length (map (text_byte text) (zseq 0 n)) = n) by (rewrite map_length, zseq_length; reflexivity).
  destruct (zlen text / 8 <? k) eqn:E; [apply nth_overflow; rewrite rev_length, LM; lia|].
  rewrite rev_nth by (rewrite LM; lia). rewrite LM. rewrite (nth_indep _ 0 (text_byte text 0)) by (rewrite LM; lia). rewrite map_nth, zseq_nth by lia. f_equal. lia.
Qed.
Lemma hist_empty_of : hist_empty = hist_of [] false. Proof. reflexivity. Qed.
Lemma begun_length text : length (begun text) = Z.to_nat (zlen text mod 8).
Proof. unfold begun. rewrite skipn_length. unfold zlen. lia. Qed.
Lemma begun_whole text : zlen text mod 8 = 0 -> begun text = [].
Proof. intros H. apply length_zero_iff_nil. rewrite begun_length. lia. Qed.
Lemma begun_snoc text b : begun text ++ [b] = skipn (Z.to_nat (8 * (zlen text / 8))) (text ++ [b]).
Proof. unfold begun. rewrite skipn_app. f_equal. replace (_ - _)%nat with 0%nat by (unfold zlen; lia). reflexivity. Qed.
Lemma zseq_map_ext {B} (f g : Z -> B) n : forall a, (forall i, a <= i < a + Z.of_nat n -> f i = g i) -> map f (zseq a n) = map g (zseq a n).
Proof. induction n as [|n IH]; intros a H; [reflexivity|]. cbn [zseq map]. rewrite (H a) by lia. f_equal. apply IH. intros i I. apply H. lia. Qed.
Lemma zseq_snoc n a : zseq a (S n) = zseq a n ++ [a + Z.of_nat n].
Proof. revert a. induction n as [|n IH]; intros a; [cbn; f_equal; lia|]. change (zseq a (S (S n))) with (a :: zseq (a + 1) (S n)). rewrite IH. cbn [zseq app]. f_equal. f_equal. f_equal. lia. Qed.
Lemma hist_start text : zlen text mod 8 = 0 -> start_byte (hist_of text false) = Some (hist_of text true).
Proof. intros H. unfold start_byte, hist_of. cbn [h_bits h_done]. rewrite (begun_whole text H). reflexivity. Qed.
Lemma hist_bit text b : next_bit (hist_of text true) b = Some (hist_of (text ++ [b]) (negb (zlen text mod 8 =? 7))).
Proof.
  unfold next_bit, hist_of. cbn [h_bits h_done]. cbv zeta. pose proof (zlen_nonneg text) as L. assert (ZL : zlen (text ++ [b]) = zlen text + 1) by (rewrite zlen_app; reflexivity).
  assert (BL : length (begun text ++ [b]) = Z.to_nat (zlen text mod 8 + 1)) by (rewrite app_length, begun_length; cbn [length]; lia).
  match goal with |- context [Nat.eqb ?x 8] => replace x with (Z.to_nat (zlen text mod 8 + 1)) by (symmetry; exact BL) end. rewrite ZL. destruct (zlen text mod 8 =? 7) eqn:E.
  - replace (Z.to_nat (zlen text mod 8 + 1)) with 8%nat by lia. cbn [Nat.eqb negb]. f_equal. f_equal. replace (Z.to_nat ((zlen text + 1) / 8)) with (S (Z.to_nat (zlen text / 8))) by lia.
    rewrite zseq_snoc, map_app, rev_app_distr. cbn [map rev app]. f_equal.
    + rewrite begun_snoc. unfold text_byte, bits_at. f_equal. rewrite Z.add_0_l, Z2Nat.id by lia. rewrite firstn_all2; [reflexivity|]. rewrite begun_snoc in BL. match goal with |- (?x <= _)%nat => replace x with (Z.to_nat (zlen text mod 8 + 1)) by (symmetry; exact BL) end. lia.
    + f_equal. apply zseq_map_ext. intros i I. symmetry. apply text_byte_app; lia.
  - replace (Nat.eqb (Z.to_nat (zlen text mod 8 + 1)) 8) with false by (symmetry; apply Nat.eqb_neq; lia). cbn [negb]. f_equal. f_equal.
    + f_equal. replace ((zlen text + 1) / 8) with (zlen text / 8) by lia. apply zseq_map_ext. intros i I. symmetry. apply text_byte_app; lia.
    + rewrite begun_snoc. unfold begun. rewrite ZL. replace ((zlen text + 1) / 8) with (zlen text / 8) by lia. reflexivity.
Qed.
Lemma contexts_of text lb : lb_rel (hist_of text true) lb ->
  lb_unfinished_byte lb = Ok (map_context0 text) /\ lb_hash01_16 lb = Ok (map_context1 text) /\ lb_hash02_16 lb = Ok (map_context2 text) /\ lb_hash03_16 lb = Ok (map_context3 text).
Proof.
  intros R. assert (B : h_bits (hist_of text true) = Some (begun text)) by reflexivity. pose proof (previous_of text true 1 ltac:(lia)) as P1. pose proof (previous_of text true 2 ltac:(lia)) as P2. pose proof (previous_of text true 3 ltac:(lia)) as P3.
  change (Z.to_nat 1) with 1%nat in P1. change (Z.to_nat 2) with 2%nat in P2. change (Z.to_nat 3) with 3%nat in P3.
  split; [exact (proj1 (lb_unfinished_spec _ _ _ R B))|]. split; [rewrite (proj1 (lb_hash01_spec _ _ _ R B)), P1; reflexivity|].
  split; [rewrite (lb_hash02_spec _ _ _ R B), P1, P2; unfold map_context2, open_byte; reflexivity|rewrite (lb_hash03_spec _ _ _ R B), P1, P2, P3; unfold map_context3, open_byte; reflexivity].
Qed.

(** ** Lists in step with the text *)
Lemma rounds_snoc text : forall before states b s, length states = length text -> rounds_of before (text ++ [b]) (states ++ [s]) = rounds_of before text states ++ [(s, open_byte (before ++ text), b)].
Proof.
  induction text as [|a text IH]; intros before [|x states] b s H; cbn in H; try discriminate; cbn [rounds_of app]; [rewrite app_nil_r; reflexivity|].
  rewrite IH by lia. rewrite <- app_assoc. reflexivity.
Qed.
Lemma lessons_snoc c text : forall before ins b x, length ins = length text -> map_lessons c before (text ++ [b]) (ins ++ [x]) = map_lessons c before text ins ++ [(c (before ++ text), x, b)].
Proof.
  induction text as [|a text IH]; intros before [|y ins] b x H; cbn in H; try discriminate; cbn [map_lessons app]; [rewrite app_nil_r; reflexivity|].
  rewrite IH by lia. rewrite <- app_assoc. reflexivity.
Qed.
Lemma lessons_length c text : forall before ins, length ins = length text -> length (map_lessons c before text ins) = length text.
Proof. induction text as [|a text IH]; intros before [|y ins] H; cbn in H; try discriminate; cbn [map_lessons length]; [reflexivity|]. rewrite IH by lia. reflexivity. Qed.
Lemma finals_snoc r1 : forall r2 r3 a b c, length r1 = length r2 -> length r2 = length r3 -> finals (r1 ++ [a]) (r2 ++ [b]) (r3 ++ [c]) = finals r1 r2 r3 ++ [final_of a b c].
Proof. induction r1 as [|x r1 IH]; intros [|y r2] [|z r3] a b c H1 H2; cbn in H1, H2; try discriminate; [reflexivity|]. cbn [finals app]. rewrite IH by lia. reflexivity. Qed.
Lemma map_fold_length t l : forall a rs a' rs', mfold (map_round t) l (a, rs) = Ok (a', rs') -> length rs' = (length rs + length l)%nat.
Proof.
  induction l as [|x l IH]; intros a rs a' rs' E; cbn [mfold] in E; [injection E as <- <-; cbn; lia|]. apply bind_ok in E. destruct E as ((a1 & rs1) & R & E). apply IH in E. rewrite E.
  unfold map_round in R. cbn [fst snd] in R. apply bind_ok in R. destruct R as (? & _ & R). apply bind_ok in R. destruct R as ((? & ?) & _ & R). apply bind_ok in R. destruct R as (? & _ & R). injection R as _ <-. rewrite app_length. cbn. lia.
Qed.

(** ** The finalizer *)
Record refined (t : luts) (text : list bit) (mixed : Z * Z) (f f' : finalizer) (r : Z) (parts : Z * Z * Z * Z * Z * Z) : Prop := {
  rf_0 : forall lut, luts_apm t 0 = Ok lut -> let '(p0, m, s, p1, p2, p3) := parts in
    refine (pf_order0 f) (map_context0 text) (fst mixed) (snd mixed) lut = Ok (pf_order0 f', p0) /\ middle t (mixed, p0) (m, s) /\
    refine (pf_order1 f) (map_context1 text) m s lut = Ok (pf_order1 f', p1) /\ refine (pf_order2 f) (map_context2 text) m s lut = Ok (pf_order2 f', p2) /\
    refine (pf_order3 f) (map_context3 text) m s lut = Ok (pf_order3 f', p3) /\ r = final_of p1 p2 p3 }.
Lemma light_refines t text lb f mixed n f' r : luts_ok t -> fin_idle ModeLight f -> result_ok mixed -> probability_pair (lt_stretch t) (lt_squash t) (fst mixed) (snd mixed) -> hashes_ok lb ->
  lb_rel (hist_of text true) lb -> finalizer_refine ModeLight t f (fst mixed) (snd mixed) n lb = Ok (f', r) -> exists parts, refined t text mixed f f' r parts.
Proof.
  intros T (NR & MI & _) RO PP HO R E. destruct (contexts_of text lb R) as (C0 & C1 & C2 & C3). destruct (MI ltac:(discriminate)) as (M0 & M1 & M2 & M3). cbn [map_at] in *.
  unfold finalizer_refine in E. rewrite NR in E. rewrite assert_true in E by reflexivity. cbn [bind] in E. apply bind_ok in E. destruct E as (((o0 & p0) & (m & s)) & P & E).
  destruct (phase0_ok t f (fst mixed) (snd mixed) lb T M0 (proj1 RO) PP HO) as (o0' & p0' & m' & P' & _ & P0 & MB). rewrite P' in P. injection P as <- <- <- <-. rewrite C1, C2, C3 in E.
  unfold phase0 in P'. rewrite C0 in P'. cbn [bind] in P'. rewrite (apm_table t T) in P'. cbn [bind] in P'. apply bind_ok in P'. destruct P' as ((oo & pp) & RF0 & P').
  pose proof (proj1 RO) as PR. pow2. rewrite mul_ok in P' by (ib; lia). cbn [bind] in P'. apply bind_ok in P'. destruct P' as (a1 & A1 & P'). apply bind_ok in P'. destruct P' as (raw & RW & P'). apply bind_ok in P'. destruct P' as (msq & MSQ & P'). apply bind_ok in P'. destruct P' as (mst & MST & P').
  injection P' as -> -> -> ->. unfold add, chk in A1. match type of A1 with (if ?c then _ else _) = _ => destruct c; [|discriminate] end. injection A1 as <-.
  rewrite scaled_down_u64_at in RW by (change (2 ^ (2 - 1)) with 2; change (2 ^ 64) with 18446744073709551616; lia). change (2 ^ (2 - 1)) with 2 in RW. change (2 ^ 2) with 4 in RW. injection RW as <-.
  rewrite fract_new in MSQ by (pow2; lia). injection MSQ as MSQ.
  destruct (phase1_ok t (pf_order1 f) (map_context1 text) m' T M1) as (o1 & p1 & Q1 & _ & B1); [destruct HO as (?&?&?&?&_&H1&_&_&_&B&_); rewrite C1 in H1; injection H1 as ->; exact B|pow2; lia|].
  destruct (phase1_ok t (pf_order2 f) (map_context2 text) m' T M2) as (o2 & p2 & Q2 & _ & B2); [destruct HO as (?&?&?&?&_&_&H1&_&_&_&B&_); rewrite C2 in H1; injection H1 as ->; exact B|pow2; lia|].
  destruct (phase1_ok t (pf_order3 f) (map_context3 text) m' T M3) as (o3 & p3 & Q3 & _ & B3); [destruct HO as (?&?&?&?&_&_&_&H1&_&_&_&B); rewrite C3 in H1; injection H1 as ->; exact B|pow2; lia|].
  rewrite Q1 in E. cbn [bind] in E. rewrite Q2 in E. cbn [bind] in E. rewrite Q3 in E. cbn [bind] in E. pow2.
  rewrite mul_ok in E by (ib; lia). cbn [bind] in E. rewrite add_ok in E by (ib; lia). cbn [bind] in E. rewrite add_ok in E by (ib; lia). cbn [bind] in E.
  rewrite scaled_down_u64_at in E by (change (2 ^ (2 - 1)) with 2; change (2 ^ 64) with 18446744073709551616; lia). cbn [bind] in E. change (2 ^ (2 - 1)) with 2 in E. change (2 ^ 2) with 4 in E.
  rewrite fract_new in E by (pow2; lia). cbn [bind] in E. rewrite to_final in E by (pow2; lia). cbn [bind] in E. injection E as <- <-.
  exists (p0', m', lean_stretch m', p1, p2, p3). split. intros lut LU. rewrite (apm_table t T) in LU. injection LU as <-. cbn [pf_order0 pf_order1 pf_order2 pf_order3 fst snd].
  unfold phase1 in Q1, Q2, Q3. cbn [bind] in Q1, Q2, Q3. rewrite (apm_table t T) in Q1, Q2, Q3. cbn [bind fst snd] in Q1, Q2, Q3.
  split; [exact RF0|]. split; [split; cbn [fst snd]; [rewrite <- MSQ; f_equal; lia|apply stretch_lean; [exact (lk_stretch t T)|pow2; lia]]|]. split; [exact Q1|]. split; [exact Q2|]. split; [exact Q3|].
  unfold final_of. f_equal. f_equal. f_equal. f_equal. f_equal. lia.
Qed.
Lemma light_learns t text lb f b n f' : lb_rel (hist_of text true) lb -> finalizer_update ModeLight t f b n lb = Ok f' ->
  update_predictions (pf_order0 f) (map_context0 text) b 5 true = Ok (pf_order0 f') /\ update_predictions (pf_order1 f) (map_context1 text) b 5 true = Ok (pf_order1 f') /\
  update_predictions (pf_order2 f) (map_context2 text) b 5 true = Ok (pf_order2 f') /\ update_predictions (pf_order3 f) (map_context3 text) b 5 true = Ok (pf_order3 f').
Proof.
  intros R E. destruct (contexts_of text lb R) as (C0 & C1 & C2 & C3). cbn [finalizer_update] in E. rewrite C0, C1, C2, C3 in E. unfold learn in E. cbn [bind] in E.
  apply bind_ok in E. destruct E as (o0 & U0 & E). apply bind_ok in E. destruct E as (o1 & U1 & E). apply bind_ok in E. destruct E as (o2 & U2 & E). apply bind_ok in E. destruct E as (o3 & U3 & E). injection E as <-. auto.
Qed.
Lemma light_step t text outs probs f f1 f2 mixed r parts b lut : luts_apm t 0 = Ok lut -> length outs = length text -> light t text outs probs f -> refined t text mixed f f1 r parts ->
  update_predictions (pf_order0 f1) (map_context0 text) b 5 true = Ok (pf_order0 f2) /\ update_predictions (pf_order1 f1) (map_context1 text) b 5 true = Ok (pf_order1 f2) /\
  update_predictions (pf_order2 f1) (map_context2 text) b 5 true = Ok (pf_order2 f2) /\ update_predictions (pf_order3 f1) (map_context3 text) b 5 true = Ok (pf_order3 f2) ->
  light t (text ++ [b]) (outs ++ [mixed]) (probs ++ [r]) f2.
Proof.
  intros LU LO (a0 & a1 & r0 & mids & r1 & r2 & r3 & A0 & A1 & F0 & FM & F1 & F2 & F3 & L0 & LM & ->) [RF] (U0 & U1 & U2 & U3). destruct parts as (((((p0 & m) & s) & p1) & p2) & p3).
  destruct (RF lut LU) as (Q0 & MI & Q1 & Q2 & Q3 & ->).
  assert (ST : forall c ins a rs a1 a2 x q a', length ins = length text -> mfold (map_round t) (map_lessons c [] text ins) (a, []) = Ok (a1, rs) -> refine a1 (c text) (fst x) (snd x) lut = Ok (a2, q) ->
    update_predictions a2 (c text) b 5 true = Ok a' -> mfold (map_round t) (map_lessons c [] (text ++ [b]) (ins ++ [x])) (a, []) = Ok (a', rs ++ [q])).
  { intros c ins a rs a1' a2 x q a' LI M Q U. rewrite lessons_snoc by exact LI. apply (mfold_snoc _ _ _ _ _ _ M). cbn [app]. unfold map_round. rewrite LU. cbn [bind fst snd]. rewrite Q. cbn [bind fst snd]. rewrite U. reflexivity. }
  pose proof (map_fold_length _ _ _ _ _ _ F1) as N1. pose proof (map_fold_length _ _ _ _ _ _ F2) as N2. pose proof (map_fold_length _ _ _ _ _ _ F3) as N3. rewrite !lessons_length in N1, N2, N3 by exact LM. cbn [length] in N1, N2, N3.
  exists a0, a1, (r0 ++ [p0]), (mids ++ [(m, s)]), (r1 ++ [p1]), (r2 ++ [p2]), (r3 ++ [p3]). split; [exact A0|]. split; [exact A1|].
  split; [exact (ST map_context0 outs a0 r0 _ _ mixed p0 _ LO F0 Q0 U0)|].
  split; [rewrite combine_snoc by lia; apply Forall2_app; [exact FM|constructor; [exact MI|constructor]]|].
  split; [exact (ST map_context1 mids a1 r1 _ _ (m, s) p1 _ LM F1 Q1 U1)|].
  split; [exact (ST map_context2 mids a1 r2 _ _ (m, s) p2 _ LM F2 Q2 U2)|].
  split; [exact (ST map_context3 mids a1 r3 _ _ (m, s) p3 _ LM F3 Q3 U3)|].
  rewrite !app_length. cbn [length]. split; [lia|]. split; [lia|]. symmetry. apply finals_snoc; lia.
Qed.

(** ** Occurrences in the statistics *)
Lemma sums_length mo states : 0 <= mo -> zlen (occurrence_sums mo states) = 5 * (mo + 1).
Proof. intros M. unfold occurrence_sums. rewrite zlen_map, zlen_zseq. lia. Qed.
Lemma sums_at mo states i : 0 <= i < 5 * (mo + 1) -> znth (occurrence_sums mo states) i = Some (zsum (map highest_count (filter (fun s => (0 <? zlen s) && (report_type s =? i)) states))).
Proof. intros I. unfold occurrence_sums. rewrite BaseFacts.znth_map, UtilProofs.znth_zseq by lia. cbn [option_map]. rewrite Z.add_0_l. reflexivity. Qed.
Lemma highest_last cs x : znth cs (zlen cs - 1) = Some x -> highest_count cs = occurrence_count x.
Proof.
  intros X. unfold highest_count. destruct cs as [|y cs _] using rev_ind; [discriminate|]. rewrite rev_app_distr. cbn [rev app].
  rewrite zlen_app, znth_app2 in X by (change (zlen [y]) with 1; lia). change (zlen [y]) with 1 in X. replace (zlen cs + 1 - 1 - zlen cs) with 0 in X by lia. now injection X as ->.
Qed.
Lemma occurrences_step t mo s b cs f s' states : 0 <= mo -> stats_on_next_bit t s b cs f = Ok s' -> st_order_occurrences s = occurrence_sums mo states -> st_order_occurrences s' = occurrence_sums mo (states ++ [cs]).
Proof.
  intros M E S. unfold stats_on_next_bit in E. cbv zeta in E. apply bind_ok in E. destruct E as (tc & _ & E). destruct (Z.ltb_spec 0 (zlen cs)) as [P|N].
  - apply bind_ok in E. destruct E as (i & I & E). do 10 (apply bind_ok in E; destruct E as (? & _ & E)). apply bind_ok in E. destruct E as (la & LA & E). apply bind_ok in E. destruct E as (o & O & E).
    apply bind_ok in E. destruct E as (o2 & O2 & E). apply bind_ok in E. destruct E as (oc & OC & E). injection E as <-. cbn [st_order_occurrences].
    apply BaseFacts.get_inv in LA, O. apply set_inv in OC. destruct OC as (IR & ->). rewrite S in *. rewrite sums_length in IR by exact M.
    assert (IT : i = report_type cs). { unfold stats_index in I. apply bind_ok in I. destruct I as (m & MM & I). cbv zeta in I. injection I as <-. unfold report_type. f_equal. f_equal. f_equal. unfold sub, chk in MM. destruct (inb usize (zlen cs - 1)); [now injection MM|discriminate]. }
    assert (OE : o2 = o + occurrence_count la) by (unfold add, chk in O2; destruct (inb u64 (o + occurrence_count la)); [now injection O2|discriminate]).
    apply MixerProofs.znth_ext; [rewrite zlen_zupd, !sums_length by exact M; reflexivity|]. intros j J. rewrite zlen_zupd, sums_length in J by exact M.
    rewrite (sums_at mo (states ++ [cs])) by lia. rewrite filter_app, map_app. cbn [filter]. replace (0 <? zlen cs) with true by lia. cbn [andb]. rewrite <- IT. destruct (Z.eqb_spec i j) as [<-|NE].
    + rewrite znth_zupd_same by (rewrite sums_length by exact M; exact IR). rewrite sums_at in O by exact IR. injection O as <-. cbn [map]. rewrite zsum_snoc, (highest_last _ _ LA), OE. reflexivity.
    + rewrite znth_zupd_other by congruence. cbn [map]. rewrite app_nil_r. apply sums_at. lia.
  - injection E as <-. cbn [st_order_occurrences]. rewrite S. unfold occurrence_sums. apply map_ext. intros i. rewrite filter_app. cbn [filter]. replace (0 <? zlen cs) with false by lia. cbn [andb]. now rewrite app_nil_r.
Qed.
Lemma occurrences_made mo s : 0 <= mo < 2 ^ 16 -> stats_new mo = Ok s -> st_order_occurrences s = occurrence_sums mo [].
Proof.
  intros M E. change (2 ^ 16) with 65536 in M. unfold stats_new in E. rewrite add_ok in E by (ib; lia). cbn [bind] in E. rewrite mul_ok in E by (ib; lia). cbn [bind] in E. injection E as <-. cbn [st_order_occurrences].
  unfold occurrence_sums. cbn [filter map]. change (zsum []) with 0. assert (G : forall n a, repeat 0 n = map (fun _ : Z => 0) (zseq a n)).
  { clear. induction n as [|n IH]; intros a; [reflexivity|]. cbn [repeat zseq map]. f_equal. apply IH. }
  apply G.
Qed.

(** ** The whole predictor *)
Section Wire.
  Variables (t : luts) (max mo : Z).
  Hypothesis T : luts_ok t.
  Hypothesis C : costs_ok t.
  Hypothesis ALL : forall l, l <> [] -> exists s, state_of t l = Ok s /\ stands_for (lt_rates t) (fst (fst (last l (0, Zero, ct_default)))) (bits l) s.
  Hypothesis M : 0 < max <= 2 ^ 31.
  Hypothesis MO : 0 <= mo /\ 8 * mo + 7 < 2 ^ 16.

  Definition tree_at (input : fed) (open : bool) (tr : source) : Prop :=
    exists s0 s1, tree_new max mo 0 = Ok s0 /\ mfold (feed_step tree_start (tree_process t)) input (0, s0) = Ok (zlen input, s1) /\
      (if open && (zlen input mod 8 =? 0) then tree_start s1 else Ok s1) = Ok tr.
  Definition wired_by (input : fed) (text : list bit) (p : predictor) (probabilities : list Z) : Prop :=
    exists states kits outs, map fst input = text /\ supplied max mo input /\ length states = length text /\ tree_reports t max mo input states /\
    reported t max mo text states /\ chain_new t mo = Ok kits /\
    mfold (chain_round t) (rounds_of [] text states) (kits, []) = Ok (pr_chain p, outs) /\ mfold (tracker_round t) (rounds_of [] text states) (kits, []) = Ok (pr_chain p, map snd input) /\
    st_order_occurrences (pr_stats p) = occurrence_sums mo states /\ length outs = length text /\ light t text outs probabilities (pr_finalizer p).
  Lemma wired_by_wired input text p probs : wired_by input text p probs -> wired t max mo text p probs.
  Proof. intros W. exists input. exact W. Qed.
  Lemma tree_at_after input tr : tree_at input true tr -> tree_after t max mo 0 input = Ok tr.
  Proof. intros (s0 & s1 & N & F & S). unfold tree_after. rewrite N. cbn [bind]. unfold feed. rewrite F. cbn [bind]. exact S. Qed.
  Definition asked_wire (text : list bit) (p : predictor) (probs : list Z) : Prop :=
    exists input p0 probs0 r mixed parts, probs = probs0 ++ [r] /\ wired_by input text p0 probs0 /\ tree_at input true (pr_tree p) /\ tree_states t max mo 0 input [] = Ok (pr_contexts p) /\ pr_stats p = pr_stats p0 /\
      lb_rel (hist_of text true) (pr_last_bytes p) /\
      window_report (lt_rates t) mo (forgotten max text) (in_window max text) (pr_contexts p) /\
      chain_predict t (pr_chain p0) (pr_contexts p) (open_byte text) = Ok (pr_chain p, mixed) /\ refined t text mixed (pr_finalizer p0) (pr_finalizer p) r parts.
  Definition wire_at (ph : phase) (text : list bit) (st : predictor * list Z) : Prop :=
    match ph with
    | Between => lb_rel (hist_of text false) (pr_last_bytes (fst st)) /\ exists input, wired_by input text (fst st) (snd st) /\ tree_at input false (pr_tree (fst st))
    | Inside _ => lb_rel (hist_of text true) (pr_last_bytes (fst st)) /\ exists input, wired_by input text (fst st) (snd st) /\ tree_at input true (pr_tree (fst st))
    | Asked _ => asked_wire text (fst st) (snd st)
    end.
  Lemma wire_made p : predictor_make ModeLight t max mo = Ok p -> wire_at Between [] (p, []).
  Proof.
    intros E. unfold predictor_make in E. apply bind_ok in E. destruct E as (tr & TN & E). apply bind_ok in E. destruct E as (ch & CH & E). apply bind_ok in E. destruct E as (f & F & E). apply bind_ok in E. destruct E as (s & SN & E). injection E as <-.
    split; cbn [fst snd pr_last_bytes]; [exact lb_new_rel|]. exists []. split; [|exists tr, tr; split; [exact TN|split; reflexivity]]. exists [], ch, []. split; [reflexivity|]. split; [intros [|? ?]; discriminate|]. split; [reflexivity|]. split; [intros i s0; discriminate|].
    split; [intros i s0; discriminate|]. split; [exact CH|]. split; [reflexivity|]. split; [reflexivity|]. split; [cbn [pr_stats]; apply occurrences_made; [lia|exact SN]|]. split; [reflexivity|]. cbn [pr_finalizer].
    unfold finalizer_new in F. apply bind_ok in F. destruct F as (ms & _ & F). change (256 * 256) with 65536 in F. apply bind_ok in F. destruct F as (o0 & O0 & F). apply bind_ok in F. destruct F as (o1 & O1 & F).
    apply bind_ok in F. destruct F as (o2 & O2 & F). apply bind_ok in F. destruct F as (o3 & O3 & F). injection F as <-. assert (o2 = o1) by congruence. assert (o3 = o1) by congruence. subst o2 o3.
    exists o0, o1, [], [], [], [], []. split; [exact O0|]. split; [exact O1|]. cbn [pf_order0 pf_order1 pf_order2 pf_order3 map_lessons mfold List.combine]. split; [reflexivity|]. split; [constructor|]. repeat (split; [reflexivity|]). reflexivity.
  Qed.
  Lemma started_same s lb s' : stats_start s lb = Ok s' -> st_order_occurrences s' = st_order_occurrences s.
  Proof.
    unfold stats_start. intros E. apply bind_ok in E. destruct E as (u & _ & E). apply bind_ok in E. destruct E as (? & _ & E). apply bind_ok in E. destruct E as ((c1 & c2) & _ & E). apply bind_ok in E. destruct E as (? & _ & E). injection E as <-. reflexivity.
  Qed.
  Lemma wire_step ph text trace st u ph' st' : at_phase ModeLight t max mo ph trace st -> map fst trace = text -> wire_at ph text st -> allowed ph u = Some ph' -> use_step ModeLight t st u = Ok st' ->
    wire_at ph' (text ++ told [u]) st'.
  Proof.
    destruct st as (p & probs). intros (_ & P) TE W A E. cbn [fst snd] in *. destruct ph as [|k|k]; destruct u as [| |b]; cbn [allowed] in A; try discriminate; injection A as <-; cbn [use_step fst snd told flat_map app] in *; rewrite ?app_nil_r.
    - apply bind_ok in E. destruct E as (p' & S & E). injection E as <-. cbn [wire_at fst snd] in W. destruct W as (R & input & W & s0 & s1 & TN & TF & TS). cbn [wire_at fst snd]. unfold predictor_start in S. apply bind_ok in S. destruct S as (? & _ & S). apply bind_ok in S. destruct S as (lb & LB & S).
      apply bind_ok in S. destruct S as (tr & TR & S). apply bind_ok in S. destruct S as (s & SS & S). injection S as <-. cbn [pr_last_bytes pr_tree]. cbn [andb] in TS. injection TS as TS. subst s1. destruct P as ((L0 & _) & _). split.
      { pose proof (lb_step_spec _ _ LbStart R) as ST. cbn [hist_step lb_step] in ST. rewrite hist_start in ST by (rewrite <- TE, zlen_map; exact L0). destruct ST as (c & EC & RC). assert (c = lb) by congruence. subst c. exact RC. }
      exists input. destruct W as (states & kits & outs & MI & SU & LS & TRP & RE & CN & CF & CT & OS & LO & LI). split.
      { exists states, kits, outs. cbn [pr_chain pr_stats pr_finalizer]. rewrite (started_same _ _ _ SS). repeat (split; [assumption|]). exact LI. }
      exists s0, (pr_tree p). split; [exact TN|]. split; [exact TF|]. assert (ZI : zlen input = zlen trace) by (rewrite <- (zlen_map fst input), MI, <- TE, zlen_map; reflexivity). rewrite ZI, L0. cbn [andb Z.eqb]. exact TR.
    - apply bind_ok in E. destruct E as ((p' & r) & S & E). injection E as <-. cbn [wire_at fst snd] in W. destruct W as (R & input & W & TA). cbn [fst snd wire_at]. destruct P as (_ & (BS & TR & [KT KS KL] & CI & FI & F) & _). rewrite TE in *.
      unfold predictor_predict in S. apply bind_ok in S. destruct S as (? & _ & S). apply bind_ok in S. destruct S as (states & GS & S). destruct (contexts_of text _ R) as (C0 & _). rewrite C0 in S. cbn [bind] in S.
      apply bind_ok in S. destruct S as ((ch & mixed) & CP & S). apply bind_ok in S. destruct S as ((f & final) & FR & S). injection S as <- <-.
      destruct (any_gather t max 0 mo ALL M MO _ _ TR) as (states' & GS' & WR). assert (states' = states) by congruence. subst states'. pose proof (gather_tr _ _ KT GS) as RO.
      assert (UB : 0 <= map_context0 text < 256). { destruct (lb_unfinished_spec _ _ _ R eq_refl) as (_ & UB & _). unfold map_context0, open_byte. lia. }
      destruct (chain_predict_ok t mo (pr_chain p) states (map_context0 text) T CI (proj1 (proj2 WR)) (report_state _ _ _ _ _ (lk_rates t T) WR RO) (report_sorted _ _ _ _ _ WR) UB ltac:(lia)) as (kits & mx & CP' & _ & RR & RP).
      rewrite CP in CP'. injection CP' as <- <-.
      destruct (light_refines t text (pr_last_bytes p) (pr_finalizer p) mixed (zlen states) f final T FI RR) as (parts & RF).
      { destruct RP as [E|E]; [|right; split; [|exact E]]; [rewrite E; cbn [fst snd]; left; split; [lia|exact (half_stretch t T)]|]. destruct RR as (_ & RR). exact RR. }
      { exact (hashes_seen _ _ BS). }
      { exact R. } { exact FR. }
      exists input, p, probs, final, mixed, parts. split; [reflexivity|]. split; [exact W|]. cbn [pr_last_bytes pr_contexts pr_chain pr_finalizer pr_tree pr_stats]. split; [exact TA|]. split; [unfold tree_states; rewrite (tree_at_after _ _ TA); exact GS|]. split; [reflexivity|].
      split; [exact R|]. split; [exact WR|]. split; [exact CP|exact RF].
    - apply bind_ok in E. destruct E as (p' & S & E). injection E as <-. cbn [wire_at fst snd] in W. destruct W as (input & p0 & probs0 & r & mixed & parts & -> & (states & kits & outs & MI & SU & LS & TRP & RE & CN & CF & CT & OS & LO & LI) & TA & TS & PS & R & WR & CP & RF). destruct P as (-> & r' & AK & _).
      unfold predictor_update in S. apply bind_ok in S. destruct S as (? & _ & S). apply bind_ok in S. destruct S as ((ch & trs) & CU & S). apply bind_ok in S. destruct S as (tr & TP & S). apply bind_ok in S. destruct S as (f & FU & S).
      apply bind_ok in S. destruct S as (? & _ & S). apply bind_ok in S. destruct S as (s & SN & S). apply bind_ok in S. destruct S as (lb & LB & S). injection S as <-.
      pose proof (light_learns t text _ _ _ _ _ R FU) as LL. pose proof (light_step t text outs probs0 (pr_finalizer p0) (pr_finalizer p) f mixed r parts b _ (apm_table t T) LO LI RF LL) as LI'.
      assert (ZI : zlen input = zlen text) by (rewrite <- MI, zlen_map; reflexivity). assert (ZT : zlen trace = zlen text) by (rewrite <- TE, zlen_map; reflexivity).
      assert (TZ : zlen trs = branching mo (in_window max text)).
      { destruct AK as (_ & _ & _ & WR' & RO & CPT & _). destruct (chain_update_ok t mo (pr_chain p) (pr_contexts p) b T CPT (proj1 (proj2 WR')) (report_state _ _ _ _ _ (lk_rates t T) WR' RO)) as (k1 & t1 & CU' & _ & TZ & _).
        rewrite CU in CU'. injection CU' as <- <-. rewrite TZ. eapply PredRun.report_nodes; exact WR. }
      assert (WW : forall lb tr cs fi, wired_by (input ++ [(b, trs)]) (text ++ [b]) (mkPredictor lb tr cs ch f fi s) (probs0 ++ [r])).
      { intros. exists (states ++ [pr_contexts p]), kits, (outs ++ [mixed]). split; [rewrite map_app, MI; reflexivity|]. split.
        { intros before z tk later E. destruct later as [|y later _] using rev_ind.
          - apply app_inj_tail in E. destruct E as (<- & E). injection E as <- <-. rewrite MI. exact TZ.
          - rewrite app_comm_cons, app_assoc in E. apply app_inj_tail in E. destruct E as (E & _). exact (SU _ _ _ _ E). }
        split; [rewrite !app_length; cbn; lia|]. split.
        { intros i s' Z1. pose proof (znth_Some _ _ _ Z1) as IB. rewrite zlen_app in IB. change (zlen [pr_contexts p]) with 1 in IB. assert (LSI : length states = length input) by (unfold zlen in ZI; lia).
          destruct (Z.eq_dec i (zlen states)) as [EQ|NE].
          + rewrite EQ in *. rewrite znth_app2, Z.sub_diag in Z1 by lia. injection Z1 as <-. unfold zlen. rewrite Nat2Z.id, LSI, firstn_app_l, firstn_all by lia. exact TS.
          + rewrite znth_app1 in Z1 by lia. rewrite firstn_app_l by (unfold zlen in *; lia). exact (TRP i s' Z1). }
        split.
        - intros i s' Z1. unfold reported in RE. pose proof (znth_Some _ _ _ Z1) as IB. rewrite zlen_app in IB. change (zlen [pr_contexts p]) with 1 in IB.
          destruct (Z.eq_dec i (zlen states)) as [EQ|NE].
          + rewrite EQ in *. rewrite znth_app2, Z.sub_diag in Z1 by lia. injection Z1 as <-. unfold zlen. rewrite Nat2Z.id, LS, firstn_app_l, firstn_all by lia. exact WR.
          + rewrite znth_app1 in Z1 by lia. rewrite firstn_app_l by (unfold zlen in *; lia). exact (RE i s' Z1).
        - split; [exact CN|]. cbn [pr_chain pr_stats pr_finalizer]. split.
          { rewrite rounds_snoc by exact LS. apply (mfold_snoc _ _ _ _ _ _ CF). cbn [app]. unfold chain_round. cbn [fst snd]. rewrite CP. cbn [bind fst snd]. rewrite CU. reflexivity. }
          split.
          { rewrite rounds_snoc by exact LS. apply (mfold_snoc _ _ _ _ _ _ CT). cbn [app]. unfold tracker_round. cbn [fst snd]. rewrite CP. cbn [bind fst snd]. rewrite CU. cbn [bind fst snd]. rewrite map_app. reflexivity. }
          split; [apply (occurrences_step t mo (pr_stats p) b (pr_contexts p) _ s states (proj1 MO) SN); rewrite PS; exact OS|].
          split; [rewrite !app_length; cbn; lia|exact LI']. }
      assert (TT : forall open, (open = true -> zlen text mod 8 <> 7) -> tree_at (input ++ [(b, trs)]) open tr).
      { intros open OP. destruct TA as (s0 & s1 & TN & TF & TSS). exists s0, tr. split; [exact TN|]. split.
        - apply (mfold_snoc _ _ _ _ _ _ TF). unfold feed_step. cbn [andb] in TSS. rewrite TSS. cbn [bind fst snd]. rewrite TP. cbn [bind]. rewrite zlen_app. reflexivity.
        - destruct open; [|reflexivity]. specialize (OP eq_refl). rewrite zlen_app, ZI. change (zlen [(b, trs)]) with 1. pose proof (zlen_nonneg text). replace ((zlen text + 1) mod 8 =? 0) with false by lia. reflexivity. }
      pose proof (lb_step_spec _ _ (LbBit b) R) as ST. cbn [hist_step lb_step] in ST. rewrite hist_bit in ST. destruct ST as (c & EC & RC). assert (c = lb) by congruence. subst c.
      rewrite ZT. destruct (Z.eqb_spec (zlen text mod 8) 7) as [E7|N7]; cbn [wire_at fst snd negb pr_last_bytes] in *; (split; [exact RC|]); exists (input ++ [(b, trs)]); (split; [apply WW|cbn [pr_tree]; apply TT]); [discriminate|intros _; exact N7].
  Qed.
  Lemma wire_uses uses : forall ph trace text st, at_phase ModeLight t max mo ph trace st -> map fst trace = text -> wire_at ph text st -> zlen trace + zlen (told uses) < 2 ^ 47 - 1 ->
    forall ph' st', allowed_all ph uses = Some ph' -> mfold (use_step ModeLight t) uses st = Ok st' -> wire_at ph' (text ++ told uses) st'.
  Proof.
    induction uses as [|u uses IH]; intros ph trace text st A TE W TL ph' st' AL E; cbn [allowed_all mfold] in *.
    - injection AL as <-. injection E as <-. cbn [told flat_map]. rewrite app_nil_r. exact W.
    - change (u :: uses) with ([u] ++ uses) in TL |- *. rewrite told_app in TL |- *. rewrite zlen_app in TL. pose proof (zlen_nonneg (told [u])). pose proof (zlen_nonneg (told uses)).
      pose proof (use_ok ModeLight t max mo T C ALL M MO ph trace st u A ltac:(lia)) as U. destruct (allowed ph u) as [ph1|] eqn:AU; [|discriminate]. destruct U as (trace1 & st1 & E1 & A1 & T1 & _). rewrite E1 in E. cbn [bind] in E.
      pose proof (wire_step ph text trace st u ph1 st1 A TE W AU E1) as W1. rewrite app_assoc. apply (IH ph1 trace1 (text ++ told [u]) st1 A1); [rewrite T1, TE; reflexivity|exact W1| |exact AL|exact E].
      assert (ZT : zlen trace1 = zlen trace + zlen (told [u])) by (rewrite <- (zlen_map fst trace1), T1, zlen_app, zlen_map; reflexivity). lia.
  Qed.
  Lemma wire_all uses ph p probs : zlen (told uses) < 2 ^ 47 - 1 -> allowed_all Between uses = Some ph -> use_all ModeLight t max mo uses = Ok (p, probs) -> wire_at ph (told uses) (p, probs).
  Proof.
    intros TL AL E. unfold use_all in E. destruct (between_made ModeLight t max mo T M MO) as (p0 & PM & B). rewrite PM in E. cbn [bind] in E.
    refine (wire_uses uses Between [] [] (p0, []) _ eq_refl (wire_made p0 PM) TL ph (p, probs) AL E). split; [constructor|]. split; [exact B|reflexivity].
  Qed.
End Wire.

Lemma calls_wired t max mo uses p probs : luts_new = Ok t -> 0 < max <= 2 ^ 31 -> 0 <= mo -> 8 * mo + 7 < 2 ^ 16 -> zlen (told uses) < 2 ^ 47 - 1 -> use_all ModeLight t max mo uses = Ok (p, probs) ->
  asked uses = zlen (told uses) -> wired t max mo (told uses) p probs.
Proof.
  intros L M O D TL E AK. pose proof (calls_ok ModeLight t max mo uses L M O D TL) as H. destruct (allowed_all Between uses) as [ph|] eqn:A; [|rewrite E in H; discriminate]. destruct H as (trace & st & E' & (_ & P) & T & Z).
  pose proof (wire_all t max mo (luts_ok_of t L) (costs_of t L) (all_of t L) M (conj O D) uses ph p probs TL A E) as W. clear L. rewrite E in E'. injection E' as <-. cbn [fst snd] in *.
  destruct ph as [|k|k]; cbn [wire_at fst snd] in W; [destruct W as (_ & input & W & _); exact (wired_by_wired t max mo input _ _ _ W)|destruct W as (_ & input & W & _); exact (wired_by_wired t max mo input _ _ _ W)|]. exfalso. destruct P as (_ & r & _ & P). rewrite P, zlen_app, zlen_map in Z. rewrite <- T, zlen_map in AK. change (zlen [r]) with 1 in Z. lia.
Qed.
Lemma file_wired t bytes : luts_new = Ok t -> 8 * zlen bytes < 2 ^ 47 - 1 -> exists p probabilities,
  (let* p := predictor_new t in mfold (use_step ModeLight t) (uses_of bytes) (p, [])) = Ok (p, probabilities) /\ wired t 10000000 20 (bit_string bytes) p probabilities.
Proof.
  intros L TL. destruct (program_predicted t bytes L TL) as (p & probs & E & Z & _). exists p, probs. split; [exact E|]. rewrite <- told_file.
  assert (TT : zlen (told (uses_of bytes)) < 2 ^ 47 - 1) by (rewrite told_file, zlen_bits; exact TL). change (2 ^ 31) with 2147483648.
  apply (calls_wired t 10000000 20 (uses_of bytes) p probs L); [lia|lia|lia|exact TT|exact E|]. rewrite told_file, zlen_bits. 
  pose proof (calls_predicted ModeLight t 10000000 20 (uses_of bytes) p probs L ltac:(lia) ltac:(lia) ltac:(lia) TT E) as (_ & ZA). lia.
Qed.
