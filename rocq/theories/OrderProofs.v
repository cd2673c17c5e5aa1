(** Proofs for C67: the maximum order does not matter to a text that is shorter. *)
From Coq Require Import ZifyBool.
From Verif Require Import Base BaseFacts UtilModel UtilSpec UtilProofs CodingModel CodingSpec StateModel EstModel EstProofs LogModel LogProofs LutModel LutProofs ApmModel ApmSpec StatesModel StatesSpec StatesProofs WindowSpec WindowProofs LutRound HistModel HistSpec HistProofs FatProofs HistFacts TreeStats TreeModel TreeSpec TreeRun TreeFacts
  PredModel PredKits PredChain PredTree PredSpec PredStats PredRun PredFacts KitSpec KitChain WireSpec WireProofs FileSpec FileProofs RoomSpec RoomProofs OrderSpec.
Ltac Zify.zify_post_hook ::= Z.div_mod_to_equations.

(** ** The report *)
Lemma none_met text o : zlen text / 8 <= o -> earlier text o = [].
Proof. intros H. unfold earlier, last_start. replace (Z.to_nat (zlen text / 8 - o)) with 0%nat by lia. reflexivity. Qed.
Lemma report_short t input o n : forall cs, report_from t input o n = Ok cs -> zlen cs <= Z.max 0 (zlen input / 8 - o).
Proof.
  revert o. induction n as [|n IH]; intros o cs; cbn [report_from]; [intros E; injection E as <-; change (zlen (@nil context_state)) with 0; lia|].
  unfold occurrences at 1. cbv zeta. destruct (Z_lt_le_dec o (zlen input / 8)) as [LT|GE].
  - destruct (map _ (earlier (map fst input) o)) as [|x later]; [intros E; injection E as <-; change (zlen (@nil context_state)) with 0; lia|]. intros E. apply bind_ok in E. destruct E as (s & _ & E). apply bind_ok in E. destruct E as (rest & R & E). injection E as <-. specialize (IH _ _ R). rewrite zlen_cons. lia.
  - rewrite none_met by (rewrite zlen_map; lia). cbn [map]. intros E. injection E as <-. change (zlen (@nil context_state)) with 0. lia.
Qed.
Lemma report_enough t input n m : forall o, zlen input / 8 <= o + Z.of_nat n -> report_from t input o (n + m) = report_from t input o n.
Proof.
  induction n as [|n IH]; intros o H; cbn [report_from Nat.add].
  - destruct m as [|m]; cbn [report_from]; [reflexivity|]. unfold occurrences. cbv zeta. rewrite none_met by (rewrite zlen_map; lia). reflexivity.
  - rewrite IH by lia. reflexivity.
Qed.
Lemma branching_enough text n m : zlen text / 8 <= Z.of_nat n -> zlen (filter (fun o => negb (uniform (followers text o))) (zseq 0 (n + m))) = zlen (filter (fun o => negb (uniform (followers text o))) (zseq 0 n)).
Proof.
  intros H. rewrite zseq_app, filter_app. assert (X : forall k a, Z.of_nat n <= a -> filter (fun o => negb (uniform (followers text o))) (zseq a k) = []).
  { induction k as [|k IH]; intros a A; cbn [zseq filter]; [reflexivity|]. unfold followers at 1. rewrite none_met by lia. cbn [map]. change (uniform []) with true. cbn [negb]. apply IH. lia. }
  rewrite (X m (0 + Z.of_nat n)) by lia. now rewrite app_nil_r.
Qed.
Lemma reports_agree t input mo mo' : 0 <= mo -> 0 <= mo' -> zlen input / 8 <= Z.min mo mo' + 1 -> report t mo input = report t mo' input.
Proof.
  intros A B H. unfold report. destruct (Z_le_gt_dec mo mo').
  - replace (Z.to_nat (mo' + 1)) with (Z.to_nat (mo + 1) + Z.to_nat (mo' - mo))%nat by lia. rewrite report_enough by lia. reflexivity.
  - replace (Z.to_nat (mo + 1)) with (Z.to_nat (mo' + 1) + Z.to_nat (mo - mo'))%nat by lia. rewrite report_enough by lia. reflexivity.
Qed.
Lemma branching_agree text mo mo' : 0 <= mo -> 0 <= mo' -> zlen text / 8 <= Z.min mo mo' + 1 -> branching mo text = branching mo' text.
Proof.
  intros A B H. unfold branching. destruct (Z_le_gt_dec mo mo').
  - replace (Z.to_nat (mo' + 1)) with (Z.to_nat (mo + 1) + Z.to_nat (mo' - mo))%nat by lia. rewrite branching_enough by lia. reflexivity.
  - replace (Z.to_nat (mo + 1)) with (Z.to_nat (mo' + 1) + Z.to_nat (mo - mo'))%nat by lia. rewrite branching_enough by lia. reflexivity.
Qed.

(** ** The chain *)
Definition agree {A} (n : Z) (a b : list A) : Prop := forall i, i < n -> znth a i = znth b i.
Lemma agree_get {A} n (a b : list A) i x : agree n a b -> i < n -> get a i = Ok x -> get b i = Ok x.
Proof. intros G I E. unfold get in *. now rewrite <- (G i I). Qed.
Lemma agree_set {A} n (a b : list A) i v a' : agree n a b -> i < n -> set a i v = Ok a' -> exists b', set b i v = Ok b' /\ agree n a' b'.
Proof.
  intros G I E. apply set_inv in E. destruct E as (R & ->). assert (RB : 0 <= i < zlen b) by (destruct (znth_lt a i R) as (x & X); rewrite (G i I) in X; exact (znth_Some _ _ _ X)).
  exists (zupd b i v). split; [now apply set_ok|]. intros j J. destruct (Z.eq_dec i j) as [<-|N]; [rewrite !znth_zupd_same by assumption; reflexivity|rewrite !znth_zupd_other by assumption; now apply G].
Qed.
Lemma mfold_agree {A R : Type} n (f : list A * R -> Z -> res (list A * R)) l :
  (forall i a b r a' r', In i l -> agree n a b -> f (a, r) i = Ok (a', r') -> exists b', f (b, r) i = Ok (b', r') /\ agree n a' b') ->
  forall a b r a' r', agree n a b -> mfold f l (a, r) = Ok (a', r') -> exists b', mfold f l (b, r) = Ok (b', r') /\ agree n a' b'.
Proof.
  induction l as [|i l IH]; intros F a b r a' r' G E; cbn [mfold] in *; [injection E as <- <-; exists b; auto|].
  apply bind_ok in E. destruct E as ((a1 & r1) & E1 & E). destruct (F i a b r a1 r1 (or_introl eq_refl) G E1) as (b1 & E1' & G1). rewrite E1'. cbn [bind].
  apply (IH (fun j x y r x' r' J => F j x y r x' r' (or_intror J)) a1 b1 r1 a' r' G1 E).
Qed.
Lemma chain_predict_agree t n cx byte a b a' r : zlen cx <= n -> agree n a b -> chain_predict t a cx byte = Ok (a', r) -> exists b', chain_predict t b cx byte = Ok (b', r) /\ agree n a' b'.
Proof.
  intros N. unfold chain_predict. apply (mfold_agree n (chain_predict_step t cx byte)). clear a b a' r. intros i a b r a' r' I G E. apply in_zseq in I. assert (IN : i < n) by (unfold zlen in N; lia). unfold chain_predict_step in *.
  apply bind_ok in E. destruct E as (s & -> & E). cbn [bind]. apply bind_ok in E. destruct E as (m & -> & E). cbn [bind]. apply bind_ok in E. destruct E as (c & -> & E). cbn [bind].
  apply bind_ok in E. destruct E as (k & GK & E). rewrite (agree_get n a b i k G IN GK). cbn [bind].
  destruct (is_for_node s); (apply bind_ok in E; destruct E as (kit & -> & E)); cbn [bind]; apply bind_ok in E; destruct E as (((sg & kt) & rr) & -> & E); cbn [bind]; apply bind_ok in E; destruct E as (a1 & SA & E); injection E as <- <-;
    destruct (agree_set n a b i _ a1 G IN SA) as (b1 & SB & GB); rewrite SB; cbn [bind]; exists b1; auto.
Qed.
Lemma chain_update_agree t n cx bt a b a' r : zlen cx <= n -> agree n a b -> chain_update t a bt cx = Ok (a', r) -> exists b', chain_update t b bt cx = Ok (b', r) /\ agree n a' b'.
Proof.
  intros N. unfold chain_update. apply (mfold_agree n (chain_update_step t bt cx)). clear a b a' r. intros i a b r a' r' I G E. apply in_zseq in I. assert (IN : i < n) by (unfold zlen in N; lia). unfold chain_update_step in *.
  apply bind_ok in E. destruct E as (s & -> & E). cbn [bind]. apply bind_ok in E. destruct E as (k & GK & E). rewrite (agree_get n a b i k G IN GK). cbn [bind].
  apply bind_ok in E. destruct E as ((k1 & c) & -> & E). cbn [bind]. apply bind_ok in E. destruct E as (u & -> & E). cbn [bind]. apply bind_ok in E. destruct E as (a1 & SA & E). injection E as <- <-.
  destruct (agree_set n a b i _ a1 G IN SA) as (b1 & SB & GB). rewrite SB. cbn [bind]. exists b1. auto.
Qed.
Lemma chain_new_agree t mo mo' a b : chain_new t mo = Ok a -> chain_new t mo' = Ok b -> agree (Z.min mo mo' + 1) a b.
Proof.
  unfold chain_new. destruct (order_kit_new t) as [k|e] eqn:K.
  - assert (X : forall l : list Z, mmap (fun _ => Ok k) l = Ok (map (fun _ => k) l)) by (induction l as [|x l IH]; cbn [mmap map]; [reflexivity|rewrite IH; reflexivity]).
    rewrite !X. intros E E'. injection E as <-. injection E' as <-. intros i I. rewrite !znth_map. destruct (Z_lt_le_dec i 0) as [NG|NN].
    + rewrite !(proj2 (znth_None _ _)) by lia. reflexivity.
    + destruct (znth_lt (zseq 0 (Z.to_nat (mo + 1))) i) as (x & ->); [rewrite zlen_zseq; lia|]. destruct (znth_lt (zseq 0 (Z.to_nat (mo' + 1))) i) as (y & ->); [rewrite zlen_zseq; lia|]. reflexivity.
  - intros E E'. destruct (Z.to_nat (mo + 1)) as [|m] eqn:M; [|discriminate]. intros i I. cbn in E. injection E as <-. destruct (Z.to_nat (mo' + 1)) as [|m'] eqn:M'; [|discriminate]. cbn in E'. injection E' as <-. reflexivity.
Qed.

(** ** The statistics *)
Lemma entry_get l i x : get l i = Ok x -> entry l i = x.
Proof. intros E. apply get_inv in E. unfold entry. now rewrite E. Qed.
Lemma entry_set l i v l' j : set l i v = Ok l' -> entry l' j = if i =? j then v else entry l j.
Proof.
  intros E. apply set_inv in E. destruct E as (R & ->). unfold entry. destruct (Z.eqb_spec i j) as [<-|N]; [now rewrite znth_zupd_same by assumption|now rewrite znth_zupd_other by assumption].
Qed.
Lemma stats_start_same s s' lb r r' : same_statistics s s' -> stats_start s lb = Ok r -> stats_start s' lb = Ok r' -> same_statistics r r'.
Proof.
  destruct s as [s1 s2 s3 s4 s5 s6 s7 s8 s9]. destruct s' as [u1 u2 u3 u4 u5 u6 u7 u8 u9]. intros (A1 & A2 & A3 & A4 & A5 & A6 & A7 & A8 & A9). cbn [st_total_bytes st_total_contexts st_order_counts st_order_costs st_symbol_counts st_symbol_costs st_byte_cost st_total_cost st_order_occurrences] in *. subst u1 u2 u3 u4 u5 u6 u7 u8.
  unfold stats_start. cbn [st_total_bytes st_total_contexts st_order_counts st_order_costs st_symbol_counts st_symbol_costs st_byte_cost st_total_cost st_order_occurrences]. intros E E'.
  apply bind_ok in E. destruct E as (u & U & E). rewrite U in E'. cbn [bind] in E'. apply bind_ok in E. destruct E as (v & V & E). rewrite V in E'. cbn [bind] in E'. apply bind_ok in E. destruct E as ((c & k) & C & E). rewrite C in E'. cbn [bind] in E'.
  apply bind_ok in E. destruct E as (m & MM & E). rewrite MM in E'. cbn [bind] in E'. injection E as <-. injection E' as <-. repeat split; assumption.
Qed.
Lemma stats_bit_same t s s' b cx fn r r' : same_statistics s s' -> stats_on_next_bit t s b cx fn = Ok r -> stats_on_next_bit t s' b cx fn = Ok r' -> same_statistics r r'.
Proof.
  destruct s as [s1 s2 s3 s4 s5 s6 s7 s8 s9]. destruct s' as [u1 u2 u3 u4 u5 u6 u7 u8 u9]. intros (A1 & A2 & A3 & A4 & A5 & A6 & A7 & A8 & A9). cbn [st_total_bytes st_total_contexts st_order_counts st_order_costs st_symbol_counts st_symbol_costs st_byte_cost st_total_cost st_order_occurrences] in *. subst u1 u2 u3 u4 u5 u6 u7 u8.
  unfold stats_on_next_bit. cbn [st_total_bytes st_total_contexts st_order_counts st_order_costs st_symbol_counts st_symbol_costs st_byte_cost st_total_cost st_order_occurrences]. intros E E'.
  apply bind_ok in E. destruct E as (tc & TC & E). rewrite TC in E'. cbn [bind] in E'. destruct (0 <? zlen cx); [|injection E as <-; injection E' as <-; repeat split; assumption].
  do 9 (apply bind_ok in E; let x := fresh "x" in let X := fresh "X" in destruct E as (x & X & E); rewrite X in E'; cbn [bind] in E').
  apply bind_ok in E. destruct E as (y & Y & E). rewrite Y in E'. cbn [bind] in E'. apply bind_ok in E. destruct E as (z & ZZ & E). rewrite ZZ in E'. cbn [bind] in E'.
  apply bind_ok in E. destruct E as (la & LA & E). rewrite LA in E'. cbn [bind] in E'.
  apply bind_ok in E. destruct E as (o & O & E). apply bind_ok in E'. destruct E' as (o' & O' & E'). assert (o' = o) by (rewrite <- (entry_get _ _ _ O), <- (entry_get _ _ _ O'); symmetry; apply A9). subst o'.
  apply bind_ok in E. destruct E as (o1 & O1 & E). rewrite O1 in E'. cbn [bind] in E'. apply bind_ok in E. destruct E as (oc & OC & E). apply bind_ok in E'. destruct E' as (oc' & OC' & E'). injection E as <-. injection E' as <-.
  repeat split. cbn [st_order_occurrences]. intros i. rewrite (entry_set _ _ _ _ i OC), (entry_set _ _ _ _ i OC'). now rewrite A9.
Qed.
Lemma entry_zeros n i : entry (repeat 0 n) i = 0.
Proof. unfold entry. destruct (znth (repeat 0 n) i) as [x|] eqn:E; [|reflexivity]. apply znth_In in E. now apply repeat_spec in E. Qed.
Lemma stats_new_same mo mo' s s' : stats_new mo = Ok s -> stats_new mo' = Ok s' -> same_statistics s s'.
Proof.
  unfold stats_new. intros E E'. apply bind_ok in E. destruct E as (a & _ & E). apply bind_ok in E. destruct E as (m & _ & E). injection E as <-. apply bind_ok in E'. destruct E' as (a' & _ & E'). apply bind_ok in E'. destruct E' as (m' & _ & E'). injection E' as <-.
  repeat split. cbn [st_order_occurrences]. intros i. now rewrite !entry_zeros.
Qed.
Lemma supplied_snoc mo input b trs : well_supplied mo input -> zlen trs = branching mo (map fst input) -> well_supplied mo (input ++ [(b, trs)]).
Proof.
  intros WS TZ before z tk later EQ. destruct later as [|y later _] using rev_ind.
  - apply app_inj_tail in EQ. destruct EQ as (<- & EQ). injection EQ as <- <-. exact TZ.
  - rewrite app_comm_cons, app_assoc in EQ. apply app_inj_tail in EQ. destruct EQ as (EQ & _). exact (WS _ _ _ _ EQ).
Qed.

(** ** The runs *)
Section Orders.
  Variables (md : mode) (t : luts) (max max' mo mo' : Z).
  Hypothesis T : luts_ok t.
  Hypothesis M : 0 < max <= 2 ^ 31.
  Hypothesis M' : 0 < max' <= 2 ^ 31.
  Hypothesis MO : 0 <= mo /\ 8 * mo + 7 < 2 ^ 16.
  Hypothesis MO' : 0 <= mo' /\ 8 * mo' + 7 < 2 ^ 16.
  Hypothesis CALLS : calls_of md t mo max.
  Hypothesis CALLS' : calls_of md t mo' max'.
  Hypothesis REP : replays t mo max.
  Hypothesis REP' : replays t mo' max'.

  Definition fit (ph : phase) (n : Z) : Prop := room ph n max /\ room ph n max' /\ room ph n (Z.min mo mo' + 2).
  Definition akin (ph : phase) (text : list bit) (p q : predictor) : Prop :=
    same_to (Z.min mo mo' + 1) p q /\ zlen (pr_contexts p) <= Z.min mo mo' + 1 /\
    exists input, map fst input = text /\ well_supplied mo input /\ well_supplied mo' input /\ tree_at t max mo input (open_in ph) (pr_tree p) /\ tree_at t max' mo' input (open_in ph) (pr_tree q).

  Lemma twin_step uses u ph ph' p q acc : zlen (told (uses ++ [u])) < 2 ^ 47 - 1 -> use_all md t max mo uses = Ok (p, acc) -> use_all md t max' mo' uses = Ok (q, acc) ->
    allowed_all Between uses = Some ph -> allowed ph u = Some ph' -> akin ph (told uses) p q -> fit ph' (zlen (told (uses ++ [u]))) ->
    exists p' q' acc', use_all md t max mo (uses ++ [u]) = Ok (p', acc') /\ use_all md t max' mo' (uses ++ [u]) = Ok (q', acc') /\ akin ph' (told (uses ++ [u])) p' q'.
  Proof.
    intros TL E E' A AL AK RM. assert (A2 : allowed_all Between (uses ++ [u]) = Some ph') by (rewrite allowed_app, A; cbn [allowed_all]; now rewrite AL).
    pose proof (CALLS _ TL) as H. pose proof (CALLS' _ TL) as H'. rewrite A2 in H, H'. destruct H as (trace & (p' & a1) & EU & _). destruct H' as (trace' & (q' & a2) & EU' & _).
    pose proof (use_all_snoc _ _ _ _ _ _ _ EU) as (st & X & S). rewrite E in X. injection X as <-. pose proof (use_all_snoc _ _ _ _ _ _ _ EU') as (st & X & S'). rewrite E' in X. injection X as <-.
    rewrite told_snoc in TL, RM |- *. rewrite zlen_app in TL, RM.
    assert (BD : zlen (told uses) < 2 ^ 47 - 1) by (pose proof (zlen_nonneg (match u with Update b => [b] | _ => [] end)); lia).
    pose proof (CALLS _ BD) as H. rewrite A in H. destruct H as (tr0 & st0 & X & (_ & PH) & TE & _). rewrite E in X. injection X as <-. cbn [fst snd] in PH.
    destruct AK as ((E1 & E2 & E3 & E4 & E5 & E6) & ZC & input & MI & WS & WS' & TA & TA').
    assert (ZI : zlen input = zlen (told uses)) by (rewrite <- MI, zlen_map; reflexivity).
    assert (ZT : zlen tr0 = zlen (told uses)) by (rewrite <- TE, zlen_map; reflexivity).
    destruct p as [lb tr cx ch fi fl ss]. destruct q as [lb2 tr2 cx2 ch2 fi2 fl2 ss2]. cbn [pr_last_bytes pr_contexts pr_chain pr_finalizer pr_final pr_stats pr_tree] in *. subst lb2 cx2 fi2 fl2. change (agree (Z.min mo mo' + 1) ch ch2) in E3.
    exists p', q', a1. split; [exact EU|]. cut (a2 = a1 /\ akin ph' (told uses ++ match u with Update b => [b] | _ => [] end) p' q'); [intros (-> & AK); split; [exact EU'|exact AK]|]. clear EU EU' E E' CALLS CALLS' A2.
    destruct ph as [|k|k]; destruct u as [| |b]; cbn [allowed] in AL; try discriminate; injection AL as <-; cbn [use_step fst snd open_in] in *; rewrite ?app_nil_r.
    - apply bind_ok in S. destruct S as (p1 & S & X). injection X as <- <-. apply bind_ok in S'. destruct S' as (q1 & S' & X). injection X as <- <-. split; [reflexivity|].
      unfold predictor_start in S, S'. cbn [pr_last_bytes pr_contexts pr_chain pr_finalizer pr_final pr_stats pr_tree] in S, S'. apply bind_ok in S. destruct S as (? & _ & S). apply bind_ok in S. destruct S as (l1 & LB & S). apply bind_ok in S. destruct S as (t1 & TS & S). apply bind_ok in S. destruct S as (s1 & SS & S). injection S as <-.
      apply bind_ok in S'. destruct S' as (? & _ & S'). apply bind_ok in S'. destruct S' as (l2 & LB' & S'). apply bind_ok in S'. destruct S' as (t2 & TS' & S'). apply bind_ok in S'. destruct S' as (s2 & SS' & S'). injection S' as <-.
      rewrite LB in LB'. injection LB' as <-. pose proof (stats_start_same _ _ _ _ _ E6 SS SS') as ST. destruct PH as ((L0 & _) & _). assert (Z0 : zlen input mod 8 = 0) by lia.
      split; [split; [reflexivity|]; split; [reflexivity|]; split; [exact E3|]; split; [reflexivity|]; split; [reflexivity|exact ST]|]. split; [exact ZC|]. exists input. cbn [pr_tree open_in]. split; [exact MI|]. split; [exact WS|]. split; [exact WS'|]. split; [exact (tree_at_start _ _ _ _ _ _ Z0 TA TS)|exact (tree_at_start _ _ _ _ _ _ Z0 TA' TS')].
    - apply bind_ok in S. destruct S as ((p1 & r1) & S & X). injection X as <- <-. apply bind_ok in S'. destruct S' as ((q1 & r2) & S' & X). injection X as <- <-. cbn [fst snd].
      pose proof (tree_at_after _ _ _ _ _ TA) as AF. pose proof (tree_at_after _ _ _ _ _ TA') as AF'. change (zlen (@nil bit)) with 0 in RM. unfold fit in RM. cbn [room] in RM.
      pose proof (REP input ltac:(rewrite ZI; lia) WS) as R1. pose proof (REP' input ltac:(rewrite ZI; lia) WS') as R2. rewrite <- (reports_agree t input mo mo' (proj1 MO) (proj1 MO')) in R2 by (rewrite ZI; lia). unfold tree_states in R1, R2. rewrite AF in R1. rewrite AF' in R2. cbn [bind] in R1, R2.
      unfold predictor_predict in S, S'. cbn [pr_last_bytes pr_contexts pr_chain pr_finalizer pr_final pr_stats pr_tree] in S, S'. rewrite R1 in S. rewrite R2 in S'.
      apply bind_ok in S. destruct S as (? & _ & S). apply bind_ok in S. destruct S as (cs & CS & S). apply bind_ok in S. destruct S as (u1 & U & S). apply bind_ok in S. destruct S as ((c1 & m1) & CP & S). apply bind_ok in S. destruct S as ((f1 & z1) & FR & S). injection S as <- <-.
      assert (ZC1 : zlen cs <= Z.min mo mo' + 1) by (pose proof (report_short _ _ _ _ _ CS); pose proof (zlen_nonneg input); lia). destruct (chain_predict_agree t _ cs u1 ch ch2 c1 m1 ZC1 E3 CP) as (c2 & CP' & E3').
      rewrite CS, U in S'. cbn [bind] in S'. rewrite CP' in S'. cbn [bind] in S'. rewrite FR in S'. cbn [bind] in S'. apply bind_ok in S'. destruct S' as (? & _ & S'). injection S' as <- <-.
      split; [reflexivity|]. split; [split; [reflexivity|]; split; [reflexivity|]; split; [exact E3'|]; split; [reflexivity|]; split; [reflexivity|exact E6]|]. split; [exact ZC1|]. exists input. cbn [pr_tree open_in]. repeat (split; [assumption|]). assumption.
    - apply bind_ok in S. destruct S as (p1 & S & X). injection X as <- <-. apply bind_ok in S'. destruct S' as (q1 & S' & X). injection X as <- <-. split; [reflexivity|]. change (zlen [b]) with 1 in RM.
      destruct PH as (KZ & r & AS & _). rewrite ZT in KZ.
      unfold predictor_update in S, S'. cbn [pr_last_bytes pr_contexts pr_chain pr_finalizer pr_final pr_stats pr_tree] in S, S'.
      apply bind_ok in S. destruct S as (? & _ & S). apply bind_ok in S. destruct S as ((c1 & trs) & CU & S). apply bind_ok in S. destruct S as (t1 & TP & S). apply bind_ok in S. destruct S as (f1 & FU & S). apply bind_ok in S. destruct S as (fn & FN & S). apply bind_ok in S. destruct S as (s1 & SN & S). apply bind_ok in S. destruct S as (l1 & LB & S). injection S as <-.
      apply bind_ok in S'. destruct S' as (? & _ & S'). destruct (chain_update_agree t _ cx b ch ch2 c1 trs ZC E3 CU) as (c2 & CU' & E3'). rewrite CU' in S'. cbn [bind] in S'. apply bind_ok in S'. destruct S' as (t2 & TP' & S'). rewrite FU, FN in S'. cbn [bind] in S'. apply bind_ok in S'. destruct S' as (s2 & SN' & S'). rewrite LB in S'. cbn [bind] in S'. injection S' as <-. pose proof (stats_bit_same _ _ _ _ _ _ _ _ E6 SN SN') as ST.
      assert (N : zlen (told uses) < 8 * max /\ zlen (told uses) < 8 * (Z.min mo mo' + 2)) by (clear - RM; revert RM; unfold fit; destruct (k =? 7); cbn [room]; lia). destruct N as (N & N2).
      assert (TZ : zlen trs = branching mo (told uses)).
      { destruct AS as (_ & _ & _ & WR' & RO & CPT & _). cbn [pr_contexts pr_chain] in *. destruct (chain_update_ok t mo ch cx b T CPT (proj1 (proj2 WR')) (report_state _ _ _ _ _ (lk_rates t T) WR' RO)) as (k1 & t1' & CU9 & _ & TZ & _).
        rewrite CU in CU9. injection CU9 as <- <-. rewrite TZ. rewrite TE in WR'. rewrite (window_all max (told uses) N) in WR'. eapply PredRun.report_nodes; exact WR'. }
      assert (TZ' : zlen trs = branching mo' (told uses)) by (rewrite <- (branching_agree (told uses) mo mo' (proj1 MO) (proj1 MO')) by lia; exact TZ).
      split; [split; [reflexivity|]; split; [reflexivity|]; split; [exact E3'|]; split; [reflexivity|]; split; [reflexivity|exact ST]|]. split; [exact ZC|]. exists (input ++ [(b, trs)]). cbn [pr_tree]. split; [rewrite map_app, MI; reflexivity|]. split; [exact (supplied_snoc mo input b trs WS ltac:(rewrite MI; exact TZ))|]. split; [exact (supplied_snoc mo' input b trs WS' ltac:(rewrite MI; exact TZ'))|].
      assert (OP : open_in (if k =? 7 then Between else Inside (k + 1)) = true -> zlen input mod 8 <> 7) by (destruct (Z.eqb_spec k 7) as [K7|K7]; cbn [open_in]; [discriminate|intros _; lia]).
      split; [exact (tree_at_bit t mo max input tr b trs t1 _ TA TP OP)|exact (tree_at_bit t mo' max' input tr2 b trs t2 _ TA' TP' OP)].
  Qed.
  Lemma twins uses : forall ph, zlen (told uses) < 2 ^ 47 - 1 -> allowed_all Between uses = Some ph -> fit ph (zlen (told uses)) ->
    exists p q acc, use_all md t max mo uses = Ok (p, acc) /\ use_all md t max' mo' uses = Ok (q, acc) /\ akin ph (told uses) p q.
  Proof.
    induction uses as [|u uses IH] using rev_ind; intros ph TL A R.
    - cbn [allowed_all] in A. injection A as <-. pose proof (CALLS [] TL) as H. pose proof (CALLS' [] TL) as H'. cbn [allowed_all] in H, H'. destruct H as (_ & (p & a1) & E & _). destruct H' as (_ & (q & a2) & E' & _).
      exists p, q, []. unfold use_all in *. apply bind_ok in E. destruct E as (p0 & PM & E). cbn [mfold] in E. injection E as -> <-. apply bind_ok in E'. destruct E' as (q0 & PM' & E'). cbn [mfold] in E'. injection E' as -> <-.
      rewrite PM, PM'. cbn [bind mfold]. split; [reflexivity|]. split; [reflexivity|]. unfold predictor_make in PM, PM'. apply bind_ok in PM. destruct PM as (tr & TN & PM). apply bind_ok in PM'. destruct PM' as (tr' & TN' & PM').
      apply bind_ok in PM. destruct PM as (ch & CH & PM). apply bind_ok in PM. destruct PM as (f & F & PM). apply bind_ok in PM. destruct PM as (s & SN & PM). injection PM as <-.
      apply bind_ok in PM'. destruct PM' as (ch' & CH' & PM'). rewrite F in PM'. cbn [bind] in PM'. apply bind_ok in PM'. destruct PM' as (s' & SN' & PM'). injection PM' as <-.
      split; [split; [reflexivity|]; split; [reflexivity|]; split; [exact (chain_new_agree _ _ _ _ _ CH CH')|]; split; [reflexivity|]; split; [reflexivity|exact (stats_new_same _ _ _ _ SN SN')]|]. split; [cbn [pr_contexts]; change (zlen (@nil context_state)) with 0; lia|]. exists []. split; [reflexivity|]. split; [intros [|? ?]; discriminate|]. split; [intros [|? ?]; discriminate|]. cbn [pr_tree open_in]. split; [exists tr, tr|exists tr', tr']; (split; [assumption|split; reflexivity]).
    - rewrite allowed_app in A. destruct (allowed_all Between uses) as [ph0|] eqn:A0; [|discriminate]. cbn [allowed_all] in A. destruct (allowed ph0 u) as [ph1|] eqn:AU; [|discriminate]. injection A as <-.
      assert (TL0 : zlen (told uses) < 2 ^ 47 - 1) by (rewrite told_snoc, zlen_app in TL; pose proof (zlen_nonneg (match u with Update b => [b] | _ => [] end)); lia).
      destruct (IH ph0 TL0 eq_refl ltac:(destruct R as (R1 & R2 & R3); split; [exact (room_before _ _ _ _ _ AU R1)|split; [exact (room_before _ _ _ _ _ AU R2)|exact (room_before _ _ _ _ _ AU R3)]])) as (p & q & acc & E & E' & AK).
      exact (twin_step uses u ph0 ph1 p q acc TL E E' A0 AU AK R).
  Qed.

  (** ** Decoding anything *)
  Definition twin (ph : phase) (n : Z) (p q : predictor) : Prop :=
    exists uses acc, allowed_all Between uses = Some ph /\ zlen (told uses) = n /\ use_all md t max mo uses = Ok (p, acc) /\ use_all md t max' mo' uses = Ok (q, acc).
  Lemma twin_use ph ph' n n' p q u : twin ph n p q -> allowed ph u = Some ph' -> n' = n + match u with Update _ => 1 | _ => 0 end -> n' < 2 ^ 47 - 1 -> fit ph' n' ->
    exists p' q' more, twin ph' n' p' q' /\ (forall acc, use_step md t (p, acc) u = Ok (p', acc ++ more)) /\ (forall acc, use_step md t (q, acc) u = Ok (q', acc ++ more)).
  Proof.
    intros (uses & acc & A & TN & E & E') AL -> B R. set (n' := n + match u with Update _ => 1 | _ => 0 end) in *.
    assert (ZT : zlen (told (uses ++ [u])) = n') by (rewrite told_snoc, zlen_app, TN; destruct u; reflexivity).
    assert (A2 : allowed_all Between (uses ++ [u]) = Some ph') by (rewrite allowed_app, A; cbn [allowed_all]; now rewrite AL).
    destruct (twins (uses ++ [u]) ph' ltac:(lia) A2 ltac:(rewrite ZT; exact R)) as (p' & q' & acc' & EU & EU' & _).
    pose proof (use_all_snoc _ _ _ _ _ _ _ EU) as (st & X & S). rewrite E in X. injection X as <-. pose proof (use_all_snoc _ _ _ _ _ _ _ EU') as (st & X & S'). rewrite E' in X. injection X as <-.
    apply use_step_acc in S. destruct S as (more & EM & S). apply use_step_acc in S'. destruct S' as (more' & EM' & S'). assert (more' = more) by (rewrite EM in EM'; now apply app_inv_head in EM'). subst more'.
    exists p', q', more. split; [exists (uses ++ [u]), acc'; auto|]. split; assumption.
  Qed.
  Lemma decode_bits_twin k : forall a j p q d acc n, twin (Inside j) n p q -> 0 <= j -> j + Z.of_nat (S k) = 8 -> n + Z.of_nat (S k) < 2 ^ 47 - 1 -> fit Between (n + Z.of_nat (S k)) ->
    both (twin Between (n + Z.of_nat (S k))) (let* st := mfold (decode_one md t) (zseq a (S k)) (p, d, acc) in Ok (pack st)) (let* st := mfold (decode_one md t) (zseq a (S k)) (q, d, acc) in Ok (pack st)).
  Proof.
    induction k as [|k IH]; intros a j p q d acc n W J K N R; [change (zseq a 1) with [a]|change (zseq a (S (S k))) with (a :: zseq (a + 1) (S k))]; cbn [mfold]; first [unfold decode_one at 1 3|unfold decode_one];
      destruct (twin_use _ _ n n p q Predict W eq_refl (eq_sym (Z.add_0_r n)) ltac:(lia) ltac:(unfold fit in *; cbn [room] in *; lia)) as (p1 & q1 & more & W1 & S1 & S1'); specialize (S1 []); specialize (S1' []); cbn [use_step fst snd] in S1, S1';
      (destruct (predictor_predict md t p) as [(m & r)|e] eqn:PP; [|discriminate]); (destruct (predictor_predict md t q) as [(m' & r')|e] eqn:PP'; [|discriminate]); cbn [bind fst snd app] in S1, S1'; injection S1 as -> <-; injection S1' as -> ->; cbn [bind];
      (destruct (decode_bit d r) as [(b & d1)|e]; cbn [bind]; [|reflexivity]);
      destruct (twin_use _ _ n (n + 1) p1 q1 (Update b) W1 eq_refl eq_refl ltac:(lia) ltac:(unfold fit in *; destruct (Z.eqb_spec j 7); cbn [room] in *; lia)) as (p2 & q2 & more2 & W2 & S2 & S2'); specialize (S2 []); specialize (S2' []); cbn [use_step fst snd] in S2, S2';
      (destruct (predictor_update md t p1 b) as [x|e] eqn:PU; [|discriminate]); (destruct (predictor_update md t q1 b) as [x'|e] eqn:PU'; [|discriminate]); cbn [bind] in S2, S2' |- *; injection S2 as -> _; injection S2' as -> _.
    - cbn [both pack fst snd]. split; [reflexivity|]. replace (j =? 7) with true in W2 by lia. exact W2.
    - replace (j =? 7) with false in W2 by lia. replace (n + Z.of_nat (S (S k))) with (n + 1 + Z.of_nat (S k)) in * by lia. apply (IH (a + 1) (j + 1)); [exact W2|unfold fit in *; cbn [room] in *; lia..].
  Qed.
  Lemma decode_bytes_twin k : forall a p q d acc n, twin Between n p q -> n + 8 * Z.of_nat k < 2 ^ 47 - 1 -> fit Between (n + 8 * Z.of_nat k) ->
    both (fun _ _ => True) (let* st := mfold (decode_byte md t) (zseq a k) (p, d, acc) in Ok (packz st)) (let* st := mfold (decode_byte md t) (zseq a k) (q, d, acc) in Ok (packz st)).
  Proof.
    induction k as [|k IH]; intros a p q d acc n W N R; cbn [zseq mfold]; [cbn [both packz fst snd bind]; auto|].
    unfold decode_byte at 1 3. destruct (twin_use _ _ n n p q Start W eq_refl (eq_sym (Z.add_0_r n)) ltac:(lia) ltac:(unfold fit in *; cbn [room] in *; lia)) as (p1 & q1 & more & W1 & S1 & S1'). specialize (S1 []). specialize (S1' []). cbn [use_step fst snd] in S1, S1'.
    destruct (predictor_start p) as [x|e]; [|discriminate]. destruct (predictor_start q) as [x'|e]; [|discriminate]. cbn [bind] in S1, S1' |- *. injection S1 as -> _. injection S1' as -> _.
    pose proof (decode_bits_twin 7 0 0 p1 q1 d [] n W1 ltac:(lia) ltac:(lia) ltac:(lia) ltac:(unfold fit in *; cbn [room] in *; lia)) as H.
    destruct (mfold (decode_one md t) (zseq 0 8) (p1, d, [])) as [((p2 & d2) & bs)|e]; destruct (mfold (decode_one md t) (zseq 0 8) (q1, d, [])) as [((q2 & d2') & bs')|e']; cbn [bind both pack fst snd] in H |- *; try contradiction; [|exact H].
    destruct H as (X & W2). injection X as <- <-. apply (IH (a + 1) p2 q2 d2 (acc ++ [number_of bs]) (n + 8)); [exact W2|unfold fit in *; cbn [room] in *; lia..].
  Qed.
  Lemma decompress_twin input n : 8 * Z.of_nat n < 2 ^ 47 - 1 -> fit Between (8 * Z.of_nat n) -> decompress_file md t max mo input n = decompress_file md t max' mo' input n.
  Proof.
    intros N R. unfold decompress_file. assert (Q : fit Between (zlen (told []))) by (change (zlen (told [])) with 0; unfold fit in *; cbn [room] in *; lia). destruct (twins [] Between ltac:(reflexivity) eq_refl Q) as (p & q & acc & E & E' & _).
    assert (W : twin Between 0 p q) by (exists [], acc; auto). unfold use_all in E, E'. apply bind_ok in E. destruct E as (p0 & -> & E). apply bind_ok in E'. destruct E' as (q0 & -> & E'). cbn [mfold] in E, E'. injection E as -> _. injection E' as -> _. cbn [bind].
    destruct (dec_new input) as [d|e]; cbn [bind]; [|reflexivity]. pose proof (decode_bytes_twin n 0 p q d [] 0 W ltac:(lia) ltac:(unfold fit in *; cbn [room] in *; lia)) as H.
    destruct (mfold (decode_byte md t) (zseq 0 n) (p, d, [])) as [((p2 & d2) & bs)|e]; destruct (mfold (decode_byte md t) (zseq 0 n) (q, d, [])) as [((q2 & d2') & bs')|e']; cbn [bind both packz fst snd] in H |- *; try contradiction; [|now rewrite H].
    destruct H as (X & _). injection X as <- <-. reflexivity.
  Qed.
End Orders.

Section Settings.
  Variables (md : mode) (t : luts) (max max' mo mo' : Z).
  Hypothesis L : luts_new = Ok t.
  Hypothesis M : 0 < max <= 2 ^ 31.
  Hypothesis M' : 0 < max' <= 2 ^ 31.
  Hypothesis O : 0 <= mo.
  Hypothesis D : 8 * mo + 7 < 2 ^ 16.
  Hypothesis O' : 0 <= mo'.
  Hypothesis D' : 8 * mo' + 7 < 2 ^ 16.
  Lemma room_min ph n a b : room ph n (a + 2) -> room ph n (b + 2) -> room ph n (Z.min a b + 2).
  Proof. clear. destruct ph; cbn [room]; lia. Qed.
  Lemma settings_same uses p probs : zlen (told uses) < 2 ^ 47 - 1 -> fits uses max -> fits uses max' -> orders_suffice uses mo -> orders_suffice uses mo' -> use_all md t max mo uses = Ok (p, probs) ->
    exists q, use_all md t max' mo' uses = Ok (q, probs) /\ same_to (Z.min mo mo' + 1) p q.
  Proof.
    intros B F F' G G' E. pose proof (calls_ok md t max mo uses L M O D B) as H. unfold orders_suffice, fits in *. destruct (allowed_all Between uses) as [ph|] eqn:A; [|congruence].
    destruct (twins md t max max' mo mo' (luts_ok_of t L) (conj O D) (conj O' D') (fun u => calls_ok md t max mo u L M O D) (fun u => calls_ok md t max' mo' u L M' O' D') (replays_of t mo L O D max M) (replays_of t mo' L O' D' max' M') uses ph B A) as (p1 & q & acc & E1 & E' & AK & _).
    { split; [destruct ph; exact F|]. split; [destruct ph; exact F'|]. apply room_min; [destruct ph; exact G|destruct ph; exact G']. }
    rewrite E in E1. injection E1 as <- <-. exists q. split; [exact E'|exact AK].
  Qed.
  Lemma settings_files bytes : 8 * zlen bytes < 2 ^ 28 -> zlen bytes <= max -> zlen bytes <= max' -> zlen bytes <= mo + 2 -> zlen bytes <= mo' + 2 -> compress_file md t max mo bytes = compress_file md t max' mo' bytes.
  Proof.
    intros B F F' G G'. destruct (compressed md t max mo bytes L M O D B) as (p & probs & out & E & _ & _ & EN & _ & CF). destruct (compressed md t max' mo' bytes L M' O' D' B) as (p' & probs' & out' & E' & _ & _ & EN' & _ & CF').
    assert (ZT : zlen (told (uses_of bytes)) = 8 * zlen bytes) by (rewrite told_file; apply zlen_bits).
    assert (X : forall m, zlen bytes <= m -> fits (uses_of bytes) m).
    { intros m Q. unfold fits. rewrite ZT. clear - Q. destruct (allowed_all Between (uses_of bytes)) as [[| |]|] eqn:A; rewrite ?allowed_file in A; try discriminate; lia. }
    destruct (settings_same (uses_of bytes) p probs) as (q & EQ & _); [rewrite ZT; clear - B; lia|apply X; assumption..|exact E|].
    rewrite EQ in E'. injection E' as _ <-. congruence.
  Qed.
  Lemma settings_streams input n : 8 * Z.of_nat n < 2 ^ 47 - 1 -> Z.of_nat n <= max -> Z.of_nat n <= max' -> Z.of_nat n <= mo + 2 -> Z.of_nat n <= mo' + 2 -> decompress_file md t max mo input n = decompress_file md t max' mo' input n.
  Proof.
    intros N F F' G G'. apply (decompress_twin md t max max' mo mo' (luts_ok_of t L) M M' (conj O D) (conj O' D') (fun u => calls_ok md t max mo u L M O D) (fun u => calls_ok md t max' mo' u L M' O' D') (replays_of t mo L O D max M) (replays_of t mo' L O' D' max' M') input n N).
    unfold fit. cbn [room]. clear - F F' G G'. lia.
  Qed.
  Lemma settings_crossed bytes : 8 * zlen bytes < 2 ^ 28 -> Forall (fun x => 0 <= x < 256) bytes -> zlen bytes <= max -> zlen bytes <= max' -> zlen bytes <= mo + 2 -> zlen bytes <= mo' + 2 ->
    exists out, compress_file md t max mo bytes = Ok out /\ forall tail, decompress_file md t max' mo' (out ++ tail) (length bytes) = Ok (bytes, tail).
  Proof.
    intros B BY F F' G G'. destruct (file_round_trip md t max' mo' bytes L M' O' D' B BY) as (out & C & _ & R). exists out. split; [|exact R]. rewrite settings_files by assumption. exact C.
  Qed.
End Settings.
