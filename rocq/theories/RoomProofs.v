(** Proofs for C66: the size of the window does not matter to a text that fits into it. *)
From Coq Require Import ZifyBool.
From Verif Require Import Base BaseFacts UtilModel UtilSpec UtilProofs CodingModel CodingSpec StateModel EstModel EstProofs LogModel LogProofs LutModel LutProofs ApmModel ApmSpec StatesModel StatesSpec StatesProofs WindowSpec HistModel HistSpec HistProofs FatProofs HistFacts TreeStats TreeModel TreeSpec TreeRun TreeFacts
  PredModel PredKits PredChain PredTree PredSpec PredStats PredRun PredFacts KitSpec KitChain WireSpec WireProofs FileSpec FileProofs RoomSpec.
Ltac Zify.zify_post_hook ::= Z.div_mod_to_equations.

Section Room.
  Variables (md : mode) (t : luts) (max max' mo : Z).
  Hypothesis T : luts_ok t.
  Hypothesis M : 0 < max <= 2 ^ 31.
  Hypothesis M' : 0 < max' <= 2 ^ 31.
  Hypothesis MO : 0 <= mo /\ 8 * mo + 7 < 2 ^ 16.
  Definition calls_of (max : Z) : Prop := forall uses, zlen (told uses) < 2 ^ 47 - 1 ->
    match allowed_all Between uses with
    | Some ph => exists trace st, use_all md t max mo uses = Ok st /\ at_phase md t max mo ph trace st /\ map fst trace = told uses /\ zlen (snd st) = asked uses
    | None => use_all md t max mo uses = Fail EAssert
    end.
  Definition replays (max : Z) : Prop := forall input, zlen input / 8 < max -> well_supplied mo input -> tree_states t max mo 0 input [] = report t mo input.
  Hypothesis CALLS : calls_of max.
  Hypothesis CALLS' : calls_of max'.
  Hypothesis REP : replays max.
  Hypothesis REP' : replays max'.

  Definition open_in (ph : phase) : bool := match ph with Between => false | _ => true end.
  Definition room (ph : phase) (n max : Z) : Prop := match ph with Between => n <= 8 * max | _ => n < 8 * max end.
  Definition alike (ph : phase) (text : list bit) (p q : predictor) : Prop :=
    same_but_tree p q /\ exists input, map fst input = text /\ well_supplied mo input /\ tree_at t max mo input (open_in ph) (pr_tree p) /\ tree_at t max' mo input (open_in ph) (pr_tree q).

  Lemma window_all m text : zlen text < 8 * m -> in_window m text = text.
  Proof. intros L. unfold in_window, forgotten. replace (Z.max 0 (zlen text / 8 + 1 - m)) with 0 by lia. reflexivity. Qed.
  Lemma tree_at_start m input tr tr' : zlen input mod 8 = 0 -> tree_at t m mo input false tr -> tree_start tr = Ok tr' -> tree_at t m mo input true tr'.
  Proof. intros Z0 (s0 & s1 & N & F & S) E. cbn [andb] in S. injection S as ->. exists s0, tr. split; [exact N|]. split; [exact F|]. rewrite Z0. cbn [andb Z.eqb]. exact E. Qed.
  Lemma tree_at_bit m input tr b trs tr' open : tree_at t m mo input true tr -> tree_process t tr b trs = Ok tr' -> (open = true -> zlen input mod 8 <> 7) -> tree_at t m mo (input ++ [(b, trs)]) open tr'.
  Proof.
    intros (s0 & s1 & TN & TF & TSS) TP OP. exists s0, tr'. split; [exact TN|]. split.
    - apply (mfold_snoc _ _ _ _ _ _ TF). unfold feed_step. cbn [andb] in TSS. rewrite TSS. cbn [bind fst snd]. rewrite TP. cbn [bind]. rewrite zlen_app. reflexivity.
    - destruct open; [|reflexivity]. specialize (OP eq_refl). rewrite zlen_app. change (zlen [(b, trs)]) with 1. pose proof (zlen_nonneg input). replace ((zlen input + 1) mod 8 =? 0) with false by lia. reflexivity.
  Qed.
  Lemma twin_step uses u ph ph' p q acc : zlen (told (uses ++ [u])) < 2 ^ 47 - 1 -> use_all md t max mo uses = Ok (p, acc) -> use_all md t max' mo uses = Ok (q, acc) ->
    allowed_all Between uses = Some ph -> allowed ph u = Some ph' -> alike ph (told uses) p q -> room ph' (zlen (told (uses ++ [u]))) max -> room ph' (zlen (told (uses ++ [u]))) max' ->
    exists p' q' acc', use_all md t max mo (uses ++ [u]) = Ok (p', acc') /\ use_all md t max' mo (uses ++ [u]) = Ok (q', acc') /\ alike ph' (told (uses ++ [u])) p' q'.
  Proof.
    intros TL E E' A AL AK RM RM'. assert (A2 : allowed_all Between (uses ++ [u]) = Some ph') by (rewrite allowed_app, A; cbn [allowed_all]; now rewrite AL).
    pose proof (CALLS _ TL) as H. pose proof (CALLS' _ TL) as H'. rewrite A2 in H, H'. destruct H as (trace & (p' & a1) & EU & _). destruct H' as (trace' & (q' & a2) & EU' & _).
    pose proof (use_all_snoc _ _ _ _ _ _ _ EU) as (st & X & S). rewrite E in X. injection X as <-. pose proof (use_all_snoc _ _ _ _ _ _ _ EU') as (st & X & S'). rewrite E' in X. injection X as <-.
    rewrite told_snoc in TL, RM, RM' |- *. rewrite zlen_app in TL, RM, RM'.
    assert (BD : zlen (told uses) < 2 ^ 47 - 1) by (pose proof (zlen_nonneg (match u with Update b => [b] | _ => [] end)); lia).
    pose proof (CALLS _ BD) as H. rewrite A in H. destruct H as (tr0 & st0 & X & (_ & PH) & TE & _). rewrite E in X. injection X as <-. cbn [fst snd] in PH.
    destruct AK as ((E1 & E2 & E3 & E4 & E5 & E6) & input & MI & WS & TA & TA').
    assert (ZI : zlen input = zlen (told uses)) by (rewrite <- MI, zlen_map; reflexivity).
    assert (ZT : zlen tr0 = zlen (told uses)) by (rewrite <- TE, zlen_map; reflexivity).
    destruct p as [lb tr cx ch fi fl ss]. destruct q as [lb2 tr2 cx2 ch2 fi2 fl2 ss2]. cbn [pr_last_bytes pr_contexts pr_chain pr_finalizer pr_final pr_stats pr_tree] in *. subst lb2 cx2 ch2 fi2 fl2 ss2.
    exists p', q', a1. split; [exact EU|]. cut (a2 = a1 /\ alike ph' (told uses ++ match u with Update b => [b] | _ => [] end) p' q'); [intros (-> & AK); split; [exact EU'|exact AK]|]. clear EU EU' E E' CALLS CALLS' A2.
    destruct ph as [|k|k]; destruct u as [| |b]; cbn [allowed] in AL; try discriminate; injection AL as <-; cbn [use_step fst snd open_in room] in *; rewrite ?app_nil_r.
    - apply bind_ok in S. destruct S as (p1 & S & X). injection X as <- <-. apply bind_ok in S'. destruct S' as (q1 & S' & X). injection X as <- <-. split; [reflexivity|].
      unfold predictor_start in S, S'. cbn [pr_last_bytes pr_contexts pr_chain pr_finalizer pr_final pr_stats pr_tree] in S, S'. apply bind_ok in S. destruct S as (? & _ & S). apply bind_ok in S. destruct S as (l1 & LB & S). apply bind_ok in S. destruct S as (t1 & TS & S). apply bind_ok in S. destruct S as (s1 & SS & S). injection S as <-.
      apply bind_ok in S'. destruct S' as (? & _ & S'). apply bind_ok in S'. destruct S' as (l2 & LB' & S'). apply bind_ok in S'. destruct S' as (t2 & TS' & S'). apply bind_ok in S'. destruct S' as (s2 & SS' & S'). injection S' as <-.
      rewrite LB in LB'. injection LB' as <-. rewrite SS in SS'. injection SS' as <-. destruct PH as ((L0 & _) & _). assert (Z0 : zlen input mod 8 = 0) by lia.
      split; [repeat split|]. exists input. cbn [pr_tree open_in]. split; [exact MI|]. split; [exact WS|]. split; [exact (tree_at_start _ _ _ _ Z0 TA TS)|exact (tree_at_start _ _ _ _ Z0 TA' TS')].
    - apply bind_ok in S. destruct S as ((p1 & r1) & S & X). injection X as <- <-. apply bind_ok in S'. destruct S' as ((q1 & r2) & S' & X). injection X as <- <-. cbn [fst snd].
      pose proof (tree_at_after _ _ _ _ _ TA) as AF. pose proof (tree_at_after _ _ _ _ _ TA') as AF'. change (zlen (@nil bit)) with 0 in RM, RM'.
      pose proof (REP input ltac:(rewrite ZI; lia) WS) as R1. pose proof (REP' input ltac:(rewrite ZI; lia) WS) as R2. unfold tree_states in R1, R2. rewrite AF in R1. rewrite AF' in R2. cbn [bind] in R1, R2.
      unfold predictor_predict in S, S'. cbn [pr_last_bytes pr_contexts pr_chain pr_finalizer pr_final pr_stats pr_tree] in S, S'. rewrite R1 in S. rewrite R2 in S'.
      apply bind_ok in S. destruct S as (? & _ & S). apply bind_ok in S. destruct S as (cs & CS & S). apply bind_ok in S. destruct S as (u1 & U & S). apply bind_ok in S. destruct S as ((c1 & m1) & CP & S). apply bind_ok in S. destruct S as ((f1 & z1) & FR & S). injection S as <- <-.
      rewrite CS, U in S'. cbn [bind] in S'. rewrite CP in S'. cbn [bind] in S'. rewrite FR in S'. cbn [bind] in S'. apply bind_ok in S'. destruct S' as (? & _ & S'). injection S' as <- <-.
      split; [reflexivity|]. split; [repeat split|]. exists input. cbn [pr_tree open_in]. auto.
    - apply bind_ok in S. destruct S as (p1 & S & X). injection X as <- <-. apply bind_ok in S'. destruct S' as (q1 & S' & X). injection X as <- <-. split; [reflexivity|]. change (zlen [b]) with 1 in RM, RM'.
      destruct PH as (KZ & r & AS & _). rewrite ZT in KZ.
      unfold predictor_update in S, S'. cbn [pr_last_bytes pr_contexts pr_chain pr_finalizer pr_final pr_stats pr_tree] in S, S'.
      apply bind_ok in S. destruct S as (? & _ & S). apply bind_ok in S. destruct S as ((c1 & trs) & CU & S). apply bind_ok in S. destruct S as (t1 & TP & S). apply bind_ok in S. destruct S as (f1 & FU & S). apply bind_ok in S. destruct S as (fn & FN & S). apply bind_ok in S. destruct S as (s1 & SN & S). apply bind_ok in S. destruct S as (l1 & LB & S). injection S as <-.
      apply bind_ok in S'. destruct S' as (? & _ & S'). rewrite CU in S'. cbn [bind] in S'. apply bind_ok in S'. destruct S' as (t2 & TP' & S'). rewrite FU, FN in S'. cbn [bind] in S'. rewrite SN, LB in S'. cbn [bind] in S'. injection S' as <-.
      assert (N : zlen (told uses) < 8 * max) by (clear - RM; revert RM; destruct (k =? 7); cbn [room]; lia).
      assert (TZ : zlen trs = branching mo (told uses)).
      { destruct AS as (_ & _ & _ & WR' & RO & CPT & _). cbn [pr_contexts pr_chain] in *. destruct (chain_update_ok t mo ch cx b T CPT (proj1 (proj2 WR')) (report_state _ _ _ _ _ (lk_rates t T) WR' RO)) as (k1 & t1' & CU' & _ & TZ & _).
        rewrite CU in CU'. injection CU' as <- <-. rewrite TZ. rewrite TE in WR'. rewrite (window_all max (told uses) N) in WR'. eapply PredRun.report_nodes; exact WR'. }
      split; [repeat split|]. exists (input ++ [(b, trs)]). cbn [pr_tree]. split; [rewrite map_app, MI; reflexivity|]. split.
      { intros before z tk later EQ. destruct later as [|y later _] using rev_ind.
        - apply app_inj_tail in EQ. destruct EQ as (<- & EQ). injection EQ as <- <-. rewrite MI. exact TZ.
        - rewrite app_comm_cons, app_assoc in EQ. apply app_inj_tail in EQ. destruct EQ as (EQ & _). exact (WS _ _ _ _ EQ). }
      assert (OP : open_in (if k =? 7 then Between else Inside (k + 1)) = true -> zlen input mod 8 <> 7) by (destruct (Z.eqb_spec k 7) as [K7|K7]; cbn [open_in]; [discriminate|intros _; lia]).
      split; [exact (tree_at_bit max input tr b trs t1 _ TA TP OP)|exact (tree_at_bit max' input tr2 b trs t2 _ TA' TP' OP)].
  Qed.
  Lemma room_before uses u ph ph' m : allowed ph u = Some ph' -> room ph' (zlen (told (uses ++ [u]))) m -> room ph (zlen (told uses)) m.
  Proof.
    rewrite told_snoc, zlen_app. destruct ph as [|k|k]; destruct u as [| |b]; cbn [allowed]; try discriminate; intros E; injection E as <-; cbn [room]; [change (zlen (@nil bit)) with 0; lia|change (zlen (@nil bit)) with 0; lia|].
    change (zlen [b]) with 1. destruct (k =? 7); cbn [room]; lia.
  Qed.
  Lemma twins uses : forall ph, zlen (told uses) < 2 ^ 47 - 1 -> allowed_all Between uses = Some ph -> room ph (zlen (told uses)) max -> room ph (zlen (told uses)) max' ->
    exists p q acc, use_all md t max mo uses = Ok (p, acc) /\ use_all md t max' mo uses = Ok (q, acc) /\ alike ph (told uses) p q.
  Proof.
    induction uses as [|u uses IH] using rev_ind; intros ph TL A R R'.
    - cbn [allowed_all] in A. injection A as <-. pose proof (CALLS [] TL) as H. pose proof (CALLS' [] TL) as H'. cbn [allowed_all] in H, H'. destruct H as (_ & (p & a1) & E & _). destruct H' as (_ & (q & a2) & E' & _).
      exists p, q, []. unfold use_all in *. apply bind_ok in E. destruct E as (p0 & PM & E). cbn [mfold] in E. injection E as -> <-. apply bind_ok in E'. destruct E' as (q0 & PM' & E'). cbn [mfold] in E'. injection E' as -> <-.
      rewrite PM, PM'. cbn [bind mfold]. split; [reflexivity|]. split; [reflexivity|]. unfold predictor_make in PM, PM'. apply bind_ok in PM. destruct PM as (tr & TN & PM). apply bind_ok in PM'. destruct PM' as (tr' & TN' & PM').
      apply bind_ok in PM. destruct PM as (ch & CH & PM). apply bind_ok in PM. destruct PM as (f & F & PM). apply bind_ok in PM. destruct PM as (s & SN & PM). injection PM as <-.
      rewrite CH in PM'. cbn [bind] in PM'. rewrite F in PM'. cbn [bind] in PM'. rewrite SN in PM'. cbn [bind] in PM'. injection PM' as <-.
      split; [repeat split|]. exists []. split; [reflexivity|]. split; [intros [|? ?]; discriminate|]. cbn [pr_tree open_in]. split; [exists tr, tr|exists tr', tr']; (split; [assumption|split; reflexivity]).
    - rewrite allowed_app in A. destruct (allowed_all Between uses) as [ph0|] eqn:A0; [|discriminate]. cbn [allowed_all] in A. destruct (allowed ph0 u) as [ph1|] eqn:AU; [|discriminate]. injection A as <-.
      assert (TL0 : zlen (told uses) < 2 ^ 47 - 1) by (rewrite told_snoc, zlen_app in TL; pose proof (zlen_nonneg (match u with Update b => [b] | _ => [] end)); lia).
      destruct (IH ph0 TL0 eq_refl (room_before _ _ _ _ _ AU R) (room_before _ _ _ _ _ AU R')) as (p & q & acc & E & E' & AK).
      exact (twin_step uses u ph0 ph1 p q acc TL E E' A0 AU AK R R').
  Qed.

  (** ** Decoding anything *)
  Definition twin (ph : phase) (n : Z) (p q : predictor) : Prop :=
    exists uses acc, allowed_all Between uses = Some ph /\ zlen (told uses) = n /\ use_all md t max mo uses = Ok (p, acc) /\ use_all md t max' mo uses = Ok (q, acc).
  Lemma twin_use ph ph' n n' p q u : twin ph n p q -> allowed ph u = Some ph' -> n' = n + match u with Update _ => 1 | _ => 0 end -> n' < 2 ^ 47 - 1 -> room ph' n' max -> room ph' n' max' ->
    exists p' q' more, twin ph' n' p' q' /\ (forall acc, use_step md t (p, acc) u = Ok (p', acc ++ more)) /\ (forall acc, use_step md t (q, acc) u = Ok (q', acc ++ more)).
  Proof.
    intros (uses & acc & A & TN & E & E') AL -> B R R'. set (n' := n + match u with Update _ => 1 | _ => 0 end) in *.
    assert (ZT : zlen (told (uses ++ [u])) = n') by (rewrite told_snoc, zlen_app, TN; destruct u; reflexivity).
    assert (A2 : allowed_all Between (uses ++ [u]) = Some ph') by (rewrite allowed_app, A; cbn [allowed_all]; now rewrite AL).
    destruct (twins (uses ++ [u]) ph' ltac:(lia) A2 ltac:(rewrite ZT; exact R) ltac:(rewrite ZT; exact R')) as (p' & q' & acc' & EU & EU' & _).
    pose proof (use_all_snoc _ _ _ _ _ _ _ EU) as (st & X & S). rewrite E in X. injection X as <-. pose proof (use_all_snoc _ _ _ _ _ _ _ EU') as (st & X & S'). rewrite E' in X. injection X as <-.
    apply use_step_acc in S. destruct S as (more & EM & S). apply use_step_acc in S'. destruct S' as (more' & EM' & S'). assert (more' = more) by (rewrite EM in EM'; now apply app_inv_head in EM'). subst more'.
    exists p', q', more. split; [exists (uses ++ [u]), acc'; auto|]. split; assumption.
  Qed.
  (** Both fail alike, or give twins. *)
  Definition both {A} (P : predictor -> predictor -> Prop) (x y : res (predictor * A)) : Prop :=
    match x, y with
    | Ok (p, a), Ok (q, b) => a = b /\ P p q
    | Fail e, Fail e' => e = e'
    | _, _ => False
    end.
  Definition pack (st : predictor * decoder * list bit) : predictor * (decoder * list bit) := (fst (fst st), (snd (fst st), snd st)).
  Definition packz (st : predictor * decoder * list Z) : predictor * (decoder * list Z) := (fst (fst st), (snd (fst st), snd st)).
  Lemma decode_bits_twin k : forall a j p q d acc n, twin (Inside j) n p q -> 0 <= j -> j + Z.of_nat (S k) = 8 -> n + Z.of_nat (S k) < 2 ^ 47 - 1 -> n + Z.of_nat (S k) <= 8 * max -> n + Z.of_nat (S k) <= 8 * max' ->
    both (twin Between (n + Z.of_nat (S k))) (let* st := mfold (decode_one md t) (zseq a (S k)) (p, d, acc) in Ok (pack st)) (let* st := mfold (decode_one md t) (zseq a (S k)) (q, d, acc) in Ok (pack st)).
  Proof.
    induction k as [|k IH]; intros a j p q d acc n W J K N R R'; [change (zseq a 1) with [a]|change (zseq a (S (S k))) with (a :: zseq (a + 1) (S k))]; cbn [mfold]; first [unfold decode_one at 1 3|unfold decode_one];
      destruct (twin_use _ _ n n p q Predict W eq_refl (eq_sym (Z.add_0_r n)) ltac:(lia) ltac:(cbn [room]; lia) ltac:(cbn [room]; lia)) as (p1 & q1 & more & W1 & S1 & S1'); specialize (S1 []); specialize (S1' []); cbn [use_step fst snd] in S1, S1';
      (destruct (predictor_predict md t p) as [(m & r)|e] eqn:PP; [|discriminate]); (destruct (predictor_predict md t q) as [(m' & r')|e] eqn:PP'; [|discriminate]); cbn [bind fst snd app] in S1, S1'; injection S1 as -> <-; injection S1' as -> ->; cbn [bind];
      (destruct (decode_bit d r) as [(b & d1)|e]; cbn [bind]; [|reflexivity]);
      destruct (twin_use _ _ n (n + 1) p1 q1 (Update b) W1 eq_refl eq_refl ltac:(lia) ltac:(destruct (Z.eqb_spec j 7); cbn [room]; lia) ltac:(destruct (Z.eqb_spec j 7); cbn [room]; lia)) as (p2 & q2 & more2 & W2 & S2 & S2'); specialize (S2 []); specialize (S2' []); cbn [use_step fst snd] in S2, S2';
      (destruct (predictor_update md t p1 b) as [x|e] eqn:PU; [|discriminate]); (destruct (predictor_update md t q1 b) as [x'|e] eqn:PU'; [|discriminate]); cbn [bind] in S2, S2' |- *; injection S2 as -> _; injection S2' as -> _.
    - cbn [both pack fst snd]. split; [reflexivity|]. replace (j =? 7) with true in W2 by lia. exact W2.
    - replace (j =? 7) with false in W2 by lia. replace (n + Z.of_nat (S (S k))) with (n + 1 + Z.of_nat (S k)) in * by lia. apply (IH (a + 1) (j + 1)); [exact W2|lia..].
  Qed.
  Lemma decode_bytes_twin k : forall a p q d acc n, twin Between n p q -> n + 8 * Z.of_nat k < 2 ^ 47 - 1 -> n + 8 * Z.of_nat k <= 8 * max -> n + 8 * Z.of_nat k <= 8 * max' ->
    both (fun _ _ => True) (let* st := mfold (decode_byte md t) (zseq a k) (p, d, acc) in Ok (packz st)) (let* st := mfold (decode_byte md t) (zseq a k) (q, d, acc) in Ok (packz st)).
  Proof.
    induction k as [|k IH]; intros a p q d acc n W N R R'; cbn [zseq mfold]; [cbn [both packz fst snd bind]; auto|].
    unfold decode_byte at 1 3. destruct (twin_use _ _ n n p q Start W eq_refl (eq_sym (Z.add_0_r n)) ltac:(lia) ltac:(cbn [room]; lia) ltac:(cbn [room]; lia)) as (p1 & q1 & more & W1 & S1 & S1'). specialize (S1 []). specialize (S1' []). cbn [use_step fst snd] in S1, S1'.
    destruct (predictor_start p) as [x|e]; [|discriminate]. destruct (predictor_start q) as [x'|e]; [|discriminate]. cbn [bind] in S1, S1' |- *. injection S1 as -> _. injection S1' as -> _.
    pose proof (decode_bits_twin 7 0 0 p1 q1 d [] n W1 ltac:(lia) ltac:(lia) ltac:(lia) ltac:(lia) ltac:(lia)) as H.
    destruct (mfold (decode_one md t) (zseq 0 8) (p1, d, [])) as [((p2 & d2) & bs)|e]; destruct (mfold (decode_one md t) (zseq 0 8) (q1, d, [])) as [((q2 & d2') & bs')|e']; cbn [bind both pack fst snd] in H |- *; try contradiction; [|exact H].
    destruct H as (X & W2). injection X as <- <-. apply (IH (a + 1) p2 q2 d2 (acc ++ [number_of bs]) (n + 8)); [exact W2|lia..].
  Qed.
  Lemma decompress_twin input n : 8 * Z.of_nat n < 2 ^ 47 - 1 -> Z.of_nat n <= max -> Z.of_nat n <= max' -> decompress_file md t max mo input n = decompress_file md t max' mo input n.
  Proof.
    intros N R R'. unfold decompress_file. assert (Q : room Between (zlen (told [])) max) by (change (0 <= 8 * max); lia). assert (Q' : room Between (zlen (told [])) max') by (change (0 <= 8 * max'); lia). destruct (twins [] Between ltac:(reflexivity) eq_refl Q Q') as (p & q & acc & E & E' & _).
    assert (W : twin Between 0 p q) by (exists [], acc; auto). unfold use_all in E, E'. apply bind_ok in E. destruct E as (p0 & -> & E). apply bind_ok in E'. destruct E' as (q0 & -> & E'). cbn [mfold] in E, E'. injection E as -> _. injection E' as -> _. cbn [bind].
    destruct (dec_new input) as [d|e]; cbn [bind]; [|reflexivity]. pose proof (decode_bytes_twin n 0 p q d [] 0 W ltac:(lia) ltac:(lia) ltac:(lia)) as H.
    destruct (mfold (decode_byte md t) (zseq 0 n) (p, d, [])) as [((p2 & d2) & bs)|e]; destruct (mfold (decode_byte md t) (zseq 0 n) (q, d, [])) as [((q2 & d2') & bs')|e']; cbn [bind both packz fst snd] in H |- *; try contradiction; [|now rewrite H].
    destruct H as (X & _). injection X as <- <-. reflexivity.
  Qed.
End Room.

Section Real.
  Variables (md : mode) (t : luts) (max max' mo : Z).
  Hypothesis L : luts_new = Ok t.
  Hypothesis M : 0 < max <= 2 ^ 31.
  Hypothesis M' : 0 < max' <= 2 ^ 31.
  Hypothesis O : 0 <= mo.
  Hypothesis D : 8 * mo + 7 < 2 ^ 16.
  Lemma replays_of m : 0 < m <= 2 ^ 31 -> replays t mo m.
  Proof. intros Q input F S. assert (Z0 : 0 <= 0 < m) by (clear - Q; lia). exact (tree_replays t m mo 0 input L Q Z0 O D F S). Qed.
  Lemma calls_same uses p probs : zlen (told uses) < 2 ^ 47 - 1 -> fits uses max -> fits uses max' -> use_all md t max mo uses = Ok (p, probs) ->
    exists q, use_all md t max' mo uses = Ok (q, probs) /\ same_but_tree p q.
  Proof.
    intros B F F' E. pose proof (calls_ok md t max mo uses L M O D B) as H. unfold fits in *. destruct (allowed_all Between uses) as [ph|] eqn:A; [|congruence].
    destruct (twins md t max max' mo (luts_ok_of t L) (fun u => calls_ok md t max mo u L M O D) (fun u => calls_ok md t max' mo u L M' O D) (replays_of max M) (replays_of max' M') uses ph B A) as (p1 & q & acc & E1 & E' & AK & _).
    { destruct ph; exact F. } { destruct ph; exact F'. }
    rewrite E in E1. injection E1 as <- <-. exists q. split; [exact E'|exact AK].
  Qed.
  Lemma files_same bytes : 8 * zlen bytes < 2 ^ 28 -> zlen bytes <= max -> zlen bytes <= max' -> compress_file md t max mo bytes = compress_file md t max' mo bytes.
  Proof.
    intros B F F'. destruct (compressed md t max mo bytes L M O D B) as (p & probs & out & E & _ & _ & EN & _ & CF). destruct (compressed md t max' mo bytes L M' O D B) as (p' & probs' & out' & E' & _ & _ & EN' & _ & CF').
    assert (ZT : zlen (told (uses_of bytes)) = 8 * zlen bytes) by (rewrite told_file; apply zlen_bits).
    destruct (calls_same (uses_of bytes) p probs) as (q & EQ & _); [rewrite ZT; clear - B; lia| | |exact E|].
    { unfold fits. rewrite ZT. clear - F. destruct (allowed_all Between (uses_of bytes)) as [[| |]|] eqn:A; rewrite ?allowed_file in A; try discriminate; lia. }
    { unfold fits. rewrite ZT. clear - F'. destruct (allowed_all Between (uses_of bytes)) as [[| |]|] eqn:A; rewrite ?allowed_file in A; try discriminate; lia. }
    rewrite EQ in E'. injection E' as _ <-. congruence.
  Qed.
  Lemma streams_same input n : 8 * Z.of_nat n < 2 ^ 47 - 1 -> Z.of_nat n <= max -> Z.of_nat n <= max' -> decompress_file md t max mo input n = decompress_file md t max' mo input n.
  Proof. exact (decompress_twin md t max max' mo (luts_ok_of t L) M M' (fun u => calls_ok md t max mo u L M O D) (fun u => calls_ok md t max' mo u L M' O D) (replays_of max M) (replays_of max' M') input n). Qed.
  Lemma crossed bytes : 8 * zlen bytes < 2 ^ 28 -> Forall (fun x => 0 <= x < 256) bytes -> zlen bytes <= max -> zlen bytes <= max' ->
    exists out, compress_file md t max mo bytes = Ok out /\ forall tail, decompress_file md t max' mo (out ++ tail) (length bytes) = Ok (bytes, tail).
  Proof.
    intros B BY F F'. destruct (file_round_trip md t max' mo bytes L M' O D B BY) as (out & C & _ & R). exists out. split; [|exact R]. rewrite files_same by assumption. exact C.
  Qed.
End Real.
