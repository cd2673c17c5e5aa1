(** Calls of a source of histories in any order. *)
From Verif Require Import Base BaseFacts WindowModel WindowSpec WindowProofs StatesModel StatesSpec StatesProofs HistModel HistSpec HistProofs HistFacts FatProofs
  TreeModel TreeSpec TreeRun TreeFacts ProtoSpec.
Ltac Zify.zify_post_hook ::= Z.div_mod_to_equations.

Section Source.
  Variables (S : Type) (start : S -> res S) (gather : S -> list context_state -> res (list context_state)) (process : S -> bit -> list cost_trackers -> res S).
  Variables (I J : fed -> S -> Prop) (room quiet : Z -> bool) (right : fed -> list context_state -> Prop) (supply : fed -> Prop).
  Hypothesis SP : forall i l, supply (i ++ l) -> supply i.
  Hypothesis ST : forall i s, I i s -> zlen i mod 8 = 0 -> room (zlen i) = true -> exists s', start s = Ok s' /\ J i s'.
  Hypothesis SK : forall i s, I i s -> zlen i mod 8 <> 0 -> J i s.
  Hypothesis PR : forall i s b c, J i s -> supply (i ++ [(b, c)]) -> exists s', process s b c = Ok s' /\ I (i ++ [(b, c)]) s'.
  Hypothesis GO : forall i s, J i s -> supply i -> exists items, gather s [] = Ok items /\ right i items.
  Hypothesis GQ : forall i s, I i s -> zlen i mod 8 = 0 -> quiet (zlen i) = true -> gather s [] = Ok [].
  Definition phase (i : fed) (open : bool) (s : S) : Prop := if open then J i s else I i s /\ zlen i mod 8 = 0.
  Notation run := (mfold (act start gather process)).

  Lemma phase_told i s b c : I (i ++ [(b, c)]) s -> phase (i ++ [(b, c)]) (negb ((zlen i + 1) mod 8 =? 0)) s.
  Proof.
    intros H. assert (L : zlen (i ++ [(b, c)]) = zlen i + 1) by (rewrite zlen_app; reflexivity).
    destruct (Z.eqb_spec ((zlen i + 1) mod 8) 0) as [E|N]; cbn [negb phase]; [split; [exact H|now rewrite L]|]. apply SK; [exact H|now rewrite L].
  Qed.
  Lemma run_good asks : forall i open s reports, phase i open s -> supply (i ++ heard asks) -> accepted room quiet (zlen i) open asks = true ->
    exists s' more, run asks (s, reports) = Ok (s', reports ++ more) /\ Forall2 (answered right) (questions i open asks) more /\
      phase (i ++ heard asks) (open_after (zlen i) open asks) s'.
  Proof.
    induction asks as [|a asks IH]; intros i open s reports P SU A.
    { exists s, []. cbn [mfold questions heard flat_map open_after]. rewrite !app_nil_r. auto. }
    destruct a as [| |b c]; cbn [accepted mfold act questions open_after] in *.
    - apply andb_prop in A as (A & A2). apply andb_prop in A as (A0 & A1). destruct open; [discriminate|]. destruct P as (P & L0).
      destruct (ST i s P L0 A1) as (s1 & -> & J1). cbn [bind]. exact (IH i true s1 reports J1 SU A2).
    - apply andb_prop in A as (A1 & A2).
      assert (G : exists items, gather s [] = Ok items /\ answered right (i, open) items).
      { destruct open; [exact (GO i s P (SP _ _ SU))|]. exists []. split; [exact (GQ i s (proj1 P) (proj2 P) A1)|reflexivity]. }
      destruct G as (items & -> & R). cbn [bind]. destruct (IH i open s (reports ++ [items]) P SU A2) as (s' & more & E & F & Q).
      exists s', (items :: more). rewrite E. split; [now rewrite <- app_assoc|]. split; [now constructor|exact Q].
    - apply andb_prop in A as (-> & A2). change (heard (Tell b c :: asks)) with ((b, c) :: heard asks) in *.
      assert (EQ : i ++ (b, c) :: heard asks = (i ++ [(b, c)]) ++ heard asks) by (rewrite <- app_assoc; reflexivity).
      rewrite EQ in *. destruct (PR i s b c P (SP _ _ SU)) as (s1 & -> & I1). cbn [bind].
      assert (L : zlen (i ++ [(b, c)]) = zlen i + 1) by (rewrite zlen_app; reflexivity). rewrite <- L in A2.
      destruct (IH (i ++ [(b, c)]) _ s1 reports (phase_told i s1 b c I1) SU) as (s' & more & E & F & Q); [rewrite <- L in *; exact A2|].
      exists s', more. rewrite E. split; [reflexivity|]. rewrite <- L in *. split; [exact F|exact Q].
  Qed.

  Hypothesis SF : forall i s, I i s -> zlen i mod 8 = 0 -> room (zlen i) = false -> exists e, start s = Fail e.
  Hypothesis SO : forall i s, J i s -> exists e, start s = Fail e.
  Hypothesis PI : forall i s b c, I i s -> zlen i mod 8 = 0 -> exists e, process s b c = Fail e.
  Hypothesis GI : forall i s, I i s -> zlen i mod 8 = 0 -> quiet (zlen i) = false -> exists e, gather s [] = Fail e.
  Lemma run_bad asks : forall i open s reports, phase i open s -> supply (i ++ heard asks) -> accepted room quiet (zlen i) open asks = false ->
    exists e, run asks (s, reports) = Fail e.
  Proof.
    induction asks as [|a asks IH]; intros i open s reports P SU A; [discriminate|].
    destruct a as [| |b c]; cbn [accepted mfold act] in *.
    - destruct open; [destruct (SO i s P) as (e & ->); exists e; reflexivity|]. destruct P as (P & L0). destruct (room (zlen i)) eqn:R; cbn [negb andb] in A.
      + destruct (ST i s P L0 R) as (s1 & -> & J1). cbn [bind]. exact (IH i true s1 reports J1 SU A).
      + destruct (SF i s P L0 R) as (e & ->). exists e. reflexivity.
    - destruct open; cbn [orb andb] in A.
      + destruct (GO i s P (SP _ _ SU)) as (items & -> & _). cbn [bind]. exact (IH i true s _ P SU A).
      + destruct (quiet (zlen i)) eqn:Q; cbn [andb] in A.
        * rewrite (GQ i s (proj1 P) (proj2 P) Q). cbn [bind]. exact (IH i false s _ P SU A).
        * destruct (GI i s (proj1 P) (proj2 P) Q) as (e & ->). exists e. reflexivity.
    - destruct open; cbn [andb] in A; [|destruct (PI i s b c (proj1 P) (proj2 P)) as (e & ->); exists e; reflexivity].
      change (heard (Tell b c :: asks)) with ((b, c) :: heard asks) in *.
      assert (EQ : i ++ (b, c) :: heard asks = (i ++ [(b, c)]) ++ heard asks) by (rewrite <- app_assoc; reflexivity).
      rewrite EQ in *. destruct (PR i s b c P (SP _ _ SU)) as (s1 & -> & I1). cbn [bind].
      assert (L : zlen (i ++ [(b, c)]) = zlen i + 1) by (rewrite zlen_app; reflexivity).
      apply (IH (i ++ [(b, c)]) _ s1 reports (phase_told i s1 b c I1) SU). rewrite L. exact A.
  Qed.
End Source.

(** ** Trackers *)
Lemma supplied_before max max_order i l : supplied max max_order (i ++ l) -> supplied max max_order i.
Proof. intros S before b c later E. apply (S before b c (later ++ l)). rewrite E, <- app_assoc. reflexivity. Qed.
Lemma well_supplied_before max_order i l : well_supplied max_order (i ++ l) -> well_supplied max_order i.
Proof. intros S before b c later E. apply (S before b c (later ++ l)). rewrite E, <- app_assoc. reflexivity. Qed.
Lemma default_before i l : all_default (i ++ l) -> all_default i. Proof. intros D. apply Forall_app in D. apply D. Qed.

(** ** The tree *)
Section Tree.
  Variables (t : luts) (max shift max_order : Z).
  Hypothesis LUTS : luts_new = Ok t.
  Hypothesis M : 0 < max <= 2 ^ 31.
  Hypothesis SH : 0 <= shift < max.
  Hypothesis MO : 0 <= max_order /\ 8 * max_order + 7 < 2 ^ 16.
  Definition tree_I (i : fed) (s : source) : Prop := any_idle t max shift max_order (map fst i) s.
  Definition tree_J (i : fed) (s : source) : Prop := any_ready t max shift max_order (map fst i) s.
  Definition tree_right (i : fed) (items : list context_state) : Prop := window_report (lt_rates t) max_order (forgotten max (map fst i)) (in_window max (map fst i)) items.
  Lemma tree_started i s : tree_I i s -> zlen i mod 8 = 0 -> exists s', tree_start s = Ok s' /\ tree_J i s'.
  Proof using LUTS M SH MO. intros H Z0. apply (any_start t max shift max_order M SH MO (map fst i) s H). rewrite HistProofs.zlen_map. exact Z0. Qed.
  Lemma tree_open i s : tree_I i s -> zlen i mod 8 <> 0 -> tree_J i s.
  Proof using. intros (trk & H) N. exists trk. unfold tree_idle in H. rewrite HistProofs.zlen_map in H. now rewrite (proj2 (Z.eqb_neq _ _) N) in H. Qed.
  Lemma tree_told i s b c : tree_J i s -> supplied max max_order (i ++ [(b, c)]) -> exists s', tree_process t s b c = Ok s' /\ tree_I (i ++ [(b, c)]) s'.
  Proof using LUTS M SH MO.
    intros H S. destruct (any_process t max shift max_order (all_of t LUTS) M SH MO (map fst i) s b c H (S i b c [] eq_refl)) as (s' & E & I).
    exists s'. split; [exact E|]. unfold tree_I. rewrite map_app. exact I.
  Qed.
  Lemma tree_asked i s : tree_J i s -> supplied max max_order i -> exists items, tree_gather s [] = Ok items /\ tree_right i items.
  Proof using LUTS M SH MO. intros H _. exact (any_gather t max shift max_order (all_of t LUTS) M MO (map fst i) s H). Qed.
  Lemma tree_at_rest i s : tree_I i s -> zlen i mod 8 = 0 -> ts_bit_index s = -1.
  Proof using. intros (trk & H) Z0. unfold tree_idle in H. rewrite HistProofs.zlen_map, Z0 in H. apply H. Qed.
  Lemma tree_at_work i s : tree_J i s -> 0 <= ts_bit_index s.
  Proof using. clear LUTS. intros (trk & H). destruct H as (_ & _ & -> & _). lia. Qed.
  Theorem tree_protocol asks : supplied max max_order (heard asks) ->
    let run := (let* s := tree_new max max_order shift in mfold (act tree_start tree_gather (tree_process t)) asks (s, [])) in
    if accepted always never 0 false asks
    then exists s reports, run = Ok (s, reports) /\ Forall2 (answered tree_right) (questions [] false asks) reports
    else exists e, run = Fail e.
  Proof using LUTS M SH MO.
    intros S run. unfold run. clear run. destruct (any_new t max shift max_order M SH MO) as (s & -> & I0). cbn [bind].
    assert (P : phase source tree_I tree_J [] false s) by (split; [exact I0|reflexivity]).
    destruct (accepted always never 0 false asks) eqn:A.
    - destruct (run_good source tree_start tree_gather (tree_process t) tree_I tree_J always never tree_right (supplied max max_order)
        (supplied_before max max_order) (fun i s H Z0 _ => tree_started i s H Z0) tree_open tree_told tree_asked ltac:(discriminate) asks [] false s [] P S A) as (s' & more & E & F & _).
      exists s', more. split; [exact E|exact F].
    - refine (run_bad source tree_start tree_gather (tree_process t) tree_I tree_J always never tree_right (supplied max max_order)
        (supplied_before max max_order) (fun i s H Z0 _ => tree_started i s H Z0) tree_open tree_told tree_asked ltac:(discriminate) ltac:(discriminate) _ _ _ asks [] false s [] P S A).
      + intros i s0 H. pose proof (tree_at_work i s0 H). clear - H0. unfold tree_start. replace (ts_bit_index s0 =? -1) with false by lia. eexists. reflexivity.
      + intros i s0 b c H Z0. unfold tree_process. rewrite (tree_at_rest i s0 H Z0). eexists. reflexivity.
      + intros i s0 H Z0 _. unfold tree_gather. rewrite (tree_at_rest i s0 H Z0). eexists. reflexivity.
  Qed.
End Tree.

(** ** The exhaustive source *)
Section Naive.
  Variables (t : luts) (max max_order : Z).
  Hypothesis LUTS : luts_new = Ok t.
  Hypothesis M : 0 < max < 2 ^ 63.
  Hypothesis MO : 0 <= max_order < 2 ^ 64 - 1.
  Definition naive_I (i : fed) (n : naive) : Prop := naive_idle max max_order (map fst i) n.
  Definition naive_J (i : fed) (n : naive) : Prop := naive_ready max max_order (map fst i) n.
  Definition naive_right (i : fed) (items : list context_state) : Prop := true_report (lt_rates t) max_order (map fst i) items.
  Lemma naive_started i s : naive_I i s -> zlen i mod 8 = 0 -> window_room max (zlen i) = true -> exists s', naive_start s = Ok s' /\ naive_J i s'.
  Proof using. clear LUTS. intros H Z0 R. unfold window_room in R. apply naive_start_ok; rewrite ?HistProofs.zlen_map; [exact H|exact Z0|lia]. Qed.
  Lemma naive_open i s : naive_I i s -> zlen i mod 8 <> 0 -> naive_J i s.
  Proof using.
    clear LUTS. intros (bytes & T & ID & MX & BI) N. exists bytes. unfold idle, ready in *. rewrite HistProofs.zlen_map in *. rewrite (proj2 (Z.eqb_neq _ _) N) in BI.
    split; [exact T|]. split; [lia|]. split; [exact MX|exact BI].
  Qed.
  Lemma naive_told i s b c : naive_J i s -> all_default (i ++ [(b, c)]) -> exists s', naive_process s b c = Ok s' /\ naive_I (i ++ [(b, c)]) s'.
  Proof using.
    intros H D. apply Forall_app in D as (_ & D). inversion D as [|x l D1 _ Q]. destruct (naive_process_ok max max_order (map fst i) s b c H D1) as (s' & E & I).
    exists s'. split; [exact E|]. unfold naive_I. rewrite map_app. exact I.
  Qed.
  Lemma naive_asked i s : naive_J i s -> all_default i -> exists items, naive_gather t s [] = Ok items /\ naive_right i items.
  Proof using LUTS MO.
    intros H D. pose proof H as (bytes & _ & _ & MX & _). destruct (report_true t max_order i LUTS (proj1 MO)) as (items & E & R). exists items. split; [|exact R].
    unfold naive_gather. rewrite MX, add_ok by (clear LUTS; ib; lia). cbn [bind]. rewrite range_0. rewrite (naive_orders_ok t max max_order i s H D).
    - fold (report t max_order i). rewrite E. reflexivity.
    - clear LUTS. pose proof (zlen_nonneg (map fst i)). lia.
  Qed.
  (** Without an open byte, the search ends at the last complete byte, and looks for the bit at an index that does not exist. *)
  Lemma naive_early i s : naive_I i s -> zlen i mod 8 = 0 -> if nothing_to_see max (zlen i) then naive_gather t s [] = Ok [] else exists e, naive_gather t s [] = Fail e.
  Proof using MO.
    clear LUTS M. intros (bytes & T & ID & MX & BI) Z0. pose proof T as (R & _). unfold idle in ID. rewrite HistProofs.zlen_map in ID, BI. rewrite Z0 in BI. cbn [Z.eqb] in BI.
    pose proof (zlen_nonneg i) as NI. pose proof (rp_m _ _ _ _ R) as RM.
    unfold naive_gather. rewrite MX, add_ok by (ib; lia). cbn [bind]. rewrite range_0. replace (Z.to_nat (max_order + 1)) with (S (Z.to_nat max_order)) by lia. cbn [zseq naive_orders].
    assert (C : w_cursor (nv_input s) = if zlen i =? 0 then max - 1 else zlen i / 8 - 1).
    { rewrite (rp_cursor _ _ _ _ R). destruct (Z.eqb_spec (zlen i) 0) as [E|N].
      - replace (zlen bytes) with 0 by lia. unfold place. symmetry. apply (Z.mod_unique _ _ (-1)); lia.
      - rewrite place_0; pose proof (rp_fits _ _ _ _ R); lia. }
    set (c := w_cursor (nv_input s)) in *. assert (CR : 0 <= c < max) by (pose proof (rp_fits _ _ _ _ R); destruct (Z.eqb_spec (zlen i) 0); lia).
    assert (SU : index_subtract (nv_input s) c 0 = Ok c).
    { unfold index_subtract. replace (0 <=? c) with true by lia. rewrite sub_ok by (ib; lia). f_equal. lia. }
    rewrite SU. cbn [bind]. unfold nothing_to_see.
    destruct (Z.eqb_spec c 0) as [E0|N0].
    - replace (if zlen i =? 0 then max =? 1 else zlen i =? 8) with true by (destruct (Z.eqb_spec (zlen i) 0); lia). rewrite E0. reflexivity.
    - replace (if zlen i =? 0 then max =? 1 else zlen i =? 8) with false by (destruct (Z.eqb_spec (zlen i) 0); lia).
      rewrite range_0. replace (Z.to_nat c) with (S (Z.to_nat (c - 1))) by lia. cbn [zseq mfold]. unfold naive_scan. fold c. rewrite SU. cbn [bind]. rewrite BI.
      unfold compare_for_equal_prefix. rewrite (rp_max _ _ _ _ R). rewrite add_ok by (ib; lia). cbn [bind]. replace (Z.max 0 c + 0 <? max) with true by lia.
      unfold compare_straight. change (Z.to_nat 0) with 0%nat. cbn [equal_bytes bind]. rewrite !add_ok by (ib; lia). cbn [bind].
      replace (Z.to_nat (7 - wrap usize (-1))) with 0%nat by reflexivity. cbn [equal_bits bind].
      unfold index_add. rewrite add_ok by (ib; lia). cbn [bind]. rewrite (rp_max _ _ _ _ R). replace (max <=? 0 + 0) with false by lia. cbn [bind]. unfold window_bit.
      destruct (byte_at (nv_input s) (0 + 0)) as [x|e]; cbn [bind]; [|exists e; reflexivity]. eexists. reflexivity.
  Qed.
  Theorem naive_protocol asks : all_default (heard asks) ->
    let run := (let* s := naive_new max max_order in mfold (act naive_start (naive_gather t) naive_process) asks (s, [])) in
    if accepted (window_room max) (nothing_to_see max) 0 false asks
    then exists s reports, run = Ok (s, reports) /\ Forall2 (answered naive_right) (questions [] false asks) reports
    else exists e, run = Fail e.
  Proof using LUTS M MO.
    intros S run. unfold run. clear run. destruct (tape_new max M) as (w & E & T). unfold naive_new. rewrite E. cbn [bind].
    assert (P : phase naive naive_I naive_J [] false (mkNaive w (-1) max_order)).
    { split; [|reflexivity]. exists []. split; [exact T|]. split; [reflexivity|]. split; reflexivity. }
    assert (Q : forall i s, naive_I i s -> zlen i mod 8 = 0 -> nothing_to_see max (zlen i) = true -> naive_gather t s [] = Ok []).
    { intros i s H Z0 N. pose proof (naive_early i s H Z0) as X. rewrite N in X. exact X. }
    destruct (accepted (window_room max) (nothing_to_see max) 0 false asks) eqn:A.
    - destruct (run_good naive naive_start (naive_gather t) naive_process naive_I naive_J (window_room max) (nothing_to_see max) naive_right all_default
        default_before naive_started naive_open naive_told naive_asked Q asks [] false _ [] P S A) as (s' & more & E' & F & _).
      exists s', more. split; [exact E'|exact F].
    - refine (run_bad naive naive_start (naive_gather t) naive_process naive_I naive_J (window_room max) (nothing_to_see max) naive_right all_default
        default_before naive_started naive_open naive_told naive_asked Q _ _ _ _ asks [] false _ [] P S A).
      + intros i s (bytes & T' & ID & MX & BI) Z0 RM. clear LUTS. unfold idle in ID. unfold window_room in RM. rewrite HistProofs.zlen_map in *. rewrite Z0 in BI. cbn [Z.eqb] in BI.
        unfold naive_start. rewrite BI. cbn [Z.eqb Pos.eqb assert_ guard bind]. pose proof T' as (R & _). pose proof (rp_fits _ _ _ _ R).
        rewrite (rp_size _ _ _ _ R), (rp_max _ _ _ _ R). replace (zlen bytes =? max) with true by lia. eexists. reflexivity.
      + intros i s (bytes & _ & _ & _ & BI). clear LUTS. unfold naive_start. rewrite BI. replace (7 - zlen (map fst i) mod 8 =? -1) with false by lia. eexists. reflexivity.
      + intros i s b c (bytes & _ & _ & _ & BI) Z0. rewrite HistProofs.zlen_map, Z0 in BI. cbn [Z.eqb] in BI. unfold naive_process. rewrite BI.
        destruct (forallb (ct_eqb ct_default) c); cbn [assert_ guard bind]; eexists; reflexivity.
      + intros i s H Z0 N. pose proof (naive_early i s H Z0) as X. rewrite N in X. exact X.
  Qed.
End Naive.

(** ** The hash-map source *)
Section Fat.
  Variables (t : luts) (hash : hasher) (max max_order : Z).
  Hypothesis LUTS : luts_new = Ok t.
  Hypothesis M : 0 < max < 2 ^ 63.
  Hypothesis MO : 0 <= max_order /\ 8 * (max_order + 1) < 2 ^ 64.
  Notation fat_I := (fat_idle t hash max max_order).
  Notation fat_J := (fat_ready t hash max max_order).
  Definition fat_right (i : fed) (items : list context_state) : Prop := true_report (lt_rates t) max_order (map fst i) items.
  Lemma fat_started i s : fat_I i s -> zlen i mod 8 = 0 -> window_room max (zlen i) = true -> exists s', fat_start s = Ok s' /\ fat_J i s'.
  Proof using. clear LUTS. intros H Z0 R. unfold window_room in R. apply fat_start_ok; [exact H|exact Z0|lia]. Qed.
  Lemma fat_open i s : fat_I i s -> zlen i mod 8 <> 0 -> fat_J i s.
  Proof using.
    clear LUTS. intros (bytes & W & ID & R) N. exists bytes. unfold idle, ready in *. rewrite HistProofs.zlen_map in *. split; [exact W|]. split; [lia|exact R].
  Qed.
  Lemma fat_told i s b c : fat_J i s -> well_supplied max_order (i ++ [(b, c)]) -> exists s', fat_process t hash s b c = Ok s' /\ fat_I (i ++ [(b, c)]) s'.
  Proof using LUTS. intros H S. exact (fat_process_ok t hash (all_states t LUTS) max max_order i s b c H (S i b c [] eq_refl)). Qed.
  Lemma fat_asked i s : fat_J i s -> well_supplied max_order i -> exists items, fat_gather hash s [] = Ok items /\ fat_right i items.
  Proof using LUTS MO.
    intros H _. destruct (report_true t max_order i LUTS (proj1 MO)) as (items & E & R). exists items. split; [|exact R].
    rewrite (fat_gather_ok t hash (all_states t LUTS) max max_order i s [] H), E. reflexivity.
  Qed.
  Notation run := (fun asks => let* s := fat_new max max_order in mfold (act fat_start (fat_gather hash) (fat_process t hash)) asks (s, [])).
  Theorem fat_protocol asks : well_supplied max_order (heard asks) -> accepted (window_room max) never 0 false asks = true ->
    exists s reports, run asks = Ok (s, reports) /\ Forall2 (answered fat_right) (questions [] false asks) reports /\
      phase fat fat_I fat_J (heard asks) (open_after 0 false asks) s.
  Proof using LUTS M MO.
    intros S A. destruct (fat_new_ok t hash max max_order M (proj1 MO) (proj2 MO)) as (s & -> & I0). cbn [bind].
    assert (P : phase fat fat_I fat_J [] false s) by (split; [exact I0|reflexivity]).
    exact (run_good fat fat_start (fat_gather hash) (fat_process t hash) fat_I fat_J (window_room max) never fat_right (well_supplied max_order)
        (well_supplied_before max_order) fat_started fat_open fat_told fat_asked ltac:(discriminate) asks [] false s [] P S A).
  Qed.
  (** A byte can be begun when the last one is complete, but also when no bit of it was told. *)
  Theorem fat_begins asks : well_supplied max_order (heard asks) -> accepted (window_room max) never 0 false asks = true ->
    let bytes := zlen (heard asks) / 8 + (if open_after 0 false asks then 1 else 0) in
    is_ok (run (asks ++ [Begin])) = (zlen (heard asks) mod 8 =? 0) && (bytes <? max).
  Proof using LUTS M MO.
    intros S A bytes. destruct (fat_protocol asks S A) as (s & reports & E & _ & P). cbv beta in *. destruct (fat_new max max_order) as [s0|]; [|discriminate]. cbn [bind] in *.
    rewrite mfold_app, E. cbn [bind mfold act]. unfold bytes. clear E bytes S A LUTS.
    assert (W : exists l, fat_window max (heard asks) l s /\ zlen l = zlen (heard asks) / 8 + (if open_after 0 false asks then 1 else 0)).
    { destruct (open_after 0 false asks); cbn [phase] in P.
      - destruct P as (l & W & R & _). exists l. unfold ready in R. rewrite HistProofs.zlen_map in R. auto.
      - destruct P as ((l & W & R & _) & Z0). exists l. unfold idle in R. rewrite HistProofs.zlen_map in R. split; [exact W|lia]. }
    destruct W as (l & [T B] & L). rewrite <- L. unfold fat_start. rewrite B. pose proof T as (R & _). pose proof (rp_fits _ _ _ _ R) as FT.
    destruct (Z.eqb_spec (zlen (heard asks) mod 8) 0) as [Z0|N]; cbn [andb].
    - rewrite Z0. change (7 - 0 =? 7) with true. cbn [assert_ guard bind]. rewrite (rp_size _ _ _ _ R), (rp_max _ _ _ _ R). destruct (Z.ltb_spec (zlen l) max) as [F|F].
      + replace (zlen l =? max) with false by lia. cbn [negb assert_ guard bind]. destruct (tape_push _ _ _ _ _ T ltac:(lia)) as (w' & -> & _). reflexivity.
      + replace (zlen l =? max) with true by lia. reflexivity.
    - replace (7 - zlen (heard asks) mod 8 =? 7) with false by lia. reflexivity.
  Qed.
End Fat.
Lemma fat_protocol_plain t hash max max_order asks : luts_new = Ok t -> 0 < max < 2 ^ 63 -> 0 <= max_order /\ 8 * (max_order + 1) < 2 ^ 64 ->
  well_supplied max_order (heard asks) -> accepted (window_room max) never 0 false asks = true ->
  exists s reports, (let* s := fat_new max max_order in mfold (act fat_start (fat_gather hash) (fat_process t hash)) asks (s, [])) = Ok (s, reports) /\
    Forall2 (answered (fun input items => true_report (lt_rates t) max_order (map fst input) items)) (questions [] false asks) reports.
Proof. intros L M O S A. destruct (fat_protocol t hash max max_order L M O asks S A) as (s & reports & E & F & _). exists s, reports. split; [exact E|exact F]. Qed.

(** ** What is accepted too early *)
Lemma early_report : exists max max_order asks, all_default (heard asks) /\ accepted (window_room max) never 0 false asks = true /\
  forall t, exists s, (let* s := naive_new max max_order in mfold (act naive_start (naive_gather t) naive_process) (asks ++ [Report; Begin; Report]) (s, [])) = Ok (s, [[]; [ForEdge 1 1 Zero]]).
Proof.
  exists 2, 0, (Begin :: repeat (Tell Zero []) 8). split; [repeat constructor|]. split; [reflexivity|].
  intros t. eexists. vm_compute. reflexivity.
Qed.
Lemma no_begin : exists hash max max_order asks, well_supplied max_order (heard asks) /\ accepted (window_room max) never 0 false asks = false /\
  (forall t, exists s, (let* s := fat_new max max_order in mfold (act fat_start (fat_gather hash) (fat_process t hash)) asks (s, [])) = Ok (s, [[ForEdge 1 2 Zero]]) /\
    w_size (fm_input s) = 2) /\ zlen (heard asks) = 16.
Proof.
  exists (fun _ _ _ => 0), 2, 0, ([Begin] ++ repeat (Tell Zero []) 16 ++ [Begin; Report]). split; [|split; [reflexivity|split; [|reflexivity]]].
  - apply (supply_ok 0 ct_default (repeat Zero 16) []). intros before b cs later E. destruct before; discriminate.
  - intros t. eexists. split; [vm_compute; reflexivity|reflexivity].
Qed.
