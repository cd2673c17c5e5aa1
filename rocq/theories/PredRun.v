(** The whole predictor: what holds before and after each call. *)
From Coq Require Import ZifyBool.
From Verif Require Import Base BaseFacts UtilModel UtilSpec UtilProofs StateModel EstModel EstProofs LogModel LogProofs LutModel LutProofs ApmModel ApmSpec StatesModel StatesSpec StatesProofs
  HistModel HistSpec HistProofs FatProofs HistFacts TreeStats TreeWindow TreeModel TreeSpec TreeRun TreeFacts PredModel PredKits PredChain PredFinal PredTree PredSpec PredStats.
Ltac Zify.zify_post_hook ::= Z.div_mod_to_equations.

Lemma half_stretch t : luts_ok t -> stretch (lt_stretch t) (2 ^ 30) = Ok 0.
Proof. intros T. rewrite (stretch_lean (lt_stretch t) (2 ^ 30) (lk_stretch t T)) by lia. f_equal. Qed.

Section Run.
  Variables (md : mode) (t : luts) (max mo : Z).
  Hypothesis T : luts_ok t.
  Hypothesis C : costs_ok t.
  Hypothesis ALL : forall l, l <> [] -> exists s, state_of t l = Ok s /\ stands_for (lt_rates t) (fst (fst (last l (0, Zero, ct_default)))) (bits l) s.
  Hypothesis M : 0 < max <= 2 ^ 31.
  Hypothesis MO : 0 <= mo /\ 8 * mo + 7 < 2 ^ 16.
  Notation ready := (any_ready t max 0 mo).
  Notation idle := (any_idle t max 0 mo).
  Notation lines trace := (ledger t max mo [] trace).

  Definition last_ok (text : list bit) (h : lb_hist) : Prop := 1 <= zlen text / 8 -> previous h 1 = text_byte text (zlen text / 8 - 1).
  Definition open_bits (text : list bit) : list bit := skipn (Z.to_nat (8 * (zlen text / 8))) text.
  Definition bytes_seen (text : list bit) (open : bool) (lb : lbc) : Prop :=
    exists h, lb_rel h lb /\ h_bits h = (if open then Some (open_bits text) else None) /\ last_ok text h.
  Record kept (trace : list (bit * Z)) (starts : Z) (p : predictor) : Prop := {
    kp_tree : tree_ok (ts_tree (pr_tree p));
    kp_stats : stats_ok mo starts (map fst trace) (lines trace) (pr_stats p);
    kp_lines : Forall (line_ok mo) (lines trace) }.
  Definition between (trace : list (bit * Z)) (p : predictor) : Prop :=
    zlen trace mod 8 = 0 /\ bytes_seen (map fst trace) false (pr_last_bytes p) /\ idle (map fst trace) (pr_tree p) /\ kept trace (zlen trace / 8) p /\
    chain_idle mo (pr_chain p) /\ fin_idle md (pr_finalizer p) /\ pr_final p = None.
  Definition inside (trace : list (bit * Z)) (p : predictor) : Prop :=
    bytes_seen (map fst trace) true (pr_last_bytes p) /\ ready (map fst trace) (pr_tree p) /\ kept trace (zlen trace / 8 + 1) p /\
    chain_idle mo (pr_chain p) /\ fin_idle md (pr_finalizer p) /\ pr_final p = None.
  Definition asking (trace : list (bit * Z)) (r : Z) (p : predictor) : Prop :=
    bytes_seen (map fst trace) true (pr_last_bytes p) /\ ready (map fst trace) (pr_tree p) /\ kept trace (zlen trace / 8 + 1) p /\
    window_report (lt_rates t) mo (forgotten max (map fst trace)) (in_window max (map fst trace)) (pr_contexts p) /\ Forall report_ok (pr_contexts p) /\
    chain_part mo (pr_contexts p) 0 (zlen (pr_contexts p)) (pr_chain p) /\ fin_busy md (zlen (pr_contexts p)) (pr_finalizer p) /\ pr_final p = Some r /\ 1 <= r < 2 ^ 23.

  Lemma lines_bytes trace : forall before, Forall (fun x => 0 <= ln_byte x /\ 8 * ln_byte x < zlen before + zlen trace) (ledger t max mo before trace).
  Proof.
    induction trace as [|(b & p) trace IH]; intros before; [constructor|]. cbn [ledger]. pose proof (zlen_nonneg before). pose proof (zlen_nonneg trace). constructor.
    - cbn [ln_byte]. rewrite zlen_cons. lia.
    - specialize (IH (before ++ [b])). rewrite zlen_app in IH. change (zlen [b]) with 1 in IH. rewrite zlen_cons. eapply Forall_impl; [|exact IH]. cbn beta. intros x X. lia.
  Qed.

  Lemma between_made : exists p, predictor_make md t max mo = Ok p /\ between [] p.
  Proof.
    unfold predictor_make. destruct (any_new t max 0 mo M ltac:(lia) MO) as (tr & E & I). pose proof (new_tr _ _ _ _ E) as TO. rewrite E. cbn [bind].
    destruct (chain_made t mo T (proj1 MO)) as (ch & -> & CI). cbn [bind]. destruct (finalizer_made md t T) as (f & -> & FI). cbn [bind].
    destruct (stats_made mo ltac:(lia)) as (s & -> & S). cbn [bind]. eexists. split; [reflexivity|]. unfold between. cbn [pr_last_bytes pr_tree pr_chain pr_finalizer pr_final map ledger].
    split; [reflexivity|]. split.
    { exists hist_empty. split; [exact lb_new_rel|]. split; [reflexivity|]. unfold last_ok. change (zlen (@nil bit) / 8) with 0. lia. }
    split; [exact I|]. split; [|auto]. split; [exact TO|exact S|constructor].
  Qed.

  Lemma start_ok trace p : between trace p -> zlen trace < 2 ^ 47 - 1 -> exists p', predictor_start p = Ok p' /\ inside trace p'.
  Proof.
    intros (L0 & (h & R & B & LA) & I & [KT KS KL] & CI & FI & F) TL. set (text := map fst trace) in *. assert (LT : zlen text = zlen trace) by (unfold text; apply zlen_map). pose proof (zlen_nonneg trace) as TN.
    unfold predictor_start. rewrite F. cbn [is_none]. rewrite assert_true by reflexivity. cbn [bind].
    pose proof (lb_step_spec h _ LbStart R) as S. cbn [hist_step lb_step] in S. unfold start_byte in S. rewrite B in S. destruct S as (lb & -> & R'). cbn [bind].
    destruct (any_start t max 0 mo M ltac:(lia) MO text _ I ltac:(lia)) as (tr & E & TR). pose proof (start_tr _ _ KT E) as TO. rewrite E. cbn [bind].
    set (h' := mkHist (h_done h) (Some [])) in *. assert (HB : h_bits h' = Some []) by reflexivity.
    destruct (stats_start_ok mo (zlen trace / 8) text (lines trace) (pr_stats p) lb KS) as (s & -> & S').
    - change (2 ^ 47) with 140737488355328 in *. lia.
    - rewrite ledger_length. lia.
    - exact KL.
    - eapply Forall_impl; [|exact (lines_bytes trace [])]. cbn beta. change (zlen (@nil bit)) with 0. intros x X. lia.
    - destruct (lb_unfinished_spec h' lb [] R' HB) as (-> & _). reflexivity.
    - intros POS. rewrite (lb_previous_spec h' lb [] 1 R' HB) by lia. rewrite <- LT. rewrite <- LT in POS. change (previous h' (Z.to_nat 1)) with (previous h 1). rewrite (LA ltac:(lia)). split; [reflexivity|].
      pose proof (previous_byte h _ 1 R) as PB. rewrite (LA ltac:(lia)) in PB. exact PB.
    - cbn [bind]. eexists. split; [reflexivity|]. unfold inside. cbn [pr_last_bytes pr_tree pr_chain pr_finalizer pr_final]. fold text. split.
      { exists h'. split; [exact R'|]. split; [|exact LA]. cbn [h_bits h']. unfold open_bits. rewrite skipn_all2; [reflexivity|]. unfold zlen in *. lia. }
      split; [exact TR|]. split; [|auto]. split; [exact TO|exact S'|exact KL].
  Qed.

  Lemma hashes_seen text lb : bytes_seen text true lb -> hashes_ok lb.
  Proof. intros (h & R & B & _). exact (hashes_of _ _ _ R B). Qed.

  Lemma predict_ok trace p : inside trace p -> exists p' r, predictor_predict md t p = Ok (p', r) /\ asking trace r p'.
  Proof.
    intros (BS & TR & [KT KS KL] & CI & FI & F). set (text := map fst trace) in *. unfold predictor_predict. rewrite F. cbn [is_none]. rewrite assert_true by reflexivity. cbn [bind].
    destruct (any_gather t max 0 mo ALL M MO _ _ TR) as (states & GS & WR). rewrite GS. cbn [bind]. pose proof (gather_tr _ _ KT GS) as RO.
    pose proof BS as (h & R & B & _). destruct (lb_unfinished_spec h _ _ R B) as (-> & UB & _). cbn [bind]. set (u := number_of _) in *.
    destruct (chain_predict_ok t mo (pr_chain p) states u T CI) as (kits & r & -> & CP & RR & RP).
    - exact (proj1 (proj2 WR)).
    - exact (report_state _ _ _ _ _ (lk_rates t T) WR RO).
    - exact (report_sorted _ _ _ _ _ WR).
    - lia.
    - lia.
    - cbn [bind]. destruct r as (q & s). cbn [fst snd] in *.
      destruct (finalizer_refine_ok md t (pr_finalizer p) q s (zlen states) (pr_last_bytes p) T FI RR) as (f & final & -> & FB & FR).
      + destruct RP as [E|E]; [|right; split; [|exact E]]; [injection E as -> ->; left; split; [lia|exact (half_stretch t T)]|]. destruct RR as (_ & RR). exact RR.
      + exact (hashes_seen _ _ BS).
      + cbn [bind]. eexists. eexists. split; [reflexivity|]. unfold asking. cbn [pr_last_bytes pr_tree pr_chain pr_finalizer pr_final pr_contexts]. fold text.
        split; [exact BS|]. split; [exact TR|]. split; [split; assumption|]. repeat (split; [assumption|]). split; [reflexivity|]. lia.
  Qed.

  Lemma report_nodes gone text states : window_report (lt_rates t) mo gone text states -> zlen (filter is_for_node states) = branching mo text.
  Proof.
    intros WR. apply nodes_counted; [|exact (proj1 (proj2 WR))|exact (proj2 (proj2 WR))]. intros o s S. exact (report_kind _ _ _ _ _ _ _ WR S).
  Qed.
  Lemma open_snoc text b : open_bits text ++ [b] = skipn (Z.to_nat (8 * (zlen text / 8))) (text ++ [b]).
  Proof. unfold open_bits. rewrite skipn_app. f_equal. replace (_ - _)%nat with 0%nat by (unfold zlen; lia). reflexivity. Qed.
  Lemma open_length text : length (open_bits text) = Z.to_nat (zlen text mod 8).
  Proof. unfold open_bits. rewrite skipn_length. unfold zlen. lia. Qed.

  Lemma update_ok trace r b p : asking trace r p -> zlen trace < 2 ^ 47 - 1 -> exists p', predictor_update md t p b = Ok p' /\
    (if zlen trace mod 8 =? 7 then between (trace ++ [(b, r)]) p' else inside (trace ++ [(b, r)]) p').
  Proof.
    intros (BS & TR & [KT KS KL] & WR & RO & CP & FB & F & FR) TL. set (text := map fst trace) in *. assert (LT : zlen text = zlen trace) by (unfold text; apply zlen_map). pose proof (zlen_nonneg trace) as TN.
    set (cs := pr_contexts p) in *. pose proof (report_state _ _ _ _ _ (lk_rates t T) WR RO) as SO. pose proof (report_sorted _ _ _ _ _ WR) as NF. pose proof (report_nodes _ _ _ WR) as RN. pose proof (report_met _ _ _ _ _ WR) as RM.
    unfold predictor_update. rewrite F. cbn [is_none negb]. rewrite assert_true by reflexivity. cbn [bind]. fold cs.
    destruct (chain_update_ok t mo (pr_chain p) cs b T CP (proj1 (proj2 WR)) SO) as (kits & trs & -> & CI & TN' & TO'). cbn [bind].
    destruct (any_process t max 0 mo ALL M ltac:(lia) MO text (pr_tree p) b trs TR ltac:(lia)) as (tr & E & I). pose proof (process_tr _ _ _ _ _ C TO' KT E) as TO. rewrite E. cbn [bind].
    destruct (finalizer_update_ok md t (pr_finalizer p) b (zlen cs) (pr_last_bytes p) T FB (hashes_seen _ _ BS)) as (f & -> & FI). cbn [bind of_opt].
    destruct (stats_bit_ok t mo (zlen trace / 8 + 1) text (lines trace) (pr_stats p) b cs r (mkLine (zlen trace / 8) (zlen cs) (zlen (filter is_for_node cs)) (cost_of t r b)) T KS) as (s & -> & S & LX); try lia.
    { rewrite ledger_length. lia. } { exact KL. } { eapply Forall_impl; [|exact (lines_bytes trace [])]. cbn beta. intros x X. lia. } { exact SO. } { f_equal. lia. } { exact (proj1 (proj2 WR)). }
    cbn [bind]. assert (LE : lines (trace ++ [(b, r)]) = lines trace ++ [mkLine (zlen trace / 8) (zlen cs) (zlen (filter is_for_node cs)) (cost_of t r b)]).
    { rewrite ledger_snoc. cbn [app]. fold text. rewrite LT, RM, RN. reflexivity. }
    assert (ME : map fst (trace ++ [(b, r)]) = text ++ [b]) by (rewrite map_app; reflexivity). assert (LL : Forall (line_ok mo) (lines (trace ++ [(b, r)]))) by (rewrite LE; apply Forall_app; split; [exact KL|constructor; [exact LX|constructor]]).
    assert (ZE : zlen (trace ++ [(b, r)]) = zlen trace + 1) by (rewrite zlen_app; reflexivity). assert (ZT : zlen (text ++ [b]) = zlen trace + 1) by (rewrite zlen_app, LT; reflexivity).
    destruct BS as (h & R & B & LA). pose proof (lb_step_spec h _ (LbBit b) R) as ST. cbn [hist_step lb_step] in ST. unfold next_bit in ST. rewrite B in ST. cbv zeta in ST. rewrite open_snoc in ST.
    assert (OL : length (skipn (Z.to_nat (8 * (zlen text / 8))) (text ++ [b])) = Z.to_nat (zlen trace mod 8 + 1)) by (rewrite <- open_snoc, app_length, open_length; cbn [length]; lia).
    match type of ST with context [Nat.eqb ?x 8] => change x with (length (skipn (Z.to_nat (8 * (zlen text / 8))) (text ++ [b]))) in ST end. rewrite OL in ST.
    destruct (Z.eqb_spec (zlen trace mod 8) 7) as [L7|L7].
    - rewrite L7 in ST. change (Nat.eqb (Z.to_nat (7 + 1)) 8) with true in ST. cbv iota in ST. destruct ST as (lb & -> & R'). cbn [bind]. eexists. split; [reflexivity|]. unfold between. cbn [pr_last_bytes pr_tree pr_chain pr_finalizer pr_final].
      rewrite ME, ZE. split; [lia|]. split.
      { eexists. split; [exact R'|]. split; [reflexivity|]. intros _. unfold previous. cbn [h_done nth Nat.sub]. unfold text_byte, bits_at. rewrite ZT. f_equal. replace ((zlen trace + 1) / 8 - 1) with (zlen text / 8) by lia.
        rewrite firstn_all2; [reflexivity|]. rewrite OL. lia. }
      split; [exact I|]. split; [|auto]. replace ((zlen trace + 1) / 8) with (zlen trace / 8 + 1) by lia. split; cbn [pr_tree pr_stats]; [exact TO|rewrite ME, LE; exact S|exact LL].
    - replace (Nat.eqb (Z.to_nat (zlen trace mod 8 + 1)) 8) with false in ST by (symmetry; apply Nat.eqb_neq; lia). destruct ST as (lb & -> & R'). cbn [bind]. eexists. split; [reflexivity|]. unfold inside. cbn [pr_last_bytes pr_tree pr_chain pr_finalizer pr_final].
      rewrite ME, ZE. split.
      { eexists. split; [exact R'|]. split; [cbn [h_bits]; unfold open_bits; rewrite ZT; replace ((zlen trace + 1) / 8) with (zlen text / 8) by lia; reflexivity|].
        unfold last_ok. rewrite ZT. replace ((zlen trace + 1) / 8) with (zlen text / 8) by lia. intros POS. unfold previous. cbn [h_done]. change (previous h 1 = text_byte (text ++ [b]) (zlen text / 8 - 1)). rewrite text_byte_app by lia. exact (LA POS). }
      split. { destruct I as (trk & I). exists trk. unfold tree_idle in I. replace (zlen (text ++ [b]) mod 8 =? 0) with false in I by lia. exact I. }
      split; [|auto]. replace ((zlen trace + 1) / 8) with (zlen trace / 8) by lia. split; cbn [pr_tree pr_stats]; [exact TO|rewrite ME, LE; exact S|exact LL].
  Qed.

  (** ** Any calls *)
  Definition at_phase (ph : phase) (trace : list (bit * Z)) (st : predictor * list Z) : Prop :=
    Forall (fun r => 1 <= r < 2 ^ 23) (snd st) /\
    match ph with
    | Between => between trace (fst st) /\ snd st = map snd trace
    | Inside k => k = zlen trace mod 8 /\ inside trace (fst st) /\ snd st = map snd trace
    | Asked k => k = zlen trace mod 8 /\ exists r, asking trace r (fst st) /\ snd st = map snd trace ++ [r]
    end.
  Lemma use_ok ph trace st u : at_phase ph trace st -> zlen trace < 2 ^ 47 - 1 ->
    match allowed ph u with
    | Some ph' => exists trace' st', use_step md t st u = Ok st' /\ at_phase ph' trace' st' /\ map fst trace' = map fst trace ++ told [u] /\ zlen (snd st') = zlen (snd st) + asked [u]
    | None => use_step md t st u = Fail EAssert
    end.
  Proof.
    destruct st as (p & probs). intros (FP & P) TL. cbn [fst snd] in *. destruct ph as [|k|k]; destruct u as [| |b]; cbn [allowed use_step fst snd].
    - destruct P as (B & ->). destruct (start_ok trace p B TL) as (p' & -> & I). cbn [bind]. exists trace. eexists. split; [reflexivity|]. cbn [snd]. split; [|cbn [told flat_map]; rewrite app_nil_r; split; [reflexivity|change (asked [Start]) with 0; lia]].
      split; [exact FP|]. split; [destruct B as (B & _); lia|]. split; [exact I|reflexivity].
    - destruct P as ((L0 & _ & I & _ & _ & _ & F) & ->). unfold predictor_predict. rewrite F. cbn [is_none]. rewrite assert_true by reflexivity. cbn [bind]. unfold tree_gather.
      destruct I as (trk & I). unfold tree_idle in I. assert (ts_bit_index (pr_tree p) = -1) as ->; [|reflexivity]. destruct (Z.eqb_spec (zlen (map fst trace) mod 8) 0); [destruct I as (_ & _ & I & _); exact I|]. exfalso. rewrite zlen_map in *. lia.
    - destruct P as ((_ & _ & I & _ & _ & _ & F) & ->). unfold predictor_update. rewrite F. reflexivity.
    - destruct P as (_ & ((h & R & B & _) & _ & _ & _ & _ & F) & ->). unfold predictor_start. rewrite F. cbn [is_none]. rewrite assert_true by reflexivity. cbn [bind].
      pose proof (lb_step_spec h _ LbStart R) as S. cbn [hist_step lb_step] in S. unfold start_byte in S. rewrite B in S. rewrite S. reflexivity.
    - destruct P as (K & I & ->). destruct (predict_ok trace p I) as (p' & r & -> & A). cbn [bind fst snd]. exists trace. eexists. split; [reflexivity|]. cbn [fst snd]. split; [|cbn [told flat_map]; rewrite app_nil_r; split; [reflexivity|rewrite zlen_app; reflexivity]].
      split; [apply Forall_app; split; [exact FP|constructor; [exact (proj2 (proj2 (proj2 (proj2 (proj2 (proj2 (proj2 (proj2 A))))))))|constructor]]|]. split; [exact K|]. exists r. split; [exact A|reflexivity].
    - destruct P as (_ & (_ & _ & _ & _ & _ & F) & ->). unfold predictor_update. rewrite F. reflexivity.
    - destruct P as (_ & r & (_ & _ & _ & _ & _ & _ & _ & F & _) & ->). unfold predictor_start. rewrite F. reflexivity.
    - destruct P as (_ & r & (_ & _ & _ & _ & _ & _ & _ & F & _) & ->). unfold predictor_predict. rewrite F. reflexivity.
    - destruct P as (-> & r & A & ->). destruct (update_ok trace r b p A TL) as (p' & -> & I). cbn [bind]. exists (trace ++ [(b, r)]). eexists. split; [reflexivity|]. cbn [fst snd].
      assert (ZE : zlen (trace ++ [(b, r)]) = zlen trace + 1) by (rewrite zlen_app; reflexivity). rewrite !map_app. split; [|split; [reflexivity|change (asked [Update b]) with 0; lia]]. pose proof (zlen_nonneg trace).
      split; [exact FP|]. cbn [fst snd]. destruct (zlen trace mod 8 =? 7) eqn:E; [split; [exact I|now rewrite map_app]|]. split; [lia|]. split; [exact I|now rewrite map_app].
  Qed.

  Lemma told_app a b : told (a ++ b) = told a ++ told b. Proof. unfold told. apply flat_map_app. Qed.
  Lemma asked_app a b : asked (a ++ b) = asked a + asked b. Proof. unfold asked. now rewrite filter_app, zlen_app. Qed.
  Lemma uses_ok uses : forall ph trace st, at_phase ph trace st -> zlen trace + zlen (told uses) < 2 ^ 47 - 1 ->
    match allowed_all ph uses with
    | Some ph' => exists trace' st', mfold (use_step md t) uses st = Ok st' /\ at_phase ph' trace' st' /\ map fst trace' = map fst trace ++ told uses /\ zlen (snd st') = zlen (snd st) + asked uses
    | None => mfold (use_step md t) uses st = Fail EAssert
    end.
  Proof.
    induction uses as [|u uses IH]; intros ph trace st A TL; cbn [allowed_all mfold].
    - exists trace, st. split; [reflexivity|]. split; [exact A|]. cbn [told flat_map]. rewrite app_nil_r. split; [reflexivity|]. change (asked []) with 0. lia.
    - change (u :: uses) with ([u] ++ uses) in TL. rewrite told_app, zlen_app in TL. pose proof (zlen_nonneg (told [u])). pose proof (zlen_nonneg (told uses)).
      pose proof (use_ok ph trace st u A ltac:(lia)) as U. destruct (allowed ph u) as [ph'|]; [|rewrite U; reflexivity]. destruct U as (trace' & st' & -> & A' & E & Z). cbn [bind].
      assert (ZT : zlen trace' = zlen trace + zlen (told [u])) by (rewrite <- (zlen_map fst trace'), E, zlen_app, zlen_map; reflexivity).
      specialize (IH ph' trace' st' A' ltac:(lia)). destruct (allowed_all ph' uses) as [ph2|]; [|exact IH]. destruct IH as (t2 & st2 & E2 & A2 & F2 & Z2). exists t2, st2. split; [exact E2|]. split; [exact A2|].
      change (u :: uses) with ([u] ++ uses). rewrite told_app, asked_app, app_assoc, <- E. split; [exact F2|lia].
  Qed.
  Lemma use_all_ok uses : zlen (told uses) < 2 ^ 47 - 1 ->
    match allowed_all Between uses with
    | Some ph => exists trace st, use_all md t max mo uses = Ok st /\ at_phase ph trace st /\ map fst trace = told uses /\ zlen (snd st) = asked uses
    | None => use_all md t max mo uses = Fail EAssert
    end.
  Proof.
    intros TL. unfold use_all. destruct between_made as (p & -> & B). cbn [bind]. apply (uses_ok uses Between [] (p, [])); [|exact TL]. split; [constructor|]. split; [exact B|reflexivity].
  Qed.
End Run.
