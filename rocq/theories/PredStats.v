(** The statistics and what they stand for. *)
From Coq Require Import ZifyBool.
From Verif Require Import Base BaseFacts FixedModel FixedProofs UtilModel UtilSpec UtilProofs StateModel StateProofs EstModel EstProofs LogModel LogProofs StatesModel StatesSpec StatesProofs
  HistModel HistSpec HistProofs FatProofs HistFacts TreeModel TreeSpec PredModel PredKits PredChain PredTree PredSpec.
Ltac Zify.zify_post_hook ::= Z.div_mod_to_equations.

(** ** What a report amounts to *)
Lemma estimator_valid rates h e : rates_ok rates -> estimator_of rates h = Ok e -> de_valid e.
Proof.
  intros R E. unfold estimator_of in E. rewrite de_new_eq in E. cbn [bind] in E. revert E. pose proof de_valid_new as V. revert V. generalize (2 ^ 21 * 1024 + 0).
  induction h as [|b h IH]; intros s V E; cbn [mfold] in E; [injection E as <-; exact V|]. destruct (de_valid_step rates s b R V) as (s' & U & V'). rewrite U in E. cbn [bind] in E. exact (IH _ V' E).
Qed.
Lemma report_shape rates max_order gone text states o s : window_report rates max_order gone text states -> znth states o = Some s ->
  followers text o <> [] /\ last_occurrence_distance s = distance text o /\
  match s with
  | ForEdge _ count b => Forall (eq b) (followers text o) /\ 1 <= count <= 1000
  | ForNode d _ _ _ _ => uniform (followers text o) = false /\ exists h, uniform h = false /\ stands_for rates d h s
  end.
Proof.
  intros (A & _) S. destruct (A _ _ S) as (NE & older & _ & UH & SF). split; [exact NE|]. pose proof SF as SF0. unfold stands_for in SF. rewrite UH in SF. destruct (uniform (followers text o)) eqn:U.
  - subst s. split; [reflexivity|]. set (h := older ++ followers text o) in *. split.
    + pose proof (uniform_repeat _ UH) as RH. apply Forall_forall. intros x X. assert (I : In x h) by (unfold h; apply in_or_app; now right). rewrite RH in I. apply repeat_spec in I. now subst x.
    + unfold h. rewrite zlen_app. pose proof (zlen_nonneg older). destruct (followers text o); [congruence|]. rewrite zlen_cons. pose proof (zlen_nonneg l). lia.
  - destruct SF as (e & r & q & c & -> & _). split; [reflexivity|]. split; [reflexivity|]. eauto.
Qed.
Lemma report_state rates max_order gone text states : rates_ok rates -> window_report rates max_order gone text states -> Forall report_ok states -> Forall state_ok states.
Proof.
  intros R WR F. apply Forall_forall. intros s S. apply In_nth_error in S. destruct S as (i & S).
  assert (Z : znth states (Z.of_nat i) = Some s) by (rewrite znth_nth_error by lia; rewrite Nat2Z.id; exact S). destruct (report_shape _ _ _ _ _ _ _ WR Z) as (_ & _ & K).
  pose proof (znth_Forall _ _ _ _ F Z) as T. destruct s as [d c b|d e r q tr]; [exact (proj2 K)|]. destruct K as (_ & h & U & SF). unfold stands_for in SF. rewrite U in SF.
  destruct SF as (e' & r' & q' & c' & E & ES & _ & RU). injection E as -> -> -> ->. split; [exact (estimator_valid _ _ _ R ES)|]. split; [|exact T].
  exists h. unfold runs_of in RU. rewrite br_replay in RU. now injection RU as <-.
Qed.
Lemma report_kind rates max_order gone text states o s : window_report rates max_order gone text states -> znth states o = Some s -> is_for_node s = negb (uniform (followers text o)).
Proof.
  intros WR S. destruct (report_shape _ _ _ _ _ _ _ WR S) as (_ & _ & K). destruct s as [d c b|d e r q tr]; cbn [is_for_node].
  - destruct K as (K & _). symmetry. apply Bool.negb_false_iff. apply Bool.not_false_iff_true. intros U. apply uniform_iff in U. destruct U as (U0 & U1).
    pose proof (proj1 (Forall_forall _ _) K) as KA. pose proof (KA _ U0) as K0. pose proof (KA _ U1) as K1. rewrite K0 in K1. discriminate K1.
  - destruct K as (-> & _). reflexivity.
Qed.
Lemma report_sorted rates max_order gone text states : window_report rates max_order gone text states -> nodes_first states.
Proof.
  intros R i s s' S S' N. rewrite (report_kind _ _ _ _ _ _ _ R S') in N. rewrite (report_kind _ _ _ _ _ _ _ R S). pose proof (znth_Some _ _ _ S).
  rewrite Bool.negb_true_iff in *. apply branching_longer; [lia|exact N].
Qed.
Lemma report_met rates max_order gone text states : window_report rates max_order gone text states -> zlen states = met max_order text.
Proof.
  intros (A & B & C). unfold met. pose proof (zlen_nonneg states) as NN.
  replace (Z.to_nat (max_order + 1)) with (length states + Z.to_nat (max_order + 1 - zlen states))%nat by (unfold zlen in *; lia).
  rewrite WindowProofs.zseq_app, filter_app, zlen_app.
  rewrite <- (filter_count (fun _ => true) (fun o => match followers text o with [] => false | _ => true end) states 0).
  2: { intros i s S. rewrite Z.add_0_l. destruct (A i s S) as (NE & _). destruct (followers text i); congruence. }
  assert (FT : filter (fun _ : context_state => true) states = states) by (clear; induction states as [|x l IH]; [reflexivity|]; cbn [filter]; now rewrite IH). rewrite FT.
  set (rest := filter _ (zseq (0 + _) _)). replace rest with (@nil Z); [change (zlen (@nil Z)) with 0; lia|]. subst rest.
  destruct (Z.eq_dec (zlen states) (max_order + 1)) as [E|N]. { replace (Z.to_nat (max_order + 1 - zlen states)) with 0%nat by lia. reflexivity. }
  specialize (C ltac:(lia)). assert (G : forall o, zlen states <= o -> followers text o = []).
  { intros o O. replace o with (zlen states + Z.of_nat (Z.to_nat (o - zlen states))) by lia. now rewrite followers_nil. }
  generalize (Z.to_nat (max_order + 1 - zlen states)). assert (LE : zlen states <= 0 + Z.of_nat (length states)) by (unfold zlen; lia). revert LE.
  generalize (0 + Z.of_nat (length states)). clear -G. intros a LE n. revert a LE. induction n as [|n IH]; intros a LE; [reflexivity|]. cbn [zseq filter].
  rewrite G by exact LE. apply IH. lia.
Qed.
Lemma filter_split {A} (f : A -> bool) l : zlen (filter (fun x => negb (f x)) l) = zlen l - zlen (filter f l).
Proof. induction l as [|x l IH]; [reflexivity|]. cbn [filter]. destruct (f x); cbn [negb]; rewrite ?zlen_cons; lia. Qed.

(** ** Ledgers *)
Definition line_ok (max_order : Z) (x : line) : Prop :=
  0 <= ln_met x <= max_order + 1 /\ 0 <= ln_branching x <= ln_met x /\ 0 <= ln_cost x <= 47104.
Lemma costs_snoc P l x : costs P (l ++ [x]) = costs P l + (if charged x && P x then ln_cost x else 0).
Proof.
  unfold costs. rewrite filter_app, map_app. cbn [filter]. assert (S : forall a b, zsum (a ++ b) = zsum a + zsum b).
  { clear. induction a as [|y a IH]; intros b; [reflexivity|]. cbn [app zsum fold_right]. unfold zsum in *. rewrite IH. lia. }
  rewrite S. destruct (charged x && P x); cbn [map zsum fold_right]; lia.
Qed.
Lemma counts_snoc P l x : counts P (l ++ [x]) = counts P l + (if charged x && P x then 1 else 0).
Proof. unfold counts. rewrite filter_app, zlen_app. cbn [filter]. destruct (charged x && P x); reflexivity. Qed.
Lemma zsum_snoc l x : zsum (l ++ [x]) = zsum l + x.
Proof. unfold zsum. induction l as [|y l IH]; cbn [app fold_right]; [lia|]. rewrite IH. lia. Qed.
Lemma costs_range max_order P l : Forall (line_ok max_order) l -> 0 <= costs P l <= 47104 * zlen l.
Proof.
  intros F. induction l as [|x l IH] using rev_ind; [split; reflexivity|]. apply Forall_app in F as (F & FX). inversion FX as [|? ? X _]; subst. specialize (IH F). rewrite costs_snoc, zlen_app. change (zlen [x]) with 1.
  destruct X as (_ & _ & X). destruct (charged x && P x); lia.
Qed.
Lemma counts_range P l : 0 <= counts P l <= zlen l.
Proof. induction l as [|x l IH] using rev_ind; [split; reflexivity|]. rewrite counts_snoc, zlen_app. change (zlen [x]) with 1. destruct (charged x && P x); lia. Qed.
Lemma mets_range max_order l : Forall (line_ok max_order) l -> 0 <= zsum (map ln_met l) <= (max_order + 1) * zlen l.
Proof.
  intros F. induction l as [|x l IH] using rev_ind; [unfold zsum; cbn; lia|]. apply Forall_app in F as (F & FX). inversion FX as [|? ? (X & _) _]; subst. specialize (IH F).
  rewrite map_app. cbn [map]. rewrite zsum_snoc, zlen_app. change (zlen [x]) with 1. lia.
Qed.
Lemma costs_ext P Q l : (forall x, In x l -> P x = Q x) -> costs P l = costs Q l.
Proof.
  intros H. unfold costs. f_equal. f_equal. apply filter_ext_in. intros x X. now rewrite (H x X).
Qed.
Lemma costs_none P l : (forall x, In x l -> P x = false) -> costs P l = 0.
Proof. intros H. unfold costs. replace (filter _ l) with (@nil line); [reflexivity|]. symmetry. clear -H. induction l as [|x l IH]; [reflexivity|]. cbn [filter]. rewrite (H x) by now left. rewrite Bool.andb_false_r. apply IH. intros y Y. apply H. now right. Qed.
Lemma costs_parts P Q R l : (forall x, In x l -> P x = Q x || R x) -> (forall x, In x l -> Q x && R x = false) -> costs P l = costs Q l + costs R l.
Proof.
  induction l as [|x l IH] using rev_ind; intros H D; [reflexivity|]. rewrite !costs_snoc. rewrite IH by (intros y Y; (apply H || apply D); apply in_or_app; now left).
  assert (I : In x (l ++ [x])) by (apply in_or_app; right; now left). specialize (H x I). specialize (D x I). rewrite H. destruct (charged x), (Q x), (R x); cbn [andb orb] in *; try discriminate; lia.
Qed.
Lemma ledger_snoc t max mo trace : forall before b p, ledger t max mo before (trace ++ [(b, p)]) = ledger t max mo before trace ++
  [mkLine (zlen (before ++ map fst trace) / 8) (met mo (in_window max (before ++ map fst trace))) (branching mo (in_window max (before ++ map fst trace))) (cost_of t p b)].
Proof.
  induction trace as [|(b' & p') trace IH]; intros before b p; cbn [app ledger map fst]; [now rewrite app_nil_r|]. rewrite IH. cbn [app]. rewrite <- app_assoc. reflexivity.
Qed.
Lemma ledger_length t max mo trace : forall before, zlen (ledger t max mo before trace) = zlen trace.
Proof. induction trace as [|(b & p) trace IH]; intros before; [reflexivity|]. cbn [ledger]. rewrite !zlen_cons, IH. reflexivity. Qed.

(** ** The statistics of a trace *)
Definition bytes_like (text : list bit) (n v : Z) : Z := zlen (filter (fun k => text_byte text k =? v) (zseq 0 (Z.to_nat n))).
Definition costs_like (text : list bit) (l : list line) (n v : Z) : Z := costs (fun x => (ln_byte x <? n) && (text_byte text (ln_byte x) =? v)) l.
Record stats_ok (max_order starts : Z) (text : list bit) (l : list line) (s : stats) : Prop := {
  so_bytes : st_total_bytes s = starts;
  so_contexts : st_total_contexts s = zsum (map ln_met l);
  so_counts : zlen (st_order_counts s) = 25 /\ forall i, 0 <= i < 25 -> znth (st_order_counts s) i = Some (counts (fun x => type_of x =? i) l);
  so_costs : zlen (st_order_costs s) = 25 /\ forall i, 0 <= i < 25 -> znth (st_order_costs s) i = Some (costs (fun x => type_of x =? i) l);
  so_symbol_counts : zlen (st_symbol_counts s) = 256 /\ forall v, 0 <= v < 256 -> znth (st_symbol_counts s) v = Some (bytes_like text (starts - 1) v);
  so_symbol_costs : zlen (st_symbol_costs s) = 256 /\ forall v, 0 <= v < 256 -> znth (st_symbol_costs s) v = Some (costs_like text l (starts - 1) v);
  so_byte : 0 < starts -> st_byte_cost s = costs (fun x => ln_byte x =? starts - 1) l;
  so_total : st_total_cost s = costs every l;
  so_occurrences : zlen (st_order_occurrences s) = 5 * (max_order + 1) /\ each (fun o => 0 <= o <= 1000 * zlen l) (st_order_occurrences s) }.

Lemma znth_repeat {A} (x : A) n i : 0 <= i < Z.of_nat n -> znth (repeat x n) i = Some x.
Proof. intros I. rewrite znth_nth_error by lia. rewrite nth_error_repeat by lia. reflexivity. Qed.
Lemma stats_made max_order : 0 <= max_order < 2 ^ 16 -> exists s, stats_new max_order = Ok s /\ stats_ok max_order 0 [] [] s.
Proof.
  intros M. unfold stats_new. pow2. rewrite add_ok by (ib; lia). cbn [bind]. rewrite mul_ok by (ib; lia). cbn [bind].
  eexists. split; [reflexivity|]. split; cbn [st_total_bytes st_total_contexts st_order_counts st_order_costs st_symbol_counts st_symbol_costs st_byte_cost st_total_cost st_order_occurrences].
  - reflexivity. - reflexivity.
  - split; [reflexivity|]. intros i I. rewrite znth_repeat by lia. reflexivity.
  - split; [reflexivity|]. intros i I. rewrite znth_repeat by lia. reflexivity.
  - split; [reflexivity|]. intros i I. rewrite znth_repeat by lia. reflexivity.
  - split; [reflexivity|]. intros i I. rewrite znth_repeat by lia. reflexivity.
  - lia.
  - reflexivity.
  - split; [rewrite zlen_repeat; lia|]. apply each_repeat. change (zlen (@nil line)) with 0. lia.
Qed.

Lemma log_q_add a b : - 2 ^ 63 <= a + b < 2 ^ 63 -> fix_add log2_q a b = Ok (a + b).
Proof.
  intros R. change (2 ^ 63) with 9223372036854775808 in R. rewrite fix_add_spec by (intros ?; reflexivity). replace (inb (f_ty log2_q) (a + b)) with true by (unfold inb; cbn [f_ty log2_q plain]; ib; lia). reflexivity.
Qed.
Lemma log_dq c : 0 <= c <= 47104 -> to_fix i64 log2_d log2_q c = Ok c.
Proof.
  intros C. unfold to_fix. change (f_frac log2_q <? f_frac log2_d) with false. cbv iota zeta. change (f_frac log2_q - f_frac log2_d) with 0.
  rewrite shl_ok by (cbn; lia). cbn [bind]. rewrite shr_ok by (cbn; lia). cbn [bind]. change (2 ^ 0) with 1. rewrite Z.mul_1_r.
  rewrite wrap_id by (try (cbn; lia); ib; lia). rewrite Z.div_1_r, Z.eqb_refl. cbn [assert_ guard bind].
  unfold narrow_to. cbn [ibits f_ty log2_q plain i64]. change (64 <? 64) with false. cbv iota. cbn [bind]. unfold fix_new. cbn. reflexivity.
Qed.

Lemma text_byte_app text b k : 8 * k + 8 <= zlen text -> 0 <= k -> text_byte (text ++ [b]) k = text_byte text k.
Proof.
  intros K K0. unfold text_byte, bits_at. f_equal. rewrite skipn_app, firstn_app. replace (Z.to_nat 8 - length (skipn (Z.to_nat (8 * k)) text))%nat with 0%nat.
  - rewrite firstn_O, app_nil_r. reflexivity.
  - rewrite skipn_length. unfold zlen in K. lia.
Qed.
Lemma bytes_like_app text b n v : 8 * n <= zlen text -> bytes_like (text ++ [b]) n v = bytes_like text n v.
Proof. intros N. unfold bytes_like. f_equal. apply filter_ext_in. intros k K. apply zseq_In in K. rewrite text_byte_app by lia. reflexivity. Qed.
Lemma costs_like_app text b l n v : 8 * n <= zlen text -> Forall (fun x => 0 <= ln_byte x) l -> costs_like (text ++ [b]) l n v = costs_like text l n v.
Proof.
  intros N F. unfold costs_like. apply costs_ext. intros x X. rewrite Forall_forall in F. specialize (F x X). cbn beta in F. destruct (Z.ltb_spec (ln_byte x) n); [|reflexivity].
  rewrite text_byte_app by lia. reflexivity.
Qed.

Lemma type_range max_order x : line_ok max_order x -> charged x = true -> 0 <= type_of x < 25 /\ type_of x < 5 * (max_order + 1).
Proof. unfold line_ok, charged, type_of. intros (M & B & _) C. lia. Qed.

Lemma stats_bit_ok t max_order starts text l s b contexts p x : luts_ok t -> stats_ok max_order starts text l s -> 0 <= max_order < 2 ^ 16 -> zlen l < 2 ^ 47 - 1 -> zlen text < 2 ^ 47 ->
  Forall (line_ok max_order) l -> Forall (fun x => 0 <= ln_byte x) l -> 1 <= p < 2 ^ 23 -> Forall state_ok contexts ->
  x = mkLine (starts - 1) (zlen contexts) (zlen (filter is_for_node contexts)) (cost_of t p b) -> zlen contexts <= max_order + 1 -> 8 * (starts - 1) <= zlen text -> 0 < starts ->
  exists s', stats_on_next_bit t s b contexts p = Ok s' /\ stats_ok max_order starts (text ++ [b]) (l ++ [x]) s' /\ line_ok max_order x.
Proof.
  intros T [SB SC [CL SO] [KL SK] [YL SY] [ZL SZ] SBC ST [OL OE]] MO LL TL F FB P CS XE CL' TB SP.
  assert (CO : estimate_cost (lt_log2 t) p b = Ok (cost_of t p b) /\ 0 <= cost_of t p b <= 47104).
  { unfold cost_of. rewrite (estimate_cost_lean (lt_log2 t) p b (lk_log2 t T)) by lia. split; [reflexivity|]. pose proof (neg_log_range (if b then 2 ^ 23 - p else p) ltac:(destruct b; lia)). lia. }
  destruct CO as (EC & CB). set (c := cost_of t p b) in *. clearbody c.
  pose proof (filter_split is_for_node contexts) as FS. pose proof (zlen_nonneg (filter (fun s => negb (is_for_node s)) contexts)) as N1. pose proof (zlen_nonneg (filter is_for_node contexts)) as N2. pose proof (zlen_nonneg contexts) as N3.
  assert (LX : line_ok max_order x) by (subst x; unfold line_ok; cbn [ln_met ln_branching ln_cost]; lia).
  pose proof (mets_range max_order l F) as MR. pose proof (zlen_nonneg l) as NL. change (2 ^ 47) with 140737488355328 in *. change (2 ^ 16) with 65536 in *.
  unfold stats_on_next_bit. cbv zeta. rewrite SC. rewrite add_ok by (ib; nia). cbn [bind].
  assert (SYA : zlen (st_symbol_counts s) = 256 /\ forall v, 0 <= v < 256 -> znth (st_symbol_counts s) v = Some (bytes_like (text ++ [b]) (starts - 1) v)).
  { split; [exact YL|]. intros v V. rewrite SY by exact V. now rewrite bytes_like_app. }
  assert (SZA : zlen (st_symbol_costs s) = 256 /\ forall v, 0 <= v < 256 -> znth (st_symbol_costs s) v = Some (costs_like (text ++ [b]) (l ++ [x]) (starts - 1) v)).
  { split; [exact ZL|]. intros v V. rewrite SZ by exact V. f_equal. unfold costs_like at 2. rewrite costs_snoc. subst x. cbn [ln_byte]. replace (starts - 1 <? starts - 1) with false by lia. cbn [andb].
    rewrite Bool.andb_false_r, Z.add_0_r. symmetry. now apply costs_like_app. }
  assert (ZM : zsum (map ln_met (l ++ [x])) = zsum (map ln_met l) + zlen contexts) by (rewrite map_app; cbn [map]; rewrite zsum_snoc; subst x; reflexivity).
  destruct (Z.ltb_spec 0 (zlen contexts)) as [POS|NONE].
  - assert (CH : charged x = true) by (subst x; unfold charged; cbn [ln_met]; lia). destruct (type_range _ _ LX CH) as (TR1 & TR2).
    assert (IX : stats_index contexts = Ok (type_of x)).
    { unfold stats_index. rewrite sub_ok by (ib; lia). cbn [bind]. rewrite FS. subst x. reflexivity. }
    rewrite IX. cbn [bind]. set (i := type_of x) in *. assert (XT : type_of x = i) by reflexivity. clearbody i.
    rewrite (get_ok _ _ _ (SO i TR1)). cbn [bind]. pose proof (counts_range (fun x => type_of x =? i) l). rewrite add_ok by (ib; lia). cbn [bind].
    rewrite set_ok by lia. cbn [bind]. rewrite EC. cbn [bind]. rewrite log_dq by lia. cbn [bind].
    rewrite (SBC SP), ST. pose proof (costs_range max_order (fun x => ln_byte x =? starts - 1) l F). pose proof (costs_range max_order every l F). pose proof (costs_range max_order (fun x => type_of x =? i) l F).
    rewrite log_q_add by (change (2 ^ 63) with 9223372036854775808; lia). cbn [bind]. rewrite log_q_add by (change (2 ^ 63) with 9223372036854775808; lia). cbn [bind].
    rewrite (get_ok _ _ _ (SK i TR1)). cbn [bind]. rewrite log_q_add by (change (2 ^ 63) with 9223372036854775808; lia). cbn [bind]. rewrite set_ok by lia. cbn [bind].
    destruct (znth_lt contexts (zlen contexts - 1) ltac:(lia)) as (q & Q). rewrite (get_ok _ _ _ Q). cbn [bind]. pose proof (znth_Forall _ _ _ _ CS Q) as SQ.
    assert (OC : 0 <= occurrence_count q <= 1000).
    { destruct q as [d n y|d e r q' tr]; cbn [occurrence_count]; [cbn in SQ; lia|]. destruct SQ as ((pp & n & -> & PP & N & _) & _). rewrite de_usage_count_at by (pow2; lia). lia. }
    destruct (znth_lt (st_order_occurrences s) i ltac:(lia)) as (o & O). rewrite (get_ok _ _ _ O). cbn [bind]. pose proof (OE _ _ O) as OB. cbn beta in OB. rewrite add_ok by (ib; lia). cbn [bind].
    rewrite set_ok by lia. cbn [bind]. eexists. split; [reflexivity|]. split; [|exact LX].
    split; cbn [st_total_bytes st_total_contexts st_order_counts st_order_costs st_symbol_counts st_symbol_costs st_byte_cost st_total_cost st_order_occurrences].
    + exact SB. + now rewrite ZM.
    + split; [now rewrite zlen_zupd|]. intros j J. rewrite counts_snoc, CH, XT. cbn [andb]. destruct (Z.eqb_spec i j) as [<-|N].
      * rewrite znth_zupd_same by lia. reflexivity.
      * rewrite znth_zupd_other by congruence. rewrite SO by exact J. f_equal. lia.
    + split; [now rewrite zlen_zupd|]. intros j J. rewrite costs_snoc, CH, XT. cbn [andb]. destruct (Z.eqb_spec i j) as [<-|N].
      * rewrite znth_zupd_same by lia. subst x. reflexivity.
      * rewrite znth_zupd_other by congruence. rewrite SK by exact J. f_equal. lia.
    + exact SYA. + exact SZA.
    + intros _. rewrite costs_snoc, CH. subst x. cbn [ln_byte ln_cost]. rewrite Z.eqb_refl. reflexivity.
    + rewrite costs_snoc, CH. subst x. reflexivity.
    + split; [now rewrite zlen_zupd|]. intros j y Y. rewrite zlen_app. change (zlen [x]) with 1. destruct (Z.eq_dec j i) as [->|N].
      * rewrite znth_zupd_same in Y by lia. injection Y as <-. lia.
      * rewrite znth_zupd_other in Y by congruence. pose proof (OE _ _ Y). cbn beta in *. lia.
  - assert (CH : charged x = false) by (subst x; unfold charged; cbn [ln_met]; lia). eexists. split; [reflexivity|]. split; [|exact LX].
    split; cbn [st_total_bytes st_total_contexts st_order_counts st_order_costs st_symbol_counts st_symbol_costs st_byte_cost st_total_cost st_order_occurrences].
    + exact SB. + now rewrite ZM.
    + split; [exact CL|]. intros j J. rewrite counts_snoc, CH. cbn [andb]. rewrite SO by exact J. f_equal. lia.
    + split; [exact KL|]. intros j J. rewrite costs_snoc, CH. cbn [andb]. rewrite SK by exact J. f_equal. lia.
    + exact SYA. + exact SZA.
    + intros _. rewrite costs_snoc, CH. cbn [andb]. rewrite (SBC SP). lia.
    + rewrite costs_snoc, CH. cbn [andb]. lia.
    + split; [exact OL|]. intros j y Y. rewrite zlen_app. change (zlen [x]) with 1. pose proof (OE _ _ Y). cbn beta in *. lia.
Qed.

Lemma stats_start_ok max_order starts text l s lb : stats_ok max_order starts text l s -> 0 <= starts < 2 ^ 47 -> zlen l < 2 ^ 47 -> Forall (line_ok max_order) l ->
  Forall (fun x => 0 <= ln_byte x < starts) l -> lb_unfinished_byte lb = Ok 1 -> (0 < starts -> lb_previous_byte 1 lb = Ok (text_byte text (starts - 1)) /\ 0 <= text_byte text (starts - 1) < 256) ->
  exists s', stats_start s lb = Ok s' /\ stats_ok max_order (starts + 1) text l s'.
Proof.
  intros [SB SC SO SK [YL SY] [ZL SZ] SBC ST OE] S LL F FB U PV. change (2 ^ 47) with 140737488355328 in *. unfold stats_start. rewrite U. cbn [bind]. rewrite assert_true by reflexivity. cbn [bind]. rewrite SB.
  assert (R : exists counts costs, (if 0 <? starts then
      let* last_byte := lb_previous_byte 1 lb in let* n := get (st_symbol_counts s) last_byte in let* n := add usize n 1 in let* counts := set (st_symbol_counts s) last_byte n in
      let* c := get (st_symbol_costs s) last_byte in let* c := fix_add log2_q c (st_byte_cost s) in let* costs := set (st_symbol_costs s) last_byte c in Ok (counts, costs)
    else Ok (st_symbol_counts s, st_symbol_costs s)) = Ok (counts, costs) /\
    (zlen counts = 256 /\ forall v, 0 <= v < 256 -> znth counts v = Some (bytes_like text starts v)) /\ (zlen costs = 256 /\ forall v, 0 <= v < 256 -> znth costs v = Some (costs_like text l starts v))).
  { destruct (Z.ltb_spec 0 starts) as [POS|Z0].
    - destruct (PV POS) as (-> & B). cbn [bind]. set (y := text_byte text (starts - 1)) in *. rewrite (get_ok _ _ _ (SY y B)). cbn [bind].
      assert (BL : 0 <= bytes_like text (starts - 1) y <= starts).
      { unfold bytes_like. split; [apply zlen_nonneg|]. pose proof (filter_split (fun k => text_byte text k =? y) (zseq 0 (Z.to_nat (starts - 1)))) as FS. pose proof (zlen_nonneg (filter (fun k => negb (text_byte text k =? y)) (zseq 0 (Z.to_nat (starts - 1))))). replace (zlen (zseq 0 (Z.to_nat (starts - 1)))) with (starts - 1) in FS by (unfold zlen; rewrite zseq_length; lia). lia. }
      rewrite add_ok by (ib; lia). cbn [bind]. rewrite set_ok by lia. cbn [bind]. rewrite (get_ok _ _ _ (SZ y B)). cbn [bind]. rewrite (SBC POS).
      assert (QC : forall v, costs_like text l starts v = costs_like text l (starts - 1) v + (if y =? v then costs (fun x => ln_byte x =? starts - 1) l else 0)).
      { intros v. unfold costs_like. destruct (Z.eqb_spec y v) as [<-|N].
        - apply costs_parts.
          + intros x X. rewrite Forall_forall in FB. specialize (FB x X). cbn beta in FB. destruct (Z.eqb_spec (ln_byte x) (starts - 1)) as [E|NE].
            * rewrite E. fold y. rewrite Z.eqb_refl. lia.
            * replace (ln_byte x <? starts) with (ln_byte x <? starts - 1) by lia. now rewrite Bool.orb_false_r.
          + intros x X. destruct (Z.eqb_spec (ln_byte x) (starts - 1)) as [E|NE]; [rewrite E; replace (starts - 1 <? starts - 1) with false by lia; reflexivity|apply Bool.andb_false_r].
        - rewrite Z.add_0_r. apply costs_ext. intros x X. rewrite Forall_forall in FB. specialize (FB x X). cbn beta in FB. destruct (Z.eqb_spec (ln_byte x) (starts - 1)) as [E|NE].
          + rewrite E. fold y. replace (y =? v) with false by lia. now rewrite !Bool.andb_false_r.
          + f_equal. lia. }
      pose proof (costs_range max_order (fun x => (ln_byte x <? starts) && (text_byte text (ln_byte x) =? y)) l F) as CR. fold (costs_like text l starts y) in CR. rewrite QC, Z.eqb_refl in CR.
      rewrite log_q_add by (change (2 ^ 63) with 9223372036854775808; lia). cbn [bind]. rewrite set_ok by lia. cbn [bind]. eexists. eexists. split; [reflexivity|].
      assert (QB : forall v, bytes_like text starts v = bytes_like text (starts - 1) v + (if y =? v then 1 else 0)).
      { intros v. unfold bytes_like. replace (Z.to_nat starts) with (Z.to_nat (starts - 1) + 1)%nat by lia. rewrite WindowProofs.zseq_app, filter_app, zlen_app. cbn [zseq filter].
        replace (0 + Z.of_nat (Z.to_nat (starts - 1))) with (starts - 1) by lia. fold y. destruct (y =? v); reflexivity. }
      split; (split; [now rewrite zlen_zupd|]); intros v V.
      + rewrite QB. destruct (Z.eqb_spec y v) as [<-|N]; [now rewrite znth_zupd_same by lia|]. rewrite znth_zupd_other by congruence. rewrite Z.add_0_r. now apply SY.
      + rewrite QC. destruct (Z.eqb_spec y v) as [<-|N]; [now rewrite znth_zupd_same by lia|]. rewrite znth_zupd_other by congruence. rewrite Z.add_0_r. now apply SZ.
    - assert (starts = 0) by lia. subst starts. rewrite H in *. eexists. eexists. split; [reflexivity|]. split; (split; [assumption|]); intros v V.
      + exact (SY v V).
      + rewrite (SZ v V). f_equal. unfold costs_like. apply costs_ext. intros x X. rewrite Forall_forall in FB. specialize (FB x X). cbn beta in FB. lia. }
  destruct R as (cn & cs & -> & CN & CS). cbn [bind]. rewrite add_ok by (ib; lia). cbn [bind]. eexists. split; [reflexivity|].
  split; cbn [st_total_bytes st_total_contexts st_order_counts st_order_costs st_symbol_counts st_symbol_costs st_byte_cost st_total_cost st_order_occurrences]; try assumption.
  - reflexivity.
  - replace (starts + 1 - 1) with starts by lia. exact CN.
  - replace (starts + 1 - 1) with starts by lia. exact CS.
  - intros _. symmetry. apply costs_none. intros x X. rewrite Forall_forall in FB. specialize (FB x X). cbn beta in FB. lia.
Qed.
