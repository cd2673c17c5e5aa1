(** The printed tables. *)
From Coq Require Import ZifyBool.
From Verif Require Import Base BaseFacts StatesModel StatesSpec WindowSpec HistSpec TreeModel TreeSpec PredModel PredSpec PredStats PredFacts HistProofs UtilProofs LutRound TreeFacts StatesProofs PrintModel WireSpec WireProofs PrintSpec.
Ltac Zify.zify_post_hook ::= Z.div_mod_to_equations.

Lemma mmap_all {A B} (f : A -> res B) g l : (forall x, In x l -> f x = Ok (g x)) -> mmap f l = Ok (map g l).
Proof. induction l as [|x l IH]; intros H; [reflexivity|]. cbn [mmap map]. rewrite (H x) by now left. cbn [bind]. rewrite IH by (intros y Y; apply H; now right). reflexivity. Qed.
Lemma mmap_fails {A B} (f : A -> res B) e l : (forall x, In x l -> (exists y, f x = Ok y) \/ f x = Fail e) -> (exists x, In x l /\ f x = Fail e) -> mmap f l = Fail e.
Proof.
  induction l as [|x l IH]; intros H (y & Y & FY); [destruct Y|]. cbn [mmap]. destruct (H x ltac:(now left)) as [(z & E)|E]; rewrite E; cbn [bind]; [|reflexivity].
  rewrite IH; [reflexivity| |]. { intros w W. apply H. now right. } destruct Y as [->|Y]; [congruence|]. exists y. split; assumption.
Qed.
Lemma counts_ext P Q l : (forall x, In x l -> charged x = true -> P x = Q x) -> counts P l = counts Q l.
Proof. intros H. unfold counts. f_equal. apply filter_ext_in. intros x X. destruct (charged x) eqn:C; [|reflexivity]. cbn [andb]. now apply H. Qed.
Lemma costs_ext' P Q l : (forall x, In x l -> charged x = true -> P x = Q x) -> costs P l = costs Q l.
Proof. intros H. unfold costs. f_equal. f_equal. apply filter_ext_in. intros x X. destruct (charged x) eqn:C; [|reflexivity]. cbn [andb]. now apply H. Qed.
Lemma kind_type mo o u x : line_ok mo x -> charged x = true -> 0 <= o < 5 -> 0 <= u < 5 -> (type_of x =? o * 5 + u) = of_kind o u x.
Proof. unfold line_ok, charged, type_of, of_kind. intros (A & B & _) C O U. destruct (Z.eqb_spec (Z.min 4 (ln_met x - 1)) o); destruct (Z.eqb_spec (Z.min 4 (ln_met x - ln_branching x)) u); cbn [andb]; lia. Qed.
Lemma kind_report o u s : 0 <= o < 5 -> 0 <= u < 5 -> (0 <? zlen s) && (report_type s =? o * 5 + u) = report_of_kind o u s.
Proof.
  intros O U. unfold report_type, report_of_kind. pose proof (zlen_nonneg (filter (fun x => negb (is_for_node x)) s)) as N. destruct (Z.ltb_spec 0 (zlen s)); [|reflexivity]. cbn [andb].
  destruct (Z.eqb_spec (Z.min 4 (zlen s - 1)) o); destruct (Z.eqb_spec (Z.min 4 (zlen (filter (fun x => negb (is_for_node x)) s))) u); cbn [andb]; lia.
Qed.
Lemma line_ok_printed mo starts text l states s o u : 4 <= mo -> accounted starts text l s -> Forall (line_ok mo) l -> st_order_occurrences s = occurrence_sums mo states -> 0 <= o < 5 -> 0 <= u < 5 ->
  type_line s o u = Ok (o, u, counts (of_kind o u) l, costs (of_kind o u) l, zsum (map highest_count (filter (report_of_kind o u) states))).
Proof.
  intros M A F S O U. unfold type_line. rewrite mul_ok by (ib; lia). cbn [bind]. rewrite add_ok by (ib; lia). cbn [bind].
  rewrite S. rewrite (get_ok _ _ _ (sums_at mo states (o * 5 + u) ltac:(lia))). cbn [bind]. rewrite (ac_counts _ _ _ _ A), (ac_costs _ _ _ _ A).
  rewrite (get_ok _ _ (counts (fun x => type_of x =? o * 5 + u) l)) by (rewrite BaseFacts.znth_map, UtilProofs.znth_zseq by lia; reflexivity). cbn [bind].
  rewrite (get_ok _ _ (costs (fun x => type_of x =? o * 5 + u) l)) by (rewrite BaseFacts.znth_map, UtilProofs.znth_zseq by lia; reflexivity). cbn [bind].
  rewrite Forall_forall in F. f_equal. f_equal; [f_equal; [f_equal|]|].
  - apply counts_ext. intros x X C. apply (kind_type mo); auto.
  - apply costs_ext'. intros x X C. apply (kind_type mo); auto.
  - f_equal. f_equal. apply filter_ext. intros x. now apply kind_report.
Qed.
Lemma table_printed mo starts text l states s : 4 <= mo -> accounted starts text l s -> Forall (line_ok mo) l -> st_order_occurrences s = occurrence_sums mo states ->
  type_lines s = Ok (kinds_table l states).
Proof.
  intros M A F S. unfold type_lines, kinds_table.
  rewrite (mmap_all _ (fun o => map (fun u => (o, u, counts (of_kind o u) l, costs (of_kind o u) l, zsum (map highest_count (filter (report_of_kind o u) states)))) (zseq 0 5))).
  - cbn [bind]. now rewrite <- flat_map_concat_map.
  - intros o O. apply zseq_In in O. apply mmap_all. intros u U. apply zseq_In in U. apply (line_ok_printed mo starts text); auto; lia.
Qed.
Lemma table_fails mo starts text l states s : 0 <= mo < 4 -> accounted starts text l s -> st_order_occurrences s = occurrence_sums mo states -> type_lines s = Fail EIndex.
Proof.
  intros M A S. assert (G : forall o u, 0 <= o < 5 -> 0 <= u < 5 -> (o <= mo -> exists y, type_line s o u = Ok y) /\ (mo < o -> type_line s o u = Fail EIndex)).
  { intros o u O U. unfold type_line. rewrite mul_ok by (ib; lia). cbn [bind]. rewrite add_ok by (ib; lia). cbn [bind]. rewrite S. split; intros H.
    - rewrite (get_ok _ _ _ (sums_at mo states (o * 5 + u) ltac:(lia))). cbn [bind]. rewrite (ac_counts _ _ _ _ A), (ac_costs _ _ _ _ A).
      rewrite (get_ok _ _ (counts (fun x => type_of x =? o * 5 + u) l)) by (rewrite BaseFacts.znth_map, UtilProofs.znth_zseq by lia; reflexivity). cbn [bind].
      rewrite (get_ok _ _ (costs (fun x => type_of x =? o * 5 + u) l)) by (rewrite BaseFacts.znth_map, UtilProofs.znth_zseq by lia; reflexivity). cbn [bind]. eexists. reflexivity.
    - unfold get. replace (znth (occurrence_sums mo states) (o * 5 + u)) with (@None Z); [reflexivity|]. symmetry. apply znth_None. right. rewrite sums_length by lia. lia. }
  unfold type_lines. rewrite (mmap_fails _ EIndex); [reflexivity| |].
  - intros o O. apply zseq_In in O. destruct (Z_le_gt_dec o mo) as [L|L].
    + left. assert (E : forall n a, 0 <= a -> a + Z.of_nat n <= 5 -> exists y, mmap (type_line s o) (zseq a n) = Ok y).
      { induction n as [|n IH]; intros a A0 AN; [eexists; reflexivity|]. cbn [zseq mmap]. destruct (proj1 (G o a ltac:(lia) ltac:(lia)) L) as (y & ->). cbn [bind]. destruct (IH (a + 1) ltac:(lia) ltac:(lia)) as (z & ->). eexists. reflexivity. }
      apply E; lia.
    + right. apply mmap_fails; [intros u U; apply zseq_In in U; right; apply G; lia|]. exists 0. split; [apply zseq_In; lia|apply G; lia].
  - exists (mo + 1). split; [apply zseq_In; lia|]. apply mmap_fails; [intros u U; apply zseq_In in U; right; apply G; lia|]. exists 0. split; [apply zseq_In; lia|apply G; lia].
Qed.
Lemma calls_printed t max mo uses p probabilities : luts_new = Ok t -> 0 < max <= 2 ^ 31 -> 0 <= mo -> 8 * mo + 7 < 2 ^ 16 -> zlen (told uses) < 2 ^ 47 - 1 ->
  use_all ModeLight t max mo uses = Ok (p, probabilities) -> asked uses = zlen (told uses) ->
  exists input states, map fst input = told uses /\ supplied max mo input /\ length states = length (told uses) /\ tree_reports t max mo input states /\
    (4 <= mo -> type_lines (pr_stats p) = Ok (kinds_table (ledger t max mo [] (trace_of uses probabilities)) states)) /\ (mo < 4 -> type_lines (pr_stats p) = Fail EIndex).
Proof.
  intros L M O D TL E AK. destruct (calls_wired t max mo uses p probabilities L M O D TL E AK) as (input & states & kits & outs & MI & SU & LS & TR & _ & _ & _ & _ & OS & _).
  pose proof (calls_accounted ModeLight t max mo uses p probabilities L M O D TL E) as A. destruct (calls_lines ModeLight t max mo uses p probabilities L M O D TL E) as (F & _). clear L.
  exists input, states. split; [exact MI|]. split; [exact SU|]. split; [exact LS|]. split; [exact TR|]. split; intros H; [exact (table_printed mo _ _ _ _ _ H A F OS)|exact (table_fails mo _ _ _ _ _ (conj O H) A OS)].
Qed.

(** ** Exact reports *)
Lemma reports_exact t max mo input states : luts_new = Ok t -> 0 < max <= 2 ^ 31 -> 0 <= mo -> 8 * mo + 7 < 2 ^ 16 -> supplied max mo input -> zlen states <= zlen input -> tree_reports t max mo input states ->
  forall i s, znth states i = Some s -> i / 8 < max -> true_report (lt_rates t) mo (firstn (Z.to_nat i) (map fst input)) s.
Proof.
  intros L M O D SU LS TR i s S I. pose proof (znth_Some _ _ _ S) as R. pose proof (TR i s S) as E. set (front := firstn (Z.to_nat i) input) in *.
  assert (LF : zlen front = i) by (clear - R LS; unfold front, zlen in *; rewrite firstn_length; lia).
  destruct (tree_true t max mo 0 front L M ltac:(clear - M; lia) O D ltac:(rewrite LF; exact I)) as (st & E' & T & _).
  { intros before b tk later EF. rewrite (SU before b tk (later ++ skipn (Z.to_nat i) input)).
    - f_equal. unfold in_window, forgotten. rewrite HistProofs.zlen_map. assert (LB : zlen front = zlen before + (1 + zlen later)) by (rewrite EF, zlen_app, zlen_cons; reflexivity). pose proof (zlen_nonneg before). pose proof (zlen_nonneg later).
      replace (Z.max 0 (zlen before / 8 + 1 - max)) with 0 by (clear - LB LF I H H0; lia). reflexivity.
    - rewrite <- (firstn_skipn (Z.to_nat i) input) at 1. fold front. rewrite EF, <- app_assoc. reflexivity. }
  rewrite E in E'. injection E' as <-. unfold front in T. rewrite firstn_map. exact T.
Qed.

(** ** Symbols *)
Lemma cells_printed starts text l s : accounted starts text l s ->
  symbol_rows s = Ok (map (fun row => map (fun column => let code := row + column * 32 in
    (code, zlen (filter (fun k => text_byte text k =? code) (zseq 0 (Z.to_nat (starts - 1)))), costs (fun x => (ln_byte x <? starts - 1) && (text_byte text (ln_byte x) =? code)) l)) (zseq 0 4)) (zseq 0 32)).
Proof.
  intros A. unfold symbol_rows. apply mmap_all. intros r R. apply zseq_In in R. apply mmap_all. intros c C. apply zseq_In in C. unfold symbol_cell. rewrite mul_ok by (ib; lia). cbn [bind]. rewrite add_ok by (ib; lia). cbn [bind].
  unfold print_symbol. rewrite (ac_symbol_counts _ _ _ _ A), (ac_symbol_costs _ _ _ _ A).
  rewrite (get_ok _ _ (zlen (filter (fun k => text_byte text k =? r + c * 32) (zseq 0 (Z.to_nat (starts - 1)))))) by (rewrite BaseFacts.znth_map, UtilProofs.znth_zseq by lia; reflexivity). cbn [bind].
  rewrite (get_ok _ _ (costs (fun x => (ln_byte x <? starts - 1) && (text_byte text (ln_byte x) =? r + c * 32)) l)) by (rewrite BaseFacts.znth_map, UtilProofs.znth_zseq by lia; reflexivity). reflexivity.
Qed.
Lemma cells_codes {A} (f : Z -> A) : forall x, In x (concat (map (fun row => map (fun column => f (row + column * 32)) (zseq 0 4)) (zseq 0 32))) <-> exists code, 0 <= code < 128 /\ x = f code.
Proof.
  intros x. rewrite in_concat. split.
  - intros (l & L & X). apply in_map_iff in L. destruct L as (r & <- & R). apply in_map_iff in X. destruct X as (c & <- & C). apply zseq_In in R, C. exists (r + c * 32). split; [lia|reflexivity].
  - intros (code & C & ->). eexists. split; [apply in_map_iff; exists (code mod 32); split; [reflexivity|apply zseq_In; lia]|]. apply in_map_iff. exists (code / 32). split; [f_equal; lia|apply zseq_In; lia].
Qed.
Lemma file_printed md t max mo bytes : luts_new = Ok t -> 0 < max <= 2 ^ 31 -> 0 <= mo -> 8 * mo + 7 < 2 ^ 16 -> 8 * zlen bytes < 2 ^ 47 - 1 -> Forall (fun x => 0 <= x < 256) bytes -> bytes <> [] ->
  exists p probabilities rows, use_all md t max mo (uses_of bytes) = Ok (p, probabilities) /\ symbol_rows (pr_stats p) = Ok rows /\ length (concat rows) = 128%nat /\
    forall x, In x (concat rows) <-> exists code, 0 <= code < 128 /\ x = (code, zlen (filter (fun y => y =? code) (removelast bytes)), cost_of_value t max mo bytes probabilities code).
Proof.
  intros L M O D TL F NE. destruct (file_predicted md t max mo bytes L M O D TL) as (p & probs & E & _).
  assert (TT : zlen (told (uses_of bytes)) < 2 ^ 47 - 1) by (rewrite told_file, zlen_bits; exact TL). pose proof (calls_accounted md t max mo _ p probs L M O D TT E) as A.
  destruct (calls_lines md t max mo _ p probs L M O D TT E) as (_ & _ & LT). clear L.
  unfold trace_of in A. rewrite told_file, started_file in A.
  set (g := fun code => (code, zlen (filter (fun k => text_byte (bit_string bytes) k =? code) (zseq 0 (Z.to_nat (zlen bytes - 1)))),
     costs (fun x => (ln_byte x <? zlen bytes - 1) && (text_byte (bit_string bytes) (ln_byte x) =? code)) (ledger t max mo [] (List.combine (bit_string bytes) probs)))).
  exists p, probs, (map (fun row => map (fun column => g (row + column * 32)) (zseq 0 4)) (zseq 0 32)). split; [exact E|]. split; [exact (cells_printed _ _ _ _ A)|]. split; [reflexivity|]. intros x.
  rewrite (cells_codes g). unfold g.
  destruct (exists_last NE) as (front & z & EB). assert (G : forall code, (code, zlen (filter (fun k => text_byte (bit_string bytes) k =? code) (zseq 0 (Z.to_nat (zlen bytes - 1)))),
     costs (fun x => (ln_byte x <? zlen bytes - 1) && (text_byte (bit_string bytes) (ln_byte x) =? code)) (ledger t max mo [] (List.combine (bit_string bytes) probs))) =
     (code, zlen (filter (fun y => y =? code) (removelast bytes)), cost_of_value t max mo bytes probs code)).
  { intros code. f_equal; [f_equal|].
    - rewrite EB in *. rewrite removelast_last, <- (file_front front z code F). f_equal. f_equal. f_equal. rewrite zlen_app. change (zlen [z]) with 1. unfold zlen. lia.
    - unfold cost_of_value. apply costs_ext. intros y Y. destruct (Z.ltb_spec (ln_byte y) (zlen bytes - 1)) as [LB|LB]; [|reflexivity]. cbn [andb]. f_equal.
      pose proof (ledger_bytes t max mo (List.combine (bit_string bytes) probs) []) as BB. rewrite Forall_forall in BB. specialize (BB y Y). cbn beta in BB. change (zlen (@nil bit) / 8) with 0 in BB.
      destruct (znth_lt bytes (ln_byte y) ltac:(lia)) as (v & V). rewrite (file_byte bytes _ v F V). rewrite znth_nth_error in V by lia. symmetry. exact (nth_error_nth _ _ _ V). }
  split; intros (code & C & ->); exists code; (split; [exact C|]); [apply G|symmetry; apply G].
Qed.
Lemma high_unprinted md t max mo bytes : luts_new = Ok t -> 0 < max <= 2 ^ 31 -> 0 <= mo -> 8 * mo + 7 < 2 ^ 16 -> 8 * zlen bytes < 2 ^ 47 - 1 -> Forall (fun x => 128 <= x < 256) bytes -> bytes <> [] ->
  exists p probabilities rows, use_all md t max mo (uses_of bytes) = Ok (p, probabilities) /\ symbol_rows (pr_stats p) = Ok rows /\ Forall (fun x => snd (fst x) = 0 /\ snd x = 0) (concat rows) /\
    zsum (st_symbol_counts (pr_stats p)) = zlen bytes - 1 /\ zsum (st_symbol_costs (pr_stats p)) + st_byte_cost (pr_stats p) = st_total_cost (pr_stats p).
Proof.
  intros L M O D TL F NE. assert (F' : Forall (fun x => 0 <= x < 256) bytes) by (eapply Forall_impl; [|exact F]; cbn; intros; lia).
  destruct (file_printed md t max mo bytes L M O D TL F' NE) as (p & probs & rows & E & R & _ & C). destruct (file_stats md t max mo bytes L M O D TL F') as (p' & probs' & E' & _ & _ & _ & H). rewrite E in E'. injection E' as <- <-. destruct (H NE) as (H1 & _ & H2). clear L H.
  exists p, probs, rows. split; [exact E|]. split; [exact R|]. split; [|split; [exact H2|exact H1]]. apply Forall_forall. intros x X. apply C in X. destruct X as (code & CR & ->). cbn [fst snd]. rewrite Forall_forall in F. split.
  - replace (filter _ (removelast bytes)) with (@nil Z); [reflexivity|]. symmetry. destruct (exists_last NE) as (front & z & EB). rewrite EB in *. rewrite removelast_last.
    assert (FF : forall y, In y front -> 128 <= y < 256) by (intros y Y; apply F, in_or_app; now left). clear - FF CR. induction front as [|y front IH]; [reflexivity|]. cbn [filter]. pose proof (FF y ltac:(now left)). replace (y =? code) with false by lia. apply IH. intros w W. apply FF. now right.
  - unfold cost_of_value. apply costs_none. intros y _. destruct (Z.ltb_spec (ln_byte y) (zlen bytes - 1)) as [LB|LB]; [|reflexivity]. cbn [andb].
    destruct (nth_in_or_default (Z.to_nat (ln_byte y)) bytes (-1)) as [I|I]; [pose proof (F _ I); lia|lia].
Qed.
Lemma predictor_exact t max mo uses p probabilities : luts_new = Ok t -> 0 < max <= 2 ^ 31 -> 0 <= mo -> 8 * mo + 7 < 2 ^ 16 -> zlen (told uses) < 2 ^ 47 - 1 ->
  use_all ModeLight t max mo uses = Ok (p, probabilities) -> asked uses = zlen (told uses) ->
  exists states kits outs, length states = length (told uses) /\ chain_new t mo = Ok kits /\
    mfold (KitSpec.chain_round t) (rounds_of [] (told uses) states) (kits, []) = Ok (pr_chain p, outs) /\ light t (told uses) outs probabilities (pr_finalizer p) /\
    forall i s, znth states i = Some s -> i / 8 < max -> true_report (lt_rates t) mo (firstn (Z.to_nat i) (told uses)) s.
Proof.
  intros L M O D TL E AK. destruct (calls_wired t max mo uses p probabilities L M O D TL E AK) as (input & states & kits & outs & MI & SU & LS & TR & _ & CN & CF & _ & _ & _ & LI).
  exists states, kits, outs. split; [exact LS|]. split; [exact CN|]. split; [exact CF|]. split; [exact LI|]. rewrite <- MI. apply (reports_exact t max mo input states L M O D SU); [|exact TR].
  rewrite <- MI, map_length in LS. unfold zlen. rewrite LS. apply Z.le_refl.
Qed.
Lemma two_bits_supplied : supplied 10 1 [(Zero, []); (One, [])].
Proof.
  intros before b tk later E. destruct before as [|x before]; [injection E as <- <- _; reflexivity|]. injection E as <- E. destruct before as [|y before]; [injection E as <- <- _; reflexivity|]. injection E as _ E. destruct before; discriminate.
Qed.
