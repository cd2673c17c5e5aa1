(** The two sources together. *)
From Coq Require Import ZifyBool.
From Verif Require Import Base BaseFacts StatesModel StatesSpec StatesProofs WindowModel HistModel HistSpec HistProofs FatProofs.
Ltac Zify.zify_post_hook ::= Z.div_mod_to_equations.

Lemma stands_same rates d h s s' : stands_for rates d h s -> stands_for rates d h s' -> neutralize_cost_trackers s = neutralize_cost_trackers s'.
Proof.
  unfold stands_for. destruct (uniform h); [congruence|]. intros (e & r & q & c & -> & E & R & Q) (e' & r' & q' & c' & -> & E' & R' & Q'). cbn [neutralize_cost_trackers]. congruence.
Qed.
Lemma znth_ext' {A} (l l' : list A) : zlen l = zlen l' -> (forall i x y, znth l i = Some x -> znth l' i = Some y -> x = y) -> l = l'.
Proof.
  revert l'. induction l as [|x l IH]; intros l' L H.
  - symmetry. apply zlen_zero. rewrite <- L. reflexivity.
  - destruct l' as [|y l']; [rewrite zlen_cons in L; change (zlen (@nil A)) with 0 in L; pose proof (zlen_nonneg l); lia|]. rewrite !zlen_cons in L. f_equal; [apply (H 0); reflexivity|].
    apply IH; [lia|]. intros i a b X Y. pose proof (znth_Some _ _ _ X). apply (H (i + 1)); cbn [znth]; replace (i + 1 =? 0) with false by lia; replace (i + 1 - 1) with i by lia; assumption.
Qed.
Lemma report_length rates max_order text a b : true_report rates max_order text a -> true_report rates max_order text b -> zlen a = zlen b.
Proof.
  assert (G : forall a b, true_report rates max_order text a -> true_report rates max_order text b -> zlen a <= zlen b); [|intros A B; apply Z.le_antisymm; now apply G].
  clear a b. intros a b (A & LA & EA) (B & LB & EB). destruct (Z.le_gt_cases (zlen a) (zlen b)) as [|GT]; [assumption|exfalso].
  pose proof (zlen_nonneg b). destruct (znth_lt a (zlen b) ltac:(lia)) as (s & S). destruct (A _ _ S) as (N & _). apply N. apply EB. lia.
Qed.
Lemma report_unique rates max_order text a b : true_report rates max_order text a -> true_report rates max_order text b ->
  map neutralize_cost_trackers a = map neutralize_cost_trackers b.
Proof.
  intros A B. pose proof (report_length _ _ _ _ _ A B) as L. destruct A as (A & _), B as (B & _). apply znth_ext'; [now rewrite !zlen_map|].
  intros i x y X Y. rewrite znth_map in X, Y. destruct (znth a i) as [s|] eqn:S; [|discriminate]. destruct (znth b i) as [s'|] eqn:S'; [|discriminate].
  injection X as <-. injection Y as <-. destruct (A _ _ S) as (_ & SA). destruct (B _ _ S') as (_ & SB). eapply stands_same; eassumption.
Qed.

Lemma stands_node rates d h s : stands_for rates d h s -> is_for_node s = negb (uniform h).
Proof. unfold stands_for. destruct (uniform h); [now intros ->|]. intros (e & r & q & c & -> & _). reflexivity. Qed.
Lemma followers_nil text o k : 0 <= o -> followers text o = [] -> followers text (o + Z.of_nat k) = [].
Proof.
  intros O E. induction k as [|k IH]; [now rewrite Z.add_0_r|]. destruct (followers text (o + Z.of_nat (S k))) as [|b l] eqn:Q; [reflexivity|]. exfalso.
  assert (I : In b (followers text (o + Z.of_nat k + 1))) by (replace (o + Z.of_nat k + 1) with (o + Z.of_nat (S k)) by lia; rewrite Q; now left).
  apply followers_longer in I; [|lia]. rewrite IH in I. destruct I.
Qed.
Lemma filter_count {A} (f : A -> bool) P l : forall a, (forall i s, znth l i = Some s -> f s = P (a + i)) -> zlen (filter f l) = zlen (filter P (zseq a (length l))).
Proof.
  induction l as [|x l IH]; intros a H; [reflexivity|]. cbn [filter length zseq]. rewrite (H 0 x) by reflexivity. rewrite Z.add_0_r.
  assert (Q : zlen (filter f l) = zlen (filter P (zseq (a + 1) (length l)))).
  { apply IH. intros i s S. pose proof (znth_Some _ _ _ S). rewrite (H (i + 1) s); [f_equal; lia|]. cbn [znth]. replace (i + 1 =? 0) with false by lia.
    now replace (i + 1 - 1) with i by lia. }
  destruct (P a); rewrite ?zlen_cons; lia.
Qed.
Lemma nodes_counted max_order text states : (forall o s, znth states o = Some s -> is_for_node s = negb (uniform (followers text o))) -> zlen states <= max_order + 1 ->
  (zlen states < max_order + 1 -> followers text (zlen states) = []) -> zlen (filter is_for_node states) = branching max_order text.
Proof.
  intros A B C. unfold branching. rewrite (filter_count _ (fun o => negb (uniform (followers text o))) _ 0).
  2:{ intros i s S. rewrite Z.add_0_l. exact (A i s S). }
  pose proof (zlen_nonneg states) as NN. replace (Z.to_nat (max_order + 1)) with (length states + Z.to_nat (max_order + 1 - zlen states))%nat by (unfold zlen in *; lia).
  rewrite WindowProofs.zseq_app, filter_app, zlen_app. set (rest := filter _ (zseq (0 + _) _)). replace rest with (@nil Z); [change (zlen (@nil Z)) with 0; lia|]. subst rest.
  destruct (Z.eq_dec (zlen states) (max_order + 1)) as [E|N]. { replace (Z.to_nat (max_order + 1 - zlen states)) with 0%nat by lia. reflexivity. }
  specialize (C ltac:(lia)). assert (G : forall o, zlen states <= o -> uniform (followers text o) = true).
  { intros o O. replace o with (zlen states + Z.of_nat (Z.to_nat (o - zlen states))) by lia. now rewrite followers_nil. }
  generalize (Z.to_nat (max_order + 1 - zlen states)). assert (LE : zlen states <= 0 + Z.of_nat (length states)) by (unfold zlen; lia). revert LE.
  generalize (0 + Z.of_nat (length states)). clear -G. intros a LE n. revert a LE. induction n as [|n IH]; intros a LE; [reflexivity|]. cbn [zseq filter].
  rewrite G by exact LE. cbn [negb]. apply IH. lia.
Qed.
Lemma report_nodes rates max_order text states : true_report rates max_order text states -> zlen (filter is_for_node states) = branching max_order text.
Proof. intros (A & B & C). apply nodes_counted; [|exact B|exact C]. intros o s S. destruct (A o s S) as (_ & ST). exact (stands_node _ _ _ _ ST). Qed.

Lemma bare_text input : map fst (bare input) = map fst input. Proof. unfold bare. rewrite map_map. reflexivity. Qed.
Lemma bare_default input : all_default (bare input). Proof. apply Forall_forall. intros x X. apply in_map_iff in X as (y & <- & _). constructor. Qed.

Lemma naive_true t max max_order input items : luts_new = Ok t -> 0 < max < 2 ^ 63 -> 0 <= max_order < 2 ^ 64 - 1 -> zlen input / 8 < max -> all_default input ->
  exists states, naive_states t max max_order input items = Ok (items ++ states) /\ true_report (lt_rates t) max_order (map fst input) states.
Proof.
  intros L M O F D. destruct (report_true t max_order input L ltac:(apply O)) as (states & E & T). exists states. split; [|exact T].
  rewrite (naive_report t max max_order input items M O F D), E. reflexivity.
Qed.
Lemma all_states t : luts_new = Ok t -> forall first later, exists s, advance_all t first later = Ok s /\
    is_for_node s = negb (uniform (bits_of first later)) /\ last_occurrence_distance s = last_distance first later.
Proof.
  intros L first later. destruct (state_of_history t first later L) as (s & E & S). exists s. split; [exact E|].
  destruct (accessors t first later s L E) as (_ & D & N & _). split; [exact N|exact D].
Qed.
Lemma fat_exact t hash max max_order input items : luts_new = Ok t -> 0 < max < 2 ^ 63 -> 0 <= max_order -> 8 * (max_order + 1) < 2 ^ 64 -> zlen input / 8 < max ->
  well_supplied max_order input -> fat_states t hash max max_order input items = let* r := report t max_order input in Ok (items ++ r).
Proof. intros L. apply fat_report. now apply all_states. Qed.
Lemma fat_true t hash max max_order input items : luts_new = Ok t -> 0 < max < 2 ^ 63 -> 0 <= max_order -> 8 * (max_order + 1) < 2 ^ 64 -> zlen input / 8 < max ->
  well_supplied max_order input ->
  exists states, fat_states t hash max max_order input items = Ok (items ++ states) /\ true_report (lt_rates t) max_order (map fst input) states /\
    zlen (filter is_for_node states) = branching max_order (map fst input).
Proof.
  intros L M O B F S. destruct (report_true t max_order input L O) as (states & E & T). exists states.
  rewrite (fat_exact t hash max max_order input items L M O B F S), E. cbn [bind]. split; [reflexivity|]. split; [exact T|]. exact (report_nodes _ _ _ _ T).
Qed.
Lemma fat_as_naive t hash max max_order input : luts_new = Ok t -> 0 < max < 2 ^ 63 -> 0 <= max_order -> 8 * (max_order + 1) < 2 ^ 64 -> zlen input / 8 < max ->
  well_supplied max_order input ->
  exists fat naive, fat_states t hash max max_order input [] = Ok fat /\ naive_states t max max_order (bare input) [] = Ok naive /\
    map neutralize_cost_trackers fat = map neutralize_cost_trackers naive.
Proof.
  intros L M O B F S. destruct (fat_true t hash max max_order input [] L M O B F S) as (fs & EF & TF & _).
  assert (O' : 0 <= max_order < 2 ^ 64 - 1) by (clear -O B; lia).
  destruct (naive_true t max max_order (bare input) [] L M O' ltac:(unfold bare; rewrite zlen_map; exact F) (bare_default input)) as (ns & EN & TN).
  rewrite bare_text in TN. exists fs, ns. split; [exact EF|]. split; [exact EN|]. exact (report_unique _ _ _ _ _ TF TN).
Qed.
Lemma hash_irrelevant t hash hash' max max_order input items : luts_new = Ok t -> 0 < max < 2 ^ 63 -> 0 <= max_order -> 8 * (max_order + 1) < 2 ^ 64 -> zlen input / 8 < max ->
  well_supplied max_order input -> fat_states t hash max max_order input items = fat_states t hash' max max_order input items.
Proof. intros L M O B F S. now rewrite !(fat_exact t _ max max_order input items L M O B F S). Qed.

(** A caller can always supply what is needed. *)
Lemma well_supplied_snoc max_order input b cs : well_supplied max_order input -> zlen cs = branching max_order (map fst input) -> well_supplied max_order (input ++ [(b, cs)]).
Proof.
  intros W C before b' cs' later E. destruct later as [|x later _] using rev_ind.
  - apply app_inj_tail in E as (-> & E). injection E as <- <-. exact C.
  - rewrite app_comm_cons, app_assoc in E. apply app_inj_tail in E as (-> & _). eapply W. reflexivity.
Qed.
Fixpoint supply_from (max_order : Z) (c : cost_trackers) (done : list bit) (rest : list bit) : fed :=
  match rest with [] => [] | b :: rest => (b, repeat c (Z.to_nat (branching max_order done))) :: supply_from max_order c (done ++ [b]) rest end.
Lemma supply_ok max_order c rest : forall before, well_supplied max_order before -> well_supplied max_order (before ++ supply_from max_order c (map fst before) rest).
Proof.
  induction rest as [|b rest IH]; intros before W; [now rewrite app_nil_r|]. cbn [supply_from].
  set (cs := repeat c _). replace (before ++ (b, cs) :: supply_from max_order c (map fst before ++ [b]) rest)
    with ((before ++ [(b, cs)]) ++ supply_from max_order c (map fst (before ++ [(b, cs)])) rest) by (rewrite map_app, <- app_assoc; reflexivity).
  apply IH. apply well_supplied_snoc; [exact W|]. unfold cs. rewrite zlen_repeat. unfold branching. pose proof (zlen_nonneg (filter (fun o : Z => negb (uniform (followers (map fst before) o))) (zseq 0 (Z.to_nat (max_order + 1))))). lia.
Qed.
Lemma supply_text max_order c rest : forall done, map fst (supply_from max_order c done rest) = rest.
Proof. induction rest as [|b rest IH]; intros done; [reflexivity|]. cbn [supply_from map fst]. now rewrite IH. Qed.
Lemma supply max_order c text : exists input, map fst input = text /\ well_supplied max_order input /\ Forall (fun x => Forall (eq c) (snd x)) input.
Proof.
  exists (supply_from max_order c [] text). split; [apply supply_text|]. split.
  - apply (supply_ok max_order c text []). intros before b cs later E. destruct before; discriminate.
  - generalize (@nil bit). induction text as [|b text IH]; intros done; cbn [supply_from]; constructor; [|apply IH]. cbn [snd]. apply Forall_forall. intros x X. apply repeat_spec in X. auto.
Qed.
