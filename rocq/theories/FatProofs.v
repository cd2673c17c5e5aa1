(** The hash-map source. *)
From Coq Require Import ZifyBool.
From Verif Require Import Base BaseFacts StateModel EstModel LogModel StatesModel StatesSpec StatesProofs WindowModel WindowSpec WindowProofs HistModel HistSpec HistProofs.
Ltac Zify.zify_post_hook ::= Z.div_mod_to_equations.

(** ** Longer contexts are met less often *)
Lemma skipn_skipn {A} n k (l : list A) : skipn n (skipn k l) = skipn (k + n) l.
Proof. revert l. induction k as [|k IH]; intros l; [reflexivity|]. destruct l; [now rewrite !skipn_nil|]. cbn [skipn plus]. apply IH. Qed.
Lemma bits_at_tail text p len : 0 <= p -> 0 <= len -> bits_at text (p + 1) len = skipn 8 (bits_at text p (8 + len)).
Proof.
  intros P L. unfold bits_at. replace (Z.to_nat (8 + len)) with (8 + Z.to_nat len)%nat by lia. rewrite skipn_firstn_comm, skipn_skipn.
  do 2 f_equal; lia.
Qed.
Lemma bits_at_head text p len : 0 <= p -> 0 <= len -> firstn 8 (bits_at text p (8 + len)) = bits_at text p 8.
Proof. intros P L. unfold bits_at. rewrite firstn_firstn. f_equal. lia. Qed.
Lemma earlier_longer text o p : 0 <= o -> In p (earlier text (o + 1)) -> In (p + 1) (earlier text o).
Proof.
  intros O. unfold earlier, last_start. rewrite !filter_In, !zseq_In. intros (B & S). apply same_iff in S. split; [lia|]. apply same_iff.
  pose proof (Z.mod_pos_bound (zlen text) 8 ltac:(lia)) as U. unfold unfinished in *.
  rewrite bits_at_tail by lia. replace (zlen text / 8 - o) with (zlen text / 8 - (o + 1) + 1) by lia. rewrite (bits_at_tail _ (zlen text / 8 - (o + 1))) by lia.
  replace (8 + (8 * o + zlen text mod 8)) with (8 * (o + 1) + zlen text mod 8) by lia. now rewrite S.
Qed.
Lemma followers_longer text o b : 0 <= o -> In b (followers text (o + 1)) -> In b (followers text o).
Proof.
  intros O. unfold followers. rewrite !in_map_iff. intros (p & E & I). exists (p + 1). split; [|now apply earlier_longer]. rewrite <- E. do 2 f_equal. unfold after. lia.
Qed.
Lemma uniform_iff h : uniform h = false <-> In Zero h /\ In One h.
Proof.
  unfold uniform. split.
  - intros U. destruct h as [|x h]; [discriminate|]. cbn [hd] in U. cbn [forallb] in U. rewrite Bool.eqb_reflx in U. cbn [andb] in U.
    assert (E : exists y, In y h /\ Bool.eqb x y = false).
    { clear -U. induction h as [|y h IH]; [discriminate|]. cbn [forallb] in U. destruct (Bool.eqb x y) eqn:E; [|exists y; cbn; auto].
      destruct (IH U) as (z & I & Q). exists z. cbn. auto. }
    destruct E as (y & I & Q). destruct x, y; try discriminate; cbn [In]; unfold Zero, One; auto.
  - intros (A & B). destruct (forallb (Bool.eqb (hd Zero h)) h) eqn:E; [|reflexivity]. rewrite forallb_forall in E. pose proof (E _ A) as EA. pose proof (E _ B) as EB.
    destruct (@hd bit Zero h); cbn in EA, EB; discriminate.
Qed.
Lemma branching_longer text o : 0 <= o -> uniform (followers text (o + 1)) = false -> uniform (followers text o) = false.
Proof. intros O. rewrite !uniform_iff. intros (A & B). split; now apply followers_longer. Qed.
Lemma prefix_filter P n : forall a, (forall o, a <= o -> P (o + 1) = true -> P o = true) -> forall o, a <= o < a + Z.of_nat n ->
  (P o = true <-> o < a + zlen (filter P (zseq a n))).
Proof.
  induction n as [|n IH]; intros a H o O; [lia|]. cbn [zseq filter]. destruct (P a) eqn:E.
  - rewrite zlen_cons. destruct (Z.eq_dec o a) as [->|N]. { pose proof (zlen_nonneg (filter P (zseq (a + 1) n))). split; [lia|congruence]. }
    rewrite (IH (a + 1)) by (lia || (intros o' O'; apply H; lia)). lia.
  - assert (G : forall k, 0 <= k -> P (a + k) = false).
    { intros k K. pattern k. apply natlike_ind; [now rewrite Z.add_0_r| |exact K]. intros x X IH'. destruct (P (a + Z.succ x)) eqn:Q; [|reflexivity].
      replace (a + Z.succ x) with (a + x + 1) in Q by lia. apply H in Q; [|lia]. congruence. }
    assert (F : filter P (zseq (a + 1) n) = []).
    { assert (GG : forall x, In x (zseq (a + 1) n) -> P x = false) by (intros x X; apply zseq_In in X; replace x with (a + (x - a)) by lia; apply G; lia).
      clear -GG. induction (zseq (a + 1) n) as [|x l IHl]; [reflexivity|]. cbn [filter]. rewrite (GG x) by (left; reflexivity). apply IHl. intros; apply GG; now right. }
    rewrite F. change (zlen (@nil Z)) with 0. replace o with (a + (o - a)) by lia. rewrite G by lia. split; [discriminate|lia].
Qed.
Lemma branching_iff max_order text o : 0 <= o <= max_order -> (uniform (followers text o) = false <-> o < branching max_order text).
Proof.
  intros O. unfold branching. pose proof (prefix_filter (fun o => negb (uniform (followers text o))) (Z.to_nat (max_order + 1)) 0) as H.
  specialize (H ltac:(intros o' O' E; rewrite Bool.negb_true_iff in *; now apply branching_longer) o ltac:(lia)). rewrite Bool.negb_true_iff in H. rewrite H. now rewrite Z.add_0_l.
Qed.

(** ** Hashes *)
Definition num (bits : list bit) : Z := fold_left (fun a (b : bit) => 2 * a + bit_z b) bits 0.
Fixpoint chunk (n : nat) (bits : list bit) : list Z := match n with O => [] | S n => num (firstn 8 bits) :: chunk n (skipn 8 bits) end.
Definition key (hash : hasher) (o part : Z) (bits : list bit) : Z :=
  hash (8 * o + (7 - part)) (chunk (Z.to_nat o) bits) (num (One :: skipn (Z.to_nat (8 * o)) bits)).

Lemma num_byte x : 0 <= x < 256 -> num (byte_bits x) = x.
Proof. intros X. pose proof byte_bits_sweep as S. rewrite forallb_forall in S. apply Z.eqb_eq. apply (S x). apply zseq_In. lia. Qed.
Lemma num_part_sweep : forallb (fun x => forallb (fun j => num (One :: firstn (Z.to_nat j) (byte_bits x)) =? (256 + x) / 2 ^ (8 - j)) (zseq 0 8)) (zseq 0 256) = true.
Proof. vm_compute. reflexivity. Qed.
Lemma num_part x j : 0 <= x < 256 -> 0 <= j < 8 -> num (One :: firstn (Z.to_nat j) (byte_bits x)) = (256 + x) / 2 ^ (8 - j).
Proof.
  intros X J. pose proof num_part_sweep as S. rewrite forallb_forall in S. specialize (S x ltac:(apply zseq_In; lia)). cbv beta in S. rewrite forallb_forall in S.
  apply Z.eqb_eq. apply (S j). apply zseq_In. lia.
Qed.

Record fat_window (max : Z) (input : fed) (bytes : list Z) (f : fat) : Prop := {
  fw_tape : tape max 0 (map fst input) bytes (fm_input f);
  fw_bit : fm_bit_index f = 7 - zlen input mod 8 }.
Definition maps_long (f : fat) : Prop := 0 <= fm_max_order f /\ 8 * (fm_max_order f + 1) < 2 ^ 64 /\ zlen (fm_maps f) = 8 * (fm_max_order f + 1).

Lemma map_index_ok max input bytes f o : fat_window max input bytes f -> maps_long f -> 0 <= o <= fm_max_order f ->
  map_index f o = Ok (8 * o + (7 - zlen input mod 8)).
Proof.
  intros W (M1 & M2 & M3) O. unfold map_index. rewrite (fw_bit _ _ _ _ W). rewrite mul_ok by (ib; lia). cbn [bind]. rewrite add_ok by (ib; lia). f_equal. lia.
Qed.
Lemma byte_num m s text bytes w p : tape m s text bytes w -> 0 <= p -> 8 * p + 8 <= zlen text ->
  exists x, znth bytes p = Some x /\ num (bits_at text p 8) = x.
Proof.
  intros T P L. pose proof T as (R & TL & _). destruct (znth_lt bytes p ltac:(lia)) as (x & X). exists x. split; [exact X|].
  rewrite (tape_bits m s text bytes w) by (assumption || lia). rewrite (from_step _ _ _ X). unfold bit_string. cbn [flat_map].
  rewrite firstn_app. change (length (byte_bits x)) with 8%nat. change (Z.to_nat 8 - 8)%nat with 0%nat. cbn [firstn]. rewrite app_nil_r.
  rewrite firstn_all2 by (change (length (byte_bits x)) with 8%nat; lia). apply num_byte. apply (znth_Forall _ _ _ _ (rp_bytes _ _ _ _ R) X).
Qed.
Lemma range_1_S n : rev (range 1 (Z.of_nat (S n) + 1)) = Z.of_nat (S n) :: rev (range 1 (Z.of_nat n + 1)).
Proof.
  unfold range. replace (Z.to_nat (Z.of_nat (S n) + 1 - 1)) with (n + 1)%nat by lia. rewrite zseq_app. cbn [zseq]. rewrite rev_app_distr. cbn [rev app].
  replace (Z.to_nat (Z.of_nat n + 1 - 1)) with n by lia. f_equal. lia.
Qed.
Lemma hash_bytes max text bytes w len : tape max 0 text bytes w -> zlen bytes = zlen text / 8 + 1 -> 0 <= len <= zlen text mod 8 ->
  forall n, Z.of_nat n <= zlen text / 8 ->
  mmap (fun distance => let* index := index_subtract w (w_cursor w) distance in byte_at w index) (rev (range 1 (Z.of_nat n + 1))) =
    Ok (chunk n (bits_at text (zlen text / 8 - Z.of_nat n) (8 * Z.of_nat n + len))).
Proof.
  intros T RD LN. pose proof T as (R & _). pose proof (rp_m _ _ _ _ R) as M. pose proof (rp_fits _ _ _ _ R) as FT. pose proof (zlen_nonneg text) as NT.
  induction n as [|n IH]; intros N; [reflexivity|]. rewrite range_1_S. cbn [mmap chunk].
  rewrite (rp_cursor _ _ _ _ R). rewrite (index_subtract_ok _ _ _ _ _ _ R) by lia. cbn [bind].
  destruct (byte_num _ _ _ _ _ (zlen text / 8 - Z.of_nat (S n)) T ltac:(lia) ltac:(lia)) as (x & X & Q).
  unfold byte_at at 1. rewrite (get_ok _ _ x); [|rewrite (rp_at _ _ _ _ R) by lia; rewrite <- X; f_equal; lia]. cbn [bind].
  rewrite <- (rp_cursor _ _ _ _ R). rewrite IH by lia. cbn [bind]. do 2 f_equal.
  - replace (8 * Z.of_nat (S n) + len) with (8 + (8 * Z.of_nat n + len)) by lia. rewrite bits_at_head by lia. now rewrite Q.
  - replace (8 * Z.of_nat (S n) + len) with (8 + (8 * Z.of_nat n + len)) by lia. rewrite <- bits_at_tail by lia. do 2 f_equal. lia.
Qed.
Lemma bits_at_skip text p n len : 0 <= p -> 0 <= n -> 0 <= len -> skipn (Z.to_nat (8 * n)) (bits_at text p (8 * n + len)) = bits_at text (p + n) len.
Proof.
  intros P N L. unfold bits_at. replace (Z.to_nat (8 * n + len)) with (Z.to_nat (8 * n) + Z.to_nat len)%nat by lia. rewrite skipn_firstn_comm, skipn_skipn. do 2 f_equal; lia.
Qed.
Definition ctx (input : fed) (o part p : Z) : list bit := bits_at (map fst input) p (8 * o + part).
Lemma compute_hash_ok hash max input bytes f o : fat_window max input bytes f -> maps_long f -> ready (map fst input) bytes ->
  0 <= o <= fm_max_order f -> o <= zlen input / 8 ->
  compute_hash hash f o = Ok (key hash o (zlen input mod 8) (ctx input o (zlen input mod 8) (zlen input / 8 - o))).
Proof.
  intros W ML RD O OC. unfold compute_hash. rewrite (map_index_ok max input bytes) by assumption. cbn [bind].
  pose proof (fw_tape _ _ _ _ W) as T. pose proof (fw_bit _ _ _ _ W) as B. destruct ML as (M1 & M2 & M3). unfold ready in RD.
  destruct (znth_lt (fm_maps f) (8 * o + (7 - zlen input mod 8)) ltac:(lia)) as (m & Hm). rewrite (get_ok _ _ _ Hm). cbn [bind].
  pose proof (zlen_map fst input) as LM. pose proof (zlen_nonneg input) as NI.
  pose proof (hash_bytes max (map fst input) bytes (fm_input f) (zlen input mod 8) T RD ltac:(lia) (Z.to_nat o) ltac:(lia)) as HB.
  rewrite !Z2Nat.id in HB by lia. rewrite HB. cbn [bind]. pose proof T as (R & TL & _). unfold byte_at. rewrite (rp_cursor _ _ _ _ R).
  destruct (znth_lt bytes (zlen bytes - 1) ltac:(lia)) as (x & X). rewrite (get_ok _ _ x) by (rewrite (rp_at _ _ _ _ R) by lia; exact X). cbn [bind].
  pose proof (znth_Forall _ _ _ _ (rp_bytes _ _ _ _ R) X) as XB. cbv beta in XB. rewrite add_ok by (ib; lia). cbn [bind]. rewrite B. rewrite add_ok by (ib; lia). cbn [bind].
  rewrite shr_ok by (cbn [ibits u16]; lia). cbn [bind]. unfold key, ctx. do 2 f_equal; [now rewrite LM|].
  rewrite bits_at_skip by lia. replace (zlen input / 8 - o + o) with (zlen input / 8) by lia.
  rewrite (tape_bits _ _ _ _ _ _ _ T) by lia. replace (zlen input / 8) with (zlen bytes - 1) by lia. rewrite (from_step _ _ _ X). unfold bit_string. cbn [flat_map].
  rewrite firstn_app. change (length (byte_bits x)) with 8%nat. replace (Z.to_nat (zlen input mod 8) - 8)%nat with 0%nat by lia. cbn [firstn]. rewrite app_nil_r.
  rewrite num_part by lia. do 2 f_equal. lia.
Qed.

(** ** States with other distances *)
Lemma advance_with_distance t d s o : advance t (with_distance d s) o = advance t s o.
Proof. destruct o as [[d' b] c]. unfold advance. destruct s; reflexivity. Qed.
Lemma advance_retarget t s d d' b c : advance t s (d, b, c) = let* s' := advance t s (d', b, c) in Ok (with_distance d s').
Proof.
  unfold advance, next_state. destruct s as [d0 n r|d0 e r q k]; cbn [is_for_node of_opt bind assert_ guard].
  - destruct (Bool.eqb r b).
    + destruct (add u16 n 1); reflexivity.
    + destruct (cache_for_new_node (lt_cache t) b n); cbn [bind]; [|reflexivity]. destruct (rb_for_new_node b n); cbn [bind]; [|reflexivity].
      destruct (br_for_new_node b n); cbn [bind]; [|reflexivity]. destruct (cost_lut_for_new_node (lt_cost t) n); reflexivity.
  - destruct (de_update (lt_rates t) e b); cbn [bind]; [|reflexivity]. destruct (rb_updated r b); cbn [bind]; [|reflexivity]. destruct (br_updated q b); reflexivity.
Qed.
Definition state_of (t : luts) (l : list occurrence) : res context_state := match l with [] => Fail EAssert | x :: r => advance_all t (fst x) r end.
Lemma state_of_snoc t l x : l <> [] -> state_of t (l ++ [x]) = let* s := state_of t l in advance t s x.
Proof.
  intros N. destruct l as [|y l]; [congruence|]. cbn [app state_of]. unfold advance_all. rewrite mfold_app. destruct (mfold (advance t) l _); cbn [bind mfold]; [|reflexivity].
  destruct (advance t a x); reflexivity.
Qed.
Lemma state_retarget t (g : Z -> Z) (h : Z -> bit * cost_trackers) l d : l <> [] ->
  state_of t (map (fun p => (g p, fst (h p), snd (h p))) l) =
  let* s := state_of t (map (fun p => (p, fst (h p), snd (h p))) l) in Ok (with_distance (g (last l d)) s).
Proof.
  intros N. destruct l as [|x l] using rev_ind; [congruence|]. clear N. rewrite last_last. rewrite !map_app. cbn [map]. destruct l as [|y l]; [reflexivity|].
  rewrite !state_of_snoc by (cbn [map]; congruence).
  assert (G : forall l, l <> [] -> exists f, state_of t (map (fun p => (g p, fst (h p), snd (h p))) l) =
    let* s := state_of t (map (fun p => (p, fst (h p), snd (h p))) l) in Ok (with_distance f s)).
  { clear. intros l. induction l as [|x l IH] using rev_ind; intros N; [congruence|]. exists (g x). rewrite !map_app. cbn [map]. destruct l as [|y l]; [reflexivity|].
    rewrite !state_of_snoc by (cbn [map]; congruence). destruct (IH ltac:(congruence)) as (f & E). rewrite E. clear IH E. destruct (state_of t _) as [s|]; cbn [bind]; [|reflexivity].
    rewrite advance_with_distance. apply advance_retarget. }
  destruct (G (y :: l) ltac:(congruence)) as (f & E). rewrite E. clear G E IHl. destruct (state_of t _) as [s|]; cbn [bind]; [|reflexivity]. rewrite advance_with_distance. apply advance_retarget.
Qed.

(** ** What the maps hold *)
Definition occ (input : fed) (o part p : Z) : occurrence :=
  let x := nth (Z.to_nat (8 * (p + o) + part)) input (Zero, []) in (p, fst x, nth (Z.to_nat o) (snd x) ct_default).
Definition seen (input : fed) (o part n : Z) (c : list bit) : list Z := filter (fun p => same (ctx input o part p) c) (zseq 0 (Z.to_nat n)).
Record map_inv (t : luts) (hash : hasher) (input : fed) (o part n : Z) (m : hash_map) : Prop := {
  mi_items : forall h v, hm_get m h = Some v -> NoDup (map last_occurrence_distance v) /\
    Forall (fun s => let p := last_occurrence_distance s in 0 <= p < n /\ key hash o part (ctx input o part p) = h /\
      state_of t (map (occ input o part) (seen input o part n (ctx input o part p))) = Ok s) v;
  mi_all : forall p, 0 <= p < n -> exists v s, hm_get m (key hash o part (ctx input o part p)) = Some v /\ In s v /\
    ctx input o part (last_occurrence_distance s) = ctx input o part p }.

Lemma seen_In input o part n c p : In p (seen input o part n c) <-> 0 <= p < n /\ ctx input o part p = c.
Proof. unfold seen. rewrite filter_In, zseq_In, same_iff. intuition lia. Qed.
Lemma seen_succ input o part n c : 0 <= n -> seen input o part (n + 1) c = seen input o part n c ++ if same (ctx input o part n) c then [n] else [].
Proof.
  intros N. unfold seen. replace (Z.to_nat (n + 1)) with (Z.to_nat n + 1)%nat by lia. rewrite zseq_app, filter_app. f_equal. cbn [zseq filter].
  replace (0 + Z.of_nat (Z.to_nat n)) with n by lia. destruct (same _ _); reflexivity.
Qed.
Lemma ctx_ext input x o part p : 0 <= p -> 0 <= o -> 0 <= part -> 8 * (p + o) + part <= zlen input -> ctx (input ++ x) o part p = ctx input o part p.
Proof. intros P O A L. unfold ctx. rewrite map_app. apply bits_at_app; rewrite ?zlen_map; lia. Qed.
Lemma occ_ext input x o part p : 0 <= p -> 0 <= o -> 0 <= part -> 8 * (p + o) + part < zlen input -> occ (input ++ x) o part p = occ input o part p.
Proof. intros P O A L. unfold occ. rewrite app_nth1 by (unfold zlen in *; lia). reflexivity. Qed.
Lemma filter_ext_Forall {A} (f g : A -> bool) l : Forall (fun x => f x = g x) l -> filter f l = filter g l.
Proof. intros F. induction F as [|x l E F IH]; [reflexivity|]. cbn [filter]. now rewrite E, IH. Qed.
Lemma seen_ext input x o part n c : 0 <= o -> 0 <= part -> 8 * (n - 1 + o) + part < zlen input -> seen (input ++ x) o part n c = seen input o part n c.
Proof.
  intros O A L. unfold seen. apply filter_ext_Forall. apply Forall_forall. intros p P. apply zseq_In in P. now rewrite ctx_ext by lia.
Qed.
Lemma state_ext t input x o part n c : 0 <= o -> 0 <= part -> 8 * (n - 1 + o) + part < zlen input ->
  state_of t (map (occ (input ++ x) o part) (seen (input ++ x) o part n c)) = state_of t (map (occ input o part) (seen input o part n c)).
Proof.
  intros O A L. rewrite seen_ext by assumption. f_equal. apply map_ext_in. intros p P. apply seen_In in P. apply occ_ext; lia.
Qed.
Lemma map_inv_ext t hash input x o part n m : 0 <= o -> 0 <= part -> 8 * (n - 1 + o) + part < zlen input ->
  map_inv t hash input o part n m -> map_inv t hash (input ++ x) o part n m.
Proof.
  intros O A L [I C]. split.
  - intros h v G. destruct (I h v G) as (ND & F). split; [exact ND|]. eapply Forall_impl; [|exact F]. cbv beta zeta. intros s (B & K & S).
    rewrite (ctx_ext input x) by lia. rewrite state_ext by assumption. auto.
  - intros p P. rewrite (ctx_ext input x) by lia. destruct (C p P) as (v & s & G & IN & E). exists v, s. split; [exact G|]. split; [exact IN|].
    destruct (I _ _ G) as (_ & F). rewrite Forall_forall in F. destruct (F s IN) as (B & _). rewrite ctx_ext by lia. exact E.
Qed.
Lemma map_inv_none t hash input input' o part n n' m : n <= 0 -> n' <= 0 -> map_inv t hash input o part n m -> map_inv t hash input' o part n' m.
Proof.
  intros N N' [I C]. split; [|intros p P; lia]. intros h v G. destruct (I h v G) as (ND & F). destruct v as [|s v]; [auto|].
  pose proof (Forall_inv F) as B. cbv beta zeta in B. lia.
Qed.

Lemma mfind_ok {A} (test : A -> res bool) (g : A -> bool) l : (forall x, In x l -> test x = Ok (g x)) -> forall i,
  (mfind test l i = Ok None /\ forall x, In x l -> g x = false) \/
  exists j x, mfind test l i = Ok (Some (i + j, x)) /\ znth l j = Some x /\ g x = true.
Proof.
  induction l as [|x l IH]; intros H i; [left; split; [reflexivity|intros x []]|]. cbn [mfind]. rewrite (H x) by (left; reflexivity). cbn [bind]. destruct (g x) eqn:G.
  - right. exists 0, x. rewrite Z.add_0_r. cbn [znth Z.eqb]. auto.
  - destruct (IH ltac:(intros; apply H; now right) (i + 1)) as [(E & F)|(j & y & E & Z1 & Q)].
    + left. split; [exact E|]. intros y [<-|Y]; auto.
    + right. exists (j + 1), y. pose proof (znth_Some _ _ _ Z1). split; [rewrite E; do 3 f_equal; lia|]. split; [|exact Q]. cbn [znth].
      replace (j + 1 =? 0) with false by lia. rewrite <- Z1. f_equal. lia.
Qed.
Lemma seen_nil_iff input o part n c : (forall p, 0 <= p < n -> ctx input o part p <> c) -> seen input o part n c = [].
Proof.
  intros H. destruct (seen input o part n c) as [|p l] eqn:E; [reflexivity|]. exfalso. assert (I : In p (seen input o part n c)) by (rewrite E; now left).
  apply seen_In in I. destruct I as (P & Q). exact (H p P Q).
Qed.
(** Looking for a context in its bucket. *)
Lemma bucket_find t hash input o part n m c (test : context_state -> res bool) : map_inv t hash input o part n m ->
  (forall s, 0 <= last_occurrence_distance s < n -> test s = Ok (same (ctx input o part (last_occurrence_distance s)) c)) ->
  let v := match hm_get m (key hash o part c) with Some v => v | None => [] end in
  (mfind test v 0 = Ok None /\ seen input o part n c = []) \/
  exists j s, mfind test v 0 = Ok (Some (j, s)) /\ znth v j = Some s /\ 0 <= last_occurrence_distance s < n /\ ctx input o part (last_occurrence_distance s) = c /\
    state_of t (map (occ input o part) (seen input o part n c)) = Ok s.
Proof.
  intros [I C] T v. assert (VI : Forall (fun s => let p := last_occurrence_distance s in 0 <= p < n /\ key hash o part (ctx input o part p) = key hash o part c /\
      state_of t (map (occ input o part) (seen input o part n (ctx input o part p))) = Ok s) v).
  { subst v. destruct (hm_get m (key hash o part c)) as [v|] eqn:G; [|constructor]. now destruct (I _ _ G). }
  rewrite Forall_forall in VI.
  destruct (mfind_ok test (fun s => same (ctx input o part (last_occurrence_distance s)) c) v ltac:(intros s S; apply T; now destruct (VI s S)) 0) as [(E & F)|(j & s & E & Z1 & Q)].
  - left. split; [exact E|]. apply seen_nil_iff. intros p P Q. destruct (C p P) as (v' & s & G & IN & S). rewrite Q in G. subst v. rewrite G in F.
    pose proof (F s IN) as FF. rewrite S, Q in FF. assert (TT : same c c = true) by now apply same_iff. congruence.
  - right. exists j, s. rewrite Z.add_0_l in E. apply same_iff in Q. pose proof (znth_In _ _ _ Z1) as IN. destruct (VI s IN) as (B & _ & S). rewrite Q in S. auto 6.
Qed.

Lemma NoDup_zupd {A} (l : list A) i x : NoDup l -> ~ In x l -> NoDup (zupd l i x).
Proof.
  intros N. revert i. induction N as [|y l Y N IH]; intros i X; [constructor|]. cbn [zupd]. destruct (i =? 0).
  - constructor; [|exact N]. intros I. apply X. now right.
  - constructor; [|apply IH; intros I; apply X; now right]. intros I. assert (G : forall l i, In y (zupd l i x) -> y = x \/ In y l).
    { clear. induction l as [|z l IH]; intros i I; [now right|]. cbn [zupd] in I. destruct (i =? 0); destruct I as [<-|I]; cbn [In]; auto.
      destruct (IH _ I); auto. }
    apply G in I as [->|I]; [apply X; now left|contradiction].
Qed.
Lemma In_zupd_keep {A} (l : list A) i x y z : In x l -> znth l i = Some y -> x <> y -> In x (zupd l i z).
Proof.
  revert i. induction l as [|w l IH]; intros i I Z1 N; [destruct I|]. cbn [znth zupd] in *. destruct (i =? 0).
  - injection Z1 as ->. destruct I as [->|I]; [congruence|now right].
  - destruct I as [->|I]; [now left|]. right. eapply IH; eauto.
Qed.
Lemma In_zupd_inv {A} (l : list A) i x z : In x (zupd l i z) -> x = z \/ exists j, j <> i /\ znth l j = Some x.
Proof.
  revert i. induction l as [|w l IH]; intros i I; [destruct I|]. cbn [zupd] in I. destruct (Z.eqb_spec i 0) as [E0|N]; [subst i|].
  - destruct I as [<-|I]; [now left|]. right. apply In_nth_error in I as (n & E). exists (Z.of_nat n + 1). split; [lia|]. cbn [znth].
    replace (Z.of_nat n + 1 =? 0) with false by lia. rewrite znth_nth_error by lia. rewrite <- E. f_equal. lia.
  - destruct I as [<-|I]; [right; exists 0; split; [congruence|reflexivity]|]. destruct (IH _ I) as [->|(j & J & E)]; [now left|]. right. exists (j + 1).
    pose proof (znth_Some _ _ _ E). split; [lia|]. cbn [znth]. replace (j + 1 =? 0) with false by lia. rewrite <- E. f_equal. lia.
Qed.
Lemma NoDup_znth {A B} (g : A -> B) l i j x y : NoDup (map g l) -> znth l i = Some x -> znth l j = Some y -> g x = g y -> i = j.
Proof.
  intros N X Y E. pose proof (znth_Some _ _ _ X). pose proof (znth_Some _ _ _ Y). rewrite NoDup_nth_error in N. rewrite znth_nth_error in X, Y by lia.
  assert (Q : Z.to_nat i = Z.to_nat j); [|lia]. apply N; [rewrite map_length; unfold zlen in *; lia|]. rewrite !nth_error_map, X, Y. cbn [option_map]. now rewrite E.
Qed.
Lemma map_zupd_g {A B} (g : A -> B) l i x : map g (zupd l i x) = zupd (map g l) i (g x).
Proof. revert i. induction l as [|y l IH]; intros i; [reflexivity|]. cbn [zupd map]. destruct (i =? 0); cbn [map]; [reflexivity|]. now rewrite IH. Qed.

Section Record_.
  Variables (t : luts) (hash : hasher) (input : fed) (b : bit) (cs : list cost_trackers) (o part n : Z) (m : hash_map).
  Hypothesis (O : 0 <= o) (PA : 0 <= part) (N : 0 <= n) (L : 8 * (n + o) + part = zlen input).
  Hypothesis (I : map_inv t hash input o part n m).
  Hypothesis (DIST : forall l s, state_of t l = Ok s -> last_occurrence_distance s = fst (fst (last l (0, Zero, ct_default)))).
  Let input' := input ++ [(b, cs)].
  Let c := ctx input o part n.
  Lemma ctx' p : 0 <= p <= n -> ctx input' o part p = ctx input o part p.
  Proof. intros P. apply ctx_ext; lia. Qed.
  Lemma occ_new : occ input' o part n = (n, b, nth (Z.to_nat o) cs ct_default).
  Proof. unfold occ, input'. rewrite app_nth2 by (unfold zlen in *; lia). replace (Z.to_nat (8 * (n + o) + part) - length input)%nat with 0%nat by (unfold zlen in *; lia). reflexivity. Qed.
  Lemma seen_keep c' : seen input' o part n c' = seen input o part n c'.
  Proof. apply filter_ext_Forall. apply Forall_forall. intros p P. apply zseq_In in P. now rewrite ctx' by lia. Qed.
  Lemma occ_keep c' : map (occ input' o part) (seen input o part n c') = map (occ input o part) (seen input o part n c').
  Proof. apply map_ext_in. intros p P. apply seen_In in P. apply occ_ext; lia. Qed.
  Lemma state_keep c' : c' <> c -> state_of t (map (occ input' o part) (seen input' o part (n + 1) c')) = state_of t (map (occ input o part) (seen input o part n c')).
  Proof.
    intros NE. rewrite seen_succ by exact N. rewrite ctx' by lia. destruct (same (ctx input o part n) c') eqn:S; [apply same_iff in S; subst c; congruence|].
    now rewrite app_nil_r, seen_keep, occ_keep.
  Qed.
  Lemma state_new : state_of t (map (occ input' o part) (seen input' o part (n + 1) c)) =
    state_of t (map (occ input o part) (seen input o part n c) ++ [(n, b, nth (Z.to_nat o) cs ct_default)]).
  Proof.
    rewrite seen_succ by exact N. rewrite ctx' by lia. replace (same (ctx input o part n) c) with true by (symmetry; now apply same_iff).
    rewrite map_app, seen_keep, occ_keep. cbn [map]. now rewrite occ_new.
  Qed.
  Let h := key hash o part c.
  Let v := match hm_get m h with Some v => v | None => [] end.
  Lemma bucket_items : NoDup (map last_occurrence_distance v) /\ Forall (fun s => let p := last_occurrence_distance s in 0 <= p < n /\
    key hash o part (ctx input o part p) = h /\ state_of t (map (occ input o part) (seen input o part n (ctx input o part p))) = Ok s) v.
  Proof. unfold v. destruct (hm_get m h) as [v0|] eqn:G; [exact (mi_items _ _ _ _ _ _ _ I _ _ G)|]. split; constructor. Qed.

  (** The new bucket holds the new state of the context and what was there for others. *)
  Lemma put_ok v' s' : state_of t (map (occ input' o part) (seen input' o part (n + 1) c)) = Ok s' -> last_occurrence_distance s' = n ->
    NoDup (map last_occurrence_distance v') -> In s' v' ->
    (forall s, In s v' -> s = s' \/ In s v /\ ctx input o part (last_occurrence_distance s) <> c) ->
    (forall s, In s v -> ctx input o part (last_occurrence_distance s) <> c -> In s v') ->
    map_inv t hash input' o part (n + 1) (hm_put m h v').
  Proof.
    intros S' D' ND IN' OUT KEEP. destruct bucket_items as (VND & VF). rewrite Forall_forall in VF. split.
    - intros h' v0 G. unfold hm_put in G. cbn [hm_get] in G. destruct (Z.eqb_spec h h') as [<-|NE].
      + injection G as <-. split; [exact ND|]. apply Forall_forall. intros s S. cbv zeta. destruct (OUT s S) as [->|(SV & NC)].
        * rewrite D'. rewrite ctx' by lia. split; [lia|]. split; [reflexivity|]. exact S'.
        * destruct (VF s SV) as (B & K & ST). rewrite ctx' by lia. split; [lia|]. split; [exact K|]. now rewrite state_keep.
      + destruct (mi_items _ _ _ _ _ _ _ I _ _ G) as (ND0 & F0). split; [exact ND0|]. eapply Forall_impl; [|exact F0]. cbv beta zeta. intros s (B & K & ST).
        rewrite ctx' by lia. split; [lia|]. split; [exact K|]. rewrite state_keep; [exact ST|]. intros Q. rewrite Q in K. unfold h in NE. congruence.
    - intros p P. rewrite ctx' by lia. destruct (list_eq_dec Bool.bool_dec (ctx input o part p) c) as [E|NE].
      + exists v', s'. rewrite E. unfold hm_put. cbn [hm_get]. unfold h. rewrite Z.eqb_refl. split; [reflexivity|]. split; [exact IN'|]. rewrite D'. now rewrite ctx' by lia.
      + assert (P' : 0 <= p < n) by (destruct (Z.eq_dec p n) as [->|]; [exfalso; apply NE; reflexivity|lia]).
        destruct (mi_all _ _ _ _ _ _ _ I p P') as (v0 & s & G & IN & E).
        assert (B : 0 <= last_occurrence_distance s < n).
        { destruct (mi_items _ _ _ _ _ _ _ I _ _ G) as (_ & F0). rewrite Forall_forall in F0. now destruct (F0 s IN). }
        unfold hm_put. cbn [hm_get]. destruct (Z.eqb_spec h (key hash o part (ctx input o part p))) as [EH|NH].
        * exists v', s. split; [reflexivity|]. split; [|now rewrite ctx' by lia]. apply KEEP; [|congruence]. unfold v. rewrite EH, G. exact IN.
        * exists v0, s. split; [exact G|]. split; [exact IN|]. now rewrite ctx' by lia.
  Qed.
  Lemma replace_ok j s s' : znth v j = Some s -> ctx input o part (last_occurrence_distance s) = c ->
    state_of t (map (occ input o part) (seen input o part n c)) = Ok s -> advance t s (n, b, nth (Z.to_nat o) cs ct_default) = Ok s' ->
    map_inv t hash input' o part (n + 1) (hm_put m h (zupd v j s')).
  Proof.
    intros Z1 C S A. destruct bucket_items as (VND & VF). rewrite Forall_forall in VF.
    assert (S' : state_of t (map (occ input' o part) (seen input' o part (n + 1) c)) = Ok s').
    { rewrite state_new, state_of_snoc; [now rewrite S|]. intros Q. rewrite Q in S. discriminate. }
    assert (D' : last_occurrence_distance s' = n).
    { rewrite (DIST _ _ S'), seen_succ by exact N. rewrite ctx' by lia. replace (same (ctx input o part n) c) with true by (symmetry; now apply same_iff).
      rewrite map_app. cbn [map]. rewrite last_last, occ_new. reflexivity. }
    assert (UNI : forall s0, In s0 v -> ctx input o part (last_occurrence_distance s0) = c -> s0 = s).
    { intros s0 I0 E0. destruct (VF s0 I0) as (_ & _ & ST). rewrite E0 in ST. congruence. }
    eapply put_ok; [exact S'|exact D'| | | |].
    - rewrite map_zupd_g, D'. apply NoDup_zupd; [exact VND|]. intros Q. apply in_map_iff in Q as (s0 & E0 & I0). destruct (VF s0 I0). lia.
    - pose proof (znth_Some _ _ _ Z1) as B. apply (znth_In _ j). apply znth_zupd_same. exact B.
    - intros s0 I0. apply In_zupd_inv in I0 as [->|(i & NI & Zi)]; [now left|]. right. pose proof (znth_In _ _ _ Zi) as I0. split; [exact I0|].
      intros E0. apply NI. apply (NoDup_znth last_occurrence_distance v i j s0 s); try assumption. now rewrite (UNI s0 I0 E0).
    - intros s0 I0 NC. eapply In_zupd_keep; [exact I0|exact Z1|]. intros ->. contradiction.
  Qed.
  Lemma insert_ok : seen input o part n c = [] -> map_inv t hash input' o part (n + 1) (hm_put m h (v ++ [starting_state n b])).
  Proof.
    intros E. destruct bucket_items as (VND & VF). rewrite Forall_forall in VF.
    assert (NC : forall s, In s v -> ctx input o part (last_occurrence_distance s) <> c).
    { intros s S Q. destruct (VF s S) as (B & _ & _). assert (P : In (last_occurrence_distance s) (seen input o part n c)) by (apply seen_In; auto). rewrite E in P. destruct P. }
    eapply (put_ok _ (starting_state n b)).
    - rewrite state_new, E. reflexivity.
    - reflexivity.
    - rewrite map_app. cbn [map]. apply (NoDup_Add (a := n) (l := map last_occurrence_distance v)); [|split; [exact VND|]].
      + rewrite <- (app_nil_r (map last_occurrence_distance v)) at 1. apply Add_app.
      + intros Q. apply in_map_iff in Q as (s0 & E0 & I0). destruct (VF s0 I0). lia.
    - apply in_or_app. right. now left.
    - intros s S. apply in_app_or in S as [S|[<-|[]]]; [right; auto|now left].
    - intros s S _. apply in_or_app. now left.
  Qed.
End Record_.

(** ** The source *)
Lemma same_sym a b : same a b = same b a.
Proof. apply Bool.eq_true_iff_eq. rewrite !same_iff. split; congruence. Qed.
Lemma earlier_seen input o : earlier (map fst input) o =
  seen input o (zlen input mod 8) (zlen input / 8 - o) (ctx input o (zlen input mod 8) (zlen input / 8 - o)).
Proof. unfold earlier, seen, ctx, unfinished, last_start. rewrite zlen_map. reflexivity. Qed.
Lemma occurrences_seen input o : occurrences input o =
  map (fun p => let h := (fun p => let x := nth (Z.to_nat (8 * (p + o) + zlen input mod 8)) input (Zero, []) in (fst x, nth (Z.to_nat o) (snd x) ct_default)) in
    (zlen input / 8 - o - p, fst (h p), snd (h p)))
  (seen input o (zlen input mod 8) (zlen input / 8 - o) (ctx input o (zlen input mod 8) (zlen input / 8 - o))).
Proof. unfold occurrences. rewrite earlier_seen. apply map_ext. intros p. cbv zeta. unfold last_start, after, unfinished. rewrite zlen_map. reflexivity. Qed.

Definition maps_ok (t : luts) (hash : hasher) (input : fed) (max_order : Z) (maps : list hash_map) : Prop :=
  forall o part, 0 <= o <= max_order -> 0 <= part < 8 -> exists m, znth maps (8 * o + (7 - part)) = Some m /\
    map_inv t hash input o part ((zlen input + 7 - part) / 8 - o) m.
Definition fat_idle (t : luts) (hash : hasher) (max max_order : Z) (input : fed) (f : fat) : Prop := exists bytes,
  fat_window max input bytes f /\ idle (map fst input) bytes /\ maps_long f /\ fm_max_order f = max_order /\ maps_ok t hash input max_order (fm_maps f).
Definition fat_ready (t : luts) (hash : hasher) (max max_order : Z) (input : fed) (f : fat) : Prop := exists bytes,
  fat_window max input bytes f /\ ready (map fst input) bytes /\ maps_long f /\ fm_max_order f = max_order /\ maps_ok t hash input max_order (fm_maps f).

Lemma znth_repeat {A} (x : A) n i : 0 <= i < Z.of_nat n -> znth (repeat x n) i = Some x.
Proof. intros I. rewrite znth_nth_error by lia. apply nth_error_repeat. lia. Qed.
Lemma fat_new_ok t hash max max_order : 0 < max < 2 ^ 63 -> 0 <= max_order -> 8 * (max_order + 1) < 2 ^ 64 ->
  exists f, fat_new max max_order = Ok f /\ fat_idle t hash max max_order [] f.
Proof.
  intros M O B. destruct (tape_new max M) as (w & E & T). unfold fat_new. rewrite E. cbn [bind]. rewrite add_ok by (ib; lia). cbn [bind]. rewrite mul_ok by (ib; lia). cbn [bind].
  eexists. split; [reflexivity|]. exists []. split; [split; [exact T|reflexivity]|]. split; [reflexivity|].
  cbn [fm_maps fm_max_order]. split; [unfold maps_long; cbn [fm_maps fm_max_order]; rewrite zlen_repeat; lia|]. split; [reflexivity|].
  intros o part OO P. exists []. split; [apply znth_repeat; lia|]. split; [discriminate|]. change (zlen (@nil (bit * list cost_trackers))) with 0. intros p PP. lia.
Qed.
Lemma fat_start_ok t hash max max_order input f : fat_idle t hash max max_order input f -> zlen input mod 8 = 0 -> zlen input / 8 < max ->
  exists f', fat_start f = Ok f' /\ fat_ready t hash max max_order input f'.
Proof.
  intros (bytes & [T B] & ID & ML & MO & MP) Z0 F. unfold fat_start. rewrite B, Z0. pose proof T as (R & _). pose proof (zlen_map fst input) as LM. unfold idle in ID.
  rewrite (rp_size _ _ _ _ R), (rp_max _ _ _ _ R). replace (zlen bytes =? max) with false by lia.
  change (7 - 0 =? 7) with true. cbn [negb assert_ guard bind]. destruct (tape_push _ _ _ _ _ T ltac:(lia)) as (w' & -> & T'). cbn [bind]. eexists. split; [reflexivity|].
  exists (bytes ++ [0]). split; [split; [exact T'|cbn [fm_bit_index]; lia]|]. unfold ready. rewrite zlen_app. change (zlen [0]) with 1. split; [lia|]. auto.
Qed.

Section Fat.
  Variables (t : luts) (hash : hasher).
  Hypothesis ALL : forall first later, exists s, advance_all t first later = Ok s /\
    is_for_node s = negb (uniform (bits_of first later)) /\ last_occurrence_distance s = last_distance first later.
  Lemma state_all l : l <> [] -> exists s, state_of t l = Ok s /\ is_for_node s = negb (uniform (map (fun o => snd (fst o)) l)) /\
    last_occurrence_distance s = fst (fst (last l (0, Zero, ct_default))).
  Proof.
    intros N. destruct l as [|x l]; [congruence|]. destruct (ALL (fst x) l) as (s & E & A & B). exists s. split; [exact E|]. split; [exact A|]. rewrite B.
    unfold last_distance. rewrite <- (last_cons (fst (fst x)) _ 0). change (fst (fst x) :: map (fun o => fst (fst o)) l) with (map (fun o : occurrence => fst (fst o)) (x :: l)).
    now rewrite (last_map _ _ (0, Zero, ct_default)) by congruence.
  Qed.
  Lemma state_dist l s : state_of t l = Ok s -> last_occurrence_distance s = fst (fst (last l (0, Zero, ct_default))).
  Proof.
    intros E. assert (N : l <> []) by (intros ->; discriminate). destruct (state_all l N) as (s' & E' & _ & D). rewrite E in E'. injection E' as <-. exact D.
  Qed.
  Lemma reported_state input o s : state_of t (map (occ input o (zlen input mod 8))
      (seen input o (zlen input mod 8) (zlen input / 8 - o) (ctx input o (zlen input mod 8) (zlen input / 8 - o)))) = Ok s ->
    exists first later, occurrences input o = first :: later /\
      advance_all t (fst first) later = Ok (with_distance (zlen input / 8 - o - last_occurrence_distance s) s).
  Proof.
    intros E. pose proof (state_dist _ _ E) as D. pose proof (occurrences_seen input o) as OS.
    set (l := seen _ _ _ _ _) in *. assert (N : l <> []) by (intros Q; rewrite Q in E; discriminate).
    assert (RT : state_of t (occurrences input o) =
      let* s := state_of t (map (occ input o (zlen input mod 8)) l) in Ok (with_distance (zlen input / 8 - o - last l 0) s)).
    { rewrite OS. exact (state_retarget t (fun p => zlen input / 8 - o - p)
        (fun p => let x := nth (Z.to_nat (8 * (p + o) + zlen input mod 8)) input (Zero, []) in (fst x, nth (Z.to_nat o) (snd x) ct_default)) l 0 N). }
    rewrite E in RT. cbn [bind] in RT.
    destruct (occurrences input o) as [|first later]; [discriminate|]. exists first, later. split; [reflexivity|]. cbn [state_of] in RT. rewrite RT, D.
    rewrite (last_map _ _ 0) by exact N. reflexivity.
  Qed.
  Lemma report_from_more input : forall k j o, 0 <= o -> zlen (map fst input) / 8 <= o + Z.of_nat k -> report_from t input o (k + j) = report_from t input o k.
  Proof.
    induction k as [|k IH]; intros j o O L.
    - destruct j as [|j]; [reflexivity|]. cbn [plus report_from]. replace (occurrences input o) with (@nil occurrence); [reflexivity|]. symmetry. apply occurrences_nil.
      unfold followers. rewrite earlier_none by lia. reflexivity.
    - cbn [plus report_from]. destruct (occurrences input o); [reflexivity|]. rewrite IH by lia. reflexivity.
  Qed.
  Lemma fat_orders_ok max max_order input f : fat_ready t hash max max_order input f -> forall count o items,
    0 <= o -> o + Z.of_nat count <= max_order + 1 -> o + Z.of_nat count <= zlen input / 8 + 1 ->
    fat_orders hash f (zseq o count) items = let* r := report_from t input o count in Ok (items ++ r).
  Proof.
    intros (bytes & W & RD & ML & MO & MP). pose proof (fw_tape _ _ _ _ W) as T. pose proof T as (R & TL & _). pose proof (fw_bit _ _ _ _ W) as B.
    pose proof (zlen_map fst input) as LM. pose proof (zlen_nonneg input) as NI. pose proof (rp_m _ _ _ _ R) as M. pose proof (rp_fits _ _ _ _ R) as FT.
    pose proof RD as RD'. unfold ready in RD'.
    induction count as [|count IH]; intros o items O C1 C2; [cbn; now rewrite app_nil_r|]. cbn [zseq fat_orders report_from].
    rewrite (map_index_ok max input bytes) by (assumption || lia). cbn [bind].
    destruct (MP o (zlen input mod 8) ltac:(lia) ltac:(lia)) as (m & Hm & MI). rewrite (get_ok _ _ _ Hm). cbn [bind].
    rewrite (compute_hash_ok hash max input bytes) by (assumption || lia). cbn [bind].
    replace ((zlen input + 7 - zlen input mod 8) / 8 - o) with (zlen input / 8 - o) in MI by lia.
    set (part := zlen input mod 8) in *. set (c := ctx input o part (zlen input / 8 - o)) in *.
    set (test := fun item => let* current := index_subtract (fm_input f) (w_cursor (fm_input f)) o in
       compare_for_equal_prefix (fm_input f) current (last_occurrence_distance item) (fm_bit_index f) o).
    assert (TEST : forall s, 0 <= last_occurrence_distance s < zlen input / 8 - o -> test s = Ok (same (ctx input o part (last_occurrence_distance s)) c)).
    { intros s S. unfold test. rewrite (rp_cursor _ _ _ _ R), (index_subtract_ok _ _ _ _ _ _ R) by lia. cbn [bind]. rewrite B.
      assert (CC := tape_compare max 0 (map fst input) bytes (fm_input f) (zlen bytes - 1 - o) (last_occurrence_distance s) o T RD' ltac:(lia) ltac:(lia) ltac:(lia) ltac:(lia) ltac:(lia)).
      rewrite (place_0 _ (last_occurrence_distance s)) in CC by lia. rewrite LM in CC. fold part in CC. rewrite CC. f_equal. rewrite same_sym. unfold c, ctx, unfinished. rewrite LM.
      fold part. do 2 f_equal. lia. }
    destruct (bucket_find t hash input o part _ m c test MI TEST) as [(E & S)|(j & s & E & Zj & SB & SC & S)].
    - assert (X : match hm_get m (key hash o part c) with Some v => mfind test v 0 | None => Ok None end = Ok None) by (destruct (hm_get m (key hash o part c)); assumption || reflexivity).
      rewrite X. cbn [bind]. replace (occurrences input o) with (@nil occurrence); [cbn; now rewrite app_nil_r|]. rewrite occurrences_seen. fold part. fold c. rewrite S. reflexivity.
    - assert (X : match hm_get m (key hash o part c) with Some v => mfind test v 0 | None => Ok None end = Ok (Some (j, s))) by (destruct (hm_get m (key hash o part c)); [assumption|discriminate]).
      rewrite X. cbn [bind]. destruct (reported_state input o s S) as (first & later & -> & A). rewrite A. cbn [bind].
      rewrite (rp_cursor _ _ _ _ R), place_0 by lia. rewrite sub_ok by (ib; lia). cbn [bind]. rewrite sub_ok by (ib; lia). cbn [bind].
      rewrite IH by lia. replace (zlen bytes - 1 - o) with (zlen input / 8 - o) by lia.
      destruct (report_from t input (o + 1) count); cbn [bind]; [|reflexivity]. now rewrite <- app_assoc.
  Qed.
  Lemma fat_gather_ok max max_order input f items : fat_ready t hash max max_order input f ->
    fat_gather hash f items = let* r := report t max_order input in Ok (items ++ r).
  Proof.
    intros RDY. pose proof RDY as (bytes & W & RD & ML & MO & MP). pose proof (fw_tape _ _ _ _ W) as T. pose proof T as (R & _).
    pose proof (zlen_map fst input) as LM. pose proof (zlen_nonneg input) as NI. pose proof (rp_m _ _ _ _ R) as M. pose proof (rp_fits _ _ _ _ R) as FT. unfold ready in RD.
    destruct ML as (M1 & M2 & M3). unfold fat_gather. rewrite (rp_cursor _ _ _ _ R), place_0 by lia. rewrite MO in *. rewrite add_ok by (ib; lia). cbn [bind]. rewrite range_0.
    rewrite (fat_orders_ok max max_order input f RDY) by lia. unfold report.
    destruct (Z.leb_spec max_order (zlen bytes - 1)).
    - now rewrite Z.min_l by lia.
    - rewrite Z.min_r by lia. replace (Z.to_nat (max_order + 1)) with (Z.to_nat (zlen bytes - 1 + 1) + Z.to_nat (max_order - (zlen bytes - 1)))%nat by lia.
      rewrite report_from_more by lia. reflexivity.
  Qed.

  (** Recording a bit in one map. *)
  Lemma fat_record_ok max max_order input f b cs maps o bytes m : fat_window max input bytes f -> ready (map fst input) bytes -> fm_max_order f = max_order ->
    8 * (max_order + 1) < 2 ^ 64 -> zlen maps = 8 * (max_order + 1) -> 0 <= o <= max_order -> o <= zlen input / 8 -> zlen cs = branching max_order (map fst input) ->
    znth maps (8 * o + (7 - zlen input mod 8)) = Some m -> map_inv t hash input o (zlen input mod 8) (zlen input / 8 - o) m ->
    exists m', fat_record t hash f b cs maps o = Ok (zupd maps (8 * o + (7 - zlen input mod 8)) m') /\
      map_inv t hash (input ++ [(b, cs)]) o (zlen input mod 8) (zlen input / 8 - o + 1) m'.
  Proof.
    intros W RD MO MB ML O OC CS Hm MI. pose proof (fw_tape _ _ _ _ W) as T. pose proof T as (R & TL & _). pose proof (fw_bit _ _ _ _ W) as B.
    pose proof (zlen_map fst input) as LM. pose proof (zlen_nonneg input) as NI. pose proof (rp_m _ _ _ _ R) as M. pose proof (rp_fits _ _ _ _ R) as FT.
    pose proof RD as RD'. unfold ready in RD'. unfold fat_record. set (f' := mkFat _ _ _ maps).
    assert (W' : fat_window max input bytes f') by (split; [exact T|exact B]).
    assert (ML' : maps_long f') by (unfold maps_long, f'; cbn [fm_max_order fm_maps]; lia).
    rewrite (compute_hash_ok hash max input bytes) by (assumption || (unfold f'; cbn [fm_max_order]; lia)). cbn [bind].
    rewrite (map_index_ok max input bytes) by (assumption || (unfold f'; cbn [fm_max_order]; lia)). cbn [bind]. rewrite (get_ok _ _ _ Hm). cbn [bind].
    unfold f' at 1. cbn [fm_input]. unfold f' at 1. cbn [fm_input]. rewrite (rp_cursor _ _ _ _ R), (index_subtract_ok _ _ _ _ _ _ R) by lia. cbn [bind].
    unfold f'. cbn [fm_input fm_bit_index]. clear W' ML'. rewrite place_0 by lia. replace (zlen bytes - 1 - o) with (zlen input / 8 - o) by lia.
    pose proof (branching_iff max_order (map fst input) o O) as BR.
    assert (FOL : followers (map fst input) o = map (fun o => snd (fst o)) (map (occ input o (zlen input mod 8)) 
       (seen input o (zlen input mod 8) (zlen input / 8 - o) (ctx input o (zlen input mod 8) (zlen input / 8 - o))))).
    { unfold followers. rewrite earlier_seen, map_map. apply map_ext. intros p. unfold occ, after, unfinished. cbn [fst snd]. rewrite nth_fst, LM. reflexivity. }
    assert (LL : 8 * (zlen input / 8 - o + o) + zlen input mod 8 = zlen input) by lia.
    set (part := zlen input mod 8) in *. set (n := zlen input / 8 - o) in *. set (c := ctx input o part n) in *.
    set (test := fun item => compare_for_equal_prefix (fm_input f) n (last_occurrence_distance item) (fm_bit_index f) o).
    assert (TEST : forall s, 0 <= last_occurrence_distance s < n -> test s = Ok (same (ctx input o part (last_occurrence_distance s)) c)).
    { intros s S. unfold test. rewrite B.
      assert (CC := tape_compare max 0 (map fst input) bytes (fm_input f) n (last_occurrence_distance s) o T RD' ltac:(lia) ltac:(lia) ltac:(lia) ltac:(lia) ltac:(lia)).
      rewrite !place_0 in CC by lia. rewrite LM in CC. fold part in CC. rewrite CC. f_equal. rewrite same_sym. unfold c, ctx, unfinished. rewrite LM. fold part. reflexivity. }
    assert (IDX : 0 <= 8 * o + (7 - part) < zlen maps) by lia.
    assert (PB : 0 <= part < 8) by (unfold part; lia).
    pose proof (bucket_find t hash input o part n m c test MI TEST) as BF. cbv zeta in BF.
    destruct BF as [(E & S)|(j & s & E & Zj & SB & SC & S)]; rewrite E; cbn [bind].
    - rewrite S in FOL. cbn [map] in FOL. rewrite FOL in BR. replace (zlen cs <=? o) with true.
      2:{ symmetry. apply Z.leb_le. rewrite CS. destruct (Z.lt_ge_cases o (branching max_order (map fst input))) as [X|X]; [|lia]. apply BR in X. discriminate. }
      cbn [assert_ guard bind]. rewrite set_ok by exact IDX. eexists. split; [reflexivity|].
      apply (insert_ok t hash input b cs o part n m); try assumption; try lia. exact state_dist.
    - assert (NE : map (occ input o part) (seen input o part n c) <> []) by (intros Q; rewrite Q in S; discriminate).
      destruct (state_all _ NE) as (s2 & S2 & NODE & _). rewrite S in S2. injection S2 as <-. rewrite <- FOL in NODE.
      assert (OPT : (if is_for_node s then assert_ (o <? zlen cs) ;; let* c := get cs o in Ok (Some c) else assert_ (zlen cs <=? o) ;; Ok None) =
                    Ok (if is_for_node s then Some (nth (Z.to_nat o) cs ct_default) else None)).
      { rewrite NODE. destruct (uniform (followers (map fst input) o)) eqn:U; cbn [negb].
        - replace (zlen cs <=? o) with true; [reflexivity|]. symmetry. apply Z.leb_le. rewrite CS.
          destruct (Z.lt_ge_cases o (branching max_order (map fst input))) as [X|X]; [|lia]. apply BR in X. congruence.
        - assert (X : o < zlen cs) by (rewrite CS; apply BR; reflexivity). replace (o <? zlen cs) with true by lia. cbn [assert_ guard bind].
          rewrite (get_ok _ _ (nth (Z.to_nat o) cs ct_default)); [reflexivity|]. rewrite znth_nth_error by lia. apply nth_error_nth'. unfold zlen in X. lia. }
      rewrite OPT. cbn [bind].
      change (next_state t s n b (if is_for_node s then Some (nth (Z.to_nat o) cs ct_default) else None)) with (advance t s (n, b, nth (Z.to_nat o) cs ct_default)).
      assert (A : exists s', advance t s (n, b, nth (Z.to_nat o) cs ct_default) = Ok s').
      { destruct (state_all (map (occ input o part) (seen input o part n c) ++ [(n, b, nth (Z.to_nat o) cs ct_default)])) as (s' & S' & _); [intros Q; destruct (map (occ input o part) (seen input o part n c)); discriminate|].
        rewrite state_of_snoc, S in S' by exact NE. cbn [bind] in S'. eauto. }
      destruct A as (s' & A). rewrite A. cbn [bind]. pose proof (znth_Some _ _ _ Zj) as BJ. rewrite set_ok by exact BJ. cbn [bind]. rewrite set_ok by exact IDX.
      eexists. split; [reflexivity|]. eapply (replace_ok t hash input b cs o part n m); try eassumption; try lia. exact state_dist.
  Qed.
  Lemma fat_process_ok max max_order input f b cs : fat_ready t hash max max_order input f -> zlen cs = branching max_order (map fst input) ->
    exists f', fat_process t hash f b cs = Ok f' /\ fat_idle t hash max max_order (input ++ [(b, cs)]) f'.
  Proof.
    intros (bytes & W & RD & ML & MO & MP) CS. pose proof (fw_tape _ _ _ _ W) as T. pose proof T as (R & _). pose proof (fw_bit _ _ _ _ W) as B.
    pose proof (zlen_map fst input) as LM. pose proof (zlen_nonneg input) as NI. pose proof (rp_m _ _ _ _ R) as M. pose proof (rp_fits _ _ _ _ R) as FT.
    pose proof RD as RD'. unfold ready in RD'. destruct ML as (M1 & M2 & M3). rewrite MO in *.
    unfold fat_process. rewrite (rp_cursor _ _ _ _ R), place_0 by lia. rewrite MO. rewrite add_ok by (ib; lia). cbn [bind]. rewrite range_0.
    assert (LOOP : forall k, Z.of_nat k <= Z.min max_order (zlen bytes - 1) + 1 -> exists maps, mfold (fat_record t hash f b cs) (zseq 0 k) (fm_maps f) = Ok maps /\
      zlen maps = 8 * (max_order + 1) /\
      forall o part, 0 <= o <= max_order -> 0 <= part < 8 -> exists m, znth maps (8 * o + (7 - part)) = Some m /\
        if (part =? zlen input mod 8) && (o <? Z.of_nat k) then map_inv t hash (input ++ [(b, cs)]) o part (zlen input / 8 - o + 1) m
        else map_inv t hash input o part ((zlen input + 7 - part) / 8 - o) m).
    { induction k as [|k IH]; intros K.
      - exists (fm_maps f). split; [reflexivity|]. split; [exact M3|]. intros o part O P. destruct (MP o part O P) as (m & Hm & MI). exists m. split; [exact Hm|].
        replace (o <? Z.of_nat 0) with false by lia. now rewrite Bool.andb_false_r.
      - destruct (IH ltac:(lia)) as (maps & E & ML & MM). clear IH. replace (S k) with (k + 1)%nat by lia. rewrite zseq_app, mfold_app, E. cbn [bind zseq mfold].
        rewrite Z.add_0_l. destruct (MM (Z.of_nat k) (zlen input mod 8) ltac:(lia) ltac:(lia)) as (m & Hm & MI).
        rewrite Z.eqb_refl in MI. replace (Z.of_nat k <? Z.of_nat k) with false in MI by lia. cbn [andb] in MI.
        replace ((zlen input + 7 - zlen input mod 8) / 8 - Z.of_nat k) with (zlen input / 8 - Z.of_nat k) in MI by lia.
        destruct (fat_record_ok max max_order input f b cs maps (Z.of_nat k) bytes m W RD MO M2 ML ltac:(lia) ltac:(lia) CS Hm MI) as (m' & E' & MI'). rewrite E'. cbn [bind].
        eexists. split; [reflexivity|]. split; [now rewrite zlen_zupd|]. intros o part O P. rewrite Nat2Z.inj_add. change (Z.of_nat 1) with 1.
        destruct (Z.eq_dec o (Z.of_nat k)) as [EO|NO]; [destruct (Z.eq_dec part (zlen input mod 8)) as [EP|NP]|].
        + exists m'. subst o part. split; [apply znth_zupd_same; rewrite ML; lia|]. rewrite Z.eqb_refl. replace (Z.of_nat k <? Z.of_nat k + 1) with true by lia. exact MI'.
        + destruct (MM o part O P) as (m2 & Hm2 & MI2). exists m2. split; [rewrite znth_zupd_other; [exact Hm2|lia]|].
          replace (part =? zlen input mod 8) with false in * by lia. exact MI2.
        + destruct (MM o part O P) as (m2 & Hm2 & MI2). exists m2. split; [rewrite znth_zupd_other; [exact Hm2|lia]|].
          replace (o <? Z.of_nat k + 1) with (o <? Z.of_nat k) by lia. exact MI2. }
    destruct (LOOP (Z.to_nat (Z.min max_order (zlen bytes - 1) + 1)) ltac:(lia)) as (maps & E & ML & MM). clear LOOP. rewrite E. cbn [bind]. rewrite B.
    destruct (tape_set _ _ _ _ _ b T RD') as (w' & bytes' & EW & T' & LB). rewrite LM in EW. rewrite EW. cbn [bind].
    assert (BI : (if 0 <? 7 - zlen input mod 8 then sub usize (7 - zlen input mod 8) 1 else Ok 7) = Ok (7 - (zlen input + 1) mod 8)).
    { destruct (Z.ltb_spec 0 (7 - zlen input mod 8)); [rewrite sub_ok by (ib; lia)|]; f_equal; lia. }
    rewrite BI. cbn [bind]. eexists. split; [reflexivity|]. exists bytes'.
    assert (LN : zlen (input ++ [(b, cs)]) = zlen input + 1) by (rewrite zlen_app; reflexivity).
    split; [split; [cbn [fm_input]; rewrite map_app; exact T'|cbn [fm_bit_index]; now rewrite LN]|].
    unfold idle. rewrite zlen_map, LN. split; [lia|]. cbn [fm_maps fm_max_order]. split; [unfold maps_long; cbn [fm_maps fm_max_order]; lia|]. split; [reflexivity|].
    intros o part O P. rewrite LN. destruct (MM o part O P) as (m & Hm & MI). exists m. split; [exact Hm|].
    destruct (Z.eqb_spec part (zlen input mod 8)) as [EP|NP]; cbn [andb] in MI.
    - destruct (Z.ltb_spec o (Z.of_nat (Z.to_nat (Z.min max_order (zlen bytes - 1) + 1)))).
      + replace ((zlen input + 1 + 7 - part) / 8 - o) with (zlen input / 8 - o + 1) by lia. exact MI.
      + eapply map_inv_none; [| |exact MI]; lia.
    - replace ((zlen input + 1 + 7 - part) / 8 - o) with ((zlen input + 7 - part) / 8 - o) by lia. apply map_inv_ext; [lia|lia|lia|exact MI].
  Qed.
  Lemma fat_fed max max_order input : 0 < max < 2 ^ 63 -> 0 <= max_order -> 8 * (max_order + 1) < 2 ^ 64 -> zlen input / 8 < max -> well_supplied max_order input ->
    exists f, (let* s := fat_new max max_order in feed fat_start (fat_process t hash) s input) = Ok f /\ fat_ready t hash max max_order input f.
  Proof.
    intros M O B F S. destruct (fat_new_ok t hash max max_order M O B) as (f & -> & I). cbn [bind].
    apply (feed_inv fat_start (fat_process t hash) (fat_idle t hash max max_order) (fat_ready t hash max max_order)).
    - exact I.
    - intros before s ID Z0 P. apply fat_start_ok; [exact ID|exact Z0|]. destruct P as [(x & r & ->)| ->]; [|lia]. rewrite zlen_app, zlen_cons in F.
      pose proof (zlen_nonneg before). pose proof (zlen_nonneg r). lia.
    - intros before s (bytes & W & ID & R) Z0. exists bytes. split; [exact W|]. split; [|exact R]. unfold idle, ready in *. rewrite zlen_map in *. lia.
    - intros before s x r J EI. destruct x as [b cs]. apply fat_process_ok; [exact J|]. apply (S before b cs r EI).
  Qed.
  Lemma fat_report max max_order input items : 0 < max < 2 ^ 63 -> 0 <= max_order -> 8 * (max_order + 1) < 2 ^ 64 -> zlen input / 8 < max -> well_supplied max_order input ->
    fat_states t hash max max_order input items = let* r := report t max_order input in Ok (items ++ r).
  Proof.
    intros M O B F S. destruct (fat_fed max max_order input M O B F S) as (f & E & RD). unfold fat_states. revert E.
    destruct (fat_new max max_order) as [s|]; cbn [bind]; [|discriminate]. intros ->. cbn [bind]. now apply (fat_gather_ok max).
  Qed.
End Fat.
