From Verif Require Import Base BaseFacts UtilModel UtilSpec.

(** * Indexer *)
Fixpoint rank (dims vs : list Z) : Z :=
  match dims, vs with
  | d :: ds, v :: r => v * product ds + rank ds r
  | _, _ => 0
  end.

Lemma product_pos dims : Forall (fun d => 1 <= d) dims -> 1 <= product dims.
Proof. induction 1; cbn; [lia|]. fold (product l). nia. Qed.

Lemma rank_bound dims vs : valid_tuple dims vs -> 0 <= rank dims vs < product dims.
Proof.
  unfold valid_tuple. induction 1 as [|d v ds r Hv H IH]; cbn; [lia|]. fold (product ds). nia.
Qed.

Lemma length_flat_map_const {A B} (f : A -> list B) l n :
  (forall x, length (f x) = n) -> length (flat_map f l) = (length l * n)%nat.
Proof. intros H. induction l; cbn; [reflexivity|]. rewrite app_length, H, IHl. reflexivity. Qed.

Lemma tuples_length dims : Forall (fun d => 0 <= d) dims -> zlen (tuples dims) = product dims.
Proof.
  unfold zlen. induction 1 as [|d ds Hd H IH]; [reflexivity|]. cbn [tuples product fold_right].
  rewrite (length_flat_map_const _ _ (length (tuples ds))) by (intros; apply map_length).
  rewrite zseq_length, Nat2Z.inj_mul, Z2Nat.id by lia. fold (product ds). now rewrite IH.
Qed.

Lemma znth_flat_map {A B} (f : A -> list B) l n i j x :
  (forall y, zlen (f y) = n) -> 0 <= j < n -> znth l i = Some x ->
  znth (flat_map f l) (i * n + j) = znth (f x) j.
Proof.
  intros Hn Hj. revert i. induction l as [|a l IH]; intros i; cbn [znth]; [discriminate|].
  destruct (Z.eqb_spec i 0) as [->|Hi].
  - intros [= ->]. cbn [flat_map]. rewrite Z.mul_0_l, Z.add_0_l. apply znth_app1. rewrite Hn. lia.
  - intros E. cbn [flat_map]. pose proof (znth_Some _ _ _ E).
    rewrite znth_app2 by (rewrite Hn; nia). rewrite Hn, <- (IH (i - 1) E). f_equal. lia.
Qed.

Lemma znth_zseq a n i : 0 <= i < Z.of_nat n -> znth (zseq a n) i = Some (a + i).
Proof.
  revert a i. induction n as [|n IH]; intros a i H; [lia|]. cbn [zseq znth].
  destruct (Z.eqb_spec i 0) as [->|Hi]; [f_equal; lia|]. rewrite IH by lia. f_equal. lia.
Qed.

Lemma valid_nonneg dims vs : valid_tuple dims vs -> Forall (fun d => 0 <= d) dims.
Proof. unfold valid_tuple. induction 1; constructor; [lia|assumption]. Qed.
Lemma valid_pos dims vs : valid_tuple dims vs -> Forall (fun d => 1 <= d) dims.
Proof. unfold valid_tuple. induction 1; constructor; [lia|assumption]. Qed.

Lemma rank_position dims vs : valid_tuple dims vs -> is_position dims vs (rank dims vs).
Proof.
  unfold is_position, valid_tuple. induction 1 as [|d v ds r Hv H IH]; [reflexivity|].
  cbn [tuples rank]. pose proof (rank_bound ds r H) as B.
  rewrite (znth_flat_map _ _ (product ds) v (rank ds r) v).
  - rewrite znth_map, IH. reflexivity.
  - intros y. unfold zlen. rewrite map_length. apply tuples_length. eapply valid_nonneg; eassumption.
  - exact B.
  - rewrite znth_zseq by lia. f_equal.
Qed.

Lemma tuples_In dims : Forall (fun d => 0 <= d) dims -> forall vs, In vs (tuples dims) <-> valid_tuple dims vs.
Proof.
  unfold valid_tuple. induction 1 as [|d ds Hd H IH]; intros vs; cbn [tuples].
  - split; [intros [<-|[]]; constructor|inversion 1; now left].
  - rewrite in_flat_map. split.
    + intros (v & Hv & Hin). apply zseq_In in Hv. apply in_map_iff in Hin as (r & <- & Hr).
      constructor; [lia|now apply IH].
    + inversion 1 as [|? v ? r Hv Hr]; subst. exists v. split; [apply zseq_In; lia|].
      apply in_map. now apply IH.
Qed.

Lemma rank_inj dims : forall vs ws, valid_tuple dims vs -> valid_tuple dims ws ->
  rank dims vs = rank dims ws -> vs = ws.
Proof.
  intros vs ws H1 H2 E. pose proof (rank_position _ _ H1) as P1. pose proof (rank_position _ _ H2) as P2.
  unfold is_position in *. congruence.
Qed.

(** The Horner loop. *)
Definition combine (dims vs : list Z) : list (Z * Z) := List.combine dims vs.

Lemma horner dims vs : valid_tuple dims vs -> forall r,
  0 <= r -> (r + 1) * product dims <= imax usize ->
  mfold (fun r d => let* m := mul usize r (fst d) in add usize m (snd d)) (List.combine dims vs) r
    = Ok (r * product dims + rank dims vs).
Proof.
  unfold valid_tuple. induction 1 as [|d v ds rs Hv H IH]; intros r Hr B.
  - cbn. f_equal. lia.
  - cbn [List.combine mfold fst snd rank product fold_right] in *. fold (product ds) in *.
    pose proof (product_pos ds (valid_pos _ _ H)) as Pp.
    assert (B1 : 0 <= (r + 1) * d <= imax usize) by (ib; nia).
    rewrite mul_ok by (ib; nia). cbn [bind]. rewrite add_ok by (ib; nia). cbn [bind].
    rewrite IH; [f_equal; ring|nia|]. ib. nia.
Qed.

Lemma size_loop (vs dims : list Z) : Forall (fun d => 1 <= d) dims -> length vs = length dims -> forall r, 0 <= r ->
  r * product dims <= imax usize ->
  mfold (fun r d => mul usize r (fst d)) (List.combine dims vs) r = Ok (r * product dims).
Proof.
  intros H. revert vs. induction H as [|d ds Hd H IH]; intros [|v vs] L r Hr B; try discriminate.
  - cbn. f_equal. lia.
  - cbn [List.combine mfold fst product fold_right] in *. fold (product ds) in *.
    pose proof (product_pos ds H) as Pp.
    rewrite mul_ok by (ib; nia). cbn [bind]. rewrite IH; [f_equal; ring|cbn in L; lia|nia|]. ib. nia.
Qed.

Definition ix_rel (dims given : list Z) (ix : indexer) : Prop :=
  valid_tuple (firstn (length given) dims) given /\ ix_cur ix = zlen given /\
  exists rest, length (given ++ rest) = length dims /\ ix_dims ix = List.combine dims (given ++ rest).

Lemma znth_combine {A B} (l : list A) (r : list B) i x y :
  znth l i = Some x -> znth r i = Some y -> znth (List.combine l r) i = Some (x, y).
Proof.
  revert r i. induction l as [|a l IH]; intros [|b r] i; cbn; try discriminate.
  destruct (i =? 0); [congruence|apply IH].
Qed.

Lemma firstn_snoc {A} (l : list A) n x : znth l (Z.of_nat n) = Some x -> firstn (S n) l = firstn n l ++ [x].
Proof.
  revert n. induction l as [|a l IH]; intros n; [discriminate|]. cbn [znth].
  destruct n as [|n].
  - cbn. intros [= ->]. reflexivity.
  - destruct (Z.eqb_spec (Z.of_nat (S n)) 0); [lia|]. replace (Z.of_nat (S n) - 1) with (Z.of_nat n) by lia.
    intros H. cbn [firstn app]. f_equal. now apply IH.
Qed.

Lemma combine_upd {B} (dims : list Z) (given rest : list B) v w x :
  length (given ++ v :: rest) = length dims -> znth dims (zlen given) = Some x ->
  zupd (List.combine dims (given ++ v :: rest)) (zlen given) (x, w)
    = List.combine dims (given ++ w :: rest).
Proof.
  revert dims. induction given as [|g given IH]; intros [|d dims] L E; cbn in L; try discriminate.
  - cbn in E. injection E as ->. reflexivity.
  - rewrite zlen_cons in *. pose proof (zlen_nonneg given). cbn [znth] in E.
    destruct (Z.eqb_spec (1 + zlen given) 0); [lia|]. replace (1 + zlen given - 1) with (zlen given) in E by lia.
    cbn [List.combine app zupd]. destruct (Z.eqb_spec (1 + zlen given) 0); [lia|].
    replace (1 + zlen given - 1) with (zlen given) by lia. f_equal. apply IH; [lia|exact E].
Qed.

Lemma Forall2_snoc {A B} (R : A -> B -> Prop) l r x y :
  Forall2 R (l ++ [x]) (r ++ [y]) <-> Forall2 R l r /\ R x y.
Proof.
  split.
  - intros H. apply Forall2_app_inv_l in H as (r1 & r2 & H1 & H2 & E).
    inversion H2 as [|? ? ? ? Hxy Hn]; subst. inversion Hn; subst.
    apply app_inj_tail in E as [-> ->]. now split.
  - intros [H1 H2]. apply Forall2_app; [exact H1|]. now constructor.
Qed.

Lemma Forall2_length {A B} (R : A -> B -> Prop) l r : Forall2 R l r -> length l = length r.
Proof. induction 1; cbn; congruence. Qed.

Lemma ix_run_spec dims : Forall (fun d => 1 <= d) dims -> product dims <= imax usize ->
  zlen dims < 2 ^ 63 ->
  forall cs given ix, ix_rel dims given ix -> Forall (fun c => match c with IxSub v => 0 <= v | _ => True end) cs ->
  ix_spec dims given cs (ix_run ix cs).
Proof.
  intros Hd Hp Hl. induction cs as [|c cs IH]; intros given ix R Hc; [constructor|].
  inversion Hc as [|? ? Hc1 Hc2]; subst.
  destruct R as (V & C & rest & L & D). cbn [ix_run].
  assert (Lix : zlen (ix_dims ix) = zlen dims).
  { rewrite D. unfold zlen. rewrite combine_length. lia. }
  pose proof (zlen_nonneg given) as Gn.
  destruct c as [v| |]; cbn [ix_step].
  - unfold ix_with_sub_index. rewrite Lix, C.
    destruct (Z.ltb_spec (zlen given) (zlen dims)) as [Lt|Ge].
    2:{ cbn [assert_ guard bind]. constructor. intros X.
        apply Forall2_length in X. rewrite app_length, firstn_length in X. cbn [length] in X.
        unfold zlen in *. lia. }
    cbn [assert_ guard bind].
    destruct rest as [|w rest].
    { rewrite app_nil_r in L. unfold zlen in *. lia. }
    destruct (znth_lt dims (zlen given) ltac:(lia)) as [x Ex].
    assert (Ev : znth (given ++ w :: rest) (zlen given) = Some w).
    { rewrite znth_app2 by lia. now rewrite Z.sub_diag. }
    rewrite D. rewrite (get_ok _ _ _ (znth_combine _ _ _ _ _ Ex Ev)). cbn [bind fst].
    assert (F : firstn (S (length given)) dims = firstn (length given) dims ++ [x])
      by (apply firstn_snoc; exact Ex).
    destruct (Z.ltb_spec v x) as [Lv|Gv].
    2:{ cbn [assert_ guard bind]. constructor. rewrite F. unfold valid_tuple. rewrite Forall2_snoc. lia. }
    cbn [assert_ guard bind].
    rewrite set_ok by (rewrite <- D, Lix; lia). cbn [bind].
    rewrite add_ok by (ib; pow2; lia). cbn [bind].
    rewrite combine_upd by assumption.
    apply IxsSub.
    { rewrite F. unfold valid_tuple. rewrite Forall2_snoc. split; [exact V|lia]. }
    apply IH; [|exact Hc2]. split; [|split].
    + rewrite app_length. cbn [length]. replace (length given + 1)%nat with (S (length given)) by lia.
      rewrite F. unfold valid_tuple. rewrite Forall2_snoc. split; [exact V|lia].
    + cbn [ix_cur]. rewrite zlen_app. cbn. lia.
    + exists rest. rewrite <- app_assoc. cbn [app ix_dims]. split; [|reflexivity].
      rewrite app_length in *. cbn [length] in *. lia.
  - unfold ix_get_array_index_and_reset. rewrite Lix, C.
    destruct (Z.eqb_spec (zlen given) (zlen dims)) as [E|E].
    2:{ cbn [assert_ guard bind]. constructor. unfold zlen in E. lia. }
    cbn [assert_ guard bind].
    assert (E' : length given = length dims) by (unfold zlen in E; lia).
    assert (rest = []).
    { rewrite app_length in L. destruct rest; [reflexivity|cbn in L; lia]. }
    subst rest. rewrite app_nil_r in *. rewrite E', firstn_all in V.
    rewrite D, horner by (try assumption; try lia). cbn [bind].
    apply IxsIndex with (i := 0 * product dims + rank dims given); [exact E'| |].
    { rewrite Z.mul_0_l, Z.add_0_l. now apply rank_position. }
    apply IH; [|exact Hc2]. split; [|split].
    + constructor.
    + reflexivity.
    + exists given. split; [exact E'|reflexivity].
  - unfold ix_get_array_size. rewrite C.
    destruct given as [|g given].
    + cbn [assert_ guard bind]. rewrite D, (size_loop _ dims) by (try assumption; try lia).
      cbn [bind]. rewrite Z.mul_1_l. apply IxsSize. apply IH; [|exact Hc2]. split; [exact V|]. split; [exact C|].
      exists rest. now split.
    + rewrite zlen_cons. pose proof (zlen_nonneg given).
      destruct (Z.eqb_spec (1 + zlen given) 0); [lia|]. cbn [assert_ guard bind]. constructor. discriminate.
Qed.

Lemma ix_new_rel dims n : length dims = n ->
  exists ix, ix_new n dims = Ok ix /\ ix_rel dims [] ix.
Proof.
  intros H. unfold ix_new. rewrite H, Nat.eqb_refl. cbn [assert_ guard bind].
  eexists. split; [reflexivity|]. split; [constructor|]. split; [reflexivity|].
  exists (map (fun _ => 0) dims). cbn [app ix_dims]. split; [apply map_length|].
  clear. induction dims; cbn; [reflexivity|]. now rewrite IHdims.
Qed.

Lemma indexer_correct dims cs : Forall (fun d => 1 <= d) dims -> product dims <= imax usize ->
  zlen dims < 2 ^ 63 -> Forall (fun c => match c with IxSub v => 0 <= v | _ => True end) cs ->
  ix_spec dims [] cs (let* ix := ix_new (length dims) dims in ix_run ix cs).
Proof.
  intros Hd Hp Hl Hc. destruct (ix_new_rel dims _ eq_refl) as (ix & E & R). rewrite E. cbn [bind].
  now apply ix_run_spec.
Qed.

(** The specification is deterministic in the successful outcome. *)
Lemma position_unique dims : Forall (fun d => 0 <= d) dims -> forall vs i j,
  is_position dims vs i -> is_position dims vs j -> i = j.
Proof.
  intros Hd vs i j Hi Hj.
  assert (G : forall k, is_position dims vs k -> k = rank dims vs).
  { clear i j Hi Hj. unfold is_position. revert vs. induction Hd as [|d ds Hd0 H IH]; intros vs k.
    - cbn. destruct (Z.eqb_spec k 0); [|discriminate]. intros [= <-]. assumption.
    - cbn [tuples]. intros E. pose proof (znth_Some _ _ _ E) as B.
      assert (Len : forall y, zlen (map (cons y) (tuples ds)) = product ds)
        by (intros y; unfold zlen; rewrite map_length; now apply tuples_length).
      assert (Bp : zlen (flat_map (fun v : Z => map (cons v) (tuples ds)) (zseq 0 (Z.to_nat d))) = d * product ds).
      { exact (tuples_length (d :: ds) (Forall_cons _ Hd0 H)). }
      rewrite Bp in B.
      assert (Pp : 0 < product ds) by nia.
      pose proof (Z.div_mod k (product ds) ltac:(lia)) as DM.
      pose proof (Z.mod_pos_bound k (product ds) Pp) as MB.
      set (q := k / product ds) in *. set (m := k mod product ds) in *.
      assert (Q : 0 <= q < d) by nia.
      assert (Zq : znth (zseq 0 (Z.to_nat d)) q = Some q) by (rewrite znth_zseq by lia; f_equal).
      replace k with (q * product ds + m) in E by lia.
      rewrite (znth_flat_map _ _ _ q m q Len MB Zq), znth_map in E.
      destruct (znth (tuples ds) m) as [r|] eqn:Er; [|discriminate]. cbn in E. injection E as <-.
      apply IH in Er. cbn [rank]. lia. }
  apply G in Hi, Hj. congruence.
Qed.

Lemma index_bijection dims : Forall (fun d => 1 <= d) dims ->
  (forall vs, valid_tuple dims vs -> exists i, 0 <= i < product dims /\ is_position dims vs i) /\
  (forall i, 0 <= i < product dims -> exists vs, valid_tuple dims vs /\ is_position dims vs i) /\
  (forall vs ws i j, is_position dims vs i -> is_position dims ws j -> (vs = ws <-> i = j)).
Proof.
  intros H. assert (H0 : Forall (fun d => 0 <= d) dims) by (eapply Forall_impl; [|exact H]; cbn; lia).
  repeat split.
  - intros vs V. exists (rank dims vs). split; [now apply rank_bound|now apply rank_position].
  - intros i Hi. rewrite <- (tuples_length dims H0) in Hi. destruct (znth_lt _ _ Hi) as [vs E].
    exists vs. split; [|exact E]. apply tuples_In; [exact H0|]. eapply znth_In; exact E.
  - intros ->. eapply position_unique; eassumption.
  - intros ->. unfold is_position in *. congruence.
Qed.

Lemma rank_snoc dims vs d v : valid_tuple dims vs -> rank (dims ++ [d]) (vs ++ [v]) = rank dims vs * d + v.
Proof.
  unfold valid_tuple. induction 1 as [|e w ds r Hv H IH]; [cbn; lia|]. cbn [app rank]. rewrite IH.
  assert (P : product (ds ++ [d]) = product ds * d).
  { clear. induction ds as [|x ds IH]; cbn [app product fold_right]; [lia|]. fold (product (ds ++ [d])) (product ds). rewrite IH. ring. }
  rewrite P. ring.
Qed.

Lemma last_dimension_fastest dims vs d v i : valid_tuple (dims ++ [d]) (vs ++ [v + 1]) -> 0 <= v ->
  is_position (dims ++ [d]) (vs ++ [v]) i -> is_position (dims ++ [d]) (vs ++ [v + 1]) (i + 1).
Proof.
  intros V Hv P.
  assert (V1 : valid_tuple dims vs /\ 0 <= v + 1 < d) by (apply Forall2_snoc in V; exact V).
  assert (V0 : valid_tuple (dims ++ [d]) (vs ++ [v])) by (apply Forall2_snoc; split; [apply V1|lia]).
  assert (i = rank (dims ++ [d]) (vs ++ [v])).
  { eapply position_unique; [eapply valid_nonneg; exact V0|exact P|now apply rank_position]. }
  subst i. rewrite rank_snoc by apply V1.
  replace (rank dims vs * d + v + 1) with (rank (dims ++ [d]) (vs ++ [v + 1])) by (rewrite rank_snoc by apply V1; lia).
  now apply rank_position.
Qed.

(** * FNV-1a *)
Definition fnv_prime : Z := 1099511628211.
Definition fnv_inverse : Z := 14886173955864302971.

Lemma inverse_ok : (fnv_prime * fnv_inverse) mod 2 ^ 64 = 1.
Proof. vm_compute. reflexivity. Qed.

Lemma mul_prime_inj a b : 0 <= a < 2 ^ 64 -> 0 <= b < 2 ^ 64 ->
  (a * fnv_prime) mod 2 ^ 64 = (b * fnv_prime) mod 2 ^ 64 -> a = b.
Proof.
  intros Ha Hb E.
  assert (G : forall x, 0 <= x < 2 ^ 64 -> ((x * fnv_prime) mod 2 ^ 64 * fnv_inverse) mod 2 ^ 64 = x).
  { intros x Hx. rewrite Z.mul_mod_idemp_l by lia. rewrite <- Z.mul_assoc, <- Z.mul_mod_idemp_r by lia.
    rewrite inverse_ok, Z.mul_1_r. now apply Z.mod_small. }
  rewrite <- (G a Ha), <- (G b Hb), E. reflexivity.
Qed.

Lemma lxor_range n a b : 0 <= n -> 0 <= a < 2 ^ n -> 0 <= b < 2 ^ n -> 0 <= Z.lxor a b < 2 ^ n.
Proof.
  intros Hn Ha Hb. assert (N : 0 <= Z.lxor a b) by (apply Z.lxor_nonneg; lia).
  split; [exact N|]. destruct (Z.eqb_spec (Z.lxor a b) 0) as [->|NZ]; [lia|].
  apply Z.log2_lt_pow2; [lia|]. eapply Z.le_lt_trans; [apply Z.log2_lxor; lia|].
  apply Z.max_lub_lt.
  - destruct (Z.eqb_spec a 0) as [->|]; [|apply Z.log2_lt_pow2; lia].
    destruct (Z.eqb_spec n 0) as [->|]; [|cbn; lia]. change (2 ^ 0) with 1 in *.
    assert (b = 0) by lia. subst. cbn in NZ. lia.
  - destruct (Z.eqb_spec b 0) as [->|]; [|apply Z.log2_lt_pow2; lia].
    destruct (Z.eqb_spec n 0) as [->|]; [|cbn; lia]. change (2 ^ 0) with 1 in *.
    assert (a = 0) by lia. subst. cbn in NZ. lia.
Qed.

Definition fnv_step (h b : Z) : Z := (Z.lxor h b * fnv_prime) mod 2 ^ 64.
Lemma fnv_step_range h b : 0 <= fnv_step h b < 2 ^ 64.
Proof. apply Z.mod_pos_bound. lia. Qed.
Lemma mix_byte_step h b : fnv_mix_byte h b = fnv_step h b.
Proof. reflexivity. Qed.

Lemma fnv_step_state_inj h g b : 0 <= h < 2 ^ 64 -> 0 <= g < 2 ^ 64 -> is_byte b ->
  fnv_step h b = fnv_step g b -> h = g.
Proof.
  intros Hh Hg Hb E. unfold is_byte in Hb.
  assert (Hb' : 0 <= b < 2 ^ 64) by (pow2; lia).
  apply mul_prime_inj in E; try (apply lxor_range; lia).
  assert (X : Z.lxor (Z.lxor h b) b = Z.lxor (Z.lxor g b) b) by now rewrite E.
  rewrite !Z.lxor_assoc, !Z.lxor_nilpotent, !Z.lxor_0_r in X. exact X.
Qed.
Lemma fnv_step_byte_inj h a b : 0 <= h < 2 ^ 64 -> is_byte a -> is_byte b ->
  fnv_step h a = fnv_step h b -> a = b.
Proof.
  intros Hh Ha Hb E. unfold is_byte in *.
  assert (0 <= a < 2 ^ 64) by (pow2; lia). assert (0 <= b < 2 ^ 64) by (pow2; lia).
  apply mul_prime_inj in E; try (apply lxor_range; lia).
  assert (X : Z.lxor h (Z.lxor h a) = Z.lxor h (Z.lxor h b)) by now rewrite E.
  rewrite <- !Z.lxor_assoc, !Z.lxor_nilpotent, !Z.lxor_0_l in X. exact X.
Qed.

Lemma fnv_run_inj bytes : Forall is_byte bytes -> forall h g, 0 <= h < 2 ^ 64 -> 0 <= g < 2 ^ 64 ->
  fold_left fnv_mix_byte bytes h = fold_left fnv_mix_byte bytes g -> h = g.
Proof.
  induction 1 as [|b bytes Hb H IH]; intros h g Hh Hg E; [exact E|]. cbn [fold_left] in E.
  apply IH in E; [|rewrite mix_byte_step; apply fnv_step_range ..].
  eapply fnv_step_state_inj; eassumption.
Qed.

Lemma fnv_run_range bytes h : 0 <= h < 2 ^ 64 -> 0 <= fold_left fnv_mix_byte bytes h < 2 ^ 64.
Proof.
  revert h. induction bytes as [|b bytes IH]; intros h Hh; [exact Hh|]. cbn [fold_left].
  apply IH. rewrite mix_byte_step. apply fnv_step_range.
Qed.

Lemma fnv_single_byte pre post a b : Forall is_byte pre -> Forall is_byte post -> is_byte a -> is_byte b ->
  a <> b ->
  fold_left fnv_mix_byte (pre ++ a :: post) fnv_new <> fold_left fnv_mix_byte (pre ++ b :: post) fnv_new.
Proof.
  intros Hpre Hpost Ha Hb N E. apply N. rewrite !fold_left_app in E. cbn [fold_left] in E.
  assert (R : 0 <= fold_left fnv_mix_byte pre fnv_new < 2 ^ 64)
    by (apply fnv_run_range; vm_compute; split; congruence).
  apply fnv_run_inj in E; [|exact Hpost|rewrite mix_byte_step; apply fnv_step_range ..].
  eapply fnv_step_byte_inj; eassumption.
Qed.

Lemma wrap_u t z : isigned t = false -> wrap t z = z mod 2 ^ ibits t.
Proof. intros S. unfold wrap. rewrite S. reflexivity. Qed.

Lemma lxor_mod_pow2 a b n : 0 <= n -> (Z.lxor a b) mod 2 ^ n = Z.lxor (a mod 2 ^ n) (b mod 2 ^ n).
Proof.
  intros Hn. apply Z.bits_inj'. intros k Hk.
  destruct (Z.ltb_spec k n).
  - rewrite Z.lxor_spec, !Z.mod_pow2_bits_low, Z.lxor_spec by lia. reflexivity.
  - rewrite Z.lxor_spec, !Z.mod_pow2_bits_high by lia. reflexivity.
Qed.

Lemma into_u32_fold h : 0 <= h < 2 ^ 64 -> fnv_into_u32 h = fold32 h /\ 0 <= fold32 h < 2 ^ 32.
Proof.
  intros Hh. unfold fnv_into_u32, fold32. rewrite wrap_u by reflexivity. cbn [ibits u32].
  rewrite Z.shiftr_div_pow2 by lia. rewrite lxor_mod_pow2 by lia.
  assert (0 <= h / 2 ^ 32 < 2 ^ 32) by (pow2; lia).
  rewrite (Z.mod_small (h / 2 ^ 32)) by assumption. rewrite Z.lxor_comm. split; [reflexivity|].
  apply lxor_range; [lia|assumption|]. apply Z.mod_pos_bound. lia.
Qed.
Lemma into_u16_fold h : 0 <= h < 2 ^ 64 -> fnv_into_u16 h = fold16 h /\ 0 <= fold16 h < 2 ^ 16.
Proof.
  intros Hh. unfold fnv_into_u16, fold16. destruct (into_u32_fold h Hh) as [-> R]. cbv zeta.
  rewrite wrap_u by reflexivity. cbn [ibits u16].
  rewrite Z.shiftr_div_pow2 by lia. rewrite lxor_mod_pow2 by lia.
  set (g := fold32 h) in *. assert (0 <= g / 2 ^ 16 < 2 ^ 16) by (pow2; lia).
  rewrite (Z.mod_small (g / 2 ^ 16)) by assumption. rewrite Z.lxor_comm. split; [reflexivity|].
  apply lxor_range; [lia|assumption|]. apply Z.mod_pos_bound. lia.
Qed.

Lemma fnv_standard bytes : Forall is_byte bytes ->
  let h := fold_left fnv_mix_byte bytes fnv_new in
  fnv_into_u64 h = fnv1a bytes /\ fnv_into_u32 h = fold32 (fnv1a bytes) /\ fnv_into_u16 h = fold16 (fnv1a bytes) /\
  0 <= fnv1a bytes < 2 ^ 64 /\ 0 <= fold32 (fnv1a bytes) < 2 ^ 32 /\ 0 <= fold16 (fnv1a bytes) < 2 ^ 16.
Proof.
  intros _ h. assert (E : h = fnv1a bytes) by reflexivity.
  assert (R : 0 <= h < 2 ^ 64) by (apply fnv_run_range; vm_compute; split; congruence).
  unfold fnv_into_u64. rewrite E in *. destruct (into_u32_fold _ R) as [-> R32]. destruct (into_u16_fold _ R) as [-> R16].
  repeat split; try reflexivity; apply R || apply R32 || apply R16.
Qed.

(** * Last bytes *)
Lemma lor_disjoint a b k : 0 <= k -> a mod 2 ^ k = 0 -> 0 <= b < 2 ^ k -> Z.lor a b = a + b.
Proof.
  intros Hk Ha Hb.
  assert (L : Z.land a b = 0).
  { apply Z.bits_inj'. intros n Hn. rewrite Z.land_spec, Z.bits_0.
    destruct (Z.ltb_spec n k).
    - replace (Z.testbit a n) with (Z.testbit (a mod 2 ^ k) n) by (rewrite Z.mod_pow2_bits_low; [reflexivity|lia]).
      rewrite Ha, Z.bits_0. reflexivity.
    - replace (Z.testbit b n) with false; [apply andb_false_r|].
      symmetry. rewrite <- (Z.mod_small b (2 ^ k)) by exact Hb. apply Z.mod_pow2_bits_high. lia. }
  rewrite <- Z.lxor_lor by exact L. symmetry. apply Z.add_nocarry_lxor. exact L.
Qed.

Fixpoint bytes_value (done : list Z) : Z :=
  match done with [] => 0 | b :: r => bytes_value r * 256 + b end.

Lemma number_of_snoc ps b : number_of (ps ++ [b]) = 2 * number_of ps + bit_z b.
Proof. unfold number_of. rewrite fold_left_app. reflexivity. Qed.
Lemma number_of_nonneg ps : 0 <= number_of ps < 2 ^ zlen ps.
Proof.
  induction ps as [|b ps IH] using rev_ind; [cbn; lia|].
  rewrite number_of_snoc, zlen_app. change (zlen [b]) with 1.
  rewrite Z.pow_add_r by (try apply zlen_nonneg; lia). change (2 ^ 1) with 2. destruct b; cbn [bit_z]; lia.
Qed.

Lemma bytes_value_nonneg done : Forall is_byte done -> 0 <= bytes_value done.
Proof. unfold is_byte. induction 1; cbn; lia. Qed.

Definition lb_rel (h : lb_hist) (c : lbc) : Prop :=
  Forall is_byte (h_done h) /\
  match h_bits h with
  | None => lb_bit_index c = -1 /\ lb_cache c = bytes_value (h_done h) mod 2 ^ 32
  | Some ps => 0 <= zlen ps <= 7 /\ lb_bit_index c = 7 - zlen ps /\
      lb_cache c = (bytes_value (h_done h) * 256 + number_of ps * 2 ^ (8 - zlen ps)) mod 2 ^ 32
  end.

Lemma mod_pow2_split a m n : 0 <= m -> 0 <= n -> (a * 2 ^ m) mod 2 ^ (m + n) = (a mod 2 ^ n) * 2 ^ m.
Proof.
  intros Hm Hn. rewrite Z.add_comm, Z.pow_add_r by lia. rewrite Z.mul_mod_distr_r; [reflexivity| |];
    apply Z.pow_nonzero; lia.
Qed.

Lemma cache_low v p k : 0 <= k <= 8 ->
  ((v * 256 + p * 2 ^ k) mod 2 ^ 32) mod 2 ^ k = 0.
Proof.
  intros Hk. assert (E : v * 256 + p * 2 ^ k = (v * 2 ^ (8 - k) + p) * 2 ^ k).
  { rewrite Z.mul_add_distr_r, <- Z.mul_assoc, <- Z.pow_add_r by lia. replace (8 - k + k) with 8 by lia. reflexivity. }
  rewrite E. replace 32 with (k + (32 - k)) by lia. rewrite mod_pow2_split by lia.
  apply Z.mod_mul. apply Z.pow_nonzero; lia.
Qed.

Lemma lb_step_spec h c call : lb_rel h c ->
  match hist_step h call with
  | Some h' => exists c', lb_step c call = Ok c' /\ lb_rel h' c'
  | None => lb_step c call = Fail EAssert
  end.
Proof.
  intros (HB & R). destruct call as [|b]; cbn [hist_step lb_step].
  - unfold start_byte, lb_start_new_byte. destruct (h_bits h) as [ps|] eqn:Eb.
    + destruct R as (L & I & _). rewrite I. destruct (Z.eqb_spec (7 - zlen ps) (-1)); [lia|reflexivity].
    + destruct R as (I & C). rewrite I, C. cbn [Z.eqb Pos.eqb assert_ guard bind].
      rewrite shl_ok by (cbn; lia). cbn [bind]. eexists. split; [reflexivity|].
      split; [exact HB|]. cbn [h_bits lb_bit_index lb_cache h_done]. change (zlen []) with 0. cbn [number_of fold_left].
      split; [lia|]. split; [reflexivity|]. rewrite wrap_u by reflexivity. cbn [ibits u32].
      change (2 ^ 8) with 256. rewrite Z.mul_mod_idemp_l by lia. f_equal. lia.
  - unfold next_bit, lb_on_next_bit, lb_checked_bit_index. destruct (h_bits h) as [ps|] eqn:Eb.
    2:{ destruct R as (I & C). rewrite I. reflexivity. }
    destruct R as (L & I & C). rewrite I.
    destruct (Z.leb_spec 0 (7 - zlen ps)); [|lia]. cbn [assert_ guard bind].
    rewrite shl_ok by (cbn [ibits u32]; lia). cbn [bind]. rewrite sub_ok by (ib; lia). cbn [bind].
    set (v := bytes_value (h_done h)) in *. set (k := 7 - zlen ps) in *.
    assert (P2 : 0 < 2 ^ k) by (apply Z.pow_pos_nonneg; lia).
    assert (Pk : 2 ^ (8 - zlen ps) = 2 * 2 ^ k).
    { replace (8 - zlen ps) with (1 + k) by lia. rewrite Z.pow_add_r by lia. reflexivity. }
    assert (Pk7 : 2 ^ k <= 2 ^ 7) by (apply Z.pow_le_mono_r; lia).
    rewrite wrap_id by (cbn [ibits u32]; ib; pow2; destruct b; cbn [bit_z]; lia).
    assert (Low : lb_cache c mod 2 ^ (k + 1) = 0).
    { rewrite C. replace (8 - zlen ps) with (k + 1) by lia. apply cache_low. lia. }
    assert (PK1 : 2 ^ (k + 1) = 2 * 2 ^ k) by (rewrite Z.pow_add_r by lia; change (2 ^ 1) with 2; lia).
    assert (OR : Z.lor (lb_cache c) (bit_z b * 2 ^ k) = lb_cache c + bit_z b * 2 ^ k).
    { apply (lor_disjoint _ _ (k + 1)); [lia|exact Low|]. rewrite PK1. destruct b; cbn [bit_z]; lia. }
    assert (NEW : lb_cache c + bit_z b * 2 ^ k = (v * 256 + number_of (ps ++ [b]) * 2 ^ k) mod 2 ^ 32).
    { rewrite number_of_snoc.
      replace (v * 256 + (2 * number_of ps + bit_z b) * 2 ^ k)
        with ((v * 256 + number_of ps * 2 ^ (8 - zlen ps)) + bit_z b * 2 ^ k) by (rewrite Pk; ring).
      rewrite <- Z.add_mod_idemp_l by lia. rewrite <- C. symmetry. apply Z.mod_small.
      assert (R0 : 0 <= lb_cache c < 2 ^ 32) by (rewrite C; apply Z.mod_pos_bound; lia).
      assert (M : exists m, lb_cache c = m * 2 ^ (k + 1)).
      { exists (lb_cache c / 2 ^ (k + 1)). pose proof (Z.div_mod (lb_cache c) (2 ^ (k + 1)) ltac:(lia)). lia. }
      destruct M as [m M]. rewrite M in *.
      assert (B32 : 2 ^ 32 = 2 ^ (k + 1) * 2 ^ (31 - k)).
      { rewrite <- Z.pow_add_r by lia. f_equal. lia. }
      assert (0 <= bit_z b * 2 ^ k < 2 ^ (k + 1)) by (rewrite PK1; destruct b; cbn [bit_z]; lia).
      rewrite B32 in R0 |- *. set (A := 2 ^ (k + 1)) in *. set (B := 2 ^ (31 - k)) in *.
      set (z := bit_z b * 2 ^ k) in *. clearbody z A B. clear - R0 H0.
      assert (m + 1 <= B) by nia. nia. }
    rewrite OR, NEW. rewrite app_length. cbn [length].
    destruct (Nat.eqb_spec (length ps + 1) 8) as [E8|N8].
    + eexists. split; [reflexivity|]. assert (zlen ps = 7) by (unfold zlen; lia).
      split.
      * constructor; [|exact HB]. unfold is_byte. pose proof (number_of_nonneg (ps ++ [b])).
        rewrite zlen_app in *. change (zlen [b]) with 1 in *. rewrite H0 in *. exact H1.
      * cbn [h_bits h_done lb_bit_index lb_cache bytes_value]. split; [lia|].
        replace k with 0 by lia. fold v. f_equal. change (2 ^ 0) with 1. rewrite Z.mul_1_r. reflexivity.
    + eexists. split; [reflexivity|]. split; [exact HB|]. cbn [h_bits h_done lb_bit_index lb_cache].
      rewrite zlen_app. change (zlen [b]) with 1. unfold zlen in *. split; [lia|]. split; [lia|].
      replace (8 - (Z.of_nat (length ps) + 1)) with k by lia. reflexivity.
Qed.

Lemma lb_run_spec cs : forall h c, lb_rel h c ->
  match hist_run h cs with
  | Some h' => exists c', mfold lb_step cs c = Ok c' /\ lb_rel h' c'
  | None => mfold lb_step cs c = Fail EAssert
  end.
Proof.
  induction cs as [|call cs IH]; intros h c R; cbn [hist_run mfold]; [eauto|].
  pose proof (lb_step_spec h c call R) as S. destruct (hist_step h call) as [h'|].
  - destruct S as (c' & -> & R'). cbn [bind]. apply IH. exact R'.
  - rewrite S. reflexivity.
Qed.

Lemma lb_new_rel : lb_rel hist_empty lb_new.
Proof. split; [constructor|]. split; reflexivity. Qed.

(** Observations. *)
Lemma byte_of_value done k : Forall is_byte done -> 0 <= k ->
  bytes_value done / 256 ^ k mod 256 = nth (Z.to_nat k) done 0.
Proof.
  intros H Hk. revert k Hk. induction H as [|b r Hb H IH]; intros k Hk.
  - cbn [bytes_value]. rewrite Z.div_0_l by (apply Z.pow_nonzero; lia). destruct (Z.to_nat k); reflexivity.
  - cbn [bytes_value]. unfold is_byte in Hb. destruct (Z.eqb_spec k 0) as [->|NZ].
    + cbn [Z.to_nat nth]. change (256 ^ 0) with 1. rewrite Z.div_1_r.
      rewrite Z.add_comm, Z.mod_add by lia. now apply Z.mod_small.
    + replace (Z.to_nat k) with (S (Z.to_nat (k - 1))) by lia. cbn [nth]. rewrite <- IH by lia.
      f_equal. replace (256 ^ k) with (256 * 256 ^ (k - 1)).
      2:{ rewrite <- Z.pow_succ_r by lia. f_equal. lia. }
      rewrite <- Z.div_div by (try lia; apply Z.pow_pos_nonneg; lia). f_equal.
      rewrite Z.div_add_l by lia. rewrite (Z.div_small b) by lia. lia.
Qed.

Lemma bits_part ps : zlen ps <= 7 -> 0 <= number_of ps * 2 ^ (8 - zlen ps) < 256.
Proof.
  intros H. pose proof (number_of_nonneg ps). pose proof (zlen_nonneg ps).
  assert (E : 256 = 2 ^ zlen ps * 2 ^ (8 - zlen ps)).
  { rewrite <- Z.pow_add_r by lia. replace (zlen ps + (8 - zlen ps)) with 8 by lia. reflexivity. }
  assert (0 < 2 ^ (8 - zlen ps)) by (apply Z.pow_pos_nonneg; lia). rewrite E. nia.
Qed.

Lemma cache_byte done ps k : Forall is_byte done -> zlen ps <= 7 -> 1 <= k <= 3 ->
  (bytes_value done * 256 + number_of ps * 2 ^ (8 - zlen ps)) mod 2 ^ 32 / 2 ^ (8 * k) mod 256
    = nth (Z.to_nat (k - 1)) done 0.
Proof.
  intros H L Hk. pose proof (bits_part ps L) as B. set (p := number_of ps * 2 ^ (8 - zlen ps)) in *.
  rewrite <- byte_of_value by (try assumption; lia).
  assert (E32 : 2 ^ 32 = 2 ^ (8 * k) * (256 * 2 ^ (24 - 8 * k))).
  { change 256 with (2 ^ 8). rewrite <- !Z.pow_add_r by lia. f_equal. lia. }
  set (X := bytes_value done * 256 + p).
  assert (D : X mod 2 ^ 32 / 2 ^ (8 * k) mod 256 = X / 2 ^ (8 * k) mod 256).
  { rewrite E32. set (d := 2 ^ (8 * k)). set (m := 2 ^ (24 - 8 * k)).
    assert (0 < d) by (apply Z.pow_pos_nonneg; lia). assert (0 < m) by (apply Z.pow_pos_nonneg; lia).
    rewrite Z.rem_mul_r by lia. rewrite (Z.mul_comm d), Z.div_add by lia.
    rewrite (Z.div_small (X mod d)) by (apply Z.mod_pos_bound; lia).
    rewrite Z.add_0_l. rewrite Z.rem_mul_r by lia. rewrite (Z.mul_comm 256), Z.mod_add by lia.
    apply Z.mod_mod. lia. }
  rewrite D. f_equal. unfold X.
  replace (2 ^ (8 * k)) with (256 * 256 ^ (k - 1)).
  2:{ change 256 with (2 ^ 8) at 1 2. rewrite <- Z.pow_mul_r, <- Z.pow_add_r by lia. f_equal. lia. }
  rewrite <- Z.div_div by (try lia; apply Z.pow_pos_nonneg; lia). f_equal.
  rewrite Z.div_add_l by lia. rewrite (Z.div_small p) by lia. lia.
Qed.

Lemma lb_previous_spec h c ps k : lb_rel h c -> h_bits h = Some ps -> 1 <= k <= 3 ->
  lb_previous_byte k c = Ok (previous h (Z.to_nat k)).
Proof.
  intros (HB & R) E Hk. rewrite E in R. destruct R as (L & I & C).
  unfold lb_previous_byte, previous. rewrite I. destruct (Z.leb_spec 0 (7 - zlen ps)); [|lia].
  cbn [assert_ guard bind]. rewrite shr_ok by (cbn [ibits u32]; lia). cbn [bind]. f_equal.
  rewrite wrap_u by reflexivity. cbn [ibits u8]. change (2 ^ 8) with 256. rewrite C.
  rewrite cache_byte by (try assumption; lia). f_equal. lia.
Qed.

Lemma cache_unfinished v ps : zlen ps <= 7 -> forall w, 8 <= w <= 32 ->
  ((v * 256 + number_of ps * 2 ^ (8 - zlen ps)) mod 2 ^ 32) mod 2 ^ w / 2 ^ (8 - zlen ps)
    = (v mod 2 ^ (w - 8)) * 2 ^ zlen ps + number_of ps.
Proof.
  intros L w Hw. pose proof (bits_part ps L) as B. pose proof (number_of_nonneg ps) as NB.
  pose proof (zlen_nonneg ps) as Ln.
  set (p := number_of ps) in *. set (k := 8 - zlen ps) in *.
  set (X := v * 256 + p * 2 ^ k) in *.
  assert (M : X mod 2 ^ 32 mod 2 ^ w = X mod 2 ^ w).
  { replace (2 ^ 32) with (2 ^ w * 2 ^ (32 - w)) by (rewrite <- Z.pow_add_r by lia; f_equal; lia).
    assert (0 < 2 ^ w) by (apply Z.pow_pos_nonneg; lia).
    assert (0 < 2 ^ (32 - w)) by (apply Z.pow_pos_nonneg; lia).
    rewrite Z.rem_mul_r by lia. rewrite (Z.mul_comm (2 ^ w)), Z.mod_add by lia. apply Z.mod_mod. lia. }
  rewrite M.
  assert (E : X = (v * 2 ^ zlen ps + p) * 2 ^ k).
  { unfold X. rewrite Z.mul_add_distr_r, <- Z.mul_assoc, <- Z.pow_add_r by lia.
    replace (zlen ps + k) with 8 by lia. reflexivity. }
  rewrite E. replace w with (k + (w - k)) at 1 by lia. rewrite mod_pow2_split by lia.
  rewrite Z.div_mul by (apply Z.pow_nonzero; lia).
  replace (w - k) with (zlen ps + (w - 8)) by lia.
  rewrite Z.pow_add_r by lia.
  assert (P1 : 0 < 2 ^ zlen ps) by (apply Z.pow_pos_nonneg; lia).
  assert (P2 : 0 < 2 ^ (w - 8)) by (apply Z.pow_pos_nonneg; lia).
  rewrite Z.rem_mul_r by lia.
  rewrite (Z.add_comm (v * _) p), Z.mod_add, Z.div_add by lia.
  rewrite (Z.mod_small p), (Z.div_small p) by lia. rewrite Z.add_0_l. ring.
Qed.

Lemma lb_unfinished_spec h c ps : lb_rel h c -> h_bits h = Some ps ->
  lb_unfinished_byte c = Ok (number_of (true :: ps)) /\ 1 <= number_of (true :: ps) <= 255 /\
  number_of (true :: ps) = 2 ^ zlen ps + number_of ps.
Proof.
  intros (HB & R) E. rewrite E in R. destruct R as (L & I & C).
  assert (N1 : number_of (true :: ps) = 2 ^ zlen ps + number_of ps).
  { clear. induction ps as [|b ps IH] using rev_ind; [reflexivity|].
    rewrite app_comm_cons, !number_of_snoc, IH, zlen_app. change (zlen [b]) with 1.
    rewrite Z.pow_add_r by (try apply zlen_nonneg; lia). change (2 ^ 1) with 2. ring. }
  pose proof (number_of_nonneg ps) as NB. pose proof (zlen_nonneg ps) as Ln.
  assert (P7 : 2 ^ zlen ps <= 2 ^ 7) by (apply Z.pow_le_mono_r; lia).
  assert (P0 : 0 < 2 ^ zlen ps) by (apply Z.pow_pos_nonneg; lia). change (2 ^ 7) with 128 in P7.
  split; [|split; [lia|exact N1]].
  unfold lb_unfinished_byte, lb_checked_bit_index. rewrite I. destruct (Z.leb_spec 0 (7 - zlen ps)); [|lia].
  cbn [assert_ guard bind]. rewrite sub_ok by (ib; lia). cbn [bind].
  rewrite shl_ok by (cbn [ibits u8]; lia). cbn [bind]. rewrite add_ok by (ib; lia). cbn [bind].
  rewrite shr_ok by (cbn [ibits u32]; lia). cbn [bind].
  rewrite land_255, C. replace (7 - zlen ps + 1) with (8 - zlen ps) by lia.
  replace (7 - (7 - zlen ps)) with (zlen ps) by lia.
  change 256 with (2 ^ 8) at 2. rewrite cache_unfinished by lia.
  change (2 ^ (8 - 8)) with 1. rewrite Z.mod_1_r, Z.mul_0_l, Z.add_0_l, Z.mul_1_l.
  rewrite !wrap_id by (cbn [ibits u8]; ib; lia). rewrite add_ok by (ib; lia). f_equal. lia.
Qed.

Lemma bytes_value_mod256 done : Forall is_byte done -> bytes_value done mod 256 = nth 0 done 0.
Proof. intros H. change 0%nat with (Z.to_nat 0). rewrite <- (byte_of_value done 0) by (assumption || lia). f_equal. change (256 ^ 0) with 1. now rewrite Z.div_1_r. Qed.

Lemma nth_byte done k : Forall is_byte done -> is_byte (nth k done 0).
Proof.
  intros H. destruct (Nat.ltb_spec k (length done)).
  - rewrite Forall_forall in H. apply H. now apply nth_In.
  - rewrite nth_overflow by lia. unfold is_byte. lia.
Qed.

(** Order-1 hash: 1, then the bits of the previous byte, then the bits of the current one. *)
Lemma lb_hash01_spec h c ps : lb_rel h c -> h_bits h = Some ps ->
  lb_hash01_16 c = Ok ((256 + previous h 1) * 2 ^ zlen ps + number_of ps) /\
  256 <= (256 + previous h 1) * 2 ^ zlen ps + number_of ps <= 65535.
Proof.
  intros (HB & R) E. rewrite E in R. destruct R as (L & I & C).
  pose proof (number_of_nonneg ps) as NB. pose proof (zlen_nonneg ps) as Ln.
  assert (P7 : 2 ^ zlen ps <= 2 ^ 7) by (apply Z.pow_le_mono_r; lia).
  assert (P0 : 0 < 2 ^ zlen ps) by (apply Z.pow_pos_nonneg; lia). change (2 ^ 7) with 128 in P7.
  assert (PB : is_byte (previous h 1)) by (unfold previous; now apply nth_byte). unfold is_byte in PB.
  assert (Rg : 256 <= (256 + previous h 1) * 2 ^ zlen ps + number_of ps <= 65535).
  { set (x := 2 ^ zlen ps) in *. clearbody x. nia. }
  split; [|exact Rg].
  unfold lb_hash01_16, lb_checked_bit_index. rewrite I. destruct (Z.leb_spec 0 (7 - zlen ps)); [|lia].
  cbn [assert_ guard bind]. rewrite sub_ok by (ib; lia). cbn [bind].
  rewrite shl_ok by (cbn [ibits u16]; lia). cbn [bind]. rewrite add_ok by (ib; lia). cbn [bind].
  rewrite shr_ok by (cbn [ibits u32]; lia). cbn [bind].
  change 65535 with (2 ^ 16 - 1). rewrite land_ones_mod, C by lia.
  replace (7 - zlen ps + 1) with (8 - zlen ps) by lia.
  replace (15 - (7 - zlen ps)) with (zlen ps + 8) by lia.
  rewrite cache_unfinished by lia. change (2 ^ (16 - 8)) with 256.
  rewrite bytes_value_mod256 by assumption. unfold previous in *. cbn [Nat.sub] in *.
  set (b := nth 0 (h_done h) 0) in *.
  rewrite Z.pow_add_r by lia. change (2 ^ 8) with 256. rewrite Z.mul_1_l.
  set (x := 2 ^ zlen ps) in *. clearbody x.
  rewrite !wrap_id by (cbn [ibits u16]; ib; nia). rewrite add_ok by (ib; nia). f_equal. ring.
Qed.

Lemma hash01_injective p q ps qs : is_byte p -> is_byte q -> zlen ps <= 7 -> zlen qs <= 7 ->
  (256 + p) * 2 ^ zlen ps + number_of ps = (256 + q) * 2 ^ zlen qs + number_of qs ->
  p = q /\ ps = qs.
Proof.
  unfold is_byte. intros Hp Hq Lp Lq E.
  pose proof (number_of_nonneg ps) as NP. pose proof (number_of_nonneg qs) as NQ.
  pose proof (zlen_nonneg ps). pose proof (zlen_nonneg qs).
  assert (G : forall a b, a < b -> 0 <= a -> 2 * 2 ^ a <= 2 ^ b).
  { intros a b Hab Ha. rewrite <- Z.pow_succ_r by lia. apply Z.pow_le_mono_r; lia. }
  assert (EL : zlen ps = zlen qs).
  { destruct (Z.lt_trichotomy (zlen ps) (zlen qs)) as [C|[C|C]]; [|exact C|];
      pose proof (G _ _ C ltac:(lia)); nia. }
  rewrite EL in *. set (x := 2 ^ zlen qs) in *.
  assert (0 < x) by (apply Z.pow_pos_nonneg; lia).
  assert (p = q) by nia. split; [assumption|]. subst q. assert (EN : number_of ps = number_of qs) by nia.
  clear - EL EN. assert (L : length ps = length qs) by (unfold zlen in EL; lia). clear EL.
  revert qs L EN. induction ps as [|b ps IH] using rev_ind; intros qs L EN.
  - destruct qs; [reflexivity|discriminate].
  - destruct qs as [|c qs _] using rev_ind; [rewrite app_length in L; cbn in L; lia|].
    rewrite !app_length in L. cbn in L. rewrite !number_of_snoc in EN.
    assert (b = c) by (destruct b, c; cbn [bit_z] in EN; try reflexivity; lia). subst c.
    f_equal. apply IH; lia.
Qed.

Lemma lb_hash02_spec h c ps : lb_rel h c -> h_bits h = Some ps ->
  lb_hash02_16 c = Ok (fold16 (fnv1a [previous h 2; previous h 1; number_of (true :: ps)])).
Proof.
  intros R E. unfold lb_hash02_16.
  assert (I : 0 <=? lb_bit_index c = true).
  { destruct R as (_ & R). rewrite E in R. lia. }
  rewrite I. cbn [assert_ guard bind].
  rewrite !(lb_previous_spec h c ps) by (assumption || lia). cbn [bind].
  destruct (lb_unfinished_spec h c ps R E) as [-> [U _]]. cbn [bind]. f_equal.
  change (Z.to_nat 2) with 2%nat. change (Z.to_nat 1) with 1%nat.
  destruct R as (HB & _).
  apply (fnv_standard [previous h 2; previous h 1; number_of (true :: ps)]).
  unfold previous. repeat constructor; try (apply nth_byte; assumption). all: unfold is_byte; lia.
Qed.
Lemma lb_hash03_spec h c ps : lb_rel h c -> h_bits h = Some ps ->
  lb_hash03_16 c = Ok (fold16 (fnv1a [previous h 3; previous h 2; previous h 1; number_of (true :: ps)])).
Proof.
  intros R E. unfold lb_hash03_16.
  assert (I : 0 <=? lb_bit_index c = true).
  { destruct R as (_ & R). rewrite E in R. lia. }
  rewrite I. cbn [assert_ guard bind].
  rewrite !(lb_previous_spec h c ps) by (assumption || lia). cbn [bind].
  destruct (lb_unfinished_spec h c ps R E) as [-> [U _]]. cbn [bind]. f_equal.
  change (Z.to_nat 3) with 3%nat. change (Z.to_nat 2) with 2%nat. change (Z.to_nat 1) with 1%nat.
  destruct R as (HB & _).
  apply (fnv_standard [previous h 3; previous h 2; previous h 1; number_of (true :: ps)]).
  unfold previous. repeat constructor; try (apply nth_byte; assumption). all: unfold is_byte; lia.
Qed.

Lemma lb_idle_fails h c : lb_rel h c -> h_bits h = None ->
  lb_unfinished_byte c = Fail EAssert /\ lb_hash01_16 c = Fail EAssert /\ lb_hash02_16 c = Fail EAssert /\
  lb_hash03_16 c = Fail EAssert /\ forall k, lb_previous_byte k c = Fail EAssert.
Proof.
  intros (HB & R) E. rewrite E in R. destruct R as (I & _).
  unfold lb_unfinished_byte, lb_hash01_16, lb_hash02_16, lb_hash03_16, lb_previous_byte, lb_checked_bit_index.
  rewrite I. repeat split; reflexivity.
Qed.

Lemma last_bytes_correct calls :
  match hist_run hist_empty calls with
  | None => mfold lb_step calls lb_new = Fail EAssert
  | Some h => exists c, mfold lb_step calls lb_new = Ok c /\
      match h_bits h with
      | None => lb_unfinished_byte c = Fail EAssert /\ lb_hash01_16 c = Fail EAssert /\
          lb_hash02_16 c = Fail EAssert /\ lb_hash03_16 c = Fail EAssert /\
          forall k, lb_previous_byte k c = Fail EAssert
      | Some ps =>
          zlen ps <= 7 /\
          lb_unfinished_byte c = Ok (number_of (true :: ps)) /\ 1 <= number_of (true :: ps) <= 255 /\
          (forall k, 1 <= k <= 3 -> lb_previous_byte k c = Ok (previous h (Z.to_nat k)))
      end
  end.
Proof.
  pose proof (lb_run_spec calls _ _ lb_new_rel) as S. destruct (hist_run hist_empty calls) as [h|]; [|exact S].
  destruct S as (c & E & R). exists c. split; [exact E|].
  destruct (h_bits h) as [ps|] eqn:Eb.
  - destruct (lb_unfinished_spec h c ps R Eb) as (U & B & _). split.
    { destruct R as (_ & R). rewrite Eb in R. lia. }
    split; [exact U|]. split; [exact B|]. intros k Hk. now apply (lb_previous_spec h c ps).
  - now apply (lb_idle_fails h).
Qed.

Lemma hashes_correct calls h ps : hist_run hist_empty calls = Some h -> h_bits h = Some ps ->
  exists c, mfold lb_step calls lb_new = Ok c /\
    lb_hash02_16 c = Ok (fold16 (fnv1a [previous h 2; previous h 1; number_of (true :: ps)])) /\
    lb_hash03_16 c = Ok (fold16 (fnv1a [previous h 3; previous h 2; previous h 1; number_of (true :: ps)])).
Proof.
  intros E Eb. pose proof (lb_run_spec calls _ _ lb_new_rel) as S. rewrite E in S. destruct S as (c & F & R).
  exists c. split; [exact F|]. split; [now apply lb_hash02_spec|now apply lb_hash03_spec].
Qed.

Lemma hash01_correct calls h ps : hist_run hist_empty calls = Some h -> h_bits h = Some ps ->
  exists c v, mfold lb_step calls lb_new = Ok c /\ lb_hash01_16 c = Ok v /\ 256 <= v <= 65535 /\
    forall calls' h' ps' c', hist_run hist_empty calls' = Some h' -> h_bits h' = Some ps' ->
      mfold lb_step calls' lb_new = Ok c' ->
      (lb_hash01_16 c' = Ok v <-> previous h' 1 = previous h 1 /\ ps' = ps).
Proof.
  intros E Eb. pose proof (lb_run_spec calls _ _ lb_new_rel) as S. rewrite E in S. destruct S as (c & F & R).
  destruct (lb_hash01_spec h c ps R Eb) as [H B]. exists c. eexists. split; [exact F|]. split; [exact H|].
  split; [exact B|]. intros calls' h' ps' c' E' Eb' F'.
  pose proof (lb_run_spec calls' _ _ lb_new_rel) as S'. rewrite E', F' in S'.
  destruct S' as (c2 & [= <-] & R').
  destruct (lb_hash01_spec h' c' ps' R' Eb') as [H' B']. rewrite H'.
  assert (L : zlen ps <= 7) by (destruct R as (_ & R); rewrite Eb in R; lia).
  assert (L' : zlen ps' <= 7) by (destruct R' as (_ & R'); rewrite Eb' in R'; lia).
  split.
  - intros [= X]. apply hash01_injective in X; try assumption; unfold previous; apply nth_byte; [apply R'|apply R].
  - intros [-> ->]. reflexivity.
Qed.

(** * Quantiser *)
Definition quantize_z (x : Z) : Z := match quantize x with Ok v => v | Fail _ => -1 end.
Definition quantizer_check (x : Z) : bool :=
  let q := quantize_z x in
  (0 <=? q) && (q <=? 31) && (level_start q <=? x) && ((q =? 31) || (x <? level_start (q + 1))) .
Lemma quantizer_sweep : forallb quantizer_check (zseq 0 (Z.to_nat 65536)) = true.
Proof. vm_cast_no_check (eq_refl true). Qed.

Lemma quantize_spec x : 0 <= x <= 65535 ->
  exists q, quantize x = Ok q /\ 0 <= q <= 31 /\ level_start q <= x /\ (q < 31 -> x < level_start (q + 1)).
Proof.
  intros Hx. pose proof (proj1 (forallb_forall _ _) quantizer_sweep x) as S.
  specialize (S (proj2 (zseq_In 0 (Z.to_nat 65536) x) ltac:(lia))). unfold quantizer_check, quantize_z in S.
  destruct (quantize x) as [q|]; [|discriminate]. exists q. split; [reflexivity|]. lia.
Qed.

Lemma level_start_sweep : forallb (fun k => level_start k <? level_start (k + 1)) (zseq 0 31) = true.
Proof. vm_compute. reflexivity. Qed.
Lemma level_start_step k : 0 <= k <= 30 -> level_start k < level_start (k + 1).
Proof.
  intros H. pose proof (proj1 (forallb_forall _ _) level_start_sweep k (proj2 (zseq_In 0 31 k) ltac:(lia))). lia.
Qed.
Lemma level_start_mono j k : 0 <= j -> j <= k <= 31 -> level_start j <= level_start k.
Proof.
  intros Hj Hk. replace k with (j + Z.of_nat (Z.to_nat (k - j))) by lia.
  assert (B : j + Z.of_nat (Z.to_nat (k - j)) <= 31) by lia.
  induction (Z.to_nat (k - j)) as [|n IH].
  - rewrite Z.add_0_r. lia.
  - pose proof (level_start_step (j + Z.of_nat n) ltac:(lia)).
    replace (j + Z.of_nat (S n)) with (j + Z.of_nat n + 1) by lia. lia.
Qed.

Lemma quantize_monotone x y q r : 0 <= x -> x <= y <= 65535 -> quantize x = Ok q -> quantize y = Ok r ->
  q <= r /\ (y = x + 1 -> r <= q + 1).
Proof.
  intros Hx Hy Eq Er.
  destruct (quantize_spec x ltac:(lia)) as (q' & Eq' & Bq & Lq & Uq). rewrite Eq in Eq'. injection Eq' as <-.
  destruct (quantize_spec y ltac:(lia)) as (r' & Er' & Br & Lr & Ur). rewrite Er in Er'. injection Er' as <-.
  split.
  - destruct (Z.leb_spec q r) as [|C]; [assumption|]. exfalso.
    pose proof (level_start_mono (r + 1) q ltac:(lia) ltac:(lia)). specialize (Ur ltac:(lia)). lia.
  - intros ->. destruct (Z.leb_spec r (q + 1)) as [|C]; [assumption|]. exfalso.
    pose proof (level_start_mono (q + 2) r ltac:(lia) ltac:(lia)).
    pose proof (level_start_step (q + 1) ltac:(lia)). replace (q + 1 + 1) with (q + 2) in * by lia.
    specialize (Uq ltac:(lia)). lia.
Qed.

Lemma quantizer_max : quantizer_max_output = Ok 31.
Proof. vm_compute. reflexivity. Qed.
Lemma quantizer_onto k : 0 <= k <= 31 -> quantize (level_start k) = Ok k.
Proof.
  intros H. assert (S : forallb (fun k => match quantize (level_start k) with Ok v => v =? k | _ => false end) (zseq 0 32) = true)
    by (vm_compute; reflexivity).
  pose proof (proj1 (forallb_forall _ _) S k (proj2 (zseq_In 0 32 k) ltac:(lia))) as G. cbv beta in G.
  destruct (quantize (level_start k)); [|discriminate]. f_equal. lia.
Qed.
