From Verif Require Import Base BaseFacts CodingModel CodingSpec.

(** * Abstract coder *)
Definition a_good (a : ast) : Prop := 0 <= a_n a /\ 0 <= a_low a /\ 1 <= a_range a <= 2 ^ 31 - 1.

Lemma a_init_good : a_good a_init.
Proof. unfold a_good, a_init; cbn [a_n a_low a_range]. pow2. lia. Qed.

(** [sub_of a b]: the interval of [b], read at the finer scale, lies inside that of [a]. *)
Definition sub_of (a b : ast) : Prop :=
  a_n a <= a_n b /\
  a_low a * 256 ^ (a_n b - a_n a) <= a_low b /\
  a_low b + a_range b <= (a_low a + a_range a) * 256 ^ (a_n b - a_n a).

Lemma sub_of_refl a : sub_of a a.
Proof. unfold sub_of. rewrite Z.sub_diag. change (256 ^ 0) with 1. lia. Qed.

Lemma sub_of_trans a b c : sub_of a b -> sub_of b c -> sub_of a c.
Proof.
  unfold sub_of. intros (N1 & L1 & H1) (N2 & L2 & H2).
  assert (E : 256 ^ (a_n c - a_n a) = 256 ^ (a_n b - a_n a) * 256 ^ (a_n c - a_n b)).
  { rewrite <- Z.pow_add_r by lia. f_equal. lia. }
  assert (0 < 256 ^ (a_n c - a_n b)) by (apply Z.pow_pos_nonneg; lia).
  rewrite E. split; [lia|]. split; nia.
Qed.

Lemma a_norm_spec fuel a :
  a_good a -> 2 ^ 23 <= a_range a * 256 ^ Z.of_nat fuel ->
  let b := a_norm fuel a in
  a_good b /\ 2 ^ 23 <= a_range b /\ sub_of a b /\ a_n b <= a_n a + Z.of_nat fuel /\
  a_low b = a_low a * 256 ^ (a_n b - a_n a) /\ a_range b = a_range a * 256 ^ (a_n b - a_n a).
Proof.
  revert a; induction fuel as [|f IH]; intros a G R; cbn [a_norm].
  - change (256 ^ Z.of_nat 0) with 1 in R.
    destruct (Z.ltb_spec (a_range a) (2 ^ 23)); [lia|].
    cbv zeta. rewrite Z.sub_diag. change (256 ^ 0) with 1. repeat split; try apply G; try lia; apply sub_of_refl.
  - destruct (Z.ltb_spec (a_range a) (2 ^ 23)) as [L|L].
    + set (a' := mkAst (a_n a + 1) (a_low a * 256) (a_range a * 256)).
      assert (G' : a_good a').
      { unfold a_good in *. subst a'; cbn [a_n a_low a_range]. pow2. lia. }
      assert (S' : sub_of a a').
      { unfold sub_of. subst a'; cbn [a_n a_low a_range].
        replace (a_n a + 1 - a_n a) with 1 by lia. change (256 ^ 1) with 256. lia. }
      specialize (IH a' G').
      assert (R' : 2 ^ 23 <= a_range a' * 256 ^ Z.of_nat f).
      { subst a'; cbn [a_range]. rewrite Nat2Z.inj_succ, Z.pow_succ_r in R by lia. lia. }
      destruct (IH R') as (I1 & I2 & I3 & I4 & I5 & I6). cbv zeta.
      assert (N : a_n a' = a_n a + 1) by reflexivity.
      assert (E : 256 ^ (a_n (a_norm f a') - a_n a) = 256 * 256 ^ (a_n (a_norm f a') - a_n a')).
      { rewrite <- Z.pow_succ_r by (destruct I3; lia). f_equal. lia. }
      split; [exact I1|]. split; [exact I2|]. split; [eapply sub_of_trans; eassumption|].
      split; [lia|]. rewrite E. split; [rewrite I5 | rewrite I6]; subst a'; cbn [a_low a_range]; ring.
    + cbv zeta. rewrite Z.sub_diag. change (256 ^ 0) with 1.
      repeat split; try apply G; try lia; apply sub_of_refl.
Qed.

Lemma a_norm5 a : a_good a ->
  let b := a_norm 5 a in
  a_good b /\ 2 ^ 23 <= a_range b /\ sub_of a b.
Proof.
  intros G. assert (R : 2 ^ 23 <= a_range a * 256 ^ Z.of_nat 5).
  { change (256 ^ Z.of_nat 5) with 1099511627776. unfold a_good in G. pow2. lia. }
  destruct (a_norm_spec 5 a G R) as (A & B & C & _). auto.
Qed.

(** At most three renormalisation shifts per event. *)
Lemma a_norm_count a : a_good a -> a_n (a_norm 5 a) <= a_n a + 3.
Proof.
  intros G. assert (R : 2 ^ 23 <= a_range a * 256 ^ Z.of_nat 3).
  { change (256 ^ Z.of_nat 3) with 16777216. unfold a_good in G. pow2. lia. }
  destruct (a_norm_spec 3 a G R) as (A & B & C & D & _).
  assert (E : forall f g x, 2 ^ 23 <= a_range (a_norm f x) -> a_norm (f + g) x = a_norm f x).
  { clear. induction f as [|f IH]; intros g x H; cbn [a_norm plus] in *.
    - destruct (Z.ltb_spec (a_range x) (2 ^ 23)) as [L|L]; [lia|].
      destruct g; cbn [a_norm]; destruct (Z.ltb_spec (a_range x) (2 ^ 23)); (reflexivity || lia).
    - destruct (Z.ltb_spec (a_range x) (2 ^ 23)); [now apply IH | reflexivity]. }
  change 5%nat with (3 + 2)%nat. rewrite E by exact B. lia.
Qed.

Lemma helper_bounds r p : 2 ^ 23 <= r <= 2 ^ 31 - 1 -> fp_valid p = true ->
  1 <= r * p / 2 ^ 23 <= r - 1.
Proof.
  unfold fp_valid. intros Hr Hp. pow2.
  assert (1 <= p <= 8388607) by lia.
  split.
  - apply Z.div_le_lower_bound; nia.
  - assert (r * p / 8388608 < r); [|lia]. apply Z.div_lt_upper_bound; nia.
Qed.

Lemma a_split_spec a e : a_good a -> 2 ^ 23 <= a_range a -> ev_ok e = true ->
  a_good (a_split e a) /\ sub_of a (a_split e a) /\ a_n (a_split e a) = a_n a.
Proof.
  intros G R V. unfold a_good, sub_of in *. destruct e as [p v|h]; cbn [a_split].
  - pose proof (helper_bounds (a_range a) p ltac:(pow2; lia) V) as B. cbv zeta.
    set (hh := a_range a * p / 2 ^ 23) in *.
    destruct v; cbn [a_n a_low a_range]; rewrite Z.sub_diag; change (256 ^ 0) with 1; pow2; lia.
  - destruct h; cbn [a_n a_low a_range]; rewrite Z.sub_diag; change (256 ^ 0) with 1; pow2; lia.
Qed.

Lemma a_step_good a e : a_good a -> ev_ok e = true ->
  a_good (a_step a e) /\ sub_of a (a_step a e) /\ a_n (a_step a e) <= a_n a + 3.
Proof.
  intros G V. unfold a_step. destruct (a_norm5 a G) as (G1 & R1 & S1).
  destruct (a_split_spec _ e G1 R1 V) as (G2 & S2 & N2).
  split; [exact G2|]. split; [eapply sub_of_trans; eassumption|].
  rewrite N2. now apply a_norm_count.
Qed.

Lemma a_run_good evs : forall a, a_good a -> forallb ev_ok evs = true ->
  a_good (a_run a evs) /\ sub_of a (a_run a evs) /\ a_n (a_run a evs) <= a_n a + 3 * Z.of_nat (length evs).
Proof.
  unfold a_run. induction evs as [|e evs IH]; intros a G V; cbn [fold_left length].
  - split; [exact G|]. split; [apply sub_of_refl | lia].
  - cbn [forallb] in V. apply andb_prop in V. destruct V as [V1 V2].
    destruct (a_step_good a e G V1) as (G1 & S1 & N1).
    destruct (IH _ G1 V2) as (G2 & S2 & N2).
    split; [exact G2|]. split; [eapply sub_of_trans; eassumption | lia].
Qed.

(** * Encoder *)
(** Value of the written bytes, newest first. *)
Fixpoint vr (l : list Z) : Z := match l with [] => 0 | b :: r => vr r * 256 + b end.

Lemma vr_nonneg l : byte_list l -> 0 <= vr l.
Proof. induction 1; cbn [vr]; lia. Qed.

Lemma be_acc_app acc l r : be_acc acc (l ++ r) = be_acc (be_acc acc l) r.
Proof. revert acc; induction l; intros; cbn; auto. Qed.
Lemma be_rev l : be (rev l) = vr l.
Proof.
  unfold be. induction l as [|b l IH]; cbn [rev vr]; [reflexivity|].
  rewrite be_acc_app, IH. reflexivity.
Qed.

Lemma Ziter_nat {A} (f : A -> A) n x : 0 <= n -> Z.iter n f x = Nat.iter (Z.to_nat n) f x.
Proof. intros H. rewrite iter_nat_of_Z by exact H. now rewrite Zabs2Nat.abs_nat_nonneg. Qed.

Lemma write_run_spec run c out : 0 <= run -> byte_list out ->
  byte_list (write_run run c out) /\
  zlen (write_run run c out) = run + zlen out /\
  vr (write_run run c out) = vr out * 256 ^ run + (if c then 0 else 256 ^ run - 1).
Proof.
  intros H B. unfold write_run. rewrite Ziter_nat by exact H.
  assert (E : exists n, Z.to_nat run = n /\ run = Z.of_nat n) by (exists (Z.to_nat run); lia).
  destruct E as (n & -> & ->). clear H.
  induction n as [|n (IB & IL & IV)]; cbn [Nat.iter nat_rect].
  - change (256 ^ Z.of_nat 0) with 1. unfold zlen. repeat split; [exact B | destruct c; lia].
  - rewrite Nat2Z.inj_succ, Z.pow_succ_r by lia. rewrite zlen_cons.
    repeat split.
    + constructor; [destruct c; lia | exact IB].
    + fold (Nat.iter n (cons (if c then 0 else 255)) out). lia.
    + cbn [vr]. fold (Nat.iter n (cons (if c then 0 else 255)) out). rewrite IV. destruct c; lia.
Qed.

(** Value and number of the octets passed to output_byte so far, pending carry included. *)
Definition ov (s : encoder) : Z :=
  if e_delay s then
    (vr (e_out s) * 256 + e_last s) * 256 ^ e_run s + 256 ^ e_run s - 1 + bit_z (e_carry s)
  else 0.
Definition onum (s : encoder) : Z :=
  if e_delay s then zlen (e_out s) + 1 + e_run s else 0.

(** Output part of the encoder invariant for the logical 31-bit buffer [b] and range [r]. *)
Record oinv (s : encoder) (b r : Z) : Prop := mkOinv {
  oi_b : 0 <= b < 2 ^ 31;
  oi_r : 1 <= r;
  oi_bytes : byte_list (e_out s);
  oi_last : 0 <= e_last s <= 255;
  oi_run : 0 <= e_run s;
  oi_carry : e_carry s = true -> b + r <= 2 ^ 31;
  oi_nodelay : e_delay s = false -> e_out s = [] /\ e_run s = 0 /\ e_carry s = true;
  oi_delay : e_delay s = true ->
    ov s * 2 ^ 31 + b + r <= (vr (e_out s) + 1) * 256 ^ (e_run s + 1) * 2 ^ 31 }.

Ltac kill := try assumption;
  try (match goal with H : _ = false |- _ => cbn in H; discriminate H end);
  try (match goal with |- false = true => fail 1 | _ => discriminate end).

Lemma pow256_pos n : 0 <= n -> 0 < 256 ^ n.
Proof. intros; apply Z.pow_pos_nonneg; lia. Qed.

(** Either a bound rules the counter overflow out, or the step is known to have succeeded. *)
Definition okor {A} (P : Prop) (r : res A) : Prop := P \/ is_ok r = true.
Lemma okor_bind {A B} P (r : res A) (f : A -> res B) : okor P (bind r f) -> okor P r.
Proof. intros [H|H]; [now left|]. right. destruct r; [reflexivity|discriminate]. Qed.
Lemma okor_weak {A} (P Q : Prop) (r : res A) : (P -> Q) -> okor P r -> okor Q r.
Proof. unfold okor. tauto. Qed.

Lemma output_byte_spec s b r :
  oinv s b r -> r <= 2 ^ 23 -> okor (e_run s < 2 ^ 31 - 1) (output_byte s (b / 2 ^ 23)) ->
  exists s', output_byte s (b / 2 ^ 23) = Ok s' /\
    oinv s' (b * 256 mod 2 ^ 31) (r * 256) /\
    ov s' = ov s * 256 + b / 2 ^ 23 /\ onum s' = onum s + 1 /\ e_delay s' = true /\
    e_buffer s' = e_buffer s /\ e_range s' = e_range s /\
    (b / 2 ^ 23 <> 255 -> e_run s' = 0 /\ e_last s' = b / 2 ^ 23 /\ e_carry s' = false /\
                          vr (e_out s') = ov s).
Proof.
  intros I Hr Hrun. destruct I as [Ib Ir Iby Il Iru Ic Ind Id].
  set (o := b / 2 ^ 23).
  assert (Ho : 0 <= o <= 255) by (unfold o; pow2; lia).
  assert (Hb : b * 256 = o * 2 ^ 31 + b * 256 mod 2 ^ 31).
  { unfold o; pow2; lia. }
  pose proof (Z.mod_pos_bound (b * 256) (2 ^ 31) ltac:(pow2; lia)) as Hm.
  unfold output_byte in Hrun |- *. fold o in Hrun |- *. rewrite assert_true in Hrun |- * by lia. cbn [bind] in Hrun |- *.
  destruct (negb (o =? 255) || e_carry s) eqn:Acc.
  - (* the octet is accepted; all pending octets are written *)
    assert (Hbr : b + r <= 2 ^ 31).
    { destruct (e_carry s) eqn:C; [now apply Ic|].
      assert (o <> 255) by lia. unfold o in *. pow2. lia. }
    set (c := bit_z (e_carry s)).
    assert (Hc : (if e_carry s then 1 else 0) = c) by reflexivity.
    destruct (e_delay s) eqn:D.
    + specialize (Id eq_refl).
      assert (Hlast : 0 <= e_last s + c <= 255).
      { unfold c. destruct (e_carry s) eqn:C; cbn [bit_z]; [|lia].
        unfold ov in Id. rewrite D, C in Id. cbn [bit_z] in Id.
        rewrite Z.pow_add_r in Id by lia. change (256 ^ 1) with 256 in Id.
        pose proof (pow256_pos (e_run s) Iru). pose proof (vr_nonneg _ Iby).
        set (K := 256 ^ e_run s) in *. set (W := vr (e_out s)) in *.
        assert ((W * 256 + e_last s + 1) * K * 2 ^ 31 < (W * 256 + 256) * K * 2 ^ 31) by (pow2; nia).
        assert (W * 256 + e_last s + 1 < W * 256 + 256); [|lia].
        assert (0 < K * 2 ^ 31) by (pow2; lia). nia. }
      rewrite Hc, add_ok by (ib; lia). cbn [bind].
      eexists. split; [reflexivity|].
      destruct (write_run_spec (e_run s) (e_carry s) ((e_last s + c) :: e_out s) Iru) as (WB & WL & WV).
      { constructor; [lia | exact Iby]. }
      assert (EV : vr (write_run (e_run s) (e_carry s) ((e_last s + c) :: e_out s)) = ov s).
      { rewrite WV. unfold ov. rewrite D. cbn [vr]. unfold c. destruct (e_carry s); cbn [bit_z]; ring. }
      rewrite zlen_cons in WL.
      replace (Z.min 0 (e_run s)) with 0 by lia.
      repeat split; cbn [e_out e_buffer e_range e_run e_last e_delay e_carry]; try (pow2; lia); kill.
      * intros _. unfold ov at 1. cbn [e_out e_run e_last e_delay e_carry bit_z].
        rewrite EV. change (256 ^ 0) with 1. change (256 ^ (0 + 1)) with 256. pow2; lia.
      * unfold ov at 1. cbn [e_out e_run e_last e_delay e_carry bit_z].
        rewrite EV. change (256 ^ 0) with 1. lia.
      * unfold onum. cbn [e_out e_run e_delay]. rewrite D, WL. lia.
    + destruct (Ind eq_refl) as (Eo & Er & Ec). cbn [bind].
      eexists. split; [reflexivity|].
      rewrite Er, Eo, Ec. change (Z.min 0 0) with 0. cbn [write_run Z.iter].
      assert (OV0 : ov s = 0) by (unfold ov; now rewrite D).
      repeat split; cbn [e_out e_buffer e_range e_run e_last e_delay e_carry]; try (pow2; lia); kill.
      * constructor.
      * intros _. unfold ov. cbn [e_out e_run e_last e_delay e_carry bit_z vr].
        change (256 ^ 0) with 1. change (256 ^ (0 + 1)) with 256. pow2; lia.
      * rewrite OV0. unfold ov. cbn [e_out e_run e_last e_delay e_carry bit_z vr].
        change (256 ^ 0) with 1. lia.
      * unfold onum. cbn [e_out e_run e_delay]. rewrite D, zlen_nil. lia.
      * rewrite OV0. cbn [vr]. reflexivity.
  - (* 0xff without carry: only counted *)
    assert (O255 : o = 255) by lia. assert (C : e_carry s = false) by (destruct (e_carry s); lia).
    destruct (e_delay s) eqn:D; [|destruct (Ind eq_refl) as (_ & _ & X); congruence].
    specialize (Id eq_refl).
    assert (Hrun' : e_run s < 2 ^ 31 - 1).
    { destruct Hrun as [Hrun|Hrun]; [exact Hrun|].
      unfold add, chk, inb in Hrun. ib. destruct ((-2147483648 <=? e_run s + 1) && (e_run s + 1 <=? 2147483647)) eqn:Q;
        [pow2; lia | discriminate]. }
    clear Hrun.
    rewrite add_ok by (ib; pow2; lia). cbn [bind]. eexists. split; [reflexivity|].
    assert (OV' : (vr (e_out s) * 256 + e_last s) * 256 ^ (e_run s + 1) + 256 ^ (e_run s + 1) - 1 + 0
                  = ov s * 256 + o).
    { unfold ov. rewrite D, C. cbn [bit_z]. rewrite Z.pow_add_r by lia. change (256 ^ 1) with 256. lia. }
    repeat split; cbn [e_out e_buffer e_range e_run e_last e_delay e_carry]; rewrite ?C; try (pow2; lia); kill.
    + intros _. unfold ov. cbn [e_out e_run e_last e_delay e_carry]. rewrite ?D, ?C. cbn [bit_z].
      rewrite OV'. rewrite (Z.pow_add_r 256 (e_run s + 1) 1) by lia. change (256 ^ 1) with 256.
      pow2; lia.
    + unfold onum. cbn [e_out e_run e_delay]. rewrite D. lia.
Qed.

(** Full invariant: the concrete encoder [s] represents the abstract state [a]. *)
Definition einv (s : encoder) (a : ast) : Prop :=
  a_good a /\ oinv s (e_buffer s) (e_range s) /\
  a_low a = ov s * 2 ^ 31 + e_buffer s /\ a_range a = e_range s /\ a_n a = onum s.

Lemma enc_new_inv : einv enc_new a_init.
Proof.
  split; [apply a_init_good|]. split; [|repeat split].
  constructor; cbn; pow2; try lia; try constructor; auto; discriminate.
Qed.

Lemma run_le_onum s b r : oinv s b r -> e_run s <= onum s.
Proof.
  intros [? ? ? ? ? ? Ind ?]. unfold onum. destruct (e_delay s) eqn:D.
  - pose proof (zlen_nonneg (e_out s)). lia.
  - destruct (Ind eq_refl) as (_ & E & _). lia.
Qed.

Lemma enc_shift_spec s a : einv s a -> a_range a < 2 ^ 23 -> okor (a_n a < 2 ^ 31 - 1) (enc_shift s) ->
  exists s', enc_shift s = Ok s' /\ einv s' (mkAst (a_n a + 1) (a_low a * 256) (a_range a * 256)).
Proof.
  intros (G & I & L & R & N) HR HN.
  pose proof (run_le_onum _ _ _ I) as RN.
  unfold enc_shift in HN |- *. rewrite shr_ok in HN |- * by (cbn; lia). cbn [bind] in HN |- *.
  destruct (output_byte_spec s (e_buffer s) (e_range s) I ltac:(lia))
    as (s1 & E & I1 & V1 & N1 & D1 & B1 & R1 & _).
  { apply okor_bind in HN. eapply okor_weak; [|exact HN]. lia. }
  clear HN. rewrite E. cbn [bind].
  rewrite !shl_ok by (cbn; lia). cbn [bind]. eexists. split; [reflexivity|].
  rewrite B1, R1.
  assert (Hb : 0 <= e_buffer s < 2 ^ 31) by apply I.
  assert (Hr : 1 <= e_range s) by apply I.
  assert (W1 : Z.land (wrap i32 (e_buffer s * 2 ^ 8)) (2 ^ 31 - 1) = e_buffer s * 256 mod 2 ^ 31).
  { rewrite land_ones_mod by lia. pose proof (wrap_mod i32 (e_buffer s * 2 ^ 8) ltac:(cbn; lia)) as W.
    change (ibits i32) with 32 in W. pow2. lia. }
  assert (W2 : wrap i32 (e_range s * 2 ^ 8) = e_range s * 256).
  { apply wrap_id; [cbn; lia|]. ib. pow2. lia. }
  rewrite W1, W2.
  assert (Hd : e_buffer s * 256 = e_buffer s / 2 ^ 23 * 2 ^ 31 + e_buffer s * 256 mod 2 ^ 31).
  { pow2. lia. }
  unfold einv. cbn [a_n a_low a_range e_buffer e_range]. repeat split; cbn [a_n a_low a_range].
  - unfold a_good in G. lia.
  - unfold a_good in G. lia.
  - lia.
  - pow2. lia.
  - apply I1.
  - apply I1.
  - apply I1.
  - apply I1.
  - apply I1.
  - apply I1.
  - apply I1.
  - intros X. apply I1. exact X.
  - apply (oi_nodelay _ _ _ I1 H).
  - apply (oi_nodelay _ _ _ I1 H).
  - apply (oi_nodelay _ _ _ I1 H).
  - intros X. apply (oi_delay _ _ _ I1 X).
  - unfold ov in *. cbn [e_out e_run e_last e_delay e_carry]. rewrite V1. lia.
  - lia.
  - unfold onum in *. cbn [e_out e_run e_last e_delay e_carry]. lia.
Qed.

Lemma enc_norm_spec fuel : forall s a, einv s a ->
  2 ^ 23 <= a_range a * 256 ^ Z.of_nat fuel ->
  okor (a_n a + Z.of_nat fuel < 2 ^ 31) (enc_norm_loop fuel s) ->
  exists s', enc_norm_loop fuel s = Ok s' /\ einv s' (a_norm fuel a).
Proof.
  induction fuel as [|f IH]; intros s a I R N; cbn [enc_norm_loop a_norm] in N |- *.
  - change (256 ^ Z.of_nat 0) with 1 in R. assert (E : a_range a = e_range s) by apply I.
    rewrite <- E. destruct (Z.ltb_spec (a_range a) (2 ^ 23)); [lia|]. eauto.
  - assert (E : a_range a = e_range s) by apply I. rewrite <- E in N |- *.
    destruct (Z.ltb_spec (a_range a) (2 ^ 23)) as [L|L]; [|eauto].
    destruct (enc_shift_spec s a I L) as (s1 & E1 & I1).
    { apply okor_bind in N. eapply okor_weak; [|exact N]. lia. }
    rewrite E1 in N |- *. cbn [bind] in N |- *. apply IH; [exact I1| |].
    + cbn [a_range]. rewrite Nat2Z.inj_succ, Z.pow_succ_r in R by lia. lia.
    + cbn [a_n]. eapply okor_weak; [|exact N]. lia.
Qed.

Lemma enc_normalize_spec s a : einv s a -> okor (a_n a + 5 < 2 ^ 31) (enc_normalize s) ->
  exists s', enc_normalize s = Ok s' /\ einv s' (a_norm 5 a).
Proof.
  intros I N. unfold enc_normalize in N |- *.
  assert (G : a_good a) by apply I. assert (E : a_range a = e_range s) by apply I.
  unfold a_good in G. rewrite assert_true in N |- * by lia. cbn [bind] in N |- *.
  apply enc_norm_spec; [exact I| |exact N].
  change (256 ^ Z.of_nat 5) with 1099511627776. pow2. lia.
Qed.

(** Adding [x < range] to low. *)
Lemma add_with_carry_spec s a x : einv s a -> 0 <= x < a_range a ->
  einv (with_range (add_with_carry s x) (e_range s - x))
       (mkAst (a_n a) (a_low a + x) (a_range a - x)).
Proof.
  intros (G & I & L & R & N) Hx. destruct I as [Ib Ir Iby Il Iru Ic Ind Id].
  unfold a_good in G. unfold add_with_carry.
  destruct (Z.ltb_spec (wrap i32 (e_buffer s + x)) 0) as [W|W].
  - assert (O : 2 ^ 31 <= e_buffer s + x).
    { destruct (Z.leb_spec (2 ^ 31) (e_buffer s + x)) as [O|O]; [exact O|].
      rewrite wrap_id in W by (cbn [ibits i32]; ib; pow2; lia). lia. }
    assert (C : e_carry s = false).
    { destruct (e_carry s) eqn:C; [|reflexivity]. specialize (Ic eq_refl). lia. }
    assert (D : e_delay s = true).
    { destruct (e_delay s) eqn:D; [reflexivity|]. destruct (Ind eq_refl) as (_ & _ & X). congruence. }
    specialize (Id D).
    assert (B' : Z.land (wrap i32 (e_buffer s + x)) (2 ^ 31 - 1) = e_buffer s + x - 2 ^ 31).
    { rewrite land_ones_mod by lia. pose proof (wrap_mod i32 (e_buffer s + x) ltac:(cbn; lia)) as M.
      change (ibits i32) with 32 in M. pow2. lia. }
    rewrite B'.
    assert (OV : ov (mkEnc (e_out s) (e_buffer s + x - 2 ^ 31) (e_range s - x) (e_run s) (e_last s) (e_delay s) true)
                 = ov s + 1).
    { unfold ov. cbn [e_out e_run e_last e_delay e_carry]. rewrite D, C. cbn [bit_z]. lia. }
    unfold einv, with_range. cbn [e_out e_buffer e_range e_run e_last e_delay e_carry a_n a_low a_range].
    repeat split; cbn [e_out e_buffer e_range e_run e_last e_delay e_carry a_n a_low a_range];
      try assumption; try (pow2; lia).
    + cbn [e_delay] in *. congruence.
  - assert (O : e_buffer s + x < 2 ^ 31).
    { destruct (Z.leb_spec (2 ^ 31) (e_buffer s + x)) as [O|O]; [|lia]. exfalso.
      unfold wrap in W. change (ibits i32) with 32 in W. change (isigned i32) with true in W.
      change (32 - 1) with 31 in W. rewrite Z.mod_small in W by (pow2; lia).
      destruct (Z.leb_spec (2 ^ 31) (e_buffer s + x)); cbn [andb] in W; pow2; lia. }
    assert (B' : wrap i32 (e_buffer s + x) = e_buffer s + x).
    { apply wrap_id; [cbn; lia|]. ib. pow2. lia. }
    rewrite B'.
    unfold einv, with_range. cbn [e_out e_buffer e_range e_run e_last e_delay e_carry a_n a_low a_range].
    assert (OV : ov (mkEnc (e_out s) (e_buffer s + x) (e_range s - x) (e_run s) (e_last s) (e_delay s) (e_carry s))
                 = ov s) by reflexivity.
    repeat split; cbn [e_out e_buffer e_range e_run e_last e_delay e_carry a_n a_low a_range];
      try assumption; try (pow2; lia); try (apply Ind; assumption).
Qed.

(** Shrinking the range. *)
Lemma shrink_spec s a r : einv s a -> 1 <= r <= a_range a ->
  einv (with_range s r) (mkAst (a_n a) (a_low a) r).
Proof.
  intros (G & I & L & R & N) Hr. destruct I as [Ib Ir Iby Il Iru Ic Ind Id].
  unfold a_good in G.
  unfold einv, with_range. cbn [e_out e_buffer e_range e_run e_last e_delay e_carry a_n a_low a_range].
  assert (OV : ov (mkEnc (e_out s) (e_buffer s) r (e_run s) (e_last s) (e_delay s) (e_carry s))
               = ov s) by reflexivity.
  repeat split; cbn [e_out e_buffer e_range e_run e_last e_delay e_carry a_n a_low a_range];
    try assumption; try (pow2; lia); try (apply Ind; assumption).
Qed.

Lemma rc_helper_ok r p : 2 ^ 23 <= r <= 2 ^ 31 - 1 -> fp_valid p = true ->
  rc_helper r p = Ok (r * p / 2 ^ 23).
Proof.
  intros Hr Hp. unfold rc_helper.
  pose proof (helper_bounds r p Hr Hp) as B. unfold fp_valid in Hp.
  rewrite mul_ok by (ib; pow2; nia). cbn [bind]. rewrite shr_ok by (cbn; lia). cbn [bind].
  f_equal. apply wrap_id; [cbn; lia|]. ib. pow2. lia.
Qed.

Lemma encode_event_spec s a e : einv s a -> ev_ok e = true -> okor (a_n a + 5 < 2 ^ 31) (encode_event s e) ->
  exists s', encode_event s e = Ok s' /\ einv s' (a_step a e).
Proof.
  intros I V N. assert (N' : okor (a_n a + 5 < 2 ^ 31) (enc_normalize s)).
  { destruct e; cbn [encode_event] in N; [unfold encode_bit in N | unfold encode_rare_event in N];
      apply okor_bind in N; exact N. }
  clear N. destruct (enc_normalize_spec s a I N') as (s1 & E1 & I1).
  assert (G : a_good a) by apply I. destruct (a_norm5 a G) as (G1 & R1 & _).
  unfold a_step. set (a1 := a_norm 5 a) in *. clearbody a1.
  assert (Rg : a_range a1 = e_range s1) by apply I1.
  pose proof G1 as (_ & _ & G1').
  destruct e as [p v|h]; cbn [encode_event a_split ev_ok] in *; cbv zeta.
  - unfold encode_bit. rewrite E1. cbn [bind]. rewrite <- Rg.
    rewrite rc_helper_ok by (try assumption; lia). cbn [bind].
    pose proof (helper_bounds (a_range a1) p ltac:(lia) V) as B.
    set (hh := a_range a1 * p / 2 ^ 23) in *. clearbody hh.
    destruct v.
    + assert (ER : e_range (add_with_carry s1 hh) = e_range s1)
        by (unfold add_with_carry; destruct (_ <? 0); reflexivity).
      rewrite ER, <- Rg. rewrite sub_ok by (ib; pow2; lia). cbn [bind].
      eexists. split; [reflexivity|]. rewrite Rg at 1. apply add_with_carry_spec; [exact I1|lia].
    + eexists. split; [reflexivity|]. apply shrink_spec; [exact I1|lia].
  - unfold encode_rare_event. rewrite E1. cbn [bind]. rewrite <- Rg.
    rewrite sub_ok by (ib; pow2; lia). cbn [bind].
    destruct h.
    + eexists. split; [reflexivity|].
      pose proof (add_with_carry_spec s1 a1 (a_range a1 - 1) I1 ltac:(pow2; lia)) as X.
      rewrite <- Rg in X. replace (a_range a1 - (a_range a1 - 1)) with 1 in X by lia. exact X.
    + eexists. split; [reflexivity|]. apply shrink_spec; [exact I1|pow2; lia].
Qed.

Lemma encode_events_spec evs : forall s a, einv s a -> forallb ev_ok evs = true ->
  okor (a_n a + 3 * Z.of_nat (length evs) + 5 < 2 ^ 31) (mfold encode_event evs s) ->
  exists s', mfold encode_event evs s = Ok s' /\ einv s' (a_run a evs).
Proof.
  unfold a_run. induction evs as [|e evs IH]; intros s a I V N; cbn [mfold fold_left length] in *; [eauto|].
  cbn [forallb] in V. apply andb_prop in V. destruct V as [V1 V2].
  destruct (encode_event_spec s a e I V1) as (s1 & E1 & I1).
  { apply okor_bind in N. eapply okor_weak; [|exact N]. lia. }
  rewrite E1 in N |- *. cbn [bind] in N |- *.
  assert (G : a_good a) by apply I. destruct (a_step_good a e G V1) as (_ & _ & N1).
  apply IH; [exact I1|exact V2|]. eapply okor_weak; [|exact N]. lia.
Qed.

(** * Flush *)
(** During the flush the machine buffer agrees with the logical one modulo 2^31. *)
Definition finv (s : encoder) (n low : Z) : Prop :=
  oinv s (e_buffer s mod 2 ^ 31) 1 /\ low = ov s * 2 ^ 31 + e_buffer s mod 2 ^ 31 /\ n = onum s.

Lemma oinv_range1 s b r : oinv s b r -> oinv s b 1.
Proof.
  intros [Ib Ir Iby Il Iru Ic Ind Id]. constructor; try assumption; try lia.
Qed.

Lemma flush_step_spec s n low : finv s n low -> okor (n < 2 ^ 31 - 1) (flush_step s) ->
  exists s', flush_step s = Ok s' /\ finv s' (n + 1) (low * 256) /\
    (e_buffer s mod 2 ^ 31 / 2 ^ 23 <> 255 ->
      e_run s' = 0 /\ e_delay s' = true /\ vr (e_out s') = ov s).
Proof.
  intros (I & L & N) Hn. set (b := e_buffer s mod 2 ^ 31) in *.
  pose proof (run_le_onum _ _ _ I) as RN.
  unfold flush_step in Hn |- *. rewrite shr_ok in Hn |- * by (cbn; lia). cbn [bind] in Hn |- *.
  assert (O : Z.land (e_buffer s / 2 ^ 23) 255 = b / 2 ^ 23).
  { rewrite land_255. unfold b. pow2. lia. }
  rewrite O in Hn |- *.
  destruct (output_byte_spec s b 1 I ltac:(pow2; lia))
    as (s1 & E & I1 & V1 & N1 & D1 & B1 & R1 & F1).
  { apply okor_bind in Hn. eapply okor_weak; [|exact Hn]. lia. }
  clear Hn. rewrite E. cbn [bind]. rewrite shl_ok by (cbn; lia). cbn [bind].
  eexists. split; [reflexivity|]. rewrite B1.
  assert (W : wrap i32 (e_buffer s * 2 ^ 8) mod 2 ^ 31 = b * 256 mod 2 ^ 31).
  { pose proof (wrap_mod i32 (e_buffer s * 2 ^ 8) ltac:(cbn; lia)) as M.
    change (ibits i32) with 32 in M. unfold b. pow2. lia. }
  assert (Hd : b * 256 = b / 2 ^ 23 * 2 ^ 31 + b * 256 mod 2 ^ 31).
  { pose proof (oi_b _ _ _ I). pow2. lia. }
  unfold finv. cbn [e_buffer]. rewrite W. split; [split; [|split]|].
  - apply oinv_range1 in I1. destruct I1 as [Ib Ir Iby Il Iru Ic Ind Id].
    constructor; cbn [e_out e_run e_last e_delay e_carry]; assumption.
  - unfold ov in *. cbn [e_out e_run e_last e_delay e_carry]. rewrite V1. lia.
  - unfold onum in *. cbn [e_out e_run e_last e_delay e_carry]. lia.
  - intros X. destruct (F1 X) as (A & _ & _ & B). cbn [e_out e_run e_delay]. auto.
Qed.

Lemma enc_drop_spec s a : einv s a -> okor (a_n a + 5 < 2 ^ 31) (enc_drop s) ->
  exists s', enc_drop s = Ok s' /\
    vr (e_out s') = 2 * a_low a /\ zlen (e_out s') = a_n a + 4 /\ byte_list (e_out s').
Proof.
  intros (G & I & L & R & N) Hn. pose proof (oi_b _ _ _ I) as Hb.
  assert (F0 : finv s (a_n a) (a_low a)).
  { unfold finv. rewrite Z.mod_small by exact Hb.
    split; [eapply oinv_range1; exact I | auto]. }
  unfold enc_drop in Hn |- *.
  destruct (flush_step_spec _ _ _ F0) as (s1 & E1 & F1 & _).
  { apply okor_bind in Hn. eapply okor_weak; [|exact Hn]. lia. }
  rewrite E1 in Hn |- *; cbn [bind] in Hn |- *.
  destruct (flush_step_spec _ _ _ F1) as (s2 & E2 & F2 & _).
  { apply okor_bind in Hn. eapply okor_weak; [|exact Hn]. lia. }
  rewrite E2 in Hn |- *; cbn [bind] in Hn |- *.
  destruct (flush_step_spec _ _ _ F2) as (s3 & E3 & F3 & _).
  { apply okor_bind in Hn. eapply okor_weak; [|exact Hn]. lia. }
  rewrite E3 in Hn |- *; cbn [bind] in Hn |- *.
  destruct (flush_step_spec _ _ _ F3) as (s4 & E4 & F4 & _).
  { apply okor_bind in Hn. eapply okor_weak; [|exact Hn]. lia. }
  rewrite E4 in Hn |- *; cbn [bind] in Hn |- *.
  destruct (flush_step_spec _ _ _ F4) as (s5 & E5 & F5 & K5).
  { eapply okor_weak; [|exact Hn]. lia. }
  rewrite E5. exists s5. split; [reflexivity|].
  destruct F4 as (I4 & L4 & N4).
  pose proof (oi_b _ _ _ I4) as Hb4.
  assert (B4 : e_buffer s4 mod 2 ^ 31 = 0).
  { replace (a_low a * 256 * 256 * 256 * 256) with (2 * a_low a * 2 ^ 31) in L4 by (pow2; ring). pow2. lia. }
  rewrite B4 in K5. destruct (K5 ltac:(pow2; lia)) as (R5 & D5 & V5).
  destruct F5 as (I5 & L5 & N5).
  rewrite V5. split; [pow2; lia|]. split; [|apply I5].
  unfold onum in N5. rewrite D5, R5 in N5. lia.
Qed.

(** * Decoder *)
(** [C]: final low of the encoder, [nf]: its octet count, [tail]: bytes after the stream.
    The decoder has consumed [n + 4] bytes of the stream. *)
Definition dinv (C nf : Z) (tail : list Z) (d : decoder) (n low range : Z) : Prop :=
  exists rest, d_in d = rest ++ tail /\ byte_list rest /\ zlen rest = nf - n /\
    2 * C = (2 * (d_buffer d + low) + d_high d) * 256 ^ (nf - n) + be rest /\
    0 <= d_high d <= 1 /\ d_range d = range.

Lemma be_acc_lin l : forall acc, be_acc acc l = acc * 256 ^ zlen l + be l.
Proof.
  unfold be. induction l as [|b l IH]; intros acc; cbn [be_acc].
  - rewrite zlen_nil. change (256 ^ 0) with 1. lia.
  - rewrite IH, (IH (0 * 256 + b)), zlen_cons.
    rewrite Z.pow_add_r by (try lia; apply zlen_nonneg). change (256 ^ 1) with 256. ring.
Qed.
Lemma be_cons b l : be (b :: l) = b * 256 ^ zlen l + be l.
Proof. unfold be. cbn [be_acc]. rewrite be_acc_lin. unfold be. lia. Qed.
Lemma be_range l : byte_list l -> 0 <= be l < 256 ^ zlen l.
Proof.
  induction 1 as [|b l Hb Hl IH].
  - change (be []) with 0. change (256 ^ zlen (@nil Z)) with 1. lia.
  - rewrite be_cons, zlen_cons. rewrite Z.pow_add_r by (try lia; apply zlen_nonneg).
    change (256 ^ 1) with 256. nia.
Qed.

(** Code value seen by the decoder = final low cut to the decoder's scale. *)
Lemma dinv_code C nf tail d n low range : dinv C nf tail d n low range -> n <= nf ->
  d_buffer d + low = C / 256 ^ (nf - n).
Proof.
  intros (rest & _ & Hb & Hl & E & Hh & _) Hn.
  pose proof (be_range _ Hb) as B. rewrite Hl in B.
  set (K := 256 ^ (nf - n)) in *.
  assert (0 < K) by (apply pow256_pos; lia).
  set (x := d_buffer d + low) in *. clearbody x.
  destruct (Z.eqb_spec nf n) as [E0|N0].
  - assert (K = 1) by (unfold K; replace (nf - n) with 0 by lia; reflexivity).
    assert (d_high d = 0) by lia. rewrite H0 in *. rewrite Z.div_1_r. lia.
  - apply (Z.div_unique_pos C K x (C - K * x)); [|lia].
    assert (Ev : exists K', K = 2 * K').
    { exists (128 * 256 ^ (nf - n - 1)). unfold K.
      replace (nf - n) with (1 + (nf - n - 1)) at 1 by lia.
      rewrite Z.pow_add_r by lia. change (256 ^ 1) with 256. ring. }
    destruct Ev as [K' ->]. nia.
Qed.

Lemma dec_feed_spec C nf tail d n low range :
  dinv C nf tail d n low range -> n < nf ->
  0 <= d_buffer d < 2 ^ 23 ->
  exists d', dec_feed d = Ok d' /\ dinv C nf tail d' (n + 1) (low * 256) range.
Proof.
  intros (rest & Hin & Hb & Hl & E & Hh & HR) Hn Hbuf.
  destruct rest as [|b rest]; [rewrite zlen_nil in Hl; lia|].
  inversion Hb as [|? ? Hb0 Hb1]; subst.
  unfold dec_feed. rewrite shl_ok by (cbn; lia). cbn [bind].
  unfold input_byte. rewrite Hin. cbn [app].
  rewrite shl_ok by (cbn; lia). cbn [bind].
  assert (W1 : wrap i32 (d_buffer d * 2 ^ 8) = d_buffer d * 256).
  { apply wrap_id; [cbn; lia|]. ib. pow2. lia. }
  assert (W2 : wrap i32 (d_high d * 2 ^ 7) = d_high d * 128).
  { apply wrap_id; [cbn; lia|]. ib. pow2. lia. }
  rewrite W1, W2. rewrite add_ok by (ib; lia). cbn [bind d_buffer].
  rewrite add_ok by (ib; pow2; lia). cbn [bind d_in d_range d_high].
  eexists. split; [reflexivity|].
  exists rest. cbn [d_in d_buffer d_range d_high]. rewrite land_1.
  rewrite zlen_cons in Hl.
  repeat split; try assumption; try lia.
  rewrite E, be_cons. replace (nf - n) with (1 + (nf - (n + 1))) by lia.
  rewrite Z.pow_add_r by lia. change (256 ^ 1) with 256.
  replace (zlen rest) with (nf - (n + 1)) by lia.
  set (K := 256 ^ (nf - (n + 1))). set (t := b / 2).
  assert (Eb : b = 2 * t + b mod 2) by (unfold t; lia).
  rewrite Eb at 1. ring.
Qed.

Lemma div_scale C nf n k : n + k <= nf -> 0 <= k -> 0 <= C ->
  C / 256 ^ (nf - n) = C / 256 ^ (nf - (n + k)) / 256 ^ k.
Proof.
  intros H Hk HC. rewrite Z.div_div by (try apply Z.pow_nonzero; try apply pow256_pos; lia).
  f_equal. rewrite <- Z.pow_add_r by lia. f_equal. lia.
Qed.

(** The final low lies inside the interval of [a]. *)
Definition contains (C nf : Z) (a : ast) : Prop :=
  a_n a <= nf /\ a_low a <= C / 256 ^ (nf - a_n a) < a_low a + a_range a.

Lemma contains_sub C nf a b : 0 <= C -> sub_of a b -> contains C nf b -> contains C nf a.
Proof.
  intros HC (N & L & H) (Nb & Lb). unfold contains. split; [lia|].
  rewrite (div_scale C nf (a_n a) (a_n b - a_n a)) by lia.
  replace (a_n a + (a_n b - a_n a)) with (a_n b) by lia.
  set (q := C / 256 ^ (nf - a_n b)) in *.
  assert (P : 0 < 256 ^ (a_n b - a_n a)) by (apply pow256_pos; lia).
  split.
  - apply Z.div_le_lower_bound; [exact P|]. lia.
  - apply Z.div_lt_upper_bound; [exact P|]. lia.
Qed.

Lemma dinv_buffer C nf tail d a : dinv C nf tail d (a_n a) (a_low a) (a_range a) ->
  contains C nf a -> 0 <= d_buffer d < a_range a.
Proof.
  intros I (N & B). pose proof (dinv_code _ _ _ _ _ _ _ I N). lia.
Qed.

Lemma dec_norm_spec C nf tail fuel : forall d a, 0 <= C -> a_good a ->
  dinv C nf tail d (a_n a) (a_low a) (a_range a) ->
  contains C nf (a_norm fuel a) ->
  2 ^ 23 <= a_range a * 256 ^ Z.of_nat fuel ->
  exists d', dec_normalize fuel d = Ok d' /\
    let b := a_norm fuel a in dinv C nf tail d' (a_n b) (a_low b) (a_range b).
Proof.
  induction fuel as [|f IH]; intros d a HC G I Ct R; cbn [dec_normalize a_norm] in *;
    assert (ER : d_range d = a_range a) by (destruct I as (? & ? & ? & ? & ? & ? & ?); assumption);
    rewrite ER.
  - change (256 ^ Z.of_nat 0) with 1 in R.
    destruct (Z.ltb_spec (a_range a) (2 ^ 23)); [lia|]. eauto.
  - destruct (Z.ltb_spec (a_range a) (2 ^ 23)) as [L|L]; [|eauto].
    set (a' := mkAst (a_n a + 1) (a_low a * 256) (a_range a * 256)) in *.
    assert (G' : a_good a') by (unfold a_good in *; subst a'; cbn [a_n a_low a_range]; pow2; lia).
    assert (R' : 2 ^ 23 <= a_range a' * 256 ^ Z.of_nat f).
    { subst a'; cbn [a_range]. rewrite Nat2Z.inj_succ, Z.pow_succ_r in R by lia. lia. }
    destruct (a_norm_spec f a' G' R') as (_ & _ & S' & _).
    assert (Ct' : contains C nf a') by (eapply contains_sub; eassumption).
    assert (S0 : sub_of a a').
    { unfold sub_of. subst a'; cbn [a_n a_low a_range].
      replace (a_n a + 1 - a_n a) with 1 by lia. change (256 ^ 1) with 256. lia. }
    assert (Ct0 : contains C nf a) by (eapply contains_sub; eassumption).
    pose proof (dinv_buffer _ _ _ _ _ I Ct0) as B0.
    destruct Ct' as (N' & _). subst a'; cbn [a_n] in N'.
    destruct (dec_feed_spec C nf tail d _ _ _ I ltac:(lia) ltac:(lia)) as (d1 & E1 & I1).
    rewrite E1. cbn [bind]. rewrite shl_ok by (cbn; lia). cbn [bind].
    assert (ER1 : d_range d1 = a_range a) by (destruct I1 as (? & ? & ? & ? & ? & ? & ?); assumption).
    rewrite ER1. unfold a_good in G.
    rewrite wrap_id by (cbn [ibits i32]; ib; pow2; lia).
    change (2 ^ 8) with 256.
    apply (IH _ (mkAst (a_n a + 1) (a_low a * 256) (a_range a * 256)) HC G'); [|exact Ct|exact R'].
    cbn [a_n a_low a_range].
    destruct I1 as (rest & H1 & H2 & H3 & H4 & H5 & H6). exists rest.
    cbn [d_in d_buffer d_range d_high]. auto 10.
Qed.

Lemma decode_event_spec C nf tail d a e : 0 <= C -> a_good a -> ev_ok e = true ->
  dinv C nf tail d (a_n a) (a_low a) (a_range a) ->
  contains C nf (a_step a e) ->
  exists d', decode_event d (request_of e) = Ok (e, d') /\
    let b := a_step a e in dinv C nf tail d' (a_n b) (a_low b) (a_range b).
Proof.
  intros HC G V I Ct. unfold a_step in *.
  destruct (a_norm5 a G) as (G1 & R1 & S1).
  destruct (a_split_spec _ e G1 R1 V) as (G2 & S2 & N2).
  assert (Ct1 : contains C nf (a_norm 5 a)) by (eapply contains_sub; eassumption).
  destruct (dec_norm_spec C nf tail 5 d a HC G I Ct1) as (d1 & E1 & I1).
  { change (256 ^ Z.of_nat 5) with 1099511627776. unfold a_good in G. pow2. lia. }
  cbv zeta in I1. set (a1 := a_norm 5 a) in *. clearbody a1.
  pose proof (dinv_buffer _ _ _ _ _ I1 Ct1) as B1.
  assert (ER : d_range d1 = a_range a1) by (destruct I1 as (? & ? & ? & ? & ? & ? & ?); assumption).
  assert (X : d_buffer d1 + a_low a1 = C / 256 ^ (nf - a_n a1)).
  { eapply dinv_code; [exact I1 | apply Ct1]. }
  pose proof G1 as (_ & _ & G1').
  destruct Ct as (Nf & Ct). rewrite N2, <- X in Ct.
  destruct I1 as (rest & H1 & H2 & H3 & H4 & H5 & H6).
  destruct e as [p v|h]; cbn [decode_event request_of ev_ok a_split] in *; cbv zeta in *.
  - unfold decode_bit. rewrite E1. cbn [bind]. rewrite ER, rc_helper_ok by (try assumption; lia). cbn [bind].
    pose proof (helper_bounds (a_range a1) p ltac:(lia) V) as B.
    set (hh := a_range a1 * p / 2 ^ 23) in *. clearbody hh.
    destruct v; cbn [a_n a_low a_range] in *.
    + destruct (Z.ltb_spec (d_buffer d1) hh); [lia|].
      rewrite !sub_ok by (ib; pow2; lia). cbn [bind]. eexists. split; [reflexivity|].
      exists rest. cbn [d_in d_buffer d_range d_high].
      repeat split; try assumption; try lia.
    + destruct (Z.ltb_spec (d_buffer d1) hh); [|lia]. cbn [bind].
      eexists. split; [reflexivity|]. exists rest. cbn [d_in d_buffer d_range d_high].
      repeat split; try assumption; try lia.
  - unfold decode_rare_event. rewrite E1. cbn [bind]. rewrite ER, sub_ok by (ib; pow2; lia). cbn [bind].
    destruct h; cbn [a_n a_low a_range] in *.
    + destruct (Z.ltb_spec (d_buffer d1) (a_range a1 - 1)); [lia|]. cbn [bind].
      eexists. split; [reflexivity|]. exists rest. cbn [d_in d_buffer d_range d_high].
      repeat split; try assumption; try lia. rewrite H4. f_equal. f_equal. lia.
    + destruct (Z.ltb_spec (d_buffer d1) (a_range a1 - 1)); [|lia]. cbn [bind].
      eexists. split; [reflexivity|]. exists rest. cbn [d_in d_buffer d_range d_high].
      repeat split; try assumption; try lia.
Qed.

Lemma decode_events_spec C nf tail evs : forall d a, 0 <= C -> a_good a -> forallb ev_ok evs = true ->
  dinv C nf tail d (a_n a) (a_low a) (a_range a) ->
  contains C nf (a_run a evs) ->
  exists d', decode_events d (map request_of evs) = Ok (evs, d') /\
    let b := a_run a evs in dinv C nf tail d' (a_n b) (a_low b) (a_range b).
Proof.
  unfold a_run. induction evs as [|e evs IH]; intros d a HC G V I Ct; cbn [decode_events map fold_left] in *; [eauto|].
  cbn [forallb] in V. apply andb_prop in V. destruct V as [V1 V2].
  destruct (a_step_good a e G V1) as (G1 & S1 & _).
  destruct (a_run_good evs _ G1 V2) as (_ & S2 & _). unfold a_run in S2.
  destruct (decode_event_spec C nf tail d a e HC G V1 I) as (d1 & E1 & I1).
  { eapply contains_sub; eassumption. }
  rewrite E1. cbn [bind].
  destruct (IH d1 _ HC G1 V2 I1 Ct) as (d2 & E2 & I2).
  rewrite E2. cbn [bind]. eauto.
Qed.

Lemma dec_new_spec C nf bytes tail : byte_list bytes -> zlen bytes = nf + 4 -> 0 <= nf ->
  be bytes = 2 * C ->
  C / 256 ^ nf < 2 ^ 31 -> 
  exists d, dec_new (bytes ++ tail) = Ok d /\ dinv C nf tail d 0 0 (2 ^ 31 - 1).
Proof.
  intros Hb Hl Hnf Hv HC.
  assert (I0 : dinv C nf tail (mkDec (bytes ++ tail) 0 (2 ^ 31 - 1) 0) (-4) 0 (2 ^ 31 - 1)).
  { exists bytes. cbn [d_in d_buffer d_range d_high]. repeat split; try assumption; try lia. }
  unfold dec_new. cbv zeta.
  destruct bytes as [|b0 [|b1 [|b2 [|b3 rest]]]]; rewrite ?zlen_cons, ?zlen_nil in Hl; try lia.
  assert (step : forall d n, dinv C nf tail d n 0 (2 ^ 31 - 1) -> n < nf -> 0 <= d_buffer d < 2 ^ 23 ->
    exists d', dec_feed d = Ok d' /\ dinv C nf tail d' (n + 1) 0 (2 ^ 31 - 1)).
  { intros d n I Hn Hd. destruct (dec_feed_spec C nf tail d n 0 _ I Hn Hd) as (d' & E & I').
    exists d'. split; [exact E|]. now rewrite Z.mul_0_l in I'. }
  assert (HC0 : 0 <= C). { pose proof (be_range _ Hb). lia. }
  assert (bnd : forall d n, dinv C nf tail d n 0 (2 ^ 31 - 1) -> -4 <= n <= -1 -> 0 <= d_buffer d < 2 ^ 23).
  { intros d n I Hn. pose proof (dinv_code _ _ _ _ _ _ _ I ltac:(lia)) as X.
    assert (Q : C / 256 ^ (nf - n) = C / 256 ^ nf / 256 ^ (- n)).
    { rewrite Z.div_div by (try apply Z.pow_nonzero; try apply pow256_pos; lia).
      f_equal. rewrite <- Z.pow_add_r by lia. reflexivity. }
    assert (0 <= C / 256 ^ nf) by (apply Z.div_pos; [lia|apply pow256_pos; lia]).
    assert (M : 256 <= 256 ^ (- n)). { change 256 with (256 ^ 1) at 1. apply Z.pow_le_mono_r; lia. }
    rewrite Q in X. split.
    - assert (0 <= C / 256 ^ nf / 256 ^ (- n)) by (apply Z.div_pos; [lia|apply pow256_pos; lia]). lia.
    - assert (C / 256 ^ nf / 256 ^ (- n) < 2 ^ 23); [|lia].
      apply Z.div_lt_upper_bound; [apply pow256_pos; lia|]. pow2. nia. }
  destruct (step _ (-4) I0 ltac:(lia) (bnd _ (-4) I0 ltac:(lia))) as (d1 & E1 & I1).
  destruct (step _ (-3) I1 ltac:(lia) (bnd _ (-3) I1 ltac:(lia))) as (d2 & E2 & I2).
  destruct (step _ (-2) I2 ltac:(lia) (bnd _ (-2) I2 ltac:(lia))) as (d3 & E3 & I3).
  destruct (step _ (-1) I3 ltac:(lia) (bnd _ (-1) I3 ltac:(lia))) as (d4 & E4 & I4).
  rewrite E1; cbn [bind]. rewrite E2; cbn [bind]. rewrite E3; cbn [bind]. rewrite E4.
  exists d4. split; [reflexivity|exact I4].
Qed.

(** * Whole runs *)
Lemma encode_all_spec evs : forallb ev_ok evs = true ->
  okor (3 * Z.of_nat (length evs) + 5 < 2 ^ 31) (encode_all evs) ->
  exists bytes, encode_all evs = Ok bytes /\ byte_list bytes /\
    zlen bytes = a_n (a_run a_init evs) + 4 /\ be bytes = 2 * a_low (a_run a_init evs).
Proof.
  intros V N. unfold encode_all in N |- *.
  destruct (encode_events_spec evs enc_new a_init enc_new_inv V) as (s & E & I).
  { apply okor_bind in N. eapply okor_weak; [|exact N]. cbn [a_n a_init]; lia. }
  rewrite E in N |- *. cbn [bind] in N |- *.
  destruct (a_run_good evs a_init a_init_good V) as (_ & _ & N1).
  destruct (enc_drop_spec s _ I) as (s' & E' & Hv & Hl & Hb).
  { apply okor_bind in N. eapply okor_weak; [|exact N]. cbn [a_n a_init] in N1. lia. }
  rewrite E'. cbn [bind]. eexists. split; [reflexivity|].
  split; [|split].
  - apply Forall_rev. exact Hb.
  - unfold zlen in *. now rewrite rev_length.
  - now rewrite be_rev.
Qed.

Lemma round_trip evs tail : forallb ev_ok evs = true ->
  okor (3 * Z.of_nat (length evs) + 5 < 2 ^ 31) (encode_all evs) ->
  exists bytes, encode_all evs = Ok bytes /\ byte_list bytes /\
    decode_all (bytes ++ tail) (map request_of evs) = Ok (evs, tail).
Proof.
  intros V N. destruct (encode_all_spec evs V N) as (bytes & E & Hb & Hl & Hv).
  exists bytes. split; [exact E|]. split; [exact Hb|].
  destruct (a_run_good evs a_init a_init_good V) as (G & S & _).
  set (af := a_run a_init evs) in *.
  assert (HC : 0 <= a_low af) by apply G.
  assert (Ct : contains (a_low af) (a_n af) af).
  { split; [lia|]. rewrite Z.sub_diag. change (256 ^ 0) with 1. rewrite Z.div_1_r. unfold a_good in G. lia. }
  assert (Ct0 : contains (a_low af) (a_n af) a_init) by (eapply contains_sub; eassumption).
  destruct Ct0 as (N0 & B0). cbn [a_n a_low a_range a_init] in *. rewrite Z.sub_0_r in B0.
  destruct (dec_new_spec (a_low af) (a_n af) bytes tail Hb Hl ltac:(lia) Hv ltac:(lia)) as (d & Ed & Id).
  destruct (decode_events_spec (a_low af) (a_n af) tail evs d a_init HC a_init_good V Id Ct) as (d' & E' & I').
  unfold decode_all. rewrite Ed. cbn [bind]. rewrite E'. cbn [bind].
  cbv zeta in I'. fold af in I'. destruct I' as (rest & H1 & _ & H3 & _).
  rewrite Z.sub_diag in H3. assert (rest = []) by (destruct rest; [reflexivity|rewrite zlen_cons in H3; pose proof (zlen_nonneg rest); lia]).
  subst rest. rewrite H1. reflexivity.
Qed.

(** * Decoder on arbitrary input *)
Definition dgood (d : decoder) : Prop :=
  byte_list (d_in d) /\ - 2 ^ 31 <= d_buffer d <= 2 ^ 31 - 1 /\ 1 <= d_range d <= 2 ^ 31 - 1 /\ 0 <= d_high d <= 1.

(** Success with the invariant, or end of input. *)
Definition tol {A} (P : A -> Prop) (r : res A) : Prop :=
  match r with Ok a => P a | Fail e => e = EEof end.
Lemma tol_bind {A B} (P : A -> Prop) (Q : B -> Prop) r (f : A -> res B) :
  tol P r -> (forall a, P a -> tol Q (f a)) -> tol Q (bind r f).
Proof. destruct r; cbn; auto. Qed.

Lemma wrap_i32_bounds z : - 2 ^ 31 <= wrap i32 z <= 2 ^ 31 - 1.
Proof. pose proof (wrap_range i32 z ltac:(cbn; lia)) as H. ib. pow2. lia. Qed.

Lemma dec_feed_tol d : dgood d ->
  tol (fun d' => dgood d' /\ d_range d' = d_range d) (dec_feed d).
Proof.
  intros (Hi & Hb & Hr & Hh). unfold dec_feed. rewrite shl_ok by (cbn; lia). cbn [bind].
  unfold input_byte. destruct (d_in d) as [|b rest] eqn:E; [reflexivity|].
  inversion Hi as [|? ? Hb0 Hrest]; subst.
  rewrite shl_ok by (cbn; lia). cbn [bind].
  assert (W2 : wrap i32 (d_high d * 2 ^ 7) = d_high d * 128).
  { apply wrap_id; [cbn; lia|]. ib. pow2. lia. }
  rewrite W2, add_ok by (ib; lia). cbn [bind].
  pose proof (wrap_i32_bounds (d_buffer d * 2 ^ 8)) as WB.
  pose proof (wrap_mod i32 (d_buffer d * 2 ^ 8) ltac:(cbn; lia)) as WM.
  change (ibits i32) with 32 in WM.
  set (w := wrap i32 (d_buffer d * 2 ^ 8)) in *. clearbody w.
  rewrite add_ok by (ib; pow2; lia). cbn [bind tol].
  unfold dgood. cbn [d_in d_buffer d_range d_high]. rewrite land_1.
  repeat split; try assumption; pow2; lia.
Qed.

Lemma dec_normalize_tol fuel : forall d, dgood d -> 2 ^ 23 <= d_range d * 256 ^ Z.of_nat fuel ->
  tol (fun d' => dgood d' /\ 2 ^ 23 <= d_range d') (dec_normalize fuel d).
Proof.
  induction fuel as [|f IH]; intros d G R; cbn [dec_normalize].
  - change (256 ^ Z.of_nat 0) with 1 in R. destruct (Z.ltb_spec (d_range d) (2 ^ 23)); [lia|]. cbn [tol]. auto.
  - destruct (Z.ltb_spec (d_range d) (2 ^ 23)) as [L|L]; [|cbn [tol]; auto].
    eapply tol_bind; [apply dec_feed_tol; exact G|]. intros d1 (G1 & E1).
    rewrite shl_ok by (cbn; lia). cbn [bind]. rewrite E1.
    destruct G as (_ & _ & Gr & _).
    rewrite wrap_id by (cbn [ibits i32]; ib; pow2; lia).
    apply IH.
    + destruct G1 as (A & B & C & D). unfold dgood. cbn [d_in d_buffer d_range d_high].
      repeat split; try assumption; pow2; lia.
    + cbn [d_range]. rewrite Nat2Z.inj_succ, Z.pow_succ_r in R by lia. pow2. lia.
Qed.

Lemma decode_event_tol d r : dgood d -> rq_ok r = true ->
  tol (fun p => dgood (snd p)) (decode_event d r).
Proof.
  intros G V. assert (R5 : 2 ^ 23 <= d_range d * 256 ^ Z.of_nat 5).
  { change (256 ^ Z.of_nat 5) with 1099511627776. destruct G as (_ & _ & ? & _). pow2. lia. }
  destruct r as [p|]; cbn [decode_event rq_ok] in *.
  - unfold decode_bit. eapply tol_bind.
    + eapply tol_bind; [apply dec_normalize_tol; [exact G|exact R5]|].
      intros d1 (G1 & R1). destruct G1 as (A & B & C & D).
      rewrite rc_helper_ok by (try assumption; lia). cbn [bind].
      pose proof (helper_bounds (d_range d1) p ltac:(lia) V) as HB.
      set (h := d_range d1 * p / 2 ^ 23) in *. clearbody h.
      instantiate (1 := fun q => dgood (snd q)).
      destruct (Z.ltb_spec (d_buffer d1) h).
      * cbn [tol snd]. unfold dgood. cbn [d_in d_buffer d_range d_high]. repeat split; try assumption; lia.
      * rewrite !sub_ok by (ib; pow2; lia). cbn [bind tol snd]. unfold dgood. cbn [d_in d_buffer d_range d_high].
        repeat split; try assumption; lia.
    + intros [v d'] H. exact H.
  - unfold decode_rare_event. eapply tol_bind.
    + eapply tol_bind; [apply dec_normalize_tol; [exact G|exact R5]|].
      intros d1 (G1 & R1). destruct G1 as (A & B & C & D).
      rewrite sub_ok by (ib; pow2; lia). cbn [bind].
      instantiate (1 := fun q => dgood (snd q)).
      destruct (Z.ltb_spec (d_buffer d1) (d_range d1 - 1)).
      * cbn [tol snd]. unfold dgood. cbn [d_in d_buffer d_range d_high]. repeat split; try assumption; pow2; lia.
      * cbn [tol snd]. unfold dgood. cbn [d_in d_buffer d_range d_high]. repeat split; try assumption; pow2; lia.
    + intros [v d'] H. exact H.
Qed.

Lemma decode_events_tol rs : forall d, dgood d -> forallb rq_ok rs = true ->
  tol (fun p => dgood (snd p) /\ map request_of (fst p) = rs) (decode_events d rs).
Proof.
  induction rs as [|r rs IH]; intros d G V; cbn [decode_events]; [cbn [tol snd fst]; auto|].
  cbn [forallb] in V. apply andb_prop in V. destruct V as [V1 V2].
  pose proof (decode_event_tol d r G V1) as T.
  assert (Q : forall e d', decode_event d r = Ok (e, d') -> request_of e = r).
  { intros e d' H. destruct r as [p|]; cbn [decode_event] in H; inv_bind H; destruct a; inversion H; reflexivity. }
  destruct (decode_event d r) as [[e d1]|e]; cbn [tol snd bind] in *; [|exact T].
  eapply tol_bind; [apply IH; assumption|].
  intros [es d2] (H1 & H2). cbn [tol snd fst] in *. split; [exact H1|].
  cbn [map]. f_equal; [eapply Q; reflexivity | exact H2].
Qed.

Lemma dec_new_tol input : byte_list input -> tol dgood (dec_new input).
Proof.
  intros B. assert (G0 : dgood (mkDec input 0 (2 ^ 31 - 1) 0)).
  { unfold dgood. cbn [d_in d_buffer d_range d_high]. repeat split; try assumption; pow2; lia. }
  unfold dec_new. cbv zeta.
  eapply tol_bind; [apply dec_feed_tol; exact G0|]. intros d1 (G1 & _).
  eapply tol_bind; [apply dec_feed_tol; exact G1|]. intros d2 (G2 & _).
  eapply tol_bind; [apply dec_feed_tol; exact G2|]. intros d3 (G3 & _).
  pose proof (dec_feed_tol d3 G3) as T. destruct (dec_feed d3); cbn [tol] in *; tauto.
Qed.

Lemma decoder_total input rs : byte_list input -> forallb rq_ok rs = true ->
  (exists evs d, (let* d := dec_new input in decode_events d rs) = Ok (evs, d) /\
     map request_of evs = rs /\ 1 <= d_range d <= 2 ^ 31 - 1)
  \/ (let* d := dec_new input in decode_events d rs) = Fail EEof.
Proof.
  intros B V. pose proof (dec_new_tol input B) as T.
  destruct (dec_new input) as [d|e]; cbn [tol bind] in *; [|right; now subst].
  pose proof (decode_events_tol rs d T V) as T2.
  destruct (decode_events d rs) as [[evs d']|e]; cbn [tol fst snd] in T2; [|right; now subst].
  left. exists evs, d'. destruct T2 as ((_ & _ & R & _) & E). auto.
Qed.

(** * Encoder state after any prefix *)
Lemma encoder_state evs s : forallb ev_ok evs = true -> mfold encode_event evs enc_new = Ok s ->
  einv s (a_run a_init evs).
Proof.
  intros V E. destruct (encode_events_spec evs enc_new a_init enc_new_inv V) as (s' & E' & I).
  { right. now rewrite E. }
  congruence.
Qed.

(** * Adaptive models *)
Section AdaptiveProofs.
  Context {St : Type} (next : St -> request) (learn : St -> bool -> St).
  Lemma outcome_ok r v : rq_ok r = true -> ev_ok (outcome r v) = true.
  Proof. destruct r; auto. Qed.
  Lemma request_outcome r v : request_of (outcome r v) = r.
  Proof. destruct r; reflexivity. Qed.
  Lemma outcome_val_outcome r v : outcome_val (outcome r v) = v.
  Proof. destruct r; reflexivity. Qed.
  Lemma model_events_ok bits : forall m, (forall m, rq_ok (next m) = true) ->
    forallb ev_ok (model_events next learn m bits) = true.
  Proof.
    induction bits as [|b bits IH]; intros m H; cbn [model_events forallb]; [reflexivity|].
    rewrite outcome_ok by apply H. now apply IH.
  Qed.
  Lemma model_events_length bits : forall m, length (model_events next learn m bits) = length bits.
  Proof. induction bits; intros; cbn [model_events length]; auto. Qed.
  Lemma adaptive_decode_spec bits : forall m d d',
    decode_events d (map request_of (model_events next learn m bits)) = Ok (model_events next learn m bits, d') ->
    adaptive_decode next learn d m (length bits) = Ok (bits, d').
  Proof.
    induction bits as [|b bits IH]; intros m d d' H; cbn [model_events map decode_events adaptive_decode length] in *.
    - congruence.
    - inv_bind H. destruct a as [e d1]. inv_bind H. destruct a as [es d2]. inversion H; subst; clear H.
      rewrite request_outcome in E. rewrite E. cbn [bind]. rewrite outcome_val_outcome.
      rewrite (IH _ _ _ E0). reflexivity.
  Qed.
  Lemma adaptive_round_trip m bits tail : (forall m, rq_ok (next m) = true) ->
    okor (3 * Z.of_nat (length bits) + 5 < 2 ^ 31) (compress next learn m bits) ->
    exists bytes, compress next learn m bits = Ok bytes /\
      decompress next learn (bytes ++ tail) m (length bits) = Ok (bits, tail).
  Proof.
    intros H N. unfold compress in *.
    destruct (round_trip (model_events next learn m bits) tail) as (bytes & E & _ & D).
    - now apply model_events_ok.
    - now rewrite model_events_length.
    - exists bytes. split; [exact E|]. unfold decode_all in D. unfold decompress.
      inv_bind D. rewrite E0. cbn [bind]. inv_bind D. destruct a0 as [es d']. inversion D; subst.
      rewrite (adaptive_decode_spec _ _ _ _ E1). reflexivity.
  Qed.
End AdaptiveProofs.

(** * Stream size *)
Lemma a_norm_range a : a_good a ->
  a_range (a_norm 5 a) = a_range a * 256 ^ (a_n (a_norm 5 a) - a_n a).
Proof.
  intros G. apply a_norm_spec; [exact G|].
  change (256 ^ Z.of_nat 5) with 1099511627776. unfold a_good in G. pow2. lia.
Qed.

Lemma a_split_share a e : a_good a -> 2 ^ 23 <= a_range a -> ev_ok e = true ->
  a_range a * lo_share e <= a_range (a_split e a) * 2 ^ 31 /\
  a_range (a_split e a) * 2 ^ 23 <= a_range a * (share e + 1).
Proof.
  intros G R V. unfold a_good in G. unfold lo_share.
  destruct e as [p v|h]; cbn [a_split share]; cbv zeta.
  - pose proof (helper_bounds (a_range a) p ltac:(pow2; lia) V) as B.
    pose proof (Z.div_mod (a_range a * p) (2 ^ 23) ltac:(pow2; lia)) as DM.
    pose proof (Z.mod_pos_bound (a_range a * p) (2 ^ 23) ltac:(pow2; lia)) as MB.
    unfold ev_ok, fp_valid in V.
    set (h := a_range a * p / 2 ^ 23) in *. set (m := (a_range a * p) mod 2 ^ 23) in *.
    clearbody h m. set (r := a_range a) in *. clearbody r.
    assert (X : r * (2 ^ 23 - p) = 2 ^ 23 * (r - h) - m) by lia.
    destruct v; cbn [a_range].
    + set (q := 2 ^ 23 - p) in *. assert (Y : r * (q + 1) = r * q + r) by ring.
      assert (Z1 : r * (2 * (q - 1)) = 2 * (r * q) - 2 * r) by ring.
      rewrite Z.mul_assoc. destruct (Z.max_spec (2 * (q - 1)) q) as [[_ ->]|[_ ->]]; rewrite ?Y, ?Z1; rewrite X in *; pow2; lia.
    + assert (Y : r * (p + 1) = r * p + r) by ring.
      assert (Z1 : r * (2 * (p - 1)) = 2 * (r * p) - 2 * r) by ring.
      rewrite Z.mul_assoc. destruct (Z.max_spec (2 * (p - 1)) p) as [[_ ->]|[_ ->]]; rewrite ?Y, ?Z1; clear X; rewrite DM in *; pow2; lia.
  - destruct h; cbn [a_range]; pow2; lia.
Qed.

Lemma a_n_mono a e : a_good a -> ev_ok e = true -> a_n a <= a_n (a_step a e).
Proof. intros G V. apply (a_step_good a e G V). Qed.

Lemma share_pos e : ev_ok e = true -> 1 <= share e <= 2 ^ 23 - 1.
Proof. unfold ev_ok, fp_valid. destruct e as [p v|h]; [destruct v|destruct h]; cbn [share]; pow2; lia. Qed.

Lemma lo_share_pos e : ev_ok e = true -> 0 < lo_share e.
Proof.
  intros V. pose proof (share_pos e V). unfold lo_share.
  destruct e as [p v|h]; [|destruct h]; try lia; pow2; lia.
Qed.

Lemma prodz_pos l : Forall (fun x => 0 < x) l -> 0 < prodz l.
Proof. induction 1; cbn [prodz fold_right]; [lia|]. fold (prodz l). nia. Qed.

Lemma a_run_share evs : forall a, a_good a -> forallb ev_ok evs = true ->
  a_range a * 256 ^ (a_n (a_run a evs) - a_n a) * prodz (map lo_share evs)
    <= a_range (a_run a evs) * (2 ^ 31) ^ zlen evs /\
  a_range (a_run a evs) * (2 ^ 23) ^ zlen evs
    <= a_range a * 256 ^ (a_n (a_run a evs) - a_n a) * prodz (map (fun e => share e + 1) evs).
Proof.
  unfold a_run. induction evs as [|e evs IH]; intros a G V; cbn [fold_left map prodz fold_right].
  - rewrite Z.sub_diag. change (zlen (@nil event)) with 0. change (256 ^ 0) with 1. change ((2 ^ 31) ^ 0) with 1.
    change ((2 ^ 23) ^ 0) with 1. lia.
  - cbn [forallb] in V. apply andb_prop in V. destruct V as [V1 V2].
    destruct (a_step_good a e G V1) as (G1 & _ & _).
    destruct (a_run_good evs _ G1 V2) as (_ & S2 & _). unfold a_run in S2.
    specialize (IH _ G1 V2). pose proof (a_n_mono a e G V1) as M1.
    destruct (a_norm5 a G) as (Gn & Rn & Sn).
    pose proof (a_split_share _ e Gn Rn V1) as SH. rewrite (a_norm_range a G) in SH.
    destruct (a_split_spec _ e Gn Rn V1) as (_ & _ & N2).
    fold (a_step a e) in SH, N2. rewrite <- N2 in SH.
    set (b := a_step a e) in *. set (f := fold_left a_step evs b) in *.
    rewrite zlen_cons, !Z.pow_add_r by (try lia; apply zlen_nonneg). rewrite !Z.pow_1_r.
    fold (prodz (map lo_share evs)). fold (prodz (map (fun e => share e + 1) evs)).
    assert (E : 256 ^ (a_n f - a_n a) = 256 ^ (a_n b - a_n a) * 256 ^ (a_n f - a_n b)).
    { rewrite <- Z.pow_add_r by (destruct S2; lia). f_equal. lia. }
    rewrite E. clear E.
    assert (P1 : 0 <= prodz (map lo_share evs)).
    { apply Z.lt_le_incl, prodz_pos. apply Forall_map, Forall_forall. intros x Hx.
      rewrite forallb_forall in V2. now apply lo_share_pos, V2. }
    assert (P2 : 0 <= prodz (map (fun e => share e + 1) evs)).
    { apply Z.lt_le_incl, prodz_pos. apply Forall_map, Forall_forall. intros x Hx.
      rewrite forallb_forall in V2. pose proof (share_pos x (V2 x Hx)). lia. }
    assert (K : 0 < 256 ^ (a_n f - a_n b)) by (apply pow256_pos; destruct S2; lia).
    assert (K31 : 0 < (2 ^ 31) ^ zlen evs) by (apply Z.pow_pos_nonneg; [pow2; lia|apply zlen_nonneg]).
    assert (K23 : 0 < (2 ^ 23) ^ zlen evs) by (apply Z.pow_pos_nonneg; [pow2; lia|apply zlen_nonneg]).
    destruct IH as [I1 I2]. destruct SH as [H1 H2]. clearbody f b.
    set (kf := 256 ^ (a_n f - a_n b)) in *. set (kb := 256 ^ (a_n b - a_n a)) in *.
    set (q1 := prodz (map lo_share evs)) in *. set (q2 := prodz (map (fun e => share e + 1) evs)) in *.
    set (w31 := (2 ^ 31) ^ zlen evs) in *. set (w23 := (2 ^ 23) ^ zlen evs) in *.
    clearbody kf kb q1 q2 w31 w23. split.
    + apply Z.le_trans with (a_range b * 2 ^ 31 * (kf * q1)).
      * replace (a_range a * (kb * kf) * (lo_share e * q1))
          with (a_range a * kb * lo_share e * (kf * q1)) by ring.
        apply Z.mul_le_mono_nonneg_r; [nia|exact H1].
      * replace (a_range b * 2 ^ 31 * (kf * q1)) with (2 ^ 31 * (a_range b * kf * q1)) by ring.
        replace (a_range f * (2 ^ 31 * w31)) with (2 ^ 31 * (a_range f * w31)) by ring.
        apply Z.mul_le_mono_nonneg_l; [pow2; lia|exact I1].
    + apply Z.le_trans with (a_range b * 2 ^ 23 * (kf * q2)).
      * replace (a_range f * (2 ^ 23 * w23)) with (2 ^ 23 * (a_range f * w23)) by ring.
        replace (a_range b * 2 ^ 23 * (kf * q2)) with (2 ^ 23 * (a_range b * kf * q2)) by ring.
        apply Z.mul_le_mono_nonneg_l; [pow2; lia|exact I2].
      * replace (a_range a * (kb * kf) * ((share e + 1) * q2))
          with (a_range a * kb * (share e + 1) * (kf * q2)) by ring.
        apply Z.mul_le_mono_nonneg_r; [nia|exact H2].
Qed.

Lemma encode_all_okspec evs bytes : forallb ev_ok evs = true -> encode_all evs = Ok bytes ->
  byte_list bytes /\ zlen bytes = a_n (a_run a_init evs) + 4.
Proof.
  intros V E. destruct (encode_all_spec evs V) as (b & E' & H1 & H2 & _).
  - right. now rewrite E.
  - assert (b = bytes) by congruence. subst b. auto.
Qed.

Lemma stream_size evs bytes : forallb ev_ok evs = true -> encode_all evs = Ok bytes ->
  4 <= zlen bytes <= 4 + 3 * zlen evs /\
  256 ^ (zlen bytes - 4) * prodz (map lo_share evs) <= (2 ^ 31) ^ zlen evs /\
  (2 ^ 23) ^ zlen evs <= 256 ^ (zlen bytes - 4) * (2 ^ 31 - 1) * prodz (map (fun e => share e + 1) evs).
Proof.
  intros V E. destruct (encode_all_okspec evs bytes V E) as (_ & L).
  destruct (a_run_good evs a_init a_init_good V) as (G & S & N).
  destruct (a_run_share evs a_init a_init_good V) as (S1 & S2).
  cbn [a_n a_range a_init] in *. rewrite Z.sub_0_r in *.
  set (f := a_run a_init evs) in *. unfold a_good in G. destruct S as (S0 & _). cbn [a_n a_init] in S0.
  replace (zlen bytes - 4) with (a_n f) by lia.
  assert (K31 : 0 < (2 ^ 31) ^ zlen evs) by (apply Z.pow_pos_nonneg; [pow2; lia|apply zlen_nonneg]).
  assert (K23 : 0 < (2 ^ 23) ^ zlen evs) by (apply Z.pow_pos_nonneg; [pow2; lia|apply zlen_nonneg]).
  set (w31 := (2 ^ 31) ^ zlen evs) in *. set (w23 := (2 ^ 23) ^ zlen evs) in *. clearbody w31 w23.
  split; [unfold zlen in *; lia|]. split.
  - set (x := 256 ^ a_n f * prodz (map lo_share evs)).
    assert (X : (2 ^ 31 - 1) * x <= (2 ^ 31 - 1) * w31) by (unfold x; pow2; nia). pow2. lia.
  - pow2. nia.
Qed.

Lemma stream_growth evs e b1 b2 : forallb ev_ok evs = true -> ev_ok e = true ->
  encode_all evs = Ok b1 -> encode_all (evs ++ [e]) = Ok b2 -> 0 <= zlen b2 - zlen b1 <= 3.
Proof.
  intros V1 V2 E1 E2.
  assert (V3 : forallb ev_ok (evs ++ [e]) = true) by (rewrite forallb_app; cbn [forallb]; now rewrite V1, V2).
  destruct (encode_all_okspec _ _ V1 E1) as (_ & L1). destruct (encode_all_okspec _ _ V3 E2) as (_ & L2).
  destruct (a_run_good evs a_init a_init_good V1) as (G & _ & _).
  destruct (a_step_good _ e G V2) as (_ & (S1 & _) & S2).
  unfold a_run in *. rewrite fold_left_app in L2. cbn [fold_left] in L2. lia.
Qed.

Lemma encoder_room evs s p : forallb ev_ok evs = true -> fp_valid p = true ->
  3 * zlen evs + 5 < 2 ^ 31 ->
  mfold encode_event evs enc_new = Ok s ->
  exists s' h, enc_normalize s = Ok s' /\ rc_helper (e_range s') p = Ok h /\
    2 ^ 23 <= e_range s' <= 2 ^ 31 - 1 /\ 1 <= h <= e_range s' - 1.
Proof.
  intros V Vp N E. pose proof (encoder_state evs s V E) as I.
  destruct (a_run_good evs a_init a_init_good V) as (G & _ & N1). cbn [a_n a_init] in N1.
  destruct (enc_normalize_spec s _ I) as (s' & E' & I').
  { left. unfold zlen in N. lia. }
  destruct (a_norm5 _ G) as (G1 & R1 & _).
  assert (Er : a_range (a_norm 5 (a_run a_init evs)) = e_range s') by apply I'.
  unfold a_good in G1. rewrite Er in *.
  exists s', (e_range s' * p / 2 ^ 23). split; [exact E'|].
  split; [apply rc_helper_ok; [lia|exact Vp]|]. split; [lia|]. apply helper_bounds; [lia|exact Vp].
Qed.

Lemma lossless evs bytes tail : forallb ev_ok evs = true -> encode_all evs = Ok bytes ->
  decode_all (bytes ++ tail) (map request_of evs) = Ok (evs, tail) /\ byte_list bytes.
Proof.
  intros V E. destruct (round_trip evs tail V) as (b & E' & B & D).
  - right. now rewrite E.
  - assert (b = bytes) by congruence. subst b. auto.
Qed.

Lemma encoder_never_fails evs : forallb ev_ok evs = true -> zlen evs < 2 ^ 28 ->
  exists bytes, encode_all evs = Ok bytes /\ byte_list bytes.
Proof.
  intros V N. destruct (encode_all_spec evs V) as (b & E & B & _).
  - left. unfold zlen in N. change (2 ^ 28) with 268435456 in N. pow2. lia.
  - eauto.
Qed.

Lemma encoder_room28 evs s p : forallb ev_ok evs = true -> fp_valid p = true -> zlen evs < 2 ^ 28 ->
  mfold encode_event evs enc_new = Ok s ->
  exists s' h, enc_normalize s = Ok s' /\ rc_helper (e_range s') p = Ok h /\
    2 ^ 23 <= e_range s' <= 2 ^ 31 - 1 /\ 1 <= h <= e_range s' - 1.
Proof.
  intros V Vp N. apply encoder_room; [assumption|assumption|].
  change (2 ^ 28) with 268435456 in N. pow2. lia.
Qed.

Lemma adaptive_lossless {St} (next : St -> request) (learn : St -> bool -> St) m bits bytes tail :
  (forall m, rq_ok (next m) = true) -> compress next learn m bits = Ok bytes ->
  decompress next learn (bytes ++ tail) m (length bits) = Ok (bits, tail).
Proof.
  intros H E. destruct (adaptive_round_trip next learn m bits tail H) as (b & E' & D).
  - right. now rewrite E.
  - congruence.
Qed.

Lemma adaptive_total {St} (next : St -> request) (learn : St -> bool -> St) m bits :
  (forall m, rq_ok (next m) = true) -> zlen bits < 2 ^ 28 ->
  exists bytes, compress next learn m bits = Ok bytes.
Proof.
  intros H N. destruct (adaptive_round_trip next learn m bits [] H) as (b & E' & D).
  - left. unfold zlen in N. change (2 ^ 28) with 268435456 in N. pow2. lia.
  - eauto.
Qed.

Lemma empty_stream : encode_all [] = Ok [0; 0; 0; 0].
Proof. reflexivity. Qed.
