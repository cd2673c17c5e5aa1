(** Generic lemmas about the base definitions. *)
From Coq Require Export Lia ZifyBool ZifyNat.
From Verif Require Import Base.
Ltac Zify.zify_post_hook ::= Z.div_mod_to_equations.

Lemma bind_ok {A B} (r : res A) (f : A -> res B) b :
  bind r f = Ok b -> exists a, r = Ok a /\ f a = Ok b.
Proof. destruct r; cbn; intros H; [eauto | discriminate]. Qed.

Ltac inv_bind H :=
  let a := fresh "a" in let E := fresh "E" in
  apply bind_ok in H; destruct H as (a & E & H).

(** Powers of two: turn the literal powers into numerals. *)
Ltac pow2 :=
  change (2 ^ 5) with 32 in *; change (2 ^ 7) with 128 in *; change (2 ^ 8) with 256 in *;
  change (2 ^ 15) with 32768 in *; change (2 ^ 16) with 65536 in *;
  change (2 ^ 21) with 2097152 in *; change (2 ^ 22) with 4194304 in *;
  change (2 ^ 23) with 8388608 in *; change (2 ^ 24) with 16777216 in *;
  change (2 ^ 30) with 1073741824 in *; change (2 ^ 31) with 2147483648 in *;
  change (2 ^ 32) with 4294967296 in *;
  change (2 ^ 40) with 1099511627776 in *;
  change (2 ^ 61) with 2305843009213693952 in *;
  change (2 ^ 62) with 4611686018427387904 in *;
  change (2 ^ 63) with 9223372036854775808 in *;
  change (2 ^ 64) with 18446744073709551616 in *.

Lemma inb_true t z : inb t z = true <-> imin t <= z <= imax t.
Proof. unfold inb. lia. Qed.

Lemma chk_ok t z : imin t <= z <= imax t -> chk t z = Ok z.
Proof. intros H. unfold chk. apply inb_true in H. now rewrite H. Qed.

Lemma chk_inv t z y : chk t z = Ok y -> y = z /\ imin t <= z <= imax t.
Proof.
  unfold chk. destruct (inb t z) eqn:E; [|discriminate].
  intros [= <-]. split; [reflexivity|]. now apply inb_true.
Qed.

Lemma add_ok t a b : imin t <= a + b <= imax t -> add t a b = Ok (a + b).
Proof. apply chk_ok. Qed.
Lemma sub_ok t a b : imin t <= a - b <= imax t -> sub t a b = Ok (a - b).
Proof. apply chk_ok. Qed.
Lemma mul_ok t a b : imin t <= a * b <= imax t -> mul t a b = Ok (a * b).
Proof. apply chk_ok. Qed.

Lemma imin_u8 : imin u8 = 0. Proof. reflexivity. Qed.
Lemma imax_u8 : imax u8 = 255. Proof. reflexivity. Qed.
Lemma imin_u16 : imin u16 = 0. Proof. reflexivity. Qed.
Lemma imax_u16 : imax u16 = 65535. Proof. reflexivity. Qed.
Lemma imin_u32 : imin u32 = 0. Proof. reflexivity. Qed.
Lemma imax_u32 : imax u32 = 4294967295. Proof. reflexivity. Qed.
Lemma imin_u64 : imin u64 = 0. Proof. reflexivity. Qed.
Lemma imax_u64 : imax u64 = 18446744073709551615. Proof. reflexivity. Qed.
Lemma imin_usize : imin usize = 0. Proof. reflexivity. Qed.
Lemma imax_usize : imax usize = 18446744073709551615. Proof. reflexivity. Qed.
Lemma imin_i32 : imin i32 = -2147483648. Proof. reflexivity. Qed.
Lemma imax_i32 : imax i32 = 2147483647. Proof. reflexivity. Qed.
Lemma imin_i64 : imin i64 = -9223372036854775808. Proof. reflexivity. Qed.
Lemma imax_i64 : imax i64 = 9223372036854775807. Proof. reflexivity. Qed.
Global Hint Rewrite imin_u8 imax_u8 imin_u16 imax_u16 imin_u32 imax_u32 imin_u64 imax_u64
  imin_usize imax_usize imin_i32 imax_i32 imin_i64 imax_i64 : ibounds.
Ltac ib := autorewrite with ibounds in *.

Lemma wrap_id t z : 0 < ibits t -> imin t <= z <= imax t -> wrap t z = z.
Proof.
  intros Hb H. unfold wrap, imin, imax in *.
  assert (P : 2 ^ ibits t = 2 * 2 ^ (ibits t - 1)).
  { rewrite <- Z.pow_succ_r by lia. f_equal. lia. }
  assert (Q : 0 < 2 ^ (ibits t - 1)) by (apply Z.pow_pos_nonneg; lia).
  destruct (isigned t) eqn:E; cbn [andb].
  - destruct (Z.leb_spec (2 ^ (ibits t - 1)) (z mod 2 ^ ibits t)) as [L|L].
    + destruct (Z.ltb_spec z 0) as [N|N].
      * rewrite <- (Z.mod_unique z (2 ^ ibits t) (-1) (z + 2 ^ ibits t)) ; lia.
      * rewrite Z.mod_small in L by lia. lia.
    + destruct (Z.ltb_spec z 0) as [N|N].
      * rewrite <- (Z.mod_unique z (2 ^ ibits t) (-1) (z + 2 ^ ibits t)) in L; lia.
      * apply Z.mod_small. lia.
  - apply Z.mod_small. lia.
Qed.

Lemma wrap_mod t z : 0 < ibits t -> wrap t z mod 2 ^ ibits t = z mod 2 ^ ibits t.
Proof.
  intros Hb. unfold wrap.
  assert (Q : 0 < 2 ^ ibits t) by (apply Z.pow_pos_nonneg; lia).
  destruct (_ && _).
  - replace (z mod 2 ^ ibits t - 2 ^ ibits t) with (z mod 2 ^ ibits t + (-1) * 2 ^ ibits t) by ring.
    rewrite Z.mod_add by lia. apply Z.mod_mod. lia.
  - apply Z.mod_mod. lia.
Qed.

Lemma wrap_range t z : 0 < ibits t -> imin t <= wrap t z <= imax t.
Proof.
  intros Hb. unfold wrap, imin, imax.
  assert (P : 2 ^ ibits t = 2 * 2 ^ (ibits t - 1)).
  { rewrite <- Z.pow_succ_r by lia. f_equal. lia. }
  assert (Q : 0 < 2 ^ (ibits t - 1)) by (apply Z.pow_pos_nonneg; lia).
  pose proof (Z.mod_pos_bound z (2 ^ ibits t) ltac:(lia)) as M.
  destruct (isigned t); cbn [andb]; [|lia].
  destruct (Z.leb_spec (2 ^ (ibits t - 1)) (z mod 2 ^ ibits t)); lia.
Qed.

Lemma shl_ok t a k : 0 <= k < ibits t -> shl t a k = Ok (wrap t (a * 2 ^ k)).
Proof.
  intros H. unfold shl. destruct (Z.leb_spec 0 k), (Z.ltb_spec k (ibits t)); cbn; (reflexivity || lia).
Qed.
Lemma shr_ok t a k : 0 <= k < ibits t -> shr t a k = Ok (a / 2 ^ k).
Proof.
  intros H. unfold shr. destruct (Z.leb_spec 0 k), (Z.ltb_spec k (ibits t)); cbn; (reflexivity || lia).
Qed.

Lemma land_ones_mod a n : 0 <= n -> Z.land a (2 ^ n - 1) = a mod 2 ^ n.
Proof. intros H. rewrite <- Z.land_ones by lia. f_equal. rewrite Z.ones_equiv. lia. Qed.
Lemma land_255 a : Z.land a 255 = a mod 256.
Proof. change 255 with (2 ^ 8 - 1). now rewrite land_ones_mod by lia. Qed.
Lemma land_1 a : Z.land a 1 = a mod 2.
Proof. change 1 with (2 ^ 1 - 1). now rewrite land_ones_mod by lia. Qed.

Lemma assert_true (b : bool) : b = true -> assert_ b = Ok tt.
Proof. now intros ->. Qed.

(** Lists indexed by Z. *)
Lemma znth_None {A} (l : list A) i : znth l i = None <-> i < 0 \/ zlen l <= i.
Proof.
  unfold zlen. revert i; induction l as [|x l IH]; intros i; cbn [znth length].
  - split; [intros _; lia | reflexivity].
  - destruct (Z.eqb_spec i 0) as [->|N].
    + split; [discriminate | lia].
    + rewrite IH. lia.
Qed.
Lemma znth_Some_iff {A} (l : list A) i : (exists x, znth l i = Some x) <-> 0 <= i < zlen l.
Proof.
  pose proof (znth_None l i) as H. destruct (znth l i) as [x|] eqn:E.
  - split; [|eauto]. intros _. unfold zlen in *.
    destruct (Z.ltb_spec i 0), (Z.leb_spec (Z.of_nat (length l)) i); try lia;
      (assert (@Some A x = None) by (apply H; lia); discriminate).
  - split; [intros [x Hx]; discriminate | intros R; destruct H as [H _]; specialize (H eq_refl); lia].
Qed.
Lemma znth_Some {A} (l : list A) i x : znth l i = Some x -> 0 <= i < zlen l.
Proof. intros H. apply znth_Some_iff. eauto. Qed.
Lemma znth_lt {A} (l : list A) i : 0 <= i < zlen l -> exists x, znth l i = Some x.
Proof. apply znth_Some_iff. Qed.
Lemma znth_nth_error {A} (l : list A) i : 0 <= i -> znth l i = nth_error l (Z.to_nat i).
Proof.
  revert i; induction l as [|x l IH]; intros i H; cbn [znth].
  - now destruct (Z.to_nat i).
  - destruct (Z.eqb_spec i 0) as [->|N]; [reflexivity|].
    rewrite IH by lia. replace (Z.to_nat i) with (S (Z.to_nat (i - 1))) by lia. reflexivity.
Qed.
Lemma znth_In {A} (l : list A) i x : znth l i = Some x -> In x l.
Proof.
  intros H. pose proof (znth_Some _ _ _ H). rewrite znth_nth_error in H by lia.
  eapply nth_error_In; eauto.
Qed.
Lemma zlen_nonneg {A} (l : list A) : 0 <= zlen l. Proof. unfold zlen; lia. Qed.
Lemma zlen_app {A} (l r : list A) : zlen (l ++ r) = zlen l + zlen r.
Proof. unfold zlen. rewrite app_length. lia. Qed.
Lemma zlen_cons {A} (x : A) l : zlen (x :: l) = 1 + zlen l.
Proof. unfold zlen. cbn [length]. lia. Qed.
Lemma zlen_nil {A} : zlen (@nil A) = 0. Proof. reflexivity. Qed.
Lemma zupd_length {A} (l : list A) i v : length (zupd l i v) = length l.
Proof. revert i; induction l; intros i; cbn [zupd]; [reflexivity|]. destruct (i =? 0); cbn; auto. Qed.
Lemma zlen_zupd {A} (l : list A) i v : zlen (zupd l i v) = zlen l.
Proof. unfold zlen. now rewrite zupd_length. Qed.
Lemma znth_zupd {A} (l : list A) i j v :
  znth (zupd l i v) j = if (i =? j) && (0 <=? i) && (i <? zlen l) then Some v else znth l j.
Proof.
  unfold zlen. revert i j; induction l as [|x l IH]; intros i j; cbn [zupd znth length].
  - destruct ((i =? j) && (0 <=? i) && (i <? Z.of_nat 0)) eqn:E; [lia | reflexivity].
  - destruct (Z.eqb_spec i 0) as [->|N]; cbn [znth].
    + destruct (Z.eqb_spec j 0) as [->|M]; [reflexivity|].
      destruct ((0 =? j) && (0 <=? 0) && (0 <? Z.of_nat (S (length l)))) eqn:E; [lia|reflexivity].
    + destruct (Z.eqb_spec j 0) as [->|M].
      * destruct ((i =? 0) && (0 <=? i) && (i <? Z.of_nat (S (length l)))) eqn:E; [lia|reflexivity].
      * rewrite IH.
        destruct ((i - 1 =? j - 1) && (0 <=? i - 1) && (i - 1 <? Z.of_nat (length l))) eqn:E1,
                 ((i =? j) && (0 <=? i) && (i <? Z.of_nat (S (length l)))) eqn:E2; try reflexivity; lia.
Qed.
Lemma znth_zupd_same {A} (l : list A) i v : 0 <= i < zlen l -> znth (zupd l i v) i = Some v.
Proof. intros H. rewrite znth_zupd. destruct ((i =? i) && (0 <=? i) && (i <? zlen l)) eqn:E; [reflexivity|lia]. Qed.
Lemma znth_zupd_other {A} (l : list A) i j v : i <> j -> znth (zupd l i v) j = znth l j.
Proof. intros H. rewrite znth_zupd. destruct ((i =? j) && (0 <=? i) && (i <? zlen l)) eqn:E; [lia|reflexivity]. Qed.
Lemma get_ok {A} (l : list A) i x : znth l i = Some x -> get l i = Ok x.
Proof. unfold get. now intros ->. Qed.
Lemma get_inv {A} (l : list A) i x : get l i = Ok x -> znth l i = Some x.
Proof. unfold get. destruct (znth l i); congruence. Qed.
Lemma set_ok {A} (l : list A) i v : 0 <= i < zlen l -> set l i v = Ok (zupd l i v).
Proof. intros H. destruct (znth_lt _ _ H) as [x E]. unfold set. now rewrite E. Qed.
Lemma set_inv {A} (l : list A) i v l' : set l i v = Ok l' -> 0 <= i < zlen l /\ l' = zupd l i v.
Proof.
  unfold set. destruct (znth l i) eqn:E; [|discriminate]. intros [= <-].
  split; [eapply znth_Some; eauto | reflexivity].
Qed.
Lemma Forall_zupd {A} (P : A -> Prop) l i v : Forall P l -> P v -> Forall P (zupd l i v).
Proof.
  intros H Hv. revert i; induction H as [|x l Hx Hl IH]; intros i; cbn [zupd]; [constructor|].
  destruct (i =? 0); constructor; auto.
Qed.
Lemma znth_Forall {A} (P : A -> Prop) l i x : Forall P l -> znth l i = Some x -> P x.
Proof. intros H E. rewrite Forall_forall in H. apply H. eapply znth_In; eauto. Qed.
Lemma znth_app1 {A} (l r : list A) i : i < zlen l -> znth (l ++ r) i = znth l i.
Proof.
  intros H. destruct (Z.ltb_spec i 0) as [L|L].
  - transitivity (@None A); [|symmetry]; apply znth_None; lia.
  - rewrite !znth_nth_error by lia. apply nth_error_app1. unfold zlen in H. lia.
Qed.
Lemma znth_app2 {A} (l r : list A) i : zlen l <= i -> znth (l ++ r) i = znth r (i - zlen l).
Proof.
  intros H. pose proof (zlen_nonneg l). rewrite !znth_nth_error by lia. unfold zlen in *.
  rewrite nth_error_app2 by lia. f_equal. lia.
Qed.
Lemma znth_map {A B} (f : A -> B) l i : znth (map f l) i = option_map f (znth l i).
Proof. revert i; induction l as [|x l IH]; intros i; cbn; [reflexivity|]. destruct (i =? 0); auto. Qed.

(** Monadic folds. *)
Lemma mfold_app {A S} (f : S -> A -> res S) l1 l2 s :
  mfold f (l1 ++ l2) s = (let* s' := mfold f l1 s in mfold f l2 s').
Proof. revert s; induction l1 as [|x l1 IH]; intros s; cbn; [reflexivity|]. destruct (f s x); cbn; auto. Qed.

Lemma mfold_inv {A S} (P : S -> Prop) (f : S -> A -> res S) l s :
  P s -> (forall s x, In x l -> P s -> exists s', f s x = Ok s' /\ P s') ->
  exists s', mfold f l s = Ok s' /\ P s'.
Proof.
  revert s; induction l as [|x l IH]; intros s Hs Hf; cbn; [eauto|].
  destruct (Hf s x (or_introl eq_refl) Hs) as (s1 & E & H1). rewrite E; cbn.
  apply IH; [exact H1|]. intros s2 y Hy. apply Hf. now right.
Qed.
Lemma zseq_length a n : length (zseq a n) = n.
Proof. revert a; induction n; intros; cbn; auto. Qed.
Lemma zseq_In a n x : In x (zseq a n) <-> a <= x < a + Z.of_nat n.
Proof.
  revert a; induction n as [|n IH]; intros a; cbn [zseq In]; [lia|]. rewrite IH. lia.
Qed.

(** From a finite sweep to the universally quantified fact. *)
Lemma sweep_at (f : Z -> bool) a n x :
  forallb f (zseq a (Z.to_nat n)) = true -> a <= x < a + n -> f x = true.
Proof.
  intros H B. apply (proj1 (forallb_forall _ _) H). apply zseq_In. lia.
Qed.
