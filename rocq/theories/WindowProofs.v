(** The window. *)
From Coq Require Import ZifyBool.
From Verif Require Import Base BaseFacts WindowModel WindowSpec.
Ltac Zify.zify_post_hook ::= Z.div_mod_to_equations.

(** ** Places on the ring *)
Definition place (m s j : Z) : Z := (s + j) mod m.
Lemma place_eq m s j : 0 <= s < m -> 0 <= j <= m -> place m s j = if s + j <? m then s + j else s + j - m.
Proof.
  intros S J. unfold place. destruct (Z.ltb_spec (s + j) m).
  - apply Z.mod_small. lia.
  - symmetry. apply (Z.mod_unique _ _ 1); lia.
Qed.
Lemma place_range m s j : 0 < m -> 0 <= place m s j < m. Proof. intros. apply Z.mod_pos_bound. lia. Qed.
Lemma place_add m a s j : 0 < m -> place m (place m a s) j = place m a (s + j).
Proof. intros M. unfold place. rewrite Z.add_mod_idemp_l by lia. f_equal. lia. Qed.
Lemma slot_place m shift q j : 0 < m -> slot m shift q j = place m (place m shift (q_dropped q)) j.
Proof. intros M. rewrite place_add by exact M. unfold slot, place. f_equal. lia. Qed.

(** ** Representation *)
Record reps (m s : Z) (bytes : list Z) (w : window) : Prop := mkReps {
  rp_m : 0 < m < 2 ^ 63;
  rp_s : 0 <= s < m;
  rp_max : w_max w = m;
  rp_start : w_start w = s;
  rp_size : w_size w = zlen bytes;
  rp_fits : zlen bytes <= m;
  rp_cursor : w_cursor w = place m s (zlen bytes - 1);
  rp_bytes : Forall (fun x => 0 <= x < 256) bytes;
  rp_buffer : zlen (w_buffer w) = m \/ s + zlen bytes < m /\ zlen (w_buffer w) = s + zlen bytes;
  rp_at : forall j, 0 <= j < zlen bytes -> znth (w_buffer w) (place m s j) = znth bytes j
}.

Lemma index_add_ok m s bytes w j n : reps m s bytes w -> 0 <= j -> 0 <= n -> j + n <= zlen bytes ->
  index_add w (place m s j) n = Ok (place m s (j + n)).
Proof.
  intros R J N L. destruct R. unfold index_add. rewrite rp_max0. rewrite (place_eq m s j) by lia. rewrite (place_eq m s (j + n)) by lia.
  rewrite add_ok by (ib; destruct (Z.ltb_spec (s + j) m); lia). cbn [bind].
  destruct (Z.ltb_spec (s + j) m), (Z.ltb_spec (s + (j + n)) m).
  - replace (m <=? s + j + n) with false by lia. f_equal. lia.
  - replace (m <=? s + j + n) with true by lia. replace (zlen (w_buffer w) =? m) with true by (clear - rp_buffer0 H0 L rp_s0 J N; lia). cbn [assert_ guard bind].
    rewrite sub_ok by (ib; lia). f_equal. lia.
  - lia.
  - replace (m <=? s + j - m + n) with false by lia. f_equal. lia.
Qed.
Lemma index_subtract_ok m s bytes w j n : reps m s bytes w -> 0 <= n <= j -> j <= zlen bytes -> (j = zlen bytes -> j < m) ->
  index_subtract w (place m s j) n = Ok (place m s (j - n)).
Proof.
  intros R N J JM. destruct R. unfold index_subtract. rewrite rp_max0. rewrite (place_eq m s j) by lia. rewrite (place_eq m s (j - n)) by lia.
  destruct (Z.ltb_spec (s + j) m), (Z.ltb_spec (s + (j - n)) m); try lia.
  - replace (n <=? s + j) with true by lia. rewrite sub_ok by (ib; lia). f_equal. lia.
  - destruct (Z.leb_spec n (s + j - m)); [lia|]. replace (zlen (w_buffer w) =? m) with true by (clear - rp_buffer0 H J; lia). cbn [assert_ guard bind].
    rewrite add_ok by (ib; lia). cbn [bind]. rewrite sub_ok by (ib; lia). f_equal. lia.
  - replace (n <=? s + j - m) with true by lia. rewrite sub_ok by (ib; lia). f_equal. lia.
Qed.
Lemma index_diff_ok m s bytes w i j : reps m s bytes w -> 0 <= i <= j -> j < zlen bytes ->
  index_diff w (place m s j) (place m s i) = Ok (j - i).
Proof.
  intros R I J. destruct R. unfold index_diff, index_subtract. rewrite rp_max0. rewrite (place_eq m s j), (place_eq m s i) by lia.
  destruct (Z.ltb_spec (s + j) m), (Z.ltb_spec (s + i) m); try lia.
  - replace (s + i <=? s + j) with true by lia. rewrite sub_ok by (ib; lia). f_equal. lia.
  - replace (s + i <=? s + j - m) with false by lia. replace (zlen (w_buffer w) =? m) with true by (clear - rp_buffer0 H J; lia). cbn [assert_ guard bind].
    rewrite add_ok by (ib; lia). cbn [bind]. rewrite sub_ok by (ib; lia). f_equal. lia.
  - replace (s + i - m <=? s + j - m) with true by lia. rewrite sub_ok by (ib; lia). f_equal. lia.
Qed.
Lemma index_smaller_ok m s bytes w i j : reps m s bytes w -> 0 <= i < m -> 0 <= j < m ->
  index_is_smaller w (place m s i) (place m s j) = Ok (i <? j).
Proof.
  intros R I J. destruct R. unfold index_is_smaller. rewrite rp_max0, rp_start0. rewrite (place_eq m s j), (place_eq m s i) by lia.
  destruct (Z.ltb_spec (s + j) m), (Z.ltb_spec (s + i) m).
  1: replace (s + i <? s) with false by lia; replace (s + j <? s) with false by lia.
  2: replace (s + i - m <? s) with true by lia; replace (s + j <? s) with false by lia.
  3: replace (s + i <? s) with false by lia; replace (s + j - m <? s) with true by lia.
  4: replace (s + i - m <? s) with true by lia; replace (s + j - m <? s) with true by lia.
  all: rewrite ?add_ok by (ib; lia); cbn [bind]; f_equal; lia.
Qed.

Lemma check_ok m s bytes w : reps m s bytes w -> check_size_invariants w = Ok tt.
Proof.
  intros R. pose proof R as R0. destruct R0. unfold check_size_invariants. rewrite rp_size0, rp_max0, rp_start0, rp_cursor0.
  replace (zlen bytes <=? m) with true by lia. cbn [assert_ guard bind]. pose proof (zlen_nonneg bytes). destruct (Z.ltb_spec 1 (zlen bytes)).
  - replace s with (place m s 0) at 1 by (rewrite place_eq by lia; replace (s + 0 <? m) with true by lia; lia).
    rewrite (index_add_ok m s bytes) by (try assumption; lia). replace (0 + (zlen bytes - 1)) with (zlen bytes - 1) by lia. cbn [bind].
    rewrite Z.eqb_refl. cbn [assert_ guard bind].
    replace s with (place m s 0) at 2 by (rewrite place_eq by lia; replace (s + 0 <? m) with true by lia; lia).
    rewrite (index_diff_ok m s bytes) by (try assumption; lia). cbn [bind]. replace (zlen bytes - 1 =? zlen bytes - 1 - 0) with true by lia. reflexivity.
  - destruct (Z.eqb_spec (zlen bytes) 1) as [E|].
    + rewrite E. rewrite place_eq by lia. replace (s =? (if s + (1 - 1) <? m then s + (1 - 1) else s + (1 - 1) - m)) with true; [reflexivity|].
      destruct (Z.ltb_spec (s + (1 - 1)) m); lia.
    + replace (zlen bytes =? 0) with true by lia. reflexivity.
Qed.

Lemma place_inj m s i j : 0 <= s < m -> 0 <= i < m -> 0 <= j < m -> place m s i = place m s j -> i = j.
Proof. intros S I J. rewrite !place_eq by lia. destruct (Z.ltb_spec (s + i) m), (Z.ltb_spec (s + j) m); lia. Qed.

(** ** Operations *)
Lemma push_ok m s bytes w : reps m s bytes w ->
  if zlen bytes <? m then exists w', advance_cursor w = Ok w' /\ reps m s (bytes ++ [0]) w' else advance_cursor w = Fail EAssert.
Proof.
  intros R. pose proof R as R0. destruct R0. unfold advance_cursor. rewrite rp_size0, rp_max0. destruct (Z.ltb_spec (zlen bytes) m) as [L|L]; [|reflexivity].
  cbn [assert_ guard bind]. pose proof (zlen_nonneg bytes) as NN.
  assert (CUR : place m s (zlen bytes - 1) = if s + zlen bytes - 1 <? 0 then m - 1 else if s + (zlen bytes - 1) <? m then s + (zlen bytes - 1) else s + (zlen bytes - 1) - m).
  { destruct (Z.ltb_spec (s + zlen bytes - 1) 0); [|destruct (Z.eq_dec (zlen bytes) 0) as [E|]; [|apply place_eq; lia]].
    - unfold place. symmetry. apply (Z.mod_unique _ _ (-1)); lia.
    - rewrite E in *. unfold place. replace (s + (0 - 1) <? m) with true by lia. apply Z.mod_small. lia. }
  assert (NEW : forall buffer, zlen buffer = m \/ s + (zlen bytes + 1) < m /\ zlen buffer = s + (zlen bytes + 1) ->
    (forall j, 0 <= j < zlen bytes -> znth buffer (place m s j) = znth bytes j) -> znth buffer (place m s (zlen bytes)) = Some 0 ->
    reps m s (bytes ++ [0]) (mkWindow buffer s (place m s (zlen bytes)) (zlen bytes + 1) m)).
  { intros buffer B A Z0. assert (LL : zlen (bytes ++ [0]) = zlen bytes + 1) by (rewrite zlen_app; reflexivity).
    constructor; cbn [w_max w_start w_size w_cursor w_buffer]; rewrite ?LL; try lia; try assumption.
    - f_equal. lia.
    - apply Forall_app. split; [assumption|]. constructor; [lia|constructor].
    - intros j J. destruct (Z.eq_dec j (zlen bytes)) as [->|N].
      + rewrite Z0, znth_app2 by lia. rewrite Z.sub_diag. reflexivity.
      + rewrite znth_app1 by lia. apply A. lia. }
  assert (PR : place m s (zlen bytes) = if s + zlen bytes <? m then s + zlen bytes else s + zlen bytes - m) by (apply place_eq; lia).
  pose proof (place_range m s (zlen bytes) ltac:(lia)) as PB.
  destruct (Z.eqb_spec (zlen (w_buffer w)) m) as [FULL|NF].
  - rewrite rp_cursor0. unfold index_increment, index_add. rewrite rp_max0.
    pose proof (place_range m s (zlen bytes - 1) ltac:(lia)) as CB. rewrite add_ok by (ib; lia). cbn [bind]. rewrite CUR.
    replace (if m <=? (if s + zlen bytes - 1 <? 0 then m - 1 else if s + (zlen bytes - 1) <? m then s + (zlen bytes - 1) else s + (zlen bytes - 1) - m) + 1
      then assert_ (zlen (w_buffer w) =? m) ;; sub usize ((if s + zlen bytes - 1 <? 0 then m - 1 else if s + (zlen bytes - 1) <? m then s + (zlen bytes - 1) else s + (zlen bytes - 1) - m) + 1) m
      else Ok ((if s + zlen bytes - 1 <? 0 then m - 1 else if s + (zlen bytes - 1) <? m then s + (zlen bytes - 1) else s + (zlen bytes - 1) - m) + 1))
      with (Ok (place m s (zlen bytes))).
    2: { rewrite PR. rewrite FULL, Z.eqb_refl. cbn [assert_ guard bind].
         destruct (Z.ltb_spec (s + zlen bytes - 1) 0); [|destruct (Z.ltb_spec (s + (zlen bytes - 1)) m)].
         - replace (m <=? m - 1 + 1) with true by lia. rewrite sub_ok by (ib; lia). f_equal. destruct (Z.ltb_spec (s + zlen bytes) m); lia.
         - destruct (Z.leb_spec m (s + (zlen bytes - 1) + 1)).
           + rewrite sub_ok by (ib; lia). f_equal. destruct (Z.ltb_spec (s + zlen bytes) m); lia.
           + f_equal. destruct (Z.ltb_spec (s + zlen bytes) m); lia.
         - replace (m <=? s + (zlen bytes - 1) - m + 1) with false by lia. f_equal. destruct (Z.ltb_spec (s + zlen bytes) m); lia. }
    cbn [bind]. unfold set_byte_at_cursor. cbn [w_buffer w_cursor w_start w_size w_max]. rewrite set_ok by (rewrite FULL; exact PB). cbn [bind w_buffer].
    rewrite zlen_zupd, FULL, Z.eqb_refl. cbn [assert_ guard bind w_size w_start w_cursor w_max w_buffer]. rewrite ?rp_size0, ?rp_max0, ?rp_start0.
    rewrite add_ok by (ib; lia). cbn [bind].
    assert (RR : reps m s (bytes ++ [0]) (mkWindow (zupd (w_buffer w) (place m s (zlen bytes)) 0) s (place m s (zlen bytes)) (zlen bytes + 1) m)).
    { apply NEW.
      - left. rewrite zlen_zupd. exact FULL.
      - intros j J. rewrite znth_zupd_other; [now apply rp_at0|]. intros E. apply place_inj in E; lia.
      - rewrite znth_zupd_same by (rewrite FULL; exact PB). reflexivity. }
    rewrite (check_ok _ _ _ _ RR). cbn [bind]. eauto.
  - destruct rp_buffer0 as [?|(B1 & B2)]; [contradiction|]. replace (zlen (w_buffer w) <? m) with true by lia. cbn [assert_ guard bind].
    rewrite rp_cursor0, CUR.
    destruct (Z.ltb_spec (s + zlen bytes - 1) 0) as [LOW|NLOW].
    + rewrite add_ok by (ib; lia). cbn [bind w_buffer w_start w_cursor w_size w_max]. replace (m - 1 + 1 =? m) with true by lia.
      rewrite ?rp_size0, ?rp_max0, ?rp_start0. rewrite add_ok by (ib; lia). cbn [bind].
      assert (RR : reps m s (bytes ++ [0]) (mkWindow (w_buffer w ++ [0]) s 0 (zlen bytes + 1) m)).
      { replace 0 with (place m s (zlen bytes)) at 3 by (rewrite PR; destruct (Z.ltb_spec (s + zlen bytes) m); lia). apply NEW.
        - rewrite zlen_app. change (zlen [0]) with 1. lia.
        - intros j J. lia.
        - rewrite PR. replace (s + zlen bytes <? m) with true by lia. rewrite znth_app2 by lia. replace (s + zlen bytes - zlen (w_buffer w)) with 0 by lia. reflexivity. }
      rewrite (check_ok _ _ _ _ RR). cbn [bind]. eauto.
    + replace (s + (zlen bytes - 1) <? m) with true by lia. rewrite add_ok by (ib; lia). cbn [bind w_buffer w_start w_cursor w_size w_max].
      replace (s + (zlen bytes - 1) + 1 =? m) with false by lia.
      rewrite ?rp_size0, ?rp_max0, ?rp_start0. rewrite add_ok by (ib; lia). cbn [bind].
      assert (RR : reps m s (bytes ++ [0]) (mkWindow (w_buffer w ++ [0]) s (s + (zlen bytes - 1) + 1) (zlen bytes + 1) m)).
      { replace (s + (zlen bytes - 1) + 1) with (place m s (zlen bytes)) by (rewrite PR; destruct (Z.ltb_spec (s + zlen bytes) m); lia). apply NEW.
        - rewrite zlen_app. change (zlen [0]) with 1. lia.
        - intros j J. rewrite znth_app1; [now apply rp_at0|]. rewrite place_eq by lia. replace (s + j <? m) with true by lia. lia.
        - rewrite PR. replace (s + zlen bytes <? m) with true by lia. rewrite znth_app2 by lia. replace (s + zlen bytes - zlen (w_buffer w)) with 0 by lia. reflexivity. }
      rewrite (check_ok _ _ _ _ RR). cbn [bind]. eauto.
Qed.

Lemma drop_ok m s x bytes w : reps m s (x :: bytes) w -> exists w', advance_start w = Ok w' /\ reps m (place m s 1) bytes w'.
Proof.
  intros R. pose proof R as R0. destruct R0. rewrite zlen_cons in *. pose proof (zlen_nonneg bytes) as NN. unfold advance_start. rewrite rp_size0.
  replace (1 + zlen bytes =? 0) with false by lia. cbn [negb assert_ guard bind]. rewrite rp_start0.
  assert (BL : s < zlen (w_buffer w)) by lia. rewrite set_ok by lia. cbn [bind w_buffer w_start w_cursor w_size w_max]. rewrite rp_max0.
  unfold index_increment. 
  assert (NX : index_add (mkWindow (zupd (w_buffer w) s 0) s (w_cursor w) (1 + zlen bytes) m) s 1 = Ok (place m s 1)).
  { unfold index_add. rewrite add_ok by (ib; lia). cbn [bind w_max w_buffer]. rewrite zlen_zupd. rewrite place_eq by lia.
    destruct (Z.ltb_spec (s + 1) m).
    - replace (m <=? s + 1) with false by lia. reflexivity.
    - replace (m <=? s + 1) with true by lia. replace (zlen (w_buffer w) =? m) with true by (clear - rp_buffer0 H NN; lia). cbn [assert_ guard bind].
      rewrite sub_ok by (ib; lia). reflexivity. }
  rewrite NX. cbn [bind]. rewrite sub_ok by (ib; lia). cbn [bind].
  assert (RR : reps m (place m s 1) bytes (mkWindow (zupd (w_buffer w) s 0) (place m s 1) (w_cursor w) (1 + zlen bytes - 1) m)).
  { constructor; cbn [w_max w_start w_size w_cursor w_buffer]; try lia; try assumption.
    - apply place_range. lia.
    - rewrite rp_cursor0. unfold place. rewrite Z.add_mod_idemp_l by lia. f_equal. lia.
    - now inversion rp_bytes0.
    - rewrite zlen_zupd. destruct rp_buffer0 as [B|(B1 & B2)]; [left; exact B|right]. rewrite place_eq by lia. replace (s + 1 <? m) with true by lia. lia.
    - intros j J. rewrite place_add by lia. rewrite znth_zupd_other.
      + rewrite rp_at0 by lia. cbn [znth]. replace (1 + j =? 0) with false by lia. f_equal. lia.
      + replace s with (place m s 0) at 1 by (rewrite place_eq by lia; replace (s + 0 <? m) with true by lia; lia). intros E. apply place_inj in E; lia. }
  rewrite (check_ok _ _ _ _ RR). cbn [bind]. eauto.
Qed.

Lemma change_last_app f l x : change_last f (l ++ [x]) = l ++ [f x].
Proof.
  induction l as [|y l IH]; [reflexivity|]. cbn [app change_last]. rewrite IH. destruct (l ++ [x]) eqn:E; [destruct l; discriminate|]. reflexivity.
Qed.
Lemma last_split (l : list Z) : 0 < zlen l -> exists r x, l = r ++ [x].
Proof. intros L. destruct (exists_last (l := l)) as (r & x & E); [destruct l; [cbn in L; lia|discriminate]|eauto]. Qed.

Lemma write_ok m s r x w v : reps m s (r ++ [x]) w -> 0 <= v < 256 ->
  get (w_buffer w) (w_cursor w) = Ok x /\ set (w_buffer w) (w_cursor w) v = Ok (zupd (w_buffer w) (w_cursor w) v) /\
  reps m s (r ++ [v]) (mkWindow (zupd (w_buffer w) (w_cursor w) v) (w_start w) (w_cursor w) (w_size w) (w_max w)).
Proof.
  intros R V. destruct R. assert (L : zlen (r ++ [x]) = zlen r + 1) by (rewrite zlen_app; reflexivity).
  assert (L' : zlen (r ++ [v]) = zlen r + 1) by (rewrite zlen_app; reflexivity). rewrite L in *. pose proof (zlen_nonneg r) as NN.
  replace (zlen r + 1 - 1) with (zlen r) in rp_cursor0 by lia.
  pose proof (rp_at0 (zlen r) ltac:(lia)) as A. rewrite znth_app2, Z.sub_diag in A by lia. cbn in A.
  pose proof (znth_Some _ _ _ A) as B. rewrite rp_cursor0. split; [now apply get_ok|]. split; [now apply set_ok|].
  constructor; cbn [w_max w_start w_size w_cursor w_buffer]; rewrite ?L', ?zlen_zupd; try lia; try assumption.
  - f_equal. lia.
  - apply Forall_app in rp_bytes0 as (F & _). apply Forall_app. split; [exact F|]. constructor; [lia|constructor].
  - intros j J. destruct (Z.eq_dec j (zlen r)) as [->|N].
    + rewrite znth_zupd_same by lia. rewrite znth_app2, Z.sub_diag by lia. reflexivity.
    + rewrite znth_zupd_other; [|intros E; apply place_inj in E; lia]. rewrite rp_at0 by lia. rewrite !znth_app1 by lia. reflexivity.
Qed.

(** ** Bits of bytes *)
Definition bit_at (x i : Z) : bit := Z.odd (x / 2 ^ i).
Lemma get_bit_ok x i : 0 <= i < 8 -> get_bit x i = Ok (bit_at x i).
Proof.
  intros I. unfold get_bit. rewrite shr_ok by (cbn [ibits u8]; lia). cbn [bind]. rewrite land_1. unfold bit_at. rewrite Zmod_odd. destruct (Z.odd _); reflexivity.
Qed.
Lemma bit_at_testbit x i : 0 <= i -> bit_at x i = Z.testbit x i.
Proof. intros I. unfold bit_at. rewrite Z.testbit_odd, Z.shiftr_div_pow2 by lia. reflexivity. Qed.
Lemma bit_at_lxor x y i : 0 <= i -> bit_at (Z.lxor x y) i = xorb (bit_at x i) (bit_at y i).
Proof. intros I. rewrite !bit_at_testbit by lia. apply Z.lxor_spec. Qed.
Lemma with_bit_sweep : forallb (fun x => forallb (fun i => forallb (fun b =>
  (Z.lor (Z.land x (255 - wrap u8 (1 * 2 ^ i))) (wrap u8 (bit_z b * 2 ^ i)) =? with_bit b i x) && (0 <=? with_bit b i x) && (with_bit b i x <? 256))
  [false; true]) (zseq 0 8)) (zseq 0 256) = true.
Proof. vm_compute. reflexivity. Qed.
Lemma with_bit_ok x i b : 0 <= x < 256 -> 0 <= i < 8 ->
  Z.lor (Z.land x (255 - wrap u8 (1 * 2 ^ i))) (wrap u8 (bit_z b * 2 ^ i)) = with_bit b i x /\ 0 <= with_bit b i x < 256.
Proof.
  intros X I. pose proof with_bit_sweep as S. rewrite forallb_forall in S. specialize (S x ltac:(apply zseq_In; lia)). cbv beta in S.
  rewrite forallb_forall in S. specialize (S i ltac:(apply zseq_In; lia)). cbv beta in S.
  rewrite forallb_forall in S. specialize (S b ltac:(destruct b; cbn; auto)). cbv beta in S.
  set (z := with_bit b i x) in *. clearbody z. set (y := Z.lor _ _) in *. clearbody y. lia.
Qed.

Lemma set_byte_ok m s bytes w v : reps m s bytes w -> 0 < zlen bytes -> 0 <= v < 256 ->
  exists w', set_byte_at_cursor w v = Ok w' /\ reps m s (change_last (fun _ => v) bytes) w'.
Proof.
  intros R L V. destruct (last_split _ L) as (r & x & ->). rewrite change_last_app. destruct (write_ok m s r x w v R V) as (_ & E & R').
  unfold set_byte_at_cursor. rewrite E. cbn [bind]. eauto.
Qed.
Lemma set_bit_ok m s bytes w b i : reps m s bytes w -> 0 < zlen bytes -> 0 <= i < 8 ->
  exists w', set_bit_at_cursor w b i = Ok w' /\ reps m s (change_last (with_bit b i) bytes) w'.
Proof.
  intros R L I. destruct (last_split _ L) as (r & x & ->). rewrite change_last_app.
  assert (X : 0 <= x < 256) by (destruct R; apply Forall_app in rp_bytes0 as (_ & F); now inversion F).
  destruct (with_bit_ok x i b X I) as (E & V). destruct (write_ok m s r x w _ R V) as (G & S & R').
  unfold set_bit_at_cursor. rewrite shl_ok by (cbn [ibits u8]; lia). cbn [bind]. rewrite G. cbn [bind]. rewrite shl_ok by (cbn [ibits u8]; lia). cbn [bind].
  rewrite E, S. cbn [bind]. eauto.
Qed.

(** ** Runs *)
Definition represents (max shift : Z) (q : queue) (w : window) : Prop := reps max (place max shift (q_dropped q)) (q_bytes q) w.
Lemma new_ok max shift : 0 < max < 2 ^ 63 -> 0 <= shift < max -> exists w, window_new max shift = Ok w /\ represents max shift (mkQueue 0 []) w.
Proof.
  intros M S. unfold window_new. replace (0 <? max) with true by lia. replace (max <? 2 ^ 63) with true by lia. replace (shift <=? max) with true by lia.
  cbn [assert_ guard bind]. eexists. split; [reflexivity|]. unfold represents. cbn [q_dropped q_bytes].
  assert (P : place max shift 0 = shift) by (rewrite place_eq by lia; replace (shift + 0 <? max) with true by lia; lia). rewrite P.
  constructor; cbn [w_max w_start w_size w_cursor w_buffer]; change (zlen (@nil Z)) with 0; try lia; try reflexivity.
  - unfold place. destruct (Z.ltb_spec 0 shift); [rewrite Z.mod_small; lia|]. apply (Z.mod_unique _ _ (-1)); lia.
  - constructor.
  - right. unfold zlen. rewrite repeat_length. lia.
Qed.
Lemma step_ok max shift q w o q' : represents max shift q w -> q_step max q o = Some q' -> exists w', w_step w o = Ok w' /\ represents max shift q' w'.
Proof.
  intros R E. unfold represents in *. pose proof (rp_m _ _ _ _ R) as M. destruct o as [|v|b i|]; cbn [q_step w_step] in *.
  - pose proof (push_ok _ _ _ _ R) as P. destruct (zlen (q_bytes q) <? max); [|discriminate]. injection E as <-. exact P.
  - destruct (Z.ltb_spec 0 (zlen (q_bytes q))); [|discriminate]. destruct (Z.leb_spec 0 v); [|discriminate]. destruct (Z.ltb_spec v 256); [|discriminate]. cbn [andb] in E.
    injection E as <-. cbn [q_dropped q_bytes]. apply set_byte_ok; [assumption|lia|lia].
  - destruct (Z.ltb_spec 0 (zlen (q_bytes q))); [|discriminate]. destruct (Z.leb_spec 0 i); [|discriminate]. destruct (Z.ltb_spec i 8); [|discriminate]. cbn [andb] in E.
    injection E as <-. cbn [q_dropped q_bytes]. apply set_bit_ok; [assumption|lia|lia].
  - destruct (Z.ltb_spec 0 (zlen (q_bytes q))); [|discriminate]. injection E as <-. cbn [q_dropped q_bytes]. destruct q as [d [|x l]]; cbn [q_dropped q_bytes tl] in *; [cbn in H; lia|].
    destruct (drop_ok _ _ _ _ _ R) as (w' & E & R'). exists w'. split; [exact E|]. rewrite place_add in R' by lia. exact R'.
Qed.
Lemma run_ok max shift ops : forall q w q', represents max shift q w -> q_run max q ops = Some q' -> exists w', w_run w ops = Ok w' /\ represents max shift q' w'.
Proof.
  unfold w_run. induction ops as [|o ops IH]; intros q w q' R E; cbn [q_run mfold] in *; [injection E as <-; eauto|].
  destruct (q_step max q o) as [q1|] eqn:Q; [|discriminate]. destruct (step_ok _ _ _ _ _ _ R Q) as (w1 & E1 & R1). rewrite E1. cbn [bind]. eauto.
Qed.
Lemma after_ok max shift ops q : 0 < max < 2 ^ 63 -> 0 <= shift < max -> q_after max ops = Some q ->
  exists w, w_after max shift ops = Ok w /\ represents max shift q w.
Proof.
  intros M S Q. destruct (new_ok max shift M S) as (w0 & E & R). unfold w_after. rewrite E. cbn [bind]. eapply run_ok; eassumption.
Qed.
Lemma after_rep max shift ops q w : 0 < max < 2 ^ 63 -> 0 <= shift < max -> q_after max ops = Some q -> w_after max shift ops = Ok w -> represents max shift q w.
Proof. intros M S Q E. destruct (after_ok max shift ops q M S Q) as (w' & E' & R). rewrite E in E'. injection E' as <-. exact R. Qed.

Lemma window_is_queue max shift ops q : 0 < max < 2 ^ 63 -> 0 <= shift < max -> q_after max ops = Some q ->
  exists w, w_after max shift ops = Ok w /\ w_size w = zlen (q_bytes q) /\ w_start w = slot max shift q 0 /\
    w_cursor w = slot max shift q (zlen (q_bytes q) - 1) /\
    (forall j x, znth (q_bytes q) j = Some x -> byte_at w (slot max shift q j) = Ok x) /\
    (forall j x i, znth (q_bytes q) j = Some x -> 0 <= i < 8 -> window_bit w (slot max shift q j) i = Ok (Z.odd (x / 2 ^ i))).
Proof.
  intros M S Q. destruct (after_ok max shift ops q M S Q) as (w & E & R). exists w. split; [exact E|]. destruct R.
  assert (A : forall j x, znth (q_bytes q) j = Some x -> byte_at w (slot max shift q j) = Ok x).
  { intros j x X. unfold byte_at. apply get_ok. rewrite slot_place by lia. rewrite rp_at0; [exact X|]. exact (znth_Some _ _ _ X). }
  split; [exact rp_size0|]. split; [rewrite rp_start0, slot_place, place_add by lia; f_equal; lia|]. split; [rewrite rp_cursor0, slot_place by lia; reflexivity|].
  split; [exact A|]. intros j x i X I. unfold window_bit. rewrite (A j x X). cbn [bind]. now apply get_bit_ok.
Qed.
Lemma limits_enforced max shift ops q w : 0 < max < 2 ^ 63 -> 0 <= shift < max -> q_after max ops = Some q -> w_after max shift ops = Ok w ->
  (zlen (q_bytes q) = max -> advance_cursor w = Fail EAssert) /\ (q_bytes q = [] -> advance_start w = Fail EAssert).
Proof.
  intros M S Q E. pose proof (after_rep _ _ _ _ _ M S Q E) as R. split.
  - intros F. pose proof (push_ok _ _ _ _ R) as P. now rewrite F, Z.ltb_irrefl in P.
  - intros N. unfold advance_start. rewrite (rp_size _ _ _ _ R), N. reflexivity.
Qed.
Lemma arithmetic_agrees max shift ops q w : 0 < max < 2 ^ 63 -> 0 <= shift < max -> q_after max ops = Some q -> w_after max shift ops = Ok w ->
  let n := zlen (q_bytes q) in let at_ := slot max shift q in
  (forall j k, 0 <= j -> 0 <= k -> j + k <= n -> index_add w (at_ j) k = Ok (at_ (j + k))) /\
  (forall j k, 0 <= k <= j -> j < n -> index_subtract w (at_ j) k = Ok (at_ (j - k))) /\
  (forall i j, 0 <= i <= j -> j < n -> index_diff w (at_ j) (at_ i) = Ok (j - i)) /\
  (forall i j, 0 <= i < max -> 0 <= j < max -> index_is_smaller w (at_ i) (at_ j) = Ok (i <? j) /\
    index_is_smaller_or_equal w (at_ i) (at_ j) = Ok (i <=? j)) /\
  (forall i j, 0 <= i < max -> 0 <= j < max -> at_ i = at_ j -> i = j).
Proof.
  intros M S Q E n at_. pose proof (after_rep _ _ _ _ _ M S Q E) as R. unfold represents in R. 
  assert (AT : forall j, at_ j = place max (place max shift (q_dropped q)) j) by (intros; apply slot_place; lia).
  pose proof (place_range max shift (q_dropped q) ltac:(lia)) as PB.
  split; [intros; rewrite !AT; eapply index_add_ok; eassumption|].
  split; [intros; rewrite !AT; eapply index_subtract_ok; try eassumption; lia|].
  split; [intros; rewrite !AT; eapply index_diff_ok; eassumption|]. split.
  - intros i j I J. rewrite !AT. split; [eapply index_smaller_ok; eassumption|]. unfold index_is_smaller_or_equal. rewrite (index_smaller_ok _ _ _ _ _ _ R) by assumption.
    cbn [bind]. f_equal. lia.
  - intros i j I J. rewrite !AT. now apply place_inj.
Qed.

(** ** Suffixes *)
Lemma range_eq a b : range a b = map (fun j => a + j) (zseq 0 (Z.to_nat (b - a))).
Proof.
  unfold range. set (n := Z.to_nat (b - a)). clearbody n. assert (G : forall n a c, zseq (a + c) n = map (fun j => a + j) (zseq c n)).
  { clear. induction n as [|n IH]; intros; cbn [zseq map]; [reflexivity|]. f_equal. rewrite <- IH. f_equal. lia. }
  rewrite <- G. f_equal. lia.
Qed.
Lemma zseq_app a n k : zseq a (n + k) = zseq a n ++ zseq (a + Z.of_nat n) k.
Proof. revert a. induction n as [|n IH]; intros a; cbn [plus zseq app]; [f_equal; lia|]. rewrite IH. do 3 f_equal. lia. Qed.
Lemma zlen_range a b : zlen (range a b) = Z.max 0 (b - a).
Proof. unfold range, zlen. rewrite zseq_length. lia. Qed.
Lemma suffixes_ok m s bytes w : reps m s bytes w ->
  for_each_suffix w = if 0 <? zlen bytes then Ok (map (place m s) (zseq 0 (Z.to_nat (zlen bytes)))) else if s =? 0 then Fail EAssert else Ok [].
Proof.
  intros R. destruct R. unfold for_each_suffix. pose proof (place_range m s (zlen bytes - 1) ltac:(lia)) as CB. rewrite rp_cursor0, rp_start0, rp_size0, rp_max0.
  rewrite add_ok by (ib; lia). cbn [bind]. pose proof (zlen_nonneg bytes) as NN. destruct (Z.ltb_spec 0 (zlen bytes)) as [L|L].
  - replace (zlen bytes =? 0) with false by lia. cbn [orb]. rewrite place_eq by lia. destruct (Z.ltb_spec (s + (zlen bytes - 1)) m) as [A|A].
    + replace (s <=? s + (zlen bytes - 1)) with true by lia. rewrite zlen_range. replace (Z.max 0 (s + (zlen bytes - 1) + 1 - s) =? zlen bytes) with true by lia.
      cbn [assert_ guard bind]. f_equal. rewrite range_eq. replace (s + (zlen bytes - 1) + 1 - s) with (zlen bytes) by lia. apply map_ext_in. intros j J. apply zseq_In in J.
      rewrite place_eq by lia. replace (s + j <? m) with true by lia. reflexivity.
    + replace (s <=? s + (zlen bytes - 1) - m) with false by lia. rewrite zlen_app, !zlen_range.
      replace (Z.max 0 (m - s) + Z.max 0 (s + (zlen bytes - 1) - m + 1 - 0) =? zlen bytes) with true by lia. cbn [assert_ guard bind]. f_equal.
      rewrite !range_eq. replace (Z.to_nat (zlen bytes)) with (Z.to_nat (m - s) + Z.to_nat (s + (zlen bytes - 1) - m + 1 - 0))%nat by lia. rewrite zseq_app, map_app. f_equal.
      * apply map_ext_in. intros j J. apply zseq_In in J. rewrite place_eq by lia. replace (s + j <? m) with true by lia. reflexivity.
      * replace (0 + Z.of_nat (Z.to_nat (m - s))) with (m - s) by lia. set (k := Z.to_nat _).
        assert (G : zseq (m - s) k = map (fun j => m - s + j) (zseq 0 k)).
        { pose proof (range_eq (m - s) (m - s + Z.of_nat k)) as G. unfold range in G. replace (Z.to_nat (m - s + Z.of_nat k - (m - s))) with k in G by lia. exact G. }
        rewrite G, map_map. apply map_ext_in. intros j J. apply zseq_In in J. rewrite place_eq by lia. replace (s + (m - s + j) <? m) with false by lia. lia.
  - replace (zlen bytes) with 0 by lia. change (0 =? 0) with true. cbn [orb]. rewrite zlen_range. unfold place. destruct (Z.eqb_spec s 0) as [->|N].
    + replace ((0 + (0 - 1)) mod m) with (m - 1) by (apply (Z.mod_unique _ _ (-1)); lia). replace (Z.max 0 (m - 1 + 1 - 0) =? 0) with false by lia. reflexivity.
    + rewrite Z.mod_small by lia. replace (Z.max 0 (s + (0 - 1) + 1 - s) =? 0) with true by lia. cbn [assert_ guard bind]. unfold range.
      replace (s + (0 - 1) + 1 - s) with 0 by lia. reflexivity.
Qed.
Lemma suffixes_visited max shift ops q w : 0 < max < 2 ^ 63 -> 0 <= shift < max -> q_after max ops = Some q -> w_after max shift ops = Ok w ->
  for_each_suffix w =
    if 0 <? zlen (q_bytes q) then Ok (map (slot max shift q) (zseq 0 (Z.to_nat (zlen (q_bytes q)))))
    else if slot max shift q 0 =? 0 then Fail EAssert else Ok [].
Proof.
  intros M S Q E. pose proof (after_rep _ _ _ _ _ M S Q E) as R. rewrite (suffixes_ok _ _ _ _ R). destruct (0 <? zlen (q_bytes q)).
  - f_equal. apply map_ext. intros j. symmetry. apply slot_place. lia.
  - rewrite slot_place, place_add by lia. now rewrite Z.add_0_r.
Qed.

(** ** Comparison of prefixes *)
Fixpoint bytes_agree (n : nat) (l1 l2 : list Z) : bool :=
  match n, l1, l2 with
  | S n, x :: l1, y :: l2 => (x =? y) && bytes_agree n l1 l2
  | _, _, _ => true
  end.
Fixpoint bits_agree (n : nat) (p x y : Z) : bool :=
  match n with O => true | S n => Bool.eqb (bit_at x p) (bit_at y p) && bits_agree n (p - 1) x y end.
Definition from (bytes : list Z) (i : Z) : list Z := skipn (Z.to_nat i) bytes.
Lemma from_step bytes i x : znth bytes i = Some x -> from bytes i = x :: from bytes (i + 1).
Proof.
  intros X. pose proof (znth_Some _ _ _ X) as B. rewrite znth_nth_error in X by lia. unfold from. replace (Z.to_nat (i + 1)) with (S (Z.to_nat i)) by lia.
  generalize dependent (Z.to_nat i). clear. intros n. revert n. induction bytes as [|y l IH]; intros [|n] X; cbn in *; try discriminate; [now injection X as ->|now apply IH].
Qed.

Section Compare.
  Variables (m s : Z) (bytes : list Z) (w : window).
  Hypothesis R : reps m s bytes w.
  Let at_ok j : 0 <= j < zlen bytes -> exists x, znth bytes j = Some x /\ znth (w_buffer w) (place m s j) = Some x.
  Proof. intros J. destruct (znth_lt bytes j J) as (x & X). exists x. split; [exact X|]. rewrite (rp_at _ _ _ _ R j J). exact X. Qed.
  Lemma place_succ j k : 0 <= j -> 0 <= k -> j + k <= zlen bytes -> place m s j + k < m -> place m s (j + k) = place m s j + k.
  Proof.
    intros J K L. destruct R. rewrite !place_eq by lia. destruct (Z.ltb_spec (s + j) m), (Z.ltb_spec (s + (j + k)) m); lia.
  Qed.
  Lemma equal_bytes_ok n : forall i j, 0 <= i -> 0 <= j -> i + Z.of_nat n <= zlen bytes -> j + Z.of_nat n <= zlen bytes ->
    place m s i + Z.of_nat n <= m -> place m s j + Z.of_nat n <= m ->
    equal_bytes w (place m s i) (place m s j) n = Ok (bytes_agree n (from bytes i) (from bytes j)).
  Proof.
    induction n as [|n IH]; intros i j I J LI LJ PI PJ; [reflexivity|]. cbn [equal_bytes].
    destruct (at_ok i ltac:(lia)) as (x & X & BX), (at_ok j ltac:(lia)) as (y & Y & BY). rewrite (get_ok _ _ _ BX), (get_ok _ _ _ BY). cbn [bind].
    rewrite (from_step _ _ _ X), (from_step _ _ _ Y). cbn [bytes_agree]. destruct (x =? y); [|reflexivity]. cbn [andb].
    destruct n as [|n]; [reflexivity|].
    rewrite <- (place_succ i 1), <- (place_succ j 1) by lia. apply IH; try lia; rewrite place_succ; lia.
  Qed.
  Lemma equal_bits_ok n : forall i j x y p, znth bytes i = Some x -> znth bytes j = Some y -> Z.of_nat n <= p + 1 -> p < 8 ->
    equal_bits w (place m s i) (place m s j) p n = Ok (bits_agree n p x y).
  Proof.
    induction n as [|n IH]; intros i j x y p X Y P P8; [reflexivity|]. cbn [equal_bits bits_agree]. unfold bytes_differ_on, byte_at.
    pose proof (znth_Some _ _ _ X) as BI. pose proof (znth_Some _ _ _ Y) as BJ.
    destruct (at_ok i ltac:(lia)) as (x' & X' & BX), (at_ok j ltac:(lia)) as (y' & Y' & BY). rewrite X in X'. rewrite Y in Y'. injection X' as <-. injection Y' as <-.
    rewrite (get_ok _ _ _ BX), (get_ok _ _ _ BY). cbn [bind]. rewrite get_bit_ok by lia. cbn [bind]. rewrite bit_at_lxor by lia.
    destruct (bit_at x p), (bit_at y p); cbn [xorb Bool.eqb andb]; try reflexivity; (apply IH; [assumption|assumption|lia|lia]).
  Qed.
  Lemma equal_wrapped_ok n : forall i j, 0 <= i -> 0 <= j -> i + Z.of_nat n <= zlen bytes -> j + Z.of_nat n <= zlen bytes ->
    exists i' j', 0 <= i' <= i + Z.of_nat n /\ 0 <= j' <= j + Z.of_nat n /\
      equal_wrapped w (place m s i) (place m s j) n = Ok (bytes_agree n (from bytes i) (from bytes j), (place m s i', place m s j')) /\
      if bytes_agree n (from bytes i) (from bytes j) then i' = i + Z.of_nat n /\ j' = j + Z.of_nat n else i' < zlen bytes /\ j' < zlen bytes.
  Proof.
    induction n as [|n IH]; intros i j I J LI LJ.
    { exists i, j. cbn [equal_wrapped bytes_agree]. repeat split; try lia. }
    cbn [equal_wrapped]. unfold byte_at.
    destruct (at_ok i ltac:(lia)) as (x & X & BX), (at_ok j ltac:(lia)) as (y & Y & BY). rewrite (get_ok _ _ _ BX), (get_ok _ _ _ BY). cbn [bind].
    rewrite (from_step _ _ _ X), (from_step _ _ _ Y). cbn [bytes_agree]. destruct (x =? y); cbn [andb].
    - unfold index_increment. rewrite !(index_add_ok m s bytes w _ 1 R) by lia. cbn [bind].
      destruct (IH (i + 1) (j + 1)) as (i' & j' & A & B & E & C); try lia. exists i', j'. split; [lia|]. split; [lia|]. split; [exact E|].
      destruct (bytes_agree n _ _); lia.
    - exists i, j. repeat split; try lia.
  Qed.

  Definition prefix_agree (n : Z) (k : Z) (i j : Z) : bool :=
    bytes_agree (Z.to_nat n) (from bytes i) (from bytes j) &&
    match znth bytes (i + n), znth bytes (j + n) with Some x, Some y => bits_agree (Z.to_nat (7 - k)) 7 x y | _, _ => true end.
  Lemma compare_straight_ok i j k n : 0 <= i -> 0 <= j -> 0 <= k <= 7 -> 0 <= n -> i + n <= zlen bytes -> j + n <= zlen bytes ->
    (k < 7 -> i + n < zlen bytes /\ j + n < zlen bytes) -> place m s i + n < m -> place m s j + n < m ->
    compare_straight w (place m s i) (place m s j) k n = Ok (prefix_agree n k i j).
  Proof.
    intros I J K N LI LJ LK PI PJ. unfold compare_straight, prefix_agree. pose proof (rp_m _ _ _ _ R) as M.
    rewrite equal_bytes_ok by lia. cbn [bind]. destruct (bytes_agree _ _ _); [|reflexivity]. cbn [andb].
    pose proof (place_range m s i ltac:(lia)). pose proof (place_range m s j ltac:(lia)).
    rewrite !add_ok by (ib; lia). cbn [bind]. rewrite <- !place_succ by lia.
    destruct (Z.eq_dec k 7) as [->|].
    - replace (Z.to_nat (7 - 7)) with 0%nat by lia. cbn [equal_bits bits_agree]. now destruct (znth bytes (i + n)), (znth bytes (j + n)).
    - destruct (LK ltac:(lia)) as (A & B). destruct (znth_lt bytes (i + n) ltac:(lia)) as (x & X), (znth_lt bytes (j + n) ltac:(lia)) as (y & Y). rewrite X, Y.
      apply equal_bits_ok; try assumption; lia.
  Qed.
  Lemma compare_ok i j k n : 0 <= i -> 0 <= j -> 0 <= k <= 7 -> 0 <= n -> i + n <= zlen bytes -> j + n <= zlen bytes ->
    (k < 7 -> i + n < zlen bytes /\ j + n < zlen bytes) ->
    compare_for_equal_prefix w (place m s i) (place m s j) k n = Ok (prefix_agree n k i j).
  Proof.
    intros I J K N LI LJ LK. unfold compare_for_equal_prefix. pose proof (rp_m _ _ _ _ R) as M. pose proof (rp_fits _ _ _ _ R) as FT.
    pose proof (place_range m s i ltac:(lia)) as PI. pose proof (place_range m s j ltac:(lia)) as PJ.
    rewrite add_ok by (ib; lia). cbn [bind]. rewrite (rp_max _ _ _ _ R). destruct (Z.ltb_spec (Z.max (place m s i) (place m s j) + n) m) as [A|A].
    - apply compare_straight_ok; try assumption; lia.
    - destruct (equal_wrapped_ok (Z.to_nat n) i j I J ltac:(lia) ltac:(lia)) as (i' & j' & BI & BJ & E & C). rewrite E. cbn [bind].
      unfold prefix_agree. destruct (bytes_agree (Z.to_nat n) (from bytes i) (from bytes j)) eqn:AG.
      + destruct C as (-> & ->). rewrite !Z2Nat.id by lia.
        rewrite compare_straight_ok by (try lia; pose proof (place_range m s (i + n) ltac:(lia)); pose proof (place_range m s (j + n) ltac:(lia)); lia).
        cbn [bind]. unfold prefix_agree. cbn [Z.to_nat bytes_agree andb]. rewrite !Z.add_0_r. reflexivity.
      + rewrite compare_straight_ok by (try lia; pose proof (place_range m s i' ltac:(lia)); pose proof (place_range m s j' ltac:(lia)); lia).
        cbn [bind andb]. reflexivity.
  Qed.
End Compare.

(** ** Bit strings *)
Lemma byte_bits_sweep : forallb (fun x => fold_left (fun a (b : bit) => 2 * a + bit_z b) (byte_bits x) 0 =? x) (zseq 0 256) = true.
Proof. vm_compute. reflexivity. Qed.
Lemma byte_bits_inj x y : 0 <= x < 256 -> 0 <= y < 256 -> byte_bits x = byte_bits y -> x = y.
Proof.
  intros X Y E. pose proof byte_bits_sweep as S. rewrite forallb_forall in S.
  pose proof (S x ltac:(apply zseq_In; lia)) as SX. pose proof (S y ltac:(apply zseq_In; lia)) as SY. cbv beta in SX, SY.
  apply Z.eqb_eq in SX, SY. rewrite <- SX, <- SY, E. reflexivity.
Qed.
Lemma bits_agree_iff n x y : (n <= 7)%nat -> bits_agree n 7 x y = true <-> firstn n (byte_bits x) = firstn n (byte_bits y).
Proof.
  intros N. unfold byte_bits. cbn [map].
  do 8 (destruct n as [|n]; [unfold bits_agree, bit_at; cbn [firstn];
    repeat (change (7 - 1) with 6 || change (6 - 1) with 5 || change (5 - 1) with 4 || change (4 - 1) with 3 || change (3 - 1) with 2 || change (2 - 1) with 1);
    rewrite ?Bool.andb_true_iff, ?Bool.eqb_true_iff; intuition congruence|]). lia.
Qed.
Lemma bit_string_cons x l : bit_string (x :: l) = byte_bits x ++ bit_string l. Proof. reflexivity. Qed.
Lemma firstn_8 {A} (a l : list A) n : length a = 8%nat -> firstn (8 + n) (a ++ l) = a ++ firstn n l.
Proof. intros L. rewrite <- L. apply firstn_app_2. Qed.
Lemma app_inv_length {A} (a b c d : list A) : a ++ c = b ++ d -> length a = length b -> a = b /\ c = d.
Proof.
  revert b. induction a as [|x a IH]; intros [|y b] E L; cbn in *; try discriminate; [auto|]. injection E as -> E. destruct (IH b E ltac:(lia)) as (-> & ->). auto.
Qed.
Lemma byte_bits_length x : length (byte_bits x) = 8%nat. Proof. reflexivity. Qed.
Lemma prefix_bits n c l1 l2 : Forall (fun x => 0 <= x < 256) l1 -> Forall (fun x => 0 <= x < 256) l2 -> (c <= 7)%nat ->
  (8 * n + c <= length (bit_string l1))%nat -> (8 * n + c <= length (bit_string l2))%nat ->
  (bytes_agree n l1 l2 = true /\ match nth_error l1 n, nth_error l2 n with Some x, Some y => bits_agree c 7 x y = true | _, _ => True end) <->
  firstn (8 * n + c) (bit_string l1) = firstn (8 * n + c) (bit_string l2).
Proof.
  revert l1 l2. induction n as [|n IH]; intros l1 l2 F1 F2 C L1 L2.
  - cbn [bytes_agree Nat.mul plus]. destruct l1 as [|x l1], l2 as [|y l2]; cbn [nth_error].
    + split; [reflexivity|auto].
    + cbn in L1. assert (c = 0)%nat as -> by lia. cbn. tauto.
    + cbn in L2. assert (c = 0)%nat as -> by lia. cbn. tauto.
    + rewrite !bit_string_cons, !firstn_app, !byte_bits_length. replace (c - 8)%nat with 0%nat by lia. rewrite !firstn_O, !app_nil_r.
      rewrite (bits_agree_iff c x y C). tauto.
  - destruct l1 as [|x l1]; [cbn [bit_string flat_map length] in L1; lia|]. destruct l2 as [|y l2]; [cbn [bit_string flat_map length] in L2; lia|].
    inversion F1; inversion F2; subst. cbn [bytes_agree nth_error]. replace (8 * S n + c)%nat with (8 + (8 * n + c))%nat in * by lia.
    rewrite !bit_string_cons in *. rewrite !app_length, !byte_bits_length in *. rewrite !firstn_8 by apply byte_bits_length. rewrite Bool.andb_true_iff, Z.eqb_eq.
    specialize (IH l1 l2 ltac:(assumption) ltac:(assumption) C ltac:(lia) ltac:(lia)). split.
    + intros ((-> & A) & B). f_equal. apply IH. auto.
    + intros E. apply app_inv_length in E as (E1 & E2); [|reflexivity]. apply byte_bits_inj in E1; [|assumption|assumption]. apply IH in E2. tauto.
Qed.

Lemma bit_string_length l : zlen (bit_string l) = 8 * zlen l.
Proof. induction l as [|x l IH]; [reflexivity|]. rewrite bit_string_cons, zlen_app, zlen_cons, IH. change (zlen (byte_bits x)) with 8. lia. Qed.
Lemma from_length bytes i : 0 <= i <= zlen bytes -> zlen (from bytes i) = zlen bytes - i.
Proof. intros I. unfold from, zlen in *. rewrite skipn_length. lia. Qed.
Lemma from_nth bytes i n : 0 <= i -> 0 <= n -> nth_error (from bytes i) (Z.to_nat n) = znth bytes (i + n).
Proof.
  intros I N. rewrite znth_nth_error by lia. unfold from. replace (Z.to_nat (i + n)) with (Z.to_nat i + Z.to_nat n)%nat by lia.
  generalize (Z.to_nat i) (Z.to_nat n). clear. intros a b. revert a. induction bytes as [|x l IH]; intros [|a]; cbn [skipn plus nth_error]; try reflexivity; [now destruct b|apply IH].
Qed.
Lemma compare_is_prefix max shift ops q w i j n k : 0 < max < 2 ^ 63 -> 0 <= shift < max -> q_after max ops = Some q -> w_after max shift ops = Ok w ->
  0 <= i <= zlen (q_bytes q) -> 0 <= j <= zlen (q_bytes q) -> 0 <= n -> 0 <= k <= 7 ->
  8 * n + (7 - k) <= zlen (bits_from q i) -> 8 * n + (7 - k) <= zlen (bits_from q j) ->
  exists b, compare_for_equal_prefix w (slot max shift q i) (slot max shift q j) k n = Ok b /\
    (b = true <-> firstn (Z.to_nat (8 * n + (7 - k))) (bits_from q i) = firstn (Z.to_nat (8 * n + (7 - k))) (bits_from q j)).
Proof.
  intros M S Q E I J N K LI LJ. pose proof (after_rep _ _ _ _ _ M S Q E) as R. rewrite !slot_place by lia.
  unfold bits_from in *. change (skipn (Z.to_nat i) (q_bytes q)) with (from (q_bytes q) i) in *. change (skipn (Z.to_nat j) (q_bytes q)) with (from (q_bytes q) j) in *.
  pose proof (from_length (q_bytes q) i I) as FI. pose proof (from_length (q_bytes q) j J) as FJ.
  pose proof LI as LI'. pose proof LJ as LJ'. rewrite bit_string_length, FI in LI'. rewrite bit_string_length, FJ in LJ'.
  eexists. split; [eapply compare_ok; try eassumption; lia|]. unfold prefix_agree. rewrite Bool.andb_true_iff.
  replace (Z.to_nat (8 * n + (7 - k))) with (8 * Z.to_nat n + Z.to_nat (7 - k))%nat by lia.
  assert (FF : forall i, Forall (fun x => 0 <= x < 256) (from (q_bytes q) i)).
  { intros i'. pose proof (rp_bytes _ _ _ _ R) as F. unfold from. rewrite <- (firstn_skipn (Z.to_nat i') (q_bytes q)) in F. apply Forall_app in F. apply F. }
  rewrite <- prefix_bits; try apply FF; try (unfold zlen in LI, LJ; lia). rewrite !from_nth by lia.
  destruct (znth (q_bytes q) (i + n)), (znth (q_bytes q) (j + n)); intuition.
Qed.

(** ** What goes wrong *)
Lemma full_shift_fails max : 0 < max < 2 ^ 63 -> exists w, window_new max max = Ok w /\ advance_cursor w = Fail EAssert.
Proof.
  intros M. unfold window_new. replace (0 <? max) with true by lia. replace (max <? 2 ^ 63) with true by lia. rewrite Z.leb_refl. cbn [assert_ guard bind].
  eexists. split; [reflexivity|]. unfold advance_cursor. cbn [w_size w_max w_buffer w_cursor w_start]. replace (0 <? max) with true by lia. cbn [assert_ guard bind].
  assert (L : zlen (repeat 0 (Z.to_nat max)) = max) by (unfold zlen; rewrite repeat_length; lia). rewrite L, Z.eqb_refl.
  unfold index_increment, index_add. cbn [w_max w_buffer]. rewrite add_ok by (ib; lia). cbn [bind]. replace (max <=? max - 1 + 1) with true by lia.
  rewrite L, Z.eqb_refl. cbn [assert_ guard bind]. rewrite sub_ok by (ib; lia). cbn [bind]. unfold set_byte_at_cursor. cbn [w_buffer w_cursor w_start w_size w_max].
  rewrite set_ok by lia. cbn [bind w_buffer w_cursor w_start w_size w_max]. rewrite zlen_zupd, L, Z.eqb_refl. cbn [assert_ guard bind w_buffer w_cursor w_start w_size w_max].
  rewrite add_ok by (ib; lia). cbn [bind]. unfold check_size_invariants. cbn [w_buffer w_cursor w_start w_size w_max]. replace (0 + 1 <=? max) with true by lia. cbn [assert_ guard bind].
  change (1 <? 0 + 1) with false. change (0 + 1 =? 1) with true. cbv iota. replace (max =? max - 1 + 1 - max) with false by lia. reflexivity.
Qed.
Lemma large_shift_fails max shift : 0 < max < 2 ^ 63 -> max < shift -> window_new max shift = Fail EAssert.
Proof.
  intros M S. unfold window_new. replace (0 <? max) with true by lia. replace (max <? 2 ^ 63) with true by lia. replace (shift <=? max) with false by lia. reflexivity.
Qed.
