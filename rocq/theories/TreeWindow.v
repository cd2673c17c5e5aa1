(** The window of the tree: addresses of positions in the text. *)
From Coq Require Import ZifyBool.
From Verif Require Import Base BaseFacts WindowModel WindowSpec WindowProofs HistSpec HistProofs FatProofs TrieProofs.
Ltac Zify.zify_post_hook ::= Z.div_mod_to_equations.

(** The text from byte [q] on. *)
Definition sufx (text : list bit) (q : Z) : list bit := skipn (Z.to_nat (8 * q)) text.
Lemma sufx_len text q : 0 <= q -> zlen (sufx text q) = Z.max 0 (zlen text - 8 * q).
Proof. intros Q. unfold sufx, zlen. rewrite skipn_length. lia. Qed.
Lemma nth_skipn {A} n k (l : list A) d : nth n (skipn k l) d = nth (k + n) l d.
Proof. revert l. induction k as [|k IH]; intros l; [reflexivity|]. destruct l; [now destruct n|]. cbn [skipn plus nth]. apply IH. Qed.
Lemma sufx_nth text q d : 0 <= q -> 0 <= d -> nth (Z.to_nat d) (sufx text q) Zero = nth (Z.to_nat (8 * q + d)) text Zero.
Proof. intros Q D. unfold sufx. rewrite nth_skipn. f_equal. lia. Qed.
Lemma sufx_skip text q k : 0 <= q -> 0 <= k -> skipn (Z.to_nat (8 * k)) (sufx text q) = sufx text (q + k).
Proof. intros Q K. unfold sufx. rewrite skipn_skipn. f_equal. lia. Qed.
Lemma sufx_app text b q : 0 <= q -> 8 * q <= zlen text -> sufx (text ++ [b]) q = sufx text q ++ [b].
Proof. intros Q L. unfold sufx, zlen in *. rewrite skipn_app. replace (Z.to_nat (8 * q) - length text)%nat with 0%nat by lia. reflexivity. Qed.
Lemma sufx_end text q : zlen text <= 8 * q -> sufx text q = [].
Proof. intros L. unfold sufx, zlen in *. apply skipn_all2. lia. Qed.

Section Win.
  Variables (m shift : Z).
  Hypothesis M : 0 < m <= 2 ^ 31.
  Hypothesis SH : 0 <= shift < m.
  Definition addr (p : Z) : Z := place m shift p.
  Lemma addr_range p : 0 <= addr p < m. Proof. apply place_range. lia. Qed.
  Lemma addr_far lo p : place m (addr lo) p = addr (lo + p). Proof. apply place_add. lia. Qed.
  Lemma addr_inj p q : - m < p - q < m -> addr p = addr q -> p = q.
  Proof.
    intros R E. destruct (Z.le_ge_cases p q) as [L|L].
    - assert (X : place m (addr p) 0 = place m (addr p) (q - p)) by (rewrite !addr_far; replace (p + 0) with p by lia; replace (p + (q - p)) with q by lia; exact E).
      apply place_inj in X; try lia. apply addr_range.
    - assert (X : place m (addr q) 0 = place m (addr q) (p - q)) by (rewrite !addr_far; replace (q + 0) with q by lia; replace (q + (p - q)) with p by lia; symmetry; exact E).
      apply place_inj in X; try lia. apply addr_range.
  Qed.
  Record win (text : list bit) (lo hi : Z) (w : window) : Prop := {
    wn_bytes : exists bytes, tape m (addr lo) (sufx text lo) bytes w /\ zlen bytes = hi - lo + 1;
    wn_lo : 0 <= lo <= hi + 1;
    wn_len : 8 * hi <= zlen text <= 8 * hi + 8 }.
  Section Facts.
    Variables (text : list bit) (lo hi : Z) (w : window).
    Hypothesis W : win text lo hi w.
    Lemma win_fits : hi - lo + 1 <= m.
    Proof. destruct W as [(bytes & (R & _) & L) _ _]. rewrite <- L. apply (rp_fits _ _ _ _ R). Qed.
    Lemma win_max : w_max w = m. Proof. destruct W as [(bytes & (R & _) & L) _ _]. apply (rp_max _ _ _ _ R). Qed.
    Lemma win_start : w_start w = addr lo. Proof. destruct W as [(bytes & (R & _) & L) _ _]. apply (rp_start _ _ _ _ R). Qed.
    Lemma win_size : w_size w = hi - lo + 1. Proof. destruct W as [(bytes & (R & _) & L) _ _]. rewrite <- L. apply (rp_size _ _ _ _ R). Qed.
    Lemma win_cursor : w_cursor w = addr hi.
    Proof. destruct W as [(bytes & (R & _) & L) _ _]. rewrite (rp_cursor _ _ _ _ R), addr_far, L. f_equal. lia. Qed.
    Lemma win_add p n : lo <= p -> 0 <= n -> p + n <= hi + 1 -> index_add w (addr p) n = Ok (addr (p + n)).
    Proof.
      intros P N B. destruct W as [(bytes & (R & _) & L) _ _]. replace p with (lo + (p - lo)) at 1 by lia. rewrite <- addr_far. rewrite (index_add_ok _ _ _ _ _ _ R) by lia. rewrite addr_far. do 2 f_equal. lia.
    Qed.
    Lemma win_sub p n : 0 <= n -> lo <= p - n -> p <= hi -> index_subtract w (addr p) n = Ok (addr (p - n)).
    Proof.
      intros N P B. destruct W as [(bytes & (R & _) & L) _ _]. replace p with (lo + (p - lo)) at 1 by lia. rewrite <- addr_far. rewrite (index_subtract_ok _ _ _ _ _ _ R) by lia. rewrite addr_far. do 2 f_equal. lia.
    Qed.
    Lemma win_diff p q : lo <= q <= p -> p <= hi -> index_diff w (addr p) (addr q) = Ok (p - q).
    Proof.
      intros Q P. destruct W as [(bytes & (R & _) & L) _ _]. replace p with (lo + (p - lo)) at 1 by lia. replace q with (lo + (q - lo)) at 1 by lia. rewrite <- !addr_far.
      rewrite (index_diff_ok _ _ _ _ _ _ R) by lia. f_equal. lia.
    Qed.
    Lemma win_smaller q p : lo <= q <= hi -> lo <= p <= hi -> index_is_smaller w (addr q) (addr p) = Ok (q <? p).
    Proof.
      intros Q P. pose proof win_fits. destruct W as [(bytes & (R & _) & L) _ _]. replace p with (lo + (p - lo)) at 1 by lia. replace q with (lo + (q - lo)) at 1 by lia. rewrite <- !addr_far.
      rewrite (index_smaller_ok _ _ _ _ _ _ R) by lia. f_equal. lia.
    Qed.
    Lemma win_bit p k : lo <= p <= hi -> 0 <= k <= 7 -> 8 * p + (7 - k) < zlen text -> window_bit w (addr p) k = Ok (nth (Z.to_nat (7 - k)) (sufx text p) Zero).
    Proof.
      intros P K L. destruct W as [(bytes & T & LB) (L0 & _) _]. replace p with (lo + (p - lo)) at 1 by lia. rewrite <- addr_far. rewrite (tape_bit _ _ _ _ _ _ _ T) by (try rewrite sufx_len; lia).
      f_equal. rewrite !sufx_nth by lia. do 2 f_equal. lia.
    Qed.
    Lemma win_bit_at p d : lo <= p -> 0 <= d -> 8 * p + d < zlen text -> window_bit w (addr (p + d / 8)) (7 - d mod 8) = Ok (nth (Z.to_nat d) (sufx text p) Zero).
    Proof.
      intros P D L. destruct (wn_len _ _ _ _ W) as (_ & LT). pose proof (wn_lo _ _ _ _ W). rewrite win_bit by lia. f_equal. rewrite !sufx_nth by lia. do 2 f_equal. lia.
    Qed.
    Lemma win_byte p : lo <= p <= hi -> exists x, byte_at w (addr p) = Ok x.
    Proof.
      intros P. destruct W as [(bytes & (R & _) & L) _ _]. destruct (znth_lt bytes (p - lo) ltac:(lia)) as (x & X). exists x. apply get_ok. replace p with (lo + (p - lo)) by lia. rewrite <- addr_far.
      rewrite (rp_at _ _ _ _ R) by lia. exact X.
    Qed.
    Lemma win_differ p q k : lo <= p <= hi -> lo <= q <= hi -> 0 <= k <= 7 -> 8 * p + (7 - k) < zlen text -> 8 * q + (7 - k) < zlen text ->
      bytes_differ_on w (addr p) (addr q) k = Ok (xorb (nth (Z.to_nat (7 - k)) (sufx text p) Zero) (nth (Z.to_nat (7 - k)) (sufx text q) Zero)).
    Proof.
      intros P Q K LP LQ. pose proof (win_bit p k P K LP) as BP. pose proof (win_bit q k Q K LQ) as BQ. unfold window_bit in BP, BQ. unfold bytes_differ_on.
      destruct (win_byte p P) as (x & X), (win_byte q Q) as (y & Y). rewrite X in *. rewrite Y in *. cbn [bind] in *. rewrite get_bit_ok in * by lia.
      assert (EP : bit_at x k = nth (Z.to_nat (7 - k)) (sufx text p) Zero) by congruence. assert (EQ : bit_at y k = nth (Z.to_nat (7 - k)) (sufx text q) Zero) by congruence.
      rewrite <- EP, <- EQ. f_equal. apply bit_at_lxor. lia.
    Qed.
  End Facts.
  Lemma win_push text lo hi w : win text lo hi w -> zlen text = 8 * hi + 8 -> hi - lo + 1 < m -> exists w', advance_cursor w = Ok w' /\ win text lo (hi + 1) w'.
  Proof.
    intros [(bytes & T & L) L0 LT] E F. destruct (tape_push _ _ _ _ _ T ltac:(lia)) as (w' & A & T'). exists w'. split; [exact A|]. split; [|lia|lia]. exists (bytes ++ [0]). split; [exact T'|]. rewrite zlen_app, zlen_one. lia.
  Qed.
  Lemma win_set text lo hi w b u : win text lo hi w -> lo <= hi -> u = zlen text - 8 * hi -> u < 8 -> exists w', set_bit_at_cursor w b (7 - u) = Ok w' /\ win (text ++ [b]) lo hi w'.
  Proof.
    intros [(bytes & T & L) L0 LT] B U F. pose proof (sufx_len text lo ltac:(lia)) as SL. destruct (tape_set _ _ _ _ _ b T ltac:(rewrite SL; lia)) as (w' & bytes' & A & T' & L').
    exists w'. split; [rewrite <- A; f_equal; rewrite SL; lia|]. split; [|lia|rewrite zlen_app, zlen_one; lia]. exists bytes'. split; [|lia]. rewrite sufx_app by lia. exact T'.
  Qed.
  Lemma win_drop text lo hi w : win text lo hi w -> lo <= hi -> zlen text = 8 * hi + 8 -> exists w', advance_start w = Ok w' /\ win text (lo + 1) hi w' /\
    (hi - lo + 1 = m -> exists c, index_increment w' (w_cursor w') = Ok c /\ byte_at w' c = Ok 0).
  Proof.
    intros [(bytes & T & L) L0 LT] B E. destruct T as (R & TL & BS). destruct bytes as [|x bytes]; [rewrite zlen_nil in L; lia|]. rewrite zlen_cons in L. pose proof (zlen_nonneg bytes).
    pose proof (sufx_len text lo ltac:(lia)) as SL.
    destruct (drop_ok _ _ _ _ _ R) as (w' & A & R'). exists w'. split; [exact A|]. split.
    - split; [|lia|lia]. exists bytes. split; [|lia]. rewrite addr_far in R'. split; [exact R'|]. pose proof (sufx_len text (lo + 1) ltac:(lia)) as SL1. split; [lia|].
      pose proof (sufx_skip text lo 1 ltac:(lia) ltac:(lia)) as SK. replace (8 * zlen bytes - zlen (sufx text (lo + 1))) with 0 by lia. cbn [Z.to_nat repeat]. rewrite app_nil_r.
      replace (8 * zlen (x :: bytes) - zlen (sufx text lo)) with 0 in BS by (rewrite zlen_cons; lia). cbn [Z.to_nat repeat] in BS. rewrite app_nil_r in BS. rewrite <- SK, <- BS.
      change (Z.to_nat (8 * 1)) with (8 * 1)%nat. now rewrite skip_bytes.
    - intros F. exists (addr lo). unfold advance_start in A. rewrite (rp_size _ _ _ _ R), zlen_cons in A. replace (1 + zlen bytes =? 0) with false in A by lia. cbn [negb assert_ guard bind] in A.
      rewrite (rp_start _ _ _ _ R) in A. pose proof (rp_buffer _ _ _ _ R) as RB. pose proof (addr_range lo) as AR. rewrite zlen_cons in RB. rewrite set_ok in A by lia. cbn [bind w_buffer w_start w_cursor w_size w_max] in A.
      destruct (index_increment _ _) as [st|] eqn:IX in A; cbn [bind] in A; [|discriminate]. destruct (sub usize _ _) as [sz|] in A; cbn [bind] in A; [|discriminate].
      destruct (check_size_invariants _) in A; cbn [bind] in A; [|discriminate]. injection A as A. rewrite <- A. cbn [w_cursor]. split.
      + unfold index_increment, index_add. cbn [w_max w_buffer]. rewrite (rp_cursor _ _ _ _ R), zlen_cons, zlen_zupd, (rp_max _ _ _ _ R). rewrite addr_far. pose proof (addr_range (lo + (1 + zlen bytes - 1))) as CR.
        rewrite add_ok by (ib; lia). cbn [bind].
        assert (PE : addr lo = place m (addr (lo + (1 + zlen bytes - 1))) 1).
        { rewrite addr_far. replace (lo + (1 + zlen bytes - 1) + 1) with (lo + m) by lia. unfold addr, place. rewrite Z.add_assoc. rewrite <- (Z.mod_add (shift + lo) 1 m) by lia. f_equal. lia. }
        rewrite PE. rewrite place_eq by lia. destruct (Z.ltb_spec (addr (lo + (1 + zlen bytes - 1)) + 1) m) as [LT'|GE].
        * replace (m <=? addr (lo + (1 + zlen bytes - 1)) + 1) with false by lia. reflexivity.
        * replace (m <=? addr (lo + (1 + zlen bytes - 1)) + 1) with true by lia. rewrite assert_true by lia. cbn [bind]. rewrite sub_ok by (ib; lia). reflexivity.
      + unfold byte_at. cbn [w_buffer]. apply get_ok. apply znth_zupd_same. lia.
  Qed.
  Lemma win_new : exists w, window_new m shift = Ok w /\ win [] 0 (-1) w.
  Proof.
    destruct (new_ok m shift ltac:(lia) SH) as (w & E & R). exists w. split; [exact E|]. split; [|lia|rewrite zlen_nil; lia]. exists []. split; [|reflexivity].
    unfold represents in R. cbn [WindowSpec.q_dropped WindowSpec.q_bytes] in R. split; [exact R|]. split; [reflexivity|]. reflexivity.
  Qed.
End Win.
