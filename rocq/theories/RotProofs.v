(** Proofs for C68: where the window starts in its buffer does not matter. *)
From Coq Require Import ZifyBool.
From Verif Require Import Base BaseFacts StateModel EstModel LogModel StatesModel StatesSpec StatesProofs WindowModel WindowSpec WindowProofs NodesModel NodesProofs TrieProofs HistModel HistSpec HistProofs FatProofs TreeStats TreeModel TreeSpec TreeWindow TreeLoop TreeRun TreeFacts.
Ltac Zify.zify_post_hook ::= Z.div_mod_to_equations.

Ltac two E E' x X x' X' := apply bind_ok in E; destruct E as (x & X & E); apply bind_ok in E'; destruct E' as (x' & X' & E').
Ltac same X X' := rewrite X in X'; injection X' as <-.
Ltac skip E E' := let u := fresh in let u' := fresh in apply bind_ok in E; destruct E as (u & _ & E); apply bind_ok in E'; destruct E' as (u' & _ & E').

Lemma add_inv t a b r : add t a b = Ok r -> r = a + b /\ imin t <= a + b <= imax t. Proof. exact (chk_inv t (a + b) r). Qed.
Lemma sub_inv t a b r : sub t a b = Ok r -> r = a - b /\ imin t <= a - b <= imax t. Proof. exact (chk_inv t (a - b) r). Qed.

Section Rot.
  Variables (m d : Z).
  Hypothesis M : 0 < m <= 2 ^ 31.
  Hypothesis D : 0 <= d < m.
  (** The same place, [d] further in the buffer. *)
  Definition rel (i i' : Z) : Prop := 0 <= i < m /\ 0 <= i' < m /\ (i' = i + d \/ i' = i + d - m).
  Lemma rel_eqb a a' b b' : rel a a' -> rel b b' -> (a =? b) = (a' =? b').
  Proof. unfold rel. lia. Qed.
  Lemma rel_inj a b c : rel a c -> rel b c -> a = b.
  Proof. unfold rel. lia. Qed.
  Lemma rel_fun a b c : rel a b -> rel a c -> b = c.
  Proof. unfold rel. lia. Qed.

  (** ** The window *)
  Definition brel (b b' : list Z) : Prop := forall i i' x x', rel i i' -> znth b i = Some x -> znth b' i' = Some x' -> x = x'.
  Definition own (w : window) : Prop := w_max w = m /\ zlen (w_buffer w) <= m /\ (zlen (w_buffer w) < m -> w_cursor w + 1 = zlen (w_buffer w) \/ (w_cursor w = m - 1 /\ zlen (w_buffer w) = 0)).
  Definition wrel (w w' : window) : Prop := own w /\ own w' /\ rel (w_start w) (w_start w') /\ rel (w_cursor w) (w_cursor w') /\ w_size w = w_size w' /\ brel (w_buffer w) (w_buffer w').
  Lemma brel_set b b' i i' v : rel i i' -> 0 <= i < zlen b -> 0 <= i' < zlen b' -> brel b b' -> brel (zupd b i v) (zupd b' i' v).
  Proof.
    intros R I I' B j j' x x' J X X'. destruct (Z.eq_dec i j) as [<-|N].
    - pose proof (rel_fun _ _ _ J R). subst j'. rewrite znth_zupd_same in X, X' by assumption. congruence.
    - assert (i' <> j') by (intros <-; apply N; symmetry; exact (rel_inj _ _ _ J R)). rewrite znth_zupd_other in X, X' by assumption. exact (B j j' x x' J X X').
  Qed.
  Lemma add_rel w w' i i' k r r' : wrel w w' -> rel i i' -> 0 <= r < m -> 0 <= r' < m -> index_add w i k = Ok r -> index_add w' i' k = Ok r' -> rel r r'.
  Proof.
    intros ((MX & _) & (MX' & _) & _) R I I' E E'. unfold index_add in *. rewrite MX in E. rewrite MX' in E'. two E E' x X x' X'. apply add_inv in X. apply add_inv in X'. destruct X as (-> & _). destruct X' as (-> & _).
    destruct (m <=? i + k) eqn:C; [apply bind_ok in E; destruct E as ([] & _ & E); apply sub_inv in E; destruct E as (-> & _)|injection E as <-]; (destruct (m <=? i' + k) eqn:C'; [apply bind_ok in E'; destruct E' as ([] & _ & E'); apply sub_inv in E'; destruct E' as (-> & _)|injection E' as <-]); unfold rel in *; lia.
  Qed.
  Lemma add_range w i k r : w_max w = m -> 0 <= i < m -> 0 <= k <= m -> index_add w i k = Ok r -> 0 <= r < m.
  Proof.
    intros MX I K E. unfold index_add in E. rewrite MX in E. apply bind_ok in E. destruct E as (x & X & E). apply add_inv in X. destruct X as (-> & _).
    destruct (m <=? i + k) eqn:C; [apply bind_ok in E; destruct E as ([] & _ & E); apply sub_inv in E; destruct E as (-> & _)|injection E as <-]; lia.
  Qed.
  Lemma sub_range w i k r : w_max w = m -> 0 <= i < m -> 0 <= k -> index_subtract w i k = Ok r -> 0 <= r < m /\ (r = i - k \/ r = i + m - k).
  Proof.
    intros MX I K E. unfold index_subtract in E. rewrite MX in E. destruct (k <=? i) eqn:C; [apply sub_inv in E; destruct E as (-> & _); lia|]. apply bind_ok in E. destruct E as ([] & _ & E). apply bind_ok in E. destruct E as (x & X & E). apply add_inv in X. destruct X as (-> & _). apply sub_inv in E. destruct E as (-> & RG). cbn [usize imin imax] in RG. rewrite imin_usize in RG. lia.
  Qed.
  Lemma sub_rel w w' i i' k r r' : wrel w w' -> rel i i' -> 0 <= k -> index_subtract w i k = Ok r -> index_subtract w' i' k = Ok r' -> rel r r'.
  Proof. intros ((MX & _) & (MX' & _) & _) R K E E'. apply sub_range in E; try assumption; [|apply R]. apply sub_range in E'; try assumption; [|apply R]. unfold rel in *. lia. Qed.
  Lemma diff_rel w w' a a' b b' r r' : wrel w w' -> rel a a' -> rel b b' -> index_diff w a b = Ok r -> index_diff w' a' b' = Ok r' -> r = r'.
  Proof. intros ((MX & _) & (MX' & _) & _) R K E E'. apply sub_range in E; try assumption; [|apply R|apply K]. apply sub_range in E'; try assumption; [|apply R|apply K]. unfold rel in *. lia. Qed.
  Lemma byte_range w i x : own w -> byte_at w i = Ok x -> 0 <= i < m.
  Proof. intros (_ & L & _) E. apply get_inv in E. apply znth_Some in E. lia. Qed.
  Lemma byte_rel w w' i i' x x' : wrel w w' -> rel i i' -> byte_at w i = Ok x -> byte_at w' i' = Ok x' -> x = x'.
  Proof. intros (_ & _ & _ & _ & _ & B) R E E'. apply get_inv in E. apply get_inv in E'. exact (B _ _ _ _ R E E'). Qed.
  Lemma bit_rel w w' i i' k x x' : wrel w w' -> rel i i' -> window_bit w i k = Ok x -> window_bit w' i' k = Ok x' -> x = x'.
  Proof. intros W R E E'. unfold window_bit in *. two E E' y Y y' Y'. rewrite (byte_rel _ _ _ _ _ _ W R Y Y') in E. congruence. Qed.
  Lemma bit_range w i k x : own w -> window_bit w i k = Ok x -> 0 <= i < m.
  Proof. intros O E. unfold window_bit in E. apply bind_ok in E. destruct E as (y & Y & _). exact (byte_range _ _ _ O Y). Qed.
  (** A place counted from another one and looked at there *)
  Lemma added_bit w w' i i' k r r' n x x' : wrel w w' -> rel i i' -> index_add w i k = Ok r -> index_add w' i' k = Ok r' -> window_bit w r n = Ok x -> window_bit w' r' n = Ok x' -> x = x'.
  Proof.
    intros W R A A' E E'. pose proof (bit_range _ _ _ _ (proj1 W) E) as P. pose proof (bit_range _ _ _ _ (proj1 (proj2 W)) E') as P'. exact (bit_rel _ _ _ _ _ _ _ W (add_rel _ _ _ _ _ _ _ W R P P' A A') E E').
  Qed.
  Lemma added_differ w w' i i' k r r' n x x' : wrel w w' -> rel i i' -> index_add w i k = Ok r -> index_add w' i' k = Ok r' -> bytes_differ_on w r (w_cursor w) n = Ok x -> bytes_differ_on w' r' (w_cursor w') n = Ok x' -> x = x'.
  Proof.
    intros W R A A' E E'. unfold bytes_differ_on in *. two E E' y Y y' Y'. pose proof (byte_range _ _ _ (proj1 W) Y) as P. pose proof (byte_range _ _ _ (proj1 (proj2 W)) Y') as P'. two E E' z ZZ z' ZZ'.
    rewrite (byte_rel _ _ _ _ _ _ W (add_rel _ _ _ _ _ _ _ W R P P' A A') Y Y') in E. rewrite (byte_rel _ _ _ _ _ _ W (proj1 (proj2 (proj2 (proj2 W)))) ZZ ZZ') in E. congruence.
  Qed.
  Lemma subbed_differ w w' r r' n x x' : wrel w w' -> rel r r' -> bytes_differ_on w r (w_cursor w) n = Ok x -> bytes_differ_on w' r' (w_cursor w') n = Ok x' -> x = x'.
  Proof.
    intros W R E E'. unfold bytes_differ_on in *. two E E' y Y y' Y'. two E E' z ZZ z' ZZ'.
    rewrite (byte_rel _ _ _ _ _ _ W R Y Y') in E. rewrite (byte_rel _ _ _ _ _ _ W (proj1 (proj2 (proj2 (proj2 W)))) ZZ ZZ') in E. congruence.
  Qed.
  Lemma own_buffer w b : own w -> zlen b = zlen (w_buffer w) -> own (mkWindow b (w_start w) (w_cursor w) (w_size w) (w_max w)).
  Proof. intros (A & B & C) E. unfold own. cbn [w_buffer w_cursor w_max]. rewrite E. auto. Qed.
  Lemma set_rel w w' b k r r' : wrel w w' -> set_bit_at_cursor w b k = Ok r -> set_bit_at_cursor w' b k = Ok r' -> wrel r r'.
  Proof.
    intros W E E'. unfold set_bit_at_cursor in *. two E E' fl FL fl' FL'. same FL FL'. two E E' x X x' X'. pose proof (byte_rel w w' _ _ _ _ W (proj1 (proj2 (proj2 (proj2 W)))) X X') as ->. two E E' v V v' V'. same V V'. two E E' u Q u' Q'. injection E as <-. injection E' as <-.
    apply set_inv in Q. apply set_inv in Q'. destruct Q as (Q & ->). destruct Q' as (Q' & ->). destruct W as (O & O' & S & C & ZZ & B). split; [apply own_buffer; [exact O|now rewrite zlen_zupd]|]. split; [apply own_buffer; [exact O'|now rewrite zlen_zupd]|]. split; [exact S|]. split; [exact C|]. split; [exact ZZ|]. cbn [w_buffer]. now apply brel_set.
  Qed.
  Lemma start_rel w w' r r' : wrel w w' -> advance_start w = Ok r -> advance_start w' = Ok r' -> wrel r r'.
  Proof.
    intros W E E'. pose proof W as (O & O' & S & C & ZZ & B). unfold advance_start in *. skip E E'. two E E' u Q u' Q'. apply set_inv in Q. apply set_inv in Q'. destruct Q as (Q & ->). destruct Q' as (Q' & ->).
    assert (W1 : wrel (mkWindow (zupd (w_buffer w) (w_start w) 0) (w_start w) (w_cursor w) (w_size w) (w_max w)) (mkWindow (zupd (w_buffer w') (w_start w') 0) (w_start w') (w_cursor w') (w_size w') (w_max w'))).
    { split; [apply own_buffer; [exact O|now rewrite zlen_zupd]|]. split; [apply own_buffer; [exact O'|now rewrite zlen_zupd]|]. split; [exact S|]. split; [exact C|]. split; [exact ZZ|]. cbn [w_buffer]. now apply brel_set. }
    two E E' st ST st' ST'. two E E' sz SZ sz' SZ'. cbn [w_buffer w_start w_cursor w_size w_max] in *. rewrite <- ZZ in SZ'. same SZ SZ'. skip E E'. injection E as <-. injection E' as <-.
    destruct W1 as (O1 & O1' & _ & _ & _ & B1). split; [exact O1|]. split; [exact O1'|]. cbn [w_buffer w_start w_cursor w_size w_max]. split; [|auto]. unfold index_increment in ST, ST'.
    refine (add_rel _ _ _ _ _ _ _ _ S _ _ ST ST'); [split; [exact O1|split; [exact O1'|auto]]|apply (add_range _ _ 1 _ (proj1 O1) (proj1 S) ltac:(lia) ST)|apply (add_range _ _ 1 _ (proj1 O1') (proj1 (proj2 S)) ltac:(lia) ST')].
  Qed.
  (** Where the cursor goes and what is there afterwards *)
  Lemma pushed w r : own w -> 0 <= w_cursor w < m -> advance_cursor w = Ok r -> own r /\ w_start r = w_start w /\ w_size r = w_size w + 1 /\ w_cursor r = (if w_cursor w + 1 =? m then 0 else w_cursor w + 1) /\
    (forall i, i <> w_cursor r -> forall x, znth (w_buffer r) i = Some x -> znth (w_buffer w) i = Some x) /\ znth (w_buffer r) (w_cursor r) = Some 0.
  Proof.
    intros (MX & LN & GR) CR E. unfold advance_cursor in E. apply bind_ok in E. destruct E as ([] & _ & E). apply bind_ok in E. destruct E as (w1 & W1 & E). apply bind_ok in E. destruct E as (sz & SZ & E). apply bind_ok in E. destruct E as ([] & _ & E). injection E as <-. apply add_inv in SZ. destruct SZ as (-> & _). cbn [w_buffer w_start w_cursor w_size w_max].
    rewrite MX in W1. destruct (Z.eqb_spec (zlen (w_buffer w)) m) as [F|F].
    - apply bind_ok in W1. destruct W1 as (c & IC & W1). apply bind_ok in W1. destruct W1 as (w2 & SB & W1). apply bind_ok in W1. destruct W1 as ([] & _ & W1). injection W1 as <-. unfold set_byte_at_cursor in SB. apply bind_ok in SB. destruct SB as (bf & SB & X). injection X as <-. cbn [w_buffer w_start w_cursor w_size w_max] in *. apply set_inv in SB. destruct SB as (RG & ->).
      assert (CE : c = if w_cursor w + 1 =? m then 0 else w_cursor w + 1).
      { unfold index_increment, index_add in IC. rewrite MX in IC. apply bind_ok in IC. destruct IC as (x & X & IC). apply add_inv in X. destruct X as (-> & _). destruct (m <=? w_cursor w + 1) eqn:K; [apply bind_ok in IC; destruct IC as ([] & _ & IC); apply sub_inv in IC; destruct IC as (-> & _)|injection IC as <-]; destruct (Z.eqb_spec (w_cursor w + 1) m); lia. }
      unfold own. cbn [w_buffer w_start w_cursor w_size w_max]. rewrite zlen_zupd. split; [split; [first [exact MX|reflexivity]|split; [exact LN|lia]]|]. split; [reflexivity|]. split; [reflexivity|]. split; [exact CE|]. split; [|now apply znth_zupd_same].
      intros i N x X. rewrite znth_zupd_other in X by congruence. exact X.
    - apply bind_ok in W1. destruct W1 as ([] & _ & W1). apply bind_ok in W1. destruct W1 as (c & IC & W1). apply add_inv in IC. destruct IC as (-> & _). injection W1 as <-. cbn [w_buffer w_start w_cursor w_size w_max] in *. specialize (GR ltac:(lia)). pose proof (zlen_nonneg (w_buffer w)).
      assert (CE : (if w_cursor w + 1 =? m then 0 else w_cursor w + 1) = zlen (w_buffer w)) by (destruct (Z.eqb_spec (w_cursor w + 1) m); lia).
      unfold own. cbn [w_buffer w_start w_cursor w_size w_max]. rewrite zlen_app. change (zlen [0]) with 1. split; [split; [first [exact MX|reflexivity]|split; [lia|intros _; left; rewrite CE; lia]]|]. split; [reflexivity|]. split; [reflexivity|]. split; [reflexivity|]. rewrite CE. split.
      + intros i N x X. pose proof (znth_Some _ _ _ X) as RG. rewrite zlen_app in RG. change (zlen [0]) with 1 in RG. rewrite znth_app1 in X by lia. exact X.
      + rewrite znth_app2 by lia. now rewrite Z.sub_diag.
  Qed.
  Lemma push_rel w w' r r' : wrel w w' -> advance_cursor w = Ok r -> advance_cursor w' = Ok r' -> wrel r r'.
  Proof.
    intros (O & O' & S & C & ZZ & B) E E'. destruct (pushed _ _ O (proj1 C) E) as (A1 & A2 & A3 & A4 & A5 & A6). destruct (pushed _ _ O' (proj1 (proj2 C)) E') as (A1' & A2' & A3' & A4' & A5' & A6').
    assert (RC : rel (w_cursor r) (w_cursor r')) by (rewrite A4, A4'; unfold rel in *; destruct (Z.eqb_spec (w_cursor w + 1) m), (Z.eqb_spec (w_cursor w' + 1) m); lia).
    split; [exact A1|]. split; [exact A1'|]. split; [rewrite A2, A2'; exact S|]. split; [exact RC|]. split; [lia|].
    intros i i' x x' R X X'. destruct (Z.eq_dec i (w_cursor r)) as [->|N].
    - pose proof (rel_fun _ _ _ R RC). subst i'. congruence.
    - assert (i' <> w_cursor r') by (intros ->; apply N; exact (rel_inj _ _ _ R RC)). exact (B i i' x x' R (A5 i N x X) (A5' i' ltac:(assumption) x' X')).
  Qed.

  (** ** The nodes *)
  Definition crel (c c' : Z) : Prop := (c < 0 /\ c' = c) \/ rel c c'.
  Definition nrel0 (n n' : node) : Prop :=
    (forall a, crel (nd_child n a) (nd_child n' a)) /\ nd_estimator n = nd_estimator n' /\ nd_trackers n = nd_trackers n' /\ nd_runs n = nd_runs n' /\ nd_recent n = nd_recent n' /\ nd_depth n = nd_depth n' /\ nd_left_count n = nd_left_count n' /\ nd_right_count n = nd_right_count n'.
  Definition nfull (n n' : node) : Prop := nrel0 n n' /\ rel (nd_text_start n) (nd_text_start n').
  Definition nrel (n n' : node) : Prop := nrel0 n n' /\ (nd_is_valid n = true -> rel (nd_text_start n) (nd_text_start n')).
  Definition nsrel (ns ns' : nodes) : Prop := zlen (ns_items ns) = zlen (ns_items ns') /\ (forall i n n', znth (ns_items ns) i = Some n -> znth (ns_items ns') i = Some n' -> nrel n n') /\
    ns_last_deleted ns = ns_last_deleted ns' /\ ns_removed ns = ns_removed ns' /\ ns_limit ns = ns_limit ns'.
  Definition alive (ns : nodes) (i : Z) : Prop := exists n, znth (ns_items ns) i = Some n /\ nd_is_valid n = true.
  Lemma full_nrel n n' : nfull n n' -> nrel n n'. Proof. intros (A & B). split; auto. Qed.
  Lemma crel_window c c' : crel c c' -> child_is_window_index c = child_is_window_index c'. Proof. unfold crel, rel, child_is_window_index. lia. Qed.
  Lemma crel_node c c' : crel c c' -> child_is_node_index c = child_is_node_index c'. Proof. unfold crel, rel, child_is_node_index. lia. Qed.
  Lemma crel_valid c c' : crel c c' -> child_is_valid c = child_is_valid c'. Proof. unfold crel, rel, child_is_valid, num_roots. lia. Qed.
  Lemma crel_invalid c c' : crel c c' -> (c =? child_invalid) = (c' =? child_invalid). Proof. unfold crel, rel, child_invalid. lia. Qed.
  Lemma to_node c c' j j' : crel c c' -> child_to_node_index c = Ok j -> child_to_node_index c' = Ok j' -> j = j' /\ c < 0 /\ j = - c - 1.
  Proof.
    intros R E E'. unfold child_to_node_index in *. apply bind_ok in E. destruct E as (? & A & E). apply bind_ok in E'. destruct E' as (? & A' & E'). injection E as <-. injection E' as <-. unfold assert_, guard in A, A'. destruct (c <? 0) eqn:Q; [|discriminate]. unfold crel, rel in R. lia.
  Qed.
  Lemma to_window c c' j j' : crel c c' -> child_to_window_index c = Ok j -> child_to_window_index c' = Ok j' -> rel j j'.
  Proof.
    intros R E E'. unfold child_to_window_index in *. apply bind_ok in E. destruct E as (? & A & E). apply bind_ok in E'. destruct E' as (? & A' & E'). injection E as <-. injection E' as <-. unfold assert_, guard in A, A'. destruct (0 <=? c) eqn:Q; [|discriminate]. unfold crel, rel in *. lia.
  Qed.
  Lemma of_window i i' c c' : rel i i' -> child_of_window_index i = Ok c -> child_of_window_index i' = Ok c' -> crel c c'.
  Proof. intros R E E'. unfold child_of_window_index in *. skip E E'. injection E as <-. injection E' as <-. now right. Qed.
  Lemma wrap_place i : 0 <= i < m -> wrap u32 i = i.
  Proof. intros R. unfold wrap. cbn [isigned ibits u32 andb]. apply Z.mod_small. pose proof M. change (2 ^ 31) with 2147483648 in *. change (2 ^ 32) with 4294967296. lia. Qed.
  Lemma valid_rel n n' : nrel0 n n' -> nd_is_valid n = nd_is_valid n'.
  Proof. intros (C & _). pose proof (crel_invalid _ _ (C false)). pose proof (crel_invalid _ _ (C true)). unfold nd_is_valid, nd_child in *. congruence. Qed.
  Lemma child_set n a c b : nd_child (nd_set_child n a c) b = if Bool.eqb a b then c else nd_child n b.
  Proof. unfold nd_set_child, nd_child. destruct (nd_children n) as (l & r) eqn:E. cbn [nd_children]. now destruct a, b. Qed.
  Lemma full_set_child n n' a c c' : nfull n n' -> crel c c' -> nfull (nd_set_child n a c) (nd_set_child n' a c').
  Proof.
    intros ((C & F) & T) R. split; [split|].
    - intros b. rewrite !child_set. destruct (Bool.eqb a b); [exact R|apply C].
    - unfold nd_set_child. destruct (nd_children n), (nd_children n'). exact F.
    - unfold nd_set_child. destruct (nd_children n), (nd_children n'). exact T.
  Qed.
  Lemma full_set_start n n' i i' : nrel0 n n' -> rel i i' -> nfull (nd_set_text_start n i) (nd_set_text_start n' i').
  Proof. intros (C & F) R. split; [split; [exact C|exact F]|exact R]. Qed.
  Lemma full_bit rates n n' b k r r' : nfull n n' -> nd_update_on_next_bit rates n b k = Ok r -> nd_update_on_next_bit rates n' b k = Ok r' -> nfull r r' /\ forall a, nd_child r a = nd_child n a.
  Proof.
    intros ((C & F1 & F2 & F3 & F4 & F5 & F6 & F7) & T) E E'. unfold nd_update_on_next_bit in *. rewrite <- F1, <- F3, <- F4, <- F5, <- F6, <- F7 in E'. two E E' l L l' L'. same L L'. two E E' q Q q' Q'. same Q Q'. two E E' u U u' U'. same U U'. two E E' v V v' V'. same V V'. two E E' e X e' X'. same X X'. injection E as <-. injection E' as <-.
    split; [|reflexivity]. split; [|exact T]. split; [exact C|]. repeat split.
  Qed.
  Lemma get_rel ns ns' i n n' : nsrel ns ns' -> nodes_get ns i = Ok n -> nodes_get ns' i = Ok n' -> nrel n n' /\ znth (ns_items ns) i = Some n.
  Proof. intros (_ & A & _) E E'. unfold nodes_get in *. two E E' x X x' X'. skip E E'. injection E as <-. injection E' as <-. apply get_inv in X. apply get_inv in X'. split; [exact (A _ _ _ X X')|exact X]. Qed.
  Lemma get_full ns ns' i n n' : nsrel ns ns' -> alive ns i -> nodes_get ns i = Ok n -> nodes_get ns' i = Ok n' -> nfull n n' /\ nd_is_valid n = true.
  Proof. intros R (x & X & V) E E'. destruct (get_rel _ _ _ _ _ R E E') as ((A & B) & ZZ). rewrite ZZ in X. injection X as ->. split; [split; [exact A|exact (B V)]|exact V]. Qed.
  Lemma update_rel ns ns' i n n' r r' : nsrel ns ns' -> nrel n n' -> nodes_update ns i n = Ok r -> nodes_update ns' i n' = Ok r' -> nsrel r r'.
  Proof.
    intros (L & A & F) R E E'. unfold nodes_update in *. two E E' x X x' X'. injection E as <-. injection E' as <-. apply set_inv in X. apply set_inv in X'. destruct X as (X & ->). destruct X' as (X' & ->). split; [cbn [ns_items]; rewrite !zlen_zupd; exact L|]. split; [|exact F].
    cbn [ns_items]. intros j a a' J J'. destruct (Z.eq_dec i j) as [<-|N]; [rewrite znth_zupd_same in J, J' by assumption; congruence|rewrite znth_zupd_other in J, J' by assumption; exact (A _ _ _ J J')].
  Qed.
  Lemma update_alive ns i n r j : nodes_update ns i n = Ok r -> nd_is_valid n = true -> alive ns j -> alive r j.
  Proof.
    intros E V (x & X & XV). unfold nodes_update in E. apply bind_ok in E. destruct E as (y & Y & E). injection E as <-. apply set_inv in Y. destruct Y as (Y & ->). unfold alive. cbn [ns_items].
    destruct (Z.eq_dec i j) as [<-|N]; [exists n; rewrite znth_zupd_same by assumption; auto|exists x; rewrite znth_zupd_other by assumption; auto].
  Qed.
  Lemma update_here ns i n r : nodes_update ns i n = Ok r -> nd_is_valid n = true -> alive r i.
  Proof. intros E V. unfold nodes_update in E. apply bind_ok in E. destruct E as (y & Y & E). injection E as <-. apply set_inv in Y. destruct Y as (Y & ->). exists n. cbn [ns_items]. rewrite znth_zupd_same by assumption. auto. Qed.
  Lemma set_nodes ns i n r : nodes_set ns i n = Ok r -> nodes_update ns i n = Ok r.
  Proof. intros E. unfold nodes_set in E. apply bind_ok in E. destruct E as ([] & _ & E). exact E. Qed.
  Lemma add_node_rel ns ns' n n' r r' : nsrel ns ns' -> nrel n n' -> nodes_add ns n = Ok r -> nodes_add ns' n' = Ok r' -> fst r = fst r' /\ fst r < 0 /\ nsrel (snd r) (snd r').
  Proof.
    intros R N E E'. pose proof R as (L & A & F1 & F2 & F3). unfold nodes_add in *. rewrite <- F1 in E'. destruct (ns_last_deleted ns) as [ld|].
    - rewrite <- F2 in E'. skip E E'. two E E' o OL o' OL'. destruct (get_rel _ _ _ _ _ R OL OL') as (((C & _) & _) & _). skip E E'. two E E' la LA la' LA'. rewrite <- (crel_valid _ _ (C true)) in LA'.
      assert (la' = la).
      { destruct (child_is_valid (nd_child o true)); [|congruence]. skip LA LA'. two LA LA' i IX i' IX'. destruct (to_node _ _ _ _ (C true) IX IX') as (<- & _). congruence. }
      subst la'. two E E' u U u' U'. two E E' c CC c' CC'. same CC CC'. injection E as <-. injection E' as <-. cbn [fst snd]. split; [reflexivity|]. split.
      + unfold child_of_node_index in CC. apply bind_ok in CC. destruct CC as (? & G & CC). injection CC as <-. unfold assert_, guard, num_roots in G. destruct ((1 <=? ld) && (ld <=? 2 ^ 31 - 1)) eqn:Q; [lia|discriminate].
      + refine (update_rel _ _ _ _ _ _ _ _ N U U'). split; [exact L|]. split; [exact A|]. cbn [ns_last_deleted ns_removed ns_limit]. rewrite F3. auto.
    - skip E E'. skip E E'. rewrite <- L in E'. two E E' c CC c' CC'. same CC CC'. injection E as <-. injection E' as <-. cbn [fst snd]. split; [reflexivity|]. split.
      + unfold child_of_node_index in CC. apply bind_ok in CC. destruct CC as (? & G & CC). injection CC as <-. pose proof (zlen_nonneg (ns_items ns)). lia.
      + split; [cbn [ns_items]; rewrite !zlen_app; rewrite L; reflexivity|]. split; [|cbn [ns_last_deleted ns_removed ns_limit]; rewrite ?F1, ?F2, ?F3; auto]. cbn [ns_items]. intros j a a' J J'. destruct (Z_lt_le_dec j (zlen (ns_items ns))) as [LT|GE].
        * rewrite znth_app1 in J, J' by lia. exact (A _ _ _ J J').
        * rewrite znth_app2 in J, J' by lia. rewrite <- L in J'. destruct (znth_Some _ _ _ J) as (_ & Q). change (zlen [n]) with 1 in Q. assert (J0 : j - zlen (ns_items ns) = 0) by lia. rewrite J0 in J, J'. cbn in J, J'. congruence.
  Qed.
  Lemma delete_rel ns ns' i r r' : nsrel ns ns' -> nodes_delete ns i = Ok r -> nodes_delete ns' i = Ok r' -> nsrel r r'.
  Proof.
    intros R E E'. pose proof R as (L & A & F1 & F2 & F3). unfold nodes_delete in *. rewrite <- F1 in E'. two E E' c CC c' CC'. same CC CC'. cbn [bind] in E, E'. two E E' x X x' X'. apply set_nodes in X. apply set_nodes in X'.
    assert (CN : c < 0).
    { destruct (ns_last_deleted ns) as [k|]; [|injection CC as <-; reflexivity]. unfold child_of_node_index in CC. apply bind_ok in CC. destruct CC as (? & G & CC). injection CC as <-. unfold assert_, guard, num_roots in G. destruct ((1 <=? k) && (k <=? 2 ^ 31 - 1)) eqn:Q; [lia|discriminate]. }
    assert (R1 : nsrel x x').
    { refine (update_rel _ _ _ _ _ _ _ R _ X X'). split; [|discriminate]. split; [|repeat split]. intros a. left. rewrite !child_set. destruct a; cbn [Bool.eqb]; split; [exact CN|reflexivity|reflexivity|reflexivity]. }
    destruct R1 as (L1 & A1 & G1 & G2 & G3). rewrite <- G2 in E'. two E E' q Q q' Q'. same Q Q'. injection E as <-. injection E' as <-. split; [exact L1|]. split; [exact A1|]. cbn [ns_last_deleted ns_removed ns_limit]. auto.
  Qed.

  (** ** Trees and contexts *)
  Definition cxrel (c c' : context) : Prop := rel (cx_suffix c) (cx_suffix c') /\ cx_node c = cx_node c' /\ cx_visits c = cx_visits c' /\ cx_in_leaf c = cx_in_leaf c' /\ cx_direction c = cx_direction c'.
  Definition csrel : list context -> list context -> Prop := Forall2 cxrel.
  Definition trel (tr tr' : tree) : Prop := nsrel (tr_nodes tr) (tr_nodes tr') /\ wrel (tr_window tr) (tr_window tr') /\ tr_proper tr = tr_proper tr'.
  (** The nodes that can be reached. *)
  Definition live (ns : nodes) (f : Z -> option node) : Prop := forall i n, f i = Some n -> znth (ns_items ns) i = Some n /\ nd_is_valid n = true /\ forall a, nd_child n a < 0 -> exists n', f (- nd_child n a - 1) = Some n'.
  Lemma live_alive ns f i : live ns f -> (exists n, f i = Some n) -> alive ns i.
  Proof. intros L (n & F). destruct (L i n F) as (A & B & _). exists n. auto. Qed.
  Lemma live_child ns f i n a : live ns f -> (exists n, f i = Some n) -> nodes_get ns i = Ok n -> nd_child n a < 0 -> exists n', f (- nd_child n a - 1) = Some n'.
  Proof. intros L (x & F) G C. destruct (L i x F) as (A & _ & B). unfold nodes_get in G. apply bind_ok in G. destruct G as (y & G & E). apply bind_ok in E. destruct E as (_ & _ & E). injection E as ->. apply get_inv in G. rewrite A in G. injection G as ->. exact (B a C). Qed.
  Lemma root_alive ns n : nodes_get ns root_index = Ok n -> alive ns root_index.
  Proof.
    intros G. unfold nodes_get in G. apply bind_ok in G. destruct G as (y & G & E). apply bind_ok in E. destruct E as ([] & Q & E). injection E as ->. apply get_inv in G. exists n. split; [exact G|].
    unfold assert_, guard in Q. change ((num_roots <=? root_index) || nd_is_valid n) with (nd_is_valid n) in Q. now destruct (nd_is_valid n).
  Qed.
  Lemma cs_len cs cs' : csrel cs cs' -> zlen cs = zlen cs'.
  Proof. induction 1 as [|c c' l l' _ _ IH]; [reflexivity|rewrite !zlen_cons; lia]. Qed.
  Lemma cs_nth cs cs' : csrel cs cs' -> forall i c c', znth cs i = Some c -> znth cs' i = Some c' -> cxrel c c'.
  Proof.
    intros R i c c' E E'. pose proof (znth_Some _ _ _ E) as B. rewrite znth_nth_error in E, E' by lia. revert E E'. generalize (Z.to_nat i). clear i B. induction R as [|x x' l l' X R IH]; intros [|k] E E'; try discriminate; cbn [nth_error] in *; [congruence|eauto].
  Qed.
  Lemma cs_set cs cs' i c c' : csrel cs cs' -> cxrel c c' -> csrel (zupd cs i c) (zupd cs' i c').
  Proof.
    intros R X. revert i. induction R as [|x x' l l' Y R IH]; intros i; cbn [zupd]; [constructor|]. destruct (i =? 0); constructor; try assumption. apply IH.
  Qed.
  Lemma cs_first cs cs' k : csrel cs cs' -> csrel (firstn k cs) (firstn k cs').
  Proof. intros R. revert k. induction R as [|x x' l l' X R IH]; intros [|k]; cbn [firstn]; constructor; [exact X|apply IH]. Qed.
  Lemma cs_butlast cs cs' : csrel cs cs' -> csrel (removelast cs) (removelast cs').
  Proof. induction 1 as [|x x' l l' X R IH]; cbn [removelast]; [constructor|]. inversion R; subst; [constructor|]. constructor; [exact X|exact IH]. Qed.
  Lemma cs_rev cs cs' : csrel cs cs' -> csrel (rev cs) (rev cs').
  Proof. induction 1 as [|x x' l l' X R IH]; cbn [rev]; [constructor|]. apply Forall2_app; [exact IH|]. constructor; [exact X|constructor]. Qed.
  Lemma cs_exists cs cs' g : csrel cs cs' -> (forall c c', cxrel c c' -> g c = g c') -> existsb g cs = existsb g cs'.
  Proof. intros R G. induction R as [|x x' l l' X R IH]; [reflexivity|]. cbn [existsb]. now rewrite (G _ _ X), IH. Qed.
  Lemma cs_redirect cs cs' j g : csrel cs cs' -> (forall c c', cxrel c c' -> cxrel (g c) (g c')) -> csrel (redirect j g cs) (redirect j g cs').
  Proof. intros R G. unfold redirect. induction R as [|x x' l l' X R IH]; cbn [map]; constructor; [|exact IH]. pose proof X as (_ & <- & _). destruct (cx_node x =? j); [now apply G|exact X]. Qed.
  Lemma cs_drop start start' : rel start start' -> forall cs cs', csrel cs cs' -> forall o n r r', drop_contexts start cs o n = Ok r -> drop_contexts start' cs' o n = Ok r' -> r = r'.
  Proof.
    intros S cs cs'. induction 1 as [|x x' l l' X R IH]; intros o n r r' E E'; cbn [drop_contexts] in *; [congruence|]. rewrite (rel_eqb _ _ _ _ (proj1 X) S) in E. two E E' c C c' C'. same C C'. exact (IH _ _ _ _ E E').
  Qed.

  Variable t : luts.
  Lemma descend_rel tr tr' f cx cx' o k trk r r' : trel tr tr' -> cxrel cx cx' -> 0 <= o -> live (tr_nodes tr) f -> (exists n, f (cx_node cx) = Some n) ->
    descend t tr cx o k trk = Ok r -> descend t tr' cx' o k trk = Ok r' -> trel (fst r) (fst r') /\ cxrel (snd r) (snd r').
  Proof.
    intros (N & W & TP) (CS & CN & CV & CL & CD) OO LV FN E E'. unfold descend in *. rewrite <- CN, <- CL in E'. pose proof W as (_ & _ & _ & WC & _). skip E E'. two E E' b B b' B'. pose proof (bit_rel _ _ _ _ _ _ _ W WC B B') as ->.
    two E E' n G n' G'. destruct (get_full _ _ _ _ _ N (live_alive _ _ _ LV FN) G G') as (F & V). pose proof F as ((_ & _ & _ & _ & _ & _ & FL & FR) & _).
    two E E' n1 U n1' U'. destruct (full_bit _ _ _ _ _ _ _ F U U') as (F1 & C1). assert (V1 : nd_is_valid n1 = true) by (unfold nd_is_valid; pose proof (C1 false) as C0; specialize (C1 true); unfold nd_child in C0, C1; rewrite C0, C1; exact V).
    two E E' s1 S1 s1' S1'. apply set_nodes in S1. apply set_nodes in S1'. pose proof (update_rel _ _ _ _ _ _ _ N (full_nrel _ _ F1) S1 S1') as N1.
    two E E' n2 G2 n2' G2'. pose proof (update_here _ _ _ _ S1 V1) as AL. destruct (get_full _ _ _ _ _ N1 AL G2 G2') as (F2 & V2). assert (EQ2 : n2 = n1).
    { destruct (get_rel _ _ _ _ _ N1 G2 G2') as (_ & Z2). unfold nodes_update in S1. apply bind_ok in S1. destruct S1 as (y & Y & S1). injection S1 as <-. apply set_inv in Y. destruct Y as (Y & ->). cbn [ns_items] in Z2. rewrite znth_zupd_same in Z2 by exact Y. congruence. }
    pose proof (proj1 (proj1 F2) b') as CC. rewrite <- (crel_window _ _ CC) in E'. destruct (child_is_window_index (nd_child n2 b')) eqn:CW.
    - two E E' sx SX sx' SX'. pose proof (to_window _ _ _ _ CC SX SX') as RS. two E E' i IX i' IX'. pose proof (sub_rel _ _ _ _ _ _ _ W WC OO IX IX') as RI. two E E' c OW c' OW'. pose proof (of_window _ _ _ _ RI OW OW') as RC.
      two E E' s2 S2 s2' S2'. apply set_nodes in S2. apply set_nodes in S2'. injection E as <-. injection E' as <-. cbn [fst snd]. split.
      + split; [|split; [exact W|exact TP]]. cbn [tr_nodes with_nodes]. exact (update_rel _ _ _ _ _ _ _ N1 (full_nrel _ _ (full_set_child _ _ _ _ _ F2 RC)) S2 S2').
      + repeat split; cbn; try apply RS. now rewrite FL, FR.
    - two E E' j J j' J'. destruct (to_node _ _ _ _ CC J J') as (<- & JN & JE). assert (AJ : alive s1 j).
      { apply (update_alive _ _ _ _ _ S1 V1). apply (live_alive _ _ _ LV). rewrite JE. rewrite EQ2, C1 in *. exact (live_child _ _ _ _ _ LV FN G JN). }
      two E E' g GM g' GM'. destruct (get_full _ _ _ _ _ N1 AJ GM GM') as (FM & _). two E E' i IX i' IX'. pose proof (sub_rel _ _ _ _ _ _ _ W WC OO IX IX') as RI. rewrite (wrap_place i (proj1 RI)) in E. rewrite (wrap_place i' (proj1 (proj2 RI))) in E'.
      two E E' s2 S2 s2' S2'. apply set_nodes in S2. apply set_nodes in S2'. injection E as <-. injection E' as <-. cbn [fst snd]. split.
      + split; [|split; [exact W|exact TP]]. cbn [tr_nodes with_nodes]. exact (update_rel _ _ _ _ _ _ _ N1 (full_nrel _ _ (full_set_start _ _ _ _ (proj1 FM) RI)) S2 S2').
      + pose proof (proj2 FM) as RM. repeat split; cbn; try apply RM. now rewrite FL, FR.
  Qed.
  Lemma shift_rel tr tr' cs cs' mo r r' : trel tr tr' -> csrel cs cs' -> shift tr cs mo = Ok r -> shift tr' cs' mo = Ok r' -> trel (fst r) (fst r') /\ csrel (snd r) (snd r').
  Proof.
    intros (N & W & TP) C E E'. unfold shift in *. rewrite <- TP in E'. destruct (tr_proper tr) eqn:T.
    - rewrite <- (cs_len _ _ C) in E'. pose proof W as (_ & _ & _ & WC & _). two E E' n G n' G'. destruct (get_full _ _ _ _ _ N (root_alive _ _ G) G G') as (F & V).
      two E E' s1 S1 s1' S1'. apply set_nodes in S1. apply set_nodes in S1'. rewrite (wrap_place _ (proj1 WC)) in S1. rewrite (wrap_place _ (proj1 (proj2 WC))) in S1'. pose proof (update_rel _ _ _ _ _ _ _ N (full_nrel _ _ (full_set_start _ _ _ _ (proj1 F) WC)) S1 S1') as N1.
      two E E' n2 G2 n2' G2'. destruct (get_rel _ _ _ _ _ N1 G2 G2') as (((_ & _ & _ & _ & _ & _ & FL & FR) & _) & _). rewrite <- FL, <- FR in E'. two E E' su SU su' SU'. same SU SU'. two E E' i IX i' IX'. pose proof (sub_rel _ _ _ _ _ _ _ W WC Z.le_0_1 IX IX') as RI.
      injection E as <-. injection E' as <-. cbn [fst snd]. split; [split; [exact N1|split; [exact W|cbn; congruence]]|]. constructor; [repeat split; cbn; apply RI|]. destruct (mo + 1 =? zlen cs); [now apply cs_butlast|exact C].
    - skip E E'. injection E as <-. injection E' as <-. cbn [fst snd]. split; [split; [exact N|split; [exact W|congruence]]|exact C].
  Qed.
  Lemma walk_rel tr tr' f : trel tr tr' -> live (tr_nodes tr) f -> forall k k' p i r r', (exists n, f i = Some n) -> (forall q x, p = Some (q, x) -> exists n, f q = Some n) -> walk tr k p i = Ok r -> walk tr' k' p i = Ok r' ->
    r = r' /\ (exists n, f (snd (fst r)) = Some n) /\ forall q x, fst (fst r) = Some (q, x) -> exists n, f q = Some n.
  Proof.
    intros (N & W & TP) LV. induction k as [|k IH]; intros k' p i r r' FI FP E E'; [discriminate|]. destruct k' as [|k']; [discriminate|]. cbn [walk] in E, E'.
    two E E' n G n' G'. destruct (get_full _ _ _ _ _ N (live_alive _ _ _ LV FI) G G') as (((C & _ & _ & _ & _ & FD & _) & _) & _). rewrite <- FD in E'. two E E' bi BI bi' BI'. two E E' b B b' B'.
    pose proof (added_bit _ _ _ _ _ _ _ _ _ _ W (proj1 (proj2 (proj2 W))) BI BI' B B') as <-. rewrite <- (crel_node _ _ (C b)) in E'. destruct (child_is_node_index (nd_child n b)).
    - two E E' j J j' J'. destruct (to_node _ _ _ _ (C b) J J') as (<- & JN & JE). refine (IH _ _ _ _ _ _ _ E E'); [rewrite JE; exact (live_child _ _ _ _ _ LV FI G JN)|]. intros q x Q. injection Q as <- <-. exact FI.
    - injection E as <-. injection E' as <-. split; [reflexivity|]. split; [exact FI|exact FP].
  Qed.
  Lemma leftmost_rel tr tr' f cs cs' r r' : trel tr tr' -> csrel cs cs' -> (tr_proper tr = true -> live (tr_nodes tr) f /\ exists n, f root_index = Some n) ->
    remove_leftmost_suffix tr cs = Ok r -> remove_leftmost_suffix tr' cs' = Ok r' -> trel (fst r) (fst r') /\ csrel (snd r) (snd r').
  Proof.
    intros T C LV E E'. pose proof T as (N & W & TP). unfold remove_leftmost_suffix in *. rewrite <- TP in E'. two E E' x X x' X'.
    assert (H : trel (fst x) (fst x') /\ csrel (snd x) (snd x')).
    { destruct (tr_proper tr) eqn:P; [|injection X as <-; injection X' as <-; split; assumption]. destruct (LV eq_refl) as (LI & F0). clear E E' LV.
      two X X' fo FO fo' FO'. destruct (walk_rel tr tr' f T LI _ _ None _ _ _ F0 ltac:(discriminate) FO FO') as (<- & FN & FP). clear FO FO'. destruct fo as ((pa & ni) & ld). cbn [fst snd] in FN, FP.
      two X X' n G n' G'. pose proof (live_alive _ _ _ LI FN) as AN. destruct (get_full _ _ _ _ _ N AN G G') as (F & V). pose proof (proj1 (proj1 F)) as CC. two X X' lw LW lw' LW'. pose proof (to_window _ _ _ _ (CC ld) LW LW') as RL.
      rewrite <- (rel_eqb _ _ _ _ RL (proj1 (proj2 (proj2 W)))) in X'. destruct (negb (lw =? w_start (tr_window tr))).
      - rewrite <- (cs_len _ _ C) in X'. two X X' k K k' K'. pose proof (cs_drop _ _ (proj1 (proj2 (proj2 W))) _ _ (cs_rev _ _ C) _ _ _ _ K K') as <-. injection X as <-. injection X' as <-. split; [exact T|now apply cs_first].
      - rewrite <- (crel_node _ _ (CC (negb ld))), <- (crel_window _ _ (CC (negb ld))) in X'. destruct (index_is_root ni) eqn:RT.
        + skip X X'. destruct (child_is_node_index (nd_child n (negb ld))).
          * two X X' j J j' J'. destruct (to_node _ _ _ _ (CC (negb ld)) J J') as (<- & JN & JE). pose proof (live_child _ _ _ _ _ LI FN G JN) as FJ. rewrite <- JE in FJ. two X X' g GM g' GM'. destruct (get_full _ _ _ _ _ N (live_alive _ _ _ LI FJ) GM GM') as (FM & _).
            two X X' ro GR ro' GR'. destruct (get_full _ _ _ _ _ N AN GR GR') as (FR & _). two X X' s1 S1 s1' S1'. pose proof (update_rel _ _ _ _ _ _ _ N (full_nrel _ _ (full_set_start _ _ _ _ (proj1 FM) (proj2 FR))) S1 S1') as N1.
            two X X' s2 S2 s2' S2'. pose proof (delete_rel _ _ _ _ _ N1 S2 S2') as N2. injection X as <-. injection X' as <-. split; [split; [exact N2|split; [exact W|cbn; congruence]]|]. cbn [snd]. apply cs_redirect; [exact C|]. intros c c' (A1 & A2 & A3 & A4 & A5). repeat split; cbn; try assumption; apply A1.
          * two X X' s1 S1 s1' S1'. injection X as <-. injection X' as <-. split; [|constructor]. split; [|split; [exact W|reflexivity]]. cbn [fst tr_nodes with_nodes with_proper]. refine (update_rel _ _ _ _ _ _ _ N _ S1 S1'). split; [|discriminate]. split; [|repeat split]. intros a. left. destruct a; split; reflexivity.
        + rewrite <- (cs_exists _ _ (fun cx => cx_node cx =? ni) C) in X' by (intros c c' (_ & -> & _); reflexivity). destruct (existsb (fun cx => cx_node cx =? ni) cs).
          * skip X X'. two X X' p PP p' PP'. same PP PP'. destruct p as (pi & nd). assert (FPI : exists n, f pi = Some n) by (destruct pa as [(q & y)|]; [injection PP as -> ->; exact (FP _ _ eq_refl)|discriminate]). pose proof (live_alive _ _ _ LI FPI) as AP.
            destruct (child_is_window_index (nd_child n (negb ld))).
            -- two X X' c CW c' CW'. pose proof (of_window _ _ _ _ (proj2 F) CW CW') as RC. two X X' pn GP pn' GP'. destruct (get_full _ _ _ _ _ N AP GP GP') as (FPN & _). two X X' s1 S1 s1' S1'. apply set_nodes in S1. apply set_nodes in S1'.
               pose proof (update_rel _ _ _ _ _ _ _ N (full_nrel _ _ (full_set_child _ _ nd _ _ FPN RC)) S1 S1') as N1. two X X' s2 S2 s2' S2'. pose proof (delete_rel _ _ _ _ _ N1 S2 S2') as N2. injection X as <-. injection X' as <-.
               split; [split; [exact N2|split; [exact W|cbn; congruence]]|]. cbn [snd]. apply cs_redirect; [exact C|]. intros y y' (A1 & A2 & A3 & A4 & A5). repeat split; cbn; try assumption; apply A1.
            -- two X X' j J j' J'. destruct (to_node _ _ _ _ (CC (negb ld)) J J') as (<- & JN & JE). pose proof (live_child _ _ _ _ _ LI FN G JN) as FJ. rewrite <- JE in FJ. two X X' g GM g' GM'. destruct (get_full _ _ _ _ _ N (live_alive _ _ _ LI FJ) GM GM') as (FM & VM).
               two X X' s1 S1 s1' S1'. pose proof (update_rel _ _ _ _ _ _ _ N (full_nrel _ _ (full_set_start _ _ _ _ (proj1 FM) (proj2 F))) S1 S1') as N1. assert (VM1 : nd_is_valid (nd_set_text_start g (nd_text_start n)) = true) by exact VM.
               pose proof (update_alive _ _ _ _ pi S1 VM1 AP) as AP1. two X X' pn GP pn' GP'. destruct (get_full _ _ _ _ _ N1 AP1 GP GP') as (FPN & _). two X X' s2 S2 s2' S2'. apply set_nodes in S2. apply set_nodes in S2'.
               pose proof (update_rel _ _ _ _ _ _ _ N1 (full_nrel _ _ (full_set_child _ _ nd _ _ FPN (CC (negb ld)))) S2 S2') as N2. two X X' s3 S3 s3' S3'. pose proof (delete_rel _ _ _ _ _ N2 S3 S3') as N3. injection X as <-. injection X' as <-.
               split; [split; [exact N3|split; [exact W|cbn; congruence]]|]. cbn [snd]. apply cs_redirect; [exact C|]. intros y y' (A1 & A2 & A3 & A4 & A5). repeat split; cbn; try assumption; apply A1.
          * two X X' p PP p' PP'. same PP PP'. destruct p as (pi & nd). assert (FPI : exists n, f pi = Some n) by (destruct pa as [(q & y)|]; [injection PP as -> ->; exact (FP _ _ eq_refl)|discriminate]). pose proof (live_alive _ _ _ LI FPI) as AP.
            two X X' pn GP pn' GP'. destruct (get_full _ _ _ _ _ N AP GP GP') as (FPN & _). two X X' s1 S1 s1' S1'. apply set_nodes in S1. apply set_nodes in S1'.
            pose proof (update_rel _ _ _ _ _ _ _ N (full_nrel _ _ (full_set_child _ _ nd _ _ FPN (CC (negb ld)))) S1 S1') as N1. two X X' s2 S2 s2' S2'. pose proof (delete_rel _ _ _ _ _ N1 S2 S2') as N2. injection X as <-. injection X' as <-.
            split; [split; [exact N2|split; [exact W|cbn; congruence]]|exact C]. }
    destruct x as (xt & xc). destruct x' as (xt' & xc'). cbn [fst snd] in H. destruct H as ((H1 & H2 & H3) & H4). two E E' w WW w' WW'. injection E as <-. injection E' as <-. split; [|exact H4]. split; [exact H1|]. split; [exact (start_rel _ _ _ _ H2 WW WW')|exact H3].
  Qed.
  Lemma start_byte_rel tr tr' f cs cs' r r' : trel tr tr' -> csrel cs cs' -> (tr_proper tr = true -> live (tr_nodes tr) f /\ exists n, f root_index = Some n) ->
    tree_start_byte tr cs = Ok r -> tree_start_byte tr' cs' = Ok r' -> trel (fst r) (fst r') /\ csrel (snd r) (snd r').
  Proof.
    intros T C LV E E'. pose proof T as (N & W & TP). pose proof W as ((MX & _) & (MX' & _) & _ & _ & SZ & _). unfold tree_start_byte in *. rewrite <- SZ, MX', <- MX in E'. two E E' x X x' X'.
    assert (H : trel (fst x) (fst x') /\ csrel (snd x) (snd x')).
    { destruct (w_size (tr_window tr) =? w_max (tr_window tr)); [|injection X as <-; injection X' as <-; split; assumption]. two X X' y Y y' Y'. pose proof (leftmost_rel _ _ _ _ _ _ _ T C LV Y Y') as H. skip X X'. skip X X'. skip X X'. injection X as <-. injection X' as <-. exact H. }
    destruct x as (xt & xc). destruct x' as (xt' & xc'). cbn [fst snd] in H. destruct H as ((H1 & H2 & H3) & H4). skip E E'. two E E' w WW w' WW'. injection E as <-. injection E' as <-. split; [|exact H4]. split; [exact H1|]. split; [exact (push_rel _ _ _ _ H2 WW WW')|exact H3].
  Qed.
  (** ** Reporting *)
  Lemma gather_rel tr tr' k : trel tr tr' -> forall cs cs', csrel cs cs' -> forall o items r r', 0 <= o -> gather_contexts tr k cs o items = Ok r -> gather_contexts tr' k cs' o items = Ok r' -> r = r'.
  Proof.
    intros (N & W & TP). induction 1 as [|c c' l l' X R IH]; intros o items r r' OO E E'; cbn [gather_contexts] in *; [congruence|]. pose proof X as (CS & CN & CV & _). pose proof W as (_ & _ & _ & WC & _). rewrite <- CN, <- CV in E'.
    two E E' n G n' G'. destruct (get_rel _ _ _ _ _ N G G') as (((_ & F1 & F2 & F3 & F4 & F5 & _) & _) & _). rewrite <- F1, <- F2, <- F3, <- F4, <- F5 in E'. two E E' i IX i' IX'. pose proof (sub_rel _ _ _ _ _ _ _ W WC OO IX IX') as RI. skip E E'. skip E E'.
    two E E' di DI di' DI'. pose proof (diff_rel _ _ _ _ _ _ _ _ W RI CS DI DI') as <-. two E E' de DE de' DE'. same DE DE'. two E E' it IT it' IT'. assert (it = it').
    { destruct (nd_depth n =? de); [congruence|]. skip IT IT'. destruct (0 <? cx_visits c); [|congruence]. two IT IT' a AD a' AD'. two IT IT' b B b' B'. pose proof (added_bit _ _ _ _ _ _ _ _ _ _ W CS AD AD' B B') as <-. congruence. }
    subst it'. exact (IH (o + 1) _ _ _ ltac:(lia) E E').
  Qed.
  Definition srel (s s' : source) : Prop := trel (ts_tree s) (ts_tree s') /\ csrel (ts_contexts s) (ts_contexts s') /\ ts_max_order s = ts_max_order s' /\ ts_bit_index s = ts_bit_index s'.
  Lemma mfold_same {A S} (g h : S -> A -> res S) l : (forall s x r r', g s x = Ok r -> h s x = Ok r' -> r = r') -> forall s r r', mfold g l s = Ok r -> mfold h l s = Ok r' -> r = r'.
  Proof. intros H. induction l as [|x l IH]; intros s r r' E E'; cbn [mfold] in *; [congruence|]. two E E' y Y y' Y'. pose proof (H _ _ _ _ Y Y') as <-. exact (IH _ _ _ E E'). Qed.
  Lemma report_rel s s' items r r' : srel s s' -> tree_gather s items = Ok r -> tree_gather s' items = Ok r' -> r = r'.
  Proof.
    intros (T & C & MO & BI) E E'. unfold tree_gather in *. rewrite <- BI, <- MO in E'. skip E E'. pose proof T as (N & W & TP). unfold tree_gather_states in *. rewrite <- TP in E'. skip E E'. destruct (tr_proper (ts_tree s)).
    - skip E E'. exact (gather_rel _ _ _ T _ _ C 0 _ _ _ (Z.le_refl 0) E E').
    - pose proof W as (_ & _ & WS & _ & SZ & _). rewrite <- SZ in E'. skip E E'. two E E' a AD a' AD'. same AD AD'. two E E' b B b' B'. same B B'. revert E E'. apply mfold_same. clear - W WS SZ. intros it o r r' E E'. two E E' x X x' X'. same X X'. two E E' y Y y' Y'. same Y Y'.
      two E E' b B b' B'. pose proof (bit_rel _ _ _ _ _ _ _ W WS B B') as <-. congruence.
  Qed.
  (** ** Splitting *)
  Lemma new_rel ts ts' e de tk q l r rc ch ch' x x' : rel ts ts' -> (forall a : bool, crel (if a then snd ch else fst ch) (if a then snd ch' else fst ch')) -> node_new ts e de tk q l r rc ch = Ok x -> node_new ts' e de tk q l r rc ch' = Ok x' -> nfull x x'.
  Proof. intros T C E E'. unfold node_new in *. skip E E'. skip E E'. skip E E'. injection E as <-. injection E' as <-. split; [|exact T]. split; [exact C|]. repeat split. Qed.
  Lemma setup_rel tr tr' cx cx' o k ts ts' r r' : trel tr tr' -> cxrel cx cx' -> rel ts ts' -> setup_split_edge t tr cx o k ts = Ok r -> setup_split_edge t tr' cx' o k ts' = Ok r' -> nfull r r'.
  Proof.
    intros (N & W & TP) (CS & CN & CV & CL & CD) T E E'. unfold setup_split_edge in *. rewrite <- CV in E'. skip E E'. two E E' b B b' B'. pose proof (bit_rel _ _ _ _ _ _ _ W (proj1 (proj2 (proj2 (proj2 W)))) B B') as <-.
    two E E' e X e' X'. same X X'. two E E' c Y c' Y'. same Y Y'. two E E' q Q q' Q'. same Q Q'. two E E' rr RR rr' RR'. same RR RR'. two E E' de DE de' DE'. same DE DE'. refine (new_rel _ _ _ _ _ _ _ _ _ _ _ _ _ T _ E E'). intros a. left. destruct a; split; reflexivity.
  Qed.
  Lemma split_rel tr tr' f cx cx' o k r r' : trel tr tr' -> cxrel cx cx' -> 0 <= o -> live (tr_nodes tr) f -> (exists n, f (cx_node cx) = Some n) -> split_edge t tr cx o k = Ok r -> split_edge t tr' cx' o k = Ok r' -> trel r r'.
  Proof.
    intros T X OO LV FN E E'. pose proof T as (N & W & TP). pose proof X as (CS & CN & CV & CL & CD). pose proof W as (_ & _ & _ & WC & _). unfold split_edge in *. rewrite <- CN, <- CL, <- CD in E'. two E E' b B b' B'. pose proof (bit_rel _ _ _ _ _ _ _ W WC B B') as <-.
    destruct (negb (cx_in_leaf cx)).
    - two E E' n G n' G'. destruct (get_full _ _ _ _ _ N (live_alive _ _ _ LV FN) G G') as (F & V). two E E' s SS s' SS'. pose proof (setup_rel _ _ _ _ _ _ _ _ _ _ T X (proj2 F) SS SS') as FS. rewrite (wrap_place _ (proj1 CS)) in E. rewrite (wrap_place _ (proj1 (proj2 CS))) in E'.
      two E E' i IX i' IX'. pose proof (sub_rel _ _ _ _ _ _ _ W WC OO IX IX') as RI. two E E' c OW c' OW'. pose proof (of_window _ _ _ _ RI OW OW') as RC. two E E' ad AD ad' AD'. destruct (add_node_rel _ _ _ _ _ _ N (full_nrel _ _ (full_set_start _ _ _ _ (proj1 F) CS)) AD AD') as (AE & AN & N1).
      two E E' s1 S1 s1' S1'. injection E as <-. injection E' as <-. split; [|split; [exact W|exact TP]]. cbn [tr_nodes with_nodes]. refine (update_rel _ _ _ _ _ _ _ N1 _ S1 S1'). apply full_nrel. apply full_set_child; [now apply full_set_child|]. left. auto.
    - two E E' n G n' G'. destruct (get_full _ _ _ _ _ N (live_alive _ _ _ LV FN) G G') as (F & V). two E E' dd DD dd' DD'. same DD DD'. two E E' ts TS ts' TS'. pose proof (to_window _ _ _ _ (proj1 (proj1 F) dd) TS TS') as RT. two E E' s SS s' SS'. pose proof (setup_rel _ _ _ _ _ _ _ _ _ _ T X RT SS SS') as FS.
      two E E' i IX i' IX'. pose proof (sub_rel _ _ _ _ _ _ _ W WC OO IX IX') as RI. two E E' c OW c' OW'. pose proof (of_window _ _ _ _ RI OW OW') as RC. two E E' c2 OV c2' OV'. pose proof (of_window _ _ _ _ CS OV OV') as RV.
      two E E' ad AD ad' AD'. destruct (add_node_rel _ _ _ _ _ _ N (full_nrel _ _ (full_set_child _ _ (negb b) _ _ (full_set_child _ _ b _ _ FS RC) RV)) AD AD') as (AE & AN & N1).
      two E E' s1 S1 s1' S1'. injection E as <-. injection E' as <-. split; [|split; [exact W|exact TP]]. cbn [tr_nodes with_nodes]. refine (update_rel _ _ _ _ _ _ _ N1 _ S1 S1'). apply full_nrel. apply full_set_child; [exact F|]. left. auto.
  Qed.
  Definition lrel (l l' : option Z) : Prop := match l, l' with Some c, Some c' => crel c c' | None, None => True | _, _ => False end.
  Lemma build_rel k l : (forall o, In o l -> 0 <= o) -> forall st st' r r', trel (fst st) (fst st') -> lrel (snd st) (snd st') -> mfold (split_degenerate_step t k) l st = Ok r -> mfold (split_degenerate_step t k) l st' = Ok r' -> trel (fst r) (fst r').
  Proof.
    induction l as [|o l IH]; intros P st st' r r' T L E E'; cbn [mfold] in *; [injection E as <-; injection E' as <-; exact T|]. two E E' y Y y' Y'. assert (OO : 0 <= o) by (apply P; now left).
    cut (trel (fst y) (fst y') /\ lrel (snd y) (snd y')); [intros (T1 & L1); refine (IH _ _ _ _ _ T1 L1 E E'); intros q Q; apply P; now right|]. clear E E' IH P. destruct st as (tr & la). destruct st' as (tr' & la'). cbn [fst snd] in *. pose proof T as (N & W & TP). pose proof W as (_ & _ & WS & WC & _).
    unfold split_degenerate_step in *. rename Y into E, Y' into E'. two E E' b B b' B'. pose proof (bit_rel _ _ _ _ _ _ _ W WC B B') as <-. two E E' i IX i' IX'. pose proof (sub_rel _ _ _ _ _ _ _ W WC OO IX IX') as RI. two E E' c OW c' OW'. pose proof (of_window _ _ _ _ RI OW OW') as RC.
    two E E' i2 IY i2' IY'. pose proof (sub_rel _ _ _ _ _ _ _ W RI Z.le_0_1 IY IY') as RI2. two E E' c2 OV c2' OV'. pose proof (of_window _ _ _ _ RI2 OV OV') as RC2. two E E' di DI di' DI'. pose proof (diff_rel _ _ _ _ _ _ _ _ W RI WS DI DI') as <-.
    two E E' e X e' X'. same X X'. two E E' rr RR rr' RR'. same RR RR'. two E E' q Q q' Q'. same Q Q'. two E E' cc CC cc' CC'. same CC CC'. two E E' de DE de' DE'. same DE DE'. two E E' n NN n' NN'.
    assert (F : nfull n n').
    { assert (CH : crel (match la with Some c => c | None => c2 end) (match la' with Some c => c | None => c2' end)) by (destruct la, la'; cbn [lrel] in L; contradiction || assumption). refine (new_rel _ _ _ _ _ _ _ _ _ _ _ _ _ RI _ NN NN'). intros a. destruct a, b; cbn [fst snd]; assumption. }
    destruct (o =? 0).
    - two E E' s SS s' SS'. injection E as <-. injection E' as <-. cbn [fst snd lrel]. split; [|exact I]. split; [exact (update_rel _ _ _ _ _ _ _ N (full_nrel _ _ F) SS SS')|split; [exact W|exact TP]].
    - two E E' ad AD ad' AD'. destruct (add_node_rel _ _ _ _ _ _ N (full_nrel _ _ F) AD AD') as (AE & AN & N1). injection E as <-. injection E' as <-. cbn [fst snd lrel]. split; [split; [exact N1|split; [exact W|exact TP]]|]. left. auto.
  Qed.
  Lemma step_rel trackers k f st st' o r r' : trel (fst (fst st)) (fst (fst st')) -> csrel (snd (fst st)) (snd (fst st')) -> snd st = snd st' -> 0 <= o -> live (tr_nodes (fst (fst st))) f ->
    (forall cx, znth (snd (fst st)) o = Some cx -> exists n, f (cx_node cx) = Some n) -> extend_step t trackers k st o = Ok r -> extend_step t trackers k st' o = Ok r' ->
    trel (fst (fst r)) (fst (fst r')) /\ csrel (snd (fst r)) (snd (fst r')) /\ snd r = snd r'.
  Proof.
    destruct st as ((tr & cs) & cnt). destruct st' as ((tr' & cs') & cnt'). cbn [fst snd]. intros T C <- OO LV FX E E'. pose proof T as (N & W & TP). unfold extend_step in *. two E E' c0 G0 c0' G0'. apply get_inv in G0. apply get_inv in G0'. specialize (FX _ G0). pose proof (cs_nth _ _ C _ _ _ G0 G0') as X0. clear G0 G0'.
    two E E' cx X cx' X'. assert (H : cxrel cx cx' /\ exists n, f (cx_node cx) = Some n).
    { pose proof X0 as (CS & CN & CV & CL & CD). rewrite <- CL in X'. destruct (cx_in_leaf c0); [|injection X as <-; injection X' as <-; auto]. rewrite <- CN in X'. two X X' n G n' G'. destruct (get_rel _ _ _ _ _ N G G') as (((CC & _) & _) & _). rewrite <- CD in X'. two X X' dd DD dd' DD'. same DD DD'.
      rewrite <- (crel_window _ _ (CC dd)) in X'. destruct (child_is_window_index (nd_child n dd)); [injection X as <-; injection X' as <-; auto|]. two X X' j J j' J'. destruct (to_node _ _ _ _ (CC dd) J J') as (<- & JN & JE). injection X as <-. injection X' as <-. split; [repeat split; cbn; auto; apply CS|].
      cbn [cx_node]. rewrite JE. exact (live_child _ _ _ _ _ LV FX G JN). }
    destruct H as (XR & FN). clear X X' X0 FX c0 c0'. pose proof XR as (CS & CN & CV & CL & CD). two E E' c1 S1 c1' S1'. apply set_inv in S1. apply set_inv in S1'. destruct S1 as (_ & ->). destruct S1' as (_ & ->). pose proof (cs_set _ _ o _ _ C XR) as C1.
    rewrite <- CN in E'. two E E' n G n' G'. destruct (get_rel _ _ _ _ _ N G G') as (((_ & _ & _ & _ & _ & FD & _) & _) & _). rewrite <- FD in E'. two E E' de DE de' DE'. same DE DE'. destruct (nd_depth n =? de).
    - skip E E'. skip E E'. two E E' tk TK tk' TK'. same TK TK'. two E E' y Y y' Y'. destruct (descend_rel _ _ _ _ _ _ _ _ _ _ T XR OO LV FN Y Y') as (T1 & X1). two E E' c2 S2 c2' S2'. apply set_inv in S2. apply set_inv in S2'. destruct S2 as (_ & ->). destruct S2' as (_ & ->).
      injection E as <-. injection E' as <-. cbn [fst snd]. split; [exact T1|]. split; [now apply cs_set|reflexivity].
    - skip E E'. two E E' i IX i' IX'. two E E' df DF df' DF'. pose proof (added_differ _ _ _ _ _ _ _ _ _ _ W CS IX IX' DF DF') as <-. destruct df; [|injection E as <-; injection E' as <-; cbn [fst snd]; auto].
      two E E' a AA a' AA'. skip E E'. two E E' y Y y' Y'. pose proof (split_rel _ _ _ _ _ _ _ _ _ T XR OO LV FN Y Y') as T1. two E E' c Q c' Q'. skip E E'. injection E as <-. injection E' as <-. cbn [fst snd]. auto.
  Qed.
End Rot.
