(** The chain of orders: each order is what its own kits learnt. *)
From Coq Require Import ZifyBool.
From Verif Require Import Base BaseFacts FixedModel UtilModel UtilSpec UtilProofs StateModel EstModel EstProofs LogModel LutModel LutTable LutProofs LutRound
  ApmModel ApmProofs StatesModel StatesProofs MixerModel TreeModel PredModel PredTree PredKits PredChain KitSpec KitProofs.
Ltac Zify.zify_post_hook ::= Z.div_mod_to_equations.

(** ** One order in one round *)
Definition order_predict (t : luts) (contexts : list context_state) (byte : Z) (o : Z) (k : order_kit) (lower : Z * Z) (k' : order_kit) (r : Z * Z) : Prop :=
  exists s pre, znth contexts o = Some s /\ place_of t o contexts pre /\
    if is_for_node s then exists kit sg kit', mixer_kit_pre_predict (ok_node k) pre = Ok kit /\ single_predict t (ok_single k) kit s byte lower = Ok (sg, kit', r) /\ k' = mkOrderKit sg (ok_edge k) kit'
    else exists kit sg kit', mixer_kit_pre_predict (ok_edge k) pre = Ok kit /\ single_predict t (ok_single k) kit s byte lower = Ok (sg, kit', r) /\ k' = mkOrderKit sg kit' (ok_node k).
Definition order_update (t : luts) (contexts : list context_state) (b : bit) (o : Z) (k k' : order_kit) : Prop :=
  exists s, znth contexts o = Some s /\
    if is_for_node s then exists sg kit c, single_update t (ok_single k) (ok_node k) s b = Ok (sg, kit, c) /\ k' = mkOrderKit sg (ok_edge k) kit
    else exists sg kit c, single_update t (ok_single k) (ok_edge k) s b = Ok (sg, kit, c) /\ k' = mkOrderKit sg kit (ok_node k).
Lemma get_inv {A} (l : list A) i x : get l i = Ok x -> znth l i = Some x.
Proof. unfold get, of_opt. destruct (znth l i); congruence. Qed.
Lemma predict_step_inv t contexts byte kits lp o kits' r : chain_predict_step t contexts byte (kits, lp) o = Ok (kits', r) ->
  exists k k', znth kits o = Some k /\ kits' = zupd kits o k' /\ 0 <= o < zlen kits /\ order_predict t contexts byte o k lp k' r.
Proof.
  intros E. unfold chain_predict_step in E. apply bind_ok in E. destruct E as (s & S & E). apply get_inv in S. apply bind_ok in E. destruct E as (m & MO & E). cbv zeta in E. apply bind_ok in E. destruct E as (c & CP & E).
  apply bind_ok in E. destruct E as (k & K & E). apply get_inv in K.
  assert (PL : place_of t o contexts [if m =? o then 1 else 0; c]).
  { exists c. assert (m = zlen contexts - 1) by (unfold sub, chk in MO; match type of MO with (if ?c then _ else _) = _ => destruct c; congruence end). subst m. rewrite Z.eqb_sym. split; [reflexivity|].
    destruct (o =? 0); [congruence|]. apply bind_ok in CP. destruct CP as (p & G & CP). apply get_inv in G. exists p, s. auto. }
  assert (W : forall kit, order_predict t contexts byte o k lp kit r -> forall ks, set kits o kit = Ok ks -> exists k0 k', znth kits o = Some k0 /\ ks = zupd kits o k' /\ 0 <= o < zlen kits /\ order_predict t contexts byte o k0 lp k' r).
  { intros kit OP ks SE. apply set_inv in SE. destruct SE as (SB & ->). exists k, kit. auto. }
  destruct (is_for_node s) eqn:N.
  - apply bind_ok in E. destruct E as (kit & PP & E). apply bind_ok in E. destruct E as (((sg & kit') & x) & P & E). apply bind_ok in E. destruct E as (ks & U & E). injection E as <- <-.
    apply (W _) in U; [exact U|]. exists s, [if m =? o then 1 else 0; c]. rewrite N. split; [exact S|]. split; [exact PL|]. exists kit, sg, kit'. auto.
  - apply bind_ok in E. destruct E as (kit & PP & E). apply bind_ok in E. destruct E as (((sg & kit') & x) & P & E). apply bind_ok in E. destruct E as (ks & U & E). injection E as <- <-.
    apply (W _) in U; [exact U|]. exists s, [if m =? o then 1 else 0; c]. rewrite N. split; [exact S|]. split; [exact PL|]. exists kit, sg, kit'. auto.
Qed.
Lemma update_step_inv t b contexts kits trs o kits' trs' : chain_update_step t b contexts (kits, trs) o = Ok (kits', trs') ->
  exists k k', znth kits o = Some k /\ kits' = zupd kits o k' /\ 0 <= o < zlen kits /\ order_update t contexts b o k k'.
Proof.
  intros E. unfold chain_update_step in E. apply bind_ok in E. destruct E as (s & S & E). apply get_inv in S. apply bind_ok in E. destruct E as (k & K & E). apply get_inv in K. apply bind_ok in E. destruct E as ((k' & c) & KK & E).
  apply bind_ok in E. destruct E as (? & _ & E). apply bind_ok in E. destruct E as (ks & U & E). injection E as <- <-. apply set_inv in U. destruct U as (O & ->). exists k, k'. split; [exact K|]. split; [reflexivity|]. split; [exact O|].
  exists s. split; [exact S|]. destruct (is_for_node s); apply bind_ok in KK; destruct KK as (((sg & kit) & cc) & Q & KK); injection KK as <- _; exists sg, kit, cc; auto.
Qed.
(** The prediction of the order before, in a row of predictions that starts at order [a]. *)
Definition below_in (lp : Z * Z) (a : Z) (row : list (Z * Z)) (o : Z) : Z * Z := if o =? a then lp else match znth row (o - 1 - a) with Some r => r | None => (0, 0) end.
Lemma last_cons {A} (x d : A) l : last (x :: l) d = last l x.
Proof. revert x d. induction l as [|y l IH]; intros x d; [reflexivity|]. change (last (x :: y :: l) d) with (last (y :: l) d). rewrite !IH. reflexivity. Qed.
Lemma predict_fold t contexts byte n : forall a kits lp kits' r, 0 <= a -> mfold (chain_predict_step t contexts byte) (zseq a n) (kits, lp) = Ok (kits', r) ->
  exists row, length row = n /\ r = last row lp /\ zlen kits' = zlen kits /\ (forall o, ~ a <= o < a + Z.of_nat n -> znth kits' o = znth kits o) /\
    forall o, a <= o < a + Z.of_nat n -> exists k k' q, znth kits o = Some k /\ znth kits' o = Some k' /\ znth row (o - a) = Some q /\ order_predict t contexts byte o k (below_in lp a row o) k' q.
Proof.
  induction n as [|n IH]; intros a kits lp kits' r A E; cbn [zseq mfold] in E.
  - injection E as <- <-. exists []. split; [reflexivity|]. split; [reflexivity|]. split; [reflexivity|]. split; [reflexivity|]. intros o O. lia.
  - apply bind_ok in E. destruct E as ((k1 & r1) & S & E). apply predict_step_inv in S. destruct S as (k & k' & K & -> & KB & OP).
    destruct (IH (a + 1) _ r1 kits' r ltac:(lia) E) as (row & LN & LS & LK & OUT & INS). exists (r1 :: row). split; [cbn; lia|]. split; [rewrite last_cons; exact LS|].
    split; [rewrite LK, zlen_zupd; reflexivity|]. split.
    + intros o O. rewrite OUT by lia. apply znth_zupd_other. lia.
    + intros o O. destruct (Z.eq_dec o a) as [EQ|NE].
      * subst o. exists k, k', r1. split; [exact K|]. split; [rewrite OUT by lia; apply znth_zupd_same; exact KB|]. split; [cbn [znth]; rewrite Z.sub_diag; reflexivity|].
        unfold below_in. rewrite Z.eqb_refl. exact OP.
      * destruct (INS o ltac:(lia)) as (k2 & k2' & q & K2 & K2' & Q & OP2). rewrite znth_zupd_other in K2 by lia. exists k2, k2', q. split; [exact K2|]. split; [exact K2'|]. split.
        { cbn [znth]. replace (o - a =? 0) with false by lia. replace (o - a - 1) with (o - (a + 1)) by lia. exact Q. }
        assert (BL : below_in lp a (r1 :: row) o = below_in r1 (a + 1) row o).
        { unfold below_in. replace (o =? a) with false by lia. cbn [znth]. destruct (o =? a + 1) eqn:OA.
          - replace (o - 1 - a =? 0) with true by lia. reflexivity.
          - replace (o - 1 - a =? 0) with false by lia. replace (o - 1 - a - 1) with (o - 1 - (a + 1)) by lia. reflexivity. }
        rewrite BL. exact OP2.
Qed.
Lemma update_fold t b contexts n : forall a kits trs kits' trs', mfold (chain_update_step t b contexts) (zseq a n) (kits, trs) = Ok (kits', trs') ->
  zlen kits' = zlen kits /\ (forall o, ~ a <= o < a + Z.of_nat n -> znth kits' o = znth kits o) /\
    forall o, a <= o < a + Z.of_nat n -> exists k k', znth kits o = Some k /\ znth kits' o = Some k' /\ order_update t contexts b o k k'.
Proof.
  induction n as [|n IH]; intros a kits trs kits' trs' E; cbn [zseq mfold] in E.
  - injection E as <- <-. split; [reflexivity|]. split; [reflexivity|]. intros o O. lia.
  - apply bind_ok in E. destruct E as ((k1 & r1) & S & E). apply update_step_inv in S. destruct S as (k & k' & K & -> & KB & OP).
    destruct (IH (a + 1) _ r1 kits' trs' E) as (LK & OUT & INS). split; [rewrite LK, zlen_zupd; reflexivity|]. split.
    + intros o O. rewrite OUT by lia. apply znth_zupd_other. lia.
    + intros o O. destruct (Z.eq_dec o a) as [EQ|NE].
      * subst o. exists k, k'. split; [exact K|]. split; [rewrite OUT by lia; apply znth_zupd_same; exact KB|exact OP].
      * destruct (INS o ltac:(lia)) as (k2 & k2' & K2 & K2' & OP2). rewrite znth_zupd_other in K2 by lia. exists k2, k2'. auto.
Qed.
Lemma chain_round_inv t kits outs x kits' outs' : chain_round t (kits, outs) x = Ok (kits', outs') ->
  exists row, length row = length (fst (fst x)) /\ outs' = outs ++ [last row (2 ^ 30, 0)] /\ zlen kits' = zlen kits /\
    (forall o, ~ 0 <= o < zlen (fst (fst x)) -> znth kits' o = znth kits o) /\
    forall o, 0 <= o < zlen (fst (fst x)) -> exists k k1 k2 q, znth kits o = Some k /\ znth kits' o = Some k2 /\ znth row o = Some q /\
      order_predict t (fst (fst x)) (snd (fst x)) o k (below o (x, row)) k1 q /\ order_update t (fst (fst x)) (snd x) o k1 k2.
Proof.
  destruct x as ((contexts & byte) & b). unfold chain_round. cbn [fst snd]. intros E. apply bind_ok in E. destruct E as ((k1 & r) & P & E). apply bind_ok in E. destruct E as ((k2 & trs) & U & E). cbn [fst snd] in *. injection E as <- <-.
  unfold chain_predict in P. unfold chain_update in U. apply predict_fold in P; [|lia]. apply update_fold in U. destruct P as (row & LN & -> & LK & OUT & INS). destruct U as (LK2 & OUT2 & INS2).
  exists row. split; [exact LN|]. split; [reflexivity|]. split; [congruence|]. rewrite Z.add_0_l in *. split.
  - intros o O. unfold zlen in O. rewrite OUT2 by exact O. apply OUT. exact O.
  - intros o O. unfold zlen in O. destruct (INS o O) as (k & k' & q & K & K' & Q & OP). destruct (INS2 o O) as (ka & kb & KA & KB & OU). assert (ka = k') by congruence. subst ka.
    exists k, k', kb, q. split; [exact K|]. split; [exact KB|]. rewrite Z.sub_0_r in Q. split; [exact Q|]. split; [|exact OU].
    unfold below_in in OP. unfold below. cbn [snd]. rewrite Z.sub_0_r in OP. exact OP.
Qed.

(** ** Both halves of a round, seen by the kits *)
Lemma edge_round t o x k k1 k2 q row ps rs d n b : znth (fst (fst x)) o = Some (ForEdge d n b) ->
  order_predict t (fst (fst x)) (snd (fst x)) o k (below o (x, row)) k1 q -> order_update t (fst (fst x)) (snd x) o k1 k2 ->
  exists l p ml, edge_lesson o (x, row) l /\ est_round t (sg_edge (ok_single k), ps) l = Ok (sg_edge (ok_single k2), ps ++ [p]) /\
    edge_mix t o (sg_fixed (ok_single k)) ((x, row), p) ml /\ mixer_round t (ok_edge k, rs) ml = Ok (ok_edge k2, rs ++ [q]) /\
    sg_node (ok_single k2) = sg_node (ok_single k) /\ ok_node k2 = ok_node k /\ sg_fixed (ok_single k2) = sg_fixed (ok_single k).
Proof.
  intros Z1 (s & pre & S & PL & P) (s' & S' & U). assert (s = ForEdge d n b) by congruence. assert (s' = ForEdge d n b) by congruence. subst s s'. cbn [is_for_node] in *.
  destruct P as (kit & sg & kit' & PP & SP & ->). destruct U as (sg2 & kit2 & c & SU & ->). cbn [ok_single ok_edge ok_node] in *.
  cbn [single_predict] in SP. apply bind_ok in SP. destruct SP as (qc & QC & SP). cbv zeta in SP. apply bind_ok in SP. destruct SP as ((edge & p) & EP & SP). apply bind_ok in SP. destruct SP as (direct & DI & SP).
  apply bind_ok in SP. destruct SP as ((kk & r) & MP & SP). injection SP as <- <- <-. cbn [sg_edge sg_fixed sg_node] in *.
  cbn [single_update] in SU. apply bind_ok in SU. destruct SU as (edge2 & EU & SU). apply bind_ok in SU. destruct SU as ((kk2 & r2) & MU & SU). injection SU as <- <- <-. cbn [sg_edge sg_fixed sg_node] in *.
  exists ([qc; snd (fst x)], snd x), p, ((pre, [quantize_distance d; if b then 1 else 0]), mkLesson [(0, below o (x, row)); (1, direct); (2, sg_fixed (ok_single k)); (3, p)] (snd x) 300).
  split; [exists d, n, b, qc; auto|]. split; [unfold est_round; cbn [fst snd]; rewrite EP; cbn [bind fst snd]; rewrite EU; reflexivity|].
  split; [exists d, n, b, direct; cbn [fst snd]; auto|]. split; [|auto].
  unfold mixer_round. cbn [fst snd ml_inputs ml_bit ml_limit]. rewrite PP. cbn [bind]. unfold bit_z in MP. rewrite MP. cbn [bind fst snd]. rewrite MU. reflexivity.
Qed.
Lemma node_round t o x k k1 k2 q row ps rs d e u runs c : znth (fst (fst x)) o = Some (ForNode d e u runs c) ->
  order_predict t (fst (fst x)) (snd (fst x)) o k (below o (x, row)) k1 q -> order_update t (fst (fst x)) (snd x) o k1 k2 ->
  exists l p ml, node_lesson o (x, row) l /\ est_round t (sg_node (ok_single k), ps) l = Ok (sg_node (ok_single k2), ps ++ [p]) /\
    node_mix t o ((x, row), p) ml /\ mixer_round t (ok_node k, rs) ml = Ok (ok_node k2, rs ++ [q]) /\
    sg_edge (ok_single k2) = sg_edge (ok_single k) /\ ok_edge k2 = ok_edge k /\ sg_fixed (ok_single k2) = sg_fixed (ok_single k).
Proof.
  intros Z1 (s & pre & S & PL & P) (s' & S' & U). assert (s = ForNode d e u runs c) by congruence. assert (s' = ForNode d e u runs c) by congruence. subst s s'. cbn [is_for_node] in *.
  destruct P as (kit & sg & kit' & PP & SP & ->). destruct U as (sg2 & kit2 & cc & SU & ->). cbn [ok_single ok_edge ok_node] in *.
  cbn [single_predict] in SP. apply bind_ok in SP. destruct SP as (sq & SQ & SP). apply bind_ok in SP. destruct SP as (st & ST & SP). apply bind_ok in SP. destruct SP as (lr & LR & SP). apply bind_ok in SP. destruct SP as (qn & QN & SP).
  apply bind_ok in SP. destruct SP as ((node & p) & EP & SP). apply bind_ok in SP. destruct SP as (opp & OP & SP). apply bind_ok in SP. destruct SP as (qo & QO & SP). apply bind_ok in SP. destruct SP as (qc & QC & SP).
  apply bind_ok in SP. destruct SP as ((kk & r) & MP & SP). injection SP as <- <- <-. cbn [sg_edge sg_fixed sg_node] in *.
  cbn [single_update] in SU. apply bind_ok in SU. destruct SU as (node2 & EU & SU). do 4 (apply bind_ok in SU; destruct SU as (? & _ & SU)). apply bind_ok in SU. destruct SU as ((kk2 & r2) & MU & SU). injection SU as <- <- <-. cbn [sg_edge sg_fixed sg_node] in *.
  exists ([qn; if br_last_bit runs then 1 else 0], snd x), p, ((pre, [qc; quantize_distance d; qo]), mkLesson [(0, below o (x, row)); (1, (sq, st)); (2, p)] (snd x) 100).
  split; [exists d, e, u, runs, c, lr, qn; auto|]. split; [unfold est_round; cbn [fst snd]; unfold bit_z in EP; rewrite EP; cbn [bind fst snd]; rewrite EU; reflexivity|].
  split; [exists d, e, u, runs, c, sq, st, opp, qo, qc; cbn [fst snd]; repeat (split; [assumption || reflexivity|]); reflexivity|]. split; [|auto].
  unfold mixer_round. cbn [fst snd ml_inputs ml_bit ml_limit]. rewrite PP. cbn [bind]. rewrite MP. cbn [bind fst snd]. rewrite MU. reflexivity.
Qed.

(** ** All rounds *)
Lemma mfold_snoc {A S} (f : S -> A -> res S) l x s s1 s2 : mfold f l s = Ok s1 -> f s1 x = Ok s2 -> mfold f (l ++ [x]) s = Ok s2.
Proof. intros M F. rewrite mfold_app, M. cbn [bind mfold]. rewrite F. reflexivity. Qed.
Lemma combine_snoc {A B} (l : list A) (r : list B) x y : length l = length r -> List.combine (l ++ [x]) (r ++ [y]) = List.combine l r ++ [(x, y)].
Proof. revert r. induction l as [|a l IH]; intros [|b r] H; cbn in *; try discriminate; [reflexivity|]. rewrite IH by lia. reflexivity. Qed.
Lemma est_fold_length t l : forall k ps k' ps', mfold (est_round t) l (k, ps) = Ok (k', ps') -> length ps' = (length ps + length l)%nat.
Proof.
  induction l as [|x l IH]; intros k ps k' ps' E; cbn [mfold] in E; [injection E as <- <-; cbn; lia|]. apply bind_ok in E. destruct E as ((k1 & p1) & R & E). apply IH in E. rewrite E.
  unfold est_round in R. cbn [fst snd] in R. apply bind_ok in R. destruct R as ((? & ?) & _ & R). apply bind_ok in R. destruct R as (? & _ & R). injection R as _ <-. rewrite app_length. cbn. lia.
Qed.
Lemma filter_snoc {A} (f : A -> bool) l x : filter f (l ++ [x]) = if f x then filter f l ++ [x] else filter f l.
Proof. rewrite filter_app. cbn [filter]. destruct (f x); [reflexivity|apply app_nil_r]. Qed.
Lemma made_snoc o h x q rs : made o h = map Some rs -> znth (snd x) o = Some q -> made o (h ++ [x]) = map Some (rs ++ [q]).
Proof. intros M Q. unfold made in *. unfold heard in *. rewrite !map_app, M. cbn [map]. rewrite Q. reflexivity. Qed.
Lemma learnt_step t o h x row k k1 k2 q : order_learnt t o h k -> znth row o = Some q ->
  order_predict t (fst (fst x)) (snd (fst x)) o k (below o (x, row)) k1 q -> order_update t (fst (fst x)) (snd x) o k1 k2 -> order_learnt t o (h ++ [(x, row)]) k2.
Proof.
  intros (EE & NN & FX) Q OP OU. pose proof OP as (s & _ & S & _ & _). destruct s as [d n b|d e u runs c].
  - assert (ET : edge_heard o (h ++ [(x, row)]) = edge_heard o h ++ [(x, row)]) by (unfold edge_heard; rewrite filter_snoc; cbn [fst]; rewrite S; reflexivity).
    assert (NT : node_heard o (h ++ [(x, row)]) = node_heard o h) by (unfold node_heard; rewrite filter_snoc; cbn [fst]; rewrite S; reflexivity).
    destruct EE as (ix & k0 & lessons & ps & IX & K0 & F & M & ix' & m0 & taught & rs & IX' & M0 & F' & M' & MD).
    destruct (edge_round t o x k k1 k2 q row ps rs d n b S OP OU) as (l & p & ml & L1 & L2 & L3 & L4 & L5 & L6 & L7).
    unfold order_learnt. rewrite ET, NT, L5, L6, L7. split; [|split; [exact NN|exact FX]].
    exists ix, k0, (lessons ++ [l]), (ps ++ [p]). split; [exact IX|]. split; [exact K0|]. split; [apply Forall2_app; [exact F|constructor; [exact L1|constructor]]|].
    split; [exact (mfold_snoc _ _ _ _ _ _ M L2)|]. exists ix', m0, (taught ++ [ml]), (rs ++ [q]). split; [exact IX'|]. split; [exact M0|]. split.
    + rewrite combine_snoc; [apply Forall2_app; [exact F'|constructor; [exact L3|constructor]]|]. rewrite (est_fold_length _ _ _ _ _ _ M). cbn. exact (Forall2_length _ _ _ F).
    + split; [exact (mfold_snoc _ _ _ _ _ _ M' L4)|]. apply made_snoc; assumption.
  - assert (ET : edge_heard o (h ++ [(x, row)]) = edge_heard o h) by (unfold edge_heard; rewrite filter_snoc; cbn [fst]; rewrite S; reflexivity).
    assert (NT : node_heard o (h ++ [(x, row)]) = node_heard o h ++ [(x, row)]) by (unfold node_heard; rewrite filter_snoc; cbn [fst]; rewrite S; reflexivity).
    destruct NN as (ix & k0 & lessons & ps & IX & K0 & F & M & ix' & m0 & taught & rs & IX' & M0 & F' & M' & MD).
    destruct (node_round t o x k k1 k2 q row ps rs d e u runs c S OP OU) as (l & p & ml & L1 & L2 & L3 & L4 & L5 & L6 & L7).
    unfold order_learnt. rewrite ET, NT, L5, L6, L7. split; [exact EE|]. split; [|exact FX].
    exists ix, k0, (lessons ++ [l]), (ps ++ [p]). split; [exact IX|]. split; [exact K0|]. split; [apply Forall2_app; [exact F|constructor; [exact L1|constructor]]|].
    split; [exact (mfold_snoc _ _ _ _ _ _ M L2)|]. exists ix', m0, (taught ++ [ml]), (rs ++ [q]). split; [exact IX'|]. split; [exact M0|]. split.
    + rewrite combine_snoc; [apply Forall2_app; [exact F'|constructor; [exact L3|constructor]]|]. rewrite (est_fold_length _ _ _ _ _ _ M). cbn. exact (Forall2_length _ _ _ F).
    + split; [exact (mfold_snoc _ _ _ _ _ _ M' L4)|]. apply made_snoc; assumption.
Qed.
Lemma learnt_skip t o h x row k : order_learnt t o h k -> znth (fst (fst x)) o = None -> order_learnt t o (h ++ [(x, row)]) k.
Proof.
  intros OL Z1. unfold order_learnt. replace (edge_heard o (h ++ [(x, row)])) with (edge_heard o h) by (unfold edge_heard; rewrite filter_snoc; cbn [fst]; rewrite Z1; reflexivity).
  replace (node_heard o (h ++ [(x, row)])) with (node_heard o h) by (unfold node_heard; rewrite filter_snoc; cbn [fst]; rewrite Z1; reflexivity). exact OL.
Qed.
Lemma learnt_new t o k : order_kit_new t = Ok k -> order_learnt t o [] k.
Proof.
  intros E. unfold order_kit_new in E. apply bind_ok in E. destruct E as (sg & SG & E). apply bind_ok in E. destruct E as (ix3 & X3 & E). apply bind_ok in E. destruct E as (edge & ED & E).
  replace node_mixer_extra_dimensions with (Ok [6; 4; 32]) in E by (vm_compute; reflexivity). cbn [bind] in E. apply bind_ok in E. destruct E as (ix4 & X4 & E). apply bind_ok in E. destruct E as (node & NO & E). injection E as <-.
  unfold single_new in SG. replace (quantize max_run_length) with (Ok 19) in SG by (vm_compute; reflexivity). cbn [bind] in SG.
  replace (shl i32 2 21) with (Ok (2 * 2 ^ 21)) in SG by (vm_compute; reflexivity). cbn [bind] in SG.
  replace (fix_new stretched_d (2 * 2 ^ 21) 21) with (Ok (2 * 2 ^ 21)) in SG by (vm_compute; reflexivity). cbn [bind] in SG.
  apply bind_ok in SG. destruct SG as (sq & SQ & SG). replace (add usize 19 1) with (Ok 20) in SG by (vm_compute; reflexivity). cbn [bind] in SG.
  apply bind_ok in SG. destruct SG as (ix1 & X1 & SG). apply bind_ok in SG. destruct SG as (e1 & E1 & SG). apply bind_ok in SG. destruct SG as (ix2 & X2 & SG). apply bind_ok in SG. destruct SG as (e2 & E2 & SG). injection SG as <-.
  cbn [app] in *. unfold order_learnt. cbn [ok_single ok_edge ok_node sg_edge sg_node sg_fixed edge_heard node_heard filter fst snd].
  split; [|split; [|split; [exact SQ|reflexivity]]].
  - exists ix1, e1, [], []. split; [exact X1|]. split; [exact E1|]. split; [constructor|]. split; [reflexivity|]. exists ix3, edge, [], []. split; [exact X3|]. split; [exact ED|]. split; [constructor|]. split; reflexivity.
  - exists ix2, e2, [], []. split; [exact X2|]. split; [exact E2|]. split; [constructor|]. split; [reflexivity|]. exists ix4, node, [], []. split; [exact X4|]. split; [exact NO|]. split; [constructor|]. split; reflexivity.
Qed.
Lemma znth_beyond {A} (l : list A) i : zlen l <= i -> znth l i = None.
Proof. intros H. destruct (znth l i) eqn:E; [|reflexivity]. apply znth_Some in E. lia. Qed.
Lemma chain_learns t n kits0 : chain_new t n = Ok kits0 -> forall rounds kits outs, mfold (chain_round t) rounds (kits0, []) = Ok (kits, outs) ->
  exists rows, rows_fit rounds rows /\ outs = map (fun row => last row (2 ^ 30, 0)) rows /\ zlen kits = zlen kits0 /\
    forall o k, znth kits o = Some k -> order_learnt t o (List.combine rounds rows) k.
Proof.
  intros CN rounds. induction rounds as [|x rounds IH] using rev_ind; intros kits outs M.
  - cbn [mfold] in M. injection M as <- <-. exists []. split; [constructor|]. split; [reflexivity|]. split; [reflexivity|]. intros o k K. unfold chain_new in CN.
    destruct (mmap_same _ _ _ _ _ CN K) as (? & _ & N). apply learnt_new. exact N.
  - rewrite mfold_app in M. apply bind_ok in M. destruct M as ((k1 & o1) & M1 & M). cbn [mfold] in M. apply bind_ok in M. destruct M as ((k2 & o2) & M2 & M). injection M as <- <-.
    destruct (IH k1 o1 M1) as (rows & RF & -> & ZL & LE). apply chain_round_inv in M2. destruct M2 as (row & LN & -> & LK & OUT & INS).
    exists (rows ++ [row]). split; [apply Forall2_app; [exact RF|constructor; [exact LN|constructor]]|]. split; [rewrite map_app; reflexivity|]. split; [congruence|].
    intros o k K. rewrite combine_snoc by exact (Forall2_length _ _ _ RF). destruct (Z_lt_ge_dec o (zlen (fst (fst x)))) as [OL|OG].
    + pose proof (znth_Some _ _ _ K) as KB. destruct (INS o ltac:(lia)) as (ka & kb & kc & q & KA & KC & Q & OP & OU). assert (kc = k) by congruence. subst kc.
      exact (learnt_step t o _ x row ka kb k q (LE o ka KA) Q OP OU).
    + rewrite OUT in K by lia. apply learnt_skip; [exact (LE o k K)|]. apply znth_beyond. lia.
Qed.
