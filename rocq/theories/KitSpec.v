(** What it means that each slot of a kit, and each order of the chain, learns from its own bits only. *)
From Verif Require Import Base UtilModel UtilSpec StateModel EstModel LutModel ApmModel MixerModel StatesModel PredModel.

(** The lessons of one slot: those given under its sub-indices. *)
Definition same_key (a b : list Z) : bool := if list_eq_dec Z.eq_dec a b then true else false.
Definition own {B : Type} (key : list Z) (lessons : list (list Z * B)) : list B := map snd (filter (fun x => same_key (fst x) key) lessons).

(** ** Kits of estimators: each lesson is a prediction for some sub-indices and the bit that followed. *)
Definition est_round (t : luts) (st : est_kit * list (Z * Z)) (x : list Z * bit) : res (est_kit * list (Z * Z)) :=
  let* r := est_kit_predict t (fst st) (fst x) in
  let* k := est_kit_update t (fst r) (snd x) in Ok (k, snd st ++ [snd r]).
(** One estimator of its own, taught the given bits. *)
Definition private_estimator (t : luts) (bits : list bit) : res Z := let* e := de_new in mfold (fun e b => de_update (lt_rates t) e b) bits e.
(** The prediction for some sub-indices is that of an estimator that was taught the bits of these sub-indices before it, and nothing else. *)
Definition est_story (t : luts) (h : list (list Z * bit)) (ps : list (Z * Z)) : Prop :=
  length ps = length h /\ forall i key b, nth_error h i = Some (key, b) -> exists e p s,
    private_estimator t (own key (firstn i h)) = Ok e /\ de_prediction e = Ok p /\ stretch (lt_stretch t) p = Ok s /\ nth_error ps i = Some (p, s).

(** ** Kits of mixers: sub-indices (some given before), inputs, bit and limit of the rate index. *)
Record mix_lesson : Type := mkLesson { ml_inputs : list (Z * (Z * Z)); ml_bit : bit; ml_limit : Z }.
Definition mixer_round (t : luts) (st : mixer_kit * list (Z * Z)) (x : (list Z * list Z) * mix_lesson) : res (mixer_kit * list (Z * Z)) :=
  let* k := mixer_kit_pre_predict (fst st) (fst (fst x)) in
  let* r := mixer_kit_predict t k (snd (fst x)) (ml_inputs (snd x)) in
  let* u := mixer_kit_update t (fst r) (ml_bit (snd x)) (ml_limit (snd x)) in Ok (fst u, snd st ++ [snd r]).
(** A lesson a mixer of [size] inputs can be given: each input once, probabilities inside (0, 1), stretched within [-12, 12]. *)
Definition fair_lesson (size limit : Z) (x : mix_lesson) : Prop :=
  NoDup (map fst (ml_inputs x)) /\ (forall i, In i (map fst (ml_inputs x)) <-> 0 <= i < size) /\ ml_limit x = limit /\
  Forall (fun i => 0 < fst (snd i) < 2 ^ 31 /\ - (12 * 2 ^ 21) <= snd (snd i) <= 12 * 2 ^ 21) (ml_inputs x).
(** One mixer of its own: the inputs set, then mixed, then taught the bit. *)
Definition private_mix (t : luts) (inputs : list (Z * (Z * Z))) (m : mixer) : res (mixer * (Z * Z)) :=
  let* m := mfold (fun m x => set_input m (fst x) (fst (snd x)) (snd (snd x))) inputs m in let* r := mix_all (lt_squash t) m in Ok (m, r).
Definition private_lesson (t : luts) (m : mixer) (x : mix_lesson) : res mixer :=
  let* r := private_mix t (ml_inputs x) m in update_and_reset (lt_rates t) (fst r) (ml_bit x) (fst (snd r)) (ml_limit x).
Definition private_mixer (t : luts) (maker : res mixer) (lessons : list mix_lesson) : res mixer := let* m := maker in mfold (private_lesson t) lessons m.
Definition joined (lessons : list ((list Z * list Z) * mix_lesson)) : list (list Z * mix_lesson) := map (fun x => (fst (fst x) ++ snd (fst x), snd x)) lessons.
Definition mix_story (t : luts) (maker : res mixer) (h : list ((list Z * list Z) * mix_lesson)) (rs : list (Z * Z)) : Prop :=
  length rs = length h /\ forall i pre setup x, nth_error h i = Some ((pre, setup), x) -> exists m m' r,
    private_mixer t maker (own (pre ++ setup) (firstn i (joined h))) = Ok m /\ private_mix t (ml_inputs x) m = Ok (m', r) /\ nth_error rs i = Some r.

(** ** The chain: states, unfinished byte and bit of each round. *)
Definition round : Type := (list context_state * Z * bit)%type.
Definition chain_round (t : luts) (st : list order_kit * list (Z * Z)) (x : round) : res (list order_kit * list (Z * Z)) :=
  let* r := chain_predict t (fst st) (fst (fst x)) (snd (fst x)) in
  let* u := chain_update t (fst r) (snd x) (fst (fst x)) in Ok (fst u, snd st ++ [snd r]).
(** What an order hears: its state, the states of all orders, the unfinished byte, the bit, and the predictions of all orders in that round. *)
Definition heard : Type := (round * list (Z * Z))%type.
Definition edge_heard (o : Z) (h : list heard) : list heard := filter (fun x => match znth (fst (fst (fst x))) o with Some (ForEdge _ _ _) => true | _ => false end) h.
Definition node_heard (o : Z) (h : list heard) : list heard := filter (fun x => match znth (fst (fst (fst x))) o with Some (ForNode _ _ _ _ _) => true | _ => false end) h.
(** While a context has met one bit only, its order asks the estimator of the number of occurrences and the unfinished byte; *)
Definition edge_lesson (o : Z) (x : heard) (l : list Z * bit) : Prop :=
  exists d n b q, znth (fst (fst (fst x))) o = Some (ForEdge d n b) /\ quantize n = Ok q /\ l = ([q; snd (fst (fst x))], snd (fst x)).
(** later the estimator of the length and the bit of the last run. *)
Definition node_lesson (o : Z) (x : heard) (l : list Z * bit) : Prop :=
  exists d e u runs c n q, znth (fst (fst (fst x))) o = Some (ForNode d e u runs c) /\ br_last_bit_run_length runs = Ok n /\ quantize n = Ok q /\
    l = ([q; if br_last_bit runs then 1 else 0], snd (fst x)).
(** The prediction of the order before is the first input of the mixer, whichever mixer made it. *)
Definition below (o : Z) (x : heard) : Z * Z := if o =? 0 then (2 ^ 30, 0) else match znth (snd x) (o - 1) with Some r => r | None => (0, 0) end.
(** Whether it is the highest order in use and how its state compares to that of the order before. *)
Definition place_of (t : luts) (o : Z) (contexts : list context_state) (pre : list Z) : Prop :=
  exists c, pre = [if o =? zlen contexts - 1 then 1 else 0; c] /\
    (if o =? 0 then c = 0 else exists before this, znth contexts (o - 1) = Some before /\ znth contexts o = Some this /\ compare_context_states t before this = Ok c).
Definition edge_mix (t : luts) (o : Z) (fixed : Z * Z) (xp : heard * (Z * Z)) (l : (list Z * list Z) * mix_lesson) : Prop :=
  exists d n b direct, znth (fst (fst (fst (fst xp)))) o = Some (ForEdge d n b) /\ direct_for_0_bit_run t n = Ok direct /\
    place_of t o (fst (fst (fst (fst xp)))) (fst (fst l)) /\ snd (fst l) = [quantize_distance d; if b then 1 else 0] /\
    snd l = mkLesson [(0, below o (fst xp)); (1, direct); (2, fixed); (3, snd xp)] (snd (fst (fst xp))) 300.
Definition node_mix (t : luts) (o : Z) (xp : heard * (Z * Z)) (l : (list Z * list Z) * mix_lesson) : Prop :=
  exists d e u runs c p s n q qc, znth (fst (fst (fst (fst xp)))) o = Some (ForNode d e u runs c) /\ de_prediction e = Ok p /\ stretch (lt_stretch t) p = Ok s /\
    place_of t o (fst (fst (fst (fst xp)))) (fst (fst l)) /\ br_opposite_bit_run_length runs = Ok n /\ quantize n = Ok q /\ quantize_cost_trackers c = Ok qc /\
    snd (fst l) = [qc; quantize_distance d; q] /\
    snd l = mkLesson [(0, below o (fst xp)); (1, (p, s)); (2, snd xp)] (snd (fst (fst xp))) 100.
(** The prediction an order made. *)
Definition made (o : Z) (h : list heard) : list (option (Z * Z)) := map (fun x => znth (snd x) o) h.
(** An order is what its own kits learnt from what it heard. *)
Definition order_learnt (t : luts) (o : Z) (h : list heard) (k : order_kit) : Prop :=
  (exists ix k0 lessons ps, ix_new 2 [20; 256] = Ok ix /\ est_kit_new ix = Ok k0 /\ Forall2 (edge_lesson o) (edge_heard o h) lessons /\
    mfold (est_round t) lessons (k0, []) = Ok (sg_edge (ok_single k), ps) /\
    exists ix m0 taught rs, ix_new 4 [2; 3; 4; 2] = Ok ix /\ mixer_kit_new (fixed_mixer_new 4 10 DominantFirst) ix = Ok m0 /\
      Forall2 (edge_mix t o (sg_fixed (ok_single k))) (List.combine (edge_heard o h) ps) taught /\
      mfold (mixer_round t) taught (m0, []) = Ok (ok_edge k, rs) /\ made o (edge_heard o h) = map Some rs) /\
  (exists ix k0 lessons ps, ix_new 2 [20; 2] = Ok ix /\ est_kit_new ix = Ok k0 /\ Forall2 (node_lesson o) (node_heard o h) lessons /\
    mfold (est_round t) lessons (k0, []) = Ok (sg_node (ok_single k), ps) /\
    exists ix m0 taught rs, ix_new 5 [2; 3; 6; 4; 32] = Ok ix /\ mixer_kit_new (fixed_mixer_new 3 10 DominantFirst) ix = Ok m0 /\
      Forall2 (node_mix t o) (List.combine (node_heard o h) ps) taught /\
      mfold (mixer_round t) taught (m0, []) = Ok (ok_node k, rs) /\ made o (node_heard o h) = map Some rs) /\
  squash (lt_squash t) (2 * 2 ^ 21) = Ok (fst (sg_fixed (ok_single k))) /\ snd (sg_fixed (ok_single k)) = 2 * 2 ^ 21.
(** In each round every order with a state makes a prediction. *)
Definition rows_fit (rounds : list round) (rows : list (list (Z * Z))) : Prop := Forall2 (fun x row => length row = length (fst (fst x))) rounds rows.
