(** What the parts of the predictor are told about the text. *)
From Verif Require Import Base UtilModel UtilSpec FixedModel LutModel ApmModel StatesModel WindowSpec HistSpec TreeModel TreeSpec PredModel PredSpec KitSpec.

(** The bits of the unfinished byte, and the complete bytes before it, 0 before the beginning. *)
Definition begun (text : list bit) : list bit := skipn (Z.to_nat (8 * (zlen text / 8))) text.
Definition byte_before (text : list bit) (k : Z) : Z := if zlen text / 8 <? k then 0 else text_byte text (zlen text / 8 - k).
(** The unfinished byte, with a one in front of its bits. *)
Definition open_byte (text : list bit) : Z := number_of (true :: begun text).
(** The contexts of the four maps of the finalizer. *)
Definition map_context0 (text : list bit) : Z := open_byte text.
Definition map_context1 (text : list bit) : Z := (256 + byte_before text 1) * 2 ^ zlen (begun text) + number_of (begun text).
Definition map_context2 (text : list bit) : Z := fold16 (fnv1a [byte_before text 2; byte_before text 1; open_byte text]).
Definition map_context3 (text : list bit) : Z := fold16 (fnv1a [byte_before text 3; byte_before text 2; byte_before text 1; open_byte text]).

(** The rounds of the chain: the reports of the tree, one for each bit, the unfinished byte before the bit, and the bit. *)
Fixpoint rounds_of (before text : list bit) (states : list (list context_state)) : list round :=
  match text, states with
  | b :: rest, s :: more => (s, open_byte before, b) :: rounds_of (before ++ [b]) rest more
  | _, _ => []
  end.
Definition reported (t : luts) (max max_order : Z) (text : list bit) (states : list (list context_state)) : Prop :=
  forall i s, znth states i = Some s -> window_report (lt_rates t) max_order (forgotten max (firstn (Z.to_nat i) text)) (in_window max (firstn (Z.to_nat i) text)) s.

(** The lessons of a map: its context, what is to be refined, and the bit. *)
Fixpoint map_lessons (context : list bit -> Z) (before text : list bit) (inputs : list (Z * Z)) : list (Z * (Z * Z) * bit) :=
  match text, inputs with
  | b :: rest, x :: more => (context before, x, b) :: map_lessons context (before ++ [b]) rest more
  | _, _ => []
  end.
Definition map_round (t : luts) (st : apm * list Z) (x : Z * (Z * Z) * bit) : res (apm * list Z) :=
  let* lut := luts_apm t 0 in
  let* r := refine (fst st) (fst (fst x)) (fst (snd (fst x))) (snd (snd (fst x))) lut in
  let* a := update_predictions (fst r) (fst (fst x)) (snd x) 5 true in Ok (a, snd st ++ [snd r]).
(** Three parts of the prediction of the chain and one of the first map. *)
Definition middle (t : luts) (x : Z * Z * Z) (m : Z * Z) : Prop := fst m = (3 * fst (fst x) + snd x + 2) / 4 /\ stretch (lt_stretch t) (fst m) = Ok (snd m).
(** One part each of the second and of the last map and two of the third, to the nearest multiple of 2^-23, but never 0 or 1. *)
Definition final_of (p1 p2 p3 : Z) : Z := Z.max 1 (Z.min (((p1 + 2 * p2 + p3 + 2) / 4 + 128) / 256) (2 ^ 23 - 1)).
Fixpoint finals (r1 r2 r3 : list Z) : list Z :=
  match r1, r2, r3 with p1 :: r1, p2 :: r2, p3 :: r3 => final_of p1 p2 p3 :: finals r1 r2 r3 | _, _, _ => [] end.
Definition light (t : luts) (text : list bit) (outs : list (Z * Z)) (probabilities : list Z) (f : finalizer) : Prop :=
  exists a0 a1 r0 mids r1 r2 r3, apm_new 256 0 (lt_squash t) = Ok a0 /\ apm_new 65536 0 (lt_squash t) = Ok a1 /\
    mfold (map_round t) (map_lessons map_context0 [] text outs) (a0, []) = Ok (pf_order0 f, r0) /\ Forall2 (middle t) (List.combine outs r0) mids /\
    mfold (map_round t) (map_lessons map_context1 [] text mids) (a1, []) = Ok (pf_order1 f, r1) /\
    mfold (map_round t) (map_lessons map_context2 [] text mids) (a1, []) = Ok (pf_order2 f, r2) /\
    mfold (map_round t) (map_lessons map_context3 [] text mids) (a1, []) = Ok (pf_order3 f, r3) /\
    length r0 = length text /\ length mids = length text /\ probabilities = finals r1 r2 r3.
(** What the tree was fed: the text, with each bit the trackers the chain gave back for it. Its states before each bit are the report of a tree that was fed the input so far. *)
Definition tree_reports (t : luts) (max max_order : Z) (input : fed) (states : list (list context_state)) : Prop :=
  forall i s, znth states i = Some s -> tree_states t max max_order 0 (firstn (Z.to_nat i) input) [] = Ok s.
Definition tracker_round (t : luts) (st : list order_kit * list (list cost_trackers)) (x : round) : res (list order_kit * list (list cost_trackers)) :=
  let* r := chain_predict t (fst st) (fst (fst x)) (snd (fst x)) in
  let* u := chain_update t (fst r) (snd x) (fst (fst x)) in Ok (fst u, snd st ++ [snd u]).
(** The type of a report as in C45, how often the highest context of a report occurred, and the sums of these over the reports of each type. *)
Definition report_type (s : list context_state) : Z := Z.min 4 (zlen s - 1) * 5 + Z.min 4 (zlen (filter (fun x => negb (is_for_node x)) s)).
Definition highest_count (s : list context_state) : Z := match rev s with [] => 0 | x :: _ => occurrence_count x end.
Definition occurrence_sums (max_order : Z) (states : list (list context_state)) : list Z :=
  map (fun i => zsum (map highest_count (filter (fun s => (0 <? zlen s) && (report_type s =? i)) states))) (zseq 0 (Z.to_nat (5 * (max_order + 1)))).
(** The predictor after the text, between two bits: the tree was told the text, the chain was told the reports of the tree, the statistics count the occurrences in them,
    and the finalizer refined what the chain said. *)
Definition wired (t : luts) (max max_order : Z) (text : list bit) (p : predictor) (probabilities : list Z) : Prop :=
  exists input states kits outs, map fst input = text /\ supplied max max_order input /\ length states = length text /\ tree_reports t max max_order input states /\
    reported t max max_order text states /\ chain_new t max_order = Ok kits /\
    mfold (chain_round t) (rounds_of [] text states) (kits, []) = Ok (pr_chain p, outs) /\ mfold (tracker_round t) (rounds_of [] text states) (kits, []) = Ok (pr_chain p, map snd input) /\
    st_order_occurrences (pr_stats p) = occurrence_sums max_order states /\ length outs = length text /\ light t text outs probabilities (pr_finalizer p).
