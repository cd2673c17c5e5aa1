(** How a predictor is used, and what its statistics should be. *)
From Verif Require Import Base UtilSpec LogModel StatesModel StatesSpec WindowSpec HistSpec TreeModel TreeSpec PredModel.

(** ** Calls *)
Inductive use : Type := Start | Predict | Update (b : bit).
(** The predictor and the predictions so far. *)
Definition use_step (md : mode) (t : luts) (st : predictor * list Z) (u : use) : res (predictor * list Z) :=
  match u with
  | Start => let* p := predictor_start (fst st) in Ok (p, snd st)
  | Predict => let* r := predictor_predict md t (fst st) in Ok (fst r, snd st ++ [snd r])
  | Update b => let* p := predictor_update md t (fst st) b in Ok (p, snd st)
  end.
Definition use_all (md : mode) (t : luts) (max max_order : Z) (uses : list use) : res (predictor * list Z) :=
  let* p := predictor_make md t max max_order in mfold (use_step md t) uses (p, []).

(** The order of calls: a byte is started, then eight times a prediction and an update follow. *)
Inductive phase : Type := Between | Inside (bits : Z) | Asked (bits : Z).
Definition allowed (ph : phase) (u : use) : option phase :=
  match ph, u with
  | Between, Start => Some (Inside 0)
  | Inside k, Predict => Some (Asked k)
  | Asked k, Update _ => Some (if k =? 7 then Between else Inside (k + 1))
  | _, _ => None
  end.
Fixpoint allowed_all (ph : phase) (uses : list use) : option phase :=
  match uses with
  | [] => Some ph
  | u :: r => match allowed ph u with Some ph => allowed_all ph r | None => None end
  end.
(** The bits told to the predictor, and how many predictions were asked. *)
Definition told (uses : list use) : list bit := flat_map (fun u => match u with Update b => [b] | _ => [] end) uses.
Definition asked (uses : list use) : Z := zlen (filter (fun u => match u with Predict => true | _ => false end) uses).

(** main.rs:57-64: the calls for a file; [byte_bits] are the bits of a byte, the highest first *)
Definition uses_of_byte (x : Z) : list use := Start :: flat_map (fun b => [Predict; Update b]) (byte_bits x).
Definition uses_of (bytes : list Z) : list use := flat_map uses_of_byte bytes.

(** ** Statistics *)
Definition zsum (l : list Z) : Z := fold_right Z.add 0 l.
(** The estimated cost of a bit after the probability [p] of zero. *)
Definition cost_of (t : luts) (p : Z) (b : bit) : Z := match estimate_cost (lt_log2 t) p b with Ok c => c | Fail _ => 0 end.
(** How many orders have met their context in the window. *)
Definition met (max_order : Z) (text : list bit) : Z :=
  zlen (filter (fun o => match followers text o with [] => false | _ => true end) (zseq 0 (Z.to_nat (max_order + 1)))).
(** One line for each bit: in which byte it is, how many contexts were met, how many of them have met both bits, and its cost. *)
Record line : Type := mkLine { ln_byte : Z; ln_met : Z; ln_branching : Z; ln_cost : Z }.
Fixpoint ledger (t : luts) (max max_order : Z) (before : list bit) (trace : list (bit * Z)) : list line :=
  match trace with
  | [] => []
  | (b, p) :: rest =>
      mkLine (zlen before / 8) (met max_order (in_window max before)) (branching max_order (in_window max before)) (cost_of t p b)
      :: ledger t max max_order (before ++ [b]) rest
  end.
(** Costs of the bits that some context predicted, and of those among them that [P] selects. *)
Definition charged (x : line) : bool := 0 <? ln_met x.
Definition costs (P : line -> bool) (l : list line) : Z := zsum (map ln_cost (filter (fun x => charged x && P x) l)).
Definition counts (P : line -> bool) (l : list line) : Z := zlen (filter (fun x => charged x && P x) l).
(** The type of a context: how many orders were met, and how many of them have met one bit only; beyond five and four all are the same. *)
Definition type_of (x : line) : Z := Z.min 4 (ln_met x - 1) * 5 + Z.min 4 (ln_met x - ln_branching x).
Definition every (x : line) : bool := true.
(** The value of byte [k] of the text. *)
Definition text_byte (text : list bit) (k : Z) : Z := number_of (bits_at text k 8).
(** How many bytes were started. *)
Definition started (uses : list use) : Z := zlen (filter (fun u => match u with Start => true | _ => false end) uses).
(** Each bit with the probability of zero predicted for it. *)
Definition trace_of (uses : list use) (probabilities : list Z) : list (bit * Z) := List.combine (told uses) probabilities.

(** ** Orders of states *)
(** No deterministic state comes before a branching one. *)
Definition branching_first (states : list context_state) : Prop :=
  forall i j s s', i <= j -> znth states i = Some s -> znth states j = Some s' -> is_for_node s' = true -> is_for_node s = true.
(** Neighbours can be compared. *)
Definition comparable (t : luts) (states : list context_state) : Prop :=
  forall i s s', znth states i = Some s -> znth states (i + 1) = Some s' -> exists c, compare_context_states t s s' = Ok c.

(** What the statistics say, in terms of the ledger: the bytes started, of which all but the last are attributed to their symbols. *)
Record accounted (starts : Z) (text : list bit) (l : list line) (s : stats) : Prop := {
  ac_bytes : st_total_bytes s = starts;
  ac_contexts : st_total_contexts s = zsum (map ln_met l);
  ac_counts : st_order_counts s = map (fun i => counts (fun x => type_of x =? i) l) (zseq 0 25);
  ac_costs : st_order_costs s = map (fun i => costs (fun x => type_of x =? i) l) (zseq 0 25);
  ac_symbol_counts : st_symbol_counts s = map (fun v => zlen (filter (fun k => text_byte text k =? v) (zseq 0 (Z.to_nat (starts - 1))))) (zseq 0 256);
  ac_symbol_costs : st_symbol_costs s = map (fun v => costs (fun x => (ln_byte x <? starts - 1) && (text_byte text (ln_byte x) =? v)) l) (zseq 0 256);
  ac_byte : 0 < starts -> st_byte_cost s = costs (fun x => ln_byte x =? starts - 1) l;
  ac_total : st_total_cost s = costs every l }.
