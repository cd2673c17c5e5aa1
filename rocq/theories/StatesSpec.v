(** What a context state says about the bits that followed a context (in chronological order). *)
From Verif Require Import Base StateModel EstModel LogModel StatesModel.

(** The bits all agree with the first one. *)
Definition uniform (h : list bit) : bool := forallb (Bool.eqb (hd Zero h)) h.

(** The history with its initial run cut to the last 1000 bits. *)
Fixpoint run_length (b : bit) (h : list bit) : nat :=
  match h with x :: r => if Bool.eqb b x then S (run_length b r) else O | [] => O end.
Definition cut_run (h : list bit) : list bit := skipn (run_length (hd Zero h) h - 1000) h.

(** Bookkeeping one history at a time: the estimator of a list of bits, and what is kept of the last bits and of the runs. *)
Definition estimator_of (rates : list Z) (h : list bit) : res Z := let* e := de_new in mfold (de_update rates) h e.
Definition recent_of (h : list bit) : res Z := mfold rb_updated h 1.
Definition runs_of (h : list bit) : res Z := mfold br_updated h br_new.

(** The state [s] stands for the history [h], last met at [d]. *)
Definition stands_for (rates : list Z) (d : Z) (h : list bit) (s : context_state) : Prop :=
  if uniform h then s = ForEdge d (Z.min 1000 (zlen h)) (hd Zero h)
  else exists e r q c, s = ForNode d e r q c /\ estimator_of rates (cut_run h) = Ok e /\ recent_of h = Ok r /\ runs_of h = Ok q.

(** One more occurrence: its distance, the bit that followed, and the trackers a caller supplies for branching states. *)
Definition occurrence : Type := (Z * bit * cost_trackers)%type.
Definition advance (t : luts) (s : context_state) (o : occurrence) : res context_state :=
  let '(d, b, c) := o in next_state t s d b (if is_for_node s then Some c else None).
Definition advance_all (t : luts) (first : Z * bit) (later : list occurrence) : res context_state :=
  mfold (advance t) later (starting_state (fst first) (snd first)).
(** The bits and the last distance of such a list. *)
Definition bits_of (first : Z * bit) (later : list occurrence) : list bit := snd first :: map (fun o => snd (fst o)) later.
Definition last_distance (first : Z * bit) (later : list occurrence) : Z := last (map (fun o => fst (fst o)) later) (fst first).
