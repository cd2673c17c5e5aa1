(** What a source of histories reports, as a function of all bits fed to it so far. *)
From Verif Require Import Base StatesModel StatesSpec WindowModel HistModel.

(** Each bit comes with the cost trackers supplied with it. *)
Definition fed : Type := list (bit * list cost_trackers).

(** Feeding: a byte is started before each eighth bit, and before asking for states when the last byte is complete. *)
Definition feed_step {S : Type} (start : S -> res S) (process : S -> bit -> list cost_trackers -> res S) (st : Z * S) (x : bit * list cost_trackers)
    : res (Z * S) :=
  let '(position, s) := st in
  let* s := if position mod 8 =? 0 then start s else Ok s in
  let* s := process s (fst x) (snd x) in
  Ok (position + 1, s).
Definition feed {S : Type} (start : S -> res S) (process : S -> bit -> list cost_trackers -> res S) (s : S) (input : fed) : res S :=
  let* st := mfold (feed_step start process) input (0, s) in
  let '(position, s) := st in
  if position mod 8 =? 0 then start s else Ok s.

(** The states the two sources report after the input, on top of [items]. *)
Definition naive_states (t : luts) (max max_order : Z) (input : fed) (items : list context_state) : res (list context_state) :=
  let* s := naive_new max max_order in
  let* s := feed naive_start naive_process s input in
  naive_gather t s items.
Definition fat_states (t : luts) (hash : hasher) (max max_order : Z) (input : fed) (items : list context_state) : res (list context_state) :=
  let* s := fat_new max max_order in
  let* s := feed fat_start (fat_process t hash) s input in
  fat_gather hash s items.

(** The text is the list of bits, its bytes start at positions divisible by eight.  The context of order [o] at byte [p] is what
    lies between byte [p] and as many bits into byte [p + o] as there are in the unfinished byte at the end of the text. *)
Definition bits_at (text : list bit) (p len : Z) : list bit := firstn (Z.to_nat len) (skipn (Z.to_nat (8 * p)) text).
Definition same (a b : list bit) : bool := if list_eq_dec Bool.bool_dec a b then true else false.
Definition unfinished (text : list bit) : Z := zlen text mod 8.
Definition last_start (text : list bit) (o : Z) : Z := zlen text / 8 - o.
(** The bytes before at which the last context of order [o] is met, in increasing order. *)
Definition earlier (text : list bit) (o : Z) : list Z :=
  let len := 8 * o + unfinished text in
  filter (fun p => same (bits_at text p len) (bits_at text (last_start text o) len)) (zseq 0 (Z.to_nat (last_start text o))).
(** The position of the bit that followed there. *)
Definition after (text : list bit) (o p : Z) : Z := 8 * (p + o) + unfinished text.
Definition followers (text : list bit) (o : Z) : list bit := map (fun p => nth (Z.to_nat (after text o p)) text Zero) (earlier text o).
(** How far the most recent one is, in bytes. *)
Definition distance (text : list bit) (o : Z) : Z := last_start text o - last (earlier text o) 0.

(** The report [states] on the text: for each order from 0 its context was met, the state stands for the bits that followed, at the distance of the last;
    and it stops only at the maximum order or where the context is new. *)
Definition true_report (rates : list Z) (max_order : Z) (text : list bit) (states : list context_state) : Prop :=
  (forall o s, znth states o = Some s -> followers text o <> [] /\ stands_for rates (distance text o) (followers text o) s) /\
  zlen states <= max_order + 1 /\
  (zlen states < max_order + 1 -> followers text (zlen states) = []).

(** The same exactly, with trackers: the state of order [o] starts at the first occurrence and advances over the later ones with the trackers
    supplied there in place [o]. *)
Definition occurrences (input : fed) (o : Z) : list occurrence :=
  let text := map fst input in
  map (fun p => let x := nth (Z.to_nat (after text o p)) input (Zero, []) in (last_start text o - p, fst x, nth (Z.to_nat o) (snd x) ct_default))
    (earlier text o).
Fixpoint report_from (t : luts) (input : fed) (o : Z) (n : nat) : res (list context_state) :=
  match n with
  | O => Ok []
  | S n => match occurrences input o with
           | [] => Ok []
           | first :: later =>
               let* s := advance_all t (fst first) later in
               let* rest := report_from t input (o + 1) n in
               Ok (s :: rest)
           end
  end.
Definition report (t : luts) (max_order : Z) (input : fed) : res (list context_state) := report_from t input 0 (Z.to_nat (max_order + 1)).

(** How many of the orders have met both bits; a caller supplies that many trackers with the next bit. *)
Definition branching (max_order : Z) (text : list bit) : Z :=
  zlen (filter (fun o => negb (uniform (followers text o))) (zseq 0 (Z.to_nat (max_order + 1)))).
Definition well_supplied (max_order : Z) (input : fed) : Prop :=
  forall before b trackers later, input = before ++ (b, trackers) :: later -> zlen trackers = branching max_order (map fst before).
(** No trackers but the default ones. *)
Definition all_default (input : fed) : Prop := Forall (fun x => Forall (fun c => c = ct_default) (snd x)) input.
(** The bits alone. *)
Definition bare (input : fed) : fed := map (fun x => (fst x, [])) input.
