(** Calls of a source of histories in any order, and which of them it should accept. *)
From Verif Require Import Base StatesModel HistSpec.

(** The three calls: start_new_byte, gather_history_states with an empty list, process_input_bit. *)
Inductive ask : Type := Begin | Report | Tell (b : bit) (trackers : list cost_trackers).
(** A source and what it reported so far. *)
Definition act {S : Type} (start : S -> res S) (gather : S -> list context_state -> res (list context_state)) (process : S -> bit -> list cost_trackers -> res S)
    (st : S * list (list context_state)) (a : ask) : res (S * list (list context_state)) :=
  let '(s, reports) := st in
  match a with
  | Begin => let* s := start s in Ok (s, reports)
  | Report => let* items := gather s [] in Ok (s, reports ++ [items])
  | Tell b trackers => let* s := process s b trackers in Ok (s, reports)
  end.

(** The bits told, with their trackers. *)
Definition heard (asks : list ask) : fed := flat_map (fun a => match a with Tell b trackers => [(b, trackers)] | _ => [] end) asks.
(** A byte is begun when none is open, eight bits are told and it is closed; reports are asked while it is open. [room] tells whether there is room for a byte
    after so many bits, [quiet] whether a report that is asked too early is accepted nevertheless. *)
Fixpoint accepted (room quiet : Z -> bool) (told : Z) (open : bool) (asks : list ask) : bool :=
  match asks with
  | [] => true
  | Begin :: rest => negb open && room told && accepted room quiet told true rest
  | Report :: rest => (open || quiet told) && accepted room quiet told open rest
  | Tell _ _ :: rest => open && accepted room quiet (told + 1) (negb ((told + 1) mod 8 =? 0)) rest
  end.
(** Whether a byte is open at the end. *)
Fixpoint open_after (told : Z) (open : bool) (asks : list ask) : bool :=
  match asks with
  | [] => open
  | Begin :: rest => open_after told true rest
  | Report :: rest => open_after told open rest
  | Tell _ _ :: rest => open_after (told + 1) (negb ((told + 1) mod 8 =? 0)) rest
  end.
(** What was told before each report, and whether a byte was open. *)
Fixpoint questions (before : fed) (open : bool) (asks : list ask) : list (fed * bool) :=
  match asks with
  | [] => []
  | Begin :: rest => questions before true rest
  | Report :: rest => (before, open) :: questions before open rest
  | Tell b trackers :: rest => questions (before ++ [(b, trackers)]) (negb ((zlen before + 1) mod 8 =? 0)) rest
  end.
(** The reports are right while a byte is open, empty otherwise. *)
Definition answered (right : fed -> list context_state -> Prop) (q : fed * bool) (items : list context_state) : Prop :=
  if snd q then right (fst q) items else items = [].

(** The tree slides, so there always is room; the others end with their window. *)
Definition always (told : Z) : bool := true.
Definition never (told : Z) : bool := false.
Definition window_room (max told : Z) : bool := told / 8 <? max.
(** The exhaustive source has nothing to look at before a first byte if its window has one byte, and after one byte. *)
Definition nothing_to_see (max told : Z) : bool := if told =? 0 then max =? 1 else told =? 8.
