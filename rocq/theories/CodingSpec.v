(** Abstract arithmetic coder over unbounded integers, used to state and prove facts about the
    machine-level coder.  An abstract state is (number of octets shifted out, low, range). *)
From Verif Require Import Base CodingModel.

Definition byte_list (l : list Z) : Prop := Forall (fun b => 0 <= b <= 255) l.

(** Events whose probability is one a FinalProbability can hold. *)
Definition ev_ok (e : event) : bool := match e with EvBit p _ => fp_valid p | EvRare _ => true end.
Definition rq_ok (r : request) : bool := match r with RqBit p => fp_valid p | RqRare => true end.

Record ast : Type := mkAst { a_n : Z; a_low : Z; a_range : Z }.

Definition a_init : ast := mkAst 0 0 (2 ^ 31 - 1).

Fixpoint a_norm (fuel : nat) (a : ast) : ast :=
  if a_range a <? 2 ^ 23 then
    match fuel with
    | O => a
    | S f => a_norm f (mkAst (a_n a + 1) (a_low a * 256) (a_range a * 256))
    end
  else a.

Definition a_split (e : event) (a : ast) : ast :=
  match e with
  | EvBit p v =>
    let h := a_range a * p / 2 ^ 23 in
    if v then mkAst (a_n a) (a_low a + h) (a_range a - h) else mkAst (a_n a) (a_low a) h
  | EvRare r =>
    if r then mkAst (a_n a) (a_low a + (a_range a - 1)) 1 else mkAst (a_n a) (a_low a) (a_range a - 1)
  end.

Definition a_step (a : ast) (e : event) : ast := a_split e (a_norm 5 a).
Definition a_run (a : ast) (evs : list event) : ast := fold_left a_step evs a.

(** Value of a big-endian byte string. *)
Fixpoint be_acc (acc : Z) (l : list Z) : Z :=
  match l with [] => acc | b :: r => be_acc (acc * 256 + b) r end.
Definition be (l : list Z) : Z := be_acc 0 l.

(** Share of the coded outcome, in units of 2^-23.  A rare event counts as one unit. *)
Definition share (e : event) : Z :=
  match e with
  | EvBit p v => if v then 2 ^ 23 - p else p
  | EvRare h => if h then 1 else 2 ^ 23 - 1
  end.
Definition prodz (l : list Z) : Z := fold_right Z.mul 1 l.
(** The interval kept has at most [share + 1] units of 2^-23 and at least [lo_share] units of 2^-31
    of the previous one. *)
Definition lo_share (e : event) : Z :=
  match e with
  | EvRare true => 1
  | _ => Z.max (2 * (share e - 1)) (share e) * 2 ^ 7
  end.

(** A deterministic adaptive model: asks for an event, learns its outcome. *)
Definition outcome (r : request) (v : bool) : event :=
  match r with RqBit p => EvBit p v | RqRare => EvRare v end.
Definition outcome_val (e : event) : bool := match e with EvBit _ v => v | EvRare h => h end.

Section Adaptive.
  Context {St : Type} (next : St -> request) (learn : St -> bool -> St).
  (** What the compressor feeds to the encoder. *)
  Fixpoint model_events (m : St) (bits : list bool) : list event :=
    match bits with
    | [] => []
    | b :: r => outcome (next m) b :: model_events (learn m b) r
    end.
  Definition compress (m : St) (bits : list bool) : res (list Z) := encode_all (model_events m bits).
  (** The decompressor only learns from what it has decoded. *)
  Fixpoint adaptive_decode (d : decoder) (m : St) (n : nat) : res (list bool * decoder) :=
    match n with
    | O => Ok ([], d)
    | S k =>
      let* '(e, d) := decode_event d (next m) in
      let b := outcome_val e in
      let* '(bs, d) := adaptive_decode d (learn m b) k in
      Ok (b :: bs, d)
    end.
  Definition decompress (input : list Z) (m : St) (n : nat) : res (list bool * list Z) :=
    let* d := dec_new input in
    let* '(bs, d) := adaptive_decode d m n in
    Ok (bs, d_in d).
End Adaptive.
