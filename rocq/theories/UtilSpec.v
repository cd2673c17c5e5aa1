(** Independent descriptions for the properties of src/util. *)
From Verif Require Import Base UtilModel.

(** ** Composite indices: position in the lexicographic enumeration of all tuples. *)
Fixpoint tuples (dims : list Z) : list (list Z) :=
  match dims with
  | [] => [[]]
  | d :: ds => flat_map (fun v => map (cons v) (tuples ds)) (zseq 0 (Z.to_nat d))
  end.
Definition product (dims : list Z) : Z := fold_right Z.mul 1 dims.
Definition valid_tuple (dims vs : list Z) : Prop := Forall2 (fun d v => 0 <= v < d) dims vs.


Definition is_position (dims vs : list Z) (i : Z) : Prop := znth (tuples dims) i = Some vs.

(** What a sequence of calls must return: [given] are the sub-indices since the last read. *)
Inductive ix_spec (dims : list Z) : list Z -> list ix_call -> res (list (option Z)) -> Prop :=
| IxsNil given : ix_spec dims given [] (Ok [])
| IxsSub given v cs out : valid_tuple (firstn (S (length given)) dims) (given ++ [v]) ->
    ix_spec dims (given ++ [v]) cs out ->
    ix_spec dims given (IxSub v :: cs) (let* o := out in Ok (None :: o))
| IxsSubBad given v cs e : ~ valid_tuple (firstn (S (length given)) dims) (given ++ [v]) ->
    ix_spec dims given (IxSub v :: cs) (Fail e)
| IxsIndex given i cs out : length given = length dims -> is_position dims given i ->
    ix_spec dims [] cs out ->
    ix_spec dims given (IxIndex :: cs) (let* o := out in Ok (Some i :: o))
| IxsIndexBad given cs e : length given <> length dims -> ix_spec dims given (IxIndex :: cs) (Fail e)
| IxsSize cs out : ix_spec dims [] cs out ->
    ix_spec dims [] (IxSize :: cs) (let* o := out in Ok (Some (product dims) :: o))
| IxsSizeBad given cs e : given <> [] -> ix_spec dims given (IxSize :: cs) (Fail e).

(** ** Byte/bit history: complete bytes (most recent first) and the bits of a byte in progress. *)
Record lb_hist : Type := mkHist { h_done : list Z; h_bits : option (list bool) }.
Definition hist_empty : lb_hist := mkHist [] None.
(** Number whose binary digits, most significant first, are [bs]. *)
Definition number_of (bs : list bool) : Z := fold_left (fun a b => 2 * a + bit_z b) bs 0.
Definition start_byte (h : lb_hist) : option lb_hist :=
  match h_bits h with None => Some (mkHist (h_done h) (Some [])) | Some _ => None end.
Definition next_bit (h : lb_hist) (b : bool) : option lb_hist :=
  match h_bits h with
  | None => None
  | Some ps =>
      let ps' := ps ++ [b] in
      if Nat.eqb (length ps') 8 then Some (mkHist (number_of ps' :: h_done h) None)
      else Some (mkHist (h_done h) (Some ps'))
  end.
(** A sequence of calls; [None]: it must fail. *)
Definition hist_step (h : lb_hist) (c : lb_call) : option lb_hist :=
  match c with LbStart => start_byte h | LbBit b => next_bit h b end.
Fixpoint hist_run (h : lb_hist) (cs : list lb_call) : option lb_hist :=
  match cs with
  | [] => Some h
  | c :: r => match hist_step h c with Some h' => hist_run h' r | None => None end
  end.
(** k-th complete byte from the end, 0 before the beginning. *)
Definition previous (h : lb_hist) (k : nat) : Z := nth (k - 1) (h_done h) 0.

Definition is_byte (b : Z) : Prop := 0 <= b < 256.

(** ** FNV-1a as published: 64-bit offset basis and prime, xor then multiply modulo 2^64. *)
Definition fnv1a (bytes : list Z) : Z :=
  fold_left (fun h b => (Z.lxor h b * 1099511628211) mod 2 ^ 64) bytes 14695981039346656037.
Definition fold32 (h : Z) : Z := Z.lxor (h / 2 ^ 32) (h mod 2 ^ 32).
Definition fold16 (h : Z) : Z := Z.lxor (fold32 h / 2 ^ 16) (fold32 h mod 2 ^ 16).

(** ** Quantiser levels: level k starts at 0, 1, then two levels per power of two. *)
Definition level_start (k : Z) : Z :=
  if k <? 2 then k else (2 + k mod 2) * 2 ^ (k / 2 - 1).
