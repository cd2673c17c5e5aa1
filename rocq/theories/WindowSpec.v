(** What a window is: a queue of bytes, oldest first, with the number of bytes dropped so far. *)
From Verif Require Import Base WindowModel.

Record queue : Type := mkQueue { q_dropped : Z; q_bytes : list Z }.
Inductive op : Type := Push | SetByte (v : Z) | SetBit (b : bit) (i : Z) | Drop.

(** Changes the last byte. *)
Fixpoint change_last (f : Z -> Z) (l : list Z) : list Z :=
  match l with [] => [] | [x] => [f x] | x :: r => x :: change_last f r end.
(** Bit [i] of a byte replaced. *)
Definition with_bit (b : bit) (i x : Z) : Z := x - (x / 2 ^ i mod 2) * 2 ^ i + bit_z b * 2 ^ i.

(** One operation, [None] where it is not allowed. *)
Definition q_step (max : Z) (q : queue) (o : op) : option queue :=
  let n := zlen (q_bytes q) in
  match o with
  | Push => if n <? max then Some (mkQueue (q_dropped q) (q_bytes q ++ [0])) else None
  | SetByte v => if (0 <? n) && (0 <=? v) && (v <? 256) then Some (mkQueue (q_dropped q) (change_last (fun _ => v) (q_bytes q))) else None
  | SetBit b i => if (0 <? n) && (0 <=? i) && (i <? 8) then Some (mkQueue (q_dropped q) (change_last (with_bit b i) (q_bytes q))) else None
  | Drop => if 0 <? n then Some (mkQueue (q_dropped q + 1) (tl (q_bytes q))) else None
  end.
Fixpoint q_run (max : Z) (q : queue) (ops : list op) : option queue :=
  match ops with [] => Some q | o :: r => match q_step max q o with Some q' => q_run max q' r | None => None end end.

(** The same operations on the window. *)
Definition w_step (w : window) (o : op) : res window :=
  match o with
  | Push => advance_cursor w
  | SetByte v => set_byte_at_cursor w v
  | SetBit b i => set_bit_at_cursor w b i
  | Drop => advance_start w
  end.
Definition w_run (w : window) (ops : list op) : res window := mfold w_step ops w.
(** A new window after the operations. *)
Definition w_after (max shift : Z) (ops : list op) : res window := let* w := window_new max shift in w_run w ops.
Definition q_after (max : Z) (ops : list op) : option queue := q_run max (mkQueue 0 []) ops.

(** Index of the byte at position [j] of the queue (0 is the oldest). *)
Definition slot (max shift : Z) (q : queue) (j : Z) : Z := (shift + q_dropped q + j) mod max.

(** The bits of a byte, most significant first, and of a sequence of bytes. *)
Definition byte_bits (x : Z) : list bit := map (fun i => Z.odd (x / 2 ^ i)) [7; 6; 5; 4; 3; 2; 1; 0].
Definition bit_string (bytes : list Z) : list bit := flat_map byte_bits bytes.
(** The bit string from position [j] of the queue on. *)
Definition bits_from (q : queue) (j : Z) : list bit := bit_string (skipn (Z.to_nat j) (q_bytes q)).
