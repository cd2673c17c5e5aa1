(** Model of src/coding: binary range coder.
    The writer is the list of bytes written so far in reverse order; the reader is the
    list of bytes not read yet. [std::io] errors other than end of input are not modelled. *)
From Verif Require Import Base.

(** src/coding/mod.rs:45-49 FinalProbability::new_unchecked; the clamp. *)
Definition fp_new_unchecked (raw : Z) : res Z :=
  assert_ (raw <=? 2 ^ 23) ;;
  Ok (Z.max (Z.min raw (2 ^ 23 - 1)) 1).
(** src/fixed_point/mod.rs:31-39 FixedPoint::new for FinalProbability
    (FRACTIONAL_BITS = 23, coding/mod.rs:51; [within_bounds] is the default [true]). *)
Definition fp_new (raw fractional_bits : Z) : res Z :=
  assert_ (fractional_bits =? 23) ;; fp_new_unchecked raw.

(** Values a FinalProbability can hold. *)
Definition fp_valid (p : Z) : bool := (1 <=? p) && (p <=? 2 ^ 23 - 1).

(** src/coding/encoder.rs:25-33 struct Encoder. [e_out] is the writer (newest byte first). *)
Record encoder : Type := mkEnc {
  e_out : list Z; e_buffer : Z; e_range : Z; e_run : Z; e_last : Z; e_delay : bool; e_carry : bool }.

(** src/coding/encoder.rs:36-46 Encoder::new, writing to an empty writer. *)
Definition enc_new : encoder := mkEnc [] 0 (2 ^ 31 - 1) 0 0 false true.

(** src/coding/encoder.rs:90-94: the [while run_length_0xff > 0] loop of output_byte. *)
Definition write_run (run : Z) (carry : bool) (out : list Z) : list Z :=
  Z.iter run (cons (if carry then 0 else 255)) out.

(** src/coding/encoder.rs:81-101 Encoder::output_byte. *)
Definition output_byte (s : encoder) (octet : Z) : res encoder :=
  assert_ ((0 <=? octet) && (octet <=? 255)) ;;
  if negb (octet =? 255) || e_carry s then
    let* out1 :=
      if e_delay s then
        let* to_write := add u8 (e_last s) (if e_carry s then 1 else 0) in
        Ok (to_write :: e_out s)
      else Ok (e_out s) in
    let out2 := write_run (e_run s) (e_carry s) out1 in
    Ok (mkEnc out2 (e_buffer s) (e_range s) (Z.min 0 (e_run s)) octet true false)
  else
    let* run := add i32 (e_run s) 1 in
    Ok (mkEnc (e_out s) (e_buffer s) (e_range s) run (e_last s) (e_delay s) (e_carry s)).

(** src/coding/encoder.rs:73-78: one iteration of the loop of Encoder::normalize. *)
Definition enc_shift (s : encoder) : res encoder :=
  let* shifted_byte := shr i32 (e_buffer s) 23 in
  let* s := output_byte s shifted_byte in
  let* b := shl i32 (e_buffer s) 8 in
  let* r := shl i32 (e_range s) 8 in
  Ok (mkEnc (e_out s) (Z.land b (2 ^ 31 - 1)) r (e_run s) (e_last s) (e_delay s) (e_carry s)).

(** src/coding/encoder.rs:73: the loop; a range of at least 1 needs at most 3 iterations,
    [fuel] is 5 at the only call site and exhausting it is an error. *)
Fixpoint enc_norm_loop (fuel : nat) (s : encoder) : res encoder :=
  if e_range s <? 2 ^ 23 then
    match fuel with
    | O => Fail EFuel
    | S f => let* s' := enc_shift s in enc_norm_loop f s'
    end
  else Ok s.

(** src/coding/encoder.rs:71-79 Encoder::normalize. *)
Definition enc_normalize (s : encoder) : res encoder :=
  assert_ (negb (e_range s =? 0)) ;; enc_norm_loop 5 s.

(** src/coding/encoder.rs:103-110 Encoder::add_with_carry. *)
Definition add_with_carry (s : encoder) (x : Z) : encoder :=
  let b := wrap i32 (e_buffer s + x) in
  if b <? 0 then
    mkEnc (e_out s) (Z.land b (2 ^ 31 - 1)) (e_range s) (e_run s) (e_last s) (e_delay s) true
  else mkEnc (e_out s) b (e_range s) (e_run s) (e_last s) (e_delay s) (e_carry s).

Definition with_range (s : encoder) (r : Z) : encoder :=
  mkEnc (e_out s) (e_buffer s) r (e_run s) (e_last s) (e_delay s) (e_carry s).

(** src/coding/encoder.rs:50-51, decoder.rs:50-51: share of bit 0 in the range. *)
Definition rc_helper (range p : Z) : res Z :=
  let* m := mul i64 range p in
  let* q := shr i64 m 23 in
  Ok (wrap i32 q).

(** src/coding/encoder.rs:48-58 Encoder::encode_bit. *)
Definition encode_bit (s : encoder) (p : Z) (value : bit) : res encoder :=
  let* s := enc_normalize s in
  let* h := rc_helper (e_range s) p in
  if value then
    let s := add_with_carry s h in
    let* r := sub i32 (e_range s) h in
    Ok (with_range s r)
  else Ok (with_range s h).

(** src/coding/encoder.rs:60-69 Encoder::encode_rare_event. *)
Definition encode_rare_event (s : encoder) (is_rare : bool) : res encoder :=
  let* s := enc_normalize s in
  if is_rare then
    let* freq := sub i32 (e_range s) 1 in
    Ok (with_range (add_with_carry s freq) 1)
  else
    let* r := sub i32 (e_range s) 1 in
    Ok (with_range s r).

(** src/coding/encoder.rs:115-119: one iteration of Drop::drop. *)
Definition flush_step (s : encoder) : res encoder :=
  let* b := shr i32 (e_buffer s) 23 in
  let* s := output_byte s (Z.land b 255) in
  let* b := shl i32 (e_buffer s) 8 in
  Ok (mkEnc (e_out s) b (e_range s) (e_run s) (e_last s) (e_delay s) (e_carry s)).

(** src/coding/encoder.rs:113-121 Drop for Encoder. *)
Definition enc_drop (s : encoder) : res encoder :=
  let* s := flush_step s in
  let* s := flush_step s in
  let* s := flush_step s in
  let* s := flush_step s in
  flush_step s.

(** The events of tests/coding_symbols.rs (enum CodingEvent): what a user can ask for. *)
Inductive event : Type :=
| EvBit (p : Z) (value : bit)
| EvRare (happened : bool).

Definition encode_event (s : encoder) (e : event) : res encoder :=
  match e with
  | EvBit p v => encode_bit s p v
  | EvRare h => encode_rare_event s h
  end.

(** Whole life of an encoder: new, events, drop; the written bytes, oldest first. *)
Definition encode_all (evs : list event) : res (list Z) :=
  let* s := mfold encode_event evs enc_new in
  let* s := enc_drop s in
  Ok (rev (e_out s)).

(** src/coding/decoder.rs:25-30 struct Decoder. [d_in] is the unread input. *)
Record decoder : Type := mkDec {
  d_in : list Z; d_buffer : Z; d_range : Z; d_high : Z }.

(** src/coding/decoder.rs:74-81 Decoder::input_byte. *)
Definition input_byte (s : decoder) : res (Z * decoder) :=
  match d_in s with
  | [] => Fail EEof
  | b :: rest =>
    let* h := shl i32 (d_high s) 7 in
    let* cur := add i32 (b / 2) h in
    Ok (cur, mkDec rest (d_buffer s) (d_range s) (Z.land b 1))
  end.

(** src/coding/decoder.rs:42-43 and 85-86: buffer <<= 8; buffer += input_byte().
    (The left operand of += is evaluated after the right one for primitive types, so the
    buffer used is the shifted one; input_byte does not touch it anyway.) *)
Definition dec_feed (s : decoder) : res decoder :=
  let* b := shl i32 (d_buffer s) 8 in
  let* '(x, s) := input_byte s in
  let* b := add i32 b x in
  Ok (mkDec (d_in s) b (d_range s) (d_high s)).

(** src/coding/decoder.rs:33-46 Decoder::new. *)
Definition dec_new (input : list Z) : res decoder :=
  let s := mkDec input 0 (2 ^ 31 - 1) 0 in
  let* s := dec_feed s in
  let* s := dec_feed s in
  let* s := dec_feed s in
  dec_feed s.

(** src/coding/decoder.rs:83-89 Decoder::normalize (no assertion on the range here). *)
Fixpoint dec_normalize (fuel : nat) (s : decoder) : res decoder :=
  if d_range s <? 2 ^ 23 then
    match fuel with
    | O => Fail EFuel
    | S f =>
      let* s := dec_feed s in
      let* r := shl i32 (d_range s) 8 in
      dec_normalize f (mkDec (d_in s) (d_buffer s) r (d_high s))
    end
  else Ok s.

(** src/coding/decoder.rs:48-60 Decoder::decode_bit. *)
Definition decode_bit (s : decoder) (p : Z) : res (bit * decoder) :=
  let* s := dec_normalize 5 s in
  let* h := rc_helper (d_range s) p in
  if d_buffer s <? h then
    Ok (false, mkDec (d_in s) (d_buffer s) h (d_high s))
  else
    let* r := sub i32 (d_range s) h in
    let* b := sub i32 (d_buffer s) h in
    Ok (true, mkDec (d_in s) b r (d_high s)).

(** src/coding/decoder.rs:62-72 Decoder::decode_rare_event. *)
Definition decode_rare_event (s : decoder) : res (bool * decoder) :=
  let* s := dec_normalize 5 s in
  let* r1 := sub i32 (d_range s) 1 in
  if d_buffer s <? r1 then
    Ok (false, mkDec (d_in s) (d_buffer s) r1 (d_high s))
  else Ok (true, mkDec (d_in s) 0 1 (d_high s)).

(** Requests for the next event: the probability for a bit, or a rare event. *)
Inductive request : Type :=
| RqBit (p : Z)
| RqRare.
Definition request_of (e : event) : request :=
  match e with EvBit p _ => RqBit p | EvRare _ => RqRare end.

Definition decode_event (s : decoder) (r : request) : res (event * decoder) :=
  match r with
  | RqBit p => let* '(v, s) := decode_bit s p in Ok (EvBit p v, s)
  | RqRare => let* '(h, s) := decode_rare_event s in Ok (EvRare h, s)
  end.

Fixpoint decode_events (s : decoder) (rs : list request) : res (list event * decoder) :=
  match rs with
  | [] => Ok ([], s)
  | r :: rest =>
    let* '(e, s) := decode_event s r in
    let* '(es, s) := decode_events s rest in
    Ok (e :: es, s)
  end.

(** new Decoder over [input], asked for [rs]: the events and the unread input. *)
Definition decode_all (input : list Z) (rs : list request) : res (list event * list Z) :=
  let* s := dec_new input in
  let* '(es, s) := decode_events s rs in
  Ok (es, d_in s).
