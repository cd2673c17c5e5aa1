(** Properties C01 - C05: the binary range coder. *)
From Verif Require Import Base BaseFacts CodingModel CodingSpec CodingProofs.

(** A stream with bits of extreme and balanced probabilities and rare events, used below. *)
Definition demo_events : list event :=
  [EvBit 1 true; EvBit (2 ^ 23 - 1) false; EvRare true; EvRare false; EvBit 4194304 true;
   EvBit (2 ^ 23 - 1) true; EvBit 1 false; EvRare true; EvBit 8000000 true; EvBit 17 false].
Definition bytes_of (r : res (list Z)) : list Z := match r with Ok b => b | Fail _ => [] end.

(** C01: whatever the encoder wrote decodes to the same events and nothing after it is read.
    No bound on the length: the only hypothesis is that encoding did not fail (see C02). *)
Theorem C01_lossless_self_delimiting : forall evs bytes tail,
  forallb ev_ok evs = true -> encode_all evs = Ok bytes ->
  decode_all (bytes ++ tail) (map request_of evs) = Ok (evs, tail) /\ byte_list bytes.
Proof. exact lossless. Qed.
Print Assumptions C01_lossless_self_delimiting.

Example C01_case :
  forallb ev_ok demo_events = true /\ is_ok (encode_all demo_events) = true /\
  length (bytes_of (encode_all demo_events)) = 17%nat /\
  decode_all (bytes_of (encode_all demo_events) ++ [1; 2; 3]) (map request_of demo_events)
    = Ok (demo_events, [1; 2; 3]).
Proof. repeat split; vm_compute; reflexivity. Qed.

(** C02: encoding fewer than 2^28 events never fails (no overflow, no carry into a byte 255, no zero
    range), and after any prefix both outcomes of the next event keep a non-empty interval. *)
Theorem C02_encoder_never_fails : forall evs,
  forallb ev_ok evs = true -> zlen evs < 2 ^ 28 ->
  exists bytes, encode_all evs = Ok bytes /\ byte_list bytes.
Proof. exact encoder_never_fails. Qed.
Print Assumptions C02_encoder_never_fails.

Theorem C02_room_for_next_event : forall evs s p,
  forallb ev_ok evs = true -> fp_valid p = true -> zlen evs < 2 ^ 28 ->
  mfold encode_event evs enc_new = Ok s ->
  exists s' h, enc_normalize s = Ok s' /\ rc_helper (e_range s') p = Ok h /\
    2 ^ 23 <= e_range s' <= 2 ^ 31 - 1 /\ 1 <= h <= e_range s' - 1.
Proof. exact encoder_room28. Qed.
Print Assumptions C02_room_for_next_event.

Example C02_case :
  forallb ev_ok demo_events = true /\ zlen demo_events < 2 ^ 28 /\
  is_ok (mfold encode_event demo_events enc_new) = true.
Proof. repeat split; vm_compute; reflexivity. Qed.

(** C03: on any bytes the decoder answers every request or reports the end of the input. *)
Theorem C03_decoder_total : forall input rs,
  byte_list input -> forallb rq_ok rs = true ->
  (exists evs d, (let* d := dec_new input in decode_events d rs) = Ok (evs, d) /\
     map request_of evs = rs /\ 1 <= d_range d <= 2 ^ 31 - 1)
  \/ (let* d := dec_new input in decode_events d rs) = Fail EEof.
Proof. exact decoder_total. Qed.
Print Assumptions C03_decoder_total.

Example C03_case :
  is_ok (decode_all [255; 255; 255; 255; 255; 255; 255; 255] [RqBit 1; RqRare; RqBit 5; RqRare]) = true /\
  decode_all [255; 255; 255] [RqRare] = Fail EEof.
Proof. split; vm_compute; reflexivity. Qed.

(** C04: any deterministic adaptive model gives a lossless compressor. *)
Theorem C04_adaptive_round_trip :
  forall (St : Type) (next : St -> request) (learn : St -> bool -> St) (m : St) bits bytes tail,
  (forall m, rq_ok (next m) = true) ->
  compress next learn m bits = Ok bytes ->
  decompress next learn (bytes ++ tail) m (length bits) = Ok (bits, tail).
Proof. exact @adaptive_lossless. Qed.
Print Assumptions C04_adaptive_round_trip.

Theorem C04_adaptive_total :
  forall (St : Type) (next : St -> request) (learn : St -> bool -> St) (m : St) bits,
  (forall m, rq_ok (next m) = true) -> zlen bits < 2 ^ 28 ->
  exists bytes, compress next learn m bits = Ok bytes.
Proof. exact @adaptive_total. Qed.
Print Assumptions C04_adaptive_total.

(** A model that counts: probability of 0 moves with the bits seen; every third event is a rare one. *)
Definition demo_next (m : Z * Z) : request :=
  if fst m mod 3 =? 2 then RqRare else RqBit (Z.max 1 (Z.min (2 ^ 23 - 1) (snd m))).
Definition demo_learn (m : Z * Z) (b : bool) : Z * Z :=
  (fst m + 1, if b then snd m / 2 else (snd m + 2 ^ 23) / 2).
Example C04_case :
  (forall m, rq_ok (demo_next m) = true) /\
  let bits := [true; false; true; true; false; false; true; true; true; false; true] in
  decompress demo_next demo_learn
    (bytes_of (compress demo_next demo_learn (0, 2 ^ 22) bits) ++ [9]) (0, 2 ^ 22) 11 = Ok (bits, [9]).
Proof.
  split; [|vm_compute; reflexivity].
  intros m. unfold demo_next. destruct (fst m mod 3 =? 2); [reflexivity|].
  cbn [rq_ok]. unfold fp_valid. change (2 ^ 23) with 8388608. lia.
Qed.

(** C05: the size of the stream.  Four bytes for no event, at most three more per event, and the
    length is tied to the product of the probabilities of the coded outcomes from both sides. *)
Theorem C05_stream_size : forall evs bytes,
  forallb ev_ok evs = true -> encode_all evs = Ok bytes ->
  4 <= zlen bytes <= 4 + 3 * zlen evs /\
  256 ^ (zlen bytes - 4) * prodz (map lo_share evs) <= (2 ^ 31) ^ zlen evs /\
  (2 ^ 23) ^ zlen evs <= 256 ^ (zlen bytes - 4) * (2 ^ 31 - 1) * prodz (map (fun e => share e + 1) evs).
Proof. exact stream_size. Qed.
Print Assumptions C05_stream_size.

Theorem C05_stream_growth : forall evs e b1 b2,
  forallb ev_ok evs = true -> ev_ok e = true ->
  encode_all evs = Ok b1 -> encode_all (evs ++ [e]) = Ok b2 ->
  0 <= zlen b2 - zlen b1 <= 3.
Proof. exact stream_growth. Qed.
Print Assumptions C05_stream_growth.

Theorem C05_empty_stream : encode_all [] = Ok [0; 0; 0; 0].
Proof. exact empty_stream. Qed.
Print Assumptions C05_empty_stream.

Example C05_case :
  is_ok (encode_all demo_events) = true /\ is_ok (encode_all (demo_events ++ [EvRare true])) = true.
Proof. split; vm_compute; reflexivity. Qed.
