(** A file compressor put together from the predictor and the coder, the way their interfaces are meant to be used.
    The repository has no such function: its main (main.rs:57-71) makes the same calls of the predictor and adds up costs instead of coding. *)
From Verif Require Import Base UtilSpec CodingModel CodingSpec WindowSpec StatesModel PredModel PredSpec.

(** predictor/mod.rs:68-106 around coding/encoder.rs:48-58: predict, code the bit, update *)
Definition code_bit (md : mode) (t : luts) (st : predictor * encoder) (b : bit) : res (predictor * encoder) :=
  let* '(p, r) := predictor_predict md t (fst st) in
  let* e := encode_bit (snd st) r b in
  let* p := predictor_update md t p b in
  Ok (p, e).
(** main.rs:57-64, the loop over the bits of a byte *)
Definition code_byte (md : mode) (t : luts) (st : predictor * encoder) (x : Z) : res (predictor * encoder) :=
  let* p := predictor_start (fst st) in
  mfold (code_bit md t) (byte_bits x) (p, snd st).
(** main.rs:55-71, the loop over the bytes, and the drop of the encoder *)
Definition compress_file (md : mode) (t : luts) (max max_order : Z) (bytes : list Z) : res (list Z) :=
  let* p := predictor_make md t max max_order in
  let* st := mfold (code_byte md t) bytes (p, enc_new) in
  let* e := enc_drop (snd st) in
  Ok (rev (e_out e)).

(** coding/decoder.rs:48-60 in place of the encoder *)
Definition decode_one (md : mode) (t : luts) (st : predictor * decoder * list bit) (_ : Z) : res (predictor * decoder * list bit) :=
  let '(p, d, bits) := st in
  let* '(p, r) := predictor_predict md t p in
  let* '(b, d) := decode_bit d r in
  let* p := predictor_update md t p b in
  Ok (p, d, bits ++ [b]).
Definition decode_byte (md : mode) (t : luts) (st : predictor * decoder * list Z) (_ : Z) : res (predictor * decoder * list Z) :=
  let '(p, d, bytes) := st in
  let* p := predictor_start p in
  let* '(p, d, bits) := mfold (decode_one md t) (zseq 0 8) (p, d, []) in
  Ok (p, d, bytes ++ [number_of bits]).
(** The length of the file comes from elsewhere; the rest of the input is given back. *)
Definition decompress_file (md : mode) (t : luts) (max max_order : Z) (input : list Z) (length : nat) : res (list Z * list Z) :=
  let* p := predictor_make md t max max_order in
  let* d := dec_new input in
  let* '(p, d, bytes) := mfold (decode_byte md t) (zseq 0 length) (p, d, []) in
  Ok (bytes, d_in d).

(** What is coded: each bit with the probability predicted for it. *)
Definition coded (bits : list bit) (probabilities : list Z) : list event := map (fun x => EvBit (snd x) (fst x)) (List.combine bits probabilities).
