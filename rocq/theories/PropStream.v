(** C61: coding is incremental; C05, exact length. *)
From Verif Require Import Base BaseFacts CodingModel CodingSpec WindowSpec StatesModel StatesProofs PredModel PredSpec FileSpec StreamSpec StreamProofs.

(** Four bytes, and one for each byte the range has to be widened by. *)
Theorem C05_exact_length : forall evs bytes,
  forallb ev_ok evs = true -> encode_all evs = Ok bytes -> zlen bytes = bytes_needed evs.
Proof. exact stream_length. Qed.
Print Assumptions C05_exact_length.

(** A byte once written is never taken back: it is in the stream, whatever is coded later. *)
Theorem C61_written_stays : forall evs later s bytes,
  mfold encode_event evs enc_new = Ok s -> encode_all (evs ++ later) = Ok bytes -> exists rest, bytes = rev (e_out s) ++ rest.
Proof. exact written_stays. Qed.
Print Assumptions C61_written_stays.

(** The first events are decoded from as many bytes as their own stream has, and from no fewer. *)
Theorem C61_prefix_decodes : forall evs later own bytes,
  forallb ev_ok (evs ++ later) = true -> encode_all evs = Ok own -> encode_all (evs ++ later) = Ok bytes ->
  (length own <= length bytes)%nat /\
  (forall tail, decode_all (bytes ++ tail) (map request_of evs) = Ok (evs, skipn (length own) bytes ++ tail)) /\
  decode_all (firstn (length own) bytes) (map request_of evs) = Ok (evs, []) /\
  forall j, (j < length own)%nat -> decode_all (firstn j bytes) (map request_of evs) = Fail EEof.
Proof. exact stream_prefix. Qed.
Print Assumptions C61_prefix_decodes.

(** The same for files. *)
Theorem C61_file_prefix : forall md t max max_order first later,
  luts_new = Ok t -> 0 < max <= 2 ^ 31 -> 0 <= max_order -> 8 * max_order + 7 < 2 ^ 16 -> 8 * zlen (first ++ later) < 2 ^ 28 ->
  Forall (fun x => 0 <= x < 256) first ->
  exists own out, compress_file md t max max_order first = Ok own /\ compress_file md t max max_order (first ++ later) = Ok out /\
    (length own <= length out)%nat /\
    decompress_file md t max max_order out (length first) = Ok (first, skipn (length own) out) /\
    decompress_file md t max max_order (firstn (length own) out) (length first) = Ok (first, []) /\
    forall j, (j < length own)%nat -> decompress_file md t max max_order (firstn j out) (length first) = Fail EEof.
Proof. exact file_prefix. Qed.
Print Assumptions C61_file_prefix.

Definition some_events : list event := [EvBit 1 true; EvBit 70000 false; EvRare true; EvBit 4194304 true; EvRare false; EvBit 17 false; EvRare true; EvBit 9 true].
(** Thirteen bytes; the first six events need eight of them, and three are written when they have been coded. *)
Example in_parts : exists own bytes s,
  forallb ev_ok some_events = true /\ encode_all (firstn 6 some_events) = Ok own /\ encode_all some_events = Ok bytes /\ bytes_needed some_events = zlen bytes /\
  mfold encode_event (firstn 6 some_events) enc_new = Ok s /\ (length (e_out s) < length own < length bytes)%nat.
Proof.
  destruct (encode_all (firstn 6 some_events)) as [own|] eqn:A; [|vm_compute in A; discriminate]. destruct (encode_all some_events) as [bytes|] eqn:B; [|vm_compute in B; discriminate].
  destruct (mfold encode_event (firstn 6 some_events) enc_new) as [s|] eqn:C; [|vm_compute in C; discriminate]. exists own, bytes, s.
  vm_compute in A, B, C. injection A as <-. injection B as <-. injection C as <-. repeat split; try reflexivity; cbn; repeat constructor.
Qed.
Example tables : exists t, luts_new = Ok t. Proof. exact tables_built. Qed.
