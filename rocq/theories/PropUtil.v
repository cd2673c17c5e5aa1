(** Properties C12 - C16: indexer, last-bytes cache, hash, quantiser. *)
From Verif Require Import Base BaseFacts UtilModel UtilSpec UtilProofs.

(** C12: any sequence of calls on an indexer behaves as [ix_spec] says: sub-indices out of range, too
    many or too few fail; an index read returns the position of the tuple given since the last read in
    the lexicographic enumeration of all tuples, and starts over. *)
Theorem C12_every_use : forall dims calls,
  Forall (fun d => 1 <= d) dims -> product dims <= imax usize -> zlen dims < 2 ^ 63 ->
  Forall (fun c => match c with IxSub v => 0 <= v | _ => True end) calls ->
  ix_spec dims [] calls (let* ix := ix_new (length dims) dims in ix_run ix calls).
Proof. exact indexer_correct. Qed.
Print Assumptions C12_every_use.

(** Those positions are a bijection between the valid tuples and 0 .. product - 1. *)
Theorem C12_bijection : forall dims, Forall (fun d => 1 <= d) dims ->
  (forall vs, valid_tuple dims vs -> exists i, 0 <= i < product dims /\ is_position dims vs i) /\
  (forall i, 0 <= i < product dims -> exists vs, valid_tuple dims vs /\ is_position dims vs i) /\
  (forall vs ws i j, is_position dims vs i -> is_position dims ws j -> (vs = ws <-> i = j)).
Proof. exact index_bijection. Qed.
Print Assumptions C12_bijection.

Theorem C12_last_dimension_fastest : forall dims vs d v i,
  valid_tuple (dims ++ [d]) (vs ++ [v + 1]) -> 0 <= v ->
  is_position (dims ++ [d]) (vs ++ [v]) i -> is_position (dims ++ [d]) (vs ++ [v + 1]) (i + 1).
Proof. exact last_dimension_fastest. Qed.
Print Assumptions C12_last_dimension_fastest.

Example C12_case :
  Forall (fun d => 1 <= d) [5; 8; 9] /\ product [5; 8; 9] <= imax usize /\
  (let* ix := ix_new 3 [5; 8; 9] in
   ix_run ix [IxSize; IxSub 4; IxSub 7; IxSub 8; IxIndex; IxSub 1; IxSub 0; IxSub 2; IxIndex])
    = Ok [Some 360; None; None; None; Some 359; None; None; None; Some 74] /\
  (let* ix := ix_new 3 [5; 8; 9] in ix_run ix [IxSub 4; IxSub 8]) = Fail EAssert /\
  (let* ix := ix_new 3 [5; 8; 9] in ix_run ix [IxSub 4; IxIndex]) = Fail EAssert /\
  valid_tuple [5; 8; 9] [4; 7; 8].
Proof.
  split; [repeat constructor; lia|]. split; [vm_compute; discriminate|].
  repeat split; try (vm_compute; reflexivity). repeat constructor; lia.
Qed.

(** C13: after any calls the cache shows the bits of the byte in progress and the last three bytes;
    calls out of protocol and questions between bytes fail. *)
Theorem C13_cache_mirrors_input : forall calls,
  match hist_run hist_empty calls with
  | None => mfold lb_step calls lb_new = Fail EAssert
  | Some h => exists c, mfold lb_step calls lb_new = Ok c /\
      match h_bits h with
      | None => lb_unfinished_byte c = Fail EAssert /\ lb_hash01_16 c = Fail EAssert /\
          lb_hash02_16 c = Fail EAssert /\ lb_hash03_16 c = Fail EAssert /\
          forall k, lb_previous_byte k c = Fail EAssert
      | Some ps =>
          zlen ps <= 7 /\
          lb_unfinished_byte c = Ok (number_of (true :: ps)) /\ 1 <= number_of (true :: ps) <= 255 /\
          (forall k, 1 <= k <= 3 -> lb_previous_byte k c = Ok (previous h (Z.to_nat k)))
      end
  end.
Proof. exact last_bytes_correct. Qed.
Print Assumptions C13_cache_mirrors_input.

Definition lb_byte (v : Z) : list lb_call :=
  LbStart :: map (fun i => LbBit (Z.testbit v i)) [7; 6; 5; 4; 3; 2; 1; 0].
Definition lb_demo : list lb_call :=
  lb_byte 98 ++ lb_byte 97 ++ lb_byte 110 ++ lb_byte 103 ++ [LbStart; LbBit true; LbBit false; LbBit true].
Example C13_case :
  hist_run hist_empty lb_demo = Some (mkHist [103; 110; 97; 98] (Some [true; false; true])) /\
  (let* c := mfold lb_step lb_demo lb_new in lb_unfinished_byte c) = Ok 13 /\
  (let* c := mfold lb_step lb_demo lb_new in lb_previous_byte 3 c) = Ok 97 /\
  hist_run hist_empty (lb_byte 5 ++ [LbBit true]) = None.
Proof. repeat split; vm_compute; reflexivity. Qed.

(** C14: the order-1 hash of two histories is equal exactly if previous byte and current bits are. *)
Theorem C14_hash01_collision_free : forall calls h ps,
  hist_run hist_empty calls = Some h -> h_bits h = Some ps ->
  exists c v, mfold lb_step calls lb_new = Ok c /\ lb_hash01_16 c = Ok v /\ 256 <= v <= 65535 /\
    forall calls' h' ps' c', hist_run hist_empty calls' = Some h' -> h_bits h' = Some ps' ->
      mfold lb_step calls' lb_new = Ok c' ->
      (lb_hash01_16 c' = Ok v <-> previous h' 1 = previous h 1 /\ ps' = ps).
Proof. exact hash01_correct. Qed.
Print Assumptions C14_hash01_collision_free.

(** The longer hashes are the folded FNV-1a of exactly the bytes they are supposed to see. *)
Theorem C14_longer_hashes : forall calls h ps,
  hist_run hist_empty calls = Some h -> h_bits h = Some ps ->
  exists c, mfold lb_step calls lb_new = Ok c /\
    lb_hash02_16 c = Ok (fold16 (fnv1a [previous h 2; previous h 1; number_of (true :: ps)])) /\
    lb_hash03_16 c = Ok (fold16 (fnv1a [previous h 3; previous h 2; previous h 1; number_of (true :: ps)])).
Proof. exact hashes_correct. Qed.
Print Assumptions C14_longer_hashes.

Example C14_case :
  hist_run hist_empty lb_demo = Some (mkHist [103; 110; 97; 98] (Some [true; false; true])) /\
  (let* c := mfold lb_step lb_demo lb_new in lb_hash01_16 c) = Ok ((256 + 103) * 8 + 5) /\
  (let* c := mfold lb_step lb_demo lb_new in lb_hash02_16 c) <>
  (let* c := mfold lb_step lb_demo lb_new in lb_hash03_16 c).
Proof. split; [|split]; vm_compute; try reflexivity. discriminate. Qed.

(** C15: the hasher computes FNV-1a and its xor folds. *)
Theorem C15_standard_fnv1a : forall bytes, Forall is_byte bytes ->
  let h := fold_left fnv_mix_byte bytes fnv_new in
  fnv_into_u64 h = fnv1a bytes /\ fnv_into_u32 h = fold32 (fnv1a bytes) /\ fnv_into_u16 h = fold16 (fnv1a bytes) /\
  0 <= fnv1a bytes < 2 ^ 64 /\ 0 <= fold32 (fnv1a bytes) < 2 ^ 32 /\ 0 <= fold16 (fnv1a bytes) < 2 ^ 16.
Proof. exact fnv_standard. Qed.
Print Assumptions C15_standard_fnv1a.

(** Different states never merge. *)
Theorem C15_states_never_merge : forall bytes, Forall is_byte bytes ->
  forall h g, 0 <= h < 2 ^ 64 -> 0 <= g < 2 ^ 64 ->
  fold_left fnv_mix_byte bytes h = fold_left fnv_mix_byte bytes g -> h = g.
Proof. exact fnv_run_inj. Qed.
Print Assumptions C15_states_never_merge.

Theorem C15_one_byte_changes_hash : forall pre post a b,
  Forall is_byte pre -> Forall is_byte post -> is_byte a -> is_byte b -> a <> b ->
  fold_left fnv_mix_byte (pre ++ a :: post) fnv_new <> fold_left fnv_mix_byte (pre ++ b :: post) fnv_new.
Proof. exact fnv_single_byte. Qed.
Print Assumptions C15_one_byte_changes_hash.

(** Published vectors: "", "a", "foobar". *)
Example C15_case :
  Forall is_byte [102; 111; 111; 98; 97; 114] /\
  fnv_into_u64 fnv_new = 0xcbf29ce484222325 /\
  fnv_into_u64 (fold_left fnv_mix_byte [97] fnv_new) = 0xaf63dc4c8601ec8c /\
  fnv_into_u64 (fold_left fnv_mix_byte [102; 111; 111; 98; 97; 114] fnv_new) = 0x85944171f73967e8.
Proof. split; [repeat constructor; lia|]. repeat split; vm_compute; reflexivity. Qed.

(** C16: the quantiser returns the level whose start is the greatest not above the count; levels start
    at 0, 1, 2, 3, 4, 6, 8, 12, 16, 24, ... *)
Theorem C16_level : forall x, 0 <= x <= 65535 ->
  exists q, quantize x = Ok q /\ 0 <= q <= 31 /\ level_start q <= x /\ (q < 31 -> x < level_start (q + 1)).
Proof. exact quantize_spec. Qed.
Print Assumptions C16_level.

Theorem C16_monotone_no_gaps : forall x y q r,
  0 <= x -> x <= y <= 65535 -> quantize x = Ok q -> quantize y = Ok r ->
  q <= r /\ (y = x + 1 -> r <= q + 1).
Proof. exact quantize_monotone. Qed.
Print Assumptions C16_monotone_no_gaps.

Theorem C16_every_level_is_used : forall k, 0 <= k <= 31 -> quantize (level_start k) = Ok k.
Proof. exact quantizer_onto. Qed.
Print Assumptions C16_every_level_is_used.

Theorem C16_advertised_maximum : quantizer_max_output = Ok 31.
Proof. exact quantizer_max. Qed.
Print Assumptions C16_advertised_maximum.

Example C16_case :
  map level_start [0; 1; 2; 3; 4; 5; 6; 7; 8; 9] = [0; 1; 2; 3; 4; 6; 8; 12; 16; 24] /\
  quantize 1000 = Ok 19 /\ quantize 0 = Ok 0.
Proof. repeat split; vm_compute; reflexivity. Qed.
