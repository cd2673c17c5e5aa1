(** Model of src/util: indexer, hash, last_bytes, quantizers. *)
From Verif Require Import Base.

(** ** src/util/indexer.rs *)

(** indexer.rs:66-85, 87-199: the array of (limit, value) and [current_input_index]; Indexer1..Indexer6
    differ only in the length of the array. *)
Record indexer : Type := mkIx { ix_dims : list (Z * Z); ix_cur : Z }.

(** indexer.rs:19-26 [new]; [n] is the array length of the implementing type (94-102 etc.), whose
    elements start as [limit = 0, value = 0] (71-75, 81-85). *)
Definition ix_new (n : nat) (dimensions : list Z) : res indexer :=
  assert_ (Nat.eqb (length dimensions) n) ;;
  Ok (mkIx (map (fun d => (d, 0)) dimensions) 0).

(** indexer.rs:29-36 *)
Definition ix_get_array_size (ix : indexer) : res Z :=
  assert_ (ix_cur ix =? 0) ;;
  mfold (fun r d => mul usize r (fst d)) (ix_dims ix) 1.

(** indexer.rs:38-47 *)
Definition ix_with_sub_index (ix : indexer) (value : Z) : res indexer :=
  assert_ (ix_cur ix <? zlen (ix_dims ix)) ;;
  let* d := get (ix_dims ix) (ix_cur ix) in
  assert_ (value <? fst d) ;;
  let* ds := set (ix_dims ix) (ix_cur ix) (fst d, value) in
  let* c := add usize (ix_cur ix) 1 in
  Ok (mkIx ds c).

(** indexer.rs:49-59 *)
Definition ix_get_array_index_and_reset (ix : indexer) : res (Z * indexer) :=
  assert_ (ix_cur ix =? zlen (ix_dims ix)) ;;
  let* r := mfold (fun r d => let* m := mul usize r (fst d) in add usize m (snd d)) (ix_dims ix) 0 in
  Ok (r, mkIx (ix_dims ix) 0).

(** One call on an indexer and what it returns (the driver of sequences of calls; not in the source). *)
Inductive ix_call : Type := IxSub (value : Z) | IxIndex | IxSize.
Definition ix_step (ix : indexer) (c : ix_call) : res (indexer * option Z) :=
  match c with
  | IxSub v => let* ix' := ix_with_sub_index ix v in Ok (ix', None)
  | IxIndex => let* ' (r, ix') := ix_get_array_index_and_reset ix in Ok (ix', Some r)
  | IxSize => let* r := ix_get_array_size ix in Ok (ix, Some r)
  end.
Fixpoint ix_run (ix : indexer) (cs : list ix_call) : res (list (option Z)) :=
  match cs with
  | [] => Ok []
  | c :: r => let* ' (ix', o) := ix_step ix c in let* os := ix_run ix' r in Ok (o :: os)
  end.

(** ** src/util/hash.rs: the state is the u64. *)

(** hash.rs:21-23 *)
Definition fnv_new : Z := 0xcbf29ce484222325.
(** hash.rs:25-28 *)
Definition fnv_mix_byte (h byte : Z) : Z := wrap u64 (Z.lxor h byte * 0x100000001b3).
(** hash.rs:30-32 *)
Definition fnv_into_u64 (h : Z) : Z := h.
(** hash.rs:34-37 *)
Definition fnv_into_u32 (h : Z) : Z := wrap u32 (Z.lxor h (Z.shiftr h 32)).
(** hash.rs:39-42 *)
Definition fnv_into_u16 (h : Z) : Z :=
  let raw := fnv_into_u32 h in wrap u16 (Z.lxor raw (Z.shiftr raw 16)).

(** ** src/util/last_bytes.rs *)

(** last_bytes.rs:31-35 *)
Record lbc : Type := mkLbc { lb_bit_index : Z; lb_cache : Z }.
(** last_bytes.rs:38-43 *)
Definition lb_new : lbc := mkLbc (-1) 0.
(** last_bytes.rs:104-107 *)
Definition lb_checked_bit_index (c : lbc) : res Z :=
  assert_ (0 <=? lb_bit_index c) ;; Ok (lb_bit_index c).
(** last_bytes.rs:45-49 *)
Definition lb_start_new_byte (c : lbc) : res lbc :=
  assert_ (lb_bit_index c =? -1) ;;
  let* x := shl u32 (lb_cache c) 8 in
  Ok (mkLbc 7 x).
(** last_bytes.rs:51-55 *)
Definition lb_on_next_bit (c : lbc) (b : bit) : res lbc :=
  let* i := lb_checked_bit_index c in
  let* x := shl u32 (bit_z b) i in
  let* i' := sub i32 (lb_bit_index c) 1 in
  Ok (mkLbc i' (Z.lor (lb_cache c) x)).
(** last_bytes.rs:57-62 (and 26-28: [UnfinishedByte] is its raw u8) *)
Definition lb_unfinished_byte (c : lbc) : res Z :=
  let* i := lb_checked_bit_index c in
  let* k := sub usize 7 i in
  let* hi := shl u8 1 k in
  let* i1 := add usize i 1 in
  let* lo := shr u32 (Z.land (lb_cache c) 255) i1 in
  add u8 hi (wrap u8 lo).
(** last_bytes.rs:64-67, 69-72, 74-77: [k] = 1, 2, 3 *)
Definition lb_previous_byte (k : Z) (c : lbc) : res Z :=
  assert_ (0 <=? lb_bit_index c) ;;
  let* x := shr u32 (lb_cache c) (8 * k) in
  Ok (wrap u8 x).
(** last_bytes.rs:79-83 *)
Definition lb_hash01_16 (c : lbc) : res Z :=
  let* i := lb_checked_bit_index c in
  let* k := sub usize 15 i in
  let* hi := shl u16 1 k in
  let* i1 := add usize i 1 in
  let* lo := shr u32 (Z.land (lb_cache c) 65535) i1 in
  add u16 hi (wrap u16 lo).
(** last_bytes.rs:85-92 *)
Definition lb_hash02_16 (c : lbc) : res Z :=
  assert_ (0 <=? lb_bit_index c) ;;
  let* p2 := lb_previous_byte 2 c in
  let* p1 := lb_previous_byte 1 c in
  let* u := lb_unfinished_byte c in
  Ok (fnv_into_u16 (fnv_mix_byte (fnv_mix_byte (fnv_mix_byte fnv_new p2) p1) u)).
(** last_bytes.rs:94-102 *)
Definition lb_hash03_16 (c : lbc) : res Z :=
  assert_ (0 <=? lb_bit_index c) ;;
  let* p3 := lb_previous_byte 3 c in
  let* p2 := lb_previous_byte 2 c in
  let* p1 := lb_previous_byte 1 c in
  let* u := lb_unfinished_byte c in
  Ok (fnv_into_u16 (fnv_mix_byte (fnv_mix_byte (fnv_mix_byte (fnv_mix_byte fnv_new p3) p2) p1) u)).

(** A call that changes the cache. *)
Inductive lb_call : Type := LbStart | LbBit (b : bit).
Definition lb_step (c : lbc) (call : lb_call) : res lbc :=
  match call with LbStart => lb_start_new_byte c | LbBit b => lb_on_next_bit c b end.

(** ** src/util/quantizers.rs *)

(** [u16::leading_zeros]: 16 minus the bit length. *)
Definition leading_zeros16 (x : Z) : Z := if x =? 0 then 16 else 15 - Z.log2 x.
(** quantizers.rs:22, 28-37 *)
Definition quantize (input : Z) : res Z :=
  if input <? 2 ^ 1 then Ok input
  else
    let* bit_length := sub u32 16 (leading_zeros16 input) in
    let* b1 := sub usize bit_length 1 in
    let* bits_cut := sub usize b1 1 in
    let* input' := shr usize input bits_cut in
    let* s := shl usize bits_cut 1 in
    add usize s input'.
(** quantizers.rs:24-26 *)
Definition quantizer_max_output : res Z := quantize 65535.
