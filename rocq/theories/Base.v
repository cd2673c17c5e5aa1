(** Base definitions of the model: outcomes with panics, machine integers,
    bits, array access.  No proofs here. *)
From Coq Require Export ZArith List Bool.
Export ListNotations.
Open Scope Z_scope.

(** Reasons of a Rust panic. *)
Inductive err : Type :=
| EOverflow   (* arithmetic overflow, checked_* .expect *)
| EShift      (* shift amount not smaller than the width *)
| EAssert     (* assert!/assert_eq!/assert_ne!/panic! *)
| EIndex      (* slice or Vec index out of bounds *)
| EDivZero    (* division by zero *)
| EUnwrap     (* unwrap on None / Err *)
| EEof        (* read_exact(..).unwrap() at end of input *)
| EFuel.      (* model artefact: loop fuel exhausted (excluded by theorems) *)

(** Outcome of a Rust call: a value or a panic. *)
Inductive res (A : Type) : Type :=
| Ok (a : A)
| Fail (e : err).
Arguments Ok {A} a.
Arguments Fail {A} e.

Definition bind {A B : Type} (r : res A) (f : A -> res B) : res B :=
  match r with Ok a => f a | Fail e => Fail e end.

Notation "'let*' x ':=' r 'in' k" := (bind r (fun x => k))
  (at level 200, x name, r at level 100, k at level 200, right associativity).
Notation "'let*' ' p ':=' r 'in' k" := (bind r (fun x => match x with p => k end))
  (at level 200, p pattern, r at level 100, k at level 200, right associativity).
Notation "r ';;' k" := (bind r (fun _ => k))
  (at level 199, right associativity).

(** [assert!]. *)
Definition guard (b : bool) (e : err) : res unit := if b then Ok tt else Fail e.
Definition assert_ (b : bool) : res unit := guard b EAssert.

Definition is_ok {A} (r : res A) : bool := match r with Ok _ => true | Fail _ => false end.

(** Machine integer types. *)
Record ity : Type := mkIty { ibits : Z; isigned : bool }.
Definition u8 := mkIty 8 false.
Definition u16 := mkIty 16 false.
Definition u32 := mkIty 32 false.
Definition u64 := mkIty 64 false.
Definition usize := mkIty 64 false.   (* 64-bit target *)
Definition i8 := mkIty 8 true.
Definition i16 := mkIty 16 true.
Definition i32 := mkIty 32 true.
Definition i64 := mkIty 64 true.

Definition imin (t : ity) : Z := if isigned t then - 2 ^ (ibits t - 1) else 0.
Definition imax (t : ity) : Z := if isigned t then 2 ^ (ibits t - 1) - 1 else 2 ^ ibits t - 1.
Definition inb (t : ity) (z : Z) : bool := (imin t <=? z) && (z <=? imax t).

(** Checked result (debug build). *)
Definition chk (t : ity) (z : Z) : res Z := if inb t z then Ok z else Fail EOverflow.
(** Two's complement wrap (cast with [as], [wrapping_*], bits shifted out by <<). *)
Definition wrap (t : ity) (z : Z) : Z :=
  let m := z mod 2 ^ ibits t in
  if isigned t && (2 ^ (ibits t - 1) <=? m) then m - 2 ^ ibits t else m.
(** [saturating_*]. *)
Definition sat (t : ity) (z : Z) : Z := Z.max (imin t) (Z.min (imax t) z).

Definition add (t : ity) (a b : Z) : res Z := chk t (a + b).
Definition sub (t : ity) (a b : Z) : res Z := chk t (a - b).
Definition mul (t : ity) (a b : Z) : res Z := chk t (a * b).
(** Rust [/] truncates towards zero. *)
Definition divt (t : ity) (a b : Z) : res Z :=
  if b =? 0 then Fail EDivZero else chk t (Z.quot a b).
Definition neg (t : ity) (a : Z) : res Z := chk t (- a).
(** [<<] : checks the amount, not the lost bits. *)
Definition shl (t : ity) (a k : Z) : res Z :=
  if (0 <=? k) && (k <? ibits t) then Ok (wrap t (a * 2 ^ k)) else Fail EShift.
(** [>>] : logical for unsigned, arithmetic for signed; floor division either way. *)
Definition shr (t : ity) (a k : Z) : res Z :=
  if (0 <=? k) && (k <? ibits t) then Ok (a / 2 ^ k) else Fail EShift.

(** Lists indexed by [Z]; [None]/[Fail EIndex] out of range. *)
Fixpoint znth {A : Type} (l : list A) (i : Z) : option A :=
  match l with
  | [] => None
  | x :: r => if i =? 0 then Some x else znth r (i - 1)
  end.
Fixpoint zupd {A : Type} (l : list A) (i : Z) (v : A) : list A :=
  match l with
  | [] => []
  | x :: r => if i =? 0 then v :: r else x :: zupd r (i - 1) v
  end.
Definition zlen {A : Type} (l : list A) : Z := Z.of_nat (length l).
Definition get {A : Type} (l : list A) (i : Z) : res A :=
  match znth l i with Some x => Ok x | None => Fail EIndex end.
Definition set {A : Type} (l : list A) (i : Z) (v : A) : res (list A) :=
  match znth l i with Some _ => Ok (zupd l i v) | None => Fail EIndex end.

Definition of_opt {A : Type} (o : option A) (e : err) : res A :=
  match o with Some a => Ok a | None => Fail e end.

(** Monadic folds over lists. *)
Fixpoint mfold {A S : Type} (f : S -> A -> res S) (l : list A) (s : S) : res S :=
  match l with
  | [] => Ok s
  | x :: r => let* s' := f s x in mfold f r s'
  end.
Fixpoint mmap {A B : Type} (f : A -> res B) (l : list A) : res (list B) :=
  match l with
  | [] => Ok []
  | x :: r => let* y := f x in let* ys := mmap f r in Ok (y :: ys)
  end.

(** src/bit/mod.rs:23-24 [Bit { Zero = 0, One = 1 }]: Coq [bool], [false] = Zero.
    [From<bool>] (46-50) is then the identity and [Not] (61-70) is [negb]. *)
Definition bit := bool.
Definition Zero : bit := false.
Definition One : bit := true.
(** src/bit/mod.rs:30-37 [to_i8 .. to_u64]. *)
Definition bit_z (b : bit) : Z := if b then 1 else 0.

(** [0, 1, .. , n-1] and a range. *)
Fixpoint zseq (start : Z) (n : nat) : list Z :=
  match n with O => [] | S m => start :: zseq (start + 1) m end.
