(** Model of src/fixed_point: fixed-point number formats and their arithmetic.
    [f64] conversions (mod.rs:44-56, 515-548) are not modelled: only tests, table assertions and printing use them. *)
From Verif Require Import Base.

(** A type implementing FixedPoint (mod.rs:26-56): raw integer type, FRACTIONAL_BITS,
    [new_unchecked] (it may assert or clamp) and [within_bounds]. *)
Record fmt : Type := mkFmt {
  f_ty : ity; f_frac : Z; f_new : Z -> res Z; f_within : Z -> bool }.

(** mod.rs:31-39 FixedPoint::new (DO_CHECKS is true, lib.rs:31). *)
Definition fix_new (F : fmt) (raw fractional_bits : Z) : res Z :=
  assert_ (fractional_bits =? f_frac F) ;;
  let* r := f_new F raw in
  assert_ (f_within F r) ;; Ok r.

(** mod.rs:61-65, 149-153, 400-404: fix_i16 / fix_i32 / fix_i64 scaled_down, [t] is the raw type. *)
Definition scaled_down_s (t : ity) (raw shift : Z) : res Z :=
  assert_ (negb (shift =? 0)) ;;
  let* k := shl t (Z.sgn raw) (shift - 1) in
  let x := Z.max (sat t (raw + k)) (imin t + 1) in
  let* d := shl t 1 shift in
  divt t x d.

(** mod.rs:71-74, 278-281, 496-499: fix_u16 / fix_u32 / fix_u64 scaled_down. *)
Definition scaled_down_u (t : ity) (raw shift : Z) : res Z :=
  assert_ (negb (shift =? 0)) ;;
  let* k := shl t 1 (shift - 1) in
  shr t (sat t (raw + k)) shift.

Definition scaled_down (t : ity) (raw shift : Z) : res Z :=
  if isigned t then scaled_down_s t raw shift else scaled_down_u t raw shift.

(** mod.rs:155-159, 406-410: fix_i32 / fix_i64 div. *)
Definition div_s (t : ity) (raw divisor : Z) : res Z :=
  assert_ (0 <? divisor) ;;
  let* h := divt t divisor 2 in
  let* k := mul t h (Z.sgn raw) in
  divt t (Z.max (sat t (raw + k)) (imin t + 1)) divisor.

(** mod.rs:283-286, 501-504: fix_u32 / fix_u64 div. *)
Definition div_u (t : ity) (raw divisor : Z) : res Z :=
  assert_ (0 <? divisor) ;;
  let* h := divt t divisor 2 in
  divt t (sat t (raw + h)) divisor.

Definition div_raw (t : ity) (raw divisor : Z) : res Z :=
  if isigned t then div_s t raw divisor else div_u t raw divisor.

(** mod.rs:135-138, 256-259, 387-390, 475-478: div of the four traits. *)
Definition fix_div (F : fmt) (raw divisor : Z) : res Z :=
  let* r := div_raw (f_ty F) raw divisor in fix_new F r (f_frac F).

(** mod.rs:113-122, 234-243, 365-374, 453-462: add (checked_add .expect). *)
Definition fix_add (F : fmt) (a b : Z) : res Z :=
  let* r := add (f_ty F) a b in fix_new F r (f_frac F).
(** mod.rs:124-133, 245-254, 376-385, 464-473: sub (checked_sub .expect). *)
Definition fix_sub (F : fmt) (a b : Z) : res Z :=
  let* r := sub (f_ty F) a b in fix_new F r (f_frac F).
(** mod.rs:140-142, 392-394: neg. *)
Definition fix_neg (F : fmt) (a : Z) : res Z :=
  let* r := neg (f_ty F) a in fix_new F r (f_frac F).
(** mod.rs:85-87, 206-208, 333-335, 421-423: trunc. *)
Definition fix_trunc (F : fmt) (a : Z) : res Z := shr (f_ty F) a (f_frac F).

(** Cast to the raw type of the result; the assertion exists only where the raw type gets narrower
    (mod.rs:342, 348, 430, 436, 168, 175, 295, 302). *)
Definition narrow_to (w : ity) (R : fmt) (x : Z) : res Z :=
  if ibits (f_ty R) <? ibits w then
    let y := wrap (f_ty R) x in
    assert_ (wrap w y =? x) ;; Ok y
  else Ok x.

(** mod.rs:89-111, 210-232, 337-363, 425-451: to_fix_i32/i64/u32/u64.
    [w] is the raw type the shifts are done in: the wider of the two raw types. *)
Definition to_fix (w : ity) (S R : fmt) (raw : Z) : res Z :=
  if f_frac R <? f_frac S then
    let* x := scaled_down w raw (f_frac S - f_frac R) in
    let* y := narrow_to w R x in
    fix_new R y (f_frac R)
  else
    let d := f_frac R - f_frac S in
    let* a := shl w raw d in
    let* b := shr w a d in
    assert_ (b =? raw) ;;
    let* y := narrow_to w R a in
    fix_new R y (f_frac R).

(** mod.rs:161-180 (w = i64), 288-307 (w = u64): fix_i32::mul, fix_u32::mul;
    mod.rs:182-195, 309-322: mul_wide is the same with a result as wide as [w], where
    [narrow_to] is the identity and the shifted value is checked the same way. *)
Definition fix_mul (w : ity) (A B R : fmt) (a b : Z) : res Z :=
  let* m := mul w a b in
  let* total := add u8 (f_frac A) (f_frac B) in
  if f_frac R <? total then
    let* x := scaled_down w m (total - f_frac R) in
    let* y := narrow_to w R x in
    fix_new R y (f_frac R)
  else
    let d := f_frac R - total in
    let* x := shl w m d in
    let* y := narrow_to w R x in
    let* back := shr w x d in
    assert_ (back =? m) ;;
    fix_new R y (f_frac R).

(** ** The formats of src/fixed_point/types.rs *)
Definition plain (t : ity) (frac : Z) : fmt := mkFmt t frac (fun r => Ok r) (fun _ => true).
Definition no_fract_i32 := plain i32 0.      (* types.rs:26-33 *)
Definition no_fract_u32 := plain u32 0.      (* types.rs:46-53 *)
Definition no_fract_i64 := plain i64 0.      (* types.rs:66-73 *)
Definition no_fract_u64 := plain u64 0.      (* types.rs:86-93 *)
(** types.rs:107-114 *)
Definition fract_only_i32 := mkFmt i32 31 (fun r => Ok r) (fun r => 0 <=? r).
(** types.rs:134-141: (raw >> 31) == 0 *)
Definition fract_only_u32 := mkFmt u32 31 (fun r => Ok r) (fun r => r / 2 ^ 31 =? 0).
(** types.rs:161-168 *)
Definition fract_only_i64 := mkFmt i64 63 (fun r => Ok r) (fun r => 0 <=? r).
(** types.rs:188-195 *)
Definition fract_only_u64 := mkFmt u64 63 (fun r => Ok r) (fun r => r / 2 ^ 63 =? 0).
(** types.rs:215-224, 226-235: FRACTIONAL_BITS = Log2Lut::INDEX_BITS = 11 (lut/log2.rs:24) *)
Definition log2_d := plain i32 11.
Definition log2_q := plain i64 11.
(** types.rs:237-252: ABSOLUTE_LIMIT = 12 *)
Definition stretched_d := mkFmt i32 21 (fun r => Ok r) (fun r => (- (12 * 2 ^ 21) <=? r) && (r <=? 12 * 2 ^ 21)).
(** types.rs:280-287 *)
Definition stretched_q := plain i64 40.
(** types.rs:306-313 *)
Definition mixer_weight := plain i32 21.

(** types.rs:120-122, 147-149, 174-176, 201-203 ONE_UNSAFE: [1 << FRACTIONAL_BITS] in the raw type. *)
Definition one_unsafe (F : fmt) : res Z := shl (f_ty F) 1 (f_frac F).
(** types.rs:125-127, 152-154, 179-181, 206-208 flip. *)
Definition flip (F : fmt) (raw : Z) : res Z :=
  let* one := one_unsafe F in fix_sub F one raw.

(** types.rs:38-41, 80-83 (NoFract: with the assertion) and 129-131, 183-185 (FractOnly: without). *)
Definition to_unsigned (check : bool) (S R : fmt) (raw : Z) : res Z :=
  (if check then assert_ (0 <=? raw) else Ok tt) ;;
  fix_new R (wrap (f_ty R) raw) (f_frac S).
(** types.rs:59-62, 101-104 (NoFract) and 156-158, 210-212 (FractOnly). *)
Definition to_signed (check : bool) (S R : fmt) (raw : Z) : res Z :=
  (if check then assert_ (raw <=? imax (f_ty R)) else Ok tt) ;;
  fix_new R (wrap (f_ty R) raw) (f_frac S).

(** types.rs:301-303, 328-330: clamped. *)
Definition stretched_q_clamped (raw : Z) : Z := Z.min (Z.max raw (- (12 * 2 ^ 40))) (12 * 2 ^ 40).
Definition mixer_weight_clamped (raw : Z) : Z := Z.min (Z.max raw (- (8 * 2 ^ 21))) (8 * 2 ^ 21).

(** types.rs:264-277: interval helpers of StretchedProbD. *)
Definition interval_stops_count (index_bits : Z) : Z := 1 + 2 * 12 * 2 ^ index_bits.
Definition to_interval_index (raw index_bits : Z) : Z :=
  let r := Z.min raw (12 * 2 ^ 21 - 1) in
  12 * 2 ^ index_bits + r / 2 ^ (21 - index_bits).
