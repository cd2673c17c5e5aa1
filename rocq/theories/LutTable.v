(** Lean versions of the stretch and squash tables (no machine checks), their values, and the finite sweeps.
    These are proof devices: LutProofs.v shows that they equal the model. *)
From Verif Require Import Base LogProofs.

(** The 8 levels of the stretch table, lowest inputs first, numbered 0..4095: cell [c] covers
    [cell_start c, cell_start c + 2^cell_bits c). *)
Definition cell_bits (c : Z) : Z := if c <? 512 then 14 else 13 + Z.shiftr c 9.
Definition cell_start (c : Z) : Z :=
  if c <? 512 then c * 16384 else Z.shiftl (512 + Z.land c 511) (13 + Z.shiftr c 9).

Definition lean_log (x : Z) : Z :=
  let k := 30 - Z.log2 x in
  Z.shiftr (Z.min 2147483647 (lean_loop 31 (Z.shiftl x k) 0 + 32)) 6 - (k + 1) * 33554432.
(** Magnitude of the (negative) table entry at the start of cell [c]. *)
Definition lean_mag (c : Z) : Z :=
  let x := cell_start c in
  Z.shiftr ((lean_log (2147483648 - x) - lean_log x) * 1488522236 + 17179869184) 35.

Definition mags : list Z := Eval vm_compute in (lean_mag 1 :: map lean_mag (zseq 1 4095)) ++ [0].

(** [l] lists the values of [f] from [c] on. *)
Fixpoint list_check (f : Z -> Z) (c : Z) (l : list Z) : bool :=
  match l with
  | [] => true
  | v :: r => (f c =? v) && list_check f (c + 1) r
  end.
Lemma mags_sweep : list_check lean_mag 1 (removelast (tl mags)) = true.
Proof. vm_cast_no_check (eq_refl true). Qed.

(** Lookup trees. *)
Inductive ptree : Type := PE | PN (l : ptree) (v : Z) (r : ptree).
Fixpoint pset (t : ptree) (p : positive) (v : Z) : ptree :=
  match p, t with
  | xH, PE => PN PE v PE
  | xH, PN l _ r => PN l v r
  | xO q, PE => PN (pset PE q v) 0 PE
  | xO q, PN l w r => PN (pset l q v) w r
  | xI q, PE => PN PE 0 (pset PE q v)
  | xI q, PN l w r => PN l w (pset r q v)
  end.
Fixpoint pget (t : ptree) (p : positive) : Z :=
  match t with
  | PE => 0
  | PN l v r => match p with xH => v | xO q => pget l q | xI q => pget r q end
  end.
Fixpoint pbuild (l : list Z) (p : positive) (t : ptree) : ptree :=
  match l with [] => t | v :: r => pbuild r (Pos.succ p) (pset t p v) end.
Definition mtree : ptree := Eval vm_compute in pbuild mags 1 PE.
Definition mag (c : Z) : Z := pget mtree (Z.to_pos (c + 1)).

(** Table entries read through the tree: equal to the list, decreasing, bounded by 24711779. *)
Fixpoint tree_check (f : Z -> Z) (c prev : Z) (l : list Z) : bool :=
  match l with
  | [] => true
  | v :: r => (f c =? v) && (v <=? prev) && (0 <=? v) && tree_check f (c + 1) v r
  end.
Lemma tree_sweep : tree_check mag 0 24711779 mags = true.
Proof. vm_cast_no_check (eq_refl true). Qed.

(** Rounded interpolation inside a cell. *)
Definition rhu (x n : Z) : Z := Z.shiftr (x + Z.shiftl 1 (n - 1)) n.
Definition cell_value (c k : Z) : Z :=
  let n := cell_bits c in
  rhu (mag c * k) n - rhu (mag (c + 1) * k) n - mag c.
Definition lean_stretch_low (x : Z) : Z :=
  if x <? 8388608 then cell_value (Z.shiftr x 14) (Z.land x 16383)
  else
    let n := Z.log2 x - 9 in
    let h := Z.shiftr x n in
    cell_value ((n - 13) * 512 + h - 512) (x - Z.shiftl h n).
Definition lean_stretch (x : Z) : Z :=
  if x =? 1073741824 then 0
  else if 1073741824 <? x then - lean_stretch_low (2147483648 - x) else lean_stretch_low x.

(** The search of squash.rs over a pure stretch. *)
Fixpoint lean_find (fuel : nat) (t lo hi : Z) : Z + Z * Z :=
  match fuel with
  | O => inr (lo, hi)
  | S f =>
      if 1 <? hi - lo then
        let m := lo + Z.shiftr (hi - lo) 1 in
        let s := lean_stretch m in
        if t <? s then lean_find f t lo m
        else if s <? t then lean_find f t m hi else inl m
      else inr (lo, hi)
  end.
(** What the search returns: the nearer end, clamped where the function is flat; -1 where an assertion would fail. *)
Definition pick (t : Z) (r : Z + Z * Z) : Z :=
  match r with
  | inl m => m
  | inr (lo, hi) =>
      let a := lean_stretch lo in
      let b := lean_stretch hi in
      if negb (a =? b) then if (a <=? t) && (t <=? b) && (b - a <=? 25165824) then if t - a <? b - t then lo else hi else -1
      else Z.min (Z.max lo 16384) 2147467264
  end.
Definition lean_squash_entry (t : Z) : Z := pick t (lean_find 33 t 1 2147483647).
Definition squashes : list Z := Eval vm_compute in map (fun i => lean_squash_entry (i * 16384)) (zseq 0 1537).
Lemma squashes_sweep : list_check (fun i => lean_squash_entry (i * 16384)) 0 squashes = true.
Proof. vm_cast_no_check (eq_refl true). Qed.

Definition stree : ptree := Eval vm_compute in pbuild squashes 1 PE.
(** Entry [j] of the squash table, 0..3072: the upper half is read from the tree, the lower half is its mirror. *)
Definition sq (j : Z) : Z :=
  if 1536 <=? j then pget stree (Z.to_pos (j - 1535)) else 2147483648 - pget stree (Z.to_pos (1537 - j)).

Fixpoint rising_check (f : Z -> Z) (c prev : Z) (l : list Z) : bool :=
  match l with
  | [] => true
  | v :: r => (f c =? v) && (prev <=? v) && (v <=? 2147467264) && rising_check f (c + 1) v r
  end.
Lemma rising_sweep : rising_check (fun i => sq (1536 + i)) 0 1073741824 squashes = true.
Proof. vm_cast_no_check (eq_refl true). Qed.

Definition lean_squash (s : Z) : Z :=
  let j := Z.shiftr s 14 + 1536 in
  if j =? 3072 then sq j
  else
    let w := Z.land s 16383 in
    sq j - rhu (sq j * w) 14 + rhu (sq (j + 1) * w) 14.

(** Round trip: on the part of stretch cell [c] that falls into squash cell [j], the distance between the two lines, at
    the ends of the common range [a, b] of stretched values, scaled by the cell height times 2^14. *)
Definition piece_ok (c j a b : Z) : bool :=
  let d := mag c - mag (c + 1) in
  let n := Z.shiftl 1 (cell_bits c) in
  let q := sq (j + 1536) in
  let dq := sq (j + 1537) - q in
  let dist s := (q * 16384 + dq * (s - j * 16384)) * d - (cell_start c * d + (s + mag c) * n) * 16384 in
  let m := (2147 * d - n - d) * 16384 in
  (Z.abs (dist a) <=? m) && (Z.abs (dist b) <=? m).
Fixpoint pieces_ok (fuel : nat) (c j : Z) : bool :=
  match fuel with
  | O => true
  | S f => piece_ok c j (Z.max (- mag c) (j * 16384)) (Z.min (- mag (c + 1)) ((j + 1) * 16384)) && pieces_ok f c (j + 1)
  end.
Definition cell_ok (c : Z) : bool :=
  let lo := Z.shiftr (- mag c) 14 in
  let hi := Z.shiftr (- mag (c + 1)) 14 in
  (mag (c + 1) <? mag c) && pieces_ok (Z.to_nat (hi - lo + 1)) c lo.
Fixpoint count_ok (f : Z -> bool) (n : nat) (c : Z) : bool :=
  match n with O => true | S n => f c && count_ok f n (c + 1) end.
Lemma round_sweep : count_ok cell_ok 4095 1 = true.
Proof. vm_cast_no_check (eq_refl true). Qed.
