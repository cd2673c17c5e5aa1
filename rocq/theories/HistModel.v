(** Model of src/history/naive.rs and src/history/fat_map.rs. *)
From Verif Require Import Base StatesModel WindowModel.

(** naive.rs:26-31 NaiveHistorySource; the tables are passed where they are used. *)
Record naive : Type := mkNaive { nv_input : window; nv_bit_index : Z; nv_max_order : Z }.
(** naive.rs:34-42 new *)
Definition naive_new (max_window_size max_order : Z) : res naive :=
  let* w := window_new max_window_size 0 in Ok (mkNaive w (-1) max_order).
(** naive.rs:44-50 start_new_byte *)
Definition naive_start (n : naive) : res naive :=
  assert_ (nv_bit_index n =? -1) ;;
  assert_ (negb (w_size (nv_input n) =? w_max (nv_input n))) ;;
  let* w := advance_cursor (nv_input n) in Ok (mkNaive w 7 (nv_max_order n)).
(** naive.rs:58-85: the body of the loop over scanned positions. *)
Definition naive_scan (t : luts) (n : naive) (order : Z) (last : option context_state) (scanned_index : Z) : res (option context_state) :=
  let w := nv_input n in
  let bit_index := wrap usize (nv_bit_index n) in
  let* current := index_subtract w (w_cursor w) order in
  let* prefix_equal := compare_for_equal_prefix w scanned_index current bit_index order in
  if prefix_equal then
    let* target := index_add w scanned_index order in
    let* bit_in_context := window_bit w target bit_index in
    let* distance := index_diff w current scanned_index in
    let* s := match last with
              | Some s => next_state t s distance bit_in_context (if is_for_node s then Some ct_default else None)
              | None => Ok (starting_state distance bit_in_context)
              end in
    Ok (Some s)
  else Ok last.
(** naive.rs:54-92: the loop over orders, stopping at the first order without occurrence. *)
Fixpoint naive_orders (t : luts) (n : naive) (orders : list Z) (items : list context_state) : res (list context_state) :=
  match orders with
  | [] => Ok items
  | order :: rest =>
      let* stop := index_subtract (nv_input n) (w_cursor (nv_input n)) order in
      let* last := mfold (naive_scan t n order) (range 0 stop) None in
      match last with
      | Some s => naive_orders t n rest (items ++ [s])
      | None => Ok items
      end
  end.
(** naive.rs:52-93 gather_history_states *)
Definition naive_gather (t : luts) (n : naive) (items : list context_state) : res (list context_state) :=
  let* count := add usize (nv_max_order n) 1 in naive_orders t n (range 0 count) items.
(** naive.rs:95-101 process_input_bit *)
Definition naive_process (n : naive) (input_bit : bit) (new_cost_trackers : list cost_trackers) : res naive :=
  assert_ (forallb (ct_eqb ct_default) new_cost_trackers) ;;
  let* w := set_bit_at_cursor (nv_input n) input_bit (wrap usize (nv_bit_index n)) in
  let* bit_index := sub i32 (nv_bit_index n) 1 in
  Ok (mkNaive w bit_index (nv_max_order n)).

(** std::collections::HashMap<u64, Vec<ContextState>>: an association list, newest binding first. *)
Definition hash_map : Type := list (Z * list context_state).
Fixpoint hm_get (m : hash_map) (key : Z) : option (list context_state) :=
  match m with [] => None | (k, v) :: r => if k =? key then Some v else hm_get r key end.
Definition hm_put (m : hash_map) (key : Z) (v : list context_state) : hash_map := (key, v) :: m.

(** fat_map.rs:31-38 FatMapHistorySource.  [hash] stands for std's hasher with the keys of a map: the value [finish] gives
    after the bytes written with write_u8 and the number written with write_u16, as a function of the map, any function. *)
Record fat : Type := mkFat { fm_input : window; fm_bit_index : Z; fm_max_order : Z; fm_maps : list hash_map }.
Definition hasher : Type := Z -> list Z -> Z -> Z.
(** fat_map.rs:56-65 new; the allocation of the maps is not modelled. *)
Definition fat_new (max_window_size max_order : Z) : res fat :=
  let* w := window_new max_window_size 0 in
  let* a := add usize max_order 1 in
  let* count := mul usize a 8 in
  Ok (mkFat w 7 max_order (repeat [] (Z.to_nat count))).
(** fat_map.rs:67-72 start_new_byte *)
Definition fat_start (f : fat) : res fat :=
  assert_ (fm_bit_index f =? 7) ;;
  assert_ (negb (w_size (fm_input f) =? w_max (fm_input f))) ;;
  let* w := advance_cursor (fm_input f) in Ok (mkFat w (fm_bit_index f) (fm_max_order f) (fm_maps f)).
(** The index of a map, order * 8 + bit_index, checked (fat_map.rs:43, 77, 110). *)
Definition map_index (f : fat) (order : Z) : res Z :=
  let* a := mul usize order 8 in add usize a (fm_bit_index f).
(** fat_map.rs:41-52 compute_hash *)
Definition compute_hash (hash : hasher) (f : fat) (order : Z) : res Z :=
  let w := fm_input f in
  let* i := map_index f order in
  let* _m := get (fm_maps f) i in
  let* bytes := mmap (fun distance => let* index := index_subtract w (w_cursor w) distance in byte_at w index) (rev (range 1 (order + 1))) in
  let* x := byte_at w (w_cursor w) in
  let* y := add u16 256 x in
  let* k := add usize (fm_bit_index f) 1 in
  let* z := shr u16 y k in
  Ok (hash i bytes z).
(** Iterator::find: the first item for which the test holds, with its position. *)
Fixpoint mfind {A : Type} (test : A -> res bool) (l : list A) (i : Z) : res (option (Z * A)) :=
  match l with
  | [] => Ok None
  | x :: r => let* b := test x in if b then Ok (Some (i, x)) else mfind test r (i + 1)
  end.
(** history/mod.rs:31-45: last_occurrence_distance replaced (fat_map.rs:91-98). *)
Definition with_distance (d : Z) (s : context_state) : context_state :=
  match s with ForEdge _ c b => ForEdge d c b | ForNode _ e r q c => ForNode d e r q c end.
(** fat_map.rs:76-103: the loop over orders.  [last] of a flat_map of the optional vector is what [find] gives. *)
Fixpoint fat_orders (hash : hasher) (f : fat) (orders : list Z) (items : list context_state) : res (list context_state) :=
  match orders with
  | [] => Ok items
  | order :: rest =>
      let w := fm_input f in
      let* i := map_index f order in
      let* m := get (fm_maps f) i in
      let* h := compute_hash hash f order in
      let* found := match hm_get m h with
                    | Some v => mfind (fun item => let* current := index_subtract w (w_cursor w) order in
                                  compare_for_equal_prefix w current (last_occurrence_distance item) (fm_bit_index f) order) v 0
                    | None => Ok None
                    end in
      match found with
      | Some (_, s) =>
          let* a := sub usize (w_cursor w) order in
          let* actual_distance := sub usize a (last_occurrence_distance s) in
          fat_orders hash f rest (items ++ [with_distance actual_distance s])
      | None => Ok items
      end
  end.
(** fat_map.rs:74-104 gather_history_states *)
Definition fat_gather (hash : hasher) (f : fat) (items : list context_state) : res (list context_state) :=
  let* count := add usize (Z.min (fm_max_order f) (w_cursor (fm_input f))) 1 in fat_orders hash f (range 0 count) items.
(** fat_map.rs:108-141: the body of the loop over orders; only the maps change. *)
Definition fat_record (t : luts) (hash : hasher) (f : fat) (input_bit : bit) (trackers : list cost_trackers) (maps : list hash_map) (order : Z)
    : res (list hash_map) :=
  let f := mkFat (fm_input f) (fm_bit_index f) (fm_max_order f) maps in
  let w := fm_input f in
  let* h := compute_hash hash f order in
  let* i := map_index f order in
  let* m := get maps i in
  let v := match hm_get m h with Some v => v | None => [] end in
  let* byte_index := index_subtract w (w_cursor w) order in
  let* found := mfind (fun item => compare_for_equal_prefix w byte_index (last_occurrence_distance item) (fm_bit_index f) order) v 0 in
  let* v := match found with
            | Some (at_, s) =>
                let* opt := if is_for_node s then
                              assert_ (order <? zlen trackers) ;; let* c := get trackers order in Ok (Some c)
                            else assert_ (zlen trackers <=? order) ;; Ok None in
                let* s' := next_state t s byte_index input_bit opt in
                set v at_ s'
            | None => assert_ (zlen trackers <=? order) ;; Ok (v ++ [starting_state byte_index input_bit])
            end in
  set maps i (hm_put m h v).
(** fat_map.rs:106-148 process_input_bit *)
Definition fat_process (t : luts) (hash : hasher) (f : fat) (input_bit : bit) (trackers : list cost_trackers) : res fat :=
  let* count := add usize (Z.min (fm_max_order f) (w_cursor (fm_input f))) 1 in
  let* maps := mfold (fat_record t hash f input_bit trackers) (range 0 count) (fm_maps f) in
  let* w := set_bit_at_cursor (fm_input f) input_bit (fm_bit_index f) in
  let* bit_index := if 0 <? fm_bit_index f then sub usize (fm_bit_index f) 1 else Ok 7 in
  Ok (mkFat w bit_index (fm_max_order f) maps).
