(** What becomes of the allocator of nodes when a slot is deleted twice. *)
From Verif Require Import Base NodesModel NodesSpec.

(** The deleted slots not taken again, last deleted first; the root is never among them. *)
Fixpoint freed (events : list event) : list Z :=
  match events with
  | [] => []
  | Stored j _ :: earlier => filter (fun k => negb (k =? j)) (freed earlier)
  | Freed j :: earlier => if j =? 0 then freed earlier else j :: freed earlier
  end.
(** The part of a list before the first [i]. *)
Fixpoint before (i : Z) (l : list Z) : list Z :=
  match l with
  | [] => []
  | k :: r => if k =? i then [] else k :: before i r
  end.
(** Nodes added one after the other: the slots they get. *)
Fixpoint add_all (ns : nodes) (l : list node) : res (list Z * nodes) :=
  match l with
  | [] => Ok ([], ns)
  | n :: r =>
      let* p := nodes_add ns n in
      let* i := child_to_node_index (fst p) in
      let* q := add_all (snd p) r in
      Ok (i :: fst q, snd q)
  end.
