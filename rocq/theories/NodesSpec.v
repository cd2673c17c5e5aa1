(** What the allocator of nodes does, as a function of what was stored and freed so far. *)
From Verif Require Import Base NodesModel.

(** Events, newest first. *)
Inductive event : Type := Stored (index : Z) (n : node) | Freed (index : Z).
Fixpoint live (events : list event) (i : Z) : option node :=
  match events with
  | [] => None
  | Stored j n :: earlier => if i =? j then Some n else live earlier i
  | Freed j :: earlier => if i =? j then None else live earlier i
  end.
Definition is_live (events : list event) (i : Z) : bool := match live events i with Some _ => true | None => false end.
Definition index_of (e : event) : Z := match e with Stored i _ => i | Freed i => i end.
Definition used (events : list event) (i : Z) : Prop := exists e, In e events /\ index_of e = i.

(** The allocator [ns] can arise by a sensible use: only valid nodes are stored, only live ones are overwritten or deleted;
    the root, at 0, is not deleted but stored or cleared. *)
Inductive arises (limit : Z) : list event -> nodes -> Prop :=
| A_new : forall ns, nodes_new limit = Ok ns -> arises limit [] ns
| A_add : forall events ns n c i ns', arises limit events ns -> nd_is_valid n = true ->
    nodes_add ns n = Ok (c, ns') -> child_to_node_index c = Ok i -> arises limit (Stored i n :: events) ns'
| A_update : forall events ns i n ns', arises limit events ns -> nd_is_valid n = true -> (i = 0 \/ is_live events i = true) ->
    nodes_update ns i n = Ok ns' -> arises limit (Stored i n :: events) ns'
| A_set : forall events ns i n ns', arises limit events ns -> nd_is_valid n = true -> is_live events i = true ->
    nodes_set ns i n = Ok ns' -> arises limit (Stored i n :: events) ns'
| A_delete : forall events ns i ns', arises limit events ns -> i <> 0 -> is_live events i = true ->
    nodes_delete ns i = Ok ns' -> arises limit (Freed i :: events) ns'
| A_clear : forall events ns ns', arises limit events ns -> nodes_update ns 0 node_invalid = Ok ns' -> arises limit (Freed 0 :: events) ns'.
