(** Property C70: slots deleted twice, and the root deleted. *)
From Coq Require Import Lia.
From Verif Require Import Base StatesModel NodesModel NodesSpec MisuseSpec MisuseProofs PropNodes.

(** A second deletion of a slot is not noticed, and the live count is then one too low.  Nodes added later get that slot and those deleted
    after it, each once and none that is live; the next addition panics, even where other slots are free. *)
Theorem C70_second_deletion : forall limit events ns i, 1 <= limit <= 2 ^ 31 -> arises limit events ns ->
  1 <= i -> used events i -> is_live events i = false ->
  exists ns', nodes_delete ns i = Ok ns' /\
  (forall c, is_live events 0 = true -> live_nodes_count ns = Ok c -> live_nodes_count ns' = Ok (c - 1)) /\
  NoDup (i :: before i (freed events)) /\
  (forall j, In j (i :: before i (freed events)) -> is_live events j = false) /\
  forall l, Forall (fun n => nd_is_valid n = true) l ->
    ((length l <= S (length (before i (freed events))))%nat ->
       exists ns'', add_all ns' l = Ok (firstn (length l) (i :: before i (freed events)), ns'')) /\
    ((S (length (before i (freed events))) < length l)%nat -> add_all ns' l = Fail EAssert).
Proof. exact second_deletion. Qed.
Print Assumptions C70_second_deletion.

(** The deletion of the root is not noticed; after it no node can be added or deleted, also when a root is stored again. *)
Theorem C70_root_deletion : forall limit events ns, 1 <= limit <= 2 ^ 31 -> arises limit events ns -> is_live events 0 = true ->
  exists ns', nodes_delete ns 0 = Ok ns' /\
  (forall n, nodes_add ns' n = Fail EAssert) /\
  (forall i, nodes_delete ns' i = Fail EAssert) /\
  (forall m, nd_is_valid m = true -> exists ns'', nodes_update ns' 0 m = Ok ns'' /\
     (forall n, nodes_add ns'' n = Fail EAssert) /\ (forall i, nodes_delete ns'' i = Fail EAssert)).
Proof. exact root_deletion. Qed.
Print Assumptions C70_root_deletion.

(** Only the deletion of a root that is not there, or of a slot never used, panics at once. *)
Theorem C70_missing_deletions : forall limit events ns, 1 <= limit <= 2 ^ 31 -> arises limit events ns ->
  (is_live events 0 = false -> nodes_delete ns 0 = Fail EAssert) /\
  (forall i, 1 <= i -> ~ used events i -> nodes_delete ns i = Fail EIndex).
Proof. exact missing_deletions. Qed.
Print Assumptions C70_missing_deletions.

(** A root and four nodes, of which 4, 1 and 2 are deleted in this order. *)
Definition misuse_events : list event :=
  [Freed 2; Freed 1; Freed 4; Stored 4 (a_node 9); Stored 3 (a_node 8); Stored 2 (a_node 7); Stored 1 (a_node 6); Stored 0 (a_node 0)].
Definition misuse_nodes : nodes :=
  mkNodes [a_node 0; nd_set_child node_invalid true (-5); nd_set_child node_invalid true (-2); a_node 8; node_invalid] (Some 2) 3 6.
Example misuse_arises : arises 6 misuse_events misuse_nodes /\ used misuse_events 1 /\ is_live misuse_events 1 = false /\ is_live misuse_events 0 = true /\
  freed misuse_events = [2; 1; 4] /\ before 1 (freed misuse_events) = [2] /\ live_nodes_count misuse_nodes = Ok 2.
Proof.
  split.
  - assert (H : arises 6 [] (mkNodes [node_invalid] None 0 6)) by (apply A_new; reflexivity).
    apply (A_update 6 _ _ 0 (a_node 0) (mkNodes [a_node 0] None 0 6)) in H; [|reflexivity|left; reflexivity|reflexivity].
    apply (A_add 6 _ _ (a_node 6) (-2) 1 (mkNodes [a_node 0; a_node 6] None 0 6)) in H; [|reflexivity|vm_compute; reflexivity|reflexivity].
    apply (A_add 6 _ _ (a_node 7) (-3) 2 (mkNodes [a_node 0; a_node 6; a_node 7] None 0 6)) in H; [|reflexivity|vm_compute; reflexivity|reflexivity].
    apply (A_add 6 _ _ (a_node 8) (-4) 3 (mkNodes [a_node 0; a_node 6; a_node 7; a_node 8] None 0 6)) in H; [|reflexivity|vm_compute; reflexivity|reflexivity].
    apply (A_add 6 _ _ (a_node 9) (-5) 4 (mkNodes [a_node 0; a_node 6; a_node 7; a_node 8; a_node 9] None 0 6)) in H; [|reflexivity|vm_compute; reflexivity|reflexivity].
    apply (A_delete 6 _ _ 4 (mkNodes [a_node 0; a_node 6; a_node 7; a_node 8; node_invalid] (Some 4) 1 6)) in H; [|lia|reflexivity|vm_compute; reflexivity].
    apply (A_delete 6 _ _ 1 (mkNodes [a_node 0; nd_set_child node_invalid true (-5); a_node 7; a_node 8; node_invalid] (Some 1) 2 6)) in H; [|lia|reflexivity|vm_compute; reflexivity].
    apply (A_delete 6 _ _ 2 misuse_nodes) in H; [|lia|reflexivity|vm_compute; reflexivity]. exact H.
  - split; [exists (Freed 1); split; [right; left; reflexivity|reflexivity]|]. repeat split; vm_compute; reflexivity.
Qed.
(** Slot 1 deleted again: two additions get slots 1 and 2, the third panics though slot 4 is free and slot 5 was never used. *)
Example misuse_run :
  (let* ns := nodes_delete misuse_nodes 1 in let* r := add_all ns [a_node 1; a_node 2] in Ok (fst r)) = Ok [1; 2] /\
  (let* ns := nodes_delete misuse_nodes 1 in add_all ns [a_node 1; a_node 2; a_node 3]) = Fail EAssert /\
  (let* r := add_all misuse_nodes [a_node 1; a_node 2; a_node 3; a_node 4] in Ok (fst r)) = Ok [2; 1; 4; 5].
Proof. repeat split; vm_compute; reflexivity. Qed.
Example missing_run : nodes_delete misuse_nodes 5 = Fail EIndex /\
  (let* ns := nodes_update misuse_nodes 0 node_invalid in nodes_delete ns 0) = Fail EAssert /\ ~ used misuse_events 5.
Proof.
  split; [vm_compute; reflexivity|]. split; [vm_compute; reflexivity|]. unfold used, misuse_events. intros [e [H E]].
  repeat (destruct H as [<-|H]; [discriminate|]). destruct H.
Qed.
