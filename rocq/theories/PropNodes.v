(** Properties C31 and C32: the allocator of nodes and child references. *)
From Coq Require Import Lia.
From Verif Require Import Base StatesModel NodesModel NodesSpec NodesProofs.

(** Reading a live node gives what was stored there last. *)
Theorem C31_reads_last_stored : forall limit events ns i n, 1 <= limit <= 2 ^ 31 -> arises limit events ns ->
  live events i = Some n -> nodes_get ns i = Ok n.
Proof. exact reads_last_stored. Qed.
Print Assumptions C31_reads_last_stored.

(** Storing into and deleting live nodes cannot fail. *)
Theorem C31_stores_succeed : forall limit events ns i n, 1 <= limit <= 2 ^ 31 -> arises limit events ns -> nd_is_valid n = true ->
  ((i = 0 \/ is_live events i = true) -> exists ns', nodes_update ns i n = Ok ns') /\
  (is_live events i = true -> exists ns', nodes_set ns i n = Ok ns') /\
  (is_live events i = true -> i <> 0 -> exists ns', nodes_delete ns i = Ok ns') /\
  (exists ns', nodes_update ns 0 node_invalid = Ok ns').
Proof. exact stores_succeed. Qed.
Print Assumptions C31_stores_succeed.

(** An added node gets a slot that is not live and not the root; a slot never used before only when all used ones are live. *)
Theorem C31_added_is_fresh : forall limit events ns n c ns', 1 <= limit <= 2 ^ 31 -> arises limit events ns -> nd_is_valid n = true ->
  nodes_add ns n = Ok (c, ns') ->
  exists i, child_to_node_index c = Ok i /\ 1 <= i < limit /\ is_live events i = false /\
    (~ used events i -> forall j, 1 <= j -> used events j -> is_live events j = true).
Proof. exact added_is_fresh. Qed.
Print Assumptions C31_added_is_fresh.

(** Adding succeeds while some slot below the limit is not live, and fails loudly when there is none. *)
Theorem C31_add_succeeds_until_full : forall limit events ns n, 1 <= limit <= 2 ^ 31 -> arises limit events ns -> nd_is_valid n = true ->
  ((exists i, 1 <= i < limit /\ is_live events i = false) -> exists r, nodes_add ns n = Ok r) /\
  ((forall i, 1 <= i < limit -> is_live events i = true) -> nodes_add ns n = Fail EAssert).
Proof. exact add_succeeds. Qed.
Print Assumptions C31_add_succeeds_until_full.

(** The live count is exact while there is a root, and 0 without one. *)
Theorem C31_count_is_exact : forall limit events ns, 1 <= limit <= 2 ^ 31 -> arises limit events ns ->
  live_nodes_count ns = Ok (if is_live events 0 then zlen (filter (is_live events) (zseq 0 (Z.to_nat limit))) else 0).
Proof. exact count_is_exact. Qed.
Print Assumptions C31_count_is_exact.

(** Window positions: encoded and decoded as such, or refused. *)
Theorem C32_window_reference : forall i, 0 <= i -> exists r, child_of_window_index i = r /\
  (i < 2 ^ 31 -> exists c, r = Ok c /\ imin i32 <= c <= imax i32 /\ child_is_valid c = true /\ child_is_window_index c = true /\ child_is_node_index c = false /\
     child_to_window_index c = Ok i /\ child_to_node_index c = Fail EAssert) /\
  (2 ^ 31 <= i -> r = Fail EAssert).
Proof. exact window_ref. Qed.
Print Assumptions C32_window_reference.

(** Nodes: likewise; the root is refused too. *)
Theorem C32_node_reference : forall i, 0 <= i -> exists r, child_of_node_index i = r /\
  (1 <= i < 2 ^ 31 -> exists c, r = Ok c /\ imin i32 <= c <= imax i32 /\ child_is_valid c = true /\ child_is_window_index c = false /\ child_is_node_index c = true /\
     child_to_node_index c = Ok i /\ child_to_window_index c = Fail EAssert) /\
  (i = 0 \/ 2 ^ 31 <= i -> r = Fail EAssert).
Proof. exact node_ref. Qed.
Print Assumptions C32_node_reference.

(** The two kinds never meet, and neither is the invalid marker. *)
Theorem C32_references_apart : forall i j c d, child_of_window_index i = Ok c -> child_of_node_index j = Ok d -> 0 <= i ->
  c <> d /\ c <> child_invalid /\ d <> child_invalid.
Proof. exact refs_apart. Qed.
Print Assumptions C32_references_apart.

(** A use: root stored, two nodes added, the first deleted, its slot taken again; the limit of 3 is reached. *)
Definition a_node (depth : Z) : node := mkNode (0, 1) 0 0 ct_default 0 1 depth 1 1.
Definition sample_events : list event :=
  [Stored 1 (a_node 9); Freed 1; Stored 2 (a_node 8); Stored 1 (a_node 7); Stored 0 (a_node 0)].
Example sample_arises : exists ns, arises 3 sample_events ns /\ live_nodes_count ns = Ok 3 /\ nodes_get ns 1 = Ok (a_node 9) /\
  nodes_add ns (a_node 10) = Fail EAssert.
Proof.
  exists (mkNodes [a_node 0; a_node 9; a_node 8] None 0 3). split.
  - unfold sample_events.
    eapply A_add; [eapply A_delete; [eapply A_add; [eapply A_add; [eapply A_update; [eapply A_new; reflexivity|..]|..]|..]|..]|..];
      first [reflexivity | lia | left; reflexivity].
  - split; [|split]; vm_compute; reflexivity.
Qed.
Example sample_references : child_of_node_index 1 = Ok (-2) /\ child_of_window_index 1 = Ok 1 /\ child_of_node_index 0 = Fail EAssert.
Proof. split; [|split]; reflexivity. Qed.
