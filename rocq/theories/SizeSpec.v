(** The strings of the window that branch, and what a node says about one. *)
From Verif Require Import Base StatesSpec WindowModel NodesModel TreeModel TreeSpec IntegSpec.

(** A string that begins at whole bytes of the text and is followed there by both bits; short enough to be a context. *)
Definition branches (max_order : Z) (text x : list bit) : Prop :=
  zlen x < 8 * (max_order + 1) /\ forall b, exists k, 0 <= k /\ starts_with (tail_of text k) (x ++ [b]).
(** The bits that follow a string in the text, in order. *)
Fixpoint begins (s x : list bit) {struct x} : bool :=
  match x, s with
  | [], _ => true
  | a :: x, b :: s => Bool.eqb a b && begins s x
  | _ :: _, [] => false
  end.
Definition next_bits (text x : list bit) : list bit :=
  flat_map (fun k => let s := tail_of text k in if begins s x then firstn 1 (skipn (length x) s) else []) (zseq 0 (Z.to_nat (zlen text / 8 + 1))).
Definition how_many (b : bit) (l : list bit) : Z := zlen (filter (Bool.eqb b) l).
(** A node with the statistics of a string: those of the bits that follow it in the text, after at most [gone] older ones; it points to a place in the window where the text
    begins with the string, or ends before it is complete. *)
Definition describes (rates : list Z) (gone : Z) (w : window) (text : list bit) (n : node) (x : list bit) : Prop :=
  nd_depth n = zlen x /\
  (exists k, 0 <= k < w_size w /\ nd_text_start n = spot w k /\ (starts_with (tail_of text k) x \/ starts_with x (tail_of text k))) /\
  exists older, zlen older <= gone /\ let h := older ++ next_bits text x in
    nd_left_count n = Z.min 1000 (how_many Zero h) /\ nd_right_count n = Z.min 1000 (how_many One h) /\
    estimator_of rates (cut_run h) = Ok (nd_estimator n) /\ recent_of h = Ok (nd_recent n) /\ runs_of h = Ok (nd_runs n).
(** One node for each branching string, and no other. *)
Definition one_node_each (rates : list Z) (max_order gone : Z) (tr : tree) (text : list bit) : Prop :=
  (tr_proper tr = true <-> exists x, branches max_order text x) /\
  (tr_proper tr = true -> exists string_of,
     (forall i, reachable (tr_nodes tr) i -> branches max_order text (string_of i) /\
        exists n, nodes_get (tr_nodes tr) i = Ok n /\ describes rates gone (tr_window tr) text n (string_of i)) /\
     (forall x, branches max_order text x -> exists i, reachable (tr_nodes tr) i /\ string_of i = x) /\
     (forall i j, reachable (tr_nodes tr) i -> reachable (tr_nodes tr) j -> string_of i = string_of j -> i = j)) /\
  exists all, NoDup all /\ (forall x, In x all <-> branches max_order text x) /\ live_nodes_count (tr_nodes tr) = Ok (zlen all).
