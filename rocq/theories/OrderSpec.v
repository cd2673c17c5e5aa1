(** What two predictors have in common whose windows and maximum orders differ. *)
From Verif Require Import Base PredModel PredSpec RoomSpec.

(** No order is cut off: a context of order [o] that was met before needs [o + 1] bytes before the byte to predict. *)
Definition orders_suffice (uses : list use) (max_order : Z) : Prop := fits uses (max_order + 2).
(** The numbers of the statistics; the occurrences are kept for as many orders as there may be, and no number is none. *)
Definition entry (l : list Z) (i : Z) : Z := match znth l i with Some x => x | None => 0 end.
Definition same_statistics (s s' : stats) : Prop :=
  st_total_bytes s = st_total_bytes s' /\ st_total_contexts s = st_total_contexts s' /\ st_order_counts s = st_order_counts s' /\ st_order_costs s = st_order_costs s' /\
  st_symbol_counts s = st_symbol_counts s' /\ st_symbol_costs s = st_symbol_costs s' /\ st_byte_cost s = st_byte_cost s' /\ st_total_cost s = st_total_cost s' /\
  forall i, entry (st_order_occurrences s) i = entry (st_order_occurrences s') i.
(** All but the tree, with the mixers of the orders both have. *)
Definition same_to (n : Z) (p q : predictor) : Prop :=
  pr_last_bytes p = pr_last_bytes q /\ pr_contexts p = pr_contexts q /\ (forall o, o < n -> znth (pr_chain p) o = znth (pr_chain q) o) /\ pr_finalizer p = pr_finalizer q /\ pr_final p = pr_final q /\
  same_statistics (pr_stats p) (pr_stats q).
