(** When a text fits into a window, and what two predictors have in common whose windows differ. *)
From Verif Require Import Base PredModel PredSpec.

(** There is room for the bits told, and for the byte begun. *)
Definition fits (uses : list use) (max : Z) : Prop :=
  match allowed_all Between uses with
  | Some Between => zlen (told uses) <= 8 * max
  | _ => zlen (told uses) < 8 * max
  end.
(** All but the tree. *)
Definition same_but_tree (p q : predictor) : Prop :=
  pr_last_bytes p = pr_last_bytes q /\ pr_contexts p = pr_contexts q /\ pr_chain p = pr_chain q /\ pr_finalizer p = pr_finalizer q /\ pr_final p = pr_final q /\ pr_stats p = pr_stats q.
