(** How many trackers come with a bit, and what a source should make of too few or too many. *)
From Verif Require Import Base StatesModel HistSpec.

(** The text is its first byte over and over, with the beginning of that byte at the end. *)
Definition repeating (text : list bit) : Prop := exists rest, text = skipn 8 text ++ rest.
(** One tracker is due for each order that has met both bits. More than that are passed over by the hash-map source only when every order up to the maximum has. *)
Definition map_takes (max_order : Z) (text : list bit) (count : Z) : Prop :=
  let due := branching max_order text in count = due \/ due < count /\ due = max_order + 1.
(** The tree passes over them also when the context of the next order is new, and as long as the text repeats one byte. *)
Definition tree_takes (max_order : Z) (text : list bit) (count : Z) : Prop :=
  let due := branching max_order text in count = due \/ due < count /\ (due = max_order + 1 \/ followers text due = [] \/ repeating text).
