(** What the listing of the tree should be: the branching strings and what they branch to, as in a dictionary. *)
From Verif Require Import Base UtilSpec StateSpec StatesSpec WindowModel NodesModel TreeModel TreeSpec IntegSpec SizeSpec ShowModel.

(** As in a dictionary: a word comes before the longer words that begin with it, and "0" comes before "1". *)
Definition dictionary_before (x y : list bit) : Prop :=
  (exists b r, y = x ++ b :: r) \/ exists c, starts_with x (c ++ [Zero]) /\ starts_with y (c ++ [One]).
(** A branching string and one more bit, with which no branching string begins. *)
Definition tip (max_order : Z) (text x : list bit) : Prop :=
  (exists y d, x = y ++ [d] /\ branches max_order text y) /\ forall z, branches max_order text z -> ~ starts_with z x.
(** The number of branching strings that a string properly begins with. *)
Definition below (max_order : Z) (text x : list bit) (indent : Z) : Prop :=
  exists above, NoDup above /\ (forall y, In y above <-> branches max_order text y /\ exists b r, x = y ++ b :: r) /\ zlen above = indent.
(** The line of a string.  That of a branching string has the statistics of the bits that follow it in the text, after at most [gone] older ones; that of a tip the last
    place where the string is. *)
Definition line_of (gone max_order : Z) (w : window) (text x : list bit) (l : line) : Prop :=
  match l with
  | EmptyTree => False
  | NodeLine indent text_start depth recent left_count right_count index =>
      branches max_order text x /\ below max_order text x indent /\ depth = zlen x /\
      (exists k, 0 <= k < w_size w /\ text_start = spot w k /\ (starts_with (tail_of text k) x \/ starts_with x (tail_of text k))) /\
      exists older, zlen older <= gone /\ let h := older ++ next_bits text x in
        left_count = Z.min 1000 (how_many Zero h) /\ right_count = Z.min 1000 (how_many One h) /\ recent = number_of (true :: lastn 7 h)
  | LeafLine indent index =>
      tip max_order text x /\ below max_order text x indent /\
      exists k, 0 <= k < w_size w /\ index = spot w k /\ starts_with (tail_of text k) x /\ forall q, k < q -> ~ starts_with (tail_of text q) x
  end.
(** The whole listing: one line for each branching string and each tip, as in a dictionary, and the numbers of the nodes differ. *)
Definition node_numbers (lines : list line) : list Z := flat_map (fun l => match l with NodeLine _ _ _ _ _ _ i => [i] | _ => [] end) lines.
Definition listing (gone max_order : Z) (w : window) (text : list bit) (lines : list line) : Prop :=
  (lines = [EmptyTree] /\ forall x, ~ branches max_order text x) \/
  exists strings, Forall2 (line_of gone max_order w text) strings lines /\ ForallOrdPairs dictionary_before strings /\
    (forall x, In x strings <-> branches max_order text x \/ tip max_order text x) /\ NoDup (node_numbers lines).
