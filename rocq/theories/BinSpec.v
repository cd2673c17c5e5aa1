(** The listing of bit histories as a function of the file alone. *)
From Verif Require Import Base UtilSpec StateSpec WindowSpec HistSpec BinModel.

(** For every order whose context has been met: a one and the last seven (or fewer) bits that followed it, as a binary number. *)
Definition met (text : list bit) (o : Z) : bool := negb (same (followers text o) []).
Definition histories (max_order : Z) (text : list bit) : list Z :=
  map (fun o => number_of (true :: lastn 7 (followers text o))) (filter (met text) (zseq 0 (Z.to_nat (max_order + 1)))).
(** The lines for bit [j] (7 first) of byte [i]: none when no context has been met. *)
Definition bit_lines (max_order : Z) (bytes : list Z) (i j : Z) : list printed :=
  match histories max_order (firstn (Z.to_nat (8 * i + (7 - j))) (bit_string bytes)) with [] => [] | l => [States j l] end.
Definition byte_lines (max_order : Z) (bytes : list Z) (i : Z) : list printed :=
  Header i (nth (Z.to_nat i) bytes 0) :: flat_map (bit_lines max_order bytes i) [7; 6; 5; 4; 3; 2; 1; 0] ++ [Blank].
(** Of the first 1234 bytes. *)
Definition listing (max_order : Z) (file : list Z) : list printed :=
  let bytes := firstn 1234 file in flat_map (byte_lines max_order bytes) (zseq 0 (length bytes)).
