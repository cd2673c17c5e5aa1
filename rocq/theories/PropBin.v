(** C55: the program that prints bit histories (src/bin/print_histories.rs). *)
From Verif Require Import Base StateModel StatesModel StatesProofs WindowSpec HistModel HistSpec TreeModel BinModel BinSpec BinProofs.

(** C55. Each of the three kinds of history source prints the listing described by the file alone. *)
Theorem C55_brute_force_listing : forall t max_order file,
  luts_new = Ok t -> 0 < zlen file < 2 ^ 63 -> 0 <= max_order < 2 ^ 64 - 1 ->
  print_bit_histories (brute_force t) max_order file = Ok (listing max_order file).
Proof. exact listing_naive. Qed.
Print Assumptions C55_brute_force_listing.
Theorem C55_fat_map_listing : forall t hash max_order file,
  luts_new = Ok t -> 0 < zlen file < 2 ^ 63 -> 0 <= max_order -> 8 * (max_order + 1) < 2 ^ 64 ->
  print_bit_histories (fat_map t hash) max_order file = Ok (listing max_order file).
Proof. exact listing_fat. Qed.
Print Assumptions C55_fat_map_listing.
Theorem C55_tree_listing : forall t max_order file,
  luts_new = Ok t -> 0 < zlen file <= 2 ^ 31 -> 0 <= max_order -> 8 * max_order + 7 < 2 ^ 16 ->
  print_bit_histories (tree_source t) max_order file = Ok (listing max_order file).
Proof. exact listing_tree. Qed.
Print Assumptions C55_tree_listing.
(** The full statement, for every file, is false: for an empty one the program stops at a failed assertion, whatever the source. *)
Theorem C55_empty_file_refuted : forall t hash max_order,
  print_bit_histories (brute_force t) max_order [] = Fail EAssert /\ print_bit_histories (fat_map t hash) max_order [] = Fail EAssert /\
  print_bit_histories (tree_source t) max_order [] = Fail EAssert.
Proof. exact listing_empty. Qed.
Print Assumptions C55_empty_file_refuted.

(** The tables exist, so that the real orders are covered. *)
Example C55_case : exists t, luts_new = Ok t /\ print_bit_histories (tree_source t) lib_max_order [97; 98; 97; 98; 99] = Ok (listing lib_max_order [97; 98; 97; 98; 99]).
Proof. destruct tables_built as (t & L). exists t. split; [exact L|]. apply listing_tree; [exact L| | |]; unfold lib_max_order; cbv; repeat split; congruence || intros H; discriminate H. Qed.
(** Of "aab": nothing for the first byte; then the bits of 'a' once each, and twice for order 0 while 'b' = 98 agrees with 'a' = 97. *)
Example C55_listing : listing 2 [97; 97; 98] =
  [Header 0 97; Blank;
   Header 1 97; States 7 [2]; States 6 [3]; States 5 [3]; States 4 [2]; States 3 [2]; States 2 [2]; States 1 [2]; States 0 [3]; Blank;
   Header 2 98; States 7 [4; 2]; States 6 [7; 3]; States 5 [7; 3]; States 4 [4; 2]; States 3 [4; 2]; States 2 [4; 2]; States 1 [4; 2]; Blank].
Proof. vm_compute. reflexivity. Qed.
Example C55_printed : forall t, print_bit_histories (brute_force t) 2 [97; 97; 98] = Ok (listing 2 [97; 97; 98]).
Proof. intros t. vm_compute. reflexivity. Qed.
