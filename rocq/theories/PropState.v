(** Properties C22 and C23: recent bits and bit runs. *)
From Verif Require Import Base BaseFacts UtilModel UtilSpec StateModel StateSpec StateProofs.

(** C22: replaying any history [h] (1 is the empty state) gives a leading one followed by the last at
    most 15 bits; the histogram packs the number of ones and of zeros among them. *)
Theorem C22_recent_bits_mirror_history : forall h, exists s, mfold rb_updated h 1 = Ok s /\
  s = number_of (true :: lastn 15 h) /\ rb_is_valid s = true /\
  rb_histogram s = Ok (16 * count_bit true (lastn 15 h) + count_bit false (lastn 15 h)) /\
  rb_last_7_bits s = number_of (true :: lastn 7 h).
Proof. exact recent_bits_correct. Qed.
Print Assumptions C22_recent_bits_mirror_history.

Theorem C22_shortcuts_equal_replay : forall b n, 0 <= n ->
  rb_for_bit_run b n = mfold rb_updated (repeat b (Z.to_nat n)) 1 /\
  rb_for_new_node b n = mfold rb_updated (repeat (negb b) (Z.to_nat n) ++ [b]) 1.
Proof. exact recent_bits_runs. Qed.
Print Assumptions C22_shortcuts_equal_replay.

Example C22_case :
  mfold rb_updated [true; false; false; true] 1 = Ok 25 /\
  mfold rb_updated (repeat true 20 ++ [false]) 1 = Ok 65534 /\
  rb_histogram 65534 = Ok (16 * 14 + 1) /\ rb_last_7_bits 65534 = 254 /\
  rb_for_new_node false 20 = Ok 65534 /\ rb_for_new_node true 0 = Ok 3.
Proof. repeat split; vm_compute; reflexivity. Qed.

(** C23: the run tracker reports the last bit and the capped lengths of the last three runs. *)
Theorem C23_runs_mirror_history : forall h, h <> [] -> exists s, mfold br_updated h br_new = Ok s /\
  br_last_bit s = last h false /\
  br_last_bit_run_length s = Ok (capped_run 0 h) /\
  br_opposite_bit_run_length s = Ok (capped_run 1 h) /\
  br_last_bit_previous_run_length s = Ok (capped_run 2 h) /\
  br_is_single_bit_run s = Ok (zlen (runs h) =? 1).
Proof. exact bits_runs_correct. Qed.
Print Assumptions C23_runs_mirror_history.

Theorem C23_shortcuts_equal_replay : forall b n,
  (1 <= n <= 65535 -> br_for_bit_run b n = mfold br_updated (repeat b (Z.to_nat n)) br_new) /\
  (0 <= n <= 65535 -> br_for_new_node b n = mfold br_updated (repeat (negb b) (Z.to_nat n) ++ [b]) br_new).
Proof. exact bits_runs_runs. Qed.
Print Assumptions C23_shortcuts_equal_replay.

Definition runs_demo : list bool := repeat true 3 ++ repeat false 1005 ++ repeat true 2.
Example C23_case :
  runs runs_demo = [(true, 2); (false, 1005); (true, 3)] /\
  (let* s := mfold br_updated runs_demo br_new in br_opposite_bit_run_length s) = Ok 1000 /\
  (let* s := mfold br_updated runs_demo br_new in br_last_bit_previous_run_length s) = Ok 3.
Proof. repeat split; vm_compute; reflexivity. Qed.
