(** Coding as a stream. *)
From Verif Require Import Base BaseFacts CodingModel CodingSpec CodingProofs StreamSpec WindowSpec StatesModel PredModel PredSpec WindowProofs FileSpec FileProofs.
Ltac Zify.zify_post_hook ::= Z.div_mod_to_equations.

(** ** Number of bytes *)
Lemma norm_shifts a : a_good a ->
  a_n (a_norm 5 a) = a_n a + shifts_needed (a_range a) /\ a_range (a_norm 5 a) = a_range a * 256 ^ shifts_needed (a_range a).
Proof.
  intros (_ & _ & R). destruct a as [n low r]. cbn [a_n a_low a_range] in *. unfold shifts_needed. cbn [a_norm a_n a_low a_range]. pow2.
  repeat match goal with |- context [?x <? ?y] => destruct (Z.ltb_spec x y); cbn [a_n a_low a_range]; try lia end;
  change (256 ^ 3) with 16777216; change (256 ^ 2) with 65536; change (256 ^ 1) with 256; change (256 ^ 0) with 1; lia.
Qed.
Lemma split_kept e a : a_n (a_split e a) = a_n a /\ a_range (a_split e a) = part_kept e (a_range a).
Proof. destruct e as [p []|[]]; split; reflexivity. Qed.
Lemma run_shifts evs : forall a, a_good a -> forallb ev_ok evs = true -> a_n (a_run a evs) = a_n a + bytes_shifted (a_range a) evs.
Proof.
  unfold a_run. induction evs as [|e evs IH]; intros a G V; cbn [fold_left bytes_shifted]; [lia|].
  cbn [forallb] in V. apply andb_prop in V as (V1 & V2). destruct (a_step_good a e G V1) as (G1 & _). rewrite (IH _ G1 V2). unfold a_step in *.
  destruct (norm_shifts a G) as (N & R). destruct (split_kept e (a_norm 5 a)) as (N2 & R2). rewrite N2, R2, N, R. cbv zeta. lia.
Qed.
Lemma stream_length evs bytes : forallb ev_ok evs = true -> encode_all evs = Ok bytes -> zlen bytes = bytes_needed evs.
Proof.
  intros V E. destruct (encode_all_okspec evs bytes V E) as (_ & L). rewrite L, (run_shifts evs a_init a_init_good V).
  cbn [a_n a_range a_init]. unfold bytes_needed. lia.
Qed.

(** ** What is written stays *)
Definition grows (s s' : encoder) : Prop := exists more, e_out s' = more ++ e_out s.
Lemma grows_refl s : grows s s. Proof. exists []. reflexivity. Qed.
Lemma grows_trans a b c : grows a b -> grows b c -> grows a c.
Proof. intros (x & X) (y & Y). exists (y ++ x). rewrite Y, X. now rewrite app_assoc. Qed.
Lemma write_run_grows run carry out : exists more, write_run run carry out = more ++ out.
Proof.
  unfold write_run. destruct (Z.le_gt_cases 0 run) as [R|R].
  - rewrite Ziter_nat by exact R. induction (Z.to_nat run) as [|n (m & IH)]; [exists []; reflexivity|]. exists ((if carry then 0 else 255) :: m). change (Nat.iter (S n) (cons (if carry then 0 else 255)) out) with ((if carry then 0 else 255) :: (Nat.iter n (cons (if carry then 0 else 255)) out)). now rewrite IH.
  - destruct run; try lia. exists []. reflexivity.
Qed.
Lemma output_grows s b s' : output_byte s b = Ok s' -> grows s s'.
Proof.
  unfold output_byte. intros E. inv_bind E. destruct (_ || _).
  - inv_bind E. injection E as <-. unfold grows. cbn [e_out]. destruct (write_run_grows (e_run s) (e_carry s) a0) as (m & ->).
    destruct (e_delay s); [inv_bind E1; injection E1 as <-; exists (m ++ [a1]); now rewrite <- app_assoc|injection E1 as <-; eauto].
  - inv_bind E. injection E as <-. exists []. reflexivity.
Qed.
Lemma shift_grows s s' : enc_shift s = Ok s' -> grows s s'.
Proof. unfold enc_shift. intros E. inv_bind E. inv_bind E. inv_bind E. inv_bind E. injection E as <-. apply output_grows in E1. exact E1. Qed.
Lemma norm_grows fuel : forall s s', enc_norm_loop fuel s = Ok s' -> grows s s'.
Proof.
  induction fuel as [|f IH]; intros s s' E; cbn [enc_norm_loop] in E; destruct (_ <? _); try discriminate; try (injection E as <-; apply grows_refl).
  inv_bind E. eapply grows_trans; [eapply shift_grows; eauto|eauto].
Qed.
Lemma carry_out s x : e_out (add_with_carry s x) = e_out s.
Proof. unfold add_with_carry. destruct (_ <? _); reflexivity. Qed.
Lemma event_grows s e s' : encode_event s e = Ok s' -> grows s s'.
Proof.
  destruct e as [p v|h]; cbn [encode_event]; unfold encode_bit, encode_rare_event, enc_normalize; intros E; inv_bind E; inv_bind E0; apply norm_grows in E0;
    eapply grows_trans; try exact E0.
  - inv_bind E. destruct v; [inv_bind E|]; injection E as <-; exists []; cbn [with_range e_out]; rewrite ?carry_out; reflexivity.
  - destruct h; inv_bind E; injection E as <-; exists []; cbn [with_range e_out]; rewrite ?carry_out; reflexivity.
Qed.
Lemma events_grow evs : forall s s', mfold encode_event evs s = Ok s' -> grows s s'.
Proof. induction evs as [|e evs IH]; intros s s' E; cbn [mfold] in E; [injection E as <-; apply grows_refl|]. inv_bind E. eapply grows_trans; [eapply event_grows; eauto|eauto]. Qed.
Lemma flush_grows s s' : flush_step s = Ok s' -> grows s s'.
Proof. unfold flush_step. intros E. inv_bind E. inv_bind E. inv_bind E. injection E as <-. apply output_grows in E1. exact E1. Qed.
Lemma drop_grows s s' : enc_drop s = Ok s' -> grows s s'.
Proof.
  unfold enc_drop. intros E. do 4 (inv_bind E). apply flush_grows in E, E0, E1, E2, E3. eauto using grows_trans.
Qed.
Lemma written_stays evs more s bytes : mfold encode_event evs enc_new = Ok s -> encode_all (evs ++ more) = Ok bytes ->
  exists rest, bytes = rev (e_out s) ++ rest.
Proof.
  intros E A. unfold encode_all in A. rewrite mfold_app, E in A. cbn [bind] in A. inv_bind A. inv_bind A. injection A as <-.
  destruct (grows_trans _ _ _ (events_grow _ _ _ E0) (drop_grows _ _ E1)) as (m & M). exists (rev m). rewrite M. apply rev_app_distr.
Qed.

(** ** What is read *)
Lemma feed_less d d' tail : dec_feed (more d tail) = Ok d' -> (length tail <= length (d_in d'))%nat ->
  exists d0, d' = more d0 tail /\ dec_feed d = Ok d0.
Proof.
  unfold dec_feed, input_byte, more. cbn [d_in d_buffer d_range d_high]. intros E L. inv_bind E. inv_bind E. destruct a0 as (c & s). 
  destruct (d_in d) as [|x rest]; cbn [app] in E1.
  - destruct tail as [|y tail]; [discriminate|]. inv_bind E1. inv_bind E1. injection E1 as <- <-. inv_bind E. injection E as <-. cbn [d_in length] in L. lia.
  - inv_bind E1. inv_bind E1. injection E1 as <- <-. inv_bind E. injection E as <-. cbn [d_in d_buffer d_range d_high] in *.
    exists (mkDec rest a2 (d_range d) (Z.land x 1)). cbn [d_in d_buffer d_range d_high]. split; [reflexivity|].
    rewrite E0. cbn [bind]. rewrite E2. cbn [bind]. rewrite E3. cbn [bind d_in d_buffer d_range d_high]. rewrite E1. reflexivity.
Qed.
Lemma feed_shrinks d d' : dec_feed d = Ok d' -> exists b, d_in d = b :: d_in d'.
Proof.
  unfold dec_feed, input_byte. intros E. inv_bind E. inv_bind E. destruct a0 as (c & s). destruct (d_in d) as [|x rest]; [discriminate|].
  inv_bind E1. inv_bind E1. injection E1 as <- <-. inv_bind E. injection E as <-. eauto.
Qed.
Definition reads (d d' : decoder) : Prop := exists used, d_in d = used ++ d_in d'.
Lemma reads_refl d : reads d d. Proof. exists []. reflexivity. Qed.
Lemma reads_trans a b c : reads a b -> reads b c -> reads a c.
Proof. intros (x & X) (y & Y). exists (x ++ y). rewrite X, Y. now rewrite app_assoc. Qed.
Lemma reads_len d d' : reads d d' -> (length (d_in d') <= length (d_in d))%nat.
Proof. intros (x & X). rewrite X, app_length. lia. Qed.
Lemma feed_reads d d' : dec_feed d = Ok d' -> reads d d'.
Proof. intros E. destruct (feed_shrinks _ _ E) as (b & B). exists [b]. exact B. Qed.
Lemma norm_reads fuel : forall d d', dec_normalize fuel d = Ok d' -> reads d d'.
Proof.
  induction fuel as [|f IH]; intros d d' E; cbn [dec_normalize] in E; destruct (_ <? _); try discriminate; try (injection E as <-; apply reads_refl).
  inv_bind E. inv_bind E. apply IH in E. eapply reads_trans; [eapply feed_reads; eauto|exact E].
Qed.
Lemma norm_less fuel : forall d d' tail, dec_normalize fuel (more d tail) = Ok d' -> (length tail <= length (d_in d'))%nat ->
  exists d0, d' = more d0 tail /\ dec_normalize fuel d = Ok d0.
Proof.
  induction fuel as [|f IH]; intros d d' tail E L; cbn [dec_normalize] in *; change (d_range (more d tail)) with (d_range d) in E; destruct (d_range d <? 2 ^ 23);
    try discriminate; try (injection E as <-; eauto).
  inv_bind E. inv_bind E. pose proof (norm_reads _ _ _ E) as R. apply reads_len in R. cbn [d_in] in R.
  destruct (feed_less d a tail E0 ltac:(lia)) as (d1 & -> & F). rewrite F. cbn [bind]. change (d_range (more d1 tail)) with (d_range d1) in E1. rewrite E1. cbn [bind].
  exact (IH (mkDec (d_in d1) (d_buffer d1) a0 (d_high d1)) d' tail E L).
Qed.
Lemma event_reads d r e d' : decode_event d r = Ok (e, d') -> reads d d'.
Proof.
  destruct r as [p|]; cbn [decode_event]; unfold decode_bit, decode_rare_event; intros E; inv_bind E; destruct a as (v & s); injection E as <- <-;
    inv_bind E0; apply norm_reads in E; eapply reads_trans; try exact E; inv_bind E0; destruct (_ <? _).
  - injection E0 as <- <-. exists []. reflexivity.
  - inv_bind E0. inv_bind E0. injection E0 as <- <-. exists []. reflexivity.
  - injection E0 as <- <-. exists []. reflexivity.
  - injection E0 as <- <-. exists []. reflexivity.
Qed.
Lemma event_less d r e d' tail : decode_event (more d tail) r = Ok (e, d') -> (length tail <= length (d_in d'))%nat ->
  exists d0, d' = more d0 tail /\ decode_event d r = Ok (e, d0).
Proof.
  intros E L. destruct r as [p|]; cbn [decode_event] in *; unfold decode_bit, decode_rare_event in *; inv_bind E; destruct a as (v & s); injection E as <- <-; inv_bind E0.
  - assert (L2 : (length tail <= length (d_in a))%nat).
    { inv_bind E0. destruct (_ <? _); [injection E0 as <- <-; exact L|]. inv_bind E0. inv_bind E0. injection E0 as <- <-. exact L. }
    destruct (norm_less 5 d a tail E L2) as (d1 & -> & N). rewrite N. cbn [bind]. change (d_range (more d1 tail)) with (d_range d1) in E0.
    change (d_buffer (more d1 tail)) with (d_buffer d1) in E0. inv_bind E0. rewrite E1. cbn [bind].
    destruct (_ <? _); [injection E0 as <- <-; eexists; split; [|reflexivity]; reflexivity|].
    inv_bind E0. inv_bind E0. injection E0 as <- <-. rewrite E2, E3. cbn [bind]. eexists. split; [|reflexivity]. reflexivity.
  - assert (L2 : (length tail <= length (d_in a))%nat).
    { inv_bind E0. destruct (_ <? _); injection E0 as <- <-; exact L. }
    destruct (norm_less 5 d a tail E L2) as (d1 & -> & N). rewrite N. cbn [bind]. change (d_range (more d1 tail)) with (d_range d1) in E0.
    change (d_buffer (more d1 tail)) with (d_buffer d1) in E0. inv_bind E0. rewrite E1. cbn [bind].
    destruct (_ <? _); injection E0 as <- <-; (eexists; split; [|reflexivity]; reflexivity).
Qed.
Lemma events_read rs : forall d evs d', decode_events d rs = Ok (evs, d') -> reads d d'.
Proof.
  induction rs as [|r rs IH]; intros d evs d' E; cbn [decode_events] in E; [injection E as <- <-; apply reads_refl|].
  inv_bind E. destruct a as (e & s). inv_bind E. destruct a as (es & s2). injection E as <- <-. eapply reads_trans; [eapply event_reads; eauto|eauto].
Qed.
Lemma events_less rs : forall d evs d' tail, decode_events (more d tail) rs = Ok (evs, d') -> (length tail <= length (d_in d'))%nat ->
  exists d0, d' = more d0 tail /\ decode_events d rs = Ok (evs, d0).
Proof.
  induction rs as [|r rs IH]; intros d evs d' tail E L; cbn [decode_events] in *; [injection E as <- <-; eauto|].
  inv_bind E. destruct a as (e & s). inv_bind E. destruct a as (es & s2). injection E as <- <-. pose proof (reads_len _ _ (events_read _ _ _ _ E1)) as R.
  destruct (event_less d r e s tail E0 ltac:(lia)) as (d1 & -> & D). rewrite D. cbn [bind].
  destruct (IH d1 es s2 tail E1 L) as (d2 & -> & D2). rewrite D2. cbn [bind]. eauto.
Qed.
Lemma new_reads input d : dec_new input = Ok d -> exists used, input = used ++ d_in d.
Proof.
  unfold dec_new. cbv zeta. intros E. do 3 (inv_bind E). apply feed_reads in E, E0, E1, E2.
  destruct (reads_trans _ _ _ (reads_trans _ _ _ E0 E1) (reads_trans _ _ _ E2 E)) as (u & U). exists u. exact U.
Qed.
Lemma new_less input d tail : dec_new (input ++ tail) = Ok d -> (length tail <= length (d_in d))%nat ->
  exists d0, d = more d0 tail /\ dec_new input = Ok d0.
Proof.
  unfold dec_new. cbv zeta. intros E L. change (mkDec (input ++ tail) 0 (2 ^ 31 - 1) 0) with (more (mkDec input 0 (2 ^ 31 - 1) 0) tail) in E.
  do 3 (inv_bind E). pose proof (reads_len _ _ (feed_reads _ _ E)). pose proof (reads_len _ _ (feed_reads _ _ E2)). pose proof (reads_len _ _ (feed_reads _ _ E1)).
  destruct (feed_less _ _ tail E0 ltac:(lia)) as (d1 & -> & D1). rewrite D1. cbn [bind].
  destruct (feed_less _ _ tail E1 ltac:(lia)) as (d2 & -> & D2). rewrite D2. cbn [bind].
  destruct (feed_less _ _ tail E2 ltac:(lia)) as (d3 & -> & D3). rewrite D3. cbn [bind].
  destruct (feed_less _ _ tail E ltac:(lia)) as (d4 & -> & D4). rewrite D4. eauto.
Qed.

Lemma prefix_decodes evs later bytes tail : forallb ev_ok (evs ++ later) = true -> encode_all (evs ++ later) = Ok bytes ->
  let k := Z.to_nat (bytes_needed evs) in
  (k <= length bytes)%nat /\
  decode_all (bytes ++ tail) (map request_of evs) = Ok (evs, skipn k bytes ++ tail) /\
  decode_all (firstn k bytes) (map request_of evs) = Ok (evs, []).
Proof.
  intros V E. cbv zeta. pose proof V as V'. rewrite forallb_app in V'. apply andb_prop in V' as (V1 & V2).
  destruct (encode_all_spec (evs ++ later) V) as (b & E' & Hb & Hl & Hv); [right; now rewrite E|]. rewrite E in E'. injection E' as <-.
  destruct (a_run_good (evs ++ later) a_init a_init_good V) as (G & S & _). set (af := a_run a_init (evs ++ later)) in *.
  destruct (a_run_good evs a_init a_init_good V1) as (G1 & S1 & _). 
  assert (AF : af = a_run (a_run a_init evs) later) by (unfold af, a_run; apply fold_left_app).
  destruct (a_run_good later _ G1 V2) as (_ & S2 & _). rewrite <- AF in S2.
  assert (HC : 0 <= a_low af) by apply G.
  assert (Ct : contains (a_low af) (a_n af) af).
  { split; [apply Z.le_refl|]. rewrite Z.sub_diag. change (256 ^ 0) with 1. rewrite Z.div_1_r. destruct G as (_ & _ & GR). clear - GR. lia. }
  assert (Ct0 : contains (a_low af) (a_n af) a_init) by exact (contains_sub _ _ _ _ HC S Ct).
  assert (Ct1 : contains (a_low af) (a_n af) (a_run a_init evs)) by exact (contains_sub _ _ _ _ HC S2 Ct).
  destruct Ct0 as (N0 & B0). cbn [a_n a_low a_range a_init] in *. rewrite Z.sub_0_r in B0.
  pose proof (run_shifts evs a_init a_init_good V1) as NS. cbn [a_n a_range a_init] in NS.
  assert (K : bytes_needed evs = 4 + a_n (a_run a_init evs)) by (unfold bytes_needed; lia). set (n1 := a_n (a_run a_init evs)) in *.
  assert (N1 : 0 <= n1 <= a_n af) by (split; [apply G1|destruct S2; assumption]).
  assert (D : forall tl, exists d d', dec_new (bytes ++ tl) = Ok d /\ decode_events d (map request_of evs) = Ok (evs, d') /\
    d_in d' = skipn (Z.to_nat (bytes_needed evs)) bytes ++ tl).
  { intros tl. destruct (dec_new_spec (a_low af) (a_n af) bytes tl Hb Hl ltac:(lia) Hv ltac:(lia)) as (d & Ed & Id).
    destruct (decode_events_spec (a_low af) (a_n af) tl evs d a_init HC a_init_good V1 Id Ct1) as (d' & E2 & I2). exists d, d'.
    split; [exact Ed|]. split; [exact E2|]. cbv zeta in I2. destruct I2 as (rest & H1 & _ & H3 & _). fold n1 in H3.
    destruct (new_reads _ _ Ed) as (u & U). destruct (events_read _ _ _ _ E2) as (u2 & U2). rewrite H1 in *. rewrite U2, !app_assoc in U.
    apply app_inv_tail in U. rewrite U in Hl. f_equal. rewrite U. unfold zlen in *. rewrite app_length in Hl.
    replace (Z.to_nat (bytes_needed evs)) with (length (u ++ u2)) by lia. rewrite skipn_app, skipn_all, Nat.sub_diag. reflexivity. }
  split; [unfold zlen in Hl; lia|]. split.
  - destruct (D tail) as (d & d' & D1 & D2 & D3). unfold decode_all. rewrite D1. cbn [bind]. rewrite D2. cbn [bind]. now rewrite D3.
  - destruct (D []) as (d & d' & D1 & D2 & D3). rewrite app_nil_r in D1, D3. set (k := Z.to_nat (bytes_needed evs)) in *.
    rewrite <- (firstn_skipn k bytes) in D1. pose proof (reads_len _ _ (events_read _ _ _ _ D2)) as R. rewrite D3 in R.
    destruct (new_less _ _ _ D1 R) as (d0 & -> & N). unfold decode_all. rewrite N. cbn [bind].
    destruct (events_less _ d0 evs d' (skipn k bytes) D2) as (d1 & -> & M); [rewrite D3; lia|]. rewrite M. cbn [bind].
    cbn [more d_in] in D3. rewrite <- (app_nil_l (skipn k bytes)) in D3 at 2. apply app_inv_tail in D3. now rewrite D3.
Qed.

(** ** Too little *)
Lemma event_more d r e d' tail : decode_event d r = Ok (e, d') -> decode_event (more d tail) r = Ok (e, more d' tail).
Proof.
  destruct r as [p|]; cbn [decode_event]; intros E; inv_bind E; destruct a as (v & s); injection E as <- <-.
  - rewrite (bit_more _ _ _ _ tail E0). reflexivity.
  - unfold decode_rare_event in *. inv_bind E0. rewrite (norm_more _ _ _ tail E). cbn [bind]. change (d_range (more a tail)) with (d_range a).
    change (d_buffer (more a tail)) with (d_buffer a). inv_bind E0. rewrite E1. cbn [bind]. destruct (_ <? _); injection E0 as <- <-; reflexivity.
Qed.
Lemma events_more tail rs : forall d evs d', decode_events d rs = Ok (evs, d') -> decode_events (more d tail) rs = Ok (evs, more d' tail).
Proof.
  induction rs as [|r rs IH]; intros d evs d' E; cbn [decode_events] in *; [injection E as <- <-; reflexivity|].
  inv_bind E. destruct a as (e & s). inv_bind E. destruct a as (es & s2). injection E as <- <-. rewrite (event_more _ _ _ _ tail E0). cbn [bind]. rewrite (IH _ _ _ E1). reflexivity.
Qed.
Lemma all_more input rs evs rest tail : decode_all input rs = Ok (evs, rest) -> decode_all (input ++ tail) rs = Ok (evs, rest ++ tail).
Proof.
  unfold decode_all. intros E. inv_bind E. inv_bind E. destruct a0 as (es & s). injection E as <- <-. rewrite (new_more _ _ tail E0). cbn [bind]. rewrite (events_more tail _ _ _ _ E1). reflexivity.
Qed.
Lemma requests_ok evs : forallb ev_ok evs = true -> forallb rq_ok (map request_of evs) = true.
Proof. induction evs as [|e evs IH]; [reflexivity|]. cbn [forallb map]. intros V. apply andb_prop in V as (A & B). rewrite (IH B), andb_true_r. now destruct e. Qed.
Lemma eof_or_ok input rs : byte_list input -> forallb rq_ok rs = true -> (exists x, decode_all input rs = Ok x) \/ decode_all input rs = Fail EEof.
Proof.
  intros B V. unfold decode_all. pose proof (dec_new_tol input B) as T. destruct (dec_new input) as [d|e]; cbn [tol bind] in *; [|right; now subst].
  pose proof (decode_events_tol rs d T V) as T2. destruct (decode_events d rs) as [(evs & d')|e]; cbn [bind tol] in *; [left; eauto|right; now subst].
Qed.

(** ** Prefixes *)
Lemma firstn_bytes j l : byte_list l -> byte_list (firstn j l).
Proof. unfold byte_list. intros F. rewrite <- (firstn_skipn j l) in F. now apply Forall_app in F. Qed.
Lemma stream_prefix evs later own bytes : forallb ev_ok (evs ++ later) = true -> encode_all evs = Ok own -> encode_all (evs ++ later) = Ok bytes ->
  (length own <= length bytes)%nat /\
  (forall tail, decode_all (bytes ++ tail) (map request_of evs) = Ok (evs, skipn (length own) bytes ++ tail)) /\
  decode_all (firstn (length own) bytes) (map request_of evs) = Ok (evs, []) /\
  forall j, (j < length own)%nat -> decode_all (firstn j bytes) (map request_of evs) = Fail EEof.
Proof.
  intros V O E. pose proof V as V'. rewrite forallb_app in V'. apply andb_prop in V' as (V1 & _).
  assert (K : Z.to_nat (bytes_needed evs) = length own) by (rewrite <- (stream_length evs own V1 O); unfold zlen; lia).
  destruct (prefix_decodes evs later bytes [] V E) as (L & D & F). rewrite K in *. rewrite !app_nil_r in D.
  split; [exact L|]. split; [|split; [exact F|]].
  - intros tail. destruct (prefix_decodes evs later bytes tail V E) as (_ & D' & _). rewrite K in D'. exact D'.
  - intros j J. destruct (eof_or_ok (firstn j bytes) (map request_of evs)) as [((es & rest) & X)|X]; [| |exfalso|exact X].
    + apply lossless with (tail := []) in E; [|exact V]. apply firstn_bytes, E.
    + now apply requests_ok.
    + apply all_more with (tail := skipn j bytes) in X. rewrite firstn_skipn, D in X. injection X as _ X. apply (f_equal (@length Z)) in X.
      rewrite app_length, !skipn_length in X. lia.
Qed.

Lemma file_prefix md t max mo first later : luts_new = Ok t -> 0 < max <= 2 ^ 31 -> 0 <= mo -> 8 * mo + 7 < 2 ^ 16 -> 8 * zlen (first ++ later) < 2 ^ 28 ->
  Forall (fun x => 0 <= x < 256) first ->
  exists own out, compress_file md t max mo first = Ok own /\ compress_file md t max mo (first ++ later) = Ok out /\ (length own <= length out)%nat /\
    decompress_file md t max mo out (length first) = Ok (first, skipn (length own) out) /\
    decompress_file md t max mo (firstn (length own) out) (length first) = Ok (first, []) /\
    forall j, (j < length own)%nat -> decompress_file md t max mo (firstn j out) (length first) = Fail EEof.
Proof.
  intros L M O D B F. assert (B1 : 8 * zlen first < 2 ^ 28) by (clear L; rewrite zlen_app in B; pose proof (zlen_nonneg later); lia).
  destruct (compressed md t max mo first L M O D B1) as (p & probs & own & E & ZP & P & EN & BL & C).
  destruct (compressed md t max mo (first ++ later) L M O D B) as (p2 & probs2 & out & E2 & Z2 & P2 & EN2 & BL2 & C2).
  pose proof (fun input n => garbage_tolerated md t max mo input n L M O D) as TOL. clear L.
  exists own, out. split; [exact C|]. split; [exact C2|].
  unfold use_all in E, E2. apply bind_ok in E. destruct E as (p0 & P0 & E). rewrite P0 in E2. cbn [bind] in E2.
  assert (U : uses_of (first ++ later) = uses_of first ++ uses_of later) by apply flat_map_app. rewrite U in E2. apply uses_split in E2.
  destruct E2 as (m & o1 & o2 & E1 & E2 & ->). rewrite E in E1. injection E1 as <- <-.
  assert (BS : bit_string (first ++ later) = bit_string first ++ bit_string later) by apply flat_map_app. rewrite BS in EN2.
  assert (LB : length probs = length (bit_string first)) by (pose proof (bit_string_length first); unfold zlen in *; lia).
  rewrite coded_app in EN2 by exact LB.
  assert (V : forallb ev_ok (coded (bit_string first) probs ++ coded (bit_string later) o2) = true) by (rewrite <- coded_app by exact LB; now apply coded_ok).
  destruct (stream_prefix _ _ own out V EN EN2) as (LE & D1 & D2 & _).
  assert (DEC : forall input rest, decode_all input (map request_of (coded (bit_string first) probs)) = Ok (coded (bit_string first) probs, rest) ->
    decompress_file md t max mo input (length first) = Ok (first, rest)).
  { intros input rest DE. unfold decode_all in DE. apply bind_ok in DE. destruct DE as (d & DN & DE). apply bind_ok in DE. destruct DE as ((es & d') & DE & X). injection X as -> <-.
    unfold decompress_file. rewrite P0. cbn [bind]. rewrite DN. cbn [bind]. rewrite (decode_bytes md t first F p0 p probs d d' [] 0 E DE). reflexivity. }
  split; [exact LE|]. specialize (D1 []). rewrite !app_nil_r in D1. split; [now apply DEC|]. split; [now apply DEC|].
  intros j J. destruct (TOL (firstn j out) (length first)) as [(bs & rest & X & _)|X]; [| |exfalso|exact X].
  - apply firstn_bytes, BL2.
  - pow2. unfold zlen in B1. lia.
  - apply rest_untouched with (tail := skipn j out) in X. rewrite firstn_skipn in X. rewrite (DEC _ _ D1) in X. injection X as _ X. apply (f_equal (@length Z)) in X.
    rewrite app_length, !skipn_length in X. lia.
Qed.
