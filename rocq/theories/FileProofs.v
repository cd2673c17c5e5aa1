(** The compressor loses nothing. *)
From Coq Require Import ZifyBool.
From Verif Require Import Base BaseFacts UtilSpec CodingModel CodingSpec CodingProofs UtilProofs WindowSpec WindowProofs StatesModel StatesProofs PredModel PredSpec PredFacts FileSpec.
Ltac Zify.zify_post_hook ::= Z.div_mod_to_equations.

Definition bit_uses (bs : list bit) : list use := flat_map (fun b => [Predict; Update b]) bs.
(** The predictions so far do not matter. *)
Lemma use_step_acc md t p acc u p' out : use_step md t (p, acc) u = Ok (p', out) -> exists more, out = acc ++ more /\ forall acc', use_step md t (p, acc') u = Ok (p', acc' ++ more).
Proof.
  destruct u as [| |b]; cbn [use_step fst snd]; intros E.
  - apply bind_ok in E. destruct E as (q & -> & E). injection E as <- <-. exists []. split; [now rewrite app_nil_r|]. intros acc'. cbn [bind]. now rewrite app_nil_r.
  - apply bind_ok in E. destruct E as (q & -> & E). injection E as <- <-. exists [snd q]. split; reflexivity.
  - apply bind_ok in E. destruct E as (q & -> & E). injection E as <- <-. exists []. split; [now rewrite app_nil_r|]. intros acc'. cbn [bind]. now rewrite app_nil_r.
Qed.
Lemma uses_acc md t uses : forall p acc p' out, mfold (use_step md t) uses (p, acc) = Ok (p', out) -> exists more, out = acc ++ more /\ forall acc', mfold (use_step md t) uses (p, acc') = Ok (p', acc' ++ more).
Proof.
  induction uses as [|u uses IH]; intros p acc p' out E; cbn [mfold] in E.
  - injection E as <- <-. exists []. split; [now rewrite app_nil_r|]. intros acc'. cbn [mfold]. now rewrite app_nil_r.
  - apply bind_ok in E. destruct E as ((p1 & o1) & E1 & E). apply use_step_acc in E1. destruct E1 as (m1 & -> & H1). apply IH in E. destruct E as (m2 & -> & H2). exists (m1 ++ m2). split; [now rewrite app_assoc|].
    intros acc'. cbn [mfold]. rewrite H1. cbn [bind]. rewrite H2. now rewrite app_assoc.
Qed.
Lemma mfold_split {A S} (f : S -> A -> res S) l1 l2 s s' : mfold f (l1 ++ l2) s = Ok s' -> exists m, mfold f l1 s = Ok m /\ mfold f l2 m = Ok s'.
Proof.
  revert s. induction l1 as [|x l1 IH]; intros s E; cbn [app mfold] in *; [eauto|]. apply bind_ok in E. destruct E as (m & -> & E). cbn [bind]. exact (IH m E).
Qed.
Lemma uses_split md t u1 u2 p p' out : mfold (use_step md t) (u1 ++ u2) (p, []) = Ok (p', out) ->
  exists m o1 o2, mfold (use_step md t) u1 (p, []) = Ok (m, o1) /\ mfold (use_step md t) u2 (m, []) = Ok (p', o2) /\ out = o1 ++ o2.
Proof.
  intros E. apply mfold_split in E. destruct E as ((m & o1) & E1 & E2). apply uses_acc in E2. destruct E2 as (o2 & -> & H). exists m, o1, o2. split; [exact E1|]. split; [exact (H [])|reflexivity].
Qed.
(** One bit. *)
Lemma bit_split md t b bs p p' out : mfold (use_step md t) (bit_uses (b :: bs)) (p, []) = Ok (p', out) ->
  exists m r q more, predictor_predict md t p = Ok (m, r) /\ predictor_update md t m b = Ok q /\ mfold (use_step md t) (bit_uses bs) (q, []) = Ok (p', more) /\ out = r :: more.
Proof.
  intros E. change (bit_uses (b :: bs)) with ([Predict; Update b] ++ bit_uses bs) in E. apply uses_split in E. destruct E as (q & o1 & more & E1 & E2 & ->). cbn [mfold use_step fst snd] in E1.
  apply bind_ok in E1. destruct E1 as (x & X & E1). apply bind_ok in X. destruct X as ((m & r) & P & X). injection X as <-. cbn [fst snd] in E1. apply bind_ok in E1. destruct E1 as (y & Y & E1). apply bind_ok in Y. destruct Y as (z & U & Y). injection Y as <-. injection E1 as <- <-.
  exists m, r, z, more. auto.
Qed.
Lemma code_bits md t bs : forall p p' probs e e', mfold (use_step md t) (bit_uses bs) (p, []) = Ok (p', probs) -> mfold encode_event (coded bs probs) e = Ok e' ->
  mfold (code_bit md t) bs (p, e) = Ok (p', e') /\ length probs = length bs.
Proof.
  induction bs as [|b bs IH]; intros p p' probs e e' E C.
  - injection E as <- <-. injection C as <-. split; reflexivity.
  - apply bit_split in E. destruct E as (m & r & q & more & P & U & E & ->). unfold coded in C. cbn [List.combine map mfold fst snd encode_event] in C. apply bind_ok in C. destruct C as (e1 & C1 & C). fold (coded bs more) in C.
    destruct (IH q p' more e1 e' E C) as (K & L). cbn [mfold]. unfold code_bit at 1. cbn [fst snd]. rewrite P. cbn [bind]. rewrite C1. cbn [bind]. rewrite U. cbn [bind length]. split; [exact K|now rewrite L].
Qed.
Lemma decode_bits md t bs : forall p p' probs d d' acc a, mfold (use_step md t) (bit_uses bs) (p, []) = Ok (p', probs) -> decode_events d (map request_of (coded bs probs)) = Ok (coded bs probs, d') ->
  mfold (decode_one md t) (zseq a (length bs)) (p, d, acc) = Ok (p', d', acc ++ bs).
Proof.
  induction bs as [|b bs IH]; intros p p' probs d d' acc a E C.
  - injection E as <- <-. injection C as <-. cbn [length zseq mfold]. now rewrite app_nil_r.
  - apply bit_split in E. destruct E as (m & r & q & more & P & U & E & ->). unfold coded in C. cbn [List.combine map fst snd request_of decode_events decode_event] in C. fold (coded bs more) in C.
    apply bind_ok in C. destruct C as ((e1 & d1) & C1 & C). apply bind_ok in C1. destruct C1 as ((v & d2) & D & C1). injection C1 as <- <-. apply bind_ok in C. destruct C as ((es & d3) & C2 & C). injection C as <- -> <-.
    cbn [length zseq mfold]. unfold decode_one at 1. rewrite P. cbn [bind]. rewrite D. cbn [bind]. rewrite U. cbn [bind]. rewrite (IH q p' more d2 d3 (acc ++ [v]) (a + 1) E C2). now rewrite <- app_assoc.
Qed.
Lemma coded_app b1 b2 p1 p2 : length p1 = length b1 -> coded (b1 ++ b2) (p1 ++ p2) = coded b1 p1 ++ coded b2 p2.
Proof.
  unfold coded. rewrite <- map_app. intros L. f_equal. revert p1 L. induction b1 as [|b b1 IH]; intros [|p p1] L; try discriminate; [reflexivity|]. cbn [app List.combine]. f_equal. apply IH. now injection L.
Qed.
Lemma decode_split e1 : forall d e2 d', decode_events d (map request_of (e1 ++ e2)) = Ok (e1 ++ e2, d') -> exists m, decode_events d (map request_of e1) = Ok (e1, m) /\ decode_events m (map request_of e2) = Ok (e2, d').
Proof.
  induction e1 as [|e e1 IH]; intros d e2 d' C; cbn [app map decode_events] in *; [eauto|]. apply bind_ok in C. destruct C as ((x & d1) & -> & C). apply bind_ok in C. destruct C as ((es & d2) & C2 & C). injection C as -> -> <-. cbn [bind].
  apply IH in C2. destruct C2 as (m & -> & C2). exists m. cbn [bind]. auto.
Qed.
(** Bytes. *)
Lemma byte_split md t x p p' out : mfold (use_step md t) (uses_of_byte x) (p, []) = Ok (p', out) -> exists q, predictor_start p = Ok q /\ mfold (use_step md t) (bit_uses (byte_bits x)) (q, []) = Ok (p', out).
Proof. intros E. unfold uses_of_byte in E. cbn [mfold use_step fst snd] in E. apply bind_ok in E. destruct E as (st & S & E). apply bind_ok in S. destruct S as (q & Q & S). injection S as <-. eauto. Qed.
Lemma uses_length md t bs : forall p p' probs, mfold (use_step md t) (bit_uses bs) (p, []) = Ok (p', probs) -> length probs = length bs.
Proof.
  induction bs as [|b bs IH]; intros p p' probs E; [now injection E as _ <-|]. apply bit_split in E. destruct E as (m & r & q & more & P & U & E & ->). cbn [length]. f_equal. exact (IH _ _ _ E).
Qed.
Lemma code_bytes md t bytes : forall p p' probs e e', mfold (use_step md t) (uses_of bytes) (p, []) = Ok (p', probs) -> mfold encode_event (coded (bit_string bytes) probs) e = Ok e' ->
  mfold (code_byte md t) bytes (p, e) = Ok (p', e').
Proof.
  induction bytes as [|x bytes IH]; intros p p' probs e e' E C.
  - injection E as <- <-. injection C as <-. reflexivity.
  - change (uses_of (x :: bytes)) with (uses_of_byte x ++ uses_of bytes) in E. apply uses_split in E. destruct E as (m & o1 & o2 & E1 & E2 & ->). apply byte_split in E1. destruct E1 as (q & S & E1). rewrite bit_string_cons in C.
    rewrite coded_app in C by exact (uses_length _ _ _ _ _ _ E1). apply mfold_split in C. destruct C as (em & C1 & C2). cbn [mfold]. unfold code_byte at 1. cbn [fst snd]. rewrite S. cbn [bind]. rewrite (proj1 (code_bits _ _ _ _ _ _ _ _ E1 C1)). cbn [bind].
    exact (IH _ _ _ _ _ E2 C2).
Qed.
Lemma decode_bytes md t bytes : Forall (fun x => 0 <= x < 256) bytes -> forall p p' probs d d' acc a, mfold (use_step md t) (uses_of bytes) (p, []) = Ok (p', probs) ->
  decode_events d (map request_of (coded (bit_string bytes) probs)) = Ok (coded (bit_string bytes) probs, d') -> mfold (decode_byte md t) (zseq a (length bytes)) (p, d, acc) = Ok (p', d', acc ++ bytes).
Proof.
  induction 1 as [|x bytes X _ IH]; intros p p' probs d d' acc a E C.
  - injection E as <- <-. injection C as <-. cbn [length zseq mfold]. now rewrite app_nil_r.
  - change (uses_of (x :: bytes)) with (uses_of_byte x ++ uses_of bytes) in E. apply uses_split in E. destruct E as (m & o1 & o2 & E1 & E2 & ->). apply byte_split in E1. destruct E1 as (q & S & E1). rewrite bit_string_cons in C.
    rewrite coded_app in C by exact (uses_length _ _ _ _ _ _ E1). apply decode_split in C. destruct C as (dm & C1 & C2). cbn [length zseq mfold]. unfold decode_byte at 1. rewrite S. cbn [bind].
    change 8%nat with (length (byte_bits x)). rewrite (decode_bits md t (byte_bits x) q m o1 d dm [] 0 E1 C1). cbn [bind app]. rewrite byte_number by exact X. rewrite (IH _ _ _ _ _ (acc ++ [x]) (a + 1) E2 C2). now rewrite <- app_assoc.
Qed.

Lemma coded_ok bits probs : Forall (fun r => 1 <= r <= 2 ^ 23 - 1) probs -> forallb ev_ok (coded bits probs) = true.
Proof.
  intros F. apply forallb_forall. intros e I. unfold coded in I. apply in_map_iff in I. destruct I as ((b & r) & <- & I). apply in_combine_r in I. rewrite Forall_forall in F. specialize (F r I). cbn [snd ev_ok]. unfold fp_valid. lia.
Qed.
Lemma coded_length bits probs : zlen probs = zlen bits -> zlen (coded bits probs) = zlen bits.
Proof. intros L. unfold coded, zlen in *. rewrite map_length, combine_length. lia. Qed.
(** The stream is that of the predicted probabilities. *)
Lemma compressed md t max mo bytes : luts_new = Ok t -> 0 < max <= 2 ^ 31 -> 0 <= mo -> 8 * mo + 7 < 2 ^ 16 -> 8 * zlen bytes < 2 ^ 28 ->
  exists p probs out, use_all md t max mo (uses_of bytes) = Ok (p, probs) /\ zlen probs = 8 * zlen bytes /\ Forall (fun r => 1 <= r <= 2 ^ 23 - 1) probs /\
    encode_all (coded (bit_string bytes) probs) = Ok out /\ byte_list out /\ compress_file md t max mo bytes = Ok out.
Proof.
  intros L M O D B. destruct (file_predicted md t max mo bytes L M O D) as (p & probs & E & Z & F); [clear L; pow2; lia|]. clear L. exists p, probs.
  assert (ZC : zlen (coded (bit_string bytes) probs) = 8 * zlen bytes) by (rewrite coded_length; rewrite bit_string_length; [reflexivity|exact Z]).
  destruct (encoder_never_fails (coded (bit_string bytes) probs)) as (out & EN & BL); [now apply coded_ok|lia|]. exists out. do 5 (split; [assumption|]).
  unfold use_all in E. apply bind_ok in E. destruct E as (p0 & P0 & E). unfold encode_all in EN. apply bind_ok in EN. destruct EN as (e & EN & DR). unfold compress_file. rewrite P0. cbn [bind]. rewrite (code_bytes md t bytes p0 p probs enc_new e E EN). cbn [bind snd]. exact DR.
Qed.
Lemma file_round_trip md t max mo bytes : luts_new = Ok t -> 0 < max <= 2 ^ 31 -> 0 <= mo -> 8 * mo + 7 < 2 ^ 16 -> 8 * zlen bytes < 2 ^ 28 -> Forall (fun x => 0 <= x < 256) bytes ->
  exists out, compress_file md t max mo bytes = Ok out /\ byte_list out /\ forall tail, decompress_file md t max mo (out ++ tail) (length bytes) = Ok (bytes, tail).
Proof.
  intros L M O D B F. destruct (compressed md t max mo bytes L M O D B) as (p & probs & out & E & Z & P & EN & BL & C). clear L. exists out. split; [exact C|]. split; [exact BL|]. intros tail.
  destruct (lossless _ out tail (coded_ok (bit_string bytes) probs P) EN) as (DE & _). unfold decode_all in DE. apply bind_ok in DE. destruct DE as (d & DN & DE). apply bind_ok in DE. destruct DE as ((es & d') & DE & X). injection X as -> <-.
  unfold use_all in E. apply bind_ok in E. destruct E as (p0 & P0 & E). unfold decompress_file. rewrite P0. cbn [bind]. rewrite DN. cbn [bind]. rewrite (decode_bytes md t bytes F p0 p probs d d' [] 0 E DE). reflexivity.
Qed.
Lemma file_size md t max mo bytes out : luts_new = Ok t -> 0 < max <= 2 ^ 31 -> 0 <= mo -> 8 * mo + 7 < 2 ^ 16 -> 8 * zlen bytes < 2 ^ 28 -> compress_file md t max mo bytes = Ok out ->
  exists p probs, use_all md t max mo (uses_of bytes) = Ok (p, probs) /\ 4 <= zlen out <= 4 + 24 * zlen bytes /\
    256 ^ (zlen out - 4) * prodz (map lo_share (coded (bit_string bytes) probs)) <= (2 ^ 31) ^ (8 * zlen bytes) /\
    (2 ^ 23) ^ (8 * zlen bytes) <= 256 ^ (zlen out - 4) * (2 ^ 31 - 1) * prodz (map (fun e => share e + 1) (coded (bit_string bytes) probs)).
Proof.
  intros L M O D B C. destruct (compressed md t max mo bytes L M O D B) as (p & probs & out' & E & Z & P & EN & BL & C'). clear L. rewrite C in C'. injection C' as <-. exists p, probs. split; [exact E|].
  assert (ZC : zlen (coded (bit_string bytes) probs) = 8 * zlen bytes) by (rewrite coded_length; rewrite bit_string_length; [reflexivity|exact Z]).
  destruct (stream_size _ out (coded_ok (bit_string bytes) probs P) EN) as (S1 & S2 & S3). rewrite ZC in *. split; [lia|]. split; [exact S2|exact S3].
Qed.

(** Any input *)
Section Any.
  Variable md : mode. Variable t : luts. Variables max mo : Z.
  Hypothesis CALLS : forall uses, zlen (told uses) < 2 ^ 47 - 1 -> match allowed_all Between uses with Some _ => exists st, use_all md t max mo uses = Ok st | None => use_all md t max mo uses = Fail EAssert end.
  Hypothesis RANGE : forall uses p probs, zlen (told uses) < 2 ^ 47 - 1 -> use_all md t max mo uses = Ok (p, probs) -> Forall (fun r => 1 <= r <= 2 ^ 23 - 1) probs.
  Lemma allowed_app u1 : forall ph u2, allowed_all ph (u1 ++ u2) = match allowed_all ph u1 with Some ph => allowed_all ph u2 | None => None end.
  Proof. induction u1 as [|u u1 IH]; intros ph u2; [reflexivity|]. cbn [app allowed_all]. destruct (allowed ph u); [apply IH|reflexivity]. Qed.
  Lemma told_snoc uses u : told (uses ++ [u]) = told uses ++ match u with Update b => [b] | _ => [] end.
  Proof. unfold told. rewrite flat_map_app. cbn [flat_map]. now rewrite app_nil_r. Qed.
  Lemma use_all_snoc uses u st : use_all md t max mo (uses ++ [u]) = Ok st -> exists m, use_all md t max mo uses = Ok m /\ use_step md t m u = Ok st.
  Proof.
    unfold use_all. intros E. apply bind_ok in E. destruct E as (p & -> & E). apply mfold_split in E. destruct E as (m & E1 & E2). exists m. cbn [bind]. split; [exact E1|]. cbn [mfold] in E2. apply bind_ok in E2. destruct E2 as (x & -> & E2). exact E2.
  Qed.
  Definition reached (ph : phase) (n : Z) (p : predictor) : Prop := exists uses probs, allowed_all Between uses = Some ph /\ zlen (told uses) = n /\ use_all md t max mo uses = Ok (p, probs).
  Lemma step_any ph ph' n p u : reached ph n p -> allowed ph u = Some ph' -> n + 1 < 2 ^ 47 - 1 ->
    exists p' more, reached ph' (n + match u with Update _ => 1 | _ => 0 end) p' /\ (forall acc, use_step md t (p, acc) u = Ok (p', acc ++ more)) /\ Forall (fun r => 1 <= r <= 2 ^ 23 - 1) more.
  Proof.
    intros (uses & probs & A & T & E) AL N. assert (T' : zlen (told (uses ++ [u])) = n + match u with Update _ => 1 | _ => 0 end).
    { rewrite told_snoc, zlen_app, T. destruct u; reflexivity. }
    assert (TB : zlen (told (uses ++ [u])) < 2 ^ 47 - 1) by (rewrite T'; destruct u; lia). assert (A' : allowed_all Between (uses ++ [u]) = Some ph') by (rewrite allowed_app, A; cbn [allowed_all]; now rewrite AL).
    pose proof (CALLS _ TB) as H. rewrite A' in H. destruct H as ((p' & probs') & E'). pose proof (RANGE _ _ _ TB E') as F. pose proof E' as E2. apply use_all_snoc in E2. destruct E2 as (m & E2 & S). rewrite E in E2. injection E2 as <-.
    apply use_step_acc in S. destruct S as (more & -> & S). exists p', more. split; [|split].
    - exists (uses ++ [u]), (probs ++ more). auto.
    - exact S.
    - apply Forall_app in F. exact (proj2 F).
  Qed.
  Lemma decode_bit_any d r : dgood d -> 1 <= r <= 2 ^ 23 - 1 -> tol (fun x => dgood (snd x)) (decode_bit d r).
  Proof.
    intros G R. pose proof (decode_event_tol d (RqBit r) G ltac:(cbn [rq_ok]; unfold fp_valid; lia)) as T. cbn [decode_event] in T. destruct (decode_bit d r) as [(b & d')|e]; cbn [bind tol snd] in *; exact T.
  Qed.
  Lemma decode_bits_any k : forall a j p d acc n, reached (Inside j) n p -> dgood d -> 0 <= j -> j + Z.of_nat (S k) = 8 -> n + Z.of_nat (S k) < 2 ^ 47 - 1 -> zlen acc = j ->
    tol (fun x => reached Between (n + Z.of_nat (S k)) (fst (fst x)) /\ dgood (snd (fst x)) /\ zlen (snd x) = 8) (mfold (decode_one md t) (zseq a (S k)) (p, d, acc)).
  Proof.
    induction k as [|k IH]; intros a j p d acc n R G J K N LA; cbn [zseq mfold]; unfold decode_one at 1;
      destruct (step_any _ _ _ _ Predict R eq_refl ltac:(lia)) as (p1 & more & R1 & S1 & F1); specialize (S1 []); cbn [use_step fst snd] in S1;
      (destruct (predictor_predict md t p) as [(m & r)|e] eqn:PP; [|discriminate]); cbn [bind fst snd app] in S1; injection S1 as -> <-; cbn [bind]; inversion F1 as [|? ? RR _]; subst;
      pose proof (decode_bit_any d r G RR) as T; (destruct (decode_bit d r) as [(b & d1)|e]; cbn [bind tol snd] in T |- *; [|exact T]);
      destruct (step_any _ _ _ _ (Update b) R1 eq_refl ltac:(lia)) as (p2 & more2 & R2 & S2 & _); specialize (S2 []); cbn [use_step fst snd] in S2;
      (destruct (predictor_update md t p1 b) as [q|e] eqn:PU; [|discriminate]); cbn [bind] in S2 |- *; injection S2 as -> _.
    - cbn [zseq mfold tol fst snd]. replace (zlen acc =? 7) with true in R2 by lia. rewrite Z.add_0_r in R2. split; [exact R2|]. split; [exact T|]. rewrite zlen_app. change (zlen [b]) with 1. lia.
    - replace (zlen acc =? 7) with false in R2 by lia. rewrite Z.add_0_r in R2.
      pose proof (IH (a + 1) (zlen acc + 1) p2 d1 (acc ++ [b]) (n + 1) R2 T ltac:(lia) ltac:(lia) ltac:(lia) ltac:(rewrite zlen_app; reflexivity)) as H.
      replace (n + Z.of_nat (S (S k))) with (n + 1 + Z.of_nat (S k)) by lia. exact H.
  Qed.
  Lemma decode_bytes_any k : forall a p d acc n, reached Between n p -> dgood d -> n + 8 * Z.of_nat k < 2 ^ 47 - 1 -> byte_list acc ->
    tol (fun x => dgood (snd (fst x)) /\ byte_list (snd x) /\ zlen (snd x) = zlen acc + Z.of_nat k) (mfold (decode_byte md t) (zseq a k) (p, d, acc)).
  Proof.
    induction k as [|k IH]; intros a p d acc n R G N B; cbn [zseq mfold].
    - cbn [tol fst snd]. split; [exact G|]. split; [exact B|lia].
    - unfold decode_byte at 1. destruct (step_any _ _ _ _ Start R eq_refl ltac:(lia)) as (p1 & more & R1 & S1 & _). specialize (S1 []). cbn [use_step fst snd] in S1.
      destruct (predictor_start p) as [q|e]; [|discriminate]. cbn [bind] in S1 |- *. injection S1 as -> _. rewrite Z.add_0_r in R1.
      pose proof (decode_bits_any 7 0 0 p1 d [] n R1 G ltac:(lia) ltac:(lia) ltac:(lia) eq_refl) as T. destruct (mfold (decode_one md t) (zseq 0 8) (p1, d, [])) as [((p2 & d2) & bits)|e]; cbn [bind tol fst snd] in T |- *; [|exact T].
      destruct T as (R2 & G2 & L). pose proof (IH (a + 1) p2 d2 (acc ++ [number_of bits]) (n + 8) R2 G2 ltac:(lia)) as H.
      assert (NB : byte_list (acc ++ [number_of bits])).
      { apply Forall_app. split; [exact B|]. constructor; [|constructor]. pose proof (number_of_nonneg bits) as NN. match type of NN with _ <= _ < 2 ^ ?x => change x with (zlen bits) in NN end. rewrite L in NN. change (2 ^ 8) with 256 in NN. lia. }
      specialize (H NB). destruct (mfold (decode_byte md t) (zseq (a + 1) k) _) as [((p3 & d3) & out)|e]; cbn [tol fst snd] in H |- *; [|exact H]. destruct H as (G3 & B3 & L3). split; [exact G3|]. split; [exact B3|]. rewrite zlen_app in L3. change (zlen [number_of bits]) with 1 in L3. lia.
  Qed.
  Lemma decompress_any input n : byte_list input -> 8 * Z.of_nat n < 2 ^ 47 - 1 ->
    (exists bytes rest, decompress_file md t max mo input n = Ok (bytes, rest) /\ length bytes = n /\ byte_list bytes) \/ decompress_file md t max mo input n = Fail EEof.
  Proof.
    intros B N. unfold decompress_file. pose proof (CALLS [] ltac:(reflexivity)) as C. cbn [allowed_all] in C. destruct C as ((p & pr) & C). pose proof C as C'. unfold use_all in C'. apply bind_ok in C'. destruct C' as (p0 & -> & C'). injection C' as -> <-. cbn [bind].
    pose proof (dec_new_tol input B) as D. destruct (dec_new input) as [d|e]; cbn [bind tol] in D |- *; [|right; now rewrite D].
    assert (R : reached Between 0 p) by (exists [], []; split; [reflexivity|]; split; [reflexivity|exact C]).
    pose proof (decode_bytes_any n 0 p d [] 0 R D ltac:(lia) (Forall_nil _)) as T. destruct (mfold (decode_byte md t) (zseq 0 n) (p, d, [])) as [((p1 & d1) & bytes)|e]; cbn [bind tol fst snd] in T |- *; [|right; now rewrite T].
    left. exists bytes, (d_in d1). split; [reflexivity|]. destruct T as (_ & BB & L). split; [|exact BB]. change (zlen (@nil Z)) with 0 in L. unfold zlen in L. lia.
  Qed.
End Any.
Lemma garbage_tolerated md t max mo input n : luts_new = Ok t -> 0 < max <= 2 ^ 31 -> 0 <= mo -> 8 * mo + 7 < 2 ^ 16 -> byte_list input -> 8 * Z.of_nat n < 2 ^ 47 - 1 ->
  (exists bytes rest, decompress_file md t max mo input n = Ok (bytes, rest) /\ length bytes = n /\ byte_list bytes) \/ decompress_file md t max mo input n = Fail EEof.
Proof.
  intros L M O D B N. apply decompress_any; [|  |exact B|exact N].
  - intros uses T. exact (calls_alternate md t max mo uses L M O D T).
  - intros uses p probs T E. exact (proj1 (calls_predicted md t max mo uses p probs L M O D T E)).
Qed.
Lemma files_never_collide md t max mo bytes bytes' out : luts_new = Ok t -> 0 < max <= 2 ^ 31 -> 0 <= mo -> 8 * mo + 7 < 2 ^ 16 -> 8 * zlen bytes < 2 ^ 28 ->
  Forall (fun x => 0 <= x < 256) bytes -> Forall (fun x => 0 <= x < 256) bytes' -> length bytes' = length bytes ->
  compress_file md t max mo bytes = Ok out -> compress_file md t max mo bytes' = Ok out -> bytes' = bytes.
Proof.
  intros L M O D B F F' LE C C'. assert (B' : 8 * zlen bytes' < 2 ^ 28) by (unfold zlen in *; rewrite LE; exact B).
  destruct (file_round_trip md t max mo bytes L M O D B F) as (o & C1 & _ & D1). destruct (file_round_trip md t max mo bytes' L M O D B' F') as (o' & C2 & _ & D2). clear L.
  rewrite C in C1. injection C1 as <-. rewrite C' in C2. injection C2 as <-. specialize (D1 []). specialize (D2 []). rewrite LE, D1 in D2. now injection D2.
Qed.
Lemma small_round_trip t : luts_new = Ok t -> exists out, compress_file ModeLight t 10000000 20 [97; 98; 114; 97; 99; 97; 100; 97; 98; 114; 97] = Ok out /\
  forall tail, decompress_file ModeLight t 10000000 20 (out ++ tail) 11 = Ok ([97; 98; 114; 97; 99; 97; 100; 97; 98; 114; 97], tail).
Proof.
  intros L. destruct (file_round_trip ModeLight t 10000000 20 [97; 98; 114; 97; 99; 97; 100; 97; 98; 114; 97] L) as (out & C & _ & D); [clear L; pow2; lia|discriminate|reflexivity|reflexivity|repeat constructor; discriminate|].
  exists out. split; [exact C|exact D].
Qed.
(** More input *)
Definition more (d : decoder) (tail : list Z) : decoder := mkDec (d_in d ++ tail) (d_buffer d) (d_range d) (d_high d).
Lemma feed_more d d' tail : dec_feed d = Ok d' -> dec_feed (more d tail) = Ok (more d' tail).
Proof.
  unfold dec_feed, input_byte, more. cbn [d_in d_buffer d_range d_high]. intros E. apply bind_ok in E. destruct E as (b & -> & E). cbn [bind]. destruct (d_in d) as [|x rest]; [discriminate|]. cbn [app].
  apply bind_ok in E. destruct E as ((c & s) & E1 & E). apply bind_ok in E1. destruct E1 as (h & -> & E1). apply bind_ok in E1. destruct E1 as (cur & C & E1). injection E1 as <- <-. cbn [bind]. rewrite C. cbn [bind d_in d_buffer d_range d_high] in *.
  apply bind_ok in E. destruct E as (y & -> & E). injection E as <-. reflexivity.
Qed.
Lemma norm_more fuel : forall d d' tail, dec_normalize fuel d = Ok d' -> dec_normalize fuel (more d tail) = Ok (more d' tail).
Proof.
  induction fuel as [|fuel IH]; intros d d' tail E; cbn [dec_normalize] in *; change (d_range (more d tail)) with (d_range d); destruct (d_range d <? 2 ^ 23); try discriminate; try (injection E as <-; reflexivity).
  apply bind_ok in E. destruct E as (s & F & E). rewrite (feed_more _ _ _ F). cbn [bind]. change (d_range (more s tail)) with (d_range s). apply bind_ok in E. destruct E as (r & -> & E). cbn [bind].
  exact (IH _ _ tail E).
Qed.
Lemma bit_more d r b d' tail : decode_bit d r = Ok (b, d') -> decode_bit (more d tail) r = Ok (b, more d' tail).
Proof.
  unfold decode_bit. intros E. apply bind_ok in E. destruct E as (s & N & E). rewrite (norm_more _ _ _ _ N). cbn [bind]. change (d_range (more s tail)) with (d_range s). change (d_buffer (more s tail)) with (d_buffer s).
  apply bind_ok in E. destruct E as (h & -> & E). cbn [bind]. destruct (d_buffer s <? h); [injection E as <- <-; reflexivity|]. apply bind_ok in E. destruct E as (x & -> & E). apply bind_ok in E. destruct E as (y & -> & E). injection E as <- <-. reflexivity.
Qed.
Lemma new_more input d tail : dec_new input = Ok d -> dec_new (input ++ tail) = Ok (more d tail).
Proof.
  unfold dec_new. cbv zeta. intros E. change (mkDec (input ++ tail) 0 (2 ^ 31 - 1) 0) with (more (mkDec input 0 (2 ^ 31 - 1) 0) tail).
  apply bind_ok in E. destruct E as (d1 & E1 & E). apply bind_ok in E. destruct E as (d2 & E2 & E). apply bind_ok in E. destruct E as (d3 & E3 & E).
  rewrite (feed_more _ _ tail E1). cbn [bind]. rewrite (feed_more _ _ tail E2). cbn [bind]. rewrite (feed_more _ _ tail E3). cbn [bind]. exact (feed_more _ _ tail E).
Qed.
Lemma ones_more md t tail l : forall p d acc p' d' acc', mfold (decode_one md t) l (p, d, acc) = Ok (p', d', acc') -> mfold (decode_one md t) l (p, more d tail, acc) = Ok (p', more d' tail, acc').
Proof.
  induction l as [|a l IH]; intros p d acc p' d' acc' E; cbn [mfold] in *; [injection E as <- <- <-; reflexivity|]. apply bind_ok in E. destruct E as (((p1 & d1) & a1) & E1 & E). unfold decode_one in E1 |- * at 1.
  apply bind_ok in E1. destruct E1 as ((m & r) & -> & E1). apply bind_ok in E1. destruct E1 as ((b & d2) & B & E1). apply bind_ok in E1. destruct E1 as (q & U & E1). injection E1 as <- <- <-. cbn [bind]. rewrite (bit_more _ _ _ _ tail B). cbn [bind]. rewrite U. cbn [bind].
  exact (IH _ _ _ _ _ _ E).
Qed.
Lemma bytes_more md t tail l : forall p d acc p' d' acc', mfold (decode_byte md t) l (p, d, acc) = Ok (p', d', acc') -> mfold (decode_byte md t) l (p, more d tail, acc) = Ok (p', more d' tail, acc').
Proof.
  induction l as [|a l IH]; intros p d acc p' d' acc' E; cbn [mfold] in *; [injection E as <- <- <-; reflexivity|]. apply bind_ok in E. destruct E as (((p1 & d1) & a1) & E1 & E). unfold decode_byte in E1 |- * at 1.
  apply bind_ok in E1. destruct E1 as (q & -> & E1). apply bind_ok in E1. destruct E1 as (((p2 & d2) & bits) & B & E1). injection E1 as <- <- <-. cbn [bind]. rewrite (ones_more _ _ tail _ _ _ _ _ _ _ B). cbn [bind].
  exact (IH _ _ _ _ _ _ E).
Qed.
Lemma rest_untouched md t max mo input n bytes rest tail : decompress_file md t max mo input n = Ok (bytes, rest) -> decompress_file md t max mo (input ++ tail) n = Ok (bytes, rest ++ tail).
Proof.
  unfold decompress_file. intros E. apply bind_ok in E. destruct E as (p & -> & E). apply bind_ok in E. destruct E as (d & D & E). cbn [bind]. rewrite (new_more _ _ tail D). cbn [bind].
  apply bind_ok in E. destruct E as (((p1 & d1) & out) & B & E). injection E as <- <-. rewrite (bytes_more _ _ tail _ _ _ _ _ _ _ B). reflexivity.
Qed.
