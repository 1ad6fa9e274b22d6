(* C72 Stamped values.  Vocabulary: StampedSpec. *)
From Verif Require Import Base BaseLemmas Text CInt LogTextModel LogTextProofs StampedModel StampedSpec StampedProofs.
From Verif Require LogTextSpec CalendarSpec.
Local Open Scope Z_scope.

(* C72: however the value was made and whatever was written through get(), operator*, operator-> and header() since: each part holds what
   was said about it last; sequence numbers modulo 2^32, item numbers modulo 2^64 *)
Theorem C72_last_written D initial (k : making D) (l : list (write D)) : let s := fold_left written l (made initial k) in
  data s = last_said says_data l (from_data k initial) /\ frame (head s) = last_said says_frame l (frame (from_header k)) /\
  time (head s) = last_said says_time l (time (from_header k)) /\ seq (head s) = last_said says_seq l (seq (from_header k)) /\
  dsin (head s) = last_said says_dsin l (dsin (from_header k)).
Proof. destruct k; exact (parts l _). Qed.
Print Assumptions C72_last_written.
(* C72: reading gives what was written last *)
Theorem C72_read D initial (k : making D) (l : list (write D)) d : cget (fold_left written (l ++ [WData d]) (made initial k)) = Ok d.
Proof. rewrite fold_left_app. reflexivity. Qed.
Print Assumptions C72_read.
(* C72: the printed line says the sequence number, the time to the microsecond, the item number, the frame and the data, if the data has an
   operator<<, and its size otherwise *)
Theorem C72_print D size (f : D -> str) (s : stamped D) d n : data s = Some d -> dsin (head s) = Some n -> proper (time (head s)) ->
  exists text, print size (Some f) s = Ok text /\ line_text (seq (head s)) (time (head s)) n (frame (head s)) (f d) text.
Proof.
  intros Ed En P. unfold print, to_stream. rewrite Ed, En. cbn [bind]. eexists. split; [reflexivity|].
  exists (dec (seq (head s))), (to_simple_string (time (head s))), (dec n). split; [apply dec_numeral|]. split; [apply time_texts, P|]. split; [apply dec_numeral|reflexivity].
Qed.
Print Assumptions C72_print.
Theorem C72_print_size D size (s : stamped D) n : dsin (head s) = Some n -> proper (time (head s)) ->
  exists text b, print size None s = Ok text /\ LogTextSpec.numeral size b /\ line_text (seq (head s)) (time (head s)) n (frame (head s)) (b ++ $" data bytes") text.
Proof.
  intros En P. unfold print, to_stream. rewrite En. cbn [bind]. eexists. exists (dec size). split; [reflexivity|]. split; [apply dec_numeral|].
  exists (dec (seq (head s))), (to_simple_string (time (head s))), (dec n). split; [apply dec_numeral|]. split; [apply time_texts, P|]. split; [apply dec_numeral|reflexivity].
Qed.
Print Assumptions C72_print_size.
(* C72: printing is defined exactly if the item number was set, and the data too if it is printed *)
Theorem C72_print_defined D size (shift : option (D -> str)) (s : stamped D) :
  (dsin (head s) <> None /\ (shift <> None -> data s <> None) -> exists text, print size shift s = Ok text) /\
  (dsin (head s) = None \/ (shift <> None /\ data s = None) -> print size shift s = UB).
Proof.
  unfold print, to_stream. split.
  - intros (A & B). destruct (dsin (head s)); [|congruence]. destruct shift as [f|]; [|eexists; reflexivity].
    destruct (data s); [eexists; reflexivity|]. exfalso. apply B; [discriminate|reflexivity].
  - intros [->|(A & ->)]; [reflexivity|]. destruct (dsin (head s)); [|reflexivity]. destruct shift as [f|]; [reflexivity|congruence].
Qed.
Print Assumptions C72_print_defined.
(* C72: two values that print the same have the same sequence number, time and item number *)
Theorem C72_readback D size (f : D -> str) (s s' : stamped D) d d' n n' text : data s = Some d -> data s' = Some d' ->
  dsin (head s) = Some n -> dsin (head s') = Some n' -> proper (time (head s)) -> proper (time (head s')) ->
  print size (Some f) s = Ok text -> print size (Some f) s' = Ok text ->
  seq (head s) = seq (head s') /\ time (head s) = time (head s') /\ n = n' /\
  (~ In ";"%char (frame (head s)) -> ~ In ";"%char (frame (head s')) -> frame (head s) = frame (head s') /\ f d = f d').
Proof.
  intros Ed Ed' En En' P P' T T'.
  destruct (C72_print D size f s d n Ed En P) as (x & E & L). destruct (C72_print D size f s' d' n' Ed' En' P') as (x' & E' & L').
  assert (x = text) by congruence. assert (x' = text) by congruence. subst x x'.
  destruct (line_inj _ _ _ _ _ _ _ _ _ _ _ P P' L L') as (A & B & G & Q). repeat (split; [assumption|]). intros N N'. apply (frame_cut _ _ _ _ N N' Q).
Qed.
Print Assumptions C72_readback.
(* C72, refuted: the frame can be told from the data whatever its name *)
Theorem C72_frame_refuted : ~ (forall D size (f : D -> str) (s s' : stamped D) text, proper (time (head s)) -> proper (time (head s')) ->
  print size (Some f) s = Ok text -> print size (Some f) s' = Ok text -> frame (head s) = frame (head s')).
Proof.
  intros H. specialize (H str 1 (fun x => x) (mkS (Some $"b; c") (mkH $"a" NotADate 0 (Some 0))) (mkS (Some $"c") (mkH $"a; b" NotADate 0 (Some 0))) _ Logic.I Logic.I eq_refl eq_refl).
  discriminate H.
Qed.
Print Assumptions C72_frame_refuted.
(* C72, refuted: every stamped value can be printed once its data is known: no constructor sets the item number *)
Theorem C72_uninitialised_refuted : ~ (forall D size (f : D -> str) (d : D) frame time seq, exists text,
  print size (Some f) (stamped_both d (new_header_of frame time seq)) = Ok text).
Proof. intros H. destruct (H str 1 (fun x => x) [] [] NotADate 0) as (text & E). discriminate E. Qed.
Print Assumptions C72_uninitialised_refuted.

Definition sample : stamped str := fold_left written [WTime (At 2002 1 31 36001123456); WSeq 4294967297; WDsin 7; WData $"x"] (made None (OfHeader (new_header_of $"map" NotADate 3))).
Example C72_print_ex : data sample = Some $"x" /\ dsin (head sample) = Some 7 /\ proper (time (head sample)) /\
  print 8 (Some (fun x => x)) sample = Ok $"[seq: 1, timestamp: 2002-Jan-31 10:00:01.123456, DSIN: 7, Frame: map; x]" /\
  print 8 None sample = Ok $"[seq: 1, timestamp: 2002-Jan-31 10:00:01.123456, DSIN: 7, Frame: map; 8 data bytes]".
Proof. split; [reflexivity|]. split; [reflexivity|]. split; [cbn; lia|]. split; vm_compute; reflexivity. Qed.
Example C72_readback_ex : ~ In ";"%char (frame (head sample)) /\ print 8 (Some (fun x : str => x)) sample <> UB.
Proof. split; [cbn; intros K; repeat (destruct K as [K|K]; [discriminate K|]); exact K|vm_compute; discriminate]. Qed.
