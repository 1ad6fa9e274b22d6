(* C62: log messages by UDP. *)
From Verif Require Import Base Text LogTextModel UdpLogModel UdpLogSpec UdpLogProofs.
Local Open Scope Z_scope.

(* datagrams of messages without apostrophes, of any systems, in the order of their arrival: one row each, with the message's own values *)
Theorem C62_stored : forall l table, Forall (fun sm => plain (fst sm) /\ plain_record (snd sm)) l ->
  serve table (map (fun sm => datagram (fst sm) (snd sm)) l) = Some (table ++ map (fun sm => row_of (fst sm) (snd sm)) l).
Proof. exact (fun l table => serve_plain l table). Qed.
Print Assumptions C62_stored.

(* a sender who doubles the apostrophes of the text has it stored *)
Theorem C62_doubled : forall system m t, plain system -> plain_head m -> seven_bit t ->
  received (datagram system (with_text m (doubled t))) = Stored [row_of system (with_text m t)].
Proof. exact received_doubled. Qed.
Print Assumptions C62_doubled.

(* ---- what does not hold ---- *)
(* "escaping" changes nothing *)
Theorem C62_escape_refuted : forall s, escape s = s.
Proof. exact escape_id. Qed.
Print Assumptions C62_escape_refuted.

(* a message whose text has an apostrophe before a word (it's, the 'name', users' files, ...) is not stored, whatever comes after *)
Theorem C62_apostrophe_refuted : forall system m a sp w b, plain system -> plain_head m -> plain a -> spaces sp -> english w -> word_ends b ->
  received (datagram system (with_text m (a ++ $"'" ++ sp ++ w ++ b))) = Refused.
Proof. exact received_word. Qed.
Print Assumptions C62_apostrophe_refuted.

(* a text with a pair of apostrophes is stored with one of them *)
Theorem C62_altered_refuted : exists system m, plain system /\ plain_head m /\ exists row,
  received (datagram system m) = Stored [row] /\ row <> row_of system m.
Proof.
  exists ($"s"), (Rec [] 0 Info [] [] 0 [] [] [] ($"''")). split; [|split].
  - intros ch [<-|[]]. split; [cbn; lia|discriminate].
  - repeat (split; [first [intros ch []|cbn; lia]|]). cbn; lia.
  - eexists. split; [vm_compute; reflexivity|]. vm_compute. discriminate.
Qed.
Print Assumptions C62_altered_refuted.

(* whoever can put a text into a message can make the server store any second row of any system *)
Theorem C62_forgery_refuted : forall system m t system' m', plain system -> plain_head m -> plain t -> plain system' -> plain_record m' ->
  exists text, received (datagram system (with_text m text)) = Stored [row_of system (with_text m t); row_of system' m'].
Proof. intros system m t system' m' A B D E G. exists (forging t system' m'). exact (received_forged system m t system' m' A B D E G). Qed.
Print Assumptions C62_forgery_refuted.

(* ---- examples ---- *)
Definition ex_m (text : str) := Rec ($"2020-01-01 00:00:00") 12345 Warning ($"Default") ($"src/a, b.cpp") 17 ($"Foo<(int)>") ($"--") ($"run /* ? */") text.
Ltac plain_tac := match goal with |- plain ?s => 
  let H := fresh in assert (H : forallb (fun ch => (code_in ch 1 127 && negb (Ascii.eqb ch "'"%char))%bool) s = true) by reflexivity;
  let ch := fresh in let I0 := fresh in intros ch I0; rewrite forallb_forall in H; specialize (H ch I0); apply Bool.andb_true_iff in H; destruct H as [H ?];
  apply code_in_spec in H; split; [exact H|intros ->; discriminate] end.
Example C62_ex_head text : plain_head (ex_m text).
Proof. unfold plain_head, ex_m. cbn [r_stamp r_stream r_file r_class r_object r_function r_nsec r_line]. repeat (split; [first [plain_tac|lia]|]). lia. Qed.
Example C62_ex_record : plain ($"robot 1") /\ plain_record (ex_m ($"a,b); -- ""hello""")).
Proof. split; [plain_tac|]. split; [apply C62_ex_head|]. cbn [ex_m r_text]. plain_tac. Qed.
Example C62_ex_stored : received (datagram ($"robot 1") (ex_m ($"a,b); -- ""hello"""))) = Stored [row_of ($"robot 1") (ex_m ($"a,b); -- ""hello"""))].
Proof. vm_compute. reflexivity. Qed.
Example C62_ex_english : english ($"s") /\ word_ends ($": no $file ""x"" -- '") /\ word_ends [].
Proof.
  split; [|split; [|exact Logic.I]].
  - split; [discriminate|]. split; [intros ch [<-|[]]; right; cbn; lia|]. vm_compute. intuition discriminate.
  - split; [unfold letter; cbn; lia|]. split; [discriminate|]. split; [discriminate|]. split; [reflexivity|cbn; lia].
Qed.
Example C62_ex_refused : received (datagram ($"robot 1") (ex_m ($"it's: no $file ""x"" -- '"))) = Refused.
Proof. vm_compute. reflexivity. Qed.
Example C62_ex_forged : received (datagram ($"robot 1") (ex_m ($"ok'),('robot 2','now',0,'Error','','',0,'','','','fire"))) =
  Stored [row_of ($"robot 1") (ex_m ($"ok")); row_of ($"robot 2") (Rec ($"now") 0 Error [] [] 0 [] [] [] ($"fire"))].
Proof. vm_compute. reflexivity. Qed.
