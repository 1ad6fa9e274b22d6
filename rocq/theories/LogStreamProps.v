(* C49 Log statements of several threads on one stream.  Vocabulary: LogStreamSpec. *)
From Verif Require Import Conc Text LogTextModel LogStreamModel LogStreamSpec LogStreamProofs.

(* C49: under every schedule, the deliveries of each thread to each connected output are, in order and exactly once each, the
   statements that the thread has finished with endl; each names the right level, file, line, class, object and function, and its
   text is exactly that of the statement (with the unfinished text before it, cut, with a newline), unless it was raced *)
Theorem C49_delivery SIZE POOL outs s t o : 2 <= SIZE -> NoDup outs -> reach (init SIZE POOL) (any SIZE outs false) s -> In o outs -> pcs s t = Idle ->
  Forall2 (right SIZE) (ended [] (hist s t)) (handed s o t).
Proof.
  intros HS ND R Ho E. pose proof (i_deliv _ _ _ (inv_reach SIZE POOL outs HS ND s R) t o Ho) as D. rewrite E in D. cbn in D. rewrite app_nil_r in D. exact D.
Qed.
Print Assumptions C49_delivery.
(* C49: with only one thread on the stream nothing is raced, so that all texts are right *)
Theorem C49_one_thread SIZE POOL outs s t o : 2 <= SIZE -> NoDup outs -> reach (init SIZE POOL) (among SIZE outs (eq t)) s -> In o outs -> pcs s t = Idle ->
  Forall2 (fun x d => d_meta d = s_meta (snd x) /\ d_text d = expected SIZE (fst x) (snd x)) (ended [] (hist s t)) (handed s o t).
Proof.
  intros HS ND R Ho E. pose proof (C49_delivery SIZE POOL outs s t o HS ND (alone_reach _ _ _ _ _ R) Ho E) as D.
  destruct (alone_quiet SIZE POOL outs HS ND t s R) as (_ & _ & Q). unfold handed in *.
  assert (G : Forall (fun d => d_raced d = false) (filter (fun d => Nat.eqb (d_out d) o && Nat.eqb (d_tid d) t) (log s))).
  { apply Forall_forall. intros d Hd. apply filter_In in Hd. apply Q. tauto. }
  induction D as [|x d l l' [A B] D IH]; constructor; apply Forall_cons_iff in G; destruct G as [G1 G2]; auto.
Qed.
Print Assumptions C49_one_thread.
(* C49: no two threads ever use a thread stream at the same time *)
Theorem C49_exclusive SIZE POOL outs s t u i : 2 <= SIZE -> NoDup outs -> reach (init SIZE POOL) (any SIZE outs false) s -> t <> u ->
  uses (pcs s t) = Some i -> uses (pcs s u) <> Some i.
Proof. intros HS ND R. apply (exclusive SIZE outs s t u i). eapply inv_reach; eauto. Qed.
Print Assumptions C49_exclusive.
(* C49: no array is accessed out of bounds, raced or not *)
Theorem C49_no_overrun SIZE POOL outs s : 2 <= SIZE -> NoDup outs -> reach (init SIZE POOL) (any SIZE outs false) s -> crashed s = false.
Proof. intros HS ND R. apply (i_crash _ _ _ (inv_reach SIZE POOL outs HS ND s R)). Qed.
Print Assumptions C49_no_overrun.
(* C49: every statement can finish, wherever the other threads stand *)
Theorem C49_no_deadlock SIZE POOL outs s t : 2 <= SIZE -> NoDup outs -> reach (init SIZE POOL) (any SIZE outs false) s ->
  exists s', steps (any SIZE outs false) s s' /\ pcs s' t = Idle.
Proof. intros HS ND R. eapply finishes; [| |eapply inv_reach; eauto|apply le_n]; auto. Qed.
Print Assumptions C49_no_deadlock.

Definition note (l : Z) (x : str) (e : bool) : stmt := mkStmt (mkMeta Info $"a.cpp" l $"C" [] $"f") [x] e.
Definition from (SIZE : nat) (outs : list nat) (s : st) (sched : list tid) : st := match run SIZE outs sched s with Some s' => s' | None => s end.
Lemma from_reach SIZE POOL outs nest sched s : match run SIZE outs sched s with Some _ => true | None => false end = true ->
  reach (init SIZE POOL) (any SIZE outs nest) s -> reach (init SIZE POOL) (any SIZE outs nest) (from SIZE outs s sched).
Proof. unfold from. intros H R. destruct (run SIZE outs sched s) as [s'|] eqn:E; [|discriminate]. eapply run_reach; eauto. Qed.
(* C49, refuted: between the release of a thread stream (under the mutex) and the reset of its write index (outside of it) another thread
   can take the stream, and the text of the first message is repeated in front of that of the second *)
Definition race_1 : st := from 64 [0] (goto (init 64 2) 1 (A94 (note 1 $"a" true))) (repeat 1 16).
Definition race_end : st := from 64 [0] (goto race_1 2 (A94 (note 2 $"b" true))) (repeat 2 17).
Lemma race_reach : reach (init 64 2) (any 64 [0] false) race_end.
Proof.
  apply from_reach; [vm_compute; reflexivity|].
  eapply reach_step; [|exists 2; constructor; vm_compute; reflexivity].
  apply from_reach; [vm_compute; reflexivity|].
  eapply reach_step; [constructor|exists 1; constructor; vm_compute; reflexivity].
Qed.
Theorem C49_race_refuted : ~ (forall SIZE POOL outs s t o, 2 <= SIZE -> NoDup outs -> reach (init SIZE POOL) (any SIZE outs false) s -> In o outs -> pcs s t = Idle ->
  Forall2 (fun x d => d_text d = expected SIZE (fst x) (snd x)) (ended [] (hist s t)) (handed s o t)).
Proof.
  intros H. specialize (H 64 2 [0] race_end 2 0 ltac:(lia) ltac:(repeat constructor; intros []) race_reach (or_introl eq_refl) ltac:(vm_compute; reflexivity)).
  assert (E1 : ended [] (hist race_end 2) = [([], note 2 $"b" true)]) by (vm_compute; reflexivity).
  assert (E2 : exists d, handed race_end 0 2 = [d] /\ d_text d = $"a" ++ newline ++ $"b" ++ newline) by (eexists; split; vm_compute; reflexivity).
  destruct E2 as (d & E2 & E3). rewrite E1, E2 in H. inversion H as [|? ? ? ? A]; subst. rewrite E3 in A. discriminate A.
Qed.
Print Assumptions C49_race_refuted.
(* C49, refuted: a log statement within the arguments of another one on the same stream and level takes over its thread stream:
   the outer message is delivered with the line number (and file and function) of the inner one *)
Definition nest_1 : st := from 64 [0] (goto (init 64 2) 1 (A94 (note 1 $"a" true))) (repeat 1 4).
Definition nest_end : st := from 64 [0] (suspend nest_1 1 (note 2 $"b" true)) (repeat 1 (17 + 13)).
Lemma nest_reach : reach (init 64 2) (any 64 [0] true) nest_end.
Proof.
  apply from_reach; [vm_compute; reflexivity|]. eapply reach_step.
  2: { exists 1. eapply step_nested; vm_compute; reflexivity. }
  apply from_reach; [vm_compute; reflexivity|]. eapply reach_step; [constructor|exists 1; constructor; vm_compute; reflexivity].
Qed.
Theorem C49_nested_refuted : ~ (forall SIZE POOL outs s t o, 2 <= SIZE -> NoDup outs -> reach (init SIZE POOL) (any SIZE outs true) s -> In o outs -> pcs s t = Idle ->
  Forall2 (fun x d => d_meta d = s_meta (snd x)) (ended [] (hist s t)) (handed s o t)).
Proof.
  intros H. specialize (H 64 2 [0] nest_end 1 0 ltac:(lia) ltac:(repeat constructor; intros []) nest_reach (or_introl eq_refl) ltac:(vm_compute; reflexivity)).
  assert (E1 : ended [] (hist nest_end 1) = [([], note 2 $"b" true); ([note 2 $"b" true], note 1 $"a" true)]) by (vm_compute; reflexivity).
  assert (E2 : exists d e, handed nest_end 0 1 = [d; e] /\ m_li (d_meta e) = 2%Z) by (eexists; eexists; split; vm_compute; reflexivity).
  destruct E2 as (d & e & E2 & E3). rewrite E1, E2 in H. inversion H as [|? ? ? ? _ B]; subst. inversion B as [|? ? ? ? A]; subst. rewrite A in E3. discriminate E3.
Qed.
Print Assumptions C49_nested_refuted.

(* a reachable state in which two threads have finished messages, one of them in two statements *)
Definition fine_1 : st := from 64 [0; 1] (goto (init 64 2) 1 (A94 (note 1 $"x = " false))) (repeat 1 8).
Definition fine_2 : st := from 64 [0; 1] (goto fine_1 2 (A94 (note 2 $"hello" true))) (repeat 2 5).
Definition fine_end : st := from 64 [0; 1] (goto fine_2 1 (A94 (note 3 $"7" true))) (repeat 1 17 ++ repeat 2 12).
Example C49_ex : reach (init 64 2) (any 64 [0; 1] false) fine_end /\ pcs fine_end 1 = Idle /\ pcs fine_end 2 = Idle /\
  map (fun d => (d_tid d, d_text d, d_raced d)) (filter (fun d => Nat.eqb (d_out d) 1) (log fine_end)) = [(1, $"x = 7" ++ newline, false); (2, $"hello" ++ newline, false)].
Proof.
  split; [|repeat split; vm_compute; reflexivity].
  apply from_reach; [vm_compute; reflexivity|]. eapply reach_step; [|exists 1; constructor; vm_compute; reflexivity].
  apply from_reach; [vm_compute; reflexivity|]. eapply reach_step; [|exists 2; constructor; vm_compute; reflexivity].
  apply from_reach; [vm_compute; reflexivity|]. eapply reach_step; [constructor|exists 1; constructor; vm_compute; reflexivity].
Qed.
