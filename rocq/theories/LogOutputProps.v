(* C50 A log output stream with a worker thread.  Vocabulary: LogOutputSpec. *)
From Verif Require Import Conc LogOutputModel LogOutputSpec LogOutputProofs.

(* C50: under every schedule, with and without interrupted waits, what has been output, what the worker has in hand and what is in the
   queue are together exactly what was put into the queue, in that order: nothing is lost, repeated or overtaken *)
Theorem C50_order intr s : reach init (step intr) s -> out s ++ in_hand (wk s) ++ queue s = pushed s.
Proof. apply orderly_inv. Qed.
Print Assumptions C50_order.
(* C50: when shutdown() has stopped the worker, every message put into the queue before shutdown() was called has been output, and
   there is no worker any more *)
Theorem C50_shutdown s : reach init (step false) s -> ctl s = CStopped -> has_first (mark s) (pushed s) (out s) /\ wstep s = None.
Proof.
  intros R C. destruct (shut_inv _ R) as [A B]. rewrite C in B. specialize (B eq_refl). pose proof (orderly_inv _ _ R) as O. unfold orderly in O. pose proof (flags_inv _ _ R) as F. unfold flags in F. rewrite C in F. split.
  - split; [exact A|]. exists (skipn (mark s) (out s)). rewrite <- O. rewrite firstn_app. replace (mark s - length (out s)) with 0 by lia. rewrite firstn_O, app_nil_r. symmetry. apply firstn_skipn.
  - unfold wstep. destruct (wk s); auto; cbn in F; unfold stopped_ok in F; cbn in F; rewrite ?andb_false_r in F; discriminate F.
Qed.
Print Assumptions C50_shutdown.
(* C50: after start() has returned true, whenever no push() is under way, the worker on its own comes to a point where it has output
   every message: no wakeup is lost *)
Theorem C50_delivery s : reach init (step false) s -> ctl s = CStarted true -> no_push_under_way s -> exists s', steps worker_alone s s' /\ out s' = pushed s.
Proof.
  intros R C N. pose proof (flags_inv _ _ R) as F. unfold flags in F. rewrite C in F. cbn in F. unfold running_ok in F. rewrite !andb_true_iff in F. destruct F as [[_ EX] RW].
  assert (Q : quiet s) by (intros t; destruct (N t) as [->|[m ->]]; reflexivity).
  assert (W : waiting s = []).
  { destruct (waiting_inv _ _ R) as [_ W]. destruct (waiting s) as [|t l] eqn:E; auto. assert (H : p_waits (pu s t) = true) by (apply W; left; reflexivity). destruct (N t) as [G|[m G]]; rewrite G in H; discriminate H. }
  destruct (worker_outputs _ s (le_n _) R Q W EX RW) as (s' & S & E1 & E2). exists s'. split; [exact S|].
  assert (R' : reach init (step false) s') by (eapply reach_steps; [exact R|apply internal_steps, worker_steps, S]).
  pose proof (orderly_inv _ _ R') as O. unfold orderly in O. rewrite E1, E2, !app_nil_r in O. rewrite O. apply (worker_steps_same _ _ S).
Qed.
Print Assumptions C50_delivery.
(* C50: start() and shutdown() can always return, and so can push(), which then has put its message into the queue *)
Theorem C50_calls_return intr s : reach init (step intr) s -> exists s', steps internal s s' /\ resting (ctl s') = true.
Proof. intros R. eapply ctl_returns; [apply le_n|exact R]. Qed.
Print Assumptions C50_calls_return.
Theorem C50_push_returns intr s t : reach init (step intr) s ->
  exists s', steps internal s s' /\ pu s' t = PIdle /\ forall m, pu s t = P156 m \/ pu s t = P165 m -> In m (pushed s').
Proof. apply push_returns. Qed.
Print Assumptions C50_push_returns.
(* C50: start() never creates a worker while another one is running *)
Theorem C50_one_worker intr s : reach init (step intr) s -> ctl s = S114 -> wk s = WOff \/ wk s = WEnd.
Proof.
  intros R C. pose proof (flags_inv _ _ R) as F. unfold flags in F. rewrite C in F. cbn in F. destruct (wk s); auto; cbn in F; rewrite ?andb_false_r in F; discriminate F.
Qed.
Print Assumptions C50_one_worker.
(* C50: the queue of fixed size is, for every sequence of calls, a FIFO for one message less than its size, which drops what does not
   fit; no access is out of bounds *)
Theorem C50_fixed_queue n os : fixed_run (new_fixed n) os = Ok (fifo_run (n - 1) [] os).
Proof. apply fixed_new. Qed.
Print Assumptions C50_fixed_queue.

(* C50, refuted: if the wait for the mutex at the end of the worker is interrupted by a signal, shutdown() returns and messages remain *)
Definition started : list label := LStart :: repeat LC 6 ++ repeat LW 3 ++ [LC].
Definition lost_drain : st := after (started ++ [LCall 1 7; LP 1; LP 1; LP 1; LP 1; LShutdown; LC; LC; LC; LC; LW; LIntrDrain; LW; LW; LC; LC]).
Theorem C50_shutdown_interrupted_refuted : ~ (forall s, reach init (step true) s -> ctl s = CStopped -> has_first (mark s) (pushed s) (out s)).
Proof.
  intros H. specialize (H lost_drain (after_reach _ _ (or_intror eq_refl)) ltac:(vm_compute; reflexivity)). destruct H as [_ [r H]].
  assert (E : out lost_drain = [] /\ mark lost_drain = 1 /\ pushed lost_drain = [7]) by (vm_compute; auto). destruct E as (E1 & E2 & E3). rewrite E1, E2, E3 in H. discriminate H.
Qed.
Print Assumptions C50_shutdown_interrupted_refuted.
(* C50, refuted: if the wait for the mutex within the loop is interrupted, a message stays in the queue although the worker runs *)
Definition lost_pop : st := after (started ++ [LCall 1 7; LP 1; LP 1; LP 1; LP 1; LW; LW; LW; LIntrPop; LW]).
Theorem C50_delivery_interrupted_refuted : ~ (forall s, reach init (step true) s -> ctl s = CStarted true -> no_push_under_way s -> exists s', steps worker_alone s s' /\ out s' = pushed s).
Proof.
  intros H. destruct (H lost_pop (after_reach _ _ (or_intror eq_refl)) ltac:(vm_compute; reflexivity)) as (s' & S & E).
  { intros t. left. destruct t as [|[|t]]; vm_compute; reflexivity. }
  assert (E0 : out lost_pop = [] /\ pushed lost_pop = [7] /\ wstep lost_pop = None) by (vm_compute; auto). destruct E0 as (E1 & E2 & E3).
  inversion S as [|? s2 ? H1 H2]; subst; [congruence|]. unfold worker_alone in H1. congruence.
Qed.
Print Assumptions C50_delivery_interrupted_refuted.
(* C50, refuted: messages pushed while shutdown() is running can stay in the queue after it has returned *)
Definition late : st := after (started ++ [LShutdown; LC; LC; LC; LC; LW; LW; LW; LW; LCall 1 7; LP 1; LP 1; LP 1; LP 1; LW; LW; LC; LC]).
Theorem C50_late_refuted : ~ (forall s, reach init (step false) s -> ctl s = CStopped -> out s = pushed s).
Proof. intros H. specialize (H late ltac:(apply after_reach; left; reflexivity) ltac:(vm_compute; reflexivity)). vm_compute in H. discriminate H. Qed.
Print Assumptions C50_late_refuted.
(* C50, refuted: when the worker is finished before shutdown() gets to join it, it is never joined *)
Theorem C50_join_refuted : ~ (forall s, reach init (step false) s -> leaked s = 0).
Proof.
  intros H. specialize (H (after (started ++ [LShutdown; LC; LC; LC; LC; LW; LW; LW; LW; LW; LW; LC; LC] ++ LStart :: repeat LC 6)) ltac:(apply after_reach; left; reflexivity)). vm_compute in H. discriminate H.
Qed.
Print Assumptions C50_join_refuted.
(* C50, refuted: the worker looks whether the queue is empty without the mutex, while another thread can be writing to the queue *)
Theorem C50_race_refuted : ~ (forall s t m, reach init (step false) s -> pu s t = P165 m -> wk s <> W574).
Proof.
  intros H. apply (H (after (started ++ [LCall 1 7; LP 1; LP 1; LP 1; LP 1; LW; LW; LCall 1 8; LP 1])) 1 8 ltac:(apply after_reach; left; reflexivity)); vm_compute; reflexivity.
Qed.
Print Assumptions C50_race_refuted.
(* C50, refuted: a queue of size n holds n messages *)
Theorem C50_fixed_capacity_refuted : ~ (forall n os, fixed_run (new_fixed n) os = Ok (fifo_run n [] os)).
Proof. intros H. specialize (H 1 [OPush 7; OPop]). vm_compute in H. discriminate H. Qed.
Print Assumptions C50_fixed_capacity_refuted.

(* the hypotheses can be met: two messages, output one by the loop and one by the drain; shutdown() has returned *)
Definition ex : st := after (started ++ [LCall 1 7; LCall 2 8; LP 1; LP 1; LP 1; LP 1; LP 2; LP 2; LP 2; LP 2; LW; LW; LW; LW; LW; LW; LW; LShutdown; LC; LC; LC; LC; LW; LW; LW; LW; LC; LW; LW; LW; LC; LC]).
Example C50_ex : reach init (step false) ex /\ ctl ex = CStopped /\ mark ex = 2 /\ out ex = [7; 8] /\ leaked ex = 0.
Proof. split; [apply after_reach; left; reflexivity|vm_compute; auto]. Qed.
Definition ex2 : st := after (started ++ [LCall 1 7; LP 1; LP 1; LP 1; LP 1; LCall 2 8]).
Example C50_ex2 : reach init (step false) ex2 /\ ctl ex2 = CStarted true /\ no_push_under_way ex2 /\ pushed ex2 = [7] /\ out ex2 = [].
Proof.
  split; [apply after_reach; left; reflexivity|]. split; [vm_compute; reflexivity|]. split; [|vm_compute; auto].
  intros t. destruct t as [|[|[|t]]]; [left|left|right; exists 8|left]; vm_compute; reflexivity.
Qed.
Example C50_fixed_ex : fixed_run (new_fixed 3) [OPush 1; OPush 2; OPush 3; OPop; OPush 4; OPop; OPop; OPop] = Ok [Some 1; Some 2; Some 4; None].
Proof. reflexivity. Qed.
