(* C40 *)
From Verif Require Import Conc ActiveObjectModel ActiveObjectSpec ActiveObjectProofs.

(* C40: every operation passed to queue() has a permitted life: invoked at most once, deleted at most once,
   never invoked without having been pushed and never after its deletion *)
Theorem C40_each_operation_at_most_once :
  forall s o, reach init any s -> good_history o (history o (trace s)).
Proof. exact good. Qed.
Print Assumptions C40_each_operation_at_most_once.

(* operations run in the order in which they were pushed *)
Theorem C40_queue_order :
  forall s, reach init any s -> subsequence (invokes (trace s)) (pushes (trace s)).
Proof. exact order. Qed.
Print Assumptions C40_queue_order.

(* as long as stop() has not been called, the invocations are a prefix of the pushes: nothing is skipped *)
Theorem C40_nothing_skipped_without_stop :
  forall s, reach init any s -> ~ In EStop (trace s) -> exists rest, pushes (trace s) = invokes (trace s) ++ rest.
Proof. exact unstopped. Qed.
Print Assumptions C40_nothing_skipped_without_stop.

(* an operation with k operations before it is invoked before the worker has made 7k + 9 further steps,
   whatever the clients do meanwhile, provided stop() is not called *)
Theorem C40_eventually_invoked :
  forall n s s' k o, reach init any s -> exec n s s' -> nth_error (queue s) k = Some o -> 7 * k + 9 <= n ->
  In (EInvoke o) (trace s').
Proof. exact eventually_invoked. Qed.
Print Assumptions C40_eventually_invoked.

(* and the worker gets to make these steps: no wakeup is lost *)
Theorem C40_no_lost_wakeup :
  forall s, reach init any s -> execute s = true -> queue s <> [] ->
  wstep s <> None \/ exists t, cstep t s <> None /\ (cl s t = C86 \/ cl s t = C87 \/ exists o, cl s t = C85 o).
Proof. exact not_stuck. Qed.
Print Assumptions C40_no_lost_wakeup.

(* when the clients rest the worker empties the queue by itself *)
Theorem C40_worker_drains_queue :
  forall s, reach init any s -> execute s = true -> clients_idle s ->
  exists n s', wrun n s = Some s' /\ queue s' = [] /\ wk s' = W41 /\ sem s' = 0 /\
  forall o, In o (queue s) -> In (EInvoke o) (trace s').
Proof. exact drain. Qed.
Print Assumptions C40_worker_drains_queue.

(* a stop() requested before the worker has finished terminates it, and every operation is deleted *)
Theorem C40_stop_terminates_and_deletes :
  forall s, reach init any s -> execute s = false -> clients_idle s -> wk s <> WOff -> wk s <> W243 ->
  exists n s', wrun n s = Some s' /\ wk s' = WOff /\ queue s' = [] /\
  forall o, o < next s -> In (EDelete o) (trace s').
Proof. exact stop_terminates. Qed.
Print Assumptions C40_stop_terminates_and_deletes.

(* no front()/pop_front() of an empty list *)
Theorem C40_no_pop_from_empty_queue : forall s, reach init any s -> wk s <> WUB.
Proof. exact no_ub. Qed.
Print Assumptions C40_no_pop_from_empty_queue.

(* when everything has come to rest an operation has been deleted or still sits in the queue ... *)
Theorem C40_deleted_or_still_queued :
  forall s o, reach init any s -> wk s = WOff -> clients_idle s -> o < next s ->
  In (EDelete o) (trace s) \/ In o (queue s).
Proof. exact deleted_or_queued. Qed.
Print Assumptions C40_deleted_or_still_queued.

(* ... and the second case happens: an operation pushed after the clean-up is neither run nor deleted *)
Theorem C40_always_deleted_refuted :
  ~ (forall s o, reach init any s -> wk s = WOff -> clients_idle s -> o < next s -> In (EDelete o) (trace s)).
Proof. exact leak_refutes. Qed.
Print Assumptions C40_always_deleted_refuted.

(* the unlocked empty() races with push_back() *)
Theorem C40_data_race_refuted : ~ (forall s, reach init any s -> ~ data_race s).
Proof. exact (fun H => match race with ex_intro _ s (conj R D) => H s R D end). Qed.
Print Assumptions C40_data_race_refuted.

Example C40_nonvacuous :
  (exists s, reach init any s /\
     trace s = [EPush 0; EInvoke 0; EDelete 0; EPush 1; EPush 2; EInvoke 1; EDelete 1] /\ queue s = [2] /\
     execute s = true /\ clients_idle s /\ wk s = W45) /\
  (exists s, reach init any s /\ execute s = false /\ clients_idle s /\ wk s = W45 /\ queue s = [1]) /\
  (exists s s', reach init any s /\ exec 9 s s' /\ nth_error (queue s) 0 = Some 0).
Proof. exact (conj example_run (conj example_stopped example_exec)). Qed.
