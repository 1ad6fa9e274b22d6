(* C45 *)
From Verif Require Import Conc ThreadModel ThreadSpec ThreadProofs.

(* C45: run() never executes twice at the same time, in every interleaving, even with cancel() *)
Theorem C45_run_does_not_overlap :
  forall c s v w, reach init (step c) s -> wpcs s v = WRun -> wpcs s w = WRun -> v = w.
Proof. exact one_run. Qed.
Print Assumptions C45_run_does_not_overlap.

(* start() == true: the worker has reached its run(); start() == false: no worker is active *)
Theorem C45_start_true :
  forall s, reach init (step without_cancel) s -> cp s = RStart true -> not_yet_running (wpcs s (cur s)) = false.
Proof. exact start_true. Qed.
Print Assumptions C45_start_true.
Theorem C45_start_false :
  forall s w, reach init (step without_cancel) s -> cp s = RStart false -> busy (wpcs s w) = false.
Proof. exact start_false. Qed.
Print Assumptions C45_start_false.

(* wait() == true: run() of every worker has ended *)
Theorem C45_wait_true :
  forall s w, reach init (step without_cancel) s -> cp s = RWait true -> busy (wpcs s w) = false.
Proof. exact wait_true_done. Qed.
Print Assumptions C45_wait_true.

(* wait() == false: at that moment the worker of the last start() had not yet reported its end *)
Theorem C45_wait_false :
  forall s s', reach init (step without_cancel) s -> step without_cancel s s' -> cp s <> RWait false ->
  cp s' = RWait false -> busy (wpcs s (cur s)) = true /\ 1 <= cur s.
Proof. exact wait_false. Qed.
Print Assumptions C45_wait_false.

(* after stop() has returned, execute() is false until start() is called again *)
Theorem C45_stop_is_not_lost :
  forall s s', reach init (step without_cancel) s -> cp s = RStop ->
  steps (step_no_start without_cancel) s s' -> m_execute s' = false.
Proof. exact stop_not_lost. Qed.
Print Assumptions C45_stop_is_not_lost.

(* no worker is joined twice (which would be undefined behaviour of pthread_join) *)
Theorem C45_joined_at_most_once :
  forall s w, reach init (step without_cancel) s -> joins s w <= 1.
Proof. exact joined_once. Qed.
Print Assumptions C45_joined_at_most_once.

(* when the destructor has returned no worker is inside run() or will write the flags *)
Theorem C45_destructor_waits_for_run :
  forall s w, reach init (step without_cancel) s -> cp s = Destroyed -> busy (wpcs s w) = false.
Proof. exact destroyed_done. Qed.
Print Assumptions C45_destructor_waits_for_run.

(* no deadlock: while a call is in progress the client or a worker can act *)
Theorem C45_no_deadlock :
  forall s, reach init (step without_cancel) s -> in_call (cp s) = true ->
  (exists w s', wstep w s = Some s') \/ (exists b s', cstep b s = Some s').
Proof. exact thread_progress. Qed.
Print Assumptions C45_no_deadlock.

(* "wait() without a time-out returns true" is FALSE: it can return false because the worker releases the mutex
   before it sets m_finished *)
Theorem C45_wait_succeeds_refuted :
  exists s, reach init (step without_cancel) s /\ cp s = RWait false /\ cur s = 1 /\ wpcs s 1 = W245.
Proof. exact wait_spurious. Qed.
Print Assumptions C45_wait_succeeds_refuted.

(* "the destructor waits until the worker does not use the object any more" is FALSE: the last log line of the
   worker can come after the destruction *)
Theorem C45_destructor_use_after_free_refuted :
  exists s, reach init (step without_cancel) s /\ cp s = Destroyed /\ wpcs s 1 = W247.
Proof. exact dtor_race. Qed.
Print Assumptions C45_destructor_use_after_free_refuted.

(* "every worker is joined" is FALSE: a worker that ended before join() is never given to pthread_join *)
Theorem C45_all_joined_refuted :
  exists s, reach init (step without_cancel) s /\ cp s = Destroyed /\ wpcs s 1 = WEnd /\ joins s 1 = 0.
Proof. exact dtor_unjoined. Qed.
Print Assumptions C45_all_joined_refuted.

(* with cancel(), wait() can return true while run() is still executing *)
Theorem C45_wait_after_cancel_refuted :
  exists s, reach init (step with_cancel) s /\ cp s = RWait true /\ wpcs s 1 = WRun.
Proof. exact cancel_wait. Qed.
Print Assumptions C45_wait_after_cancel_refuted.

(* and after a cancelled run the thread can never be started again: whatever is done, no later start() returns
   true and run() is never entered again (the cancelled worker keeps m_thread_mutex) *)
Theorem C45_restart_after_cancel_refuted :
  exists s, reach init (step with_cancel) s /\ cp s = RCancel /\ wpcs s 1 = WCancelled /\
  forall c s', steps (step c) s s' -> cp s' <> RStart true /\ forall w, wpcs s' w <> WRun.
Proof. exact cancel_kills. Qed.
Print Assumptions C45_restart_after_cancel_refuted.

Example C45_nonvacuous_running :
  exists s, reach init (step without_cancel) s /\ cp s = RStart true /\ wpcs s 1 = WRun /\ m_execute s = true.
Proof. exact example_running. Qed.
Example C45_nonvacuous_stop :
  exists s, reach init (step without_cancel) s /\ cp s = RStop /\ wpcs s 1 = WRun /\ m_execute s = false.
Proof. exact example_stop. Qed.
Example C45_nonvacuous_wait :
  exists s, reach init (step without_cancel) s /\ cp s = RWait true /\ cur s = 2 /\ joins s 1 = 1.
Proof. exact example_wait. Qed.
Example C45_nonvacuous_start_false :
  exists s, reach init (step without_cancel) s /\ cp s = RStart false /\ cur s = 1.
Proof. exact example_start_false. Qed.
