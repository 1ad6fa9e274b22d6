(* Vocabulary of C50: the executions in which every thread gets its turn. *)
From Verif Require Export Fair.
From Verif Require Import LogOutputModel.

(* no waits are interrupted; the worker and the threads within push() are not passed over for ever when what they wait for (the mutex,
   the semaphore) is available again and again; the thread within start() or shutdown() is not passed over for ever *)
Definition fair (r : nat -> st) : Prop :=
  execution init (step false) r /\ strongly_fair wstep r /\ (forall t, strongly_fair (pstep t) r) /\ weakly_fair cstep r.
(* the same with the weaker guarantee for those that wait for the mutex *)
Definition weakly_fair_run (r : nat -> st) : Prop :=
  execution init (step false) r /\ weakly_fair wstep r /\ (forall t, weakly_fair (pstep t) r) /\ weakly_fair cstep r.
