(* Vocabulary of C74: the executions in which every thread gets its turn. *)
From Verif Require Export Fair.
From Verif Require Import ThreadModel ThreadFairSpec DerivedModel DerivedSpec.

(* the destructor goes on to its next part: stop() done, join() done *)
Definition next_part (stops careful : bool) (s s' : dst) : Prop :=
  dstep stops careful s s' /\ (ph s = Stopping /\ ph s' = Joining \/ ph s = Joining /\ ph s' = Gone).
(* neither the workers nor the client are passed over for ever; with [ends] run() returns some time, without, it returns only after it
   has seen that execute() is false *)
Definition fair_delete (stops careful ends : bool) (r : nat -> dst) : Prop :=
  execution dinit (dstep stops careful) r /\ (forall w, weakly_fair (bound ends w) (fun n => base (r n))) /\
  weakly_fair_rel client (fun n => base (r n)) /\ weakly_fair_rel (next_part stops careful) r.
