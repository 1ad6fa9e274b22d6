(* Vocabulary of C41: the executions in which every thread gets its turn. *)
From Verif Require Export Fair.
From Verif Require Import RWLockModel RWLockSpec.

(* calls without time-outs, not nested; no thread within a call is passed over for ever when it could go on again and again *)
Definition fair (r : nat -> st) : Prop := execution init (any plain_use) r /\ forall t, strongly_fair (tstep t) r.
(* every thread that has the lock, for reading or writing, gives it up some time *)
Definition locks_are_released (r : nat -> st) : Prop := forall n t, holds_any (r n) t = true -> eventually n (fun m => holds_any (r m) t = false).
(* within writeLock(), not yet admitted: waiting for the writer mutex or for the event *)
Definition waits_to_write (p : pc) : bool := match p with W105 _ | W106 _ => true | _ => false end.
(* within a call *)
Definition in_call (s : st) (t : tid) : bool := negb (resting (pcs s t)).
