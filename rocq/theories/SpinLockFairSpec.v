(* Vocabulary of C44: the executions in which every thread gets its turn. *)
From Verif Require Export Fair.
From Verif Require Import SpinLockModel SpinLockSpec.

(* an action of thread t that gets it further: a turn of lock()'s loop counts only when the lock is free *)
Definition progress (t : tid) (s : st) : option st := match pcs s t with L48 => if locked s then None else tstep t s | _ => tstep t s end.
(* no thread that finds the lock free again and again is passed over for ever at those moments *)
Definition fair (r : nat -> st) : Prop := execution init (any without_tryLock) r /\ forall t, strongly_fair (progress t) r.
(* no thread is passed over for ever, but it may always get its turn while the lock is taken *)
Definition takes_turns (r : nat -> st) : Prop := execution init (any without_tryLock) r /\ forall t, strongly_fair (tstep t) r.
(* every thread that has the lock calls unlock() some time *)
Definition locks_are_released (r : nat -> st) : Prop := forall n t, has (r n) t = true -> eventually n (fun m => has (r m) t = false).
