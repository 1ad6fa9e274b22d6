(* C44 *)
From Verif Require Import Conc SpinLockModel SpinLockSpec SpinLockProofs.

(* C44: with lock()/unlock() (and ScopedSpinLock) only, in every interleaving of any number of threads, no two
   different threads have the lock *)
Theorem C44_mutual_exclusion :
  forall s t u, reach init (any without_tryLock) s -> has s t = true -> has s u = true -> t = u.
Proof. exact mutual_exclusion. Qed.
Print Assumptions C44_mutual_exclusion.

(* when nobody has it, a waiting lock() gets it at its next turn *)
Theorem C44_lock_succeeds_when_free :
  forall s t, reach init (any without_tryLock) s -> pcs s t = L48 -> nobody_has s ->
  (forall u, pcs s u <> U68) -> exists s', tstep t s = Some s' /\ has s' t = true /\ pcs s' t = Ret true.
Proof. exact lock_succeeds. Qed.
Print Assumptions C44_lock_succeeds_when_free.

(* unlock() frees the lock, returns true and does not wait *)
Theorem C44_unlock :
  forall s t, pcs s t = U68 -> exists s', tstep t s = Some s' /\ pcs s' t = Ret true /\ locked s' = false /\ has s' = has s.
Proof. exact unlock_result. Qed.
Print Assumptions C44_unlock.

(* tryLock() returns true exactly if the lock was NOT free, in every state, and leaves it locked *)
Theorem C44_tryLock_result_is_inverted :
  forall s t s', pcs s t = T62 -> tstep t s = Some s' -> pcs s' t = Ret (locked s) /\ locked s' = true.
Proof. exact tryLock_inverted. Qed.
Print Assumptions C44_tryLock_result_is_inverted.

(* so mutual exclusion fails as soon as tryLock() is used: two threads were told that they have the lock *)
Theorem C44_tryLock_exclusion_refuted :
  exists s, reach init (any with_tryLock) s /\ has s 0 = true /\ has s 1 = true.
Proof. exact try_two_owners. Qed.
Print Assumptions C44_tryLock_exclusion_refuted.

(* and a tryLock() on a free lock fails and leaves it locked with no owner: no lock() of any thread ever
   succeeds afterwards *)
Theorem C44_failed_tryLock_refuted :
  exists s, reach init (any with_tryLock) s /\ all_resting s /\ nobody_has s /\ pcs s 0 = Ret false /\
  forall s' t, steps (any without_tryLock) s s' -> has s' t = false.
Proof. exact try_leaks. Qed.
Print Assumptions C44_failed_tryLock_refuted.

Example C44_nonvacuous_contention : exists s, reach init (any without_tryLock) s /\ has s 1 = true /\ pcs s 0 = L48.
Proof. exact example. Qed.
Example C44_nonvacuous_free :
  exists s, reach init (any without_tryLock) s /\ nobody_has s /\ pcs s 0 = L48 /\ forall u, pcs s u <> U68.
Proof. exact example_free. Qed.
