(* C41 *)
From Verif Require Import Conc RWLockModel RWLockSpec RWLockProofs.

(* C41: whatever calls any number of threads make, in every interleaving, with any time-outs and even with
   unlock() calls by threads that hold nothing: no two different threads have the write lock *)
Theorem C41_writers_exclusive :
  forall u s t v, reach init (any u) s -> hw s t = true -> hw s v = true -> t = v.
Proof. exact writers_exclusive. Qed.
Print Assumptions C41_writers_exclusive.

(* and while a thread has the write lock nobody (not even that thread) has a read lock *)
Theorem C41_writer_excludes_readers :
  forall u s t v, reach init (any u) s -> hw s t = true -> hr s v = 0.
Proof. exact writer_excludes_readers. Qed.
Print Assumptions C41_writer_excludes_readers.

(* with calls that do not time out and are not nested there is no deadlock: while a call is in progress some
   thread can act, or somebody has the lock and is not inside a call (and is expected to unlock) *)
Theorem C41_no_deadlock :
  forall s t, reach init (any plain_use) s -> resting (pcs s t) = false ->
  (exists v, tstep v s <> None) \/ (exists v, resting (pcs s v) = true /\ holds_any s v = true).
Proof. exact no_deadlock. Qed.
Print Assumptions C41_no_deadlock.

(* "a failed attempt leaves the lock as it was" is FALSE: after tryWriteLock() of thread 0 failed because of a
   reader, and the reader has gone, nobody has the lock and no call is in progress, yet no other thread ever
   gets the write lock again, whatever the others do *)
Theorem C41_failed_tryWriteLock_refuted :
  exists s, reach init (any unrestricted) s /\ all_resting s /\
  (forall t, holds_any s t = false) /\ pcs s 0 = Ret false /\
  forall s' t, steps (not_by unrestricted 0) s s' -> t <> 0 -> hw s' t = false.
Proof. exact failed_try_blocks. Qed.
Print Assumptions C41_failed_tryWriteLock_refuted.

(* a later writeLock() of that thread that succeeds, and its unlock(), do not repair this *)
Theorem C41_failed_tryWriteLock_stays_refuted :
  exists s1 s2 s, reach init (any unrestricted) s1 /\ pcs s1 0 = Ret false /\
  steps (any unrestricted) s1 s2 /\ pcs s2 0 = Ret true /\ hw s2 0 = true /\
  steps (any unrestricted) s2 s /\ pcs s 0 = Ret true /\ all_resting s /\ (forall t, holds_any s t = false) /\
  forall s' t, steps (not_by unrestricted 0) s s' -> t <> 0 -> hw s' t = false.
Proof. exact failed_try_blocks_again. Qed.
Print Assumptions C41_failed_tryWriteLock_stays_refuted.

(* unlock() always reports success, also when the caller has nothing to give up or a wait inside it times out *)
Theorem C41_unlock_returns_true :
  forall u s s' t, any u s s' -> unlocking (pcs s t) = true -> unlocking (pcs s' t) = true \/ pcs s' t = Ret true.
Proof. exact unlock_step. Qed.
Print Assumptions C41_unlock_returns_true.

(* the write lock is NOT recursive although m_writer_mutex and m_number_of_writer are there for that: a second
   writeLock() by the thread that has the write lock never returns *)
Theorem C41_recursive_writeLock_refuted :
  exists s, reach init (any unrestricted) s /\ hw s 0 = true /\ resting (pcs s 0) = true /\
  forall s', steps (any unrestricted) (goto s 0 (W105 false)) s' -> resting (pcs s' 0) = false.
Proof. exact recursive_write_blocks. Qed.
Print Assumptions C41_recursive_writeLock_refuted.

(* tryReadLock() and readLock(timeout) are NOT bounded in time: thread 0 can be inside such a call, and stay
   there, as long as the writer (thread 2) does not act *)
Theorem C41_tryReadLock_does_not_wait_refuted :
  exists s, reach init (any unrestricted) s /\ hw s 2 = true /\ pcs s 0 = R65 true /\
  forall s', steps (not_by unrestricted 2) s s' -> pcs s' 0 = R65 true.
Proof. exact try_read_blocks. Qed.
Print Assumptions C41_tryReadLock_does_not_wait_refuted.

(* two readers share the lock *)
Example C41_nonvacuous_readers : exists s, reach init (any plain_use) s /\ hr s 0 = 1 /\ hr s 1 = 1 /\ all_resting s.
Proof. exact example_readers. Qed.
(* a writer has the lock and a reader waits *)
Example C41_nonvacuous_writer : exists s, reach init (any plain_use) s /\ hw s 1 = true /\ pcs s 0 = R69 false /\ resting (pcs s 0) = false.
Proof. exact example_writer. Qed.
