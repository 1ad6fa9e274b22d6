(* C41 RWLock (Win32): what happens in every fair execution.  Vocabulary: Fair, RWLockSpec, RWLockFairSpec. *)
From Verif Require Import Conc RWLockModel RWLockSpec RWLockProofs FairLemmas RWLockFairSpec RWLockFairProofs.

(* C41: with un-timed, un-nested calls, if every lock that is held is given up some time, every call of readLock() and unlock(), and
   every writeLock() that has been admitted, returns, in every execution in which no thread is passed over for ever *)
Theorem C41_fair_calls_return r n t : fair r -> locks_are_released r -> in_call (r n) t = true -> waits_to_write (pcs (r n) t) = false ->
  eventually n (fun m => in_call (r m) t = false).
Proof.
  intros F L I W. assert (C : calling (pcs (r n) t) = true) by (unfold in_call in I; destruct (pcs (r n) t); try discriminate I; try discriminate W; reflexivity).
  destruct (call_returns r F L n t C) as (m & Lm & R). exists m. split; [exact Lm|]. unfold in_call. rewrite R. reflexivity.
Qed.
Print Assumptions C41_fair_calls_return.
(* C41: and whoever holds or takes the lock, the reader access lock that every reader and every reader's unlock() passes through is free
   again and again *)
Theorem C41_fair_reader_lock_frees r n : fair r -> locks_are_released r -> eventually n (fun m => ral (r m) = None).
Proof. intros F L. apply ral_frees; assumption. Qed.
Print Assumptions C41_fair_reader_lock_frees.
(* C41, refuted: and every writeLock() returns.  Two readers that hand the lock to each other keep a writer out for ever, although each
   of them gives it up every time and no thread is ever passed over *)
Theorem C41_writer_starvation_refuted :
  ~ (forall r n t, fair r -> locks_are_released r -> in_call (r n) t = true -> eventually n (fun m => in_call (r m) t = false)).
Proof.
  intros H. destruct (H hand 8 3 hand_fair hand_released) as (m & L & E).
  - unfold in_call. rewrite (proj1 (hand_waits 8 (le_n 8))). reflexivity.
  - unfold in_call in E. rewrite (proj1 (hand_waits m L)) in E. discriminate E.
Qed.
Print Assumptions C41_writer_starvation_refuted.

(* the hypotheses can be met: in that same fair execution thread 1 is within readLock() and waits for the reader access lock *)
Example C41_fair_ex : fair hand /\ locks_are_released hand /\ in_call (hand 1) 1 = true /\ waits_to_write (pcs (hand 1) 1) = false.
Proof. split; [exact hand_fair|]. split; [exact hand_released|]. split; reflexivity. Qed.
