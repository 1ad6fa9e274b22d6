(* C44 SpinLock: what happens in every fair execution.  Vocabulary: Fair, SpinLockSpec, SpinLockFairSpec. *)
From Verif Require Import Conc SpinLockModel SpinLockSpec SpinLockProofs FairLemmas SpinLockFairSpec SpinLockFairProofs.

(* C44: without tryLock(), if every thread that has the lock gives it up some time, every lock() returns with the lock, in every
   execution in which no thread that finds the lock free again and again is passed over for ever *)
Theorem C44_fair_lock_returns r n t : fair r -> locks_are_released r -> pcs (r n) t = L48 ->
  eventually n (fun m => has (r m) t = true /\ pcs (r m) t = Ret true).
Proof. intros F L. apply lock_gets; assumption. Qed.
Print Assumptions C44_fair_lock_returns.
(* C44: unlock() returns, whatever the other threads do, and then the lock is free *)
Theorem C44_fair_unlock_returns r n t : fair r -> pcs (r n) t = U68 -> eventually n (fun m => locked (r m) = false /\ pcs (r m) t = Ret true).
Proof. intros F. apply unlock_goes. exact F. Qed.
Print Assumptions C44_fair_unlock_returns.
(* C44, refuted: it is enough that every thread gets its turn again and again.  The SpinLock keeps no order: a thread that locks again at
   once can have the lock at every turn of one that waits *)
Theorem C44_spin_starvation_refuted : ~ (forall r n t, takes_turns r -> locks_are_released r -> pcs (r n) t = L48 -> eventually n (fun m => pcs (r m) t = Ret true)).
Proof.
  intros H. destruct (H greedy_run 3 2 greedy_turns greedy_released (greedy_waits 3 (le_n 3))) as (m & L & E).
  rewrite (greedy_waits m L) in E. discriminate E.
Qed.
Print Assumptions C44_spin_starvation_refuted.

(* the hypotheses can be met: two threads that give the lock to each other; thread 2 waits for a lock that thread 1 has *)
Example C44_fair_ex : fair polite_run /\ locks_are_released polite_run /\ pcs (polite_run 3) 2 = L48 /\ has (polite_run 3) 1 = true /\ has (polite_run 7) 2 = true.
Proof. split; [exact polite_fair|]. split; [exact polite_released|]. repeat (split; [reflexivity|]). reflexivity. Qed.
