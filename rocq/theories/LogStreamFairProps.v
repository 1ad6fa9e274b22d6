(* C49 Log statements of several threads on one stream: what happens in every fair execution.  Vocabulary: Fair, LogStreamSpec, LogStreamFairSpec. *)
From Verif Require Import Conc Text LogTextModel LogStreamModel LogStreamSpec LogStreamProofs FairLemmas LogStreamFairSpec LogStreamFairProofs.

(* C49: every log statement ends, in every execution in which no thread that can go on again and again is passed over for ever; the
   thread has finished exactly this statement since *)
Theorem C49_fair_statement_ends SIZE POOL outs r n t m : 2 <= SIZE -> NoDup outs -> fair SIZE POOL outs r -> doing (pcs (r n) t) = Some m ->
  eventually n (fun k => pcs (r k) t = Idle /\ hist (r k) t = hist (r n) t ++ [m]).
Proof. intros HS ND Fr. apply (ends SIZE POOL outs HS ND r Fr). Qed.
Print Assumptions C49_fair_statement_ends.
(* C49: and then each connected output has been handed exactly the statements the thread has finished with endl, this one included, in
   order, with the right level, file, line, class, object and function, and with the right text unless raced *)
Theorem C49_fair_delivered SIZE POOL outs r n t m : 2 <= SIZE -> NoDup outs -> fair SIZE POOL outs r -> doing (pcs (r n) t) = Some m ->
  eventually n (fun k => pcs (r k) t = Idle /\ forall o, In o outs -> Forall2 (right SIZE) (ended [] (hist (r n) t ++ [m])) (handed (r k) o t)).
Proof.
  intros HS ND Fr D. apply (eventually_imp _ _ n (ends SIZE POOL outs HS ND r Fr n t m D)). intros k _ (E & Eh). split; [exact E|]. intros o Ho.
  pose proof (i_deliv _ _ _ (inv_reach SIZE POOL outs HS ND (r k) (execution_reach _ _ _ (proj1 Fr) k)) t o Ho) as Dl.
  rewrite E, Eh in Dl. cbn in Dl. rewrite app_nil_r in Dl. exact Dl.
Qed.
Print Assumptions C49_fair_delivered.
(* C49: the mutex of the stream is given back again and again *)
Theorem C49_fair_mutex_frees SIZE POOL outs r n : 2 <= SIZE -> NoDup outs -> fair SIZE POOL outs r -> eventually n (fun k => mutex (r k) = None).
Proof. intros HS ND Fr. apply (mutex_frees SIZE POOL outs HS ND r Fr). Qed.
Print Assumptions C49_fair_mutex_frees.
(* C49, refuted: it is not enough that every thread gets its turn if it could go on without interruption: while one thread logs all the
   time, another one can wait for the mutex for ever, if the semaphore is not handed to those who wait *)
Theorem C49_weakly_fair_refuted : ~ (forall SIZE POOL outs r n t m, 2 <= SIZE -> NoDup outs -> weakly_fair_run SIZE POOL outs r -> doing (pcs (r n) t) = Some m ->
  eventually n (fun k => pcs (r k) t = Idle)).
Proof.
  intros H. pose proof (busy_waits 16 (le_n 16)) as W.
  destruct (H 64 1 [0] busy_run 16 2 (said 2 []) ltac:(lia) ltac:(constructor; [intros []|constructor]) busy_weak) as (k & L & E); [rewrite W; reflexivity|].
  rewrite (busy_waits k L) in E. discriminate E.
Qed.
Print Assumptions C49_weakly_fair_refuted.

(* the hypotheses can be met: two threads that log for ever, one while the other is in its statement *)
Example C49_fair_ex : fair 64 2 [0] shared_run /\ doing (pcs (shared_run 6) 2) = Some (said 2 [$"b"]) /\ doing (pcs (shared_run 6) 1) = Some (said 1 [$"a"]) /\
  map (fun d => (d_tid d, d_text d)) (log (shared_run 36)) = [(2, $"b" ++ newline); (1, $"a" ++ newline)].
Proof.
  split; [exact shared_fair|]. unfold shared_run. rewrite !therun_first by lia.
  split; [vm_cast_no_check (eq_refl (Some (said 2 [$"b"])))|]. split; [vm_cast_no_check (eq_refl (Some (said 1 [$"a"])))|].
  vm_cast_no_check (eq_refl [(2, $"b" ++ newline); (1, $"a" ++ newline)]).
Qed.
