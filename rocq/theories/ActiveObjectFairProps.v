(* C40 ActiveObject: what happens in every fair execution.  Vocabulary: Fair, ActiveObjectSpec, ActiveObjectFairSpec. *)
From Verif Require Import Conc ActiveObjectModel ActiveObjectSpec ActiveObjectProofs FairLemmas ActiveObjectFairSpec ActiveObjectFairProofs.

(* C40: in every fair execution an operation that is in the queue is invoked, if stop() is not called *)
Theorem C40_fair_invoked r n o : fair r -> keeps_running r n -> waits o (r n) -> eventually n (fun m => In (EInvoke o) (trace (r m))).
Proof. exact (runs r n o). Qed.
Print Assumptions C40_fair_invoked.
(* C40: in every fair execution queue() and stop() return *)
Theorem C40_fair_calls_return r n t : fair r -> eventually n (fun m => cl (r m) t = CIdle).
Proof. intros F. apply calls_return. exact F. Qed.
Print Assumptions C40_fair_calls_return.
(* C40: in every fair execution, after stop() the worker ends, if start() is not called again; however many clients go on calling queue() *)
Theorem C40_fair_stop_ends_worker r n : fair r -> keeps_stopped r n -> eventually n (fun m => wk (r m) = WOff).
Proof. exact (ends r n). Qed.
Print Assumptions C40_fair_stop_ends_worker.
(* C40: and an operation that is in the queue before the worker has finished its clean-up is deleted *)
Theorem C40_fair_stop_deletes r n o : fair r -> keeps_stopped r n -> waits o (r n) -> wk (r n) <> WOff -> wk (r n) <> W243 ->
  eventually n (fun m => In (EDelete o) (trace (r m))).
Proof. exact (deletes r n o). Qed.
Print Assumptions C40_fair_stop_deletes.
(* C40, refuted: every operation in the queue is deleted after stop(); one that is pushed after the clean-up stays for ever *)
Definition late_push : list act := [AStart; AQueue 0; AC 0; AStop 1; AC 1; AC 1; AW; AW; AW] ++ repeat (AC 0) 4.
Theorem C40_fair_stop_always_deletes_refuted :
  ~ (forall r n o, fair r -> keeps_stopped r n -> waits o (r n) -> eventually n (fun m => In (EDelete o) (trace (r m)))).
Proof.
  intros H. destruct (settled late_push (fun s => execute s = false /\ trace s = [EStop; EPush 0])) as (F & L).
  - vm_compute. split; [split; [reflexivity|]|auto]. intros [|[|t]]; reflexivity.
  - destruct (H (follow late_push) (length late_push) 0 F) as (m & Lm & E).
    + intros k Lk. apply L, Lk.
    + unfold waits. rewrite (proj2 (L _ (le_n _))). reflexivity.
    + rewrite (proj2 (L m Lm)) in E. destruct E as [E|[E|[]]]; discriminate E.
Qed.
Print Assumptions C40_fair_stop_always_deletes_refuted.

(* the hypotheses can be met: two clients queue operations, the worker runs them and waits for more *)
Definition two_clients : list act := AStart :: queue_all 1 ++ [AQueue 2; AC 2; AW; AW; AC 2; AC 2; AC 2; AC 2] ++ repeat AW 21.
Example C40_fair_ex_running : fair (follow two_clients) /\ keeps_running (follow two_clients) 15 /\ waits 1 (follow two_clients 15) /\
  trace (follow two_clients 36) = [EPush 0; EPush 1; EInvoke 0; EDelete 0; EInvoke 1; EDelete 1].
Proof.
  destruct (settled two_clients (fun s => execute s = true)) as (F & L).
  - vm_compute. split; [split; [reflexivity|]|auto]. intros [|[|[|t]]]; reflexivity.
  - split; [exact F|]. split; [|split; reflexivity]. exact (from_on (follow two_clients) execute 15 21 eq_refl L).
Qed.
(* and one in which an operation waits when stop() is called *)
Definition stopped_early : list act := AStart :: queue_all 1 ++ [AStop 2; AC 2; AC 2] ++ repeat AW 6.
Example C40_fair_ex_stopped : fair (follow stopped_early) /\ keeps_stopped (follow stopped_early) 10 /\ waits 0 (follow stopped_early 10) /\ wk (follow stopped_early 10) = W39 /\
  trace (follow stopped_early 16) = [EPush 0; EStop; EDelete 0] /\ wk (follow stopped_early 16) = WOff.
Proof.
  destruct (settled stopped_early (fun s => negb (execute s) = true)) as (F & L).
  - vm_compute. split; [split; [reflexivity|]|auto]. intros [|[|[|t]]]; reflexivity.
  - split; [exact F|]. split; [|repeat (split; [reflexivity|]); reflexivity].
    intros k Lk. pose proof (from_on (follow stopped_early) (fun s => negb (execute s)) 10 6 eq_refl L k Lk) as X. cbv beta in X. destruct (execute (follow stopped_early k)); [discriminate X|reflexivity].
Qed.
