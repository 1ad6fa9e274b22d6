(* C50 A log output stream with a worker thread: what happens in every fair execution.  Vocabulary: Fair, LogOutputFairSpec. *)
From Verif Require Import Conc LogOutputModel LogOutputSpec LogOutputFairSpec LogOutputFairProofs.

(* C50: once start() has returned true, in every fair execution every message in the queue, or taken from it, is output, in order, and
   before any later one; also when messages are pushed all the time and when shutdown() is called before they have been output *)
Theorem C50_fair_delivery r n : fair r -> ctl (r n) = CStarted true -> exists m l, n <= m /\ out (r m) = pushed (r n) ++ l.
Proof. intros H C. destruct (delivered_list r H n C) as (m & L & l & E). exists m, l. auto. Qed.
Print Assumptions C50_fair_delivery.
(* C50: in every fair execution push() returns, and its message has been put into the queue *)
Theorem C50_fair_push r n t m : fair r -> pu (r n) t = P156 m -> eventually n (fun k => pu (r k) t = PIdle /\ In m (pushed (r k))).
Proof. intros H. apply push_goes. exact H. Qed.
Print Assumptions C50_fair_push.
(* C50: so a message given to push() is output, if the worker is not stopped *)
Theorem C50_fair_push_output r n t m : fair r -> pu (r n) t = P156 m -> (forall k, n <= k -> ctl (r k) = CStarted true) ->
  eventually n (fun k => In m (out (r k))).
Proof.
  intros H P C. destruct (push_goes r H t m n P) as (k & L & _ & I). destruct (delivered_list r H k (C k L)) as (j & L' & l & E).
  exists j. split; [lia|]. rewrite E. apply in_or_app. auto.
Qed.
Print Assumptions C50_fair_push_output.
(* C50: in every fair execution start() and shutdown() return *)
Theorem C50_fair_calls_return r n : fair r -> eventually n (fun m => resting (ctl (r m)) = true).
Proof. intros H. apply calls_return. exact H. Qed.
Print Assumptions C50_fair_calls_return.
(* C50, refuted: if the threads that wait for the mutex are only promised that they are not passed over while it stays available, a
   thread that calls push() all the time can keep the worker from ever outputting a message *)
Theorem C50_weakly_fair_refuted : ~ (forall r n, weakly_fair_run r -> ctl (r n) = CStarted true -> exists m l, n <= m /\ out (r m) = pushed (r n) ++ l).
Proof.
  intros H. destruct starving_base as ((_ & _ & C & P & _) & _). destruct (H starving base starving_weak C) as (m & l & L & E).
  destruct (starving_late m L) as (_ & O & _). rewrite O in E. destruct (pushed (starving base)); [apply P; reflexivity|discriminate E].
Qed.
Print Assumptions C50_weakly_fair_refuted.

(* the hypotheses can be met: a fair execution in which start() is called, two threads push, and the worker outputs the messages *)
Definition exf : list label := LStart :: repeat LC 6 ++ repeat LW 3 ++ [LC; LCall 1 7; LCall 2 8; LP 1; LP 1; LP 1; LP 1; LP 2; LP 2; LP 2; LP 2] ++ repeat LW 15.
Example C50_fair_ex : fair (follow exf) /\ ctl (follow exf 11) = CStarted true /\ pu (follow exf 12) 1 = P156 7 /\ pushed (follow exf 21) = [7; 8] /\
  out (follow exf 21) = [] /\ out (follow exf 36) = [7; 8].
Proof.
  split; [|vm_compute; auto 10].
  destruct (LogOutputSpec.run exf init) as [s|] eqn:E; [|vm_compute in E; discriminate E].
  assert (X : wstep s = None /\ cstep s = None /\ (forall t, pstep t s = None)).
  { vm_compute in E. injection E as E. rewrite <- E. split; [reflexivity|]. split; [reflexivity|]. intros [|[|[|t]]]; reflexivity. }
  destruct X as (X1 & X2 & X3). exact (follow_fair exf s eq_refl E X1 X2 X3).
Qed.
