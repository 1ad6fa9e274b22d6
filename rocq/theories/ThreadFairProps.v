(* C45 Threads: what happens in every fair execution.  Vocabulary: Fair, ThreadSpec, ThreadFairSpec. *)
From Verif Require Import Conc ThreadModel ThreadSpec ThreadProofs ThreadFairSpec ThreadFairProofs.

(* C45: if every run() ends some time, every call of start(), wait(), stop(), join() and the destructor returns, in every execution in
   which no thread is passed over for ever *)
Theorem C45_fair_calls_return r n : fair true r -> in_call (cp (r n)) = true -> eventually n (fun m => in_call (cp (r m)) = false).
Proof. intros H C. apply (returns true r H). split; auto. Qed.
Print Assumptions C45_fair_calls_return.
(* C45: if run() only ends after execute() has become false, start(), stop() and the destructor still return *)
Theorem C45_fair_cooperative_run r n : fair false r -> in_call (cp (r n)) = true -> awaits_run (cp (r n)) = false ->
  eventually n (fun m => in_call (cp (r m)) = false).
Proof. intros H C A. apply (returns false r H). split; auto. Qed.
Print Assumptions C45_fair_cooperative_run.
(* C45, refuted: and so does wait() *)
Definition waiting_run : list act := started 1 ++ [AWait false] ++ cs 3.
Theorem C45_fair_cooperative_wait_refuted : ~ (forall r n, fair false r -> in_call (cp (r n)) = true -> eventually n (fun m => in_call (cp (r m)) = false)).
Proof.
  intros H. assert (F : fair false (follow waiting_run)).
  { destruct (arun false init waiting_run) as [s|] eqn:E; [|vm_compute in E; discriminate E].
    assert (X : bound false 1 s = None /\ cstep true s = None /\ cstep false s = None /\ (forall w, w <> 1 -> wpcs s w = WNone)).
    { vm_compute in E. injection E as E. rewrite <- E. repeat (split; [reflexivity|]). intros [|[|w]] Ne; try reflexivity. congruence. }
    destruct X as (X1 & X2 & X3 & X4). apply (follow_fair false waiting_run s E); [|intros []; assumption].
    intros w. destruct (Nat.eq_dec w 1) as [->|Ne]; [exact X1|]. unfold bound, wstep. rewrite (X4 w Ne). reflexivity. }
  assert (In : forall m, length waiting_run <= m -> in_call (cp (follow waiting_run m)) = true).
  { intros m L. unfold follow. rewrite firstn_all2 by exact L. vm_compute. reflexivity. }
  destruct (H _ (length waiting_run) F (In _ (le_n _))) as (m & L & E). rewrite In in E by exact L. discriminate E.
Qed.
Print Assumptions C45_fair_cooperative_wait_refuted.

(* the hypotheses can be met: start(), then the destructor while run() is under way; run() ends because execute() is false *)
Definition ex_dtor : list act := started 1 ++ [ADtor] ++ cs 4 ++ ws 1 5 ++ cs 3.
Example C45_fair_ex : fair false (follow ex_dtor) /\ in_call (cp (follow ex_dtor 15)) = true /\ awaits_run (cp (follow ex_dtor 15)) = false /\
  wpcs (follow ex_dtor 15) 1 = WRun /\ m_execute (follow ex_dtor 15) = true /\ cp (follow ex_dtor 27) = Destroyed.
Proof.
  split; [|vm_compute; auto 10].
  destruct (arun false init ex_dtor) as [s|] eqn:E; [|vm_compute in E; discriminate E].
  assert (X : cstep true s = None /\ cstep false s = None /\ (forall w, wstep w s = None)).
  { vm_compute in E. injection E as E. rewrite <- E. repeat (split; [reflexivity|]). intros [|[|w]]; reflexivity. }
  destruct X as (X1 & X2 & X3). apply (follow_fair false ex_dtor s E); [|intros []; assumption].
  intros w. unfold bound. rewrite X3. destruct (wpcs s w); try reflexivity. destruct (false || negb (m_execute s)); reflexivity.
Qed.
