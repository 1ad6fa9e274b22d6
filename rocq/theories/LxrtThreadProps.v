(* C75: Thread on LXRT *)
From Coq Require Import ZArith.
From Verif Require Import Conc ThreadModel ThreadSpec ThreadProofs LxrtThreadModel LxrtThreadSpec LxrtThreadProofs.

(* C75: if semaphores and RTAI tasks can be made, a thread does nothing on LXRT that it does not do on Posix (so C45 holds of it) *)
Theorem C75_as_on_posix c s : reach linit (lstep (only_create_fails c)) s -> reach init (step without_cancel) (base s).
Proof. intros R. exact (j_base _ (reach_jinv c s R)). Qed.
Print Assumptions C75_as_on_posix.
(* C75: and no call is ever stuck, at the start barrier or elsewhere *)
Theorem C75_no_deadlock c s : reach linit (lstep (only_create_fails c)) s -> in_call (cp (base s)) = true -> can_go_on (only_create_fails c) s.
Proof. exact (lxrt_progress c s). Qed.
Print Assumptions C75_no_deadlock.
(* C75: nobody passes the barrier of a start() before the other one has come: run() is not entered before *)
Theorem C75_barrier c s n : reach linit (lstep (only_create_fails c)) s -> ip s = I166w n \/ ip s = I166 -> arr s n < 2 ->
  wpcs (base s) (cur (base s)) = WBegin \/ sync s <> Some n.
Proof.
  intros R Hi L. pose proof (reach_jinv c s R) as [Jb Jt Ji Js Jf Jp Jo]. unfold j_ip_ok in Ji.
  assert (T : tid s = cur (base s) -> early (pre s (tid s)) = true \/ pre s (tid s) = P220w n -> wpcs (base s) (cur (base s)) = WBegin).
  { intros T E. specialize (Jp (tid s)). unfold j_pre_ok in Jp. rewrite <- T. destruct (pre s (tid s)); destruct E as [E|E]; try discriminate E; apply Jp. }
  assert (Tc : tid s <> 0 -> tid s = cur (base s)) by (destruct Jt as [Q|[Q _]]; congruence).
  destruct Hi as [Hi|Hi]; rewrite Hi in Ji.
  - destruct Ji as (_ & N & _ & [Q|Q]); [lia|left; auto].
  - destruct Ji as (_ & N & m & Sn & Q). destruct (Nat.eq_dec m n) as [->|D]; [left; destruct Q; auto|right; congruence].
Qed.
Print Assumptions C75_barrier.
(* C75: delete waits for the last thread: none is left running, even its last lines *)
Theorem C75_destructor_joins s : reach linit (lstep nothing_fails) s -> cp (base s) = Destroyed -> cur (base s) <> 0 ->
  ended (wpcs (base s) (cur (base s))) = true.
Proof. intros R E N. destruct (reach_dinv s R) as [D1 D2]. destruct (D1 (D2 (or_intror E))) as [Q|Q]; [contradiction|exact Q]. Qed.
Print Assumptions C75_destructor_joins.
(* C75: where a name is given once only, a thread can be started once only *)
Theorem C75_one_start t c s : reach linit (lstep (unique_names t c)) s -> cur (base s) <= 1 /\ forall w, wpcs (base s) w <> WNone -> w = 1.
Proof. exact (one_start t c s). Qed.
Print Assumptions C75_one_start.
(* C75: the semaphore kept by the thread is live, and so is the one a worker waits at *)
Theorem C75_semaphores e s n : reach linit (lstep e) s -> sync s = Some n -> live s n = true.
Proof. intros R E. exact (proj1 (s_sync _ (reach_sinv e s R) n E)). Qed.
Print Assumptions C75_semaphores.
Theorem C75_waiting_semaphore c s w n : reach linit (lstep (only_create_fails c)) s -> pre s w = P220w n \/ ip s = I166w n -> live s n = true.
Proof.
  intros R E. pose proof (reach_jinv c s R) as [_ _ Ji _ _ Jp _]. apply (C75_semaphores (only_create_fails c) s n R). destruct E as [E|E].
  - specialize (Jp w). unfold j_pre_ok in Jp. rewrite E in Jp. apply Jp.
  - unfold j_ip_ok in Ji. rewrite E in Ji. apply Ji.
Qed.
Print Assumptions C75_waiting_semaphore.
(* C75: a periodic thread waits in the mode its priority asks for, whatever happened before, whenever RTAI does as it is told in that wait;
   if it does not, the thread waits in the mode it has, which its own calls of setHardRealtime may have changed *)
Theorem C75_mode priority l hrt : length (wait_modes priority l hrt) = length (waits_of l) /\
  (forall i, nth_error (waits_of l) i = Some true -> nth_error (wait_modes priority l hrt) i = Some (priority <? 0)%Z) /\
  ((forall o, In (EWait o) l -> o = true) -> forall m, In m (wait_modes priority l hrt) -> m = (priority <? 0)%Z) /\
  (forall h, wait_modes priority [ESet h true; EWait false] hrt = [h]).
Proof.
  assert (A : length (wait_modes priority l hrt) = length (waits_of l) /\
    forall i, nth_error (waits_of l) i = Some true -> nth_error (wait_modes priority l hrt) i = Some (priority <? 0)%Z).
  { revert hrt. induction l as [|a l IH]; intros hrt; [split; [reflexivity|]; intros [|i] H; discriminate H|].
    destruct a as [o|h o|]; cbn [waits_of flat_map app wait_modes length].
    - destruct (IH (snd (waitPeriod priority o hrt))) as (L & N). split; [cbn [length]; f_equal; exact L|].
      intros [|i] H; cbn [nth_error] in *; [|exact (N i H)]. injection H as ->. unfold waitPeriod, setHardRealtime. destruct (priority <? 0)%Z, hrt; reflexivity.
    - apply IH.
    - apply IH. }
  split; [apply A|]. split; [apply A|]. split.
  - intros O m Hm. apply In_nth_error in Hm. destruct Hm as (i & Hi). destruct (nth_error (waits_of l) i) as [o|] eqn:E.
    + assert (o = true). { apply O. apply nth_error_In in E. unfold waits_of in E. apply in_flat_map in E. destruct E as (e & I0 & Q).
        destruct e; cbn in Q; [destruct Q as [<-|[]]; exact I0|destruct Q|destruct Q]. }
      subst o. apply A in E. congruence.
    + apply nth_error_None in E. destruct A as (L & _). rewrite <- L in E. apply nth_error_None in E. congruence.
  - intros h. cbn. unfold waitPeriod, setHardRealtime. destruct (priority <? 0)%Z, h, hrt; reflexivity.
Qed.
Print Assumptions C75_mode.
(* C75: and says so: nothing if the mode was right, Info if it is right now, Error if it is still wrong *)
Theorem C75_mode_said priority obeys hrt : let asked := (priority <? 0)%Z in let (w, m) := waitPeriod priority obeys hrt in
  (w = Nothing <-> hrt = asked) /\ (w = Info <-> hrt <> asked /\ m = asked) /\ (w = Error <-> hrt <> asked /\ m <> asked).
Proof. unfold waitPeriod, setHardRealtime. destruct (priority <? 0)%Z, obeys, hrt; cbn; intuition congruence. Qed.
Print Assumptions C75_mode_said.
(* C75: setHardRealtime() says true exactly if it changed the mode to the one asked for *)
Theorem C75_set_hard_realtime h obeys hrt : let (r, m) := setHardRealtime h obeys hrt in (r = true <-> hrt <> h /\ m = h) /\ (m <> hrt -> m = h).
Proof. unfold setHardRealtime. destruct h, obeys, hrt; cbn; intuition congruence. Qed.
Print Assumptions C75_set_hard_realtime.
(* C75: a second start(), after the first run() has ended and join() has returned, waits for ever *)
Theorem C75_restart_refuted : ~ (forall s, reach linit (lstep (unique_names false false)) s -> in_call (cp (base s)) = true -> can_go_on (unique_names false false) s).
Proof. intros H. destruct restart_stuck as (s & R & I & N). exact (N (H s R I)). Qed.
Print Assumptions C75_restart_refuted.
(* C75: so does a start() whose RTAI task cannot be made *)
Theorem C75_task_failure_refuted : ~ (forall s, reach linit (lstep tasks_fail) s -> in_call (cp (base s)) = true -> can_go_on tasks_fail s).
Proof. intros H. destruct no_task_stuck as (s & R & I & N). exact (N (H s R I)). Qed.
Print Assumptions C75_task_failure_refuted.
(* C75: where names are not unique, a second start() loses the semaphore of the first *)
Theorem C75_semaphore_leak_refuted : ~ (forall s, reach linit (lstep nothing_fails) s -> cp (base s) = Destroyed -> forall n, live s n = false).
Proof. intros H. destruct twice_leaks as (s & R & E & L). rewrite (H s R E 0) in L. discriminate L. Qed.
Print Assumptions C75_semaphore_leak_refuted.

Example C75_running_ex : exists s, reach linit (lstep (unique_names false false)) s /\ cp (base s) = RStart true /\ wpcs (base s) 1 = WRun.
Proof. exact once_running. Qed.
Example C75_barrier_ex : exists s, reach linit (lstep nothing_fails) s /\ in_call (cp (base s)) = true /\ ip s = I166 /\ pre s 1 = P182.
Proof. exact at_barrier. Qed.
Example C75_delete_ex : exists s, reach linit (lstep nothing_fails) s /\ cp (base s) = Destroyed /\ made s = 1 /\ live s 0 = false /\ cur (base s) = 1.
Proof. exact once_clean. Qed.
(* after a join() that waited, the second start() says false *)
Example C75_again_ex : exists s, reach linit (lstep (unique_names false false)) s /\ cp (base s) = RStart false /\ wpcs (base s) 1 = WEnd /\ ip s = Out.
Proof. exact again_false. Qed.
Example C75_mode_ex : wait_modes (-1) [EWait true; EDropped; EWait true; ESet false true; EWait true] false = [true; true; true].
Proof. reflexivity. Qed.
