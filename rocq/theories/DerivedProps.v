(* C74: the data of a class derived from Thread live as long as its run() *)
From Verif Require Import Conc ThreadModel ThreadSpec ThreadProofs DerivedModel DerivedSpec DerivedProofs.

(* C74: a destructor that calls stop() and join() (PeriodicDispatchThread) is safe whenever it is called *)
Theorem C74_stopping_destructor_safe careful s : reach dinit (dstep stopping_destructor careful) s -> ~ uses_destroyed_data s /\ ~ will_call_pure_virtual s.
Proof.
  intros R. pose proof (gone_inv _ _ s (or_introl eq_refl) R) as G.
  split; intros (Gs & w & E); destruct (G Gs) as (_ & I0); specialize (I0 w); rewrite E in I0; discriminate I0.
Qed.
Print Assumptions C74_stopping_destructor_safe.
(* C74: one that does not (PeriodicThread) is safe if the client deletes the object only before start() or after a join() or wait() *)
Theorem C74_careful_client_safe stops s : reach dinit (dstep stops careful_client) s -> ~ uses_destroyed_data s /\ ~ will_call_pure_virtual s.
Proof.
  intros R. pose proof (gone_inv _ _ s (or_intror eq_refl) R) as G.
  split; intros (Gs & w & E); destruct (G Gs) as (_ & I0); specialize (I0 w); rewrite E in I0; discriminate I0.
Qed.
Print Assumptions C74_careful_client_safe.
(* C74: when a destructor that stops and joins waits for the thread, execute() is false for it, and stays so *)
Theorem C74_destructor_stops careful s : reach dinit (dstep stopping_destructor careful) s -> ph s = Joining \/ ph s = Gone -> m_execute (base s) = false.
Proof. intros R P. destruct (asked_to_stop careful s R P) as (_ & s0 & R0 & E0 & S0). exact (stop_not_lost s0 (base s) R0 E0 S0). Qed.
Print Assumptions C74_destructor_stops.
(* C74: and only then *)
Theorem C74_plain_destructor_refuted : ~ (forall s, reach dinit (dstep plain_destructor any_client) s -> ~ uses_destroyed_data s).
Proof. intros H. destruct plain_in_run as (s & R & U). exact (H s R U). Qed.
Print Assumptions C74_plain_destructor_refuted.
(* C74: stop() before the delete does not help: it asks, and does not wait *)
Theorem C74_stop_is_not_enough_refuted : ~ (forall s, reach dinit (dstep plain_destructor any_client) s -> m_execute (base s) = false -> ~ uses_destroyed_data s).
Proof. intros H. destruct plain_after_stop as (s & R & U & E). exact (H s R E U). Qed.
Print Assumptions C74_stop_is_not_enough_refuted.
(* C74: deleted right after start(), run() is called on an object that has none *)
Theorem C74_pure_virtual_refuted : ~ (forall s, reach dinit (dstep plain_destructor any_client) s -> ~ will_call_pure_virtual s).
Proof. intros H. destruct plain_pure as (s & R & U). exact (H s R U). Qed.
Print Assumptions C74_pure_virtual_refuted.
(* C74: no delete is ever stuck: until it returns, it or the thread can go on *)
Theorem C74_no_deadlock stops careful s : reach dinit (dstep stops careful) s -> in_delete s -> exists s', dstep stops careful s s'.
Proof. exact (derived_progress stops careful s). Qed.
Print Assumptions C74_no_deadlock.

(* deleted while the thread is in run(); the delete returns after the thread has ended and has been joined *)
Example C74_stopping_ex : exists s, reach dinit (dstep stopping_destructor any_client) s /\ ph s = Gone /\ cp (base s) = Destroyed /\ joins (base s) 1 = 1 /\ wpcs (base s) 1 = WEnd.
Proof. exact stopping_runs. Qed.
Example C74_careful_ex : exists s, reach dinit (dstep plain_destructor careful_client) s /\ ph s = Gone /\ cp (base s) = Destroyed /\ wpcs (base s) 1 = WEnd.
Proof. exact careful_runs. Qed.
(* in the middle of a delete *)
Example C74_in_delete_ex : exists s, reach dinit (dstep stopping_destructor any_client) s /\ in_delete s /\ wpcs (base s) 1 = WRun.
Proof. exact stopping_midway. Qed.
