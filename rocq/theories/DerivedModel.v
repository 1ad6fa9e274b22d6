(* Thread classes with data of their own: PeriodicThread (icl_core_thread/PeriodicThread.cpp:50-57, 106-109, whose destructor
   deletes m_impl and does not stop the thread), PeriodicDispatchThread (icl_core_dispatch/PeriodicDispatchThread.cpp:40-44, whose
   destructor calls stop() and join() first), on Thread (ThreadModel).
   The worker uses the data of the derived class from makePeriodic() (Thread.cpp:238) to the end of run() (241), which are
   WRun in ThreadModel; at its entrance, makePeriodic() and run() are looked up in the dynamic type of the object.  The derived part
   is destroyed before ~Thread (Thread.cpp:83-93) begins; from then on the dynamic type is Thread and run() is pure virtual.
   One derived class; further classes derived from it are like this one if their destructors are.  Other reads of the object by the
   worker (m_thread_info in 247): C45.  No cancel(). *)
From Verif Require Import Conc ThreadModel.

(* Living: before the destructor; Stopping, Joining: in stop() and join() of the derived destructor; Gone: the derived data are
   destroyed *)
Inductive phase := Living | Stopping | Joining | Gone.
Record dst := mkD { base : st; ph : phase }.
Definition dinit : dst := mkD init Living.

(* [stops]: the derived destructor calls stop() and join(); [careful]: the client destroys the object only before any start(), or
   when its last call was a join(), a wait() or a start() that has answered that nothing runs *)
Definition at_rest (p : cpc) : bool := match p with Idle | RJoin | RWait true | RStart false => true | _ => false end.
Inductive dstep (stops careful : bool) : dst -> dst -> Prop :=
| d_worker : forall w s b, wstep w (base s) = Some b -> dstep stops careful s (mkD b (ph s))
| d_client : forall c s b, cstep c (base s) = Some b -> dstep stops careful s (mkD b (ph s))
(* a call of the client *)
| d_call : forall s p, ph s = Living -> resting (cp (base s)) = true -> call false p -> p <> D85 ->
    dstep stops careful s (mkD (cgoto (base s) p) Living)
(* delete, PeriodicThread.cpp:108 *)
| d_delete : forall s, stops = false -> ph s = Living -> resting (cp (base s)) = true -> (careful = true -> at_rest (cp (base s)) = true) ->
    dstep stops careful s (mkD (cgoto (base s) D85) Gone)
(* delete, PeriodicDispatchThread.cpp:42-43, then PeriodicThread.cpp:108 *)
| d_stop : forall s, stops = true -> ph s = Living -> resting (cp (base s)) = true -> (careful = true -> at_rest (cp (base s)) = true) ->
    dstep stops careful s (mkD (cgoto (base s) (P189 false)) Stopping)
| d_join : forall s, ph s = Stopping -> cp (base s) = RStop -> dstep stops careful s (mkD (cgoto (base s) (J140 KJoin)) Joining)
| d_joined : forall s, ph s = Joining -> cp (base s) = RJoin -> dstep stops careful s (mkD (cgoto (base s) D85) Gone).
