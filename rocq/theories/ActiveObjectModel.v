(* ActiveObject: icl_core_thread/ActiveObject.cpp:34-93 on top of Thread::start/stop (Thread.cpp:231-245,
   Thread.h:178-184), as a concurrent program of one worker and any number of client threads.

   One transition per access to shared data.  Memory is sequentially consistent and the operations of the
   std::list m_operation_queue are atomic; where that assumption is not justified by a lock is the subject
   of C40_data_race_refuted.  Simplifications: Mutex::lock() does not fail; onThreadStart/onThreadStop
   (ActiveObject.h:61, 67) are the empty defaults; invoke() touches no shared data of the object;
   start() is one action (waitStarted(), Thread.cpp:495-502, lets no stop() pass before m_execute is set);
   every call of queue() passes a new operation. *)
From Verif Require Import Conc.

Definition op := nat.

Inductive event := EPush (o : op) | EInvoke (o : op) | EDelete (o : op) | EStop.

(* the worker, by the line it is about to execute *)
Inductive wpc :=
| WOff            (* no worker thread: not started, or runThread() has returned *)
| W39             (* while (execute()) *)
| W41             (* m_sem.wait(); *)
| W42             (* if (execute()) *)
| W45             (* while (!m_operation_queue.empty()) *)
| W48             (* if (m_operation_queue_mutex.lock()) *)
| W51             (* op = m_operation_queue.front(); *)
| W52 (o : op)    (* m_operation_queue.pop_front(); *)
| W55 (o : op)    (* m_operation_queue_mutex.unlock(); *)
| W58 (o : op)    (* op->invoke(); *)
| W59 (o : op)    (* delete op; *)
| W66             (* while (!m_operation_queue.empty()) *)
| W68             (* delete m_operation_queue.front(); *)
| W69             (* m_operation_queue.pop_front(); *)
| W243            (* Thread.cpp:243: m_execute = false; *)
| WUB.            (* front() or pop_front() of an empty list: undefined behaviour *)

Inductive cpc :=
| CIdle
| C83 (o : op)    (* queue(): if (execute() && ... *)
| C83l (o : op)   (* ... m_operation_queue_mutex.lock()) *)
| C85 (o : op)    (* m_operation_queue.push_back(active_operation); *)
| C86             (* m_operation_queue_mutex.unlock(); *)
| C87             (* m_sem.post(); *)
| C91 (o : op)    (* delete active_operation; *)
| C77             (* stop(): Thread::stop(), i.e. m_execute = false *)
| C78.            (* m_sem.post(); *)

Inductive agent := Worker | Client (t : tid).

Record st := mkSt {
  queue : list op;           (* m_operation_queue *)
  mtx : option agent;        (* owner of m_operation_queue_mutex *)
  sem : nat;                 (* m_sem *)
  execute : bool;            (* m_execute *)
  wk : wpc;
  cl : tid -> cpc;
  next : op;                 (* number of operations passed to queue() so far *)
  trace : list event         (* history, oldest first *)
}.
(* ActiveObject.cpp:28-32, Thread.cpp:50 *)
Definition init : st := mkSt [] None 0 false WOff (fun _ => CIdle) 0 [].

Definition wgoto (s : st) (p : wpc) : st :=
  mkSt (queue s) (mtx s) (sem s) (execute s) p (cl s) (next s) (trace s).
Definition cgoto (s : st) (t : tid) (p : cpc) : st :=
  mkSt (queue s) (mtx s) (sem s) (execute s) (wk s) (upd (cl s) t p) (next s) (trace s).
Definition set_queue (s : st) (q : list op) : st :=
  mkSt q (mtx s) (sem s) (execute s) (wk s) (cl s) (next s) (trace s).
Definition set_mtx (s : st) (m : option agent) : st :=
  mkSt (queue s) m (sem s) (execute s) (wk s) (cl s) (next s) (trace s).
Definition set_sem (s : st) (n : nat) : st :=
  mkSt (queue s) (mtx s) n (execute s) (wk s) (cl s) (next s) (trace s).
Definition set_execute (s : st) (b : bool) : st :=
  mkSt (queue s) (mtx s) (sem s) b (wk s) (cl s) (next s) (trace s).
Definition emit (s : st) (e : event) : st :=
  mkSt (queue s) (mtx s) (sem s) (execute s) (wk s) (cl s) (next s) (trace s ++ [e]).

(* One action of the worker thread; None: blocked or not running.  ActiveObject.cpp:36-72, Thread.cpp:241-245. *)
Definition wstep (s : st) : option st :=
  match wk s with
  | WOff | WUB => None
  | W39 => Some (wgoto s (if execute s then W41 else W66))
  | W41 => match sem s with O => None | S n => Some (wgoto (set_sem s n) W42) end
  | W42 => Some (wgoto s (if execute s then W45 else W39))
  | W45 => Some (wgoto s (match queue s with [] => W39 | _ :: _ => W48 end))
  | W48 => match mtx s with None => Some (wgoto (set_mtx s (Some Worker)) W51) | Some _ => None end
  | W51 => Some (wgoto s (match queue s with [] => WUB | o :: _ => W52 o end))
  | W52 o => Some (match queue s with [] => wgoto s WUB | _ :: q => wgoto (set_queue s q) (W55 o) end)
  | W55 o => Some (wgoto (set_mtx s None) (W58 o))
  | W58 o => Some (wgoto (emit s (EInvoke o)) (W59 o))
  | W59 o => Some (wgoto (emit s (EDelete o)) W45)
  | W66 => Some (wgoto s (match queue s with [] => W243 | _ :: _ => W68 end))
  | W68 => Some (match queue s with [] => wgoto s WUB | o :: _ => wgoto (emit s (EDelete o)) W69 end)
  | W69 => Some (match queue s with [] => wgoto s WUB | _ :: q => wgoto (set_queue s q) W66 end)
  | W243 => Some (wgoto (set_execute s false) WOff)
  end.

(* m_sem.wait() returns without a token (the result of sem_wait is ignored: a signal handler may have
   interrupted it).  ActiveObject.cpp:41. *)
Definition wspurious (s : st) : option st :=
  match wk s with W41 => Some (wgoto s W42) | _ => None end.

(* One action of client t inside queue() or stop().  ActiveObject.cpp:75-93. *)
Definition cstep (t : tid) (s : st) : option st :=
  match cl s t with
  | CIdle => None
  | C83 o => Some (cgoto s t (if execute s then C83l o else C91 o))
  | C83l o => match mtx s with None => Some (cgoto (set_mtx s (Some (Client t))) t (C85 o)) | Some _ => None end
  | C85 o => Some (cgoto (emit (set_queue s (queue s ++ [o])) (EPush o)) t C86)
  | C86 => Some (cgoto (set_mtx s None) t C87)
  | C87 => Some (cgoto (set_sem s (S (sem s))) t CIdle)
  | C91 o => Some (cgoto (emit s (EDelete o)) t CIdle)
  | C77 => Some (cgoto (emit (set_execute s false) EStop) t C78)
  | C78 => Some (cgoto (set_sem s (S (sem s))) t CIdle)
  end.

(* Thread::start() when no worker runs: Thread.cpp:176-210, 231-241 *)
Definition do_start (s : st) : st := wgoto (set_execute s true) W39.
(* a client enters queue() with a new operation *)
Definition call_queue (t : tid) (s : st) : st :=
  mkSt (queue s) (mtx s) (sem s) (execute s) (wk s) (upd (cl s) t (C83 (next s))) (S (next s)) (trace s).

Inductive who := ByWorker | ByOther.
Inductive step : who -> st -> st -> Prop :=
| step_worker : forall s s', wstep s = Some s' -> step ByWorker s s'
| step_spurious : forall s s', wspurious s = Some s' -> step ByWorker s s'
| step_client : forall t s s', cstep t s = Some s' -> step ByOther s s'
| step_start : forall s, wk s = WOff -> step ByOther s (do_start s)
| step_queue : forall t s, cl s t = CIdle -> step ByOther s (call_queue t s)
| step_stop : forall t s, cl s t = CIdle -> step ByOther s (cgoto s t C77).

Definition any (s s' : st) : Prop := exists w, step w s s'.
