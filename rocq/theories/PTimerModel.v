(* Periodic threads with a timer descriptor, and the thread of periodic operations:
   icl_core_thread/PeriodicThreadImplTimerfd.{h,cpp}, icl_core_thread/Thread.cpp:217-248 and Thread.h:117,189 (as far as they matter here),
   icl_core_dispatch/PeriodicDispatchThread.cpp (paths relative to src/icl_core/src).
   A machine with events. Every event has the time when it happens, in nanoseconds of CLOCK_MONOTONIC. Events of the thread
   itself are Step: one action of it. Events of other threads (or of operations) come between them; each is atomic, as the
   members they touch are taken to be.
   The timer is the one of the Linux kernel (timerfd_create(2)): with initial and interval time p, set at time s, it expires
   at s + p, s + 2p, ... ; a read waits for an expiration after the previous read, and takes all of them.
   Not modelled: wakeups_missed (written, never read), hard realtime (PeriodicThread.cpp:148-173), the log messages, other
   descriptors of the process; a read that fails for another reason than a signal or a bad descriptor. *)
From Verif Require Import Base CInt TimeModel.
Local Open Scope Z_scope.

Definition op := nat.
Inductive timer := Disarmed | Armed (start interval taken : Z).
(* PeriodicThreadImplTimerfd.h:49; NoValue: not yet written *)
Inductive descriptor := NoValue | Bad | Fd (n : nat).
(* where the thread is: not running; about to call makePeriodic; in run() (PeriodicDispatchThread.cpp:50-64): about to
   evaluate the condition of line 52, in the loop of line 54 in front of the i-th operation, about to evaluate line 59,
   in the read of waitPeriod() *)
Inductive place := Out | Making | Cond | At (i : nat) | Check | Reading.

(* timers: the open timer descriptors *)
Record state := mkS {
  timers : list timer; m_period : time; timer_created : bool; timer_fd : descriptor;
  m_dispatch_queue : list op; m_execute : bool; at_ : place
}.
Definition set_timers (s : state) l := mkS l (m_period s) (timer_created s) (timer_fd s) (m_dispatch_queue s) (m_execute s) (at_ s).
Definition set_m_period (s : state) p := mkS (timers s) p (timer_created s) (timer_fd s) (m_dispatch_queue s) (m_execute s) (at_ s).
Definition set_created (s : state) b := mkS (timers s) (m_period s) b (timer_fd s) (m_dispatch_queue s) (m_execute s) (at_ s).
Definition set_fd (s : state) d := mkS (timers s) (m_period s) (timer_created s) d (m_dispatch_queue s) (m_execute s) (at_ s).
Definition set_queue (s : state) q := mkS (timers s) (m_period s) (timer_created s) (timer_fd s) q (m_execute s) (at_ s).
Definition set_execute (s : state) b := mkS (timers s) (m_period s) (timer_created s) (timer_fd s) (m_dispatch_queue s) b (at_ s).
Definition set_at (s : state) a := mkS (timers s) (m_period s) (timer_created s) (timer_fd s) (m_dispatch_queue s) (m_execute s) a.

(* a new PeriodicDispatchThread: PeriodicDispatchThread.cpp:32-37, PeriodicThreadImplTimerfd.cpp:35-40, Thread.cpp:50-53;
   already_open: timer descriptors of other threads *)
Definition new_thread (already_open : list timer) (period : time) : state := mkS already_open period false NoValue [] false Out.

(* what can be seen of the thread *)
Inductive obs := PeriodSet (success : bool) | Added (o : op) | Begin | Ran (o : op) | End | Wait | Woke (success : bool) | Finished.

Section Sys.
(* the number of timer descriptors that the process can have *)
Variable max_fds : nat.

(* timerfd_create(2) *)
Definition timerfd_create (s : state) : state * descriptor :=
  if (length (timers s) <? max_fds)%nat then (set_timers s (timers s ++ [Disarmed]), Fd (length (timers s))) else (s, Bad).
(* timerfd_settime(2), it_value = it_interval = (sec, nsec) *)
Definition timerfd_settime (s : state) (now sec nsec : Z) : state * bool :=
  match timer_fd s with
  | Fd n =>
    if nsec <? 1000000000 then
      (set_timers s (list_set (timers s) n (if (sec =? 0) && (nsec =? 0) then Disarmed else Armed now (sec * 1000000000 + nsec) 0)), true)
    else (s, false)
  | _ => (s, false)
  end.

(* PeriodicThreadImplTimerfd.cpp:61-89; both parts are converted to unsigned int *)
Definition setPeriod (s : state) (now : Z) (period : time) : state * bool :=
  let s1 := set_m_period s period in
  if timer_created s1 then timerfd_settime s1 now (to_u32 (secs period)) (to_u32 (nsecs period)) else (s1, false).

(* 47-59 *)
Definition makePeriodic (s : state) (now : Z) : state * bool :=
  let (s1, fd) := timerfd_create s in
  let s2 := set_fd s1 fd in
  let s3 := match fd with Fd _ => set_created s2 true | _ => s2 end in
  setPeriod s3 now (m_period s3).

(* read(2) at time now: Some: it returns *)
Definition read (s : state) (now : Z) : result (option (state * bool)) :=
  match timer_fd s with
  | NoValue => UB
  | Bad => Ok (Some (s, false))
  | Fd n =>
    match nth n (timers s) Disarmed with
    | Disarmed => Ok None
    | Armed start interval taken =>
      let expirations := (now - start) / interval in
      if taken <? expirations then Ok (Some (set_timers s (list_set (timers s) n (Armed start interval expirations)), true))
      else Ok None
    end
  end.

(* PeriodicDispatchThread.cpp:45-48 *)
Definition addOperation (s : state) (o : op) : state := set_queue s (m_dispatch_queue s ++ [o]).

(* one action of the thread; new_ops: what the operation that is run adds, if one is run *)
Definition act (s : state) (now : Z) (new_ops : list op) : result (state * list obs) :=
  match at_ s with
  | Out => Ok (s, [])
  | Making => let (s1, b) := makePeriodic s now in Ok (set_at s1 Cond, [PeriodSet b])             (* Thread.cpp:238 *)
  | Cond => Ok (if m_execute s then (set_at s (At 0), [Begin]) else (set_at s Out, [Finished]))   (* 52, Thread.cpp:243-245 *)
  | At i =>                                                                                       (* 54-57 *)
    match nth_error (m_dispatch_queue s) i with
    | Some o => Ok (set_at (fold_left addOperation new_ops s) (At (S i)), Ran o :: map Added new_ops)
    | None => Ok (set_at s Check, [End])
    end
  | Check => Ok (if m_execute s then (set_at s Reading, [Wait]) else (set_at s Cond, []))         (* 59 *)
  | Reading =>                                                                                    (* PeriodicThreadImplTimerfd.cpp:98-103 *)
    match read s now with
    | Ok (Some (s1, b)) => Ok (set_at s1 Cond, [Woke b])
    | Ok None => Ok (s, [])
    | Throw => Throw
    | UB => UB
    end
  end.

(* Start: a thread that is not running reaches Thread.cpp:234. Stop: Thread.h:189. AddOp: by another thread. Signal: the
   thread gets a signal whose handler does not restart system calls *)
Inductive event := Start | Step (new_ops : list op) | Stop | SetPeriod (p : time) | AddOp (o : op) | Signal.

Definition step (s : state) (now : Z) (e : event) : result (state * list obs) :=
  match e with
  | Start => Ok (match at_ s with Out => set_at (set_execute s true) Making | _ => s end, [])
  | Step new_ops => act s now new_ops
  | Stop => Ok (set_execute s false, [])
  | SetPeriod p => let (s1, b) := setPeriod s now p in Ok (s1, [PeriodSet b])
  | AddOp o => match at_ s with Out => Ok (addOperation s o, [Added o]) | _ => UB end  (* the list is not protected against the thread *)
  | Signal =>
    match at_ s with
    | Reading => Ok (set_at s Cond, [Woke false])   (* EINTR; the read is modelled as not ready, otherwise let a Step come first *)
    | _ => Ok (s, [])
    end
  end.

(* what was seen, and when *)
Fixpoint runs (s : state) (l : list (Z * event)) : result (state * list (Z * obs)) :=
  match l with
  | [] => Ok (s, [])
  | (t, e) :: r =>
    bind (step s t e) (fun so =>
    bind (runs (fst so) r) (fun so2 =>
    Ok (fst so2, map (pair t) (snd so) ++ snd so2)))
  end.
End Sys.
