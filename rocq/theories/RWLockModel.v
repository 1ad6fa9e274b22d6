(* RWLockImplWin32: icl_core_thread/RWLockImplWin32.cpp:29-156, as a concurrent program.

   One transition per access to shared data; memory is sequentially consistent.  The Win32 objects are
   modelled by their documented behaviour: m_reader_mutex_event is an auto-reset event, initially signalled
   (line 34); m_writer_mutex is a recursive mutex (line 35); m_reader_access_lock is an icl_core Mutex.
   A wait on a timed call may time out at any moment (the clock is not modelled); a wait without a time-out
   ends only by success (WAIT_FAILED and WAIT_ABANDONED are not modelled).  m_number_of_reader is never used
   by the code and not modelled.  The search loop 140-152 runs entirely under m_reader_access_lock and is
   one action up to the SetEvent. *)
From Verif Require Import Conc.

Inductive pc :=
| Idle
| Ret (b : bool)            (* the last call returned b (true for unlock()) *)
(* readLock(DWORD); tm: the call has a time-out *)
| R65 (tm : bool)           (* m_reader_access_lock.lock() *)
| R67 (tm : bool)           (* if (m_reader_pid.empty()) *)
| R69 (tm : bool)           (* WaitForSingleObject(m_reader_mutex_event, timeout) *)
| R71 (ret : bool)          (* if (ret || !m_reader_pid.empty()) { ret = true; push_back } *)
| R76 (ret : bool)          (* m_reader_access_lock.unlock(); return ret *)
(* writeLock(DWORD) *)
| W105 (tm : bool)          (* WaitForSingleObject(m_writer_mutex, timeout) *)
| W106 (tm : bool)          (* WaitForSingleObject(m_reader_mutex_event, timeout) *)
| W109                      (* m_writer_pid = GetCurrentThreadId(); *)
| W110                      (* m_number_of_writer++; return true *)
(* unlock(); g (history only): the caller held a read lock *)
| U125 (g : bool)           (* if (thread_pid == m_writer_pid) *)
| U127                      (* ReleaseMutex(m_writer_mutex); *)
| U128                      (* m_number_of_writer--; *)
| U129                      (* if (m_number_of_writer == 0) *)
| U131                      (* m_writer_pid = 0; *)
| U132                      (* SetEvent(m_reader_mutex_event); *)
| U138 (g : bool)           (* if (m_reader_access_lock.lock(TimeSpan(30000, 0))) *)
| U141 (g : bool)           (* search m_reader_pid, erase *)
| U148                      (* SetEvent(m_reader_mutex_event); *)
| U153.                     (* m_reader_access_lock.unlock(); *)

Record st := mkSt {
  ev : bool;                        (* m_reader_mutex_event is signalled *)
  wmutex : option (tid * nat);      (* m_writer_mutex: owner and recursion count *)
  ral : option tid;                 (* m_reader_access_lock *)
  nw : Z;                           (* m_number_of_writer *)
  wpid : option tid;                (* m_writer_pid; None for 0 *)
  rpids : list tid;                 (* m_reader_pid *)
  pcs : tid -> pc;
  hw : tid -> bool;                 (* history: the thread has the write lock: a writeLock() returned true and
                                       unlock() has not been called since *)
  hr : tid -> nat                   (* history: number of read locks the thread has *)
}.
Definition init : st := mkSt true None None 0%Z None [] (fun _ => Idle) (fun _ => false) (fun _ => 0).

Definition goto (s : st) (t : tid) (p : pc) : st :=
  mkSt (ev s) (wmutex s) (ral s) (nw s) (wpid s) (rpids s) (upd (pcs s) t p) (hw s) (hr s).
Definition set_ev (s : st) (b : bool) : st :=
  mkSt b (wmutex s) (ral s) (nw s) (wpid s) (rpids s) (pcs s) (hw s) (hr s).
Definition set_wmutex (s : st) (m : option (tid * nat)) : st :=
  mkSt (ev s) m (ral s) (nw s) (wpid s) (rpids s) (pcs s) (hw s) (hr s).
Definition set_ral (s : st) (o : option tid) : st :=
  mkSt (ev s) (wmutex s) o (nw s) (wpid s) (rpids s) (pcs s) (hw s) (hr s).
Definition set_nw (s : st) (n : Z) : st :=
  mkSt (ev s) (wmutex s) (ral s) n (wpid s) (rpids s) (pcs s) (hw s) (hr s).
Definition set_wpid (s : st) (o : option tid) : st :=
  mkSt (ev s) (wmutex s) (ral s) (nw s) o (rpids s) (pcs s) (hw s) (hr s).
Definition set_rpids (s : st) (l : list tid) : st :=
  mkSt (ev s) (wmutex s) (ral s) (nw s) (wpid s) l (pcs s) (hw s) (hr s).
Definition set_hw (s : st) (t : tid) (b : bool) : st :=
  mkSt (ev s) (wmutex s) (ral s) (nw s) (wpid s) (rpids s) (pcs s) (upd (hw s) t b) (hr s).
Definition set_hr (s : st) (t : tid) (n : nat) : st :=
  mkSt (ev s) (wmutex s) (ral s) (nw s) (wpid s) (rpids s) (pcs s) (hw s) (upd (hr s) t n).

(* erase the first occurrence, lines 141-152 *)
Fixpoint erase (t : tid) (l : list tid) : list tid :=
  match l with [] => [] | x :: l => if x =? t then l else x :: erase t l end.
Definition mem (t : tid) (l : list tid) : bool := existsb (Nat.eqb t) l.

(* Win32 recursive mutex *)
Definition m_acquire (m : option (tid * nat)) (t : tid) : option (option (tid * nat)) :=
  match m with
  | None => Some (Some (t, 1))
  | Some (o, n) => if o =? t then Some (Some (t, S n)) else None
  end.
Definition m_release (m : option (tid * nat)) (t : tid) : option (tid * nat) :=
  match m with
  | Some (o, n) => if o =? t then match n with S (S k) => Some (o, S k) | _ => None end else m
  | None => None
  end.

(* One action of thread t; None: it must wait (or is not inside a call).
   RWLockImplWin32.cpp:61-79, 103-113, 120-156. *)
Definition tstep (t : tid) (s : st) : option st :=
  match pcs s t with
  | Idle | Ret _ => None
  | R65 tm => match ral s with None => Some (goto (set_ral s (Some t)) t (R67 tm)) | Some _ => None end
  | R67 tm => Some (goto s t (match rpids s with [] => R69 tm | _ :: _ => R71 false end))
  | R69 tm => if ev s then Some (goto (set_ev s false) t (R71 true)) else None
  | R71 ret =>
    Some (if ret || match rpids s with [] => false | _ :: _ => true end
          then goto (set_rpids s (rpids s ++ [t])) t (R76 true) else goto s t (R76 false))
  | R76 ret =>
    let s1 := goto (set_ral s None) t (Ret ret) in
    Some (if ret then set_hr s1 t (S (hr s t)) else s1)
  | W105 tm => match m_acquire (wmutex s) t with Some m => Some (goto (set_wmutex s m) t (W106 tm)) | None => None end
  | W106 tm => if ev s then Some (goto (set_ev s false) t W109) else None
  | W109 => Some (goto (set_wpid s (Some t)) t W110)
  | W110 => Some (set_hw (goto (set_nw s (nw s + 1)%Z) t (Ret true)) t true)
  | U125 g => Some (goto s t (match wpid s with Some w => if w =? t then U127 else U138 g | None => U138 g end))
  | U127 => Some (goto (set_wmutex s (m_release (wmutex s) t)) t U128)
  | U128 => Some (goto (set_nw s (nw s - 1)%Z) t U129)
  | U129 => Some (goto s t (if (nw s =? 0)%Z then U131 else Ret true))
  | U131 => Some (goto (set_wpid s None) t U132)
  | U132 => Some (goto (set_ev s true) t (Ret true))
  | U138 g => match ral s with None => Some (goto (set_ral s (Some t)) t (U141 g)) | Some _ => None end
  | U141 g =>
    Some (if mem t (rpids s) then
            let l := erase t (rpids s) in
            goto (set_rpids s l) t (match l with [] => U148 | _ :: _ => U153 end)
          else goto s t U153)
  | U148 => Some (goto (set_ev s true) t U153)
  | U153 => Some (goto (set_ral s None) t (Ret true))
  end.

(* a timed wait runs out: lines 69, 105, 106, 138 *)
Definition tfail (t : tid) (s : st) : option st :=
  match pcs s t with
  | R69 true => Some (goto s t (R71 false))
  | W105 true => Some (goto s t (Ret false))
  | W106 true => Some (goto s t (Ret false))
  | U138 _ => Some (goto s t (Ret true))
  | _ => None
  end.

Definition resting (p : pc) : bool := match p with Idle | Ret _ => true | _ => false end.
Definition holds_any (s : st) (t : tid) : bool := hw s t || negb (hr s t =? 0).

(* which calls the clients make *)
Record usage := mkUsage {
  timed : bool;    (* calls with a time-out (including tryReadLock, tryWriteLock) are made, and waits can time out *)
  nested : bool    (* threads that hold the lock call readLock/writeLock again *)
}.

(* entering unlock(): whatever the caller held, it has given up now *)
Definition call_unlock (t : tid) (s : st) : st :=
  if hw s t then goto (set_hw s t false) t (U125 false)
  else goto (set_hr s t (pred (hr s t))) t (U125 (negb (hr s t =? 0))).

(* transitions labelled with the thread that acts *)
Inductive step (u : usage) : tid -> st -> st -> Prop :=
| step_thread : forall t s s', tstep t s = Some s' -> step u t s s'
| step_timeout : forall t s s', timed u = true -> tfail t s = Some s' -> step u t s s'
| step_readLock : forall t s tm, resting (pcs s t) = true -> (tm = true -> timed u = true) ->
    (holds_any s t = true -> nested u = true) -> step u t s (goto s t (R65 tm))
| step_writeLock : forall t s tm, resting (pcs s t) = true -> (tm = true -> timed u = true) ->
    (holds_any s t = true -> nested u = true) -> step u t s (goto s t (W105 tm))
| step_unlock : forall t s, resting (pcs s t) = true -> step u t s (call_unlock t s).

Definition any (u : usage) (s s' : st) : Prop := exists t, step u t s s'.
