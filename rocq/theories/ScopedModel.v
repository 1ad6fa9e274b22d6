(* Scoped locks: icl_core_thread/ScopedMutexLock.cpp:30-46, ScopedRWLock.cpp:30-49 on Mutex/MutexImplPosix (33-58, 88-91) and
   RWLock/RWLockImplPosix (33-53, 86-89, 122-125).
   Threads run arbitrary code: a history is any sequence of steps of theirs. A thread's scoped objects are destroyed in the
   reverse order of their construction, also when an exception leaves a block.
   pthreads as in glibc: recursive mutexes; read locks are granted while nobody writes; wrlock and rdlock return EDEADLK to the
   writer itself; a lock of the mutex and a read lock may fail with EAGAIN (too many of them).
   Not modelled: the messages of Mutex and RWLock, destruction of a lock that is in use, the try and timeout variants. *)
From Verif Require Import Base Conc.

Inductive lock := MFree | MOwned (owner depth : nat) | RW (writer : option nat) (readers : list nat).
Inductive answer := Got (l : lock) | Error | Blocks.
(* MutexImplPosix.cpp:54-57 *)
Definition mutex_lock (t : nat) (again : bool) (l : lock) : answer :=
  match l with
  | MFree => if again then Error else Got (MOwned t 1)
  | MOwned u d => if Nat.eqb u t then if again then Error else Got (MOwned u (S d)) else Blocks
  | RW _ _ => Error
  end.
(* RWLockImplPosix.cpp:50-53 *)
Definition read_lock (t : nat) (again : bool) (l : lock) : answer :=
  match l with
  | RW None r => if again then Error else Got (RW None (t :: r))
  | RW (Some u) _ => if Nat.eqb u t then Error else Blocks
  | _ => Error
  end.
(* RWLockImplPosix.cpp:86-89 *)
Definition write_lock (t : nat) (l : lock) : answer :=
  match l with
  | RW None [] => Got (RW (Some t) [])
  | RW None (_ :: _) => Blocks
  | RW (Some u) _ => if Nat.eqb u t then Error else Blocks
  | _ => Error
  end.
Fixpoint remove_one (t : nat) (l : list nat) : option (list nat) :=
  match l with
  | [] => None
  | u :: r => if Nat.eqb u t then Some r else match remove_one t r with Some r' => Some (u :: r') | None => None end
  end.
(* MutexImplPosix.cpp:88-91, RWLockImplPosix.cpp:122-125; None: the thread does not hold the lock *)
Definition unlock (t : nat) (l : lock) : option lock :=
  match l with
  | MOwned u d =>
    if Nat.eqb u t then match d with O => None | 1 => Some MFree | S d' => Some (MOwned u d') end else None
  | RW (Some u) r => if Nat.eqb u t then Some (RW None r) else None
  | RW None r => match remove_one t r with Some r' => Some (RW None r') | None => None end
  | MFree => None
  end.

(* ScopedMutexLock; ScopedRWLock with eLM_READ_LOCK or eLM_WRITE_LOCK *)
Inductive how := Mx | Rd | Wr.
Record scope := Scope { s_lock : nat; s_how : how; s_force : bool; s_locked : bool }.
(* a thread: the constructor that it is in, and its scoped objects, the innermost first *)
Record thread := mkT { entering : option (nat * how * bool); scopes : list scope }.
Record state := mkS { locks : nat -> lock; threads : nat -> thread }.

Definition call_lock (t : nat) (again : bool) (h : how) (l : lock) : answer :=
  match h with Mx => mutex_lock t again l | Rd => read_lock t again l | Wr => write_lock t l end.

(* Enter: a constructor begins; Attempt: its call of lock(), readLock() or writeLock() (again: it fails with EAGAIN); Leave: the
   innermost scoped object is destroyed *)
Inductive event := Enter (l : nat) (h : how) (force : bool) | Attempt (again : bool) | Leave.
Inductive outcome := Next (s : state) | Undefined | Impossible.
Definition set_thread (s : state) (t : nat) (x : thread) : state := mkS (locks s) (upd (threads s) t x).
Definition set_lock (s : state) (l : nat) (x : lock) : state := mkS (upd (locks s) l x) (threads s).

Definition is_mutex (l : lock) : bool := match l with RW _ _ => false | _ => true end.
(* one step of thread t; a call that blocks changes nothing. Impossible: C++ has no such program *)
Definition step (s : state) (t : nat) (e : event) : outcome :=
  let x := threads s t in
  match e with
  | Enter l h force =>
    match entering x, Bool.eqb (is_mutex (locks s l)) (match h with Mx => true | _ => false end) with
    | None, true => Next (set_thread s t (mkT (Some (l, h, force)) (scopes x)))
    | _, _ => Impossible
    end
  | Attempt again =>
    match entering x with
    | None => Impossible
    | Some (l, h, force) =>
      match call_lock t again h (locks s l) with
      | Got y => Next (set_thread (set_lock s l y) t (mkT None (Scope l h force true :: scopes x)))
      | Error =>                                                                (* while (force && !m_is_locked) *)
        if force then Next s else Next (set_thread s t (mkT None (Scope l h force false :: scopes x)))
      | Blocks => Next s
      end
    end
  | Leave =>
    match entering x, scopes x with
    | None, o :: r =>
      if s_locked o then
        match unlock t (locks s (s_lock o)) with
        | Some y => Next (set_thread (set_lock s (s_lock o) y) t (mkT None r))
        | None => Undefined
        end
      else Next (set_thread s t (mkT None r))
    | _, _ => Impossible
    end
  end.
Fixpoint run (s : state) (l : list (nat * event)) : outcome :=
  match l with
  | [] => Next s
  | (t, e) :: r => match step s t e with Next s' => run s' r | x => x end
  end.
(* the locks before their use: the kind of each *)
Definition init (mutex : nat -> bool) : state :=
  mkS (fun l => if mutex l then MFree else RW None []) (fun _ => mkT None []).
