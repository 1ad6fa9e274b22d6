(* Waiting with time-outs, and not waiting: icl_core_thread/MutexImplPosix.cpp:33-91, RWLockImplPosix.cpp:33-125,
   SemaphoreImplPosix.cpp:31-75, MutexImplWin32.cpp:29-65, SemaphoreImplWin32.cpp:29-66, and icl_core_logging/
   SemaphoreImplPosix.cpp:29-55, ScopedSemaphore.cpp:30-46 (paths relative to src/icl_core/src); Mutex, RWLock and Semaphore only
   forward to them. Read-write locks of Win32: see RWLockModel.v.
   One object, any number of threads; every event has the time of the system's clock (for Win32 the clock is taken to run evenly).
   A thread that has called a waiting function goes on with the event Run: then it gets the object, gives up or continues to wait.
   The system as documented: recursive mutexes; glibc grants read locks while nobody writes and returns EDEADLK to the writer
   itself; an object that is free is granted whatever the time-out; sem_wait and sem_timedwait may be interrupted by signals.
   Not modelled: the limits of recursion and of readers (EAGAIN), abandoned mutexes of Win32, objects destroyed while in use,
   the semaphore of Darwin, LXRT. *)
From Verif Require Import Base CInt TimeModel PeriodModel Conc.
Local Open Scope Z_scope.

(* the POSIX code; the same with _SYSTEM_DARWIN_ (polling); Win32 *)
Inductive platform := Posix | Darwin | Win32.
(* a mutex with its owner and the depth of the recursion, a read-write lock with its writer and readers, a semaphore *)
Inductive obj := Mtx (owner : option (nat * nat)) | Rwl (writer : option nat) (readers : list nat) | Sem (value : Z).
Inductive want := Lock | Read | Write | Take.
Inductive answer := Got (o : obj) | Deadlk | Busy.
Definition acquire (t : nat) (w : want) (o : obj) : answer :=
  match w, o with
  | Lock, Mtx None => Got (Mtx (Some (t, 1%nat)))
  | Lock, Mtx (Some (u, d)) => if (u =? t)%nat then Got (Mtx (Some (u, S d))) else Busy
  | Read, Rwl None r => Got (Rwl None (t :: r))
  | Read, Rwl (Some u) _ => if (u =? t)%nat then Deadlk else Busy
  | Write, Rwl None [] => Got (Rwl (Some t) [])
  | Write, Rwl None (_ :: _) => Busy
  | Write, Rwl (Some u) _ => if (u =? t)%nat then Deadlk else Busy
  | Take, Sem v => if 0 <? v then Got (Sem (v - 1)) else Busy
  | _, _ => Busy
  end.
Fixpoint remove_one (t : nat) (l : list nat) : option (list nat) :=
  match l with
  | [] => None
  | u :: r => if (u =? t)%nat then Some r else match remove_one t r with Some r' => Some (u :: r') | None => None end
  end.
(* SEM_VALUE_MAX of Linux and LONG_MAX of Win32 *)
Definition sem_max : Z := 2147483647.
(* unlock() and post(); errors are ignored *)
Definition release (t : nat) (o : obj) : result obj :=
  match o with
  | Mtx (Some (u, d)) => Ok (if (u =? t)%nat then match d with S (S d') => Mtx (Some (u, S d')) | _ => Mtx None end else o)
  | Mtx None => Ok o
  | Rwl (Some u) r => if (u =? t)%nat then Ok (Rwl None r) else UB
  | Rwl None r => match remove_one t r with Some r' => Ok (Rwl None r') | None => UB end
  | Sem v => Ok (if v <? sem_max then Sem (v + 1) else o)
  end.
(* SemaphoreImplPosix.cpp:31-36: sem_init takes an unsigned int; a semaphore that could not be initialised must not be used *)
Definition new_semaphore (p : platform) (initial_value : Z) : result obj :=
  match p with
  | Win32 => let v := to_i32 initial_value in if 0 <=? v then Ok (Sem v) else UB
  | _ => let v := to_u32 initial_value in if v <=? sem_max then Ok (Sem v) else UB
  end.

(* how long a call waits; AtOnce: not at all *)
Inductive limit := Forever | Deadline (d : Z) | AtOnce.
Definition ns (t : time) : Z := secs t * 1000000000 + nsecs t.
(* the calls: lock(), readLock(), ... ; tryLock(), ...; with a TimeStamp; with a TimeSpan *)
Inductive how := Block | Try | Until (t : time) | For (d : time).

(* lock(TimeStamp) and others: MutexImplPosix.cpp:59-75, RWLockImplPosix.cpp:56-72, 92-108, SemaphoreImplPosix.cpp:70-75; a timespec that is
   not valid is an error, reported if the thread would have to wait. The loop of Darwin compares the time itself *)
Definition until (p : platform) (t : time) : limit :=
  match p with
  | Darwin => Deadline (ns t)
  | _ => if (0 <=? nsecs t) && (nsecs t <? 1000000000) && (0 <=? secs t) then Deadline (ns t) else AtOnce
  end.
(* MutexImplWin32.cpp:52-55, SemaphoreImplWin32.cpp:57-61 *)
Definition milliseconds (now : time) (d : time) : result limit :=
  bind (to_msec d) (fun ms =>
  let dword := to_u32 ms in
  Ok (if dword =? 4294967295 then Forever else Deadline (ns now + dword * 1000000))).
Definition begin (p : platform) (now : time) (h : how) : result limit :=
  match h, p with
  | Block, _ => Ok Forever
  | Try, _ => Ok AtOnce
  | Until t, Win32 => bind (getRelativeTimeout now t) (milliseconds now)
  | Until t, _ => Ok (until p t)
  | For d, Win32 => milliseconds now d
  | For d, _ => bind (getAbsoluteTimeout now d) (fun t => Ok (until p t))
  end.

Record state := mkS { object : obj; waiting : nat -> option (want * limit) }.
Inductive obs := Returned (t : nat) (w : want) (success : bool) | Released (t : nat).
(* Call: a thread that does not wait calls a function that waits; Release: unlock() or post(); Signal: a signal handler has
   interrupted the waiting thread *)
Inductive event := Call (w : want) (h : how) | Run | Release | Signal.

(* does the object have this function? *)
Definition exists_ (p : platform) (w : want) (o : obj) : bool :=
  match w, o, p with Lock, Mtx _, _ => true | Take, Sem _, Darwin => false | Take, Sem _, _ => true | (Read | Write), Rwl _ _, Win32 => false
                   | (Read | Write), Rwl _ _, _ => true | _, _, _ => false end.

(* a call that cannot be (an absent function, a thread that is waiting) changes nothing *)
Definition step (p : platform) (s : state) (t : nat) (now : time) (e : event) : result (state * list obs) :=
  match e with
  | Call w h =>
    match waiting s t, exists_ p w (object s) with
    | None, true => bind (begin p now h) (fun l => Ok (mkS (object s) (upd (waiting s) t (Some (w, l))), []))
    | _, _ => Ok (s, [])
    end
  | Run =>
    match waiting s t with
    | None => Ok (s, [])
    | Some (w, l) =>
      let failed := (mkS (object s) (upd (waiting s) t None), [Returned t w false]) in
      let busy := match l with
                  | Forever => (s, [])
                  | Deadline d => if d <=? ns now then failed else (s, [])
                  | AtOnce => failed
                  end in
      match acquire t w (object s) with
      | Got o => Ok (mkS o (upd (waiting s) t None), [Returned t w true])
      | Deadlk => Ok (match p, l with Darwin, Deadline _ => busy | _, _ => failed end)
      | Busy => Ok busy
      end
    end
  | Release =>
    match waiting s t with
    | None => bind (release t (object s)) (fun o => Ok (mkS o (waiting s), [Released t]))
    | Some _ => Ok (s, [])
    end
  | Signal =>
    match waiting s t, p with
    | Some (Take, (Forever | Deadline _)), Posix => Ok (mkS (object s) (upd (waiting s) t None), [Returned t Take false])
    | _, _ => Ok (s, [])
    end
  end.
Definition history := list (nat * time * event).
Fixpoint runs (p : platform) (s : state) (l : history) : result (state * list obs) :=
  match l with
  | [] => Ok (s, [])
  | (t, now, e) :: r =>
    bind (step p s t now e) (fun so =>
    bind (runs p (fst so) r) (fun so2 => Ok (fst so2, snd so ++ snd so2)))
  end.
Definition idle (o : obj) : state := mkS o (fun _ => None).
