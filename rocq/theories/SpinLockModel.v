(* SpinLock and ScopedSpinLock: icl_core_thread/SpinLock.h:35-81, icl_core_thread/ScopedSpinLock.h:31-59.

   One transition per access to m_state; memory is sequentially consistent (the code uses acquire/release,
   which for a single atomic variable gives the same total order of its modifications).  One turn of the
   loop in lock() is one transition. *)
From Verif Require Import Conc.

Inductive pc :=
| Idle
| L48                     (* lock(): while (m_state.exchange(LOCKED) == LOCKED) *)
| T62                     (* tryLock(): return (m_state.exchange(LOCKED) == LOCKED) *)
| U68                     (* unlock(): m_state.store(UNLOCKED) *)
| Ret (b : bool).         (* the last call returned b (true for unlock()) *)

Record st := mkSt {
  locked : bool;          (* m_state == LOCKED *)
  pcs : tid -> pc;
  has : tid -> bool       (* history: the last lock() or tryLock() of the thread returned true and it has not
                             called unlock() since: the thread may believe that it has the lock *)
}.
(* SpinLock.h:38-40 *)
Definition init : st := mkSt false (fun _ => Idle) (fun _ => false).

Definition goto (s : st) (t : tid) (p : pc) : st := mkSt (locked s) (upd (pcs s) t p) (has s).
Definition set_locked (s : st) (b : bool) : st := mkSt b (pcs s) (has s).
Definition set_has (s : st) (t : tid) (b : bool) : st := mkSt (locked s) (pcs s) (upd (has s) t b).

(* the caller believes a result true *)
Definition returns (s : st) (t : tid) (b : bool) : st :=
  if b then set_has (goto s t (Ret true)) t true else goto s t (Ret false).

(* One action of thread t: SpinLock.h:46-53, 60-63, 66-69 *)
Definition tstep (t : tid) (s : st) : option st :=
  match pcs s t with
  | Idle | Ret _ => None
  | L48 => Some (if locked s then set_locked s true else returns (set_locked s true) t true)
  | T62 => Some (returns (set_locked s true) t (locked s))
  | U68 => Some (goto (set_locked s false) t (Ret true))
  end.

Definition resting (p : pc) : bool := match p with Idle | Ret _ => true | _ => false end.

(* Clients: lock() (and the constructor of ScopedSpinLock, ScopedSpinLock.h:37-41) by a thread that does not
   have the lock; unlock() (and the destructor, ScopedSpinLock.h:44-47) by a thread that has it; tryLock() only
   if [try] is set.  Transitions are labelled with the thread that acts. *)
Inductive step (try : bool) : tid -> st -> st -> Prop :=
| step_thread : forall t s s', tstep t s = Some s' -> step try t s s'
| step_lock : forall t s, resting (pcs s t) = true -> has s t = false -> step try t s (goto s t L48)
| step_tryLock : forall t s, try = true -> resting (pcs s t) = true -> has s t = false -> step try t s (goto s t T62)
| step_unlock : forall t s, resting (pcs s t) = true -> has s t = true -> step try t s (goto (set_has s t false) t U68).
Definition any (try : bool) (s s' : st) : Prop := exists t, step try t s s'.
