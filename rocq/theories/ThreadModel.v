(* Thread on the Posix implementation, as a concurrent program.
   icl_core_thread/Thread.cpp:49-107, 138-146, 176-303, 495-502; icl_core_thread/Thread.h:117, 153, 189;
   icl_core_thread/ThreadImplPosix.cpp:46-54, 91-112.

   One Thread object; one client thread makes all the calls on it; every pthread_create gives a new worker, which
   executes runThread().  One transition per access to a shared variable; memory is sequentially consistent (the
   flags are plain bools in the code).  Modelled by their documented behaviour: pthread_create (succeeds or fails,
   as the environment decides), pthread_join (returns when that thread has ended), pthread_cancel (the target ends
   at some later point of its run(), if it gets to one; no other cancellation points), and m_thread_mutex (a
   recursive mutex which nobody else uses, so here a lock with an owner; it stays locked when its owner is
   cancelled).  The clock is not modelled: a timed wait may end at any moment, and TimeStamp::now() < until may
   have either answer.  run() of the derived class may end at any moment and does not call the Thread's own
   methods.  Not modelled: setHardRealtime, priorities, descriptions, ids, and m_thread_info, except that the
   worker reads the object once more for the log line 247.  makePeriodic() does nothing (504-506). *)
From Verif Require Import Conc.

Inductive wpc :=
| WNone          (* not created *)
| WBegin         (* 227-229 *)
| W231           (* m_thread_mutex.lock(); *)
| W232           (* m_execute = true; *)
| W233           (* m_starting = false; *)
| W234           (* m_finished = false; *)
| WRun           (* 241: inside run() *)
| W243           (* m_execute = false; *)
| W244           (* m_thread_mutex.unlock(); *)
| W245           (* m_finished = true; *)
| W247           (* LOGGING_TRACE_CO(... threadInfo() ...) *)
| WEnd           (* returned *)
| WCancelled.    (* ended by pthread_cancel *)

(* who called join() *)
Inductive jk := KJoin | KStart | KWait | KDtor.

Inductive cpc :=
| Idle
| RStart (b : bool)      (* start() has returned b *)
| RWait (b : bool)       (* wait(...) has returned b *)
| RStop | RCancel | RJoin
| Destroyed
| S179a                  (* start: if (m_starting || *)
| S179b                  (*        running()) *)
| S181                   (* waitStarted(); *)
| S183                   (* return running(); *)
| S186                   (* m_starting = true; *)
| S187                   (* m_finished = false; *)
| S189                   (* if (!m_joined) *)
| S194                   (* m_joined = false; *)
| S196                   (* if (!m_impl->start()) *)
| S198 | S199 | S200     (* m_finished = true; m_starting = false; m_joined = true; return false; *)
| S206                   (* waitStarted(); return true; *)
| J140 (k : jk)          (* join: if (running()) *)
| J142 (k : jk)          (* m_impl->join(); *)
| J145 (k : jk)          (* m_joined = true; *)
| P189 (k : bool)        (* stop: waitStarted();         k: called by the destructor *)
| P189b (k : bool)       (*       m_execute = false; *)
| T259 (tm : bool)       (* wait: if (m_joined) return true;    tm: until is not maxTime() *)
| T264 (tm : bool)       (* waitStarted(); *)
| T266 (tm : bool)       (* if (m_finished) *)
| T270 (tm : bool)       (* m_thread_mutex.lock() *)
| T273                   (* m_thread_mutex.unlock(); *)
| T275                   (* else if (TimeStamp::now() < until) *)
| T282                   (* while (TimeStamp::now() < until && !m_finished) *)
| T288                   (* if (m_finished) *)
| C98                    (* cancel: waitStarted(); *)
| C99                    (* if (running()) *)
| C102 | C103 | C104     (* m_execute = false; m_impl->cancel(); m_finished = true; *)
| D85                    (* ~Thread: if (!m_joined) *)
| D91.                   (* delete m_impl; ... *)

Inductive owner := OClient | OWorker (w : nat).

Record st := mkSt {
  m_execute : bool;
  m_finished : bool;
  m_joined : bool;
  m_starting : bool;
  mutex : option owner;           (* m_thread_mutex *)
  cur : nat;                      (* m_impl->m_thread_id: number of the last worker created; 0: none *)
  creq : nat -> bool;             (* pthread_cancel was called for that worker *)
  wpcs : nat -> wpc;
  cp : cpc;
  joins : nat -> nat              (* history: how often pthread_join returned for that worker *)
}.
(* Thread.cpp:49-57 *)
Definition init : st := mkSt false true true false None 0 (fun _ => false) (fun _ => WNone) Idle (fun _ => 0).

Definition cgoto (s : st) (p : cpc) : st :=
  mkSt (m_execute s) (m_finished s) (m_joined s) (m_starting s) (mutex s) (cur s) (creq s) (wpcs s) p (joins s).
Definition wgoto (s : st) (w : nat) (p : wpc) : st :=
  mkSt (m_execute s) (m_finished s) (m_joined s) (m_starting s) (mutex s) (cur s) (creq s) (upd (wpcs s) w p) (cp s) (joins s).
Definition set_execute (s : st) (b : bool) : st :=
  mkSt b (m_finished s) (m_joined s) (m_starting s) (mutex s) (cur s) (creq s) (wpcs s) (cp s) (joins s).
Definition set_finished (s : st) (b : bool) : st :=
  mkSt (m_execute s) b (m_joined s) (m_starting s) (mutex s) (cur s) (creq s) (wpcs s) (cp s) (joins s).
Definition set_joined (s : st) (b : bool) : st :=
  mkSt (m_execute s) (m_finished s) b (m_starting s) (mutex s) (cur s) (creq s) (wpcs s) (cp s) (joins s).
Definition set_starting (s : st) (b : bool) : st :=
  mkSt (m_execute s) (m_finished s) (m_joined s) b (mutex s) (cur s) (creq s) (wpcs s) (cp s) (joins s).
Definition set_mutex (s : st) (o : option owner) : st :=
  mkSt (m_execute s) (m_finished s) (m_joined s) (m_starting s) o (cur s) (creq s) (wpcs s) (cp s) (joins s).
Definition set_cur (s : st) (n : nat) : st :=
  mkSt (m_execute s) (m_finished s) (m_joined s) (m_starting s) (mutex s) n (creq s) (wpcs s) (cp s) (joins s).
Definition set_creq (s : st) (w : nat) : st :=
  mkSt (m_execute s) (m_finished s) (m_joined s) (m_starting s) (mutex s) (cur s) (upd (creq s) w true) (wpcs s) (cp s) (joins s).
Definition add_join (s : st) (w : nat) : st :=
  mkSt (m_execute s) (m_finished s) (m_joined s) (m_starting s) (mutex s) (cur s) (creq s) (wpcs s) (cp s)
       (upd (joins s) w (S (joins s w))).

(* One action of worker w: Thread::runThread, Thread.cpp:217-248.  None: it must wait, or has nothing to do. *)
Definition wstep (w : nat) (s : st) : option st :=
  match wpcs s w with
  | WNone | WEnd | WCancelled => None
  | WBegin => Some (wgoto s w W231)
  | W231 => match mutex s with None => Some (wgoto (set_mutex s (Some (OWorker w))) w W232) | Some _ => None end
  | W232 => Some (wgoto (set_execute s true) w W233)
  | W233 => Some (wgoto (set_starting s false) w W234)
  | W234 => Some (wgoto (set_finished s false) w WRun)
  | WRun => Some (wgoto s w W243)
  | W243 => Some (wgoto (set_execute s false) w W244)
  | W244 => Some (wgoto (set_mutex s None) w W245)
  | W245 => Some (wgoto (set_finished s true) w W247)
  | W247 => Some (wgoto s w WEnd)
  end.

(* where join() returns to *)
Definition jret (k : jk) : cpc := match k with KJoin => RJoin | KStart => S194 | KWait => RWait true | KDtor => D91 end.
Definition ended (p : wpc) : bool := match p with WEnd | WCancelled => true | _ => false end.

(* One action of the client; b resolves the choices of the environment (pthread_create succeeds; the clock).
   start 176-210, join 138-146, stop Thread.h:189, wait 255-303, cancel 95-107, ~Thread 83-93. *)
Definition cstep (b : bool) (s : st) : option st :=
  match cp s with
  | Idle | RStart _ | RWait _ | RStop | RCancel | RJoin | Destroyed => None
  | S179a => Some (cgoto s (if m_starting s then S181 else S179b))
  | S179b => Some (cgoto s (if m_finished s then S186 else S181))
  | S181 => if m_starting s then None else Some (cgoto s S183)
  | S183 => Some (cgoto s (RStart (negb (m_finished s))))
  | S186 => Some (cgoto (set_starting s true) S187)
  | S187 => Some (cgoto (set_finished s false) S189)
  | S189 => Some (cgoto s (if m_joined s then S194 else J140 KStart))
  | S194 => Some (cgoto (set_joined s false) S196)
  | S196 => Some (if b then cgoto (wgoto (set_cur s (S (cur s))) (S (cur s)) WBegin) S206 else cgoto s S198)
  | S198 => Some (cgoto (set_finished s true) S199)
  | S199 => Some (cgoto (set_starting s false) S200)
  | S200 => Some (cgoto (set_joined s true) (RStart false))
  | S206 => if m_starting s then None else Some (cgoto s (RStart true))
  | J140 k => Some (cgoto s (if m_finished s then J145 k else J142 k))
  | J142 k => if ended (wpcs s (cur s)) then Some (cgoto (add_join s (cur s)) (J145 k)) else None
  | J145 k => Some (cgoto (set_joined s true) (jret k))
  | P189 k => if m_starting s then None else Some (cgoto s (P189b k))
  | P189b k => Some (cgoto (set_execute s false) (if k then J140 KDtor else RStop))
  | T259 tm => Some (cgoto s (if m_joined s then RWait true else T264 tm))
  | T264 tm => if m_starting s then None else Some (cgoto s (T266 tm))
  | T266 tm => Some (cgoto s (if m_finished s then J140 KWait else T270 tm))
  | T270 tm => match mutex s with None => Some (cgoto (set_mutex s (Some OClient)) T273) | Some _ => if tm && b then Some (cgoto s T275) else None end
  | T273 => Some (cgoto (set_mutex s None) T288)
  | T275 => Some (cgoto s (if b then T282 else T288))
  | T282 => Some (cgoto s (if b && negb (m_finished s) then T282 else T288))
  | T288 => Some (cgoto s (if m_finished s then J140 KWait else RWait false))
  | C98 => if m_starting s then None else Some (cgoto s C99)
  | C99 => Some (cgoto s (if m_finished s then RCancel else C102))
  | C102 => Some (cgoto (set_execute s false) C103)
  | C103 => Some (cgoto (set_creq s (cur s)) C104)
  | C104 => Some (cgoto (set_finished s true) RCancel)
  | D85 => Some (cgoto s (if m_joined s then D91 else P189 true))
  | D91 => Some (cgoto s Destroyed)
  end.

Definition resting (p : cpc) : bool :=
  match p with Idle | RStart _ | RWait _ | RStop | RCancel | RJoin => true | _ => false end.

(* the calls of the client *)
Inductive call : bool -> cpc -> Prop :=
| call_start c : call c S179a
| call_wait c tm : call c (T259 tm)
| call_stop c : call c (P189 false)
| call_join c : call c (J140 KJoin)
| call_cancel : call true C98
| call_dtor c : call c D85.

(* [c]: the client uses cancel() *)
Inductive step (c : bool) : st -> st -> Prop :=
| step_worker : forall w s s', wstep w s = Some s' -> step c s s'
| step_cancelled : forall w s, wpcs s w = WRun -> creq s w = true -> step c s (wgoto s w WCancelled)
| step_client : forall b s s', cstep b s = Some s' -> step c s s'
| step_call : forall s p, resting (cp s) = true -> call c p -> step c s (cgoto s p).
