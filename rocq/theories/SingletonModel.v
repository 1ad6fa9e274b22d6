(* Singleton<T>: icl_core/Singleton.hpp:34-69 with its policies, as a concurrent program.

   Any number of threads call instance(); one transition per access to the shared static members
   m_instance, m_destroyed, m_lock.  Memory is sequentially consistent: the two memoryBarrier()
   calls (Singleton.hpp:40, 53; SingletonThreadingModels.h:45-54 of icl_core_thread) are what makes
   this assumption reasonable and are not modelled further.  A constructor of T that throws or that
   itself calls instance() is not modelled. *)
From Verif Require Import Conc.

(* Objects are numbered in the order of their creation. *)
Inductive outcome := ROk (obj : nat) | RNull (* reference to *NULL: undefined behaviour *) | RThrow.

(* program counter of a thread inside instance() / destroySingleton(), named by source line *)
Inductive pc :=
| Idle
| L39                       (* T *temp = m_instance; *)
| L41 (temp : option nat)   (* if (temp == NULL) *)
| L43                       (* Guard guard(m_lock); *)
| L44                       (* temp = m_instance; *)
| L45 (temp : option nat)   (* if (temp == NULL) *)
| L47                       (* if (m_destroyed) onDeadReference(), m_destroyed = false; *)
| L52                       (* temp = create(); *)
| L54 (temp : nat)          (* m_instance = temp; *)
| L55                       (* scheduleDestruction(&destroySingleton); *)
| L57                       (* guard goes out of scope *)
| L57throw                  (* the exception leaves the guarded block: guard is destroyed, the call throws *)
| L58                       (* return *m_instance; *)
| Done (r : outcome)
| L66 | L67 | L68.          (* destroySingleton() *)

Record st := mkSt {
  m_instance : option nat;
  m_destroyed : bool;
  m_lock : option tid;        (* the owner *)
  created : nat;              (* objects created so far *)
  dead : list nat;            (* objects destroyed so far *)
  atexits : nat;              (* pending registrations of destroySingleton *)
  pcs : tid -> pc;
  late : tid -> bool          (* history: m_destroyed when the thread's last call started *)
}.
(* static initialisation, Singleton.hpp:74, 79, 84 *)
Definition init : st := mkSt None false None 0 [] 0 (fun _ => Idle) (fun _ => false).

Record config := mkConfig {
  locking : bool;   (* true: STMMultiThreadedWithMutex; false: STMSingleThreaded (Guard and Lock are int) *)
  phoenix : bool;   (* false: SLPDefaultLifetime, onDeadReference throws; true: it returns *)
  destroys : bool   (* true: scheduleDestruction registers (SLPDefaultLifetime); false: SLPNoDestroy *)
}.

Definition goto (s : st) (t : tid) (p : pc) : st :=
  mkSt (m_instance s) (m_destroyed s) (m_lock s) (created s) (dead s) (atexits s) (upd (pcs s) t p) (late s).

(* One action of thread t; None: it cannot move.  Singleton.hpp:37-69. *)
Definition tstep (c : config) (t : tid) (s : st) : option st :=
  match pcs s t with
  | Idle | Done _ => None
  | L39 => Some (goto s t (L41 (m_instance s)))
  | L41 None => Some (goto s t L43)
  | L41 (Some _) => Some (goto s t L58)
  | L43 =>
    if locking c then
      match m_lock s with
      | None => Some (mkSt (m_instance s) (m_destroyed s) (Some t) (created s) (dead s) (atexits s)
                           (upd (pcs s) t L44) (late s))
      | Some _ => None
      end
    else Some (goto s t L44)
  | L44 => Some (goto s t (L45 (m_instance s)))
  | L45 None => Some (goto s t L47)
  | L45 (Some _) => Some (goto s t L57)
  | L47 =>
    if m_destroyed s then
      if phoenix c then
        Some (mkSt (m_instance s) false (m_lock s) (created s) (dead s) (atexits s) (upd (pcs s) t L52) (late s))
      else Some (goto s t L57throw)
    else Some (goto s t L52)
  | L52 => Some (mkSt (m_instance s) (m_destroyed s) (m_lock s) (S (created s)) (dead s) (atexits s)
                      (upd (pcs s) t (L54 (created s))) (late s))
  | L54 x => Some (mkSt (Some x) (m_destroyed s) (m_lock s) (created s) (dead s) (atexits s)
                        (upd (pcs s) t L55) (late s))
  | L55 => Some (mkSt (m_instance s) (m_destroyed s) (m_lock s) (created s) (dead s)
                      (if destroys c then S (atexits s) else atexits s) (upd (pcs s) t L57) (late s))
  | L57 => Some (mkSt (m_instance s) (m_destroyed s) (if locking c then None else m_lock s) (created s) (dead s)
                      (atexits s) (upd (pcs s) t L58) (late s))
  | L57throw => Some (mkSt (m_instance s) (m_destroyed s) (if locking c then None else m_lock s) (created s) (dead s)
                      (atexits s) (upd (pcs s) t (Done RThrow)) (late s))
  | L58 => Some (goto s t (Done (match m_instance s with Some x => ROk x | None => RNull end)))
  | L66 => Some (mkSt (m_instance s) (m_destroyed s) (m_lock s) (created s)
                      (match m_instance s with Some x => x :: dead s | None => dead s end)
                      (atexits s) (upd (pcs s) t L67) (late s))
  | L67 => Some (mkSt None (m_destroyed s) (m_lock s) (created s) (dead s) (atexits s) (upd (pcs s) t L68) (late s))
  | L68 => Some (mkSt (m_instance s) true (m_lock s) (created s) (dead s) (atexits s) (upd (pcs s) t Idle) (late s))
  end.

(* destroySingleton() run to completion, Singleton.hpp:64-69 *)
Definition destroySingleton (s : st) : st :=
  mkSt None true (m_lock s) (created s)
       (match m_instance s with Some x => x :: dead s | None => dead s end) (atexits s) (pcs s) (late s).

Definition resting (p : pc) : Prop := match p with Idle | Done _ => True | _ => False end.

(* When the runtime may run a registered destroySingleton (process exit). *)
Inductive exit_mode :=
| Quiescent   (* no thread is inside instance(), and none enters it before destroySingleton returns *)
| Anytime.    (* while other threads are still running *)

Definition set_atexits (s : st) (n : nat) : st :=
  mkSt (m_instance s) (m_destroyed s) (m_lock s) (created s) (dead s) n (pcs s) (late s).

Inductive step (c : config) : exit_mode -> st -> st -> Prop :=
| step_thread : forall m t s s', tstep c t s = Some s' -> step c m s s'
| step_call : forall m t s, resting (pcs s t) ->
    step c m s (mkSt (m_instance s) (m_destroyed s) (m_lock s) (created s) (dead s) (atexits s)
                     (upd (pcs s) t L39) (upd (late s) t (m_destroyed s)))
| step_exit_quiescent : forall s n, atexits s = S n -> (forall u, resting (pcs s u)) ->
    step c Quiescent s (destroySingleton (set_atexits s n))
| step_exit_anytime : forall t s n, atexits s = S n -> resting (pcs s t) ->
    step c Anytime s (goto (set_atexits s n) t L66).
