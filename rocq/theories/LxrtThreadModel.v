(* A Thread on the LXRT implementation, as a concurrent program.
   icl_core_thread/ThreadImplLxrt38.cpp:36-60, 87-99, 147-171, 178-231 under icl_core_thread/Thread.cpp (ThreadModel).
   The actions of Thread itself are those of ThreadModel, except that m_impl->start() (196), m_impl->join() (142) and delete m_impl
   (91) are here the actions of this implementation; a new worker begins with 178-220 and then runs Thread::runThread() (222).
   RTAI by its documentation: rt_typed_sem_init makes a new semaphore, or answers NULL when the name, here the address of the object,
   is taken (names_unique; without it, it never does; lack of memory is not modelled); rt_sem_wait_barrier on a counting semaphore made with 2 returns when two have come to it; rt_task_init may answer
   NULL; pthread_*_rt are as in ThreadModel.
   The base state is moved on at pthread_create: from then on it counts the worker as created and start() as about to wait for it;
   both are kept from acting by [pre] and [ip] until they are past the barrier.
   Not modelled: cancel(), messages.  The real-time mode of the running thread is a machine of its own, at the end. *)
From Coq Require Import ZArith.
From Verif Require Import Conc ThreadModel.

(* what may fail: the semaphore when the name is taken, the RTAI task, pthread_create *)
Record env := mkEnv { names_unique : bool; task_null : bool; create_null : bool }.

(* the client inside the implementation *)
Inductive ipc :=
| Out                (* not in it *)
| I149               (* m_rt_start_sync = rt_typed_sem_init(...) *)
| I156               (* pthread_create *)
| I161               (* rt_sem_delete after a failed pthread_create *)
| I166               (* rt_sem_wait_barrier: about to come *)
| I166w (n : nat)    (* waiting at the barrier of semaphore n *)
| I170               (* return m_thread_id != 0; *)
| I51.               (* ~ThreadImplLxrt38 after join() *)
(* a worker before runThread() *)
Inductive ppc :=
| PNone
| P182               (* if (self->m_rt_start_sync == NULL) *)
| P190               (* rt_task_init *)
| P198               (* no task: rt_sem_wait_barrier *)
| P198w (n : nat)
| P220               (* rt_sem_wait_barrier *)
| P220w (n : nat)
| PRun               (* 222: in Thread::runThread(), or after it *)
| PFailed.           (* returned without runThread() *)

Record lst := mkL {
  base : st;
  ip : ipc;
  tid : nat;                  (* m_thread_id *)
  sync : option nat;          (* m_rt_start_sync *)
  made : nat;                 (* number of semaphores made *)
  live : nat -> bool;         (* not deleted yet *)
  arr : nat -> nat;           (* how many have come to the barrier *)
  pre : nat -> ppc
}.
(* ThreadImplLxrt38.cpp:36-44 *)
Definition linit : lst := mkL init Out 0 None 0 (fun _ => false) (fun _ => 0) (fun _ => PNone).

Definition with_base (s : lst) (b : st) : lst := mkL b (ip s) (tid s) (sync s) (made s) (live s) (arr s) (pre s).
Definition with_ip (s : lst) (i : ipc) : lst := mkL (base s) i (tid s) (sync s) (made s) (live s) (arr s) (pre s).
Definition with_tid (s : lst) (n : nat) : lst := mkL (base s) (ip s) n (sync s) (made s) (live s) (arr s) (pre s).
Definition with_pre (s : lst) (w : nat) (p : ppc) : lst := mkL (base s) (ip s) (tid s) (sync s) (made s) (live s) (arr s) (upd (pre s) w p).
Definition come (s : lst) (n : nat) : lst := mkL (base s) (ip s) (tid s) (sync s) (made s) (live s) (upd (arr s) n (S (arr s n))) (pre s).
Definition new_sem (s : lst) : lst := mkL (base s) (ip s) (tid s) (Some (made s)) (S (made s)) (upd (live s) (made s) true) (arr s) (pre s).
Definition no_sem (s : lst) : lst := mkL (base s) (ip s) (tid s) None (made s) (live s) (arr s) (pre s).
Definition del_sem (s : lst) (n : nat) : lst := mkL (base s) (ip s) (tid s) None (made s) (upd (live s) n false) (arr s) (pre s).
(* the pthread of worker w has ended *)
Definition over (s : lst) (w : nat) : bool := match pre s w with PFailed => true | PRun => ended (wpcs (base s) w) | _ => false end.
(* a semaphore of this object's name is there *)
Definition taken (s : lst) : bool := existsb (live s) (seq 0 (made s)).
Definition in_impl (p : cpc) : bool := match p with S196 | J142 _ | D91 => true | _ => false end.

(* One action of worker w: 178-231, and runThread() in it; fail: the answer of the environment *)
Definition lwstep (e : env) (fail : bool) (w : nat) (s : lst) : option lst :=
  match pre s w with
  | PNone | PFailed => None
  | P182 => Some (with_pre s w (match sync s with Some _ => P190 | None => PFailed end))
  | P190 => if fail && negb (task_null e) then None else Some (with_pre s w (if fail then P198 else P220))
  | P198 => match sync s with Some n => Some (with_pre (come s n) w (P198w n)) | None => None end
  | P220 => match sync s with Some n => Some (with_pre (come s n) w (P220w n)) | None => None end
  | P198w n => if 2 <=? arr s n then Some (with_pre s w PFailed) else None
  | P220w n => if 2 <=? arr s n then Some (with_pre s w PRun) else None
  | PRun => match wstep w (base s) with Some b => Some (with_base s b) | None => None end
  end.
(* One action of the client: start() 147-171, join() 87-99, destructor 46-60; elsewhere Thread itself *)
Definition lcstep (e : env) (b : bool) (s : lst) : option lst :=
  match ip s with
  | Out =>
    match cp (base s) with
    | S196 => Some (with_ip s I149)
    | J142 k => if tid s =? 0 then Some (with_base s (cgoto (base s) (J145 k)))                                (* 89 *)
                else if over s (tid s) then Some (with_tid (with_base s (cgoto (add_join (base s) (tid s)) (J145 k))) 0)   (* 95-97 *)
                else None
    | D91 => if tid s =? 0 then Some (with_ip s I51)                                                           (* 49 *)
             else if over s (tid s) then Some (with_tid (with_ip s I51) 0) else None
    | _ => match cstep b (base s) with Some b' => Some (with_base s b') | None => None end
    end
  | I149 => Some (if names_unique e && taken s then with_ip (no_sem s) I170 else with_ip (new_sem s) I156)
  | I156 => if b then Some (with_ip (with_pre (with_tid (with_base s (cgoto (wgoto (set_cur (base s) (S (cur (base s)))) (S (cur (base s))) WBegin) S206))
                                                (S (cur (base s)))) (S (cur (base s))) P182) I166)
            else if create_null e then Some (with_ip (with_tid s 0) I161) else None                             (* 158-159 *)
  | I161 => match sync s with Some n => Some (with_ip (del_sem s n) I170) | None => None end
  | I166 => match sync s with Some n => Some (with_ip (come s n) (I166w n)) | None => None end
  | I166w n => if 2 <=? arr s n then Some (with_ip s I170) else None
  | I170 => Some (with_ip (with_base s (cgoto (base s) (if tid s =? 0 then S198 else S206))) Out)
  | I51 => Some (with_ip (with_base (match sync s with Some n => del_sem s n | None => s end) (cgoto (base s) Destroyed)) Out)
  end.
Inductive lstep (e : env) : lst -> lst -> Prop :=
| l_worker : forall w f s s', lwstep e f w s = Some s' -> lstep e s s'
| l_client : forall b s s', lcstep e b s = Some s' -> lstep e s s'
| l_call : forall s p, ip s = Out -> resting (cp (base s)) = true -> call false p -> lstep e s (with_base s (cgoto (base s) p)).

(* The real-time mode of a task (true: hard).  obeys: rt_make_hard_real_time / rt_make_soft_real_time do what they are asked for.
   ThreadImplLxrt38.cpp:106-122, called by the thread itself; the answer and the new mode *)
Definition setHardRealtime (h obeys hrt : bool) : bool * bool :=
  if h && negb hrt then let m := if obeys then true else hrt in (m, m)
  else if negb h && hrt then let m := if obeys then false else hrt in (negb m, m)
  else (false, hrt).
(* PeriodicThread.cpp:144-179 with ThreadImplLxrt38.cpp:77-85: what is logged, and the mode in which it waits *)
Inductive said := Nothing | Info | Error.
Definition waitPeriod (priority : Z) (obeys hrt : bool) : said * bool :=
  let asked := (priority <? 0)%Z in
  if (asked && negb hrt) || (negb asked && hrt) then
    let (r, m) := setHardRealtime asked obeys hrt in (if r then Info else Error, m)
  else (Nothing, hrt).
(* the life of run(): waits, own calls of setHardRealtime, and RTAI taking hard real-time away (as at a Linux system call) *)
Inductive mode_event := EWait (obeys : bool) | ESet (h obeys : bool) | EDropped.
Fixpoint wait_modes (priority : Z) (l : list mode_event) (hrt : bool) : list bool :=
  match l with
  | [] => []
  | EWait o :: r => let m := snd (waitPeriod priority o hrt) in m :: wait_modes priority r m
  | ESet h o :: r => wait_modes priority r (snd (setHardRealtime h o hrt))
  | EDropped :: r => wait_modes priority r false
  end.
