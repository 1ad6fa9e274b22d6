(* The worker thread of a log output stream, as a concurrent program.
   icl_core_logging/LogOutputStream.cpp:153-170, 508-527, 543-551, 562-636; icl_core_logging/Thread.cpp:42-48, 84-149;
   icl_core_logging/Thread.h:64, 80, 94; icl_core_logging/ThreadImplPosix.cpp:39-60; icl_core_logging/SemaphoreImplPosix.cpp:44-52.

   Any number of threads call push() with messages that pass the level test (148); one thread calls start() and shutdown();
   the worker.  One transition per access to shared data; memory is sequentially consistent (the flags of Thread are plain bools).
   sem_wait fails only when it is interrupted by a signal: transitions step_intr_*, only if [intr] is set.
   pushImpl of a message is one transition.  onStart and onShutdown of the derived classes are not modelled. *)
From Verif Require Import Conc.

Definition msg := nat.
Inductive holder := Free | ByWorker | ByPusher (t : tid).

Inductive ppc :=                          (* push(): *)
| PIdle
| P156 (m : msg)                          (* m_mutex->wait() *)
| P165 (m : msg)                          (* m_message_queue.push(new_entry) *)
| P167                                    (* m_mutex->post() *)
| P168.                                   (* m_fill_count->post() *)

Inductive wpc :=                          (* the worker *)
| WOff                                    (* does not exist *)
| W132 | W133 | W134                      (* runThread(): m_execute = true; m_starting = false; m_finished = false *)
| W567                                    (* while (execute()) *)
| W569                                    (* m_fill_count->wait() *)
| W606                                    (* else if (execute()) *)
| W574                                    (* !m_message_queue.empty(), without the mutex *)
| W577                                    (* m_mutex->wait() *)
| W589                                    (* if (!empty()) { front(); pop(); } *)
| W597 (o : option msg)                   (* m_mutex->post() *)
| W601 (m : msg)                          (* pushImpl *)
| W614                                    (* m_mutex->wait() *)
| W624                                    (* while (!empty()) { front(); pop(); pushImpl } *)
| W632                                    (* m_mutex->post() *)
| W138 | W139                             (* m_execute = false; m_finished = true *)
| WEnd.                                   (* has returned and has not been joined *)

Inductive cpc :=                          (* the thread that calls start() and shutdown() *)
| CIdle
| S97                                     (* if (m_starting || running()) *)
| S99                                     (* waitStarted() *)
| S104 | S105                             (* m_starting = true; m_finished = false *)
| S107                                    (* if (!m_joined) *)
| S109                                    (* pthread_join *)
| S112                                    (* m_joined = false *)
| S114                                    (* pthread_create *)
| S144                                    (* waitStarted() *)
| CStarted (ok : bool)                    (* start() has returned *)
| D520                                    (* if (running()) *)
| D94                                     (* stop(): waitStarted() *)
| D522                                    (* stop(): m_execute = false *)
| D523                                    (* m_fill_count->post() *)
| J86                                     (* join(): if (running()) *)
| J88                                     (* pthread_join *)
| J91                                     (* m_joined = true *)
| CStopped                                (* shutdown() has returned after stopping the worker *)
| CNothing.                               (* shutdown() has returned: there was no worker *)

Record st := mkSt {
  mx : holder; fill : nat;                (* m_mutex, m_fill_count *)
  queue : list msg;                       (* m_message_queue *)
  exec : bool; finished : bool; joined : bool; starting : bool;
  wk : wpc; ctl : cpc; pu : tid -> ppc;
  pushed : list msg; out : list msg;      (* history: the messages put into the queue, and given to pushImpl *)
  waiting : list tid;                     (* history: the threads at P167 and P168 *)
  mark : nat;                             (* history: the length of pushed when shutdown() was last called *)
  leaked : nat                            (* history: the number of workers that were never joined *)
}.
(* LogOutputStream.cpp:544-550, Thread.cpp:42-47 *)
Definition init : st := mkSt Free 0 [] false true true false WOff CIdle (fun _ => PIdle) [] [] [] 0 0.

Definition set_mx s x := mkSt x (fill s) (queue s) (exec s) (finished s) (joined s) (starting s) (wk s) (ctl s) (pu s) (pushed s) (out s) (waiting s) (mark s) (leaked s).
Definition set_fill s x := mkSt (mx s) x (queue s) (exec s) (finished s) (joined s) (starting s) (wk s) (ctl s) (pu s) (pushed s) (out s) (waiting s) (mark s) (leaked s).
Definition set_queue s x := mkSt (mx s) (fill s) x (exec s) (finished s) (joined s) (starting s) (wk s) (ctl s) (pu s) (pushed s) (out s) (waiting s) (mark s) (leaked s).
Definition set_exec s x := mkSt (mx s) (fill s) (queue s) x (finished s) (joined s) (starting s) (wk s) (ctl s) (pu s) (pushed s) (out s) (waiting s) (mark s) (leaked s).
Definition set_finished s x := mkSt (mx s) (fill s) (queue s) (exec s) x (joined s) (starting s) (wk s) (ctl s) (pu s) (pushed s) (out s) (waiting s) (mark s) (leaked s).
Definition set_joined s x := mkSt (mx s) (fill s) (queue s) (exec s) (finished s) x (starting s) (wk s) (ctl s) (pu s) (pushed s) (out s) (waiting s) (mark s) (leaked s).
Definition set_starting s x := mkSt (mx s) (fill s) (queue s) (exec s) (finished s) (joined s) x (wk s) (ctl s) (pu s) (pushed s) (out s) (waiting s) (mark s) (leaked s).
Definition set_wk s x := mkSt (mx s) (fill s) (queue s) (exec s) (finished s) (joined s) (starting s) x (ctl s) (pu s) (pushed s) (out s) (waiting s) (mark s) (leaked s).
Definition set_ctl s x := mkSt (mx s) (fill s) (queue s) (exec s) (finished s) (joined s) (starting s) (wk s) x (pu s) (pushed s) (out s) (waiting s) (mark s) (leaked s).
Definition set_pu s t p := mkSt (mx s) (fill s) (queue s) (exec s) (finished s) (joined s) (starting s) (wk s) (ctl s) (upd (pu s) t p) (pushed s) (out s) (waiting s) (mark s) (leaked s).
Definition set_out s x := mkSt (mx s) (fill s) (queue s) (exec s) (finished s) (joined s) (starting s) (wk s) (ctl s) (pu s) (pushed s) x (waiting s) (mark s) (leaked s).
Definition set_pushed s x := mkSt (mx s) (fill s) (queue s) (exec s) (finished s) (joined s) (starting s) (wk s) (ctl s) (pu s) x (out s) (waiting s) (mark s) (leaked s).
Definition set_waiting s x := mkSt (mx s) (fill s) (queue s) (exec s) (finished s) (joined s) (starting s) (wk s) (ctl s) (pu s) (pushed s) (out s) x (mark s) (leaked s).
Definition set_mark s x := mkSt (mx s) (fill s) (queue s) (exec s) (finished s) (joined s) (starting s) (wk s) (ctl s) (pu s) (pushed s) (out s) (waiting s) x (leaked s).
Definition set_leaked s x := mkSt (mx s) (fill s) (queue s) (exec s) (finished s) (joined s) (starting s) (wk s) (ctl s) (pu s) (pushed s) (out s) (waiting s) (mark s) x.

(* One action of a pushing thread *)
Definition pstep (t : tid) (s : st) : option st :=
  match pu s t with
  | PIdle => None
  | P156 m => match mx s with Free => Some (set_pu (set_mx s (ByPusher t)) t (P165 m)) | _ => None end
  | P165 m => Some (set_pu (set_waiting (set_pushed (set_queue s (queue s ++ [m])) (pushed s ++ [m])) (t :: waiting s)) t P167)
  | P167 => Some (set_pu (set_mx s Free) t P168)
  | P168 => Some (set_pu (set_waiting (set_fill s (S (fill s))) (remove Nat.eq_dec t (waiting s))) t PIdle)
  end.

(* One action of the worker *)
Definition wstep (s : st) : option st :=
  match wk s with
  | WOff | WEnd => None
  | W132 => Some (set_wk (set_exec s true) W133)
  | W133 => Some (set_wk (set_starting s false) W134)
  | W134 => Some (set_wk (set_finished s false) W567)
  | W567 => Some (set_wk s (if exec s then W569 else W614))
  | W569 => match fill s with O => None | S n => Some (set_wk (set_fill s n) W574) end
  | W606 => Some (set_wk s W567)          (* whether it sleeps first makes no difference *)
  | W574 => Some (set_wk s (match queue s with [] => W567 | _ => W577 end))
  | W577 => match mx s with Free => Some (set_wk (set_mx s ByWorker) W589) | _ => None end
  | W589 => Some (match queue s with [] => set_wk s (W597 None) | m :: r => set_wk (set_queue s r) (W597 (Some m)) end)
  | W597 o => Some (set_wk (set_mx s Free) (match o with Some m => W601 m | None => W567 end))
  | W601 m => Some (set_wk (set_out s (out s ++ [m])) W567)
  | W614 => match mx s with Free => Some (set_wk (set_mx s ByWorker) W624) | _ => None end
  | W624 => Some (match queue s with [] => set_wk s W632 | m :: r => set_out (set_queue s r) (out s ++ [m]) end)
  | W632 => Some (set_wk (set_mx s Free) W138)
  | W138 => Some (set_wk (set_exec s false) W139)
  | W139 => Some (set_wk (set_finished s true) WEnd)
  end.

(* One action of the thread that calls start() and shutdown() *)
Definition cstep (s : st) : option st :=
  match ctl s with
  | CIdle | CStarted _ | CStopped | CNothing => None
  | S97 => Some (set_ctl s (if starting s || negb (finished s) then S99 else S104))
  | S99 => if starting s then None else Some (set_ctl s (CStarted (negb (finished s))))
  | S104 => Some (set_ctl (set_starting s true) S105)
  | S105 => Some (set_ctl (set_finished s false) S107)
  | S107 => Some (set_ctl s (if joined s then S112 else S109))
  | S109 => match wk s with WEnd => Some (set_ctl (set_joined (set_wk s WOff) true) S112) | _ => None end
  | S112 => Some (set_ctl (set_joined s false) S114)
  | S114 => Some (set_ctl (set_wk (set_leaked s (match wk s with WEnd => S (leaked s) | _ => leaked s end)) W132) S144)
  | S144 => if starting s then None else Some (set_ctl s (CStarted true))
  | D520 => Some (set_ctl s (if finished s then CNothing else D94))
  | D94 => if starting s then None else Some (set_ctl s D522)
  | D522 => Some (set_ctl (set_exec s false) D523)
  | D523 => Some (set_ctl (set_fill s (S (fill s))) J86)
  | J86 => Some (set_ctl s (if finished s then J91 else J88))
  | J88 => match wk s with WEnd => Some (set_ctl (set_wk s WOff) J91) | _ => None end
  | J91 => Some (set_ctl (set_joined s true) CStopped)
  end.

Definition resting (c : cpc) : bool := match c with CIdle | CStarted _ | CStopped | CNothing => true | _ => false end.

Inductive step (intr : bool) : st -> st -> Prop :=
| step_push : forall s t s', pstep t s = Some s' -> step intr s s'
| step_worker : forall s s', wstep s = Some s' -> step intr s s'
| step_ctl : forall s s', cstep s = Some s' -> step intr s s'
| step_call_push : forall s t m, pu s t = PIdle -> step intr s (set_pu s t (P156 m))
| step_call_start : forall s, resting (ctl s) = true -> step intr s (set_ctl s S97)
| step_call_shutdown : forall s, resting (ctl s) = true -> step intr s (set_ctl (set_mark s (length (pushed s))) D520)
(* pthread_create fails: Thread.cpp:114-121 *)
| step_no_thread : forall s, ctl s = S114 -> step intr s (set_ctl (set_joined (set_starting (set_finished s true) false) true) (CStarted false))
(* sem_wait is interrupted: LogOutputStream.cpp:156, 569, 577, 614 *)
| step_intr_push : forall s t m, intr = true -> pu s t = P156 m -> step intr s (set_pu s t PIdle)
| step_intr_fill : forall s, intr = true -> wk s = W569 -> step intr s (set_wk s W606)
| step_intr_pop : forall s, intr = true -> wk s = W577 -> step intr s (set_wk s W567)
| step_intr_drain : forall s, intr = true -> wk s = W614 -> step intr s (set_wk s W138).

(* The message queue of fixed size, LogOutputStream.cpp:530-542, 581-588, 639-659 (LXRT only): size + 1 cells, two indices.
   size_t arithmetic is written out for the only subtractions, m_message_queue_read_index - 1 and m_message_queue_size - 1. *)
Record fixed := mkFixed { size : nat; cells : list msg; wr : nat; rd : nat }.
Definition new_fixed (n : nat) : fixed := mkFixed n (repeat 0 (n + 1)) 0 0.
(* 640-647 *)
Definition incrementIndex (n i : nat) : nat := if n <=? S i then 0 else S i.
Definition isEmpty (q : fixed) : bool := rd q =? wr q.
(* 654-659; x - 1 for x = 0 is the largest size_t, which no index equals *)
Definition isFull (q : fixed) : bool :=
  (match rd q with 0 => false | S r => wr q =? r end) || ((match size q with 0 => false | S z => wr q =? z end) && (rd q =? 0)).
(* 159-163 *)
Definition fpush (q : fixed) (m : msg) : result fixed :=
  if isFull q then Ok q else bind (vec_set (cells q) (wr q) m) (fun c => Ok (mkFixed (size q) c (incrementIndex (size q) (wr q)) (rd q))).
(* 582-587 *)
Definition fpop (q : fixed) : result (option msg * fixed) :=
  if isEmpty q then Ok (None, q)
  else bind (vec_get (cells q) (rd q)) (fun m => Ok (Some m, mkFixed (size q) (cells q) (wr q) (incrementIndex (size q) (rd q)))).
