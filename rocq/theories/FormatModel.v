(* The log format of an output stream under concurrent use: LogOutputStream::changeLogFormat (LogOutputStream.cpp:125-141),
   parseLogFormat's appending to m_new_log_format (393-506) and pushImpl's loop over m_log_format (182-296).
   A format is the list of entries that parseLogFormat makes of it (C48); one transition appends one entry, or prints one.
   The two assignments of lists are one transition each.  Appending and assigning m_new_log_format is not protected by the mutex in
   the code either: two threads doing so at once race (undefined behaviour in C++); here each append is still atomic.
   wait() fails only when interrupted by a signal (SemaphoreImplPosix.cpp:44-52): only if [ic] is set for
   the one in changeLogFormat, and [ip] for the one in pushImpl. *)
From Verif Require Import Conc.

Section Format.
  Context {E : Type}.                      (* LogFormatEntry *)
  Inductive fpc :=
  | Idle
  | F130 (rest : list E)                   (* parseLogFormat(format): entries still to be appended to m_new_log_format *)
  | F132                                   (* m_format_mutex.wait() *)
  | F134                                   (* m_log_format.clear() *)
  | F135                                   (* m_log_format = m_new_log_format *)
  | F136                                   (* m_new_log_format.clear() *)
  | F138                                   (* m_format_mutex.post() *)
  | G184                                   (* pushImpl: m_format_mutex.wait() *)
  | G187 (done : list E)                   (* the loop: what has been printed into msg *)
  | G292.                                  (* m_format_mutex.post() *)
  Record fst_ := mkF {
    mx : option tid;                       (* m_format_mutex: 1 is None *)
    log : list E; new : list E;            (* m_log_format, m_new_log_format *)
    pc : tid -> fpc;
    asked : list (list E);                 (* history: the formats given to changeLogFormat, the latest first; then the default *)
    lines : list (list E)                  (* history: the entries of each line printed *)
  }.
  (* LogOutputStream.cpp:88-94: after the constructor *)
  Definition finit (dflt : list E) : fst_ := mkF None dflt [] (fun _ => Idle) [dflt] [].
  Definition goto (s : fst_) (t : tid) (p : fpc) : fst_ := mkF (mx s) (log s) (new s) (upd (pc s) t p) (asked s) (lines s).
  Definition set_mx (s : fst_) x : fst_ := mkF x (log s) (new s) (pc s) (asked s) (lines s).
  Definition set_log (s : fst_) x : fst_ := mkF (mx s) x (new s) (pc s) (asked s) (lines s).
  Definition set_new (s : fst_) x : fst_ := mkF (mx s) (log s) x (pc s) (asked s) (lines s).

  (* one action of thread t *)
  Definition fact (t : tid) (s : fst_) : option fst_ :=
    match pc s t with
    | Idle => None
    | F130 [] => Some (goto s t F132)
    | F130 (e :: r) => Some (goto (set_new s (new s ++ [e])) t (F130 r))
    | F132 => match mx s with None => Some (goto (set_mx s (Some t)) t F134) | _ => None end
    | F134 => Some (goto (set_log s []) t F135)
    | F135 => Some (goto (set_log s (new s)) t F136)
    | F136 => Some (goto (set_new s []) t F138)
    | F138 => Some (goto (set_mx s None) t Idle)
    | G184 => match mx s with None => Some (goto (set_mx s (Some t)) t (G187 [])) | _ => None end
    | G187 d => match nth_error (log s) (length d) with
                | Some e => Some (goto s t (G187 (d ++ [e])))
                | None => Some (goto (mkF (mx s) (log s) (new s) (pc s) (asked s) (d :: lines s)) t G292)
                end
    | G292 => Some (goto (set_mx s None) t Idle)
    end.
  Definition changing (p : fpc) : bool := match p with F130 _ | F132 | F134 | F135 | F136 | F138 => true | _ => false end.
  (* single: changeLogFormat is not called while another call is under way; ic, ip: signals may interrupt wait() *)
  Inductive fstep (single ic ip : bool) : fst_ -> fst_ -> Prop :=
  | f_act : forall t s s', fact t s = Some s' -> fstep single ic ip s s'
  | f_change : forall t f s, pc s t = Idle -> (single = true -> forall u, changing (pc s u) = false) ->
      fstep single ic ip s (goto (mkF (mx s) (log s) (new s) (pc s) (f :: asked s) (lines s)) t (F130 f))
  | f_print : forall t s, pc s t = Idle -> fstep single ic ip s (goto s t G184)
  | f_intr : forall t s, ic = true /\ pc s t = F132 \/ ip = true /\ pc s t = G184 -> fstep single ic ip s (goto s t Idle).
End Format.
Arguments fpc : clear implicits.
Arguments fst_ : clear implicits.
