(* The pool of thread streams of a log stream, as a concurrent program.
   icl_core_logging/LogStream.cpp:39-52, 90-154, 252-263; icl_core_logging/ThreadStream.cpp:50-98, 125-159;
   icl_core_logging/ThreadStream.h:134-137, 241-253; icl_core_logging/LoggingMacros_SLOGGING.h:55-71.

   Any number of threads execute log statements on one stream; one transition per access to shared data, where
   the search through the pool (97-146) and the setting of the six names (62-67 of the macro) are one transition each: the
   first happens under m_mutex, the second touches a thread stream that no other thread uses (C49_exclusive).
   Memory is sequentially consistent.  m_mutex.wait() (no time-out) does not fail, so LogStream.cpp:94 leaves the loop at once and
   ThreadStream.cpp:142-145 is not reached.
   The pieces of a statement are given as texts (the conversion of numbers to text, the cutting of names to the size of
   their arrays and the level filters are in LogTextModel); statements rejected by the tests 57 and 59 of the macro do not appear.
   The outputs are fixed and each is called once per message (130-136); what an output does with a message is not modelled here. *)
From Verif Require Import Conc Text LogTextModel.

(* what the macro tells the thread stream *)
Record meta := mkMeta { m_lv : level; m_fi : str; m_li : Z; m_cl : str; m_ob : str; m_fu : str }.
(* a log statement: its pieces, and whether it ends with endl *)
Record stmt := mkStmt { s_meta : meta; s_pieces : list str; s_ends : bool }.
Definition s_level (m : stmt) : level := m_lv (s_meta m).

(* LogStream.h: ThreadStreamInfo, with the thread stream it points to; None: m_empty_thread_id *)
Record slot := mkSlot {
  owner : option tid; slevel : level;
  info : meta;                            (* m_line_log_level, m_filename, m_line, m_classname, m_objectname, m_function *)
  buf : str; idx : nat;                   (* m_data, m_write_index *)
  resets : list tid;                      (* history: the threads that have released the slot and not yet executed ThreadStream.cpp:146 *)
  raced : bool                            (* history: the slot was taken when resets was not empty *)
}.
Definition set_owner (x : slot) (o : option tid) : slot := mkSlot o (slevel x) (info x) (buf x) (idx x) (resets x) (raced x).
Definition set_info (x : slot) (i : meta) : slot := mkSlot (owner x) (slevel x) i (buf x) (idx x) (resets x) (raced x).
Definition set_buf (x : slot) (b : str) : slot := mkSlot (owner x) (slevel x) (info x) b (idx x) (resets x) (raced x).
Definition set_idx (x : slot) (i : nat) : slot := mkSlot (owner x) (slevel x) (info x) (buf x) i (resets x) (raced x).
Definition set_resets (x : slot) (l : list tid) : slot := mkSlot (owner x) (slevel x) (info x) (buf x) (idx x) l (raced x).

Definition newline1 : str := $"
".
(* the calls of ThreadStream::write a statement makes: text and protected_buffer_size *)
Definition writes (m : stmt) : list (str * nat) := map (fun x => (x, 1)) (s_pieces m) ++ (if s_ends m then [(newline1, 0)] else []).

Inductive pc :=
| Idle
| A94 (m : stmt)                        (* while (!m_mutex.wait()) *)
| A97 (m : stmt)                        (* the search, 97-146 *)
| A148 (m : stmt) (i : nat)             (* m_mutex.post() *)
| MSet (m : stmt) (i : nat)             (* setLineLogLevel ... setFunction *)
| MPut (m : stmt) (i : nat) (l : list (str * nat))                    (* thread_stream << arg: the remaining writes; ThreadStream.cpp:83-94 *)
| W95 (m : stmt) (i : nat) (n : nat) (x : str) (l : list (str * nat)) (* memcpy(&m_data[m_write_index], source, n) *)
| W97 (m : stmt) (i : nat) (n : nat) (l : list (str * nat))           (* m_write_index += n *)
| F127 (m : stmt) (i : nat)             (* m_data[m_write_index] = 0 *)
| F128 (m : stmt) (i : nat)             (* m_parent->m_mutex.wait() *)
| F130 (m : stmt) (i : nat)             (* push to all outputs *)
| F138 (m : stmt) (i : nat)             (* releaseThreadStream *)
| F140 (m : stmt) (i : nat)             (* m_parent->m_mutex.post() *)
| F146 (m : stmt) (i : nat).            (* m_write_index = 0 *)

(* a call of an output's push(): output, calling thread, what it is told *)
Record delivery := mkD { d_out : nat; d_tid : tid; d_meta : meta; d_text : str; d_raced : bool }.

Record st := mkSt {
  mutex : option tid;                     (* m_mutex, a binary semaphore: who has taken it *)
  slots : nat -> slot; nslots : nat;      (* m_thread_stream_map *)
  pcs : tid -> pc;
  below : tid -> list pc;                 (* statements suspended by a nested one, see step_nested *)
  log : list delivery;                    (* history *)
  hist : tid -> list stmt;                (* history: the statements each thread has finished *)
  crashed : bool                          (* an array was accessed out of bounds *)
}.
Definition goto (s : st) (t : tid) (p : pc) : st := mkSt (mutex s) (slots s) (nslots s) (upd (pcs s) t p) (below s) (log s) (hist s) (crashed s).
Definition set_mutex (s : st) (o : option tid) : st := mkSt o (slots s) (nslots s) (pcs s) (below s) (log s) (hist s) (crashed s).
Definition set_slot (s : st) (i : nat) (x : slot) : st := mkSt (mutex s) (upd (slots s) i x) (nslots s) (pcs s) (below s) (log s) (hist s) (crashed s).
Definition set_n (s : st) (n : nat) : st := mkSt (mutex s) (slots s) n (pcs s) (below s) (log s) (hist s) (crashed s).
Definition add_log (s : st) (l : list delivery) : st := mkSt (mutex s) (slots s) (nslots s) (pcs s) (below s) (log s ++ l) (hist s) (crashed s).
Definition crash (s : st) : st := mkSt (mutex s) (slots s) (nslots s) (pcs s) (below s) (log s) (hist s) true.
(* the statement ends; a suspended one goes on *)
Definition finish (s : st) (t : tid) (m : stmt) : st :=
  mkSt (mutex s) (slots s) (nslots s) (upd (pcs s) t (match below s t with [] => Idle | p :: _ => p end))
       (upd (below s) t (tl (below s t))) (log s) (upd (hist s) t (hist s t ++ [m])) (crashed s).

Definition level_eqb (a b : level) : bool := Z.eqb (rank a) (rank b).
Fixpoint has_nul (s : str) : bool := match s with [] => false | c :: r => Ascii.eqb c nul || has_nul r end.
(* the C string at the beginning of an array *)
Fixpoint cstring (s : str) : str := match s with [] => [] | c :: r => if Ascii.eqb c nul then [] else c :: cstring r end.

Section Stream.
  (* cDEFAULT_LOG_SIZE, cDEFAULT_LOG_THREAD_STREAM_POOL_SIZE (Constants.h:35-37, 65-67), m_output_stream_list *)
  Context (SIZE POOL : nat) (outs : list nat).

  (* ThreadStream.cpp:149-159; the arrays that are not initialised are set before they are used *)
  Definition no_meta : meta := mkMeta Mute [] 0 [] [] [].
  Definition new_slot (o : option tid) (l : level) : slot := mkSlot o l no_meta (repeat nul (SIZE + 1)) 0 [] false.
  (* LogStream.cpp:39-52 *)
  Definition init : st := mkSt None (fun _ => new_slot None Mute) POOL (fun _ => Idle) (fun _ => []) [] (fun _ => []) false.

  (* LogStream.cpp:99-108 *)
  Definition own_slot (s : st) (t : tid) (l : level) : option nat :=
    find (fun i => match owner (slots s i) with Some u => Nat.eqb u t && level_eqb (slevel (slots s i)) l | None => false end) (seq 0 (nslots s)).
  (* LogStream.cpp:113-123 *)
  Definition free_slot (s : st) : option nat :=
    find (fun i => match owner (slots s i) with Some _ => false | None => true end) (seq 0 (nslots s)).
  Definition taken (x : slot) (t : tid) (l : level) : slot :=
    mkSlot (Some t) l (info x) (buf x) (idx x) (resets x) (match resets x with [] => false | _ => true end).

  (* ThreadStream.cpp:83-94: number_of_bytes *)
  Definition amount (i : nat) (x : str) (protected : nat) : nat :=
    let writable := SIZE - i - 1 in
    if writable <? length x + protected then if protected <? writable then writable - protected else 0 else length x.

  (* One action of thread t *)
  Definition tstep (t : tid) (s : st) : option st :=
    match pcs s t with
    | Idle => None
    | A94 m => match mutex s with None => Some (goto (set_mutex s (Some t)) t (A97 m)) | Some _ => None end
    | A97 m =>
      match own_slot s t (s_level m) with
      | Some i => Some (goto s t (A148 m i))
      | None => match free_slot s with
                | Some i => Some (goto (set_slot s i (taken (slots s i) t (s_level m))) t (A148 m i))
                | None => let i := nslots s in
                          Some (goto (set_slot (set_n s (S i)) i (new_slot (Some t) (s_level m))) t (A148 m i))
                end
      end
    | A148 m i => Some (goto (set_mutex s None) t (MSet m i))
    | MSet m i => Some (goto (set_slot s i (set_info (slots s i) (s_meta m))) t (MPut m i (writes m)))
    | MPut m i [] => Some (if s_ends m then goto s t (F127 m i) else finish s t m)
    | MPut m i ((x, p) :: l) =>
      Some (if idx (slots s i) <? SIZE then goto s t (W95 m i (amount (idx (slots s i)) x p) x l) else crash s)
    | W95 m i n x l =>
      let sl := slots s i in
      Some (if (n <=? length x) && (idx sl + n <=? length (buf sl))
            then goto (set_slot s i (set_buf sl (firstn (idx sl) (buf sl) ++ firstn n x ++ skipn (idx sl + n) (buf sl)))) t (W97 m i n l)
            else crash s)
    | W97 m i n l => Some (goto (set_slot s i (set_idx (slots s i) (idx (slots s i) + n))) t (MPut m i l))
    | F127 m i =>
      let sl := slots s i in
      Some (if idx sl <? length (buf sl) then goto (set_slot s i (set_buf sl (list_set (buf sl) (idx sl) nul))) t (F128 m i) else crash s)
    | F128 m i => match mutex s with None => Some (goto (set_mutex s (Some t)) t (F130 m i)) | Some _ => None end
    | F130 m i =>
      let sl := slots s i in
      Some (if has_nul (buf sl)
            then goto (add_log s (map (fun o => mkD o t (info sl) (cstring (buf sl)) (raced sl)) outs)) t (F138 m i)
            else crash s)
    | F138 m i => Some (goto (set_slot s i (set_resets (set_owner (slots s i) None) (t :: resets (slots s i)))) t (F140 m i))
    | F140 m i => Some (goto (set_mutex s None) t (F146 m i))
    | F146 m i => Some (finish (set_slot s i (set_resets (set_idx (slots s i) 0) (remove Nat.eq_dec t (resets (slots s i))))) t m)
    end.

  (* Clients: a thread starts a statement when it has no other; if [nest] is set, also while it evaluates the arguments of
     another one on the same stream (a function called there logs as well). *)
  Definition suspend (s : st) (t : tid) (m : stmt) : st :=
    mkSt (mutex s) (slots s) (nslots s) (upd (pcs s) t (A94 m)) (upd (below s) t (pcs s t :: below s t)) (log s) (hist s) (crashed s).
  Inductive step (nest : bool) : tid -> st -> st -> Prop :=
  | step_thread : forall t s s', crashed s = false -> tstep t s = Some s' -> step nest t s s'
  | step_start : forall t s m, crashed s = false -> pcs s t = Idle -> step nest t s (goto s t (A94 m))
  | step_nested : forall t s m' i l m, nest = true -> crashed s = false -> pcs s t = MPut m' i l -> step nest t s (suspend s t m).
  Definition any (nest : bool) (s s' : st) : Prop := exists t, step nest t s s'.
  (* only the threads of a set act *)
  Definition among (A : tid -> Prop) (s s' : st) : Prop := exists t, A t /\ step false t s s'.
End Stream.
