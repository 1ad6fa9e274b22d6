(* Log files: src/icl_core/src/icl_core_logging/FileLogOutput.cpp:48-302 and src/icl_core/src/icl_core/os_fs.cpp:39-74
   (POSIX, boost::filesystem 3).

   The file system is the directory of the log file: names with their files (text and time of the last write in seconds) and
   sub directories.  The system decides which operations fail and how much of a stream's buffer is written early.
   Times are given with every call: t1 is what TimeStamp::now() reads (line 243), t2 the time of the writes of the call.
   Not modelled: other processes that change the directory, links, a full disk (a write to an open stream succeeds), the
   compressed form of a gz file (its text is the uncompressed text), configuration without FileName, wordexp, the messages
   on cerr, and a rename onto a directory, which always fails here.
   zlib before 1.2.4 accepts the mode "a+b" of line 211, later versions do not: then opening an online file always fails. *)
From Verif Require Import Base Text SMap IsoModel.
Local Open Scope Z_scope.

Record file := mkF { f_text : str; f_time : Z }.
Inductive node := File (f : file) | Dir.
Definition fsys := list (str * node).

(* Plain: without zlib; Zip: a rotated file is zipped; Online: the log file is a gz file (_IC_BUILDER_ZLIB_, m_online_zip) *)
Inductive mode := Plain | Zip | Online.
Record config := mkC {
  base : str;                  (* the last part of m_filename *)
  dir_ok : bool;               (* 274: the rest of m_filename is an existing directory (not when it is empty) *)
  rotate : bool;
  delete_days : option Z;      (* m_delete_old_files, m_delete_older_than_days *)
  how : mode;
  flushing : bool
}.
Record sys := mkSys { fails : nat -> bool; early : nat -> nat }.

(* trace: the states of the directory, the latest first; tick counts the choices of the system *)
Record log := mkLog { fs : fsys; trace : list fsys; is_open : bool; buf : str; last_rotation : Z; tick : nat }.
Definition set_fs (w : log) (f : fsys) : log := mkLog f (f :: trace w) (is_open w) (buf w) (last_rotation w) (tick w).
Definition set_open (w : log) (b : bool) : log := mkLog (fs w) (trace w) b (buf w) (last_rotation w) (tick w).
Definition set_buf (w : log) (b : str) : log := mkLog (fs w) (trace w) (is_open w) b (last_rotation w) (tick w).
Definition set_last (w : log) (d : Z) : log := mkLog (fs w) (trace w) (is_open w) (buf w) d (tick w).
Definition next (w : log) : log := mkLog (fs w) (trace w) (is_open w) (buf w) (last_rotation w) (S (tick w)).
(* does the next operation fail? *)
Definition ask (y : sys) (w : log) : log * bool := (next w, fails y (tick w)).

Inductive outcome := Fine (w : log) | Thrown (w : log) | Undefined.

Definition day_of (t : Z) : Z := Z.quot t 86400.                       (* TimeBase.h:107-110 *)
Definition banner : str := [ascii_of_nat 10; ascii_of_nat 10] ++ $"-------------FILE (RE-)OPENED------------------" ++ [ascii_of_nat 10].

(* n characters of the buffer go to the file *)
Definition write_out (c : config) (w : log) (n : nat) (t : Z) : log :=
  match firstn n (buf w), map_get (fs w) (base c) with
  | [], _ => w
  | x, Some (File f) => set_buf (set_fs w (map_put (fs w) (base c) (File (mkF (f_text f ++ x) t)))) (skipn n (buf w))
  | _, _ => set_buf w (skipn n (buf w))
  end.
(* m_log_file << text, gzwrite *)
Definition emit (c : config) (y : sys) (w : log) (text : str) (t : Z) : log :=
  let w1 := set_buf w (buf w ++ text) in next (write_out c w1 (early y (tick w1)) t).
(* FileLogOutput.cpp:171-183 *)
Definition flush (c : config) (w : log) (t : Z) : log := write_out c w (length (buf w)) t.
(* FileLogOutput.cpp:185-204 *)
Definition closeLogFile (c : config) (w : log) (t : Z) : log :=
  if is_open w then set_open (flush c w t) false else w.
(* open(..., app) / gzopen: makes the file if there is none *)
Definition open_append (c : config) (y : sys) (w : log) (t : Z) : log * bool :=
  let (w1, bad) := ask y w in
  match bad, map_get (fs w1) (base c) with
  | true, _ => (w1, false)
  | false, Some Dir => (w1, false)
  | false, Some (File _) => (w1, true)
  | false, None => (set_fs w1 (map_put (fs w1) (base c) (File (mkF [] t))), true)
  end.
(* FileLogOutput.cpp:206-237: an online file is opened again without closing it *)
Definition openLogFile (c : config) (y : sys) (w : log) (t : Z) : log :=
  match how c with
  | Online => let (w1, ok) := open_append c y (set_buf w []) t in
              if ok then emit c y (set_open w1 true) banner t else set_open w1 false
  | _ => if is_open w then w
         else let (w1, ok) := open_append c y w t in
              if ok then flush c (emit c y (set_open (set_buf w1 []) true) banner t) t else w1
  end.

Definition map_remove {T} (m : list (str * T)) (k : str) : list (str * T) :=
  filter (fun kv => if list_eq_dec ascii_dec (fst kv) k then false else true) m.
(* rename(2) *)
Definition rename (y : sys) (w : log) (from to : str) : log :=
  let (w1, bad) := ask y w in
  match bad, map_get (fs w1) from, map_get (fs w1) to with
  | true, _, _ | _, None, _ | _, _, Some Dir => w1
  | _, Some n, _ => set_fs w1 (map_put (map_remove (fs w1) from) to n)
  end.
(* unlink(2) *)
Definition unlink (y : sys) (w : log) (name : str) : log :=
  let (w1, bad) := ask y w in
  match bad, map_get (fs w1) name with
  | false, Some (File _) => set_fs w1 (map_remove (fs w1) name)
  | _, _ => w1
  end.
(* os_fs.cpp:39-74; the result is not used by the caller *)
Definition zipFile (y : sys) (w : log) (name gz : str) (t : Z) : log :=
  let (w1, bad_in) := ask y w in
  let (w2, bad_out) := ask y w1 in
  let input := match bad_in, map_get (fs w2) name with false, Some (File f) => Some (f_text f) | _, _ => None end in
  match bad_out, map_get (fs w2) gz with
  | true, _ | _, Some Dir => w2
  | _, _ =>
    let w3 := set_fs w2 (map_put (fs w2) gz (File (mkF [] t))) in
    match input with
    | None => w3
    | Some text =>
      let (w4, bad_write) := ask y w3 in
      let w5 := set_fs w4 (map_put (fs w4) gz (File (mkF (firstn (early y (tick w4)) text) t))) in
      if bad_write then w5 else set_fs w5 (map_put (fs w5) gz (File (mkF text t)))
    end
  end.
(* line 250-251: strftime(time_str, 12, ".%Y-%m-%d") of the beginning of the day; too long a text leaves time_str undefined *)
Definition time_str (d : Z) : result str :=
  let x := date_of_day (24 * 3600 * d / 86400) in
  let text := $"." ++ year_text (year x) ++ $"-" ++ digits 2 (month x) ++ $"-" ++ digits 2 (day x) in
  if (length text <? 12)%nat then Ok text else UB.

Definition starts_with (p s : str) : bool := if list_eq_dec ascii_dec (firstn (length p) s) p then true else false.
(* lines 277-291 over the entries of the directory; false: remove() throws *)
Fixpoint delete_loop (c : config) (y : sys) (limit : Z) (l : fsys) (w : log) : log * bool :=
  match l with
  | [] => (w, true)
  | (name, File f) :: l' =>
    if (f_time f <? limit) && starts_with (base c) name then
      let (w1, bad) := ask y w in
      if bad then (w1, false) else delete_loop c y limit l' (set_fs w1 (map_remove (fs w1) name))
    else delete_loop c y limit l' w
  | (_, Dir) :: l' => delete_loop c y limit l' w
  end.
(* FileLogOutput.cpp:239-302 *)
Definition rotateLogFile (c : config) (y : sys) (w : log) (t1 t2 : Z) : outcome :=
  if rotate c then
    let current_day := day_of t1 in
    if last_rotation w =? current_day then Fine w
    else
      let w1 := closeLogFile c w t2 in
      match time_str (last_rotation w) with
      | Ok ext =>
        let w2 := match how c with
                  | Zip => unlink y (zipFile y w1 (base c) (base c ++ ext ++ $".gz") t2) (base c)
                  | _ => rename y w1 (base c) (base c ++ ext)
                  end in
        let (w3, ok) := match delete_days c with
                        | Some n => if dir_ok c then delete_loop c y (24 * 3600 * (current_day - n)) (fs w2) w2 else (w2, true)
                        | None => (w2, true)
                        end in
        if ok then Fine (openLogFile c y (set_last w3 current_day) t2) else Thrown w3
      | _ => Undefined
      end
  else Fine w.

(* FileLogOutput.cpp:48-121 with the configuration read *)
Definition start (c : config) (y : sys) (f : fsys) (n : nat) (t1 t2 : Z) : outcome :=
  let w := mkLog f [f] false [] (if rotate c then day_of t1 else 0) n in
  match map_get f (base c) with
  | Some (File g) =>
    match rotateLogFile c y (set_last w (day_of (f_time g))) t1 t2 with
    | Fine w1 => Fine (openLogFile c y w1 t2)
    | x => x
    end
  | _ => Fine (openLogFile c y w t2)
  end.
(* FileLogOutput.cpp:128-155; the flag: the line is written *)
Definition push (c : config) (y : sys) (w : log) (t1 t2 : Z) (line : str) : outcome * bool :=
  match rotateLogFile c y w t1 t2 with
  | Fine w1 =>
    let w2 := if is_open w1 then w1 else openLogFile c y w1 t2 in
    if is_open w2 then
      let w3 := emit c y w2 line t2 in
      (Fine (if flushing c then flush c w3 t2 else w3), true)
    else (Fine w2, false)
  | x => (x, false)
  end.

(* ---- histories ---- *)
Inductive event := Start (t1 t2 : Z) | Push (t1 t2 : Z) (line : str) | Stop (t2 : Z).
(* Some k: the process is killed after k changes of the directory by this event *)
Definition call := (event * option nat)%type.
(* a running logger, or the directory that is left; Wrong: undefined behaviour, or a call without a logger *)
Inductive machine := Running (w : log) | Halted (f : fsys) (tick : nat) | Wrong.
Definition fresh_trace (w : log) : log := mkLog (fs w) [fs w] (is_open w) (buf w) (last_rotation w) (tick w).
Definition killed (k : nat) (w : log) : machine := Halted (nth k (rev (trace w)) (fs w)) (tick w).
Definition result_of (crash : option nat) (x : outcome) (thrown : log -> machine) : machine :=
  match x, crash with
  | Undefined, _ => Wrong
  | Fine w, None => Running w
  | Thrown w, None => thrown w
  | Fine w, Some k | Thrown w, Some k => killed k w
  end.
(* the new machine, and whether a line was written *)
Definition run (c : config) (y : sys) (m : machine) (e : call) : machine * bool :=
  match m, e with
  | Halted f n, (Start t1 t2, crash) => (result_of crash (start c y f n t1 t2) (fun w => Halted (fs w) (tick w)), false)
  | Running w, (Push t1 t2 line, crash) =>
    let (x, written) := push c y (fresh_trace w) t1 t2 line in (result_of crash x Running, match crash with None => written | _ => false end)
  | Running w, (Stop t2, crash) =>
    let w1 := closeLogFile c (fresh_trace w) t2 in
    (match crash with None => Halted (fs w1) (tick w1) | Some k => killed k w1 end, false)
  | _, _ => (Wrong, false)
  end.
Fixpoint runs (c : config) (y : sys) (m : machine) (l : list call) : machine * list bool :=
  match l with
  | [] => (m, [])
  | e :: l' => let (m1, b) := run c y m e in let (m2, bs) := runs c y m1 l' in (m2, b :: bs)
  end.
