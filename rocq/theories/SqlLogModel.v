(* Log databases: src/icl_core/src/icl_core_logging/SQLiteLogDb.cpp and SQLiteLogOutput.cpp:56-81.
   The file system is a map from names to database files, each of them the rows of its table log_entries; a file without
   that table counts as no file. The system decides which operations fail. Every statement of SQLite is atomic (the process
   may be killed between any two of them; a power failure with "PRAGMA synchronous=OFF" is not modelled). Times are given
   with every call: t1 and t2 are the two readings of TimeStamp::now() in writeLogLine, in seconds.
   Not modelled: other processes, the messages on cerr, the two pragmas (107-119), C strings that are null pointers. *)
From Verif Require Import Base Text SMap IsoModel.
Local Open Scope Z_scope.

(* a column of a row *)
Inductive value := Null | Chars (s : str) | Int (z : Z).
(* the columns after seq: app_id, timestamp, log_stream, log_level, filename, line, class_name, object_name, function_name, message *)
Definition row := list value.
Definition fsys := list (str * list row).

Record config := mkC { db_filename : str; rotate : bool }.
Record message := Msg {
  stamp : str; log_stream : str; log_level : str; filename : str; line : Z;
  class_name : str; object_name : str; function_name : str; message_text : str
}.

(* is_open: m_db and m_insert_stmt are not NULL; bound: the parameters of the insert statement *)
Record log := mkLog { fs : fsys; trace : list fsys; is_open : bool; bound : list value; last_rotation : Z; tick : nat }.
Definition set_fs (w : log) (f : fsys) : log := mkLog f (f :: trace w) (is_open w) (bound w) (last_rotation w) (tick w).
Definition set_open (w : log) (b : bool) : log := mkLog (fs w) (trace w) b (bound w) (last_rotation w) (tick w).
Definition set_bound (w : log) (b : list value) : log := mkLog (fs w) (trace w) (is_open w) b (last_rotation w) (tick w).
Definition set_last (w : log) (d : Z) : log := mkLog (fs w) (trace w) (is_open w) (bound w) d (tick w).
Definition next (w : log) : log := mkLog (fs w) (trace w) (is_open w) (bound w) (last_rotation w) (S (tick w)).

Section Sys.
Variable fails : nat -> bool.
Variable c : config.
(* does the next operation fail? *)
Definition ask (w : log) : log * bool := (next w, fails (tick w)).

(* SQLiteLogDb.cpp:127-140 *)
Definition closeDatabase (w : log) : log := set_open w false.

(* 98-104: preparing the insert statement needs the table *)
Definition prepare_insert (w : log) : log :=
  let (w1, bad) := ask w in
  match bad, map_get (fs w1) (db_filename c) with
  | false, Some _ => set_open (set_bound w1 (repeat Null 10)) true
  | _, _ => closeDatabase w1
  end.
(* 54-125 *)
Definition openDatabase (w : log) : log :=
  match db_filename c with
  | [] => w
  | _ =>
    let (w1, bad1) := ask w in                                   (* sqlite3_open *)
    if bad1 then closeDatabase w1 else
    let (w2, bad2) := ask w1 in                                  (* sqlite3_prepare_v2 *)
    if bad2 then closeDatabase w2 else
    let (w3, bad3) := ask w2 in                                  (* sqlite3_step *)
    match bad3, map_get (fs w3) (db_filename c) with
    | false, None =>
      let (w4, bad4) := ask w3 in                                (* CREATE TABLE *)
      if bad4 then closeDatabase w4
      else prepare_insert (set_fs w4 (map_put (fs w4) (db_filename c) []))
    | _, _ => prepare_insert w3
    end
  end.

Definition map_remove {T} (m : list (str * T)) (k : str) : list (str * T) :=
  filter (fun kv => if list_eq_dec ascii_dec (fst kv) k then false else true) m.
(* rename(2) *)
Definition rename (w : log) (from to : str) : log :=
  let (w1, bad) := ask w in
  match bad, map_get (fs w1) from with
  | false, Some rows => set_fs w1 (map_put (map_remove (fs w1) from) to rows)
  | _, _ => w1
  end.

(* TimeBase.h:107-110 *)
Definition days (t : Z) : Z := Z.quot t 86400.
(* 156-157: strftime(time_str, 11, "%Y-%m-%d"), UTC (TimeStamp.cpp:203-209); too long a text leaves time_str undefined *)
Definition time_str (t : Z) : result str :=
  let x := date_of_day (t / 86400) in
  let text := year_text (year x) ++ $"-" ++ digits 2 (month x) ++ $"-" ++ digits 2 (day x) in
  if (length text <? 11)%nat then Ok text else UB.

(* 147-162 *)
Definition rotateDatabase (w : log) (t1 t2 : Z) : result log :=
  if rotate c then
    if last_rotation w =? days t1 then Ok w
    else
      let w1 := closeDatabase (set_last w (days t1)) in
      bind (time_str t2) (fun ext => Ok (openDatabase (rename w1 (db_filename c) (db_filename c ++ $"." ++ ext))))
  else Ok w.

(* sqlite3_bind_text, sqlite3_bind_int: a failure leaves the parameter as it was *)
Definition bind_value (w : log) (i : nat) (v : value) : log :=
  let (w1, bad) := ask w in if bad then w1 else set_bound w1 (list_set (bound w1) (i - 1) v).
(* conversion of the size_t to int *)
Definition to_int (z : Z) : Z := (z + 2147483648) mod 4294967296 - 2147483648.
(* 169-228; the app_id is "" (SQLiteLogOutput.cpp:72) *)
Definition bind_all (w : log) (m : message) : log :=
  let w := bind_value w 1 (Chars []) in
  let w := bind_value w 2 (Chars (stamp m)) in
  let w := bind_value w 3 (Chars (log_stream m)) in
  let w := bind_value w 4 (Chars (log_level m)) in
  let w := bind_value w 5 (Chars (filename m)) in
  let w := bind_value w 6 (Int (to_int (line m))) in
  let w := bind_value w 7 (Chars (class_name m)) in
  let w := bind_value w 8 (Chars (object_name m)) in
  let w := bind_value w 9 (Chars (function_name m)) in
  bind_value w 10 (Chars (message_text m)).
(* 231-239; the row, if one was inserted *)
Definition insert_row (w : log) : log * option row :=
  let (w1, bad) := ask w in
  match bad, map_get (fs w1) (db_filename c) with
  | false, Some rows => (set_fs w1 (map_put (fs w1) (db_filename c) (rows ++ [bound w1])), Some (bound w1))
  | _, _ => (w1, None)
  end.

(* 142-241 *)
Definition writeLogLine (w : log) (t1 t2 : Z) (m : message) : result (log * option row) :=
  Base.bind (rotateDatabase w t1 t2) (fun w1 =>
  Ok (if is_open w1 then insert_row (bind_all w1 m) else (w1, None))).

(* ---- histories ---- *)
(* Start: the constructor at time t (40-47) and onStart; Stop: onShutdown and the destructor *)
Inductive event := Start (t : Z) | Push (t1 t2 : Z) (m : message) | Stop.
(* Some k: the process is killed after k changes of the file system by this event *)
Definition call := (event * option nat)%type.
(* a running output, or the file system that is left; Wrong: undefined behaviour, or a call without an output *)
Inductive machine := Running (w : log) | Halted (f : fsys) (tick : nat) | Wrong.
Definition start (f : fsys) (n : nat) (t : Z) : log := openDatabase (mkLog f [f] false [] (days t) n).
Definition fresh_trace (w : log) : log := mkLog (fs w) [fs w] (is_open w) (bound w) (last_rotation w) (tick w).
Definition ended (crash : option nat) (w : log) (go_on : log -> machine) : machine :=
  match crash with None => go_on w | Some k => Halted (nth k (rev (trace w)) (fs w)) (tick w) end.
(* the new machine, and the row that was inserted *)
Definition run (m : machine) (e : call) : machine * option row :=
  match m, e with
  | Halted f n, (Start t, crash) => (ended crash (start f n t) Running, None)
  | Running w, (Push t1 t2 msg, crash) =>
    match writeLogLine (fresh_trace w) t1 t2 msg with
    | Ok (w1, r) =>
      (ended crash w1 Running,
       match crash with Some k => if (S k <? length (trace w1))%nat then None else r | None => r end)
    | _ => (Wrong, None)
    end
  | Running w, (Stop, crash) => (ended crash (closeDatabase (fresh_trace w)) (fun w1 => Halted (fs w1) (tick w1)), None)
  | _, _ => (Wrong, None)
  end.
Fixpoint runs (m : machine) (l : list call) : machine * list (option row) :=
  match l with
  | [] => (m, [])
  | e :: l' => let (m1, r) := run m e in let (m2, rs) := runs m1 l' in (m2, r :: rs)
  end.
End Sys.
