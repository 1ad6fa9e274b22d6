(* Model of LoggingManager: which log streams are connected to which log outputs, at which levels, and who deletes what.
   icl_core_logging/LoggingManager.cpp:44-350, 420-461; Logging.h:106-132 (the factories made by REGISTER_LOG_STREAM);
   LogStream.cpp:39-88; Logging.cpp:96-98.
   Sequential.  Objects live at addresses that are not reused; a call on a deleted object is UB; a failed assertion is Throw.
   The factories of output streams create an output with the given name and level.  Message formats, threads and the
   printing of error messages are not modelled. *)
From Verif Require Import Conc Text SMap LogTextModel.

Definition addr := nat.
Record sobj := mkS { s_name : str; s_level : level; s_outs : list addr }.                  (* a LogStream *)
Record oobj := mkO { o_name : str; o_level : level; o_running : bool }.                    (* a LogOutputStream *)
(* LoggingManager.h:228-250; a new entry is value-initialised: eLL_TRACE *)
Record outcfg := mkOC { c_kind : str; c_name : str; c_level : level; c_streams : list str }.
Record strcfg := mkSC { sc_name : str; sc_level : level }.
Definition no_outcfg : outcfg := mkOC [] [] Trace [].
Definition no_strcfg : strcfg := mkSC [] Trace.

Record mgr := mkMgr {
  inited : bool;
  ocfg : list (str * outcfg); scfg : list (str * strcfg);     (* m_output_stream_config, m_log_stream_config *)
  sfac : list (str * option addr);                            (* m_log_stream_factories, with the m_instance of the class *)
  ofac : list str;                                            (* m_log_output_stream_factories *)
  smap : list (str * addr); omap : list (str * addr);         (* m_log_streams, m_log_output_streams *)
  dflt : option addr;                                         (* m_default_log_output *)
  sh : addr -> option sobj; sn : addr;                        (* the log streams; None: never created or deleted *)
  oh : addr -> option oobj; on : addr
}.
Definition new_mgr : mgr := mkMgr false [] [] [] [] [] [] None (fun _ => None) 0 (fun _ => None) 0.
Record opts := mkOpts { log_level : option str; quick_debug : option str }.

Definition set_inited m x := mkMgr x (ocfg m) (scfg m) (sfac m) (ofac m) (smap m) (omap m) (dflt m) (sh m) (sn m) (oh m) (on m).
Definition set_ocfg m x := mkMgr (inited m) x (scfg m) (sfac m) (ofac m) (smap m) (omap m) (dflt m) (sh m) (sn m) (oh m) (on m).
Definition set_scfg m x := mkMgr (inited m) (ocfg m) x (sfac m) (ofac m) (smap m) (omap m) (dflt m) (sh m) (sn m) (oh m) (on m).
Definition set_sfac m x := mkMgr (inited m) (ocfg m) (scfg m) x (ofac m) (smap m) (omap m) (dflt m) (sh m) (sn m) (oh m) (on m).
Definition set_ofac m x := mkMgr (inited m) (ocfg m) (scfg m) (sfac m) x (smap m) (omap m) (dflt m) (sh m) (sn m) (oh m) (on m).
Definition set_smap m x := mkMgr (inited m) (ocfg m) (scfg m) (sfac m) (ofac m) x (omap m) (dflt m) (sh m) (sn m) (oh m) (on m).
Definition set_omap m x := mkMgr (inited m) (ocfg m) (scfg m) (sfac m) (ofac m) (smap m) x (dflt m) (sh m) (sn m) (oh m) (on m).
Definition set_dflt m x := mkMgr (inited m) (ocfg m) (scfg m) (sfac m) (ofac m) (smap m) (omap m) x (sh m) (sn m) (oh m) (on m).
Definition set_sh m x := mkMgr (inited m) (ocfg m) (scfg m) (sfac m) (ofac m) (smap m) (omap m) (dflt m) x (sn m) (oh m) (on m).
Definition set_sn m x := mkMgr (inited m) (ocfg m) (scfg m) (sfac m) (ofac m) (smap m) (omap m) (dflt m) (sh m) x (oh m) (on m).
Definition set_oh m x := mkMgr (inited m) (ocfg m) (scfg m) (sfac m) (ofac m) (smap m) (omap m) (dflt m) (sh m) (sn m) x (on m).
Definition set_on m x := mkMgr (inited m) (ocfg m) (scfg m) (sfac m) (ofac m) (smap m) (omap m) (dflt m) (sh m) (sn m) (oh m) x.

Fixpoint foldM {A B} (f : B -> A -> result B) (l : list A) (b : B) : result B :=
  match l with [] => Ok b | x :: r => bind (f b x) (foldM f r) end.

(* objects *)
Definition stream (m : mgr) (a : addr) : result sobj := match sh m a with Some s => Ok s | None => UB end.
Definition output (m : mgr) (o : addr) : result oobj := match oh m o with Some x => Ok x | None => UB end.
Definition new_stream (m : mgr) (n : str) : addr * mgr :=                 (* LogStream.cpp:39-52; LogStream.h:63 *)
  (sn m, set_sn (set_sh m (upd (sh m) (sn m) (Some (mkS n Info [])))) (S (sn m))).
Definition new_output (m : mgr) (n : str) (l : level) : addr * mgr :=
  (on m, set_on (set_oh m (upd (oh m) (on m) (Some (mkO n l false)))) (S (on m))).
Definition put_stream (m : mgr) (a : addr) (s : sobj) : mgr := set_sh m (upd (sh m) a (Some s)).
Definition put_output (m : mgr) (o : addr) (x : oobj) : mgr := set_oh m (upd (oh m) o (Some x)).
(* LogStream.cpp:72-88 *)
Definition addOutputStream (m : mgr) (a o : addr) : result mgr :=
  bind (stream m a) (fun s => Ok (put_stream m a (mkS (s_name s) (s_level s) (if in_dec Nat.eq_dec o (s_outs s) then s_outs s else o :: s_outs s)))).
Definition removeOutputStream (m : mgr) (a o : addr) : result mgr :=
  bind (stream m a) (fun s => Ok (put_stream m a (mkS (s_name s) (s_level s) (remove Nat.eq_dec o (s_outs s))))).
Definition set_stream_level (l : level) (m : mgr) (a : addr) : result mgr :=
  bind (stream m a) (fun s => Ok (put_stream m a (mkS (s_name s) l (s_outs s)))).
Definition set_output_level (l : level) (m : mgr) (o : addr) : result mgr :=
  bind (output m o) (fun x => Ok (put_output m o (mkO (o_name x) l (o_running x)))).
(* LogOutputStream::start, shutdown *)
Definition run_output (b : bool) (m : mgr) (o : addr) : result mgr :=
  bind (output m o) (fun x => Ok (put_output m o (mkO (o_name x) (o_level x) b))).
Definition delete_output (m : mgr) (o : addr) : result mgr := bind (output m o) (fun _ => Ok (set_oh m (upd (oh m) o None))).
Definition delete_stream (m : mgr) (a : addr) : result mgr := bind (stream m a) (fun _ => Ok (set_sh m (upd (sh m) a None))).

(* the expressions of 52 and 80: the prefix, then KIND and anything, a slash, anything; the first group takes as much as it can *)
Fixpoint split_last (s : str) : option (str * str) :=
  match s with
  | [] => None
  | c :: r => match split_last r with
              | Some (a, b) => Some (c :: a, b)
              | None => if Ascii.eqb c "/" then Some ([], r) else None
              end
  end.
Fixpoint strip (p s : str) : option str :=
  match p, s with [], _ => Some s | x :: p', y :: s' => if Ascii.eqb x y then strip p' s' else None | _, _ => None end.
Definition groups (kind key : str) : option (str * str) :=
  match strip ($"/IclCore/Logging/" ++ kind) key with
  | Some r => match split_last r with Some (a, b) => Some (kind ++ a, b) | None => None end
  | None => None
  end.
(* m[k], for reading and writing: the entry is created if it is not there *)
Definition at_key {T} (d : T) (m : list (str * T)) (k : str) : T := match map_get m k with Some v => v | None => d end.
(* 51-76 *)
Definition read_output (c : list (str * outcfg)) (kv : str * str) : list (str * outcfg) :=
  match groups $"OutputStream" (fst kv) with
  | None => c
  | Some (e, v) =>
    let x := at_key no_outcfg c e in
    if str_eqb v $"OutputStreamName" then map_put c e (mkOC (snd kv) (c_name x) (c_level x) (c_streams x))
    else if str_eqb v $"Name" then map_put c e (mkOC (c_kind x) (snd kv) (c_level x) (c_streams x))
    else if str_eqb v $"LogLevel" then
      map_put c e (match stringToLogLevel (snd kv) with Some l => mkOC (c_kind x) (c_name x) l (c_streams x) | None => x end)
    else if str_eqb (substr v 0 9) $"LogStream" then map_put c e (mkOC (c_kind x) (c_name x) (c_level x) (c_streams x ++ [snd kv]))
    else c
  end.
(* 79-96 *)
Definition read_stream (c : list (str * strcfg)) (kv : str * str) : list (str * strcfg) :=
  match groups $"LogStream" (fst kv) with
  | None => c
  | Some (e, v) =>
    let x := at_key no_strcfg c e in
    if str_eqb v $"Name" then map_put c e (mkSC (snd kv) (sc_level x))
    else if str_eqb v $"LogLevel" then map_put c e (match stringToLogLevel (snd kv) with Some l => mkSC (sc_name x) l | None => x end)
    else c
  end.
Definition read_config (m : mgr) (config : list (str * str)) : mgr :=
  set_scfg (set_ocfg m (fold_left read_output config (ocfg m))) (fold_left read_stream config (scfg m)).

(* 333-336; the class of the factory has not been used by another one *)
Definition registerStreamFactory (m : mgr) (n : str) : mgr := set_sfac m (map_put (sfac m) n None).
(* 313-316 *)
Definition registerOutputFactory (m : mgr) (n : str) : mgr := set_ofac m (n :: ofac m).
(* Logging.cpp:96-98 *)
Definition start_mgr : mgr := fold_left registerStreamFactory [$"Default"; $"Nirwana"; $"QuickDebug"] new_mgr.
(* 338-346 *)
Definition registerLogStream (m : mgr) (a : addr) : result mgr :=
  bind (stream m a) (fun s =>
  let m1 := set_smap m (map_put (smap m) (s_name s) a) in
  match dflt m1 with Some d => addOutputStream m1 a d | None => Ok m1 end).
(* Logging.h:122-129 *)
Definition create (m : mgr) (n : str) (instance : option addr) : result (addr * mgr) :=
  match instance with
  | Some a => Ok (a, m)
  | None => if inited m then let (a, m1) := new_stream m n in Ok (a, set_sfac m1 (map_put (sfac m1) n (Some a))) else Throw
  end.
(* 151-158 *)
Definition create_stream (m : mgr) (f : str * option addr) : result mgr :=
  match map_get (smap m) (fst f) with
  | Some _ => Ok m
  | None => bind (create m (fst f) (snd f)) (fun x => registerLogStream (snd x) (fst x))
  end.
Definition the_name (c : outcfg) : str := match c_name c with [] => c_kind c | n => n end.
Definition connect (o : addr) (m : mgr) (n : str) : result mgr :=
  match map_get (smap m) n with None => Ok m | Some a => addOutputStream m a o end.
(* 206-236 *)
Definition connect_all (m : mgr) (o : addr) (c : outcfg) : result mgr :=
  match c_streams c with
  | [] => foldM (fun m x => addOutputStream m (snd x) o) (smap m) m
  | l => foldM (connect o) l m
  end.
(* 174-237, one round *)
Definition create_output (m : mgr) (e : str * outcfg) : result mgr :=
  let c := snd e in
  let m := set_ocfg m (map_put (ocfg m) (fst e) (mkOC (c_kind c) (the_name c) (c_level c) (c_streams c))) in
  match map_get (omap m) (the_name c) with
  | Some o => connect_all m o c
  | None => if in_dec (list_eq_dec ascii_dec) (c_kind c) (ofac m)
            then let (o, m1) := new_output m (the_name c) (c_level c) in
                 connect_all (set_omap m1 (map_put (omap m1) (the_name c) o)) o c
            else Ok m
  end.
(* 241-256, one round *)
Definition configure_stream (m : mgr) (e : str * strcfg) : result mgr :=
  match map_get (smap m) (sc_name (snd e)) with
  | None => Ok m
  | Some a => set_stream_level (sc_level (snd e)) m a
  end.
Definition create_default (m : mgr) : addr * mgr :=
  match dflt m with
  | Some d => (d, m)
  | None => let (d, m1) := new_output m $"Default" Info in (d, set_dflt m1 (Some d))
  end.
(* 259-288 *)
Definition override (m : mgr) (l : level) : result mgr :=
  let (d, m1) := create_default m in
  bind (set_output_level l m1 d) (fun m2 =>
  bind (foldM (fun m x => bind (set_stream_level l m (snd x)) (fun m => addOutputStream m (snd x) d)) (smap m2) m2) (fun m3 =>
  foldM (fun m x => set_output_level l m (snd x)) (omap m3) m3)).
(* 161-171 *)
Definition drop_default (m : mgr) : result mgr :=
  match ocfg m, dflt m with
  | _ :: _, Some d =>
    bind (foldM (fun m x => removeOutputStream m (snd x) d) (smap m) m) (fun m1 =>
    bind (run_output false m1 d) (fun m2 =>
    bind (delete_output m2 d) (fun m3 => Ok (set_dflt m3 None))))
  | _, _ => Ok m
  end.
(* 142-289 *)
Definition configure (op : opts) (m : mgr) : result mgr :=
  bind (match ocfg m, dflt m with
        | [], None => if inited m then Ok (snd (create_default m)) else Throw
        | _, _ => Ok m end) (fun m1 =>
  bind (foldM create_stream (sfac m1) m1) (fun m2 =>
  bind (drop_default m2) (fun m3 =>
  bind (foldM create_output (ocfg m3) m3) (fun m4 =>
  bind (foldM configure_stream (scfg m4) m4) (fun m5 =>
  match log_level op with
  | None => Ok m5
  | Some t => match stringToLogLevel t with None => Ok m5 | Some l => override m5 l end
  end))))).
(* 106-119: the first of QuickDebug, QuickDebug1, QuickDebug2, ... that is not used *)
Fixpoint unused (fuel : nat) (m : mgr) (i : nat) : str :=
  let n := match i with O => $"QuickDebug" | _ => $"QuickDebug" ++ dec (Z.of_nat i) end in
  match map_get (omap m) n, fuel with None, _ => n | Some _, O => n | Some _, S f => unused f m (S i) end.
(* 102-127; Logging.h:108-121 *)
Definition quickdebug (op : opts) (m : mgr) : result mgr :=
  match quick_debug op with
  | None => Ok m
  | Some _ =>
    let n := unused (length (omap m)) m 0 in
    let (o, m1) := new_output m n Trace in
    let m2 := set_omap m1 (map_put (omap m1) n o) in
    match map_get (sfac m2) $"QuickDebug" with
    | Some (Some a) => bind (addOutputStream m2 a o) (fun m3 => set_stream_level Trace m3 a)
    | _ => Throw
    end
  end.
(* 44-140 *)
Definition initialize (config : list (str * str)) (op : opts) (m : mgr) : result mgr :=
  let m0 := if inited m then m else read_config (set_inited m true) config in
  bind (configure op m0) (fun m1 =>
  bind (quickdebug op m1) (fun m2 =>
  bind (match dflt m2 with Some d => run_output true m2 d | None => Ok m2 end) (fun m3 =>
  foldM (fun m x => run_output true m (snd x)) (omap m3) m3))).
(* 291-303 *)
Definition setLogLevel (l : level) (m : mgr) : result mgr :=
  bind (foldM (fun m x => set_stream_level l m (snd x)) (smap m) m) (fun m1 =>
  foldM (fun m x => set_output_level l m (snd x)) (omap m1) m1).
(* 318-331 with remove_from_list = false *)
Definition disconnect (m : mgr) (o : addr) : result mgr := foldM (fun m x => removeOutputStream m (snd x) o) (smap m) m.
(* 420-461 *)
Definition stop_output (m : mgr) (o : addr) : result mgr :=
  bind (disconnect m o) (fun m1 => bind (run_output false m1 o) (fun m2 => delete_output m2 o)).
Definition shutdown (m : mgr) : result mgr :=
  let m0 := set_inited m false in
  bind (match dflt m0 with Some d => bind (stop_output m0 d) (fun m1 => Ok (set_dflt m1 None)) | None => Ok m0 end) (fun m1 =>
  bind (foldM (fun m x => stop_output m (snd x)) (omap m1) m1) (fun m2 =>
  let m3 := set_omap m2 [] in
  bind (foldM (fun m x => delete_stream m (snd x)) (smap m3) m3) (fun m4 =>
  Ok (set_smap m4 [])))).
(* a message of level l on the stream at a: the outputs that accept it (LoggingMacros_LOGGING.h, ThreadStream.cpp:130-138, LogOutputStream.cpp:148) *)
Definition log (m : mgr) (a : addr) (l : level) : result (list addr) :=
  bind (stream m a) (fun s =>
  if (rank (s_level s) <=? rank l)%Z
  then foldM (fun acc o => bind (output m o) (fun x => Ok (if (rank (o_level x) <=? rank l)%Z then acc ++ [o] else acc))) (s_outs s) []
  else Ok []).
