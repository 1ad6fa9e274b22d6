(* Vocabulary of C51: which log streams should be connected to which outputs. *)
From Verif Require Import Conc Text SMap LogTextModel LogManagerModel.

(* the calls a program makes on the manager *)
Inductive call :=
| CRegisterStream (n : str) | CRegisterOutput (n : str)       (* REGISTER_LOG_STREAM, REGISTER_LOG_OUTPUT_STREAM *)
| CNewStream (n : str)                                        (* a stream created and registered by hand *)
| CInitialize | CConfigure | CSetLogLevel (l : level)
| CLog (n : str) (l : level)                                  (* a log statement on a registered stream *).
Definition do_call (config : list (str * str)) (op : opts) (m : mgr) (c : call) : result mgr :=
  match c with
  | CRegisterStream n => Ok (match map_get (sfac m) n, map_get (smap m) n with None, None => registerStreamFactory m n | _, _ => m end)
  | CRegisterOutput n => Ok (registerOutputFactory m n)
  | CNewStream n => if inited m
                    then match map_get (smap m) n with None => let (a, m1) := new_stream m n in registerLogStream m1 a | Some _ => Ok m end
                    else Throw
  | CInitialize => initialize config op m
  | CConfigure => configure op m
  | CSetLogLevel l => setLogLevel l m
  | CLog n l => match map_get (smap m) n with Some a => bind (log m a l) (fun _ => Ok m) | None => Ok m end
  end.
Definition do_calls config op (cs : list call) : result mgr := foldM (do_call config op) cs start_mgr.

(* a stream can be looked up by its name *)
Definition stream_of (m : mgr) (n : str) : option sobj := match map_get (smap m) n with Some a => sh m a | None => None end.
Definition output_of (m : mgr) (k : str) : option oobj := match map_get (omap m) k with Some o => oh m o | None => None end.
Definition connected (m : mgr) (n : str) (o : addr) : Prop := exists s, stream_of m n = Some s /\ In o (s_outs s).

Definition has_stream (m : mgr) (n : str) : Prop := exists s, stream_of m n = Some s.
Definition has_output (m : mgr) (k : str) : Prop := exists x, output_of m k = Some x.
(* the level given with --log-level, if it is one *)
Definition option_level (op : opts) : option level := match log_level op with Some t => stringToLogLevel t | None => None end.

(* an entry of the configuration names the stream, or no stream at all *)
Definition chosen (c : outcfg) (n : str) : Prop := c_streams c = [] \/ In n (c_streams c).
(* an entry that creates an output with name k *)
Definition created (known : list str) (l : list (str * outcfg)) (k : str) : Prop :=
  exists e c, In (e, c) l /\ the_name c = k /\ In (c_kind c) known.
(* an entry for name k that chooses stream n, when output k was there before or has been created by an entry not after it *)
Definition wired (there : str -> Prop) (known : list str) (l : list (str * outcfg)) (n k : str) : Prop :=
  exists l1 e c l2, l = l1 ++ (e, c) :: l2 /\ the_name c = k /\ chosen c n /\ (there k \/ created known (l1 ++ [(e, c)]) k).
(* the names for the output of --quick-debug: QuickDebug, QuickDebug1, QuickDebug2, ... *)
Definition quick_name (i : nat) : str := match i with O => $"QuickDebug" | _ => $"QuickDebug" ++ dec (Z.of_nat i) end.

(* what a program registered before it called initialize *)
Definition registration (c : call) : Prop := match c with CRegisterStream _ | CRegisterOutput _ => True | _ => False end.
Definition registered_stream (cs : list call) (n : str) : Prop := In n [$"Default"; $"Nirwana"; $"QuickDebug"] \/ In (CRegisterStream n) cs.
Definition known_outputs (cs : list call) : list str := flat_map (fun c => match c with CRegisterOutput n => [n] | _ => [] end) cs.
(* the entries of the configuration *)
Definition outputs_of (config : list (str * str)) : list (str * outcfg) := ocfg (read_config new_mgr config).
Definition streams_of (config : list (str * str)) : list (str * strcfg) := scfg (read_config new_mgr config).
(* the level of the last entry for stream n *)
Definition last_level (l : list (str * strcfg)) (n : str) : option level :=
  option_map (fun e => sc_level (snd e)) (find (fun e => str_eqb (sc_name (snd e)) n) (rev l)).
(* a valid --log-level wins *)
Definition the_level (op : opts) (v : level) : level := match option_level op with Some l => l | None => v end.

(* the value of a configuration key; empty if there is none *)
Definition value (config : list (str * str)) (k : str) : str := match find (fun kv => str_eqb (fst kv) k) config with Some kv => snd kv | None => [] end.
Definition key (e v : str) : str := $"/IclCore/Logging/" ++ e ++ $"/" ++ v.
Definition level_or_trace (t : str) : level := match stringToLogLevel t with Some l => l | None => Trace end.
(* a key LogStream... of entry e *)
Definition stream_key (e k : str) : bool :=
  match strip (key e $"LogStream") k with Some r => negb (existsb (Ascii.eqb "/") r) | None => false end.
