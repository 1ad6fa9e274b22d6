(* How a log message is put together and printed: icl_core_logging/ThreadStream.{h,cpp}, LogOutputStream.{h,cpp}, LogLevel.cpp.
   Sequential part: one log statement on a stream of its own (the sharing of streams between threads is LogStreamModel).
   Memory: an array is a list of bytes, None: not initialised.  Accesses outside an array and reads of uninitialised bytes are UB. *)
From Verif Require Import Base Text CInt.
Local Open Scope Z_scope.

Notation mem := (list (option ascii)).
Definition nul : ascii := "000"%char.
Definition zeros (n : Z) : mem := repeat (Some nul) (Z.to_nat n).
Definition uninit (n : Z) : mem := repeat None (Z.to_nat n).

(* memcpy: l copied into d from position i on *)
Fixpoint store (d : mem) (i : nat) (l : mem) : result mem :=
  match l with
  | [] => Ok d
  | b :: r => match vec_set d i b with Ok d' => store d' (S i) r | Throw => Throw | UB => UB end
  end.
(* reading n bytes of an object whose readable bytes are s *)
Definition load (s : str) (n : Z) : result mem :=
  if n <=? Z.of_nat (length s) then Ok (map Some (firstn (Z.to_nat n) s)) else UB.
(* the C string in an array *)
Fixpoint c_str (d : mem) : result str :=
  match d with
  | [] => UB
  | None :: _ => UB
  | Some c :: r => if Ascii.eqb c nul then Ok [] else match c_str r with Ok s => Ok (c :: s) | Throw => Throw | UB => UB end
  end.
(* strncpy(d, s, n) for a C string s *)
Definition strncpy (d : mem) (s : str) (n : Z) : result mem :=
  store d 0 (map Some (firstn (Z.to_nat n) s) ++ repeat (Some nul) (Z.to_nat n - length s)).
(* what snprintf(buffer, n, ...) leaves readable in the buffer when the whole text is t; it returns the length of t *)
Definition printed (n : Z) (t : str) : str := firstn (Z.to_nat (n - 1)) t ++ [nul].

(* decimal text *)
Fixpoint udec (fuel : nat) (z : Z) : str :=
  match fuel with O => [] | S f => if z <? 10 then [dchar z] else udec f (z / 10) ++ [dchar (z mod 10)] end.
Definition dec (z : Z) : str :=
  let d := udec (S (Z.to_nat (Z.log2 (Z.abs z)))) (Z.abs z) in if z <? 0 then $"-" ++ d else d.

(* LogLevel.h:49-57 *)
Inductive level := Trace | Debug | Info | Warning | Error | Mute.
Definition rank (l : level) : Z := match l with Trace => 0 | Debug => 1 | Info => 2 | Warning => 3 | Error => 4 | Mute => 5 end.
Definition levels := [Trace; Debug; Info; Warning; Error; Mute].
(* LogLevel.cpp:30-51, for the values of the enum *)
Definition logLevelDescription (l : level) : str :=
  match l with Trace => $"Trace" | Debug => $"Debug" | Info => $"Info" | Warning => $"Warning" | Error => $"Error" | Mute => $"Mute" end.
(* LogLevel.cpp:53-65: None if false is returned *)
Definition str_eqb (a b : str) : bool := if list_eq_dec ascii_dec a b then true else false.
Definition stringToLogLevel (t : str) : option level := find (fun l => str_eqb t (logLevelDescription l)) levels.

Section Size.
  (* cDEFAULT_LOG_SIZE, Constants.h:35-37: a macro, 2048 unless defined otherwise *)
  Context (SIZE : Z).

  (* ThreadStream.h:223-233; the parent and m_level are not needed here *)
  Record tstream := mkTS { line_level : level; filename : mem; line : Z; classname : mem; objectname : mem; function : mem;
                           data : mem; write_index : Z }.
  (* ThreadStream.cpp:149-159: m_filename and m_objectname are not set *)
  Definition new_stream (l : level) : tstream :=
    mkTS l (uninit (SIZE + 1)) 0 (zeros (SIZE + 1)) (uninit (SIZE + 1)) (zeros (SIZE + 1)) (zeros (SIZE + 1)) 0.

  (* ThreadStream.cpp:50-78 *)
  Definition set_names (t : tstream) (lv : level) (fi : str) (li : Z) (cl ob fu : str) : result tstream :=
    bind (strncpy (filename t) fi SIZE) (fun f =>
    bind (strncpy (classname t) cl SIZE) (fun c =>
    bind (strncpy (objectname t) ob SIZE) (fun o =>
    bind (strncpy (function t) fu SIZE) (fun u =>
    Ok (mkTS lv f li c o u (data t) (write_index t)))))).

  Definition with_data (t : tstream) (d : mem) (i : Z) : tstream :=
    mkTS (line_level t) (filename t) (line t) (classname t) (objectname t) (function t) d i.

  (* ThreadStream.cpp:80-98; [source]: the readable bytes at source *)
  Definition write (t : tstream) (source : str) (number_of_bytes protected : Z) : result tstream :=
    let writable := to_u64 (to_u64 (SIZE - write_index t) - 1) in
    let n := if writable <? to_u64 (number_of_bytes + protected)
             then if protected <? writable then writable - protected else 0
             else number_of_bytes in
    bind (load source n) (fun l => bind (store (data t) (Z.to_nat (write_index t)) l) (fun d => Ok (with_data t d (write_index t + n)))).

  (* what can be streamed into a message *)
  Inductive piece :=
  | PText (s : str)                  (* const char *: a C string *)
  | PString (s : str)                (* std::string *)
  | PBool (b : bool)
  | PU8 (z : Z) | PU16 (z : Z) | PU32 (z : Z) | PU64 (z : Z)
  | PI8 (z : Z) | PI16 (z : Z) | PI32 (z : Z) | PI64 (z : Z)
  | PDouble (t : str)                (* t: the text "%f" gives for the value *)
  | PPointer (t : str).              (* t: the text "%p" gives for the value *)
  Definition print_number (t : tstream) (n : Z) (text : str) : result tstream := write t (printed n text) (Z.of_nat (length text)) 1.
  (* ThreadStream.cpp:162-295, on a 64 bit system *)
  Definition put (t : tstream) (p : piece) : result tstream :=
    match p with
    | PText s => write t (s ++ [nul]) (Z.of_nat (length s)) 1
    | PString s => write t (s ++ [nul]) (Z.of_nat (length s)) 1
    | PBool true => write t ($"True" ++ [nul]) 4 1
    | PBool false => write t ($"False" ++ [nul]) 5 1
    | PU8 z => print_number t 8 (dec z)
    | PU16 z => print_number t 8 (dec z)
    | PU32 z => print_number t 13 (dec z)
    | PU64 z => print_number t 23 (dec z)
    | PI8 z => print_number t 8 (dec z)
    | PI16 z => print_number t 8 (dec z)
    | PI32 z => print_number t 13 (dec z)
    | PI64 z => print_number t 23 (dec z)
    | PDouble x => print_number t 100 x
    | PPointer x => print_number t 25 x
    end.
  Fixpoint puts (t : tstream) (l : list piece) : result tstream :=
    match l with [] => Ok t | p :: r => bind (put t p) (fun t' => puts t' r) end.

  (* LogOutputStream.h:52 (MAX lengths in Constants.h:42, 47) and 243-261 *)
  Definition MAX_IDENTIFIER : Z := 256.
  Definition MAX_DESCRIPTION : Z := 1024.
  Record message := mkMsg { m_level : level; m_stream : mem; m_file : mem; m_line : Z; m_class : mem; m_object : mem; m_function : mem;
                            m_text : mem }.
  (* LogOutputStream.cpp:662-678 *)
  Definition LogMessage (lv : level) (st fi : str) (li : Z) (cl ob fu tx : str) : result message :=
    bind (strncpy (uninit (MAX_IDENTIFIER + 1)) st (MAX_IDENTIFIER + 1)) (fun s =>
    bind (strncpy (uninit (MAX_DESCRIPTION + 1)) fi (MAX_DESCRIPTION + 1)) (fun f =>
    bind (strncpy (uninit (MAX_IDENTIFIER + 1)) cl (MAX_IDENTIFIER + 1)) (fun c =>
    bind (strncpy (uninit (MAX_DESCRIPTION + 1)) ob (MAX_DESCRIPTION + 1)) (fun o =>
    bind (strncpy (uninit (MAX_IDENTIFIER + 1)) fu (MAX_IDENTIFIER + 1)) (fun u =>
    bind (strncpy (uninit (SIZE + 1)) tx (SIZE + 1)) (fun t =>
    Ok (mkMsg lv s f li c o u t))))))).

  (* ThreadStream.cpp:125-147 for one output stream, with LogOutputStream.cpp:143-151: the message handed to the output
     (None: the output's level is higher), and the stream afterwards.  [name]: the name of the log stream. *)
  Definition flush (t : tstream) (name : str) (out : level) : result (option message * tstream) :=
    bind (vec_set (data t) (Z.to_nat (write_index t)) (Some nul)) (fun d =>
    let t' := with_data t d 0 in
    if rank out <=? rank (line_level t)
    then bind (c_str (filename t)) (fun f => bind (c_str (classname t)) (fun c => bind (c_str (objectname t)) (fun o =>
         bind (c_str (function t)) (fun u => bind (c_str d) (fun x =>
         bind (LogMessage (line_level t) name f (line t) c o u x) (fun m => Ok (Some m, t')))))))
    else Ok (None, t')).
  (* ThreadStream.h:249-253 *)
  Definition endl (t : tstream) (name : str) (out : level) : result (option message * tstream) :=
    bind (write t ($"
" ++ [nul]) 1 0) (fun t' => flush t' name out).

  (* ThreadStream.cpp:100-123; [text]: what the format and its arguments give (vsnprintf returns its length) *)
  Definition printf (t : tstream) (text : str) (name : str) (out : level) : result (option message * tstream) :=
    let writable := to_u64 (to_u64 (SIZE - write_index t) - 1) in
    bind (if writable =? 0 then Ok (data t) else store (data t) (Z.to_nat (write_index t)) (map Some (printed writable text))) (fun d =>
    let i := if writable <? Z.of_nat (length text) then write_index t + writable else write_index t + Z.of_nat (length text) in
    flush (with_data t d i) name out).

  (* LoggingMacros_SLOGGING.h:55-71: the log statement.  None: nothing is logged. *)
  Definition log_statement (t : tstream) (active : bool) (stream_level : level) (name : str) (lv : level) (fi : str) (li : Z) (cl ob fu : str)
      (l : list piece) (out : level) : result (option message * tstream) :=
    if active then
      if rank stream_level <=? rank lv
      then bind (set_names t lv fi li cl ob fu) (fun t1 => bind (puts t1 l) (fun t2 => endl t2 name out))
      else Ok (None, t)
    else Ok (None, t).

  (* LogOutputStream.h:310-338 *)
  Inductive kind := KText | KClass | KObject | KFunction | KMessage | KFile | KLine | KLevel | KStream | KTime | KMillis.
  Record entry := mkEntry { e_kind : kind; e_width : Z; e_text : mem; e_suffix : mem }.

  Definition key (c : ascii) : option kind :=
    if Ascii.eqb c "C"%char then Some KClass
    else if Ascii.eqb c "O"%char then Some KObject
    else if Ascii.eqb c "D"%char then Some KFunction
    else if Ascii.eqb c "E"%char then Some KMessage
    else if Ascii.eqb c "F"%char then Some KFile
    else if Ascii.eqb c "G"%char then Some KLine
    else if Ascii.eqb c "L"%char then Some KLevel
    else if Ascii.eqb c "S"%char then Some KStream
    else if Ascii.eqb c "T"%char then Some KTime
    else if Ascii.eqb c "M"%char then Some KMillis
    else None.
  (* the loops 403-407, 411-418, 484-489: characters up to the first one that does not satisfy p (or the end) *)
  Fixpoint span (p : ascii -> bool) (s : str) : str * str :=
    match s with [] => ([], []) | c :: r => if p c then let (a, b) := span p r in (c :: a, b) else ([], s) end.
  (* 428-439 *)
  Definition suffix_for (text : mem) : result mem :=
    let z := zeros 100 in
    match text with
    | Some c :: _ => if Ascii.eqb c "("%char then strncpy z $")" 100
                     else if Ascii.eqb c "["%char then strncpy z $"]" 100
                     else if Ascii.eqb c "{"%char then strncpy z $"}" 100
                     else Ok z
    | _ => UB
    end.

  (* LogOutputStream.cpp:393-506; the format without its terminating NUL, so ++format at the end is UB *)
  Fixpoint parse (fuel : nat) (format : str) : result (list entry) :=
    match fuel with
    | O => Throw  (* not reached: fuel is the length of the format *)
    | S f =>
      let next (e : list entry) (rest : str) :=
        match rest with [] => Ok e | _ => bind (parse f rest) (fun r => Ok (e ++ r)) end in
      match format with
      | [] => Ok []
      | c :: format1 =>
        if Ascii.eqb c "~"%char then
          let (ds, format2) := span is_digit format1 in
          let width := fold_left (fun w d => to_u64 (10 * w + dvalue d)) ds 0 in
          let (prefix, format3) := span (fun c => match key c with None => true | Some _ => false end) format2 in
          bind (store (zeros 100) 0 (map Some prefix)) (fun text =>
          match format3 with
          | [] => UB  (* 479: ++format goes past the terminating NUL, which is then read *)
          | k :: format4 =>
            match key k with
            | Some KObject => bind (suffix_for text) (fun suffix => next [mkEntry KObject width text suffix] format4)
            | Some kd => next [mkEntry kd width text (zeros 100)] format4
            | None => UB (* not reached *)
            end
          end)
        else
          let (t, format2) := span (fun c => negb (Ascii.eqb c "~"%char)) format in
          bind (store (zeros 100) 0 (map Some t)) (fun text => next [mkEntry KText 0 text (zeros 100)] format2)
      end
    end.
  (* LogOutputStream.cpp:125-141: an empty format leaves the old one *)
  Definition changeLogFormat (old : list entry) (format : str) : result (list entry) :=
    match format with [] => Ok old | _ => parse (length format) format end.

  (* LogOutputStream.cpp:182-296; [time]: the text strfLocaltime gives, [nsec]: the nanoseconds of the time stamp *)
  Definition render1 (e : entry) (m : message) (time : str) (nsec : Z) : result str :=
    let named (n : mem) (suffix : result str) :=
      bind (c_str n) (fun s => match s with [] => Ok [] | _ => bind (c_str (e_text e)) (fun p => bind suffix (fun x => Ok (p ++ s ++ x))) end) in
    match e_kind e with
    | KText => c_str (e_text e)
    | KClass => named (m_class m) (Ok [])
    | KObject => named (m_object m) (c_str (e_suffix e))
    | KFunction => named (m_function m) (Ok [])
    | KMessage => c_str (m_text m)
    | KFile => c_str (m_file m)
    | KLine => Ok (dec (m_line m))
    | KLevel => Ok (logLevelDescription (m_level m))
    | KStream => c_str (m_stream m)
    | KTime => Ok time
    | KMillis =>
      let msec := Z.quot nsec 1000000 in
      let len := if 100 <=? msec then 3 else if 10 <=? msec then 2 else 1 in
      Ok (repeat "0"%char (Z.to_nat (e_width e - len)) ++ dec msec)
    end.
  Fixpoint render (l : list entry) (m : message) (time : str) (nsec : Z) : result str :=
    match l with [] => Ok [] | e :: r => bind (render1 e m time nsec) (fun s => bind (render r m time nsec) (fun t => Ok (s ++ t))) end.
End Size.
