(* Batch reading of configuration values:
   src/icl_core/src/icl_core_config/Config.h:240-357, ConfigValue.h:49-130, ConfigValueDefault.h:42-74, ConfigEnum.h:41-105,
   ConfigEnumDefault.h:42-76, ConfigList.h:55-142, MemberValue.h:71-158, MemberEnum.h:73-137.

   Not modelled: stringValue() and the wording of the log messages (a message is its level and the key), log messages of
   ConfigList itself, and exceptions of boost::regex for a prefix that is not a regular expression. *)
From Verif Require Import Base Text SMap KeyValueDirectoryModel StringHelperModel ConfigGetModel.

(* the members of the records of a list are numbered *)
Definition record : Type := nat -> value.
Definition set_field (r : record) (i : nat) (v : value) : record := fun j => if Nat.eqb j i then v else r j.

(* MemberValue.h:71-158 / MemberEnum.h:73-137 (the descriptions as copied by the constructor, 84-93) *)
Inductive mconv := MValue (t : cty) | MEnum (descriptions : list str).
Record member := mkMember { m_suffix : str; m_field : nat; m_conv : mconv }.
(* ConfigValue.h / ConfigEnum.h *)
Inductive conv := CValue (t : cty) | CEnum (descriptions : list (option str)) (end_marker : option str).
(* An entry of a batch.  Item: ConfigValue, ConfigEnum and (with a default, a reference to a variable) ConfigValueDefault,
   ConfigEnumDefault.  ListItem: ConfigList; the output iterator appends to a list, [fresh] is T(). *)
Inductive entry :=
| Item (key : str) (c : conv) (target : nat) (default : option nat)
| ListItem (config_prefix : str) (members : list member) (fresh : record) (output : nat).

(* the caller's variables, the caller's lists, and the element map inside each ConfigList object (by address) *)
Record world := mkW {
  vars : nat -> value;
  outs : nat -> list record;
  maps : nat -> list (str * record)
}.
Definition set_var (w : world) (i : nat) (v : value) : world := mkW (fun j => if Nat.eqb j i then v else vars w j) (outs w) (maps w).
Definition set_out (w : world) (i : nat) (l : list record) : world := mkW (vars w) (fun j => if Nat.eqb j i then l else outs w j) (maps w).
Definition set_map (w : world) (i : nat) (l : list (str * record)) : world := mkW (vars w) (outs w) (fun j => if Nat.eqb j i then l else maps w j).

(* ConfigList.h:73-74: boost::regex_match of a key against the query made of a prefix; groups 1 and 3 *)
Definition matcher : Type := str -> str -> option (str * str).
(* what the query means for a prefix without special characters: the prefix, "/", the element: at least one character,
   as few as possible, so that nothing follows or "/" and something *)
Fixpoint element_of (s : str) : option (str * str) :=
  match s with
  | [] => None
  | c :: r =>
    match r with
    | [] => Some ([c], [])
    | d :: r' =>
      if Ascii.eqb d "/"%char && negb (match r' with [] => true | _ => false end) then Some ([c], r')
      else match element_of r with Some (e, x) => Some (c :: e, x) | None => None end
    end
  end.
Fixpoint strip (p s : str) : option str :=
  match p, s with
  | [], _ => Some s
  | a :: p', b :: s' => if Ascii.eqb a b then strip p' s' else None
  | _, [] => None
  end.
Definition literal_match (prefix key : str) : option (str * str) :=
  match strip prefix key with
  | Some (c :: r) => if Ascii.eqb c "/"%char then element_of r else None
  | _ => None
  end.

(* the value of a text: ConfigValue.h:68-86, 108-130; ConfigEnum.h:64-83; the second component is the new value *)
Definition convert (c : conv) (s : str) : result (option value) :=
  match c with
  | CValue TBool => match strict_bool_cast s with Ok b => Ok (Some (VB b)) | Throw => Ok None | UB => UB end
  | CValue t => match hexical_cast t s with Ok v => Ok (Some v) | Throw => Ok None | UB => UB end
  | CEnum descs em => bind (string2Enum_array s 0 descs em) (fun bz => Ok (if fst bz then Some (VZ (snd bz)) else None))
  end.
(* MemberValue.h:83-104, 128-149; MemberEnum.h:105-127 *)
Definition mconvert (c : mconv) (s : str) : result (option value) :=
  match c with
  | MValue t => convert (CValue t) s
  | MEnum l => let bz := string2Enum_vector s 0 l in Ok (if fst bz then Some (VZ (snd bz)) else None)
  end.
Definition member_get (d : directory str) (m : member) (key : str) (r : record) : result (bool * record) :=
  match map_get d key with
  | None => Ok (false, r)
  | Some s => bind (mconvert (m_conv m) s) (fun o =>
              match o with Some v => Ok (true, set_field r (m_field m) v) | None => Ok (false, r) end)
  end.

(* ConfigList.h:75-104; the iterator visits the matching keys in ascending order (KeyValueDirectory.hpp:98-123).
   m_element_map[element] makes a T() when there is none, also when the member cannot be read. *)
Fixpoint list_loop (rx : matcher) (query : str) (d rest : directory str) (members : list member) (fresh : record)
    (em : list (str * record)) (found error : bool) : result (bool * bool * list (str * record)) :=
  match rest with
  | [] => Ok (found, error, em)
  | (k, _) :: rest' =>
    match rx query k with
    | None => list_loop rx query d rest' members fresh em found error
    | Some (element, suffix) =>
      match List.find (fun m => str_is suffix (m_suffix m)) members with
      | None => list_loop rx query d rest' members fresh em found error
      | Some m =>
        let r0 := match map_get em element with Some r => r | None => fresh end in
        bind (member_get d m k r0) (fun br =>
        list_loop rx query d rest' members fresh (map_put em element (snd br)) (found || fst br) (error || negb (fst br)))
      end
    end
  end.
(* ConfigList.h:69-130 *)
Definition list_get (rx : matcher) (d : directory str) (prefix config_prefix : str) (members : list member) (fresh : record)
    (output object : nat) (w : world) : result (bool * world) :=
  bind (list_loop rx (prefix ++ config_prefix) d d members fresh (maps w object) false false) (fun fem =>
  let '(found, error, em) := fem in
  let w1 := set_map w object em in
  if found && negb error then Ok (true, set_out w1 output (outs w1 output ++ map snd em)) else Ok (false, w1)).
(* config->get(prefix, log_stream) *)
Definition entry_get (rx : matcher) (d : directory str) (prefix : str) (object : nat) (e : entry) (w : world) : result (bool * world) :=
  match e with
  | Item key c target default =>
    bind (match map_get d (prefix ++ key) with None => Ok None | Some s => convert c s end) (fun o =>
    match o, default with
    | Some v, _ => Ok (true, set_var w target v)
    | None, Some i => Ok (true, set_var w target (vars w i))          (* ConfigValueDefault.h:62-70, ConfigEnumDefault.h:64-72 *)
    | None, None => Ok (false, w)
    end)
  | ListItem config_prefix members fresh output => list_get rx d prefix config_prefix members fresh output object w
  end.
Definition entry_key (e : entry) : str := match e with Item key _ _ _ => key | ListItem p _ _ _ => p end.

(* a message: TRACE on success, ERROR or (without report_error) TRACE on failure *)
Inductive level := Trace | Error.
Record batch := mkB { b_result : bool; b_world : world; b_log : list (level * str); b_deleted : list nat }.

(* delete of every entry; deleting an address twice is UB *)
Fixpoint distinct (l : list nat) : bool :=
  match l with [] => true | x :: r => negb (existsb (Nat.eqb x) r) && distinct r end.
Definition clean_up (cleanup : bool) (l : list nat) : result (list nat) :=
  if cleanup then (if distinct l then Ok l else UB) else Ok [].

(* Config.h:246-270 and 310-333: the loop over the entries; failures and messages *)
Fixpoint batch_loop (rx : matcher) (d : directory str) (prefix : str) (report_error : bool) (l : list (nat * entry)) (w : world)
  : result (bool * world * list (level * str)) :=
  match l with
  | [] => Ok (true, w, [])
  | (o, e) :: l' =>
    bind (entry_get rx d prefix o e w) (fun bw =>
    bind (batch_loop rx d prefix report_error l' (snd bw)) (fun rest =>
    let '(ok, w', log) := rest in
    Ok (fst bw && ok, w',
        (if fst bw then Trace else if report_error then Error else Trace, prefix ++ entry_key e) :: log)))
  end.
(* the entries of a NULL terminated array *)
Fixpoint until_null (a : list (option (nat * entry))) : result (list (nat * entry)) :=
  match a with
  | [] => UB
  | None :: _ => Ok []
  | Some e :: r => bind (until_null r) (fun l => Ok (e :: l))
  end.
(* Config.h:240-284: the entries are read with the prefix "" *)
Definition get_array (rx : matcher) (d : directory str) (a : list (option (nat * entry))) (cleanup report_error : bool) (w : world) : result batch :=
  bind (until_null a) (fun l =>
  bind (batch_loop rx d [] report_error l w) (fun r =>
  let '(ok, w', log) := r in
  bind (clean_up cleanup (map fst l)) (fun del => Ok (mkB ok w' log del)))).
(* Config.h:302-305 *)
Definition with_slash (prefix : str) : str :=
  match prefix with
  | [] => []
  | _ => if Ascii.eqb (last prefix "/"%char) "/"%char then prefix else prefix ++ $"/"
  end.
(* Config.h:292-350: the result starts as false and becomes true with the first entry, whatever it is *)
Definition get_list (rx : matcher) (d : directory str) (prefix : str) (l : list (nat * entry)) (cleanup report_error : bool) (w : world) : result batch :=
  let p := with_slash prefix in
  bind (batch_loop rx d p report_error l w) (fun r =>
  let '(ok, w', log) := r in
  bind (clean_up cleanup (map fst l)) (fun del =>
  Ok (mkB (match l with [] => false | _ => true end && ok) w' log del))).
