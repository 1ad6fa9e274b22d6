(* Plugin manager: src/icl_core/src/icl_core_plugin/PluginManager.h:59-605 and PluginManagerBase.cpp:29-96 (POSIX).

   Not modelled: log output, the Windows branches, the assertions, the reference counts of dlopen/dlclose, and changes of
   the file system while the manager reads it.  The functions of a plugin are called only through the manager; load_plugin
   either always makes a new object or always returns NULL. *)
From Verif Require Import Base Text SMap.

(* what a library exports: identifier(), basetype(), load_plugin() *)
Inductive maker := Makes | MakesNull.
Record lib := mkLib { l_identifier : option str; l_basetype : option str; l_load : option maker }.
(* a directory as boost::filesystem shows it: the regular files in the order of the iteration; [broken]: the iteration
   ends with a filesystem_error (not a directory, no permission) *)
Record listing := mkL { l_files : list str; l_broken : bool }.
Record env := mkE {
  flat_dir : str -> option listing;      (* None: the path does not exist *)
  deep_dir : str -> option listing;      (* recursive_directory_iterator *)
  libs : str -> option lib;              (* None: dlopen fails *)
  program : lib;                         (* dlsym(NULL, ...): what the program itself exports *)
  type_name : str;                       (* typeid(T).name() *)
  static_id : nat -> str                 (* Identifier() of the static plugins of the application *)
}.

(* a pointer to a plugin: the n-th object made by a library, or the application's n-th static plugin; NULL is None *)
Inductive ptr := Made (n : nat) | Static (n : nat).
Inductive message := CannotOpen (file : str) | CannotLoad (identifier : str) | CannotCast (identifier : str).

(* PluginManager.h:657-667, PluginManagerBase.h:106-109; a handle is the file, None is NULL; [made]: the library of every
   object made so far *)
Record pm := mkPM {
  loaded : list (str * option ptr);
  handles : list (str * option str);
  statics : list (str * nat);
  initialized : bool;
  lazy : bool;
  errors : list message;
  paths : list str;
  made : list str
}.
Definition set_loaded (s : pm) (x : list (str * option ptr)) : pm := mkPM x (handles s) (statics s) (initialized s) (lazy s) (errors s) (paths s) (made s).
Definition set_handles (s : pm) (x : list (str * option str)) : pm := mkPM (loaded s) x (statics s) (initialized s) (lazy s) (errors s) (paths s) (made s).
Definition set_statics (s : pm) (x : list (str * nat)) : pm := mkPM (loaded s) (handles s) x (initialized s) (lazy s) (errors s) (paths s) (made s).
Definition set_initialized (s : pm) (x : bool) : pm := mkPM (loaded s) (handles s) (statics s) x (lazy s) (errors s) (paths s) (made s).
Definition set_lazy (s : pm) (x : bool) : pm := mkPM (loaded s) (handles s) (statics s) (initialized s) x (errors s) (paths s) (made s).
Definition set_errors (s : pm) (x : list message) : pm := mkPM (loaded s) (handles s) (statics s) (initialized s) (lazy s) x (paths s) (made s).
Definition set_paths (s : pm) (x : list str) : pm := mkPM (loaded s) (handles s) (statics s) (initialized s) (lazy s) (errors s) x (made s).
Definition set_made (s : pm) (x : list str) : pm := mkPM (loaded s) (handles s) (statics s) (initialized s) (lazy s) (errors s) (paths s) x.

(* PluginManagerBase.cpp:39-49 *)
Definition addPluginPath (s : pm) (path : str) : pm :=
  match path with [] => s | _ => set_paths s (paths s ++ [path]) end.
(* PluginManager.h:346-352, PluginManagerBase.cpp:29-32 *)
Definition new_manager (plugin_dir : str) : pm := addPluginPath (mkPM [] [] [] false false [] [] []) plugin_dir.
(* PluginManagerBase.cpp:93-96 *)
Definition addError (s : pm) (m : message) : pm := set_errors s (errors s ++ [m]).

Definition str_is (a b : str) : bool := if list_eq_dec ascii_dec a b then true else false.

(* PluginManager.h:427-496; dlopen may fail: the handle is NULL, and dlsym(NULL, ...) looks into the program itself
   (RTLD_DEFAULT).  Whichever of the two symbols is missing, one message is added. *)
Definition loadHandle (e : env) (s : pm) (file : str) : pm :=
  let (handle, l) := match libs e file with Some l => (Some file, l) | None => (None, program e) end in
  match l_identifier l, l_basetype l with
  | Some id, Some b => if str_is b (type_name e) then set_handles s (map_put (handles s) id handle) else s
  | _, _ => addError s (CannotOpen file)
  end.
(* PluginManager.h:364-419: false when an exception leaves the loop *)
Fixpoint read_paths (e : env) (recursive : bool) (ps : list str) (s : pm) : pm * bool :=
  match ps with
  | [] => (s, true)
  | p :: ps' =>
    match (if recursive then deep_dir e p else flat_dir e p) with
    | None => read_paths e recursive ps' s
    | Some l =>
      let s1 := fold_left (loadHandle e) (l_files l) s in
      if l_broken l then (s1, false) else read_paths e recursive ps' s1
    end
  end.
(* PluginManager.h:357-423 *)
Definition initializePlugins (e : env) (recursive : bool) (s : pm) : pm * bool :=
  read_paths e recursive (paths s) (set_initialized (set_errors s []) true).

(* PluginManager.h:548-605 *)
Definition loadPluginInstance (e : env) (s : pm) (handle : option str) (id : str) : pm * option ptr :=
  match handle with
  | None => (s, None)
  | Some file =>
    match libs e file with
    | Some l =>
      match l_load l with
      | None => (addError s (CannotLoad id), None)
      | Some MakesNull => (addError s (CannotCast id), None)
      | Some Makes => (set_made s (made s ++ [file]), Some (Made (length (made s))))
      end
    | None => (s, None)      (* not reachable: the handle comes from a dlopen that did not fail *)
    end
  end.
(* PluginManager.h:227-228: operator[] adds a NULL handle when there is none *)
Definition create_from_handle (e : env) (s : pm) (id : str) : pm * option ptr :=
  match map_get (handles s) id with
  | Some h => loadPluginInstance e s h id
  | None => loadPluginInstance e (set_handles s (map_put (handles s) id None)) None id
  end.
(* PluginManager.h:501-515: inside, createPluginInstance neither initialises nor loads again *)
Fixpoint load_loop (e : env) (keys : list str) (s : pm) : pm :=
  match keys with
  | [] => s
  | id :: keys' =>
    match map_get (loaded s) id with
    | Some _ => load_loop e keys' s
    | None => let (s1, p) := create_from_handle e s id in load_loop e keys' (set_loaded s1 (map_put (loaded s1) id p))
    end
  end.
Definition loadPlugins (e : env) (s : pm) : pm := load_loop e (map fst (handles s)) (set_lazy s false).

(* PluginManager.h:91-117: the flag is false when an exception leaves the function *)
Definition initialize (e : env) (load_lazy recursive : bool) (s : pm) : pm * bool :=
  if initialized s && lazy s && negb load_lazy then (loadPlugins e s, true)
  else if initialized s then (s, true)
  else let (s1, ok) := initializePlugins e recursive s in
       if ok then (if load_lazy then set_lazy s1 true else loadPlugins e s1, true) else (s1, false).
(* the beginning of the queries: PluginManager.h:133-141, 163-171, 194-202, 217-225 *)
Definition prepare (e : env) (s : pm) : pm * bool :=
  let (s1, ok) := if initialized s then (s, true) else initialize e false false s in
  if ok then (if lazy s1 then loadPlugins e s1 else s1, true) else (s1, false).

(* the calls of the application *)
Inductive op :=
| Initialize (load_lazy recursive : bool)
| AddPath (path : str) | Paths | Errors
| Available | Plugins | Plugin (identifier : str) | Create (identifier : str)
| AddStatic (n : nat) | RemoveStatic (identifier : str) | IsStatic (identifier : str).
Inductive reply := Thrown | Done | Bool (b : bool) | Strings (l : list str) | Messages (l : list message)
| Pointer (p : option ptr) | Pointers (l : list (option ptr)).
(* a query after [prepare] *)
Definition query (e : env) (s : pm) (f : pm -> pm * reply) : pm * reply :=
  let (s1, ok) := prepare e s in if ok then f s1 else (s1, Thrown).
Definition call (e : env) (s : pm) (o : op) : pm * reply :=
  match o with
  | Initialize ll r => let (s1, ok) := initialize e ll r s in (s1, if ok then Bool true else Thrown)
  | AddPath p => (addPluginPath s p, Done)
  | Paths => (s, Strings (paths s))                                                       (* PluginManagerBase.cpp:34-37 *)
  | Errors => (s, Messages (errors s))                                                    (* PluginManagerBase.cpp:51-54 *)
  | Available => query e s (fun s => (s, Strings (map fst (handles s) ++ map fst (statics s))))      (* 131-157 *)
  | Plugins => query e s (fun s => (s, Pointers (map snd (loaded s) ++ map (fun kv => Some (Static (snd kv))) (statics s)))) (* 161-187 *)
  | Plugin id => query e s (fun s =>                                                      (* 192-210: operator[] adds NULL *)
      match map_get (statics s) id with
      | Some n => (s, Pointer (Some (Static n)))
      | None => match map_get (loaded s) id with
                | Some p => (s, Pointer p)
                | None => (set_loaded s (map_put (loaded s) id None), Pointer None)
                end
      end)
  | Create id => query e s (fun s => let (s1, p) := create_from_handle e s id in (s1, Pointer p))     (* 215-229 *)
  | AddStatic n =>                                                                        (* 239-244 *)
      (set_statics s (map_put (filter (fun kv => negb (str_is (fst kv) (static_id e n))) (statics s)) (static_id e n) n), Done)
  | RemoveStatic id => (set_statics s (filter (fun kv => negb (str_is (fst kv) id)) (statics s)), Done) (* 249-254 *)
  | IsStatic id => (s, Bool (match map_get (statics s) id with Some _ => true | None => false end))   (* 260-263 *)
  end.
Fixpoint calls (e : env) (s : pm) (l : list op) : pm * list reply :=
  match l with
  | [] => (s, [])
  | o :: l' => let (s1, r) := call e s o in let (s2, rs) := calls e s1 l' in (s2, r :: rs)
  end.

(* ---- the destructor, PluginManager.h:63-73, 527-544 ---- *)
(* closePluginHandle(identifier) where identifier is a reference to the key of an entry of m_loaded_plugins: the entry is
   erased in line 538, and line 543 still uses the reference *)
Inductive ended := Finished (s : pm) | Undefined | Running.
Definition close_first (s : pm) (id : str) : option pm :=      (* None: undefined behaviour *)
  match map_get (handles s) id with
  | Some (Some _) => match map_get (loaded s) id with Some _ => None | None => Some (set_handles s (filter (fun kv => negb (str_is (fst kv) id)) (handles s))) end
  | _ => Some (set_handles s (filter (fun kv => negb (str_is (fst kv) id)) (handles s)))
  end.
(* Running: not finished after [fuel] rounds *)
Fixpoint destroy (fuel : nat) (s : pm) : ended :=
  match handles s, loaded s with
  | [], _ => Finished s
  | _, [] => Finished s
  | _, (id, _) :: _ =>
    match fuel with
    | O => Running
    | S f => match close_first s id with None => Undefined | Some s1 => destroy f s1 end
    end
  end.
