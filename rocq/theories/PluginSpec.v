(* Vocabulary of C57: which plugins a manager should find and hand out. *)
From Verif Require Import Base Text SMap PluginModel.

(* the file registers the identifier with the handle h: a library with the right base type, or (None) a file that cannot
   be opened while the program itself exports the symbols *)
Inductive offers (e : env) : str -> option str -> str -> Prop :=
| O_lib file l id : libs e file = Some l -> l_identifier l = Some id -> l_basetype l = Some (type_name e) -> offers e file (Some file) id
| O_null file id : libs e file = None -> l_identifier (program e) = Some id -> l_basetype (program e) = Some (type_name e) -> offers e file None id.
(* the file has no identifier or no base type *)
Definition no_plugin (e : env) (file : str) : Prop :=
  let l := match libs e file with Some l => l | None => program e end in l_identifier l = None \/ l_basetype l = None.

(* the files looked at; false: stopped by an exception *)
Inductive visits (e : env) (recursive : bool) : list str -> list str -> bool -> Prop :=
| V_end : visits e recursive [] [] true
| V_missing p ps files ok : (if recursive then deep_dir e p else flat_dir e p) = None -> visits e recursive ps files ok -> visits e recursive (p :: ps) files ok
| V_dir p ps l files ok : (if recursive then deep_dir e p else flat_dir e p) = Some l -> l_broken l = false -> visits e recursive ps files ok ->
    visits e recursive (p :: ps) (l_files l ++ files) ok
| V_broken p ps l : (if recursive then deep_dir e p else flat_dir e p) = Some l -> l_broken l = true -> visits e recursive (p :: ps) (l_files l) false.
(* the last file wins *)
Definition found (e : env) (files : list str) (id : str) (h : option str) : Prop :=
  exists l1 file l2, files = l1 ++ file :: l2 /\ offers e file h id /\ forall f' h', In f' l2 -> ~ offers e f' h' id.
(* load_plugin() of the library makes objects *)
Definition makes (e : env) (file : str) : Prop := exists l, libs e file = Some l /\ l_load l = Some Makes.

(* the calls that initialise the manager, and whether they search recursively *)
Definition starts (o : op) : option bool :=
  match o with
  | Initialize _ r => Some r
  | Available | Plugins | Plugin _ | Create _ => Some false
  | _ => None
  end.
(* the search paths after the calls l *)
Fixpoint path_list (dir : str) (l : list op) : list str :=
  match dir with [] => [] | _ => [dir] end ++
  match l with [] => [] | AddPath p :: l' => path_list p l' | _ :: l' => path_list [] l' end.
(* the static plugin with this identifier after the calls l *)
Definition static_now (e : env) (l : list op) (id : str) (n : nat) : Prop :=
  exists a b, l = a ++ AddStatic n :: b /\ static_id e n = id /\
  forall o, In o b -> o <> RemoveStatic id /\ forall m, o = AddStatic m -> static_id e m <> id.
Definition no_static (e : env) (l : list op) (id : str) : Prop := forall n, ~ static_now e l id n.

Inductive ascending : list str -> Prop :=
| A_nil : ascending []
| A_cons x l : ascending l -> (forall y, In y l -> str_lt x y = true) -> ascending (x :: l).

(* the answer to the call q after the calls l, and the library that made the k-th object *)
Definition answer (e : env) (dir : str) (l : list op) (q : op) : reply := snd (call e (fst (calls e (new_manager dir) l)) q).
Definition library (e : env) (dir : str) (l : list op) (k : nat) : option str := nth_error (made (fst (calls e (new_manager dir) l))) k.

(* the manager is initialised by the call o after the calls l0; false: the search ends with an exception *)
Record started (e : env) (dir : str) (l0 : list op) (o : op) (files : list str) (ok : bool) : Prop := mkStarted {
  st_before : forall q, In q l0 -> starts q = None;
  st_start : exists r, starts o = Some r /\ visits e r (path_list dir l0) files ok
}.
(* the call q after the calls l; a: what was carried out since the search *)
Inductive point (l0 : list op) (o : op) : bool -> list op -> list op -> op -> Prop :=
| P_first : point l0 o true l0 [] o
| P_later l q : point l0 o true (l0 ++ o :: l) (o :: l) q
| P_failed l q : point l0 o false (l0 ++ o :: l) l q.
(* what plugin(id) should yield: the static plugin, or the one object obj id of the plugin *)
Inductive plugin_is (e : env) (l : list op) (obj : str -> option nat) (id : str) : option ptr -> Prop :=
| PI_static n : static_now e l id n -> plugin_is e l obj id (Some (Static n))
| PI_dynamic : no_static e l id -> plugin_is e l obj id (option_map Made (obj id)).

(* how a manager behaves after the search over [files]; obj: the objects that plugin() hands out *)
Record behaves (e : env) (dir : str) (l0 : list op) (o : op) (files : list str) (ok : bool) (obj : str -> option nat) : Prop := mkB {
  (* one object for every plugin found whose library makes objects; none when the search failed *)
  b_obj : forall id, (exists k, obj id = Some k) <-> ok = true /\ exists f, found e files id (Some f) /\ makes e f;
  b_inj : forall id id' k, obj id = Some k -> obj id' = Some k -> id = id';
  b_plugin : forall l a id, point l0 o ok l a (Plugin id) ->
    exists p, answer e dir l (Plugin id) = Pointer p /\ plugin_is e l obj id p /\
    forall k f, p = Some (Made k) -> found e files id (Some f) -> library e dir (l ++ [Plugin id]) k = Some f;
  b_plugins : forall l a, point l0 o ok l a Plugins -> exists dyn stat,
    answer e dir l Plugins = Pointers (map snd dyn ++ map (fun kv => Some (Static (snd kv))) stat) /\
    ascending (map fst dyn) /\ (forall id p, In (id, p) dyn -> p = option_map Made (obj id)) /\
    (forall id h, ok = true -> found e files id h -> In id (map fst dyn)) /\
    (forall id, In id (map fst dyn) -> (ok = true /\ exists h, found e files id h) \/ In (Plugin id) a) /\
    ascending (map fst stat) /\ (forall id n, In (id, n) stat <-> static_now e l id n);
  b_available : forall l a, point l0 o ok l a Available -> exists dyn stat,
    answer e dir l Available = Strings (dyn ++ stat) /\
    ascending dyn /\ (forall id, In id dyn <-> (exists h, found e files id h) \/ In (Create id) a) /\
    ascending stat /\ (forall id, In id stat <-> exists n, static_now e l id n);
  b_create : forall l a id, point l0 o ok l a (Create id) ->
    (exists k f, found e files id (Some f) /\ makes e f /\ answer e dir l (Create id) = Pointer (Some (Made k)) /\
      library e dir (l ++ [Create id]) k = Some f /\ forall id', obj id' <> Some k) \/
    ((forall f, found e files id (Some f) -> ~ makes e f) /\ answer e dir l (Create id) = Pointer None);
  b_fresh : forall l a id k l2 a' id' k', point l0 o ok l a (Create id) -> answer e dir l (Create id) = Pointer (Some (Made k)) ->
    point l0 o ok (l ++ Create id :: l2) a' (Create id') -> answer e dir (l ++ Create id :: l2) (Create id') = Pointer (Some (Made k')) -> k <> k'
}.
(* why a library yields no object *)
Inductive complains (e : env) (id file : str) : message -> Prop :=
| C_load l : libs e file = Some l -> l_load l = None -> complains e id file (CannotLoad id)
| C_cast l : libs e file = Some l -> l_load l = Some MakesNull -> complains e id file (CannotCast id).
(* the messages of the search: one for every file without identifier or base type *)
Inductive search_messages (e : env) : list str -> list message -> Prop :=
| SM_nil : search_messages e [] []
| SM_miss f fs ms : no_plugin e f -> search_messages e fs ms -> search_messages e (f :: fs) (CannotOpen f :: ms)
| SM_ok f fs ms : ~ no_plugin e f -> search_messages e fs ms -> search_messages e (f :: fs) ms.
(* the messages of loading the plugins found, in the order of their identifiers *)
Definition load_messages (e : env) (files : list str) (ms : list message) : Prop :=
  exists l, ms = map snd l /\ ascending (map fst l) /\ forall id m, In (id, m) l <-> exists f, found e files id (Some f) /\ complains e id f m.
(* the messages of the calls of createPluginInstance *)
Inductive create_messages (e : env) (files : list str) : list op -> list message -> Prop :=
| CM_nil : create_messages e files [] []
| CM_fails id f m l ms : found e files id (Some f) -> complains e id f m -> create_messages e files l ms -> create_messages e files (Create id :: l) (m :: ms)
| CM_silent q l ms : (forall id f m, q = Create id -> found e files id (Some f) -> ~ complains e id f m) -> create_messages e files l ms ->
    create_messages e files (q :: l) ms.
(* the calls that do not load the plugins of a lazy manager *)
Definition idle (q : op) : Prop := match q with Initialize false _ | Available | Plugins | Plugin _ | Create _ => False | _ => True end.
Definition after (e : env) (dir : str) (l : list op) : pm := fst (calls e (new_manager dir) l).
