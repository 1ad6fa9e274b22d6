(* Vocabulary of C36 and C37. *)
From Verif Require Import Base Text SMap KeyValueDirectoryModel GetoptModel GetoptSpec ConfigModel.

Notation entry := (str * str)%type.   (* key, value *)
(* the last value given to a key by a sequence of entries *)
Definition last_of (k : str) (l : list entry) : option str := last_value k (map Some l).

(* the current value of a key *)
Definition value_at (m : manager) (k : str) : option str := map_get (items m) k.
(* the observers registered for a key *)
Definition registered_for (m : manager) (k : str) : list nat := match map_get (observers m) k with Some l => l | None => [] end.
(* who is to be told about a change of k: those registered for k, then those registered for all keys *)
Definition to_tell (m : manager) (k : str) : list nat := registered_for m k ++ registered_for m [].
Definition calls (m : manager) (l : list entry) : list (nat * str) := flat_map (fun e => map (fun o => (o, fst e)) (to_tell m (fst e))) l.

(* m' is m after these changes, one after the other, each announced when it was made *)
Definition recorded (m : manager) (l : list entry) (m' : manager) : Prop :=
  (forall k, value_at m' k = match last_of k l with Some v => Some v | None => value_at m k end) /\
  told m' = told m ++ calls m l /\
  observers m' = observers m /\ parameter_list m' = parameter_list m /\ positional_list m' = positional_list m.

(* the entries of a configuration file in document order; an included file that cannot be read contributes nothing *)
Definition is_tree_file (fs : files) (f : str) : bool := str_eqb (extension fs f) $".AttributeTree" || str_eqb (extension fs f) $".tree".
Definition readable (fs : files) (f : str) : bool :=
  if is_tree_file fs f then match tree_file fs f with None => false | Some _ => true end
  else match xml_file fs f with None => false | Some _ => true end.

(* key = path of the descriptions, without the root *)
Fixpoint tree_entries (key : str) (t : tree) : list entry :=
  match t with
  | Tree _ comment attribute subtrees =>
    (match attribute with Some a => if comment then [] else [(key, a)] | None => [] end) ++
    flat_map (fun s => tree_entries (key ++ $"/" ++ match s with Tree (Some d) _ _ _ => d | Tree None _ _ _ => [] end) s) subtrees
  end.

Inductive file_entries (fs : files) : str -> list entry -> Prop :=
| fe_none f : readable fs f = false -> file_entries fs f []
| fe_tree_empty f : is_tree_file fs f = true -> tree_file fs f = Some None -> file_entries fs f []
| fe_tree f t : is_tree_file fs f = true -> tree_file fs f = Some (Some t) -> file_entries fs f (tree_entries [] t)
| fe_xml_empty f : is_tree_file fs f = false -> xml_file fs f = Some None -> file_entries fs f []
| fe_xml f name children l : is_tree_file fs f = false -> xml_file fs f = Some (Some (Element name children)) ->
    children_entries fs (directory_of fs f) [] children l -> file_entries fs f l
with children_entries (fs : files) : str -> str -> list node -> list entry -> Prop :=
| ce_nil dir key : children_entries fs dir key [] []
| ce_text dir key v r l : children_entries fs dir key r l -> children_entries fs dir key (TextNode v :: r) ((key, v) :: l)
| ce_other dir key r l : children_entries fs dir key r l -> children_entries fs dir key (Other :: r) l
| ce_include dir key cc t r l1 l2 : get_text cc = Some t -> file_entries fs (dir ++ t) l1 -> children_entries fs dir key r l2 ->
    children_entries fs dir key (Element $"INCLUDE" cc :: r) (l1 ++ l2)
| ce_include_nothing dir key cc r l : get_text cc = None -> children_entries fs dir key r l ->
    children_entries fs dir key (Element $"INCLUDE" cc :: r) l
| ce_element dir key name cc r l1 l2 : name <> $"INCLUDE" -> children_entries fs dir (key ++ $"/" ++ name) cc l1 ->
    children_entries fs dir key r l2 -> children_entries fs dir key (Element name cc :: r) (l1 ++ l2).

(* every XML document has an element as its root *)
Definition documents (fs : files) : Prop :=
  forall f root, xml_file fs f = Some (Some root) -> exists name children, root = Element name children.

(* f includes g *)
Fixpoint include_texts (n : node) : list str :=
  match n with
  | Element name children =>
    if str_eqb name $"INCLUDE" then match get_text children with Some t => [t] | None => [] end else flat_map include_texts children
  | _ => []
  end.
Definition includes (fs : files) (f g : str) : Prop :=
  is_tree_file fs f = false /\ exists name children t, xml_file fs f = Some (Some (Element name children)) /\
  In t (flat_map include_texts children) /\ g = directory_of fs f ++ t.

(* the sources of initialize *)
Definition command_line (p : parsed) (cs : list cparam) : list entry :=
  flat_map (fun c => if paramOptPresent p (c_option c) then [(c_key c, paramOpt p (c_option c))] else []) cs.
Definition defaults (cs : list cparam) : list entry :=
  flat_map (fun c => match c_default c with [] => [] | _ => [(c_key c, c_default c)] end) cs.
Fixpoint first_of (k : str) (l : list entry) : option str :=
  match l with [] => None | (k', v) :: r => if list_eq_dec ascii_dec k' k then Some v else first_of k r end.
(* the first source that has a value *)
Fixpoint first_some (l : list (option str)) : option str :=
  match l with [] => None | Some v :: _ => Some v | None :: r => first_some r end.

(* What a sequence of registered parameters sets, [known] being the keys that have a value already: a parameter on the
   command line sets its key, another one sets its key to its default value if it has one and the key has no value yet *)
Fixpoint parameter_entries (p : parsed) (known : str -> Prop) (cs : list cparam) (l : list entry) : Prop :=
  match cs with
  | [] => l = []
  | c :: r => exists l0 l1, l = l0 ++ l1 /\ parameter_entries p (fun k => known k \/ In k (map fst l0)) r l1 /\
      (paramOptPresent p (c_option c) = true /\ l0 = [(c_key c, paramOpt p (c_option c))] \/
       paramOptPresent p (c_option c) = false /\ ~ known (c_key c) /\ c_default c <> [] /\ l0 = [(c_key c, c_default c)] \/
       paramOptPresent p (c_option c) = false /\ (known (c_key c) \/ c_default c = []) /\ l0 = [])
  end.
Definition has_value (m : manager) (l : list entry) (k : str) : Prop := value_at m k <> None \/ In k (map fst l).
(* everything initialize sets, in order, when it succeeds; [l] are the entries of the configuration file *)
Definition initial_entries (p : parsed) (m : manager) (l l' : list entry) : Prop :=
  let l0 := l ++ (if paramOptPresent p $"configfile" then [($"/configfile", paramOpt p $"configfile")] else []) in
  exists l1, parameter_entries p (has_value m l0) (parameter_list m ++ positional_list m) l1 /\
    l' = l0 ++ l1 ++ paramPrefixOpt p $"config-option".
(* the configuration file named on the command line *)
Definition configured (fs : files) (p : parsed) (l : list entry) : Prop :=
  if paramOptPresent p $"configfile"
  then readable fs (paramOpt p $"configfile") = true /\ file_entries fs (paramOpt p $"configfile") l
  else l = [].

(* calls of the API *)
Inductive op :=
| AddParameter (c : cparam) | AddPositional (c : cparam) | Register (o : nat) (k : str) | Unregister (o : nat)
| SetValue (k v : str) | Initialize (p : parsed).
Inductive step (fs : files) : op -> manager -> manager -> Prop :=
| s_param m c : step fs (AddParameter c) m (addConfigParameter m c)
| s_positional m c : step fs (AddPositional c) m (addConfigPositional m c)
| s_register m o k : step fs (Register o k) m (registerObserver fs m o k)
| s_unregister m o : step fs (Unregister o) m (unregisterObserver m o)
| s_set m fuel k v b m' : setValue fuel fs k v m = Some (b, m') -> step fs (SetValue k v) m m'
| s_init m fuel p b m' : initialize_config fuel fs p m = Some (b, m') -> step fs (Initialize p) m m'.
(* a history of calls *)
Inductive history (fs : files) : list op -> manager -> manager -> Prop :=
| h_nil m : history fs [] m m
| h_cons a l m m1 m2 : step fs a m m1 -> history fs l m1 m2 -> history fs (a :: l) m m2.
Definition reachable (fs : files) (m : manager) : Prop := exists l, history fs l new_manager m.
