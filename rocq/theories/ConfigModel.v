(* ConfigManager: src/icl_core/src/icl_core_config/ConfigManager.{h,cpp}, ConfigParameter.{h,cpp},
   ConfigPositionalParameter.{h,cpp}.

   Not modelled: output to std::cerr/std::cout (dump), the assertions, and what observers do in valueChanged beyond being
   told (an observer that changes the configuration or the registration from inside the call is outside the model).
   The TinyXML document, the AttributeTree and the FilePath of a file name are arguments: see [files]; FilePath::extension is
   assumed to return (it throws for a path without a dot, see FilePathModel and C38). *)
From Verif Require Import Base Text SMap KeyValueDirectoryModel GetoptModel.

(* an XML node as ConfigManager sees it; [Other]: comments, declarations, ... *)
Inductive node := Element (name : str) (children : list node) | TextNode (value : str) | Other.
(* an AttributeTree: getDescription(), isComment(), attribute(), the sub trees in the order of firstSubTree/nextSubTree *)
Inductive tree := Tree (description : option str) (comment : bool) (attribute : option str) (subtrees : list tree).

(* The file system and the library functions ConfigManager::load depends on:
   TiXmlDocument::LoadFile (None: fails; Some None: no root element), AttributeTree::load (None: eFILE_LOAD_ERROR;
   Some None: another error), FilePath::extension and FilePath::path, and boost::regex_match of a query and a key. *)
Record files := mkF {
  xml_file : str -> option (option node);
  tree_file : str -> option (option tree);
  extension : str -> str;
  directory_of : str -> str;
  matches : str -> str -> bool
}.

(* ConfigParameter.h:70-84 and ConfigPositionalParameter.h:62-78: configKey(), option() or name(), defaultValue() *)
Record cparam := mkC { c_key : str; c_option : str; c_default : str }.
Definition hasDefaultValue (c : cparam) : bool := match c_default c with [] => false | _ :: _ => true end.

(* ConfigManager.h:234-240; observers are numbers; [told] is the list of all calls of valueChanged so far *)
Record manager := mkM {
  items : directory str;
  initialized : bool;
  parameter_list : list cparam;
  positional_list : list cparam;
  observers : list (str * list nat);
  told : list (nat * str)
}.

Definition str_eqb (a b : str) : bool := if list_eq_dec ascii_dec a b then true else false.
Definition configfile_key : str := $"/configfile".   (* Config.cpp:29 *)

(* ConfigManager.cpp:47-57, 67-77, without the registration with Getopt *)
Definition addConfigParameter (m : manager) (c : cparam) : manager :=
  match c_key c with
  | [] => m
  | _ :: _ => mkM (items m) (initialized m) (parameter_list m ++ [c]) (positional_list m) (observers m) (told m)
  end.
Definition addConfigPositional (m : manager) (c : cparam) : manager :=
  match c_key c with
  | [] => m
  | _ :: _ => mkM (items m) (initialized m) (parameter_list m) (positional_list m ++ [c]) (observers m) (told m)
  end.
(* ConfigManager.cpp:178-187 *)
Definition new_manager : manager := addConfigParameter (mkM [] false [] [] [] []) (mkC configfile_key $"configfile" []).

(* insert(k, v), KeyValueDirectory.hpp:62-68 *)
Definition insert_item (m : manager) (k v : str) : manager :=
  mkM (snd (insert (items m) k v)) (initialized m) (parameter_list m) (positional_list m) (observers m) (told m).
Definition tell (m : manager) (l : list nat) (k : str) : manager :=
  mkM (items m) (initialized m) (parameter_list m) (positional_list m) (observers m) (told m ++ map (fun o => (o, k)) l).
(* ConfigManager.cpp:405-424 *)
Definition notify (m : manager) (k : str) : manager :=
  let at_key := match map_get (observers m) k with Some l => l | None => [] end in
  let at_all := match map_get (observers m) [] with Some l => l | None => [] end in
  tell m (at_key ++ at_all) k.
(* the pair of calls insert(k, v); notify(k); *)
Definition put (m : manager) (k v : str) : manager := notify (insert_item m k v) k.

(* TiXmlElement::GetText: the value of the first child if that is a text *)
Definition get_text (children : list node) : option str := match children with TextNode v :: _ => Some v | _ => None end.

(* ConfigManager.cpp:232-269; [inc]: load() for an included file, None: it does not return *)
Fixpoint readXml (inc : str -> manager -> option (bool * manager)) (dir prefix : str) (n : node) (extend : bool) (m : manager) : option manager :=
  match n with
  | Element name children =>
    let fq := if extend then prefix ++ $"/" ++ name else prefix in
    (fix go (l : list node) (m : manager) : option manager :=
       match l with
       | [] => Some m
       | c :: r =>
         match (match c with
                | Element cname cc =>
                  if str_eqb cname $"INCLUDE"
                  then match get_text cc with
                       | Some f => match inc (dir ++ f) m with Some (_, m') => Some m' | None => None end
                       | None => Some m
                       end
                  else readXml inc dir fq c true m
                | TextNode v => Some (put m fq v)
                | Other => Some m
                end) with
         | Some m' => go r m'
         | None => None
         end
       end) children m
  | _ => Some m
  end.

(* ConfigManager.cpp:271-296 *)
Fixpoint readAttributeTree (prefix : str) (t : tree) (extend : bool) (m : manager) : manager :=
  match t with
  | Tree description comment attribute subtrees =>
    let node_name := match description with Some d => d | None => [] end in
    let fq := if extend then prefix ++ $"/" ++ node_name else prefix in
    let m1 := match attribute with Some a => if comment then m else put m fq a | None => m end in
    (fix go (l : list tree) (m : manager) : manager :=
       match l with [] => m | c :: r => go r (readAttributeTree fq c true m) end) subtrees m1
  end.

(* ConfigManager.cpp:189-230; None: not finished after [fuel] nested includes *)
Fixpoint load (fuel : nat) (fs : files) (filename : str) (m : manager) : option (bool * manager) :=
  match fuel with
  | O => None
  | S f =>
    if str_eqb (extension fs filename) $".AttributeTree" || str_eqb (extension fs filename) $".tree"
    then match tree_file fs filename with
         | Some (Some t) => Some (true, readAttributeTree [] t false m)
         | Some None => Some (true, m)
         | None => Some (false, m)
         end
    else match xml_file fs filename with
         | Some (Some root) =>
           match readXml (load f fs) (directory_of fs filename) [] root false m with Some m' => Some (true, m') | None => None end
         | Some None => Some (true, m)
         | None => Some (false, m)
         end
  end.

(* ConfigManager.cpp:110-127 and 130-147 *)
Definition read_parameter (p : parsed) (m : manager) (c : cparam) : manager :=
  match c_key c with
  | [] => m
  | _ :: _ =>
    if paramOptPresent p (c_option c) then put m (c_key c) (paramOpt p (c_option c))
    else if negb (hasKey (items m) (c_key c)) && hasDefaultValue c then put m (c_key c) (c_default c)
    else m
  end.

Definition set_initialized (m : manager) : manager :=
  mkM (items m) true (parameter_list m) (positional_list m) (observers m) (told m).

(* ConfigManager.cpp:87-165 *)
Definition initialize_config (fuel : nat) (fs : files) (p : parsed) (m : manager) : option (bool * manager) :=
  if initialized m then Some (true, m)
  else
    match (if paramOptPresent p $"configfile"
           then let filename := paramOpt p $"configfile" in
                match load fuel fs filename m with
                | Some (true, m') => Some (true, put m' configfile_key filename)
                | x => x
                end
           else Some (true, m)) with
    | Some (true, m1) =>
      let m2 := fold_left (read_parameter p) (parameter_list m1) m1 in
      let m3 := fold_left (read_parameter p) (positional_list m1) m2 in
      let m4 := fold_left (fun m kv => put m (fst kv) (snd kv)) (paramPrefixOpt p $"config-option") m3 in
      Some (true, set_initialized m4)
    | x => x
    end.

(* ConfigManager.h:132-145 for strings *)
Definition setValue (fuel : nat) (fs : files) (k v : str) (m : manager) : option (bool * manager) :=
  match (if str_eqb k $"/configfile" then load fuel fs v m else Some (true, m)) with
  | Some (_, m1) => Some (fst (insert (items m1) k v), put m1 k v)
  | None => None
  end.

(* ConfigManager.cpp:298-316 *)
Definition registerObserver (fs : files) (m : manager) (o : nat) (k : str) : manager :=
  let m1 := mkM (items m) (initialized m) (parameter_list m) (positional_list m)
                (map_put (observers m) k (match map_get (observers m) k with Some l => l ++ [o] | None => [o] end)) (told m) in
  match k with
  | [] => fold_left (fun m kv => tell m [o] (fst kv)) (filter (fun kv => matches fs $".*" (fst kv)) (items m1)) m1
  | _ :: _ => if existsb (fun kv => matches fs k (fst kv)) (items m1) then tell m1 [o] k else m1
  end.
(* ConfigManager.cpp:318-327 *)
Definition unregisterObserver (m : manager) (o : nat) : manager :=
  mkM (items m) (initialized m) (parameter_list m) (positional_list m)
      (map (fun e => (fst e, remove Nat.eq_dec o (snd e))) (observers m)) (told m).
