(* Getopt: src/icl_core/src/icl_core_config/GetoptParser.{h,cpp}, GetoptParameter.{h,cpp}.

   The argument [rx] of the functions stands for the Boost regex engine: [rx p n = Some r] means that
   boost::regex_match(n, res, boost::regex(p + "(.-star-)")) succeeds with res[1] = r.  It is an arbitrary function; an
   exception thrown by the constructor of boost::regex (p not a regular expression) is not modelled.  The two fixed
   expressions of the code are modelled by the functions long_match and short_match.
   Output to std::cerr is not modelled. *)
From Verif Require Import Base Text SMap.

Definition regex : Type := str -> str -> option str.

(* GetoptParameter.h:100-106 without the help text *)
Record param := mkP { p_option : str; p_short : str; p_has_value : bool; p_is_prefix : bool }.
(* GetoptParameter.cpp:27-43 *)
Definition make_param (option short : str) (is_prefix : bool) : param :=
  if negb (length option =? 0) && Ascii.eqb (last option "x"%char) ":"%char
  then mkP (firstn (length option - 1) option) short true is_prefix
  else mkP option short false is_prefix.

(* GetoptParser.h:309-331: what is registered ... *)
Record registry := mkG {
  params : list (str * param);
  prefixes : list (str * param);
  shorts : list (str * param);
  short_prefixes : list (str * param);
  required : list str;              (* names of the positional parameters *)
  optionals : list str;
  extra_activated : bool;
  extra_delimiter : str
}.
(* ... and what has been read *)
Record parsed := mkR {
  param_opt : list (str * str);
  prefix_opt : list (str * list (str * str));
  non_opt : list str;
  extra : list str
}.
Definition no_args : parsed := mkR [] [] [] [].

(* std::map::insert: an existing entry stays *)
Definition map_insert {T} (m : list (str * T)) (k : str) (v : T) : list (str * T) :=
  match map_get m k with Some _ => m | None => map_put m k v end.

(* GetoptParser.cpp:45-63 *)
Definition addParameter (g : registry) (p : param) : registry :=
  let sh (m : list (str * param)) := match p_short p with [] => m | _ :: _ => map_insert m (p_short p) p end in
  if p_is_prefix p
  then mkG (params g) (map_insert (prefixes g) (p_option p) p) (shorts g) (sh (short_prefixes g))
           (required g) (optionals g) (extra_activated g) (extra_delimiter g)
  else mkG (map_insert (params g) (p_option p) p) (prefixes g) (sh (shorts g)) (short_prefixes g)
           (required g) (optionals g) (extra_activated g) (extra_delimiter g).
(* GetoptParser.cpp:74-84 *)
Definition addPositional (g : registry) (name : str) (optional : bool) : registry :=
  if optional
  then mkG (params g) (prefixes g) (shorts g) (short_prefixes g) (required g) (optionals g ++ [name]) (extra_activated g) (extra_delimiter g)
  else mkG (params g) (prefixes g) (shorts g) (short_prefixes g) (required g ++ [name]) (optionals g) (extra_activated g) (extra_delimiter g).
(* GetoptParser.cpp:39-43 *)
Definition activateExtra (g : registry) (delimiter : str) : registry :=
  mkG (params g) (prefixes g) (shorts g) (short_prefixes g) (required g) (optionals g) true delimiter.
(* GetoptParser.cpp:704-709 *)
Definition new_getopt : registry := addParameter (mkG [] [] [] [] [] [] false []) (make_param $"help" $"h" false).

(* the regular expression "--([^-][^=]-star-)(=(.-star-))?", GetoptParser.cpp:133: mres[1] and mres[3]; a sub-expression that
   takes no part in the match is the empty string (lines 154 and 185: mres.size() is the number of
   sub-expressions plus one, always 4) *)
Fixpoint until_eq (s : str) : str * str :=
  match s with
  | [] => ([], [])
  | c :: r => if Ascii.eqb c "="%char then ([], s) else let (a, b) := until_eq r in (c :: a, b)
  end.
Definition long_match (s : str) : option (str * str) :=
  match s with
  | a :: b :: c :: r =>
    if Ascii.eqb a "-"%char && Ascii.eqb b "-"%char && negb (Ascii.eqb c "-"%char)
    then let (n, v) := until_eq r in Some (c :: n, tl v) else None
  | _ => None
  end.
(* the regular expression "-([^-].-star-)", GetoptParser.cpp:134: mres[1] *)
Definition short_match (s : str) : option str :=
  match s with
  | a :: c :: r => if Ascii.eqb a "-"%char && negb (Ascii.eqb c "-"%char) then Some (c :: r) else None
  | _ => None
  end.

(* GetoptParser.cpp:176-179 and 252-255: the first entry, in the order of the map, that matches *)
Fixpoint find_prefix (rx : regex) (m : list (str * param)) (name : str) : option (str * param * str) :=
  match m with
  | [] => None
  | (k, p) :: r => match rx k name with Some rest => Some (k, p, rest) | None => find_prefix rx r name end
  end.

Definition set_opt (st : parsed) (k v : str) : parsed := mkR (map_put (param_opt st) k v) (prefix_opt st) (non_opt st) (extra st).
Definition push_prefix (st : parsed) (k : str) (kv : str * str) : parsed :=
  mkR (param_opt st)
      (map_put (prefix_opt st) k (match map_get (prefix_opt st) k with Some l => l ++ [kv] | None => [kv] end))
      (non_opt st) (extra st).
Definition push_non_opt (st : parsed) (a : str) : parsed := mkR (param_opt st) (prefix_opt st) (non_opt st ++ [a]) (extra st).
Definition push_extra (st : parsed) (a : str) : parsed := mkR (param_opt st) (prefix_opt st) (non_opt st) (extra st ++ [a]).

Inductive scanned := Bad (st : parsed) | Good (st : parsed) (positionals : nat).

(* GetoptParser.cpp:136-332: [n] is positional_parameters_counter, [reached] extra_cmd_params_reached; Bad: return false *)
Fixpoint scan (rx : regex) (g : registry) (strict : bool) (args : list str) (n : nat) (reached : bool) (st : parsed) : scanned :=
  match args with
  | [] => Good st n
  | a :: rest =>
    if reached then scan rx g strict rest n reached (push_extra st a)
    else
      match long_match a with
      | Some (name, value) =>
        match map_get (params g) name with
        | Some p => scan rx g strict rest n reached (set_opt st name (if p_has_value p then value else $"yes"))
        | None =>
          match find_prefix rx (prefixes g) name with
          | Some (k, p, suffix) =>
            scan rx g strict rest n reached (push_prefix st k (suffix, if p_has_value p then value else $"yes"))
          | None => if strict then Bad st else scan rx g strict rest n reached (push_non_opt st a)
          end
        end
      | None =>
        match short_match a with
        | Some name =>
          match map_get (shorts g) name with
          | Some p =>
            if p_has_value p
            then match rest with
                 | [] => Bad st
                 | v :: rest' => scan rx g strict rest' n reached (set_opt st (p_option p) v)
                 end
            else scan rx g strict rest n reached (set_opt st (p_option p) $"yes")
          | None =>
            match find_prefix rx (short_prefixes g) name with
            | Some (k, p, suffix) =>
              if p_has_value p
              then match rest with
                   | [] => Bad st
                   | v :: rest' => scan rx g strict rest' n reached (push_prefix st (p_option p) (suffix, v))
                   end
              else scan rx g strict rest n reached (push_prefix st (p_option p) (suffix, $"yes"))
            | None => if strict then Bad st else scan rx g strict rest n reached (push_non_opt st a)
            end
          end
        | None =>
          if extra_activated g && (if list_eq_dec ascii_dec a (extra_delimiter g) then true else false)
          then scan rx g strict rest n true st
          else if n <? length (required g)
          then scan rx g strict rest (S n) reached (set_opt st (nth n (required g) []) a)
          else if n <? length (required g) + length (optionals g)
          then scan rx g strict rest (S n) reached (set_opt st (nth (n - length (required g)) (optionals g) []) a)
          else scan rx g strict rest n reached (push_non_opt st a)
        end
      end
  end.

(* GetoptParser.cpp:359-362: argv[move - 1] = argv[move] for [count] values of move from [move] *)
Fixpoint move_left {A} (d : A) (count move : nat) (argv : list A) : list A :=
  match count with
  | O => argv
  | S c => move_left d c (S move) (list_set argv (move - 1) (nth move argv d))
  end.
(* GetoptParser.cpp:352-369: the arguments and argc; [keep]: the text is found in m_param_non_opt *)
Fixpoint clean {A} (fuel : nat) (d : A) (keep : A -> bool) (check argc : nat) (argv : list A) : nat * list A :=
  match fuel with
  | O => (argc, argv)
  | S f =>
    if check <? argc
    then if keep (nth check argv d) then clean f d keep (S check) argc argv
         else clean f d keep check (argc - 1) (move_left d (argc - (check + 1)) (check + 1) argv)
    else (argc, argv)
  end.
Definition str_in (a : str) (l : list str) : bool := if in_dec (list_eq_dec ascii_dec) a l then true else false.
Definition keep_arg (non : list str) (a : option str) : bool := match a with Some s => str_in s non | None => false end.

(* the array argv of a program called with the given words: they are followed by a null pointer *)
Definition argv_of (words : list str) : list (option str) := map Some words ++ [None].

(* what initialize does: returns a truth value or ends the process with status 0; the state of the Getopt object, argc and
   the array argv afterwards *)
Inductive ended := Returned (b : bool) | Exited.
Record init_result := mkI { how : ended; state : parsed; argc_after : nat; argv_after : list (option str) }.

(* GetoptParser.cpp:100-373.  m_initialized is never set (GetoptParser.cpp:706 is the only assignment), so that lines
   108-112 have no effect. *)
Definition initialize (rx : regex) (g : registry) (strict cleanup : bool) (words : list str) (st : parsed) : init_result :=
  match words with
  | [] => mkI (Returned false) st 0 (argv_of words)
  | prog :: args =>
    let argc := S (length args) in
    match scan rx g strict args 0 false st with
    | Bad st' => mkI (Returned false) st' argc (argv_of words)
    | Good st' n =>
      if n <? length (required g) then mkI Exited st' argc (argv_of words)
      else match map_get (param_opt st') $"help" with
           | Some _ => mkI Exited st' argc (argv_of words)
           | None =>
             if cleanup
             then let (argc', argv') := clean argc None (keep_arg (non_opt st')) 1 argc (argv_of words) in
                  mkI (Returned true) st' argc' argv'
             else mkI (Returned true) st' argc (argv_of words)
           end
    end
  end.

(* GetoptParser.cpp:395-446 *)
Definition paramOpt (st : parsed) (k : str) : str := match map_get (param_opt st) k with Some v => v | None => [] end.
Definition paramOptPresent (st : parsed) (k : str) : bool := match map_get (param_opt st) k with Some _ => true | None => false end.
Definition paramPrefixOpt (st : parsed) (k : str) : list (str * str) := match map_get (prefix_opt st) k with Some l => l | None => [] end.
Definition paramNonOpt (st : parsed) (i : nat) : str := if i <? length (non_opt st) then nth i (non_opt st) [] else [].
Definition paramNonOptCount (st : parsed) : nat := length (non_opt st).
