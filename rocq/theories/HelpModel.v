(* Getopt::printHelp: src/icl_core/src/icl_core_config/GetoptParser.cpp:473-558, with the registration functions
   (GetoptParser.cpp:45-84), now with the help texts GetoptModel.v leaves out.  What is written to std::cerr is one string;
   std::endl is a newline.  boost::regex("\\n") matches exactly the newline character. *)
From Verif Require Import Base Text SMap GetoptModel.

(* std::string == *)
Definition str_eqb (a b : str) : bool := if list_eq_dec ascii_dec a b then true else false.

Definition nl : ascii := ascii_of_nat 10.
Definition tab : ascii := ascii_of_nat 9.

(* GetoptParameter.h:100-106 with the help text *)
Record hparam := mkH { hp : param; hp_help : str }.
(* GetoptPositionalParameter.h: name, help text *)
Record pos := mkPos { pos_name : str; pos_help : str }.

(* GetoptParser.h:309-331, the part printHelp reads, and the prefix options *)
Record hreg := mkHR {
  h_params : list (str * hparam);
  h_prefixes : list (str * hparam);
  h_required : list pos;
  h_optional : list pos;
  h_name : str;
  h_version : str;
  h_description : str
}.

Inductive call :=
| AddOption (option short help : str) (is_prefix : bool)
| AddPositional (name help : str) (optional : bool)
| SetVersion (v : str)
| SetDescription (d : str).

(* GetoptParser.cpp:45-63 (the maps of short options are in GetoptModel.v), 74-84, 458-471 *)
Definition do_call (g : hreg) (c : call) : hreg :=
  match c with
  | AddOption o s h b =>
    let p := make_param o s b in
    if p_is_prefix p
    then mkHR (h_params g) (map_insert (h_prefixes g) (p_option p) (mkH p h)) (h_required g) (h_optional g) (h_name g) (h_version g) (h_description g)
    else mkHR (map_insert (h_params g) (p_option p) (mkH p h)) (h_prefixes g) (h_required g) (h_optional g) (h_name g) (h_version g) (h_description g)
  | AddPositional n h true =>
    mkHR (h_params g) (h_prefixes g) (h_required g) (h_optional g ++ [mkPos n h]) (h_name g) (h_version g) (h_description g)
  | AddPositional n h false =>
    mkHR (h_params g) (h_prefixes g) (h_required g ++ [mkPos n h]) (h_optional g) (h_name g) (h_version g) (h_description g)
  | SetVersion v => mkHR (h_params g) (h_prefixes g) (h_required g) (h_optional g) (h_name g) v (h_description g)
  | SetDescription d => mkHR (h_params g) (h_prefixes g) (h_required g) (h_optional g) (h_name g) (h_version g) d
  end.

(* GetoptParser.cpp:704-709; the program name is set by initialize (121) *)
Definition new_hreg (name : str) : hreg :=
  do_call (mkHR [] [] [] [] name [] []) (AddOption $"help" $"h" $"Print commandline help." false).

Definition registered_by (name : str) (calls : list call) : hreg := fold_left do_call calls (new_hreg name).

(* boost::regex_replace(help, boost::regex("\\n"), "\n\t") *)
Definition indent (s : str) : str := flat_map (fun c => if Ascii.eqb c nl then [nl; tab] else [c]) s.

(* GetoptParser.cpp:491-501: the required ones come first (476-477) *)
Definition usage (optional : bool) (p : pos) : str :=
  if optional then $" [<" ++ pos_name p ++ $">]" else $" <" ++ pos_name p ++ $">".
(* GetoptParser.cpp:509-514 *)
Definition pos_entry (p : pos) : str :=
  $"  <" ++ pos_name p ++ $">" ++ $":" ++ [nl] ++ [tab] ++ indent (pos_help p) ++ [nl].
(* GetoptParser.cpp:523-528 *)
Definition is_generic (p : param) : bool :=
  str_eqb (p_option p) $"configfile" || str_eqb (p_option p) $"dump-config" || str_eqb (p_option p) $"help"
  || str_eqb (p_option p) $"log-level" || str_eqb (p_option p) $"quick-debug".
(* GetoptParser.cpp:531-553 *)
Definition opt_entry (h : hparam) : str :=
  let p := hp h in
  $"  " ++
  (if str_eqb (p_short p) [] then []
   else $"-" ++ p_short p ++ (if p_has_value p then $" <value>" else []) ++ $", ") ++
  $"--" ++ p_option p ++ (if p_has_value p then $"=<value>" else []) ++
  $":" ++ [nl] ++ [tab] ++ indent (hp_help h) ++ [nl].
(* one pass of the loop GetoptParser.cpp:518-557; [first]: i == 0 *)
Definition section (first : bool) (m : list (str * hparam)) : str :=
  (if first then $"Generic options:" else $"Options:") ++ [nl] ++
  flat_map (fun e => if Bool.eqb first (is_generic (hp (snd e))) then opt_entry (snd e) else []) m ++ [nl].

(* GetoptParser.cpp:473-558 *)
Definition printHelp (g : hreg) : str :=
  h_name g ++ (if str_eqb (h_version g) [] then [] else $" (version " ++ h_version g ++ $")") ++ [nl] ++ [nl] ++
  $"Usage: " ++ h_name g ++ $" [OPTIONS...]" ++
  flat_map (usage false) (h_required g) ++ flat_map (usage true) (h_optional g) ++
  [nl] ++ [nl] ++ h_description g ++ [nl] ++ [nl] ++
  (if 0 <? length (h_required g ++ h_optional g)
   then $"Positional Parameters:" ++ [nl] ++ flat_map pos_entry (h_required g ++ h_optional g) ++ [nl]
   else []) ++
  section true (h_params g) ++ section false (h_params g).
