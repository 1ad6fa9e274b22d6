(* Specification vocabulary for the help text. *)
From Verif Require Import Base Text SMap GetoptModel HelpModel.
Local Open Scope string_scope.
Local Open Scope list_scope.

Definition newline : ascii := ascii_of_nat 10.
Definition tabulator : ascii := ascii_of_nat 9.

(* the lines of a text; a text that ends with a newline has an empty last line *)
Fixpoint lines (s : str) : list str :=
  match s with
  | [] => [[]]
  | c :: r => if Ascii.eqb c newline then [] :: lines r
              else match lines r with l :: ls => (c :: l) :: ls | [] => [[c]] end
  end.

(* how an option is declared: a colon at the end of the name says that it takes a value *)
Definition Declares (option name : str) (value : bool) : Prop :=
  if value then option = name ++ $":" else option = name /\ forall n, option <> n ++ $":".

(* an option as the user knows it *)
Record item := It { i_name : str; i_short : str; i_value : bool; i_help : str }.

(* all registrations, the library's own one first *)
Definition all_calls (calls : list call) : list call :=
  AddOption $"help" $"h" $"Print commandline help." false :: calls.

(* the first registration of a name counts *)
Definition Listed (calls : list call) (i : item) : Prop :=
  exists pre post option,
    all_calls calls = pre ++ AddOption option (i_short i) (i_help i) false :: post /\
    Declares option (i_name i) (i_value i) /\
    forall option' short' help' value', In (AddOption option' short' help' false) pre -> ~ Declares option' (i_name i) value'.

Definition generic_names : list str := [$"configfile"; $"dump-config"; $"help"; $"log-level"; $"quick-debug"].

(* the line of an option *)
Definition title (i : item) : str :=
  $"  " ++
  (match i_short i with
   | [] => []
   | s => if i_value i then $"-" ++ s ++ $" <value>, " else $"-" ++ s ++ $", "
   end) ++
  (if i_value i then $"--" ++ i_name i ++ $"=<value>:" else $"--" ++ i_name i ++ $":").
Definition pos_title (p : pos) : str := $"  <" ++ pos_name p ++ $">:".

(* a title and its help text, every line of which is indented *)
Definition block (t help : str) : list str := lines t ++ map (cons tabulator) (lines help).

Definition ascending (l : list item) : Prop :=
  forall a b c x y, l = a ++ x :: b ++ y :: c -> str_lt (i_name x) (i_name y) = true.

(* the positional parameters and the texts last set *)
Definition positional (opt : bool) (calls : list call) : list pos :=
  flat_map (fun c => match c with AddPositional n h b => if Bool.eqb b opt then [mkPos n h] else [] | _ => [] end) calls.
Definition version_of (calls : list call) : str :=
  fold_left (fun v c => match c with SetVersion w => w | _ => v end) calls [].
Definition description_of (calls : list call) : str :=
  fold_left (fun v c => match c with SetDescription w => w | _ => v end) calls [].
Definition version_note (v : str) : str := match v with [] => [] | _ :: _ => $" (version " ++ v ++ $")" end.
(* a line that looks like that of an option *)
Definition two_spaces (l : str) : bool := match l with a :: b :: _ => Ascii.eqb a " "%char && Ascii.eqb b " "%char | _ => false end.
