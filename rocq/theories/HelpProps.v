(* C69: the help text of the command line *)
From Verif Require Import Base Text SMap GetoptModel HelpModel HelpSpec HelpProofs.

(* The whole text, line by line, for every sequence of registrations: program and version, usage with the positional
   parameters, description, one indented block per positional parameter in the order of registration (required ones first),
   and one block per option, the generic ones first, each part in alphabetical order. *)
Theorem C69_text (name : str) (calls : list call) : exists G O,
  ascending G /\ ascending O /\
  (forall i, In i G <-> Listed calls i /\ In (i_name i) generic_names) /\
  (forall i, In i O <-> Listed calls i /\ ~ In (i_name i) generic_names) /\
  lines (printHelp (registered_by name calls)) =
    lines (name ++ version_note (version_of calls)) ++ [[]] ++
    lines ($"Usage: " ++ name ++ $" [OPTIONS...]" ++
           concat (map (fun p => $" <" ++ pos_name p ++ $">") (positional false calls)) ++
           concat (map (fun p => $" [<" ++ pos_name p ++ $">]") (positional true calls))) ++ [[]] ++
    lines (description_of calls) ++ [[]] ++
    match positional false calls ++ positional true calls with
    | [] => []
    | l => $"Positional Parameters:" :: concat (map (fun p => block (pos_title p) (pos_help p)) l) ++ [[]]
    end ++
    $"Generic options:" :: concat (map (fun i => block (title i) (i_help i)) G) ++ [[]] ++
    $"Options:" :: concat (map (fun i => block (title i) (i_help i)) O) ++ [[]; []].
Proof. apply help_lines. Qed.
Print Assumptions C69_text.

(* Every option that has been registered is listed exactly once, as it was first registered, and nothing else looks like an
   option: no help text, whatever is in it, can put in a line that begins with two spaces. *)
Theorem C69_every_option_once (name : str) (calls : list call) :
  (forall o s h b, In (AddOption o s h b) calls -> ~ In newline o /\ ~ In newline s) ->
  exists front rest L, lines (printHelp (registered_by name calls)) = front ++ $"Generic options:" :: rest /\
    NoDup (map i_name L) /\ (forall i, In i L <-> Listed calls i) /\ filter two_spaces rest = map title L.
Proof. apply no_fake. Qed.
Print Assumptions C69_every_option_once.

(* Options with a variable suffix (prefix options) are never listed: registering one does not change the text. *)
Theorem C69_prefix_options_are_not_listed (name : str) c1 c2 o s h :
  printHelp (registered_by name (c1 ++ AddOption o s h true :: c2)) = printHelp (registered_by name (c1 ++ c2)).
Proof. apply prefix_silent. Qed.
Print Assumptions C69_prefix_options_are_not_listed.

(* A short form that is already taken is still shown, although the parser gives it to the option registered first. *)
Definition c69_taken : list call :=
  [AddOption $"verbose" $"v" $"talk" false; AddOption $"version" $"v" $"print version" false].
Theorem C69_taken_short_form_refuted :
  exists calls,
    In $"  -v, --verbose:" (lines (printHelp (registered_by $"prog" calls))) /\
    In $"  -v, --version:" (lines (printHelp (registered_by $"prog" calls))) /\
    option_map p_option (map_get (shorts (fold_left (fun g c => match c with AddOption o s _ b => addParameter g (make_param o s b) | _ => g end)
      calls new_getopt)) $"v") = Some $"verbose".
Proof.
  exists c69_taken. split; [|split].
  - assert (E : existsb (str_eqb $"  -v, --verbose:") (lines (printHelp (registered_by $"prog" c69_taken))) = true) by (vm_compute; reflexivity).
    apply existsb_exists in E. destruct E as (x & H1 & H2). apply str_eqb_eq in H2. rewrite H2. exact H1.
  - assert (E : existsb (str_eqb $"  -v, --version:") (lines (printHelp (registered_by $"prog" c69_taken))) = true) by (vm_compute; reflexivity).
    apply existsb_exists in E. destruct E as (x & H1 & H2). apply str_eqb_eq in H2. rewrite H2. exact H1.
  - vm_compute. reflexivity.
Qed.
Print Assumptions C69_taken_short_form_refuted.

(* non-vacuity *)
Definition c69_calls : list call :=
  [SetVersion $"1.2"; AddOption $"size:" $"s" $"how many" false; AddPositional $"out" $"target" true;
   AddOption $"size" $"z" $"ignored: second registration" false; AddPositional $"in" ($"source" ++ newline :: $"  fake") false;
   AddOption $"log-level:" [] $"level" false; AddOption $"all" [] ($"do all" ++ newline :: $"  --fake:") false; SetDescription $"Copies."].
Example C69_text_ex : lines (printHelp (registered_by $"prog" c69_calls)) =
  [$"prog (version 1.2)"; []; $"Usage: prog [OPTIONS...] <in> [<out>]"; []; $"Copies."; [];
   $"Positional Parameters:"; $"  <in>:"; tabulator :: $"source"; tabulator :: $"  fake"; $"  <out>:"; tabulator :: $"target"; [];
   $"Generic options:"; $"  -h, --help:"; tabulator :: $"Print commandline help."; $"  --log-level=<value>:"; tabulator :: $"level"; [];
   $"Options:"; $"  --all:"; tabulator :: $"do all"; tabulator :: $"  --fake:"; $"  -s <value>, --size=<value>:"; tabulator :: $"how many"; []; []].
Proof. vm_compute. reflexivity. Qed.
Example C69_no_newline_ex : forall o s h b, In (AddOption o s h b) c69_calls -> ~ In newline o /\ ~ In newline s.
Proof.
  intros o s h b Hin. assert (E : forallb (fun c => match c with AddOption o s _ _ => negb (existsb (Ascii.eqb newline) o) && negb (existsb (Ascii.eqb newline) s) | _ => true end) c69_calls = true) by (vm_compute; reflexivity).
  rewrite forallb_forall in E. specialize (E _ Hin). cbn beta iota in E. apply andb_true_iff in E. destruct E as [E1 E2].
  apply negb_true_iff in E1, E2. split; intros X.
  - assert (Y : existsb (Ascii.eqb newline) o = true) by (apply existsb_exists; exists newline; split; [exact X|apply Ascii.eqb_refl]). congruence.
  - assert (Y : existsb (Ascii.eqb newline) s = true) by (apply existsb_exists; exists newline; split; [exact X|apply Ascii.eqb_refl]). congruence.
Qed.
