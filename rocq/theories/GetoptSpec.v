(* What the arguments of a command line are, independent of the parser (C34). *)
From Verif Require Import Base Text SMap GetoptModel.

(* option names as they can be written: --name with a name that does not begin with '-' and has no '=' after its first
   character; -name with a name that does not begin with '-' *)
Definition long_name (n : str) : Prop := exists c r, n = c :: r /\ c <> "-"%char /\ ~ In "="%char r.
Definition short_name (n : str) : Prop := exists c r, n = c :: r /\ c <> "-"%char.

Inductive item :=
| ILong (name : str) (v : option str)               (* --name or --name=v *)
| ILongPrefix (pre suffix : str) (v : option str)   (* --<pre><suffix> or --<pre><suffix>=v *)
| IUnknownLong (name : str) (v : option str)
| IShort (name : str) (v : option str)              (* -name, or the two arguments -name and v *)
| IShortPrefix (pre suffix : str) (v : option str)
| IUnknownShort (name : str)
| IPositional (name arg : str)
| INon (arg : str)
| IDelimiter
| IExtra (arg : str).

Definition long_text (name : str) (v : option str) : str :=
  $"--" ++ name ++ match v with Some x => $"=" ++ x | None => [] end.
Definition opt_list (v : option str) : list str := match v with Some x => [x] | None => [] end.
(* the arguments an item is made of *)
Definition texts (g : registry) (i : item) : list str :=
  match i with
  | ILong name v => [long_text name v]
  | ILongPrefix p s v => [long_text (p ++ s) v]
  | IUnknownLong name v => [long_text name v]
  | IShort name v => ($"-" ++ name) :: opt_list v
  | IShortPrefix p s v => ($"-" ++ p ++ s) :: opt_list v
  | IUnknownShort name => [$"-" ++ name]
  | IPositional _ a => [a]
  | INon a => [a]
  | IDelimiter => [extra_delimiter g]
  | IExtra a => [a]
  end.

Definition is_prefix (p s : str) : Prop := exists r, s = p ++ r.
(* p is registered in m for a parameter q, begins the name, and no shorter registered one does *)
Definition shortest (m : list (str * param)) (p name : str) (q : param) : Prop :=
  map_get m p = Some q /\ is_prefix p name /\
  forall p' q', map_get m p' = Some q' -> is_prefix p' name -> (length p <= length p')%nat.
Definition no_prefix (m : list (str * param)) (name : str) : Prop :=
  forall p q, map_get m p = Some q -> ~ is_prefix p name.
(* an argument that does not look like an option and is not the delimiter *)
Definition option_like (a : str) : Prop := exists n, (a = $"-" ++ n /\ short_name n) \/ (a = $"--" ++ n /\ short_name n).
Definition ordinary (g : registry) (a : str) : Prop := ~ option_like a /\ (extra_activated g = true -> a <> extra_delimiter g).

(* the item is read according to the registration; n positional arguments came before it *)
Definition item_ok (g : registry) (strict : bool) (n : nat) (i : item) : Prop :=
  match i with
  | ILong name _ => long_name name /\ exists q, map_get (params g) name = Some q
  | ILongPrefix p s _ => long_name (p ++ s) /\ map_get (params g) (p ++ s) = None /\ exists q, shortest (prefixes g) p (p ++ s) q
  | IUnknownLong name _ => long_name name /\ map_get (params g) name = None /\ no_prefix (prefixes g) name /\ strict = false
  | IShort name v => short_name name /\ exists q, map_get (shorts g) name = Some q /\ (p_has_value q = true <-> v <> None)
  | IShortPrefix p s v => short_name (p ++ s) /\ map_get (shorts g) (p ++ s) = None /\
      exists q, shortest (short_prefixes g) p (p ++ s) q /\ (p_has_value q = true <-> v <> None)
  | IUnknownShort name => short_name name /\ map_get (shorts g) name = None /\ no_prefix (short_prefixes g) name /\ strict = false
  | IPositional name a => ordinary g a /\ nth_error (required g ++ optionals g) n = Some name
  | INon a => ordinary g a /\ (length (required g) + length (optionals g) <= n)%nat
  | IDelimiter | IExtra _ => False
  end.
Definition positionals (i : item) : nat := match i with IPositional _ _ => 1 | _ => 0 end.

(* the items of a whole command line: the delimiter, if there is one, is followed by extra parameters only *)
Inductive accounts (g : registry) (strict : bool) : nat -> list item -> Prop :=
| acc_nil : forall n, accounts g strict n []
| acc_item : forall n i l, item_ok g strict n i -> accounts g strict (n + positionals i) l -> accounts g strict n (i :: l)
| acc_delimiter : forall n args, extra_activated g = true -> ~ option_like (extra_delimiter g) ->
    accounts g strict n (IDelimiter :: map IExtra args).

(* the value of an option: the given one, nothing if it is left out, "yes" for an option without values *)
Definition value_of (q : option param) (v : option str) : str :=
  match q with
  | Some q => if p_has_value q then match v with Some x => x | None => [] end else $"yes"
  | None => []
  end.
(* what an item sets *)
Definition assigns (g : registry) (i : item) : option (str * str) :=
  match i with
  | ILong name v => Some (name, value_of (map_get (params g) name) v)
  | IShort name v => match map_get (shorts g) name with Some q => Some (p_option q, value_of (Some q) v) | None => None end
  | IPositional name a => Some (name, a)
  | _ => None
  end.
Definition adds_prefix (g : registry) (i : item) : option (str * (str * str)) :=
  match i with
  | ILongPrefix p s v => Some (p, (s, value_of (map_get (prefixes g) p) v))
  | IShortPrefix p s v => match map_get (short_prefixes g) p with Some q => Some (p_option q, (s, value_of (Some q) v)) | None => None end
  | _ => None
  end.
Definition non_option (i : item) : list str :=
  match i with
  | IUnknownLong name v => [long_text name v]
  | IUnknownShort name => [$"-" ++ name]
  | INon a => [a]
  | _ => []
  end.
Definition extra_of (i : item) : list str := match i with IExtra a => [a] | _ => [] end.

(* the last value given to k *)
Fixpoint last_value (k : str) (l : list (option (str * str))) : option str :=
  match l with
  | [] => None
  | x :: r => match last_value k r with
              | Some v => Some v
              | None => match x with Some (k', v) => if list_eq_dec ascii_dec k' k then Some v else None | None => None end
              end
  end.
(* all pairs added for k, in order *)
Definition pairs_for (k : str) (l : list (option (str * (str * str)))) : list (str * str) :=
  flat_map (fun x => match x with Some (k', kv) => if list_eq_dec ascii_dec k' k then [kv] else [] | None => [] end) l.
Definition count_positionals (l : list item) : nat := list_sum (map positionals l).

(* characters that mean themselves in a Boost (Perl) regular expression *)
Definition plain (p : str) : Prop := forall c, In c p -> ~ In c $".[]{}()\*+?|^$".
Fixpoint strip (p s : str) : option str :=
  match p, s with
  | [], _ => Some s
  | _ :: _, [] => None
  | a :: p', b :: s' => if Ascii.eqb a b then strip p' s' else None
  end.
(* the regex engine on an expression p(.-star-) with plain p *)
Definition literal (rx : regex) : Prop := forall p n, plain p -> rx p n = strip p n.
Definition plain_registry (g : registry) : Prop :=
  (forall p q, In (p, q) (prefixes g) -> plain p) /\ (forall p q, In (p, q) (short_prefixes g) -> plain p).
Definition well_formed (g : registry) : Prop :=
  sorted (params g) /\ sorted (prefixes g) /\ sorted (shorts g) /\ sorted (short_prefixes g).
(* registries made by the API *)
Inductive registered : registry -> Prop :=
| reg_new : registered new_getopt
| reg_param : forall g o s b, registered g -> registered (addParameter g (make_param o s b))
| reg_positional : forall g name b, registered g -> registered (addPositional g name b)
| reg_extra : forall g d, registered g -> registered (activateExtra g d).

(* args is read as these items *)
Definition accounted (g : registry) (strict : bool) (args : list str) (items : list item) : Prop :=
  accounts g strict 0 items /\ flat_map (texts g) items = args.
(* all required positional parameters are there, and help is not asked for *)
Definition complete (g : registry) (items : list item) : Prop :=
  (length (required g) <= count_positionals items)%nat /\ last_value $"help" (map (assigns g) items) = None.
(* the arguments that are options, option values, positional or extra parameters *)
Definition consumed (g : registry) (i : item) : list str := match non_option i with [] => texts g i | _ :: _ => [] end.
