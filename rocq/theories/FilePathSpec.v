(* Vocabulary of C38 and C39: what a path denotes, independent of normalizePath. *)
From Verif Require Import Base Text.

(* the components of a path: the texts between the separators *)
Fixpoint components (s : str) : list str :=
  match s with
  | [] => [[]]
  | c :: r => if Ascii.eqb c "/"%char then [] :: components r
              else match components r with x :: l => (c :: x) :: l | [] => [[c]] end
  end.
Definition str_dec := list_eq_dec ascii_dec.

(* walking along the components: number of steps above the start, and the names below that, innermost first *)
Fixpoint walk (up : nat) (names : list str) (l : list str) : nat * list str :=
  match l with
  | [] => (up, names)
  | c :: r =>
    if str_dec c [] then walk up names r
    else if str_dec c $"." then walk up names r
    else if str_dec c $".." then match names with [] => walk (S up) [] r | _ :: n => walk up n r end
    else walk up (c :: names) r
  end.
Definition absolute (s : str) : bool := match s with c :: _ => Ascii.eqb c "/"%char | [] => false end.
(* The file a path denotes (directories are no symbolic links): whether the path is absolute, how many directories it goes
   up from where it starts, and the names it goes down from there.  The directory above the root is the root. *)
Definition denotes (s : str) : bool * nat * list str :=
  let (up, names) := walk 0 [] (components s) in (absolute s, if absolute s then 0 else up, rev names).

(* Paths that never leave the directory they start in on the way: every .. that is followed by something takes back a name
   before it.  The last component may be anything; a relative path may begin with one ".."; no component but the last and
   the one before a leading separator is empty. *)
Fixpoint descends (depth : nat) (l : list str) : Prop :=
  match l with
  | [] => True
  | c :: r =>
    r = [] \/
    (c = $"." /\ descends depth r) \/
    (c = $".." /\ (0 < depth)%nat /\ descends (depth - 1) r) \/
    (c <> [] /\ c <> $"." /\ c <> $".." /\ descends (S depth) r)
  end.
Definition contained (s : str) : Prop :=
  match components s with
  | c :: r => if str_dec c [] then descends 0 r else if str_dec c $".." then descends 0 r else descends 0 (c :: r)
  | [] => True
  end.

(* a path read with \ as a separator too *)
Definition with_slashes (s : str) : str := map (fun c => if Ascii.eqb c "\"%char then "/"%char else c) s.
(* d occurs in s *)
Definition occurs (d s : str) : Prop := exists a b, s = a ++ d ++ b.
Definition begins (d s : str) : Prop := exists b, s = d ++ b.
Definition normal (s : str) : Prop := ~ begins $"./" s /\ ~ occurs $"/./" s /\ ~ occurs $"/../" s /\ ~ In "\"%char s.

(* A text as a sequence of literal pieces and variables ${name} *)
Inductive piece := Lit (s : str) | Var (v : str).
Definition write (l : list piece) : str := flat_map (fun p => match p with Lit s => s | Var v => $"${" ++ v ++ $"}" end) l.
(* each variable replaced by its value, or by its name if it has none *)
Definition expand (env : str -> option str) (l : list piece) : str :=
  flat_map (fun p => match p with Lit s => s | Var v => match env v with Some x => x | None => v end end) l.
(* every $ in the text begins a variable, names end at the first closing bracket, and what a variable is replaced by has no $ *)
Definition piece_ok (env : str -> option str) (p : piece) : Prop :=
  match p with
  | Lit s => ~ In "$"%char s
  | Var v => ~ In "}"%char v /\ ~ In "$"%char (match env v with Some x => x | None => v end)
  end.
