(* Vocabulary of C49: what the messages of a thread should say. *)
From Verif Require Import Conc Text LogTextModel LogStreamModel.

Definition newline : str := $"
".
Fixpoint until_nul (s : str) : str := match s with [] => [] | c :: r => if Ascii.eqb c nul then [] else c :: until_nul r end.
(* the text of statements without endl waits for the next statement of the thread with the same level *)
Fixpoint pending (done : list stmt) (l : level) (p : str) : str :=
  match done with
  | [] => p
  | m :: r => pending r l (if level_eqb (s_level m) l then if s_ends m then [] else p ++ concat (s_pieces m) else p)
  end.
Definition expected (SIZE : nat) (before : list stmt) (m : stmt) : str :=
  until_nul (firstn (SIZE - 2) (pending before (s_level m) [] ++ concat (s_pieces m)) ++ newline).
(* the statements that end with endl, each with those before it *)
Fixpoint ended (before done : list stmt) : list (list stmt * stmt) :=
  match done with
  | [] => []
  | m :: r => (if s_ends m then [(before, m)] else []) ++ ended (before ++ [m]) r
  end.
(* a delivery that names the statement's level, file, line, class, object and function, and gives its text unless it was raced *)
Definition right (SIZE : nat) (x : list stmt * stmt) (d : delivery) : Prop :=
  d_meta d = s_meta (snd x) /\ (d_raced d = false -> d_text d = expected SIZE (fst x) (snd x)).
(* what thread t has handed to output o *)
Definition handed (s : st) (o : nat) (t : tid) : list delivery :=
  filter (fun d => Nat.eqb (d_out d) o && Nat.eqb (d_tid d) t) (log s).

(* the thread stream a thread is using *)
Definition uses (p : pc) : option nat :=
  match p with
  | A148 _ i | MSet _ i | MPut _ i _ | W95 _ i _ _ _ | W97 _ i _ _ | F127 _ i | F128 _ i | F130 _ i => Some i
  | _ => None
  end.
(* between the release of a thread stream and the reset of its write index *)
Definition resetting (p : pc) (i : nat) : Prop := match p with F140 _ j | F146 _ j => i = j | _ => False end.
