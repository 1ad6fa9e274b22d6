(* Vocabulary of C76. *)
From Verif Require Import Conc FormatModel.

Section V.
  Context {E : Type}.
  (* no call of changeLogFormat is under way *)
  Definition settled (s : fst_ E) : Prop := forall t, changing (pc s t) = false.
  (* inside the part protected by the mutex *)
  Definition inside (p : fpc E) : Prop := match p with F134 | F135 | F136 | F138 | G187 _ | G292 => True | _ => False end.
  (* the threads of a list act one after the other *)
  Fixpoint acts (l : list tid) (s : fst_ E) : option (fst_ E) :=
    match l with [] => Some s | t :: r => match fact t s with Some s' => acts r s' | None => None end end.
  Definition call_change (t : tid) (f : list E) (s : fst_ E) : fst_ E := goto (mkF (mx s) (log s) (new s) (pc s) (f :: asked s) (lines s)) t (F130 f).
  Definition call_print (t : tid) (s : fst_ E) : fst_ E := goto s t G184.
End V.
