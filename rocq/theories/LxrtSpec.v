(* Vocabulary of C73. *)
From Verif Require Import Base Text LxrtModel.

(* the lines of a text; the last one, possibly empty, is not ended by a newline *)
Inductive lines : str -> list str -> Prop :=
| last_line s : ~ In (ascii_of_nat 10) s -> lines s [s]
| one_line s t l : ~ In (ascii_of_nat 10) s -> lines t l -> lines (s ++ ascii_of_nat 10 :: t) (s :: l).
(* a line of /proc/modules that lists a module: its name, a blank, and more *)
Definition lists (name line : str) : Prop := exists rest, line = name ++ $" " ++ rest.
Definition module_listed (name text : str) : Prop := exists ls line, lines text ls /\ In line ls /\ lists name line.
(* a line that begins with the name *)
Definition starts (name line : str) : Prop := exists rest, line = name ++ rest.
Definition short (line : str) : Prop := length line < 200.
(* the modules each variant looks for *)
Definition needed (v : variant) : list str :=
  match v with NoLxrt => [] | WithExtension => [$"mca_lxrt_extension"] | PlainRtai => [$"rtai_hal"; $"rtai_lxrt"; $"rtai_sem"] end.
(* a call that looks at /proc/modules *)
Definition looks (c : call) : option (option str) := match c with CCheck m | CStartup m _ _ _ => Some m | _ => None end.
