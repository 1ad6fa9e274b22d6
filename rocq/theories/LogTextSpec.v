(* Vocabulary of C47 and C48: what a log statement's text is and what a log format means. *)
From Verif Require Import Base Text LogTextModel.
Local Open Scope Z_scope.

(* decimal numerals: only digits, no leading zero, and the right value *)
Definition numeral (z : Z) (s : str) : Prop :=
  exists d, s = (if z <? 0 then $"-" else []) ++ d /\ d <> [] /\ (forall c, In c d -> is_digit c = true) /\ number d = Z.abs z /\
  (forall r, d = "0"%char :: r -> r = []).

(* the text of a piece of a message *)
Definition text_of (p : piece) : str :=
  match p with
  | PText s => s | PString s => s
  | PBool b => if b then $"True" else $"False"
  | PU8 z | PU16 z | PU32 z | PU64 z | PI8 z | PI16 z | PI32 z | PI64 z => dec z
  | PDouble t => t | PPointer t => t
  end.
(* the values the C++ types have; texts of doubles below 10^92 and of pointers *)
Definition piece_ok (p : piece) : Prop :=
  match p with
  | PText s => ~ In nul s /\ Z.of_nat (length s) < 2^63
  | PString s => Z.of_nat (length s) < 2^63
  | PBool _ => True
  | PU8 z => 0 <= z < 2^8 | PU16 z => 0 <= z < 2^16 | PU32 z => 0 <= z < 2^32 | PU64 z => 0 <= z < 2^64
  | PI8 z => -2^7 <= z < 2^7 | PI16 z => -2^15 <= z < 2^15 | PI32 z => -2^31 <= z < 2^31 | PI64 z => -2^63 <= z < 2^63
  | PDouble t => (length t <= 99)%nat
  | PPointer t => (length t <= 24)%nat
  end.
Definition newline : str := $"
".
Fixpoint until_nul (s : str) : str := match s with [] => [] | c :: r => if Ascii.eqb c nul then [] else c :: until_nul r end.

(* a stream that holds the unfinished text p (empty after every message), all of whose arrays have their sizes *)
Definition holds (SIZE : Z) (t : tstream) (p : str) : Prop :=
  Z.of_nat (length p) <= SIZE - 2 /\ write_index t = Z.of_nat (length p) /\
  (exists r, data t = map Some p ++ r) /\ length (data t) = Z.to_nat (SIZE + 1) /\
  length (filename t) = Z.to_nat (SIZE + 1) /\ length (classname t) = Z.to_nat (SIZE + 1) /\
  length (objectname t) = Z.to_nat (SIZE + 1) /\ length (function t) = Z.to_nat (SIZE + 1) /\
  (exists r, classname t = r ++ [Some nul]) /\ (exists r, function t = r ++ [Some nul]).
(* a text that fits into n characters *)
Definition fits (s : str) (n : Z) : Prop := Z.of_nat (length s) <= n /\ ~ In nul s.
(* what a message says *)
Definition says (m : message) (lv : level) (st fi : str) (li : Z) (cl ob fu tx : str) : Prop :=
  m_level m = lv /\ c_str (m_stream m) = Ok st /\ c_str (m_file m) = Ok fi /\ m_line m = li /\ c_str (m_class m) = Ok cl /\
  c_str (m_object m) = Ok ob /\ c_str (m_function m) = Ok fu /\ c_str (m_text m) = Ok tx.

(* A format: literal texts and directives ~ width prefix letter *)
Record segment := Seg { literal : str; width : str; prefix : str; letter : ascii }.
Definition write_format (l : list segment) (tail : str) : str :=
  flat_map (fun s => literal s ++ $"~" ++ width s ++ prefix s ++ [letter s]) l ++ tail.
Definition letters : str := $"CODEFGLSTM".
Definition segment_ok (n : nat) (s : segment) : Prop :=
  ~ In "~"%char (literal s) /\ (length (literal s) <= n)%nat /\ ~ In nul (literal s) /\
  (forall c, In c (width s) -> is_digit c = true) /\
  (forall c r, prefix s = c :: r -> is_digit c = false) /\ (forall c, In c (prefix s) -> ~ In c letters) /\ ~ In nul (prefix s) /\
  (length (prefix s) <= n)%nat /\ In (letter s) letters.
Definition tail_ok (n : nat) (t : str) : Prop := ~ In "~"%char t /\ (length t <= n)%nat /\ ~ In nul t.

(* what a directive stands for *)
Definition named (pre s suf : str) : str := match s with [] => [] | _ => pre ++ s ++ suf end.
Definition closing (pre : str) : str :=
  match pre with
  | c :: _ => if Ascii.eqb c "("%char then $")" else if Ascii.eqb c "["%char then $"]" else if Ascii.eqb c "{"%char then $"}" else []
  | [] => []
  end.
Definition padded (w : Z) (ms : Z) : str := repeat "0"%char (Z.to_nat w - length (dec ms)) ++ dec ms.
Definition expand (s : segment) (lv : level) (st fi : str) (li : Z) (cl ob fu tx time : str) (nsec : Z) : str :=
  literal s ++
  (if Ascii.eqb (letter s) "C"%char then named (prefix s) cl []
   else if Ascii.eqb (letter s) "O"%char then named (prefix s) ob (closing (prefix s))
   else if Ascii.eqb (letter s) "D"%char then named (prefix s) fu []
   else if Ascii.eqb (letter s) "E"%char then tx
   else if Ascii.eqb (letter s) "F"%char then fi
   else if Ascii.eqb (letter s) "G"%char then dec li
   else if Ascii.eqb (letter s) "L"%char then logLevelDescription lv
   else if Ascii.eqb (letter s) "S"%char then st
   else if Ascii.eqb (letter s) "T"%char then time
   else padded (number (width s)) (nsec / 1000000)).
