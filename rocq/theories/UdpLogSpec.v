(* Specification of log messages by UDP (C62). *)
From Verif Require Import Base Text LogTextModel UdpLogModel.
Local Open Scope Z_scope.

(* any character of ASCII but NUL and the apostrophe: spaces, line ends, commas, brackets, ... *)
Definition plain_char (ch : ascii) : Prop := (1 <= nat_of_ascii ch <= 127)%nat /\ ch <> "'"%char.
Definition plain (s : str) : Prop := forall ch, In ch s -> plain_char ch.
(* all but the text *)
Definition plain_head (m : record) : Prop :=
  plain (r_stamp m) /\ plain (r_stream m) /\ plain (r_file m) /\ plain (r_class m) /\ plain (r_object m) /\ plain (r_function m) /\
  0 <= r_nsec m < 2 ^ 63 /\ 0 <= r_line m < 2 ^ 63.
Definition plain_record (m : record) : Prop := plain_head m /\ plain (r_text m).

Definition level_name (l : level) : str :=
  match l with Trace => $"Trace" | Debug => $"Debug" | Info => $"Info" | Warning => $"Warning" | Error => $"Error" | Mute => $"Mute" end.
(* the row of a message *)
Definition row_of (system : str) (m : record) : list literal :=
  [LText system; LText (r_stamp m); LInt (r_nsec m); LText (level_name (r_level m)); LText (r_stream m); LText (r_file m); LInt (r_line m);
   LText (r_class m); LText (r_object m); LText (r_function m); LText (r_text m)].
Definition with_text (m : record) (t : str) : record :=
  Rec (r_stamp m) (r_nsec m) (r_level m) (r_stream m) (r_file m) (r_line m) (r_class m) (r_object m) (r_function m) t.

(* every apostrophe doubled, as SQL wants it *)
Fixpoint doubled (s : str) : str :=
  match s with [] => [] | ch :: r => if Ascii.eqb ch "'"%char then "'"%char :: "'"%char :: doubled r else ch :: doubled r end.
Definition seven_bit (s : str) : Prop := forall ch, In ch s -> (1 <= nat_of_ascii ch <= 127)%nat.

Definition letter (ch : ascii) : Prop := (65 <= nat_of_ascii ch <= 90 \/ 97 <= nat_of_ascii ch <= 122)%nat.
(* words that may come after a value in SQL; a lone x before an apostrophe is something else *)
Definition sql_words : list string :=
  ["AND"; "OR"; "IS"; "NOT"; "LIKE"; "GLOB"; "REGEXP"; "MATCH"; "BETWEEN"; "IN"; "ISNULL"; "NOTNULL"; "COLLATE"; "ESCAPE"; "X"]%string.
Definition upper_case (s : str) : str := map (fun ch => if (97 <=? nat_of_ascii ch)%nat then ascii_of_nat (nat_of_ascii ch - 32) else ch) s.
Definition english (w : str) : Prop := w <> [] /\ (forall ch, In ch w -> letter ch) /\ ~ In (upper_case w) (map list_ascii_of_string sql_words).
(* does not go on with the word before *)
Definition word_ends (b : str) : Prop :=
  match b with
  | [] => True
  | ch :: _ => ~ letter ch /\ ch <> "_"%char /\ ch <> "$"%char /\ is_digit ch = false /\ (1 <= nat_of_ascii ch <= 127)%nat
  end.
Definition spaces (s : str) : Prop := forall ch, In ch s -> ch = " "%char.
