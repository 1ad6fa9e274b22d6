(* Calendar specification: the date n days after 1970-01-01 is found by stepping n times
   to the next day (IsoModel.next_day, month_len, is_leap: the Gregorian rules). *)
From Verif Require Import Base TimeModel IsoModel Text.
Local Open Scope Z_scope.

Definition valid_date (d : date) : Prop :=
  1970 <= year d <= 9999 /\ 1 <= month d <= 12 /\ 1 <= day d <= month_len (year d) (month d).

(* n is the day number of d *)
Definition day_number (d : date) (n : nat) : Prop := Nat.iter n next_day (D 1970 1 1) = d.

Definition basic_date (d : date) : str := digits 4 (year d) ++ digits 2 (month d) ++ digits 2 (day d).

(* date, separator t, time of day *)
Definition full_text (dt : date) (t : ascii) (h mi s : Z) : str :=
  basic_date dt ++ [t] ++ digits 2 h ++ digits 2 mi ++ digits 2 s.
