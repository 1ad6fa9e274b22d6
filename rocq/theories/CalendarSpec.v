(* Vocabulary of C70: the Gregorian calendar, on its own. *)
From Verif Require Import Base Text.
From Verif Require LogTextSpec.
Local Open Scope Z_scope.

Definition leap (y : Z) : Prop := (4 | y) /\ (~ (100 | y) \/ (400 | y)).
(* month m of year y has k days *)
Definition days_in (y m k : Z) : Prop :=
  In m [1; 3; 5; 7; 8; 10; 12] /\ k = 31 \/
  In m [4; 6; 9; 11] /\ k = 30 \/
  m = 2 /\ (leap y /\ k = 29 \/ ~ leap y /\ k = 28).
(* year, month, day: the second date is the day after the first *)
Inductive follows : Z * Z * Z -> Z * Z * Z -> Prop :=
| in_month y m d k : days_in y m k -> 1 <= d < k -> follows (y, m, d) (y, m, d + 1)
| next_month y m k : days_in y m k -> m < 12 -> follows (y, m, k) (y, m + 1, 1)
| next_year y : follows (y, 12, 31) (y + 1, 1, 1).
(* the date [n] days after the first of January 1970, or before it if n is negative (also before 1582) *)
Inductive date_on : Z -> Z * Z * Z -> Prop :=
| epoch : date_on 0 (1970, 1, 1)
| later n x y : date_on n x -> follows x y -> date_on (n + 1) y
| earlier n x y : date_on n x -> follows y x -> date_on (n - 1) y.

(* two decimal digits, nine decimal digits *)
Definition two (z : Z) (s : str) : Prop := length s = 2%nat /\ forallb is_digit s = true /\ number s = z.
Definition nine (z : Z) (s : str) : Prop := length s = 9%nat /\ forallb is_digit s = true /\ number s = z.
(* seconds after 1970-01-01 00:00:00: date and time of day in numbers *)
Inductive clock (sec : Z) : Z -> Z -> Z -> Z -> Z -> Z -> Prop :=
| clock_intro day y m d hh mm ss : date_on day (y, m, d) -> 0 <= hh < 24 -> 0 <= mm < 60 -> 0 <= ss < 60 ->
    sec = 86400 * day + 3600 * hh + 60 * mm + ss -> clock sec y m d hh mm ss.
(* YYYYMMDDThhmmss and YYYY-MM-DD hh:mm:ss; the year has as many digits as it needs *)
Definition basic_text (sec : Z) (s : str) : Prop :=
  exists y m d hh mm ss ty tm td th ti ts, clock sec y m d hh mm ss /\ LogTextSpec.numeral y ty /\ two m tm /\ two d td /\
  two hh th /\ two mm ti /\ two ss ts /\ s = ty ++ tm ++ td ++ $"T" ++ th ++ ti ++ ts.
Definition extended_text (sec : Z) (s : str) : Prop :=
  exists y m d hh mm ss ty tm td th ti ts, clock sec y m d hh mm ss /\ LogTextSpec.numeral y ty /\ two m tm /\ two d td /\
  two hh th /\ two mm ti /\ two ss ts /\ s = ty ++ $"-" ++ tm ++ $"-" ++ td ++ $" " ++ th ++ $":" ++ ti ++ $":" ++ ts.
