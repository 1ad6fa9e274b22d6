(* C13, C14 *)
From Verif Require Import Base CInt TimeModel TimeSpec Text IsoModel IsoSpec IsoProofs.
Local Open Scope Z_scope.

(* Every valid date of 1970..9999 has a day number, so the hypotheses below can be met. *)
Theorem C13_every_valid_date_has_a_day_number :
  forall dt, valid_date dt -> exists n, day_number dt n.
Proof. exact (fun dt V => ex_intro _ _ (dnum_inj_iter dt (vdate_of_valid dt V))). Qed.
Print Assumptions C13_every_valid_date_has_a_day_number.

(* C13: YYYYMMDD?HHMMSS?fraction ; t and c are the two separator characters.
   The fraction digits f mean floor(0.f * 10^9) nanoseconds. *)
Theorem C13_parse_with_fraction :
  forall dt n h mi s t c f, valid_date dt -> day_number dt n ->
  0 <= h < 24 -> 0 <= mi < 60 -> 0 <= s < 60 -> f <> [] -> forallb is_digit f = true ->
  fromIso8601BasicUTC (full_text dt t h mi s ++ c :: f) =
    Ok (T (86400 * Z.of_nat n + 3600 * h + 60 * mi + s) (number f * 10 ^ 9 / 10 ^ Z.of_nat (length f))).
Proof. exact C13_full_lemma. Qed.
Print Assumptions C13_parse_with_fraction.

Theorem C13_parse_without_fraction :
  forall dt n h mi s t rest, valid_date dt -> day_number dt n ->
  0 <= h < 24 -> 0 <= mi < 60 -> 0 <= s < 60 -> (length rest <= 1)%nat ->
  fromIso8601BasicUTC (full_text dt t h mi s ++ rest) = Ok (T (86400 * Z.of_nat n + 3600 * h + 60 * mi + s) 0).
Proof. exact C13_nofrac_lemma. Qed.
Print Assumptions C13_parse_without_fraction.

(* shorter strings: missing fields default to month 1, day 1, 00:00:00 *)
Theorem C13_parse_shorter :
  forall dt n t h mi, valid_date dt -> day_number dt n -> 0 <= h < 24 -> 0 <= mi < 60 ->
  fromIso8601BasicUTC (basic_date dt ++ [t] ++ digits 2 h ++ digits 2 mi) = Ok (T (86400 * Z.of_nat n + 3600 * h + 60 * mi) 0) /\
  fromIso8601BasicUTC (basic_date dt ++ [t] ++ digits 2 h) = Ok (T (86400 * Z.of_nat n + 3600 * h) 0) /\
  fromIso8601BasicUTC (basic_date dt) = Ok (T (86400 * Z.of_nat n) 0) /\
  (day dt = 1 -> fromIso8601BasicUTC (digits 4 (year dt) ++ digits 2 (month dt)) = Ok (T (86400 * Z.of_nat n) 0)) /\
  (day dt = 1 -> month dt = 1 -> fromIso8601BasicUTC (digits 4 (year dt)) = Ok (T (86400 * Z.of_nat n) 0)).
Proof. exact C13_short_lemma. Qed.
Print Assumptions C13_parse_shorter.

Example C13_nonvacuous :
  fromIso8601BasicUTC ($"20000301T123456,5") = Ok (T 951914096 500000000) /\
  valid_date (D 1972 2 29) /\ day_number (D 1972 2 29) 789.
Proof. vm_compute. intuition congruence. Qed.

(* Text that is no valid date: a month above 13 reads outside days_per_month; a year before 1970
   is taken as 1970. *)
Theorem C13_invalid_month_is_UB_refuted :
  fromIso8601BasicUTC ($"20201401") = UB /\ fromIso8601BasicUTC ($"19690101") = Ok (T 0 0).
Proof. vm_compute. auto. Qed.
Print Assumptions C13_invalid_month_is_UB_refuted.

(* C14: 253402300800 s is 10000-01-01 *)
Theorem C14_format_parse_roundtrip :
  forall t, canonical t -> 0 <= total t -> secs t < 253402300800 ->
  exists s, formatIso8601BasicUTC t = Ok s /\ fromIso8601BasicUTC s = Ok t.
Proof. exact C14_lemma. Qed.
Print Assumptions C14_format_parse_roundtrip.

(* and the text is the correct calendar date and time of day, in both formats *)
Theorem C14_format_correct :
  forall t, canonical t -> 0 <= total t -> secs t < 253402300800 ->
  exists dt n, valid_date dt /\ day_number dt n /\ Z.of_nat n = secs t / 86400 /\
    formatIso8601BasicUTC t = Ok (full_text dt "T" (secs t mod 86400 / 3600) (secs t mod 86400 mod 3600 / 60) (secs t mod 86400 mod 60)
      ++ "," %char :: digits 9 (nsecs t)) /\
    formatIso8601UTC t = Ok (digits 4 (year dt) ++ $"-" ++ digits 2 (month dt) ++ $"-" ++ digits 2 (day dt) ++ $" " ++
       digits 2 (secs t mod 86400 / 3600) ++ $":" ++ digits 2 (secs t mod 86400 mod 3600 / 60) ++ $":" ++ digits 2 (secs t mod 86400 mod 60)).
Proof. exact format_ok. Qed.
Print Assumptions C14_format_correct.

(* beyond 9999 the 16-byte buffer is too small *)
Example C14_nonvacuous :
  formatIso8601BasicUTC (T 86399 7) = Ok ($"19700101T235959,000000007") /\ canonical (T 86399 7).
Proof. vm_compute. intuition congruence. Qed.
