(* C70: the texts of time stamps, in UTC and in local time, before and after 1970. *)
From Verif Require Import Base BaseLemmas CInt Text SMap TimeModel TimeSpec IsoModel IsoSpec CalendarSpec CalendarProofs CalendarSortProofs.
Local Open Scope Z_scope.

(* the calendar: every day has one date, and no two days have the same one *)
Theorem C70_calendar : (forall n, exists y m d, date_on n (y, m, d)) /\ (forall n x x', date_on n x -> date_on n x' -> x = x') /\
  (forall n n' x, date_on n x -> date_on n' x -> n = n').
Proof.
  split; [|split; [exact date_on_fun|exact date_on_inj]].
  intros n. do 3 eexists. exact (proj2 (date_of_day_on n)).
Qed.
Print Assumptions C70_calendar.

(* every second has one reading of the clock, and one text in each format *)
Theorem C70_one_reading : (forall sec, exists y m d hh mm ss, clock sec y m d hh mm ss) /\
  (forall sec y m d hh mm ss y' m' d' hh' mm' ss', clock sec y m d hh mm ss -> clock sec y' m' d' hh' mm' ss' ->
     (y, m, d, hh, mm, ss) = (y', m', d', hh', mm', ss')) /\
  (forall sec a b, basic_text sec a -> basic_text sec b -> a = b) /\ (forall sec a b, extended_text sec a -> extended_text sec b -> a = b).
Proof.
  split; [|split; [|split; [exact basic_text_fun|exact extended_text_fun]]].
  - intros sec. do 6 eexists. apply clock_day.
  - intros sec y m d hh mm ss y' m' d' hh' mm' ss' A B. destruct (clock_fun _ _ _ _ _ _ _ _ _ _ _ _ _ A B) as (-> & -> & -> & -> & -> & ->). reflexivity.
Qed.
Print Assumptions C70_one_reading.

(* formatIso8601BasicUTC: the second the stamp lies in (rounded down, also before 1970), a comma and the nanoseconds since then;
   years the buffer is too short for are undefined *)
Theorem C70_utc_basic : forall t y m d hh mm ss, canonical t -> clock (total t / 1000000000) y m d hh mm ss ->
  (-999 <= y <= 9999 -> exists a f, formatIso8601BasicUTC t = Ok (a ++ $"," ++ f) /\ basic_text (total t / 1000000000) a /\
     nine (total t mod 1000000000) f) /\
  (y < -999 \/ 9999 < y -> formatIso8601BasicUTC t = UB).
Proof. exact utc_basic. Qed.
Print Assumptions C70_utc_basic.

(* formatIso8601UTC: the seconds of the stamp, without its nanoseconds *)
Theorem C70_utc_extended : forall t y m d hh mm ss, clock (secs t) y m d hh mm ss ->
  (-999 <= y <= 9999 -> exists a, formatIso8601UTC t = Ok a /\ extended_text (secs t) a) /\
  (y < -999 \/ 9999 < y -> formatIso8601UTC t = UB).
Proof. intros t y m d hh mm ss K. exact (strf_extended_ok _ _ _ _ _ _ _ K). Qed.
Print Assumptions C70_utc_extended.

(* this is the second the stamp lies in only from 1970 on: a stamp half a second before 1970 is given as 1970 *)
Theorem C70_utc_extended_before_1970_refuted :
  ~ (forall t a, canonical t -> formatIso8601UTC t = Ok a -> extended_text (total t / 1000000000) a).
Proof.
  intros H. specialize (H (T 0 (-500000000)) ($"1970-01-01 00:00:00")).
  assert (C : canonical (T 0 (-500000000))) by (vm_compute; intuition congruence).
  specialize (H C eq_refl). change (total (T 0 (-500000000)) / 1000000000) with (-1) in H.
  destruct (strf_extended_ok _ _ _ _ _ _ _ (clock_day (-1))) as (A & _).
  destruct A as (a & Ea & Ba); [vm_compute; intuition congruence|]. pose proof (extended_text_fun _ _ _ H Ba) as Q. subst a. vm_compute in Ea. discriminate.
Qed.
Print Assumptions C70_utc_extended_before_1970_refuted.

(* local time: the same text as that of the wall clock, [off] seconds ahead *)
Theorem C70_local_basic : forall zone t off y m d hh mm ss, canonical t -> zone (total t / 1000000000) = Some off ->
  - 2 ^ 63 <= total t / 1000000000 -> clock (total t / 1000000000 + off) y m d hh mm ss ->
  (-999 <= y <= 9999 -> exists a f, formatIso8601Basic zone t = Ok (a ++ $"," ++ f) /\ basic_text (total t / 1000000000 + off) a /\
     nine (total t mod 1000000000) f) /\
  (y < -999 \/ 9999 < y -> formatIso8601Basic zone t = UB).
Proof. exact local_basic. Qed.
Print Assumptions C70_local_basic.
Theorem C70_local_extended : forall zone t off y m d hh mm ss, zone (secs t) = Some off -> clock (secs t + off) y m d hh mm ss ->
  (-999 <= y <= 9999 -> exists a, formatIso8601 zone t = Ok a /\ extended_text (secs t + off) a) /\
  (y < -999 \/ 9999 < y -> formatIso8601 zone t = UB).
Proof. intros zone t off y m d hh mm ss E K. unfold formatIso8601, strfLocaltime. rewrite E. exact (strf_extended_ok _ _ _ _ _ _ _ K). Qed.
Print Assumptions C70_local_extended.
(* in a zone that agrees with UTC local time is UTC *)
Theorem C70_local_utc : forall t, formatIso8601 (fun _ => Some 0) t = formatIso8601UTC t /\
  formatIso8601Basic (fun _ => Some 0) t = formatIso8601BasicUTC t.
Proof.
  intros t. unfold formatIso8601, formatIso8601UTC, formatIso8601Basic, formatIso8601BasicUTC, strfLocaltime. rewrite Z.add_0_r. split; [reflexivity|].
  destruct (if nsecs t <? 0 then _ else _) as [u| |]; [|reflexivity|reflexivity]. cbn [bind]. rewrite Z.add_0_r. reflexivity.
Qed.
Print Assumptions C70_local_utc.
(* if the local time cannot be found out the text is indeterminate *)
Theorem C70_local_unknown : forall zone t, zone (secs t) = None -> formatIso8601 zone t = UB.
Proof. intros zone t E. unfold formatIso8601, strfLocaltime. rewrite E. reflexivity. Qed.
Print Assumptions C70_local_unknown.

(* the day numbers of C13 and C14 are those of this calendar, and their valid dates are its dates of the years 1970 to 9999 *)
Theorem C70_day_numbers : forall dt n, day_number dt n <-> date_on (Z.of_nat n) (year dt, month dt, day dt).
Proof. exact day_number_on. Qed.
Print Assumptions C70_day_numbers.
Theorem C70_valid_dates : forall dt, valid_date dt <-> 1970 <= year dt <= 9999 /\ exists n, date_on n (year dt, month dt, day dt).
Proof. intros dt. rewrite valid_on. unfold valid_date. reflexivity. Qed.
Print Assumptions C70_valid_dates.

(* a text from before 1970 cannot be read back *)
Theorem C70_round_trip_before_1970_refuted :
  ~ (forall t s, canonical t -> formatIso8601BasicUTC t = Ok s -> fromIso8601BasicUTC s = Ok t).
Proof.
  intros H. specialize (H (T (-1) 0) ($"19691231T235959,000000000") ltac:(vm_compute; intuition congruence)).
  assert (E : formatIso8601BasicUTC (T (-1) 0) = Ok ($"19691231T235959,000000000")) by (vm_compute; reflexivity). specialize (H E). vm_compute in H. discriminate.
Qed.
Print Assumptions C70_round_trip_before_1970_refuted.

Example C70_nonvacuous :
  date_on (-1) (1969, 12, 31) /\ date_on 59 (1970, 3, 1) /\ date_on 789 (1972, 2, 29) /\ clock (-1) 1969 12 31 23 59 59 /\ leap 2000 /\ ~ leap 1900 /\
  formatIso8601BasicUTC (T 0 (-1)) = Ok ($"19691231T235959,999999999") /\ formatIso8601BasicUTC (T (-2203891201) 0) = Ok ($"19000228T235959,000000000") /\
  formatIso8601BasicUTC (T (-2203891200) 0) = Ok ($"19000301T000000,000000000") /\
  formatIso8601Basic (fun _ => Some 3600) (T 0 (-1)) = Ok ($"19700101T005959,999999999").
Proof.
  assert (N : forall n x, tup (date_of_day n) = x -> date_on n x) by (intros n x <-; apply date_of_day_on).
  split; [apply N; vm_compute; reflexivity|]. split; [apply N; vm_compute; reflexivity|]. split; [apply N; vm_compute; reflexivity|].
  split; [exact (clock_day (-1))|]. split; [apply leap_iff; reflexivity|]. split; [rewrite leap_iff; discriminate|]. vm_compute. auto 10.
Qed.

(* texts sort as the stamps do, as long as the years have four digits: file names made from them are in chronological order *)
Theorem C70_texts_sort : forall t t' s s' y m d hh mm ss y' m' d' hh' mm' ss', canonical t -> canonical t' ->
  clock (total t / 1000000000) y m d hh mm ss -> clock (total t' / 1000000000) y' m' d' hh' mm' ss' ->
  1000 <= y <= 9999 -> 1000 <= y' <= 9999 -> formatIso8601BasicUTC t = Ok s -> formatIso8601BasicUTC t' = Ok s' ->
  (total t < total t' <-> str_lt s s' = true) /\ (total t = total t' <-> s = s').
Proof. exact utc_sorts. Qed.
Print Assumptions C70_texts_sort.
Theorem C70_readings_sort : forall sec sec' y m d hh mm ss y' m' d' hh' mm' ss', clock sec y m d hh mm ss -> clock sec' y' m' d' hh' mm' ss' ->
  sec < sec' ->
  y < y' \/ y = y' /\ (m < m' \/ m = m' /\ (d < d' \/ d = d' /\ (hh < hh' \/ hh = hh' /\ (mm < mm' \/ mm = mm' /\ ss < ss')))).
Proof. exact clock_mono. Qed.
Print Assumptions C70_readings_sort.
Theorem C70_extended_sorts : forall sec sec' s s' y m d hh mm ss y' m' d' hh' mm' ss', extended_text sec s -> extended_text sec' s' ->
  clock sec y m d hh mm ss -> clock sec' y' m' d' hh' mm' ss' -> 1000 <= y <= 9999 -> 1000 <= y' <= 9999 ->
  sec < sec' -> str_lt s s' = true.
Proof. exact extended_lt. Qed.
Print Assumptions C70_extended_sorts.
(* with years of different length they do not *)
Theorem C70_texts_sort_short_years_refuted :
  ~ (forall t t' s s', canonical t -> canonical t' -> formatIso8601BasicUTC t = Ok s -> formatIso8601BasicUTC t' = Ok s' ->
       total t < total t' -> str_lt s s' = true).
Proof.
  assert (Ca : canonical (T (-30610224001) 0)) by (vm_compute; intuition congruence).
  assert (Cb : canonical (T (-30610224000) 0)) by (vm_compute; intuition congruence).
  assert (A : formatIso8601BasicUTC (T (-30610224001) 0) = Ok ($"9991231T235959,000000000")) by (vm_compute; reflexivity).
  assert (B : formatIso8601BasicUTC (T (-30610224000) 0) = Ok ($"10000101T000000,000000000")) by (vm_compute; reflexivity).
  assert (L : total (T (-30610224001) 0) < total (T (-30610224000) 0)) by (vm_compute; reflexivity).
  assert (N : str_lt ($"9991231T235959,000000000") ($"10000101T000000,000000000") = false) by (vm_compute; reflexivity).
  intros H. pose proof (H _ _ _ _ Ca Cb A B L) as Q. rewrite N in Q. exact (Bool.diff_false_true Q).
Qed.
Print Assumptions C70_texts_sort_short_years_refuted.
Example C70_sort_nonvacuous : let t := T 0 (-1) in let t' := T 0 0 in canonical t /\ canonical t' /\
  clock (total t / 1000000000) 1969 12 31 23 59 59 /\ clock (total t' / 1000000000) 1970 1 1 0 0 0 /\ total t < total t' /\
  formatIso8601BasicUTC t = Ok ($"19691231T235959,999999999") /\ formatIso8601BasicUTC t' = Ok ($"19700101T000000,000000000").
Proof.
  cbv zeta. split; [vm_compute; intuition congruence|]. split; [vm_compute; intuition congruence|].
  change (total (T 0 (-1)) / 1000000000) with (-1). change (total (T 0 0) / 1000000000) with 0.
  split; [exact (clock_day (-1))|]. split; [exact (clock_day 0)|]. vm_compute. auto.
Qed.
