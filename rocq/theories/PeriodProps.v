(* C46 *)
From Verif Require Import Base CInt TimeModel TimeSpec PeriodModel PeriodSpec PeriodProofs.
Local Open Scope Z_scope.

(* C46: absolute -> relative: the time that is left, never negative *)
Theorem C46_relative_timeout :
  forall now t, moderate now -> moderate t ->
  exists d, getRelativeTimeout now t = Ok d /\ canonical d /\ total d = Z.max 0 (total t - total now).
Proof. exact relative_ok. Qed.
Print Assumptions C46_relative_timeout.

(* relative -> absolute: now + d; a negative time-out means 365 days *)
Theorem C46_absolute_timeout :
  forall now d, moderate now -> moderate d ->
  exists t, getAbsoluteTimeout now d = Ok t /\ canonical t /\
  total t = if total d <? 0 then total now + 365 * 86400 * 1000000000 else total now + total d.
Proof. exact absolute_ok. Qed.
Print Assumptions C46_absolute_timeout.

Theorem C46_timeout_round_trip :
  forall now d t, moderate now -> moderate d -> 0 <= total d -> getAbsoluteTimeout now d = Ok t -> moderate t ->
  getRelativeTimeout now t = Ok d.
Proof. exact roundtrip. Qed.
Print Assumptions C46_timeout_round_trip.

(* outside the moderate range the addition overflows: "wait for the longest time span" is undefined behaviour *)
Theorem C46_longest_timeout_refuted :
  exists now d, canonical now /\ canonical d /\ 0 <= total d /\ getAbsoluteTimeout now d = UB.
Proof. exists (T 1 0), (T (2^63 - 1) 0). vm_compute. intuition congruence. Qed.
Print Assumptions C46_longest_timeout_refuted.

(* waitPeriod(): for every clock, if it returns it has not hit undefined behaviour; with a clock that does not run
   backwards it returns no earlier than one period after the last execution (or, if the clock was set back before
   the call, one period after the call), and never asks for a sleep longer than a period *)
Theorem C46_waitPeriod :
  forall fuel clock i last period r, moderate_clock clock -> moderate last -> moderate period -> 0 <= total period ->
  waitPeriod fuel clock i last period = Some r ->
  exists last' i' slept, r = Ok (last', i', slept) /\ (i < i')%nat /\ last' = clock (i' - 1)%nat /\
    (monotone clock -> target (total (clock i)) (total last) (total period) <= total last' /\
       Forall (fun x => 0 < total x <= total period) slept).
Proof. exact wait_sound. Qed.
Print Assumptions C46_waitPeriod.

(* and it returns once the clock has reached that time *)
Theorem C46_waitPeriod_returns :
  forall clock i last period k, moderate_clock clock -> moderate last -> moderate period -> 0 <= total period ->
  (forall j, (k <= j)%nat -> target (total (clock i)) (total last) (total period) <= total (clock j)) ->
  exists fuel r, waitPeriod fuel clock i last period = Some (Ok r).
Proof. exact wait_ends. Qed.
Print Assumptions C46_waitPeriod_returns.

(* any number of calls in a row: consecutive executions are at least one period apart *)
Theorem C46_executions_are_spaced :
  forall clock period fuel, moderate_clock clock -> monotone clock -> moderate period -> 0 <= total period ->
  forall n i last r, moderate last -> total last <= total (clock i) ->
  periods n fuel clock i last period = Some r -> exists l, r = Ok l /\ length l = n /\ spaced (total period) (total last) l.
Proof. exact periods_spaced. Qed.
Print Assumptions C46_executions_are_spaced.

(* a clock with a reading every second and a period of 2.5 s *)
Example C46_nonvacuous :
  moderate_clock ex_clock /\ monotone ex_clock /\
  periods 3 10 ex_clock 0 (T 0 0) (T 2 500000000) = Some (Ok [T 4 0; T 8 0; T 12 0]) /\
  waitPeriod 10 ex_clock 0 (T 0 0) (T 2 500000000) = Some (Ok (T 4 0, 5%nat, [T 2 500000000; T 1 500000000; T 0 500000000])) /\
  getAbsoluteTimeout (T 5 0) (T 0 7) = Ok (T 5 7) /\ getRelativeTimeout (T 5 0) (T 4 3) = Ok (T 0 0).
Proof. split; [apply ex_clock_ok|]. split; [apply ex_clock_ok|]. repeat split. Qed.
