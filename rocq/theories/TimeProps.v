(* C08-C12, C15 *)
From Verif Require Import Base CInt TimeModel TimeSpec TimeProofs.
Local Open Scope Z_scope.

(* C08: at most three passes, no int32 overflow, int64 overflow only if the result has no representation *)
Theorem C08_normalize :
  forall s n, in_i64 s = true -> in_i32 n = true ->
  (representable (s * 1000000000 + n) ->
     exists t, norm_loop 3 s n = Some (Ok t) /\ make_span s n = Ok t /\ canonical t /\ total t = s * 1000000000 + n) /\
  (~ representable (s * 1000000000 + n) -> make_span s n = UB).
Proof. exact C08_lemma. Qed.
Print Assumptions C08_normalize.

Theorem C08_canonical_unique : forall a b, canonical a -> canonical b -> total a = total b -> a = b.
Proof. exact canonical_unique. Qed.
Print Assumptions C08_canonical_unique.

Theorem C08_idempotent : forall t, canonical t -> make_span (secs t) (nsecs t) = Ok t.
Proof. exact normalize_id. Qed.
Print Assumptions C08_idempotent.

(* TimeStamp's constructor takes uint32_t nanoseconds: below 2^31 it is exact ... *)
Theorem C08_stamp_constructor_partial :
  forall s n, 0 <= s < 2^63 -> 0 <= n < 2^31 -> representable (s * 1000000000 + n) ->
  exists t, make_stamp s n = Ok t /\ canonical t /\ total t = s * 1000000000 + n.
Proof. exact stamp_ctor_ok. Qed.
Print Assumptions C08_stamp_constructor_partial.

(* ... and from 2^31 on it is not: 3 000 000 000 ns after second 10 becomes second 8.705... *)
Theorem C08_stamp_constructor_refuted :
  exists s n t, 0 <= s < 2^63 /\ 0 <= n < 2^32 /\ make_stamp s n = Ok t /\ total t <> s * 1000000000 + n.
Proof. exists 10, 3000000000, (T 8 705032704). vm_compute. intuition congruence. Qed.
Print Assumptions C08_stamp_constructor_refuted.

Example C08_nonvacuous :
  make_span (-3) 2147483647 = Ok (T 0 (-852516353)) /\ representable (-3 * 1000000000 + 2147483647) /\
  make_span (2^63 - 1) 1000000000 = UB /\ make_span 1 (-2147483648) = Ok (T (-1) (-147483648)).
Proof. vm_compute. intuition congruence. Qed.

(* C09 *)
Theorem C09_exact_arithmetic :
  forall a b, canonical a -> canonical b ->
  (in_i64 (secs a + secs b) = true -> representable (total a + total b) ->
     exists t, add a b = Ok t /\ canonical t /\ total t = total a + total b) /\
  (in_i64 (secs a - secs b) = true -> representable (total a - total b) ->
     (exists t, sub a b = Ok t /\ canonical t /\ total t = total a - total b) /\
     stamp_diff a b = sub a b).
Proof. exact C09_lemma. Qed.
Print Assumptions C09_exact_arithmetic.

Theorem C09_algebraic_laws :
  forall a b c, canonical a -> canonical b -> canonical c ->
  add a b = add b a /\
  (forall ab bc x y, add a b = Ok ab -> add ab c = Ok x -> add b c = Ok bc -> add a bc = Ok y -> x = y) /\
  (forall u, - 2^63 < secs b -> add a b = Ok u -> sub u b = Ok a) /\
  (forall d, in_i64 (secs a - secs b) = true -> stamp_diff a b = Ok d -> add b d = Ok a) /\
  (forall r, abs_span a = Ok r -> total r = Z.abs (total a)).
Proof. exact C09_laws. Qed.
Print Assumptions C09_algebraic_laws.

Example C09_nonvacuous :
  canonical (T 5 100) /\ canonical (T 7 200) /\ stamp_diff (T 5 100) (T 7 200) = Ok (T (-2) (-100)) /\
  add (T (-1) (-999999999)) (T 2 5) = Ok (T 0 6).
Proof. vm_compute. intuition congruence. Qed.

(* C10 *)
Theorem C10_comparison_is_total_order :
  forall a b, canonical a -> canonical b ->
  lt a b = (total a <? total b) /\ gt a b = (total b <? total a) /\
  le a b = (total a <=? total b) /\ ge a b = (total b <=? total a) /\
  eq a b = (total a =? total b) /\ ne a b = negb (total a =? total b).
Proof. exact C10_lemma. Qed.
Print Assumptions C10_comparison_is_total_order.
Example C10_nonvacuous : canonical (T 0 (-5)) /\ canonical (T (-1) 0) /\ lt (T (-1) 0) (T 0 (-5)) = true.
Proof. vm_compute. intuition congruence. Qed.

(* C11 *)
Theorem C11_unit_conversions :
  (forall m, in_i64 m = true ->
     (exists t, from_sec m = Ok t /\ canonical t /\ total t = m * 1000000000) /\
     (exists t, from_msec m = Ok t /\ canonical t /\ total t = m * 1000000 /\ to_msec t = Ok m) /\
     (exists t, from_usec m = Ok t /\ canonical t /\ total t = m * 1000 /\ to_usec t = Ok m)) /\
  (forall t, canonical t ->
     (in_i64 (secs t * 1000) = true -> in_i64 (Z.quot (total t) 1000000) = true -> to_msec t = Ok (Z.quot (total t) 1000000)) /\
     (in_i64 (secs t * 1000000) = true -> in_i64 (Z.quot (total t) 1000) = true -> to_usec t = Ok (Z.quot (total t) 1000)) /\
     (in_i64 (secs t * 1000000000) = true -> in_i64 (total t) = true -> to_nsec t = Ok (total t))).
Proof. exact C11_lemma. Qed.
Print Assumptions C11_unit_conversions.
Example C11_nonvacuous : from_msec (-1500) = Ok (T (-1) (-500000000)) /\ to_msec (T (-1) (-500999999)) = Ok (-1500).
Proof. vm_compute. auto. Qed.

(* the microseconds of the sub-second part are its whole microseconds, with its sign *)
Theorem C11_microseconds_part : forall t, canonical t -> Z.abs (ts_usec t) * 1000 <= Z.abs (nsecs t) < Z.abs (ts_usec t) * 1000 + 1000 /\ 0 <= ts_usec t * nsecs t.
Proof.
  intros t _. unfold ts_usec. pose proof (Z.quot_rem (nsecs t) 1000 ltac:(lia)). pose proof (Z.rem_bound_abs (nsecs t) 1000 ltac:(lia)).
  pose proof (Z.rem_sign_mul (nsecs t) 1000 ltac:(lia)). destruct (Z_le_gt_dec 0 (nsecs t)) as [P|P].
  - pose proof (Z.quot_pos (nsecs t) 1000 P ltac:(lia)). nia.
  - pose proof (Z.quot_pos (- nsecs t) 1000 ltac:(lia) ltac:(lia)) as Q. rewrite Z.quot_opp_l in Q by lia. nia.
Qed.
Print Assumptions C11_microseconds_part.

(* maxTime() is the latest time there is *)
Theorem C10_max_time : exists m, max_time = Ok m /\ canonical m /\ forall t, canonical t -> le t m = true.
Proof.
  eexists. split; [vm_compute; reflexivity|]. split; [vm_compute; repeat split; discriminate|]. intros t (A & B & _). unfold le. cbn [secs nsecs].
  apply in_i64_iff in A. destruct (Z.eqb_spec (secs t) 9223372036854775807); [apply Z.leb_le|apply Z.ltb_lt]; lia.
Qed.
Print Assumptions C10_max_time.

(* C12 *)
Theorem C12_calendar_components :
  forall t, canonical t ->
  days t * 86400 + hours t * 3600 + minutes t * 60 + seconds t = secs t /\
  Z.abs (hours t) < 24 /\ Z.abs (minutes t) < 60 /\ Z.abs (seconds t) < 60 /\
  (0 <= secs t -> 0 <= days t /\ 0 <= hours t /\ 0 <= minutes t /\ 0 <= seconds t) /\
  (secs t <= 0 -> days t <= 0 /\ hours t <= 0 /\ minutes t <= 0 /\ seconds t <= 0) /\
  microSeconds t * 1000 + nanoSeconds t = nsecs t /\
  milliSeconds t = Z.quot (nsecs t) 1000000 /\ Z.abs (milliSeconds t) < 1000 /\ Z.abs (microSeconds t) < 1000000 /\
  Z.abs (nanoSeconds t) < 1000.
Proof. exact C12_lemma. Qed.
Print Assumptions C12_calendar_components.
Example C12_nonvacuous : canonical (T 100000 123456789) /\ days (T 100000 0) = 1 /\ hours (T 100000 0) = 3.
Proof. vm_compute. intuition congruence. Qed.

(* C15: the printed text denotes the span exactly when the span is not negative with a sub-second part below a
   negative second count, and the sub-second part is not a whole number of microseconds (but not of
   milliseconds).  The full claim (always) is false. *)
Theorem C15_printed_span_exactly_when_partial :
  forall t, canonical t -> - 2^63 < secs t -> exists l, print t = Ok l /\
  (denote l = total t <-> ((0 <= secs t \/ nsecs t = 0) /\ (Z.rem (nsecs t) 1000000 = 0 \/ Z.rem (nsecs t) 1000 <> 0))).
Proof. exact print_denote. Qed.
Print Assumptions C15_printed_span_exactly_when_partial.

(* 5 microseconds print as "5000us"; the most negative second count overflows *)
Theorem C15_printed_span_refuted :
  (exists t l, canonical t /\ print t = Ok l /\ denote l <> total t) /\
  (exists t, canonical t /\ print t = UB).
Proof.
  split.
  - exists (T 0 5000), [Num 5000 US]. vm_compute. intuition congruence.
  - exists (T (-2^63) 0). vm_compute. intuition congruence.
Qed.
Print Assumptions C15_printed_span_refuted.
Example C15_nonvacuous : print (T 3725 500000000) = Ok [Num 1 H; Num 2 M; Num 5 S_; Num 500 MS].
Proof. vm_compute. auto. Qed.
