(* C71: time values in the formats of other systems. *)
From Verif Require Import Base CInt TimeModel TimeSpec PeriodModel WireModel WireSpec WireProofs.
Local Open Scope Z_scope.

(* A time stamp that is sent as a message is received as the same time stamp, by the constructor and by assignment,
   also if it lies before 1970. *)
Theorem C71_stamp_message_round_trip t : canonical t ->
  is_stamp_msg (stamp_to_msg t) /\ stamp_of_msg (stamp_to_msg t) = Ok t /\ stamp_assign_msg (stamp_to_msg t) = t.
Proof. exact (msg_round t). Qed.
Print Assumptions C71_stamp_message_round_trip.
(* The fields of the message mean that time exactly for times that are not before 1970. *)
Theorem C71_stamp_message_value t : canonical t -> (reads (stamp_to_msg t) = total t <-> 0 <= total t).
Proof. exact (msg_value t). Qed.
Print Assumptions C71_stamp_message_value.
(* A message of another program (seconds below 2^63, nanoseconds below 2^31) gives the time it says. *)
Theorem C71_stamp_message_received w :
  is_stamp_msg w -> w_sec w < 9223372036854775808 -> w_nsec w < 2147483648 -> reads w < 9223372036854775808000000000 ->
  exists t, stamp_of_msg w = Ok t /\ canonical t /\ total t = reads w /\ total (stamp_assign_msg w) = reads w.
Proof. exact (msg_receive w). Qed.
Print Assumptions C71_stamp_message_received.
(* The assignment gives the same object as the constructor only if the nanoseconds are below one second ... *)
Theorem C71_stamp_assignment w : is_stamp_msg w -> w_sec w < 9223372036854775808 -> w_nsec w < 2147483648 ->
  (stamp_of_msg w = Ok (stamp_assign_msg w) <-> w_nsec w < 1000000000).
Proof. exact (msg_assign_same w). Qed.
Print Assumptions C71_stamp_assignment.
(* ... because it does not normalise: then equal times differ, and a later time compares as earlier. *)
Theorem C71_stamp_assignment_refuted : exists w a, is_stamp_msg w /\ stamp_of_msg w = Ok a /\
  total (stamp_assign_msg w) = total a /\ eq (stamp_assign_msg w) a = false /\
  exists b, canonical b /\ total b < total (stamp_assign_msg w) /\ lt (stamp_assign_msg w) b = true.
Proof.
  exists (W 1 1500000000), (T 2 500000000). split; [unfold is_stamp_msg; cbn; lia|]. split; [vm_compute; reflexivity|].
  split; [vm_compute; reflexivity|]. split; [vm_compute; reflexivity|]. exists (T 2 0).
  split; [unfold canonical; cbn; split; [reflexivity|lia]|]. split; [vm_compute; reflexivity|vm_compute; reflexivity].
Qed.
Print Assumptions C71_stamp_assignment_refuted.
(* Nanoseconds from 2^31 on are taken as negative: the time is 4.294967296 seconds too early. *)
Theorem C71_many_nanoseconds_refuted w : is_stamp_msg w -> w_sec w < 9223372036854775808 -> 2147483648 <= w_nsec w ->
  exists t, stamp_of_msg w = Ok t /\ canonical t /\ total t = reads w - 4294967296.
Proof. exact (msg_high w). Qed.
Print Assumptions C71_many_nanoseconds_refuted.

(* Time spans: exact in both directions, for every sign. *)
Theorem C71_span_message_round_trip t : canonical t ->
  is_span_msg (span_to_msg t) /\ reads (span_to_msg t) = total t /\
  span_of_msg (span_to_msg t) = Ok t /\ span_assign_msg (span_to_msg t) = t.
Proof. exact (span_round t). Qed.
Print Assumptions C71_span_message_round_trip.
Theorem C71_span_message_received w : is_span_msg w ->
  (forall t, span_of_msg w = Ok t -> canonical t /\ total t = reads w) /\
  total (span_assign_msg w) = reads w /\
  (span_of_msg w = Ok (span_assign_msg w) <-> canonical (span_assign_msg w)).
Proof. exact (span_receive w). Qed.
Print Assumptions C71_span_message_received.

(* DDS time stamps: every one of them can be received, with the time it says if its nanoseconds are below 2^31. *)
Theorem C71_dds_received w : is_dds_time w -> exists t, stamp_of_dds w = Ok t /\ canonical t /\
  total t = reads w - (if w_nsec w <? 2147483648 then 0 else 4294967296).
Proof. exact (dds_receive w). Qed.
Print Assumptions C71_dds_received.
Theorem C71_dds_assignment w : is_dds_time w ->
  (forall t, stamp_of_dds w = Ok t -> total (stamp_assign_dds w) = total t) /\
  (stamp_of_dds w = Ok (stamp_assign_dds w) <-> canonical (stamp_assign_dds w)).
Proof. exact (dds_assign w). Qed.
Print Assumptions C71_dds_assignment.
(* Sent and received again, a time is unchanged exactly if its seconds fit in 32 bits; all others are moved by a
   multiple of 2^32 seconds. *)
Theorem C71_dds_round_trip t : canonical t ->
  is_dds_time (stamp_to_dds t) /\ exists u k, stamp_of_dds (stamp_to_dds t) = Ok u /\ canonical u /\
  total u = total t - k * 4294967296000000000 /\ (k = 0 <-> -2147483648 <= secs t < 2147483648).
Proof. exact (dds_round t). Qed.
Print Assumptions C71_dds_round_trip.
Theorem C71_dds_value t : canonical t -> 0 <= total t -> secs t < 2147483648 -> reads (stamp_to_dds t) = total t.
Proof. exact (dds_value t). Qed.
Print Assumptions C71_dds_value.
(* 19 January 2038, 03:14:08, is received as a day in December 1901 *)
Theorem C71_dds_after_2038_refuted : exists t u, canonical t /\ 0 < total t /\ stamp_of_dds (stamp_to_dds t) = Ok u /\
  total u = -2147483648000000000.
Proof.
  exists (T 2147483648 0), (T (-2147483648) 0). split; [unfold canonical; cbn; split; [reflexivity|lia]|].
  split; [reflexivity|]. split; vm_compute; reflexivity.
Qed.
Print Assumptions C71_dds_after_2038_refuted.
(* The DDS value for "no time" (-1, 2^32 - 1) becomes an ordinary time. *)
Theorem C71_dds_invalid_refuted : exists t, stamp_of_dds (W (-1) 4294967295) = Ok t /\ total t = -1000000001.
Proof. exists (T (-1) (-1)). split; vm_compute; reflexivity. Qed.
Print Assumptions C71_dds_invalid_refuted.

(* Mach time values are exact for spans from 0 up to 2^32 seconds and for no others. *)
Theorem C71_mach_exact t : canonical t ->
  (is_mach_time (mach_timespec t) /\ reads (mach_timespec t) = total t <-> 0 <= total t < 4294967296000000000).
Proof. exact (mach_value t). Qed.
Print Assumptions C71_mach_exact.
(* On Darwin, waiting for a semaphore with a deadline waits for what is left of it, and not at all if it has passed. *)
Theorem C71_darwin_deadline now t : canonical now -> canonical t -> in_i64 (secs t - secs now) = true ->
  total t - total now < 4294967296000000000 ->
  exists w, darwin_wait_stamp now t = Ok w /\ is_mach_time w /\ reads w = Z.max 0 (total t - total now).
Proof. exact (darwin_stamp now t). Qed.
Print Assumptions C71_darwin_deadline.
(* With a negative relative time-out it waits up to 136 years. *)
Theorem C71_darwin_negative_refuted : exists t, canonical t /\ total t < 0 /\ reads (darwin_wait_span t) = 4294967295000000000.
Proof. exists (T (-1) 0). split; [unfold canonical; cbn; split; [reflexivity|lia]|]. split; vm_compute; reflexivity. Qed.
Print Assumptions C71_darwin_negative_refuted.

Example C71_nonvacuous_stamp : exists t, canonical t /\ total t = 1700000000123456789 /\ stamp_to_msg t = W 1700000000 123456789 /\
  stamp_to_dds t = W 1700000000 123456789.
Proof. exists (T 1700000000 123456789). split; [unfold canonical; cbn; split; [reflexivity|lia]|]. repeat split. Qed.
Example C71_nonvacuous_before_1970 : exists t, canonical t /\ total t = -1500000000 /\ stamp_to_msg t = W 18446744073709551615 3794967296.
Proof. exists (T (-1) (-500000000)). split; [unfold canonical; cbn; split; [reflexivity|lia]|]. split; vm_compute; reflexivity. Qed.
Example C71_nonvacuous_received : is_dds_time (W 5 2500000000) /\ is_stamp_msg (W 5 1500000000) /\ is_span_msg (W (-5) 1500000000) /\
  stamp_of_msg (W 5 1500000000) = Ok (T 6 500000000) /\ span_of_msg (W (-5) 1500000000) = Ok (T (-3) (-500000000)).
Proof. unfold is_dds_time, is_stamp_msg, is_span_msg. cbn [w_sec w_nsec]. repeat split; try lia; vm_compute; reflexivity. Qed.
Example C71_nonvacuous_deadline : exists now t, canonical now /\ canonical t /\ in_i64 (secs t - secs now) = true /\
  total t - total now = 2500000000 /\ darwin_wait_stamp now t = Ok (W 2 500000000).
Proof.
  exists (T 100 700000000), (T 103 200000000). split; [unfold canonical; cbn; split; [reflexivity|lia]|].
  split; [unfold canonical; cbn; split; [reflexivity|lia]|]. repeat split.
Qed.
