(* Property C67: scaling of time spans. *)
From Coq Require Import QArith Qround Floats.SpecFloat.
From Verif Require Import Base CInt TimeModel TimeSpec TimeProofs ScaleModel ScaleSpec ScaleProofs.
Local Open Scope Z_scope.

(* a span times a factor: less than a second and a nanosecond away from the product, and exactly the product if the seconds
   times the factor and the nanoseconds times the factor are whole numbers *)
Theorem C67_times :
  forall t d, canonical t -> Z.abs (secs t) < 2^52 -> finite d ->
  within (inject_Z (secs t) * number d) (2^52) -> within (inject_Z (nsecs t) * number d) (2^31 - 1) ->
  exists r, times t d = Ok r /\ canonical r /\ close r (inject_Z (total t) * number d) 1000000001 /\
  (integer (inject_Z (secs t) * number d) -> integer (inject_Z (nsecs t) * number d) -> (inject_Z (total r) == inject_Z (total t) * number d)%Q).
Proof.
  intros t d C0 S0 Fd W1 W2. pose proof C0 as (_ & N0 & _).
  assert (W2' : within (inject_Z (nsecs t) * number d) (2 ^ 52)).
  { destruct W2 as [A B]. split; [eapply Qlt_trans; [|exact A]|eapply Qlt_trans; [exact B|]]; reflexivity. }
  destruct (mul_ok (secs t) d S0 Fd W1) as (s & Es & Hs). destruct (mul_ok (nsecs t) d ltac:(lia) Fd W2') as (n & En & Hn).
  destruct (span_of_parts _ _ s n Hs Hn W1 W2) as (E & r & R & Cr & Cl & Ex). exists r.
  unfold times, to_int64, to_int32. rewrite Es, En, E. split; [exact R|]. split; [exact Cr|].
  assert (T0 : (inject_Z (total t) * number d == inject_Z (secs t) * number d * inject_Z 1000000000 + inject_Z (nsecs t) * number d)%Q) by (rewrite total_q; ring).
  split; [unfold close, within in *; rewrite T0; exact Cl|]. intros I1 I2. rewrite T0. exact (Ex I1 I2).
Qed.
Print Assumptions C67_times.

(* the same for division *)
Theorem C67_divided :
  forall t d, canonical t -> Z.abs (secs t) < 2^52 -> finite d -> ~ (number d == 0)%Q ->
  within (inject_Z (secs t) / number d) (2^52) -> within (inject_Z (nsecs t) / number d) (2^31 - 1) ->
  exists r, divided t d = Ok r /\ canonical r /\ close r (inject_Z (total t) / number d) 1000000001 /\
  (integer (inject_Z (secs t) / number d) -> integer (inject_Z (nsecs t) / number d) -> (inject_Z (total r) == inject_Z (total t) / number d)%Q).
Proof.
  intros t d C0 S0 Fd Nz W1 W2. pose proof C0 as (_ & N0 & _).
  assert (W2' : within (inject_Z (nsecs t) / number d) (2 ^ 52)).
  { destruct W2 as [A B]. split; [eapply Qlt_trans; [|exact A]|eapply Qlt_trans; [exact B|]]; reflexivity. }
  destruct (div_ok (secs t) d S0 Fd Nz W1) as (s & Es & Hs). destruct (div_ok (nsecs t) d ltac:(lia) Fd Nz W2') as (n & En & Hn).
  destruct (span_of_parts _ _ s n Hs Hn W1 W2) as (E & r & R & Cr & Cl & Ex). exists r.
  unfold divided, to_int64, to_int32. rewrite Es, En, E. split; [exact R|]. split; [exact Cr|].
  assert (T0 : (inject_Z (total t) / number d == inject_Z (secs t) / number d * inject_Z 1000000000 + inject_Z (nsecs t) / number d)%Q) by (rewrite total_q; unfold Qdiv; ring).
  split; [unfold close, within in *; rewrite T0; exact Cl|]. intros I1 I2. rewrite T0. exact (Ex I1 I2).
Qed.
Print Assumptions C67_divided.

(* undefined: a factor that is infinite or not a number, a divisor of zero or not a number *)
Theorem C67_undefined :
  forall t d, (finite d \/ times t d = UB) /\ (number d == 0 -> finite d -> divided t d = UB)%Q /\ divided t S754_nan = UB.
Proof.
  intros t d. split; [|split].
  - destruct d as [z|z| |s m e]; [left; exact I| | |left; exact I]; right; unfold times, to_int64, dmul; destruct (of_int (secs t)); reflexivity.
  - intros E Fd. destruct d as [z|z| |s m e]; try contradiction.
    + unfold divided, to_int64, ddiv. destruct (of_int (secs t)); reflexivity.
    + exfalso. rewrite number_ok in E. unfold Qeq in E. cbn [Qnum Qden] in E. pose proof (up_pos e). destruct s; nia.
  - unfold divided, to_int64, ddiv. destruct (of_int (secs t)); reflexivity.
Qed.
Print Assumptions C67_undefined.

(* What does not hold. One and two are the doubles 1 and 2. A second divided by two is nothing, half an hour and a second
   times a half is half a second short; a shorter span can be longer after the division than a longer one; and three times
   a bit less than a second is undefined *)
Definition two : double := S754_finite false 4503599627370496 (-51).
Definition half : double := S754_finite false 4503599627370496 (-53).
Definition three : double := S754_finite false 6755399441055744 (-51).
Theorem C67_scaling_refuted :
  (number two == 2 # 1)%Q /\ (number half == 1 # 2)%Q /\ (number three == 3 # 1)%Q /\
  divided (T 1 0) two = Ok (T 0 0) /\ times (T 1801 0) half = Ok (T 900 0) /\
  (exists a b a' b', lt a b = true /\ divided a two = Ok a' /\ divided b two = Ok b' /\ lt b' a' = true) /\
  times (T 0 999999999) three = UB.
Proof.
  split; [vm_compute; reflexivity|]. split; [vm_compute; reflexivity|]. split; [vm_compute; reflexivity|]. split; [vm_compute; reflexivity|].
  split; [vm_compute; reflexivity|]. split; [|vm_compute; reflexivity].
  exists (T 0 999999999), (T 1 0), (T 0 499999999), (T 0 0). repeat split; vm_compute; reflexivity.
Qed.
Print Assumptions C67_scaling_refuted.

(* 10.4 s * 2, 10.4 s / 2; 10.4 s / 3, where nothing is whole; factors of a tenth (the double next to it) *)
Definition tenth : double := S754_finite false 7205759403792794 (-56).
Example C67_nonvacuous :
  times (T 10 400000000) two = Ok (T 20 800000000) /\ divided (T 10 400000000) two = Ok (T 5 200000000) /\
  divided (T 10 400000000) three = Ok (T 3 133333333) /\ times (T (-10) (-400000000)) tenth = Ok (T (-1) (-40000000)) /\
  within (inject_Z 10 * number two) (2^52) /\ within (inject_Z 400000000 * number two) (2^31 - 1) /\
  within (inject_Z (-10) * number tenth) (2^52) /\ within (inject_Z (-400000000) * number tenth) (2^31 - 1).
Proof. repeat split; vm_compute; reflexivity. Qed.
