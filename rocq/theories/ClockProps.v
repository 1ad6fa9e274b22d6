(* Property C66: the clock, times of boost, sleeping. *)
From Verif Require Import Base CInt TimeModel TimeSpec TimeProofs ClockModel ClockSpec ClockProofs.
Local Open Scope Z_scope.

(* now() and fromNow() give the time of the system's clock, rounded down to its resolution *)
Theorem C66_now :
  forall sys clock, 0 <= clock < 2^62 * 1000000000 ->
  exists t, now sys clock = Ok t /\ canonical t /\ total t <= clock < total t + resolution sys.
Proof. intros sys clock H. destruct (now_ok sys clock H) as (t & A & B & _ & D). exists t. split; [exact A|]. split; [exact B|exact D]. Qed.
Print Assumptions C66_now.

(* later readings are not earlier *)
Theorem C66_now_monotone :
  forall sys c1 c2 t1 t2, 0 <= c1 <= c2 -> c2 < 2^62 * 1000000000 -> now sys c1 = Ok t1 -> now sys c2 = Ok t2 -> le t1 t2 = true.
Proof.
  intros sys c1 c2 t1 t2 H L A B.
  assert (G : forall c, 0 <= c -> c < 2^62 * 1000000000 -> forall t, now sys c = Ok t -> secs t = c / 1000000000 /\ nsecs t = c mod 1000000000 / resolution sys * resolution sys).
  { intros c Hc Lc t E. unfold now in E. destruct (clock_read sys c ltac:(lia)) as (s & n & R & Hs & Hn & _). rewrite R in E. cbn [fst snd] in E.
    rewrite timespec_ok in E by lia. injection E as <-. cbn [secs nsecs]. destruct sys; cbn [gettimeofday resolution] in *; injection R as <- <-; split; reflexivity. }
  destruct (G c1 ltac:(lia) ltac:(lia) t1 A) as [S1 N1]. destruct (G c2 ltac:(lia) ltac:(lia) t2 B) as [S2 N2]. unfold le. rewrite S1, S2, N1, N2.
  pose proof (Z.div_le_mono c1 c2 1000000000 ltac:(lia) ltac:(lia)) as D.
  destruct (Z.eqb_spec (c1 / 1000000000) (c2 / 1000000000)) as [E|E]; [|apply Z.ltb_lt; lia]. apply Z.leb_le.
  pose proof (Z.div_mod c1 1000000000 ltac:(lia)). pose proof (Z.div_mod c2 1000000000 ltac:(lia)).
  assert (K : 0 < resolution sys) by (destruct sys; cbn; lia). apply Z.mul_le_mono_nonneg_r; [lia|]. apply Z.div_le_mono; lia.
Qed.
Print Assumptions C66_now_monotone.

(* futureMSec(m) is m milliseconds after now() *)
Theorem C66_future :
  forall sys clock ms, 0 <= clock < 2^62 * 1000000000 -> 0 <= ms < 2^62 * 1000 ->
  exists t n, now sys clock = Ok n /\ futureMSec sys clock ms = Ok t /\ canonical t /\ total t = total n + ms * 1000000.
Proof. exact future_ok. Qed.
Print Assumptions C66_future.

(* a time stamp made from a boost time, given in microseconds: right exactly in every 2^23rd second, and wrong by up to
   3.15 seconds otherwise *)
Theorem C66_boost_time :
  forall us, - 2^63 <= us * 1000 < 2^63 ->
  exists t, stamp_of_ptime us = Ok t /\ canonical t /\
  (total t = us * 1000 <-> exists k, Z.quot us 1000000 = k * 2^23) /\
  Z.abs (total t - us * 1000) <= 2^31 + 1000000000.
Proof.
  intros us H. destruct (ptime_value us) as (t & A & B & D); [apply in_i64_iff; rewrite p63 in H; lia|]. exists t. split; [exact A|]. split; [exact B|].
  pose proof (Z.quot_rem us 1000000 ltac:(lia)) as E. pose proof (Z.rem_bound_abs us 1000000 ltac:(lia)) as R. split.
  - rewrite D. transitivity (to_i32 (us * 1000) = Z.rem us 1000000 * 1000); [split; intros; lia|]. apply ptime_exact.
  - rewrite D. unfold to_i32. pose proof (Z.mod_pos_bound (us * 1000 + 2^31) (2^32) ltac:(lia)). lia.
Qed.
Print Assumptions C66_boost_time.
Theorem C66_boost_time_refuted :
  exists t, stamp_of_ptime (1577836800 * 1000000 + 500000) = Ok t /\ total t = 1577836799 * 1000000000 + 317861632.
Proof. eexists. split; vm_compute; reflexivity. Qed.
Print Assumptions C66_boost_time_refuted.

(* sleeping as long as asked for: everything on Linux; the rest within ranges *)
Theorem C66_sleep_times :
  (forall s n, request s n -> exists r, nanosleep Linux s n = Ok r /\ asked r = s * 1000000000 + n) /\
  (forall s n, request s n -> s * 1000 + n / 1000000 < 2^32 ->
     exists r, nanosleep Windows s n = Ok r /\ asked r <= s * 1000000000 + n < asked r + 1000000) /\
  (forall sys s, 0 <= s <= (match sys with Linux => 2^32 - 1 | Rtai => 4 | Windows => 4294967 end) ->
     exists r, sleep sys s = Ok r /\ asked r = s * 1000000000) /\
  (forall sys us, 0 <= us < 2^32 -> exists r, usleep sys us = Ok r /\ asked r <= us * 1000 < asked r + resolution sys).
Proof.
  split; [|split; [|split]].
  - intros s n _. eexists. split; reflexivity.
  - intros s n R L. destruct R as [A B]. pose proof (Z.div_mod n 1000000 ltac:(lia)) as D. pose proof (Z.mod_pos_bound n 1000000 ltac:(lia)) as M. assert (Q : 0 <= n / 1000000) by (apply Z.div_pos; lia).
    rewrite win_nanosleep; [|split; assumption|lia]. destruct (s * 1000000000 + n <=? 1000000); eexists; (split; [reflexivity|]); cbn [asked]; unfold to_u32; rewrite Z.mod_small by lia; lia.
  - intros sys s H. destruct sys; cbn [sleep]; [eexists; split; reflexivity| |].
    + eexists. split; [reflexivity|]. cbn [asked]. unfold to_u32. rewrite Z.mod_small by lia. lia.
    + change (stamp_diff (T 0 0) (T 0 0)) with (Ok (T 0 0)). cbn [bind]. eexists. split; [reflexivity|]. cbn [asked]. unfold to_u32. rewrite Z.mod_small by lia. lia.
  - intros sys us H. destruct sys; cbn [usleep].
    + eexists. split; [reflexivity|]. cbn. lia.
    + eexists. split; [reflexivity|]. cbn [asked resolution]. unfold to_u64. rewrite Z.mod_small by lia. rewrite to_i64_id by (apply in_i64_iff; lia). lia.
    + change (stamp_diff (T 0 0) (T 0 0)) with (Ok (T 0 0)). cbn [bind]. change (to_usec (T 0 0)) with (Ok 0). cbn [bind]. eexists. split; [reflexivity|].
      cbn [asked resolution]. pose proof (Z.div_mod us 1000 ltac:(lia)). pose proof (Z.mod_pos_bound us 1000 ltac:(lia)). lia.
Qed.
Print Assumptions C66_sleep_times.

(* What does not hold: on Windows, every nanosleep of more than a millisecond reports failure with all of the time remaining, so
   that a loop that sleeps for the rest never ends; every sleep() of at least a second answers with a huge number of seconds
   left, every usleep() of more than a millisecond with a failure *)
Theorem C66_windows_answer_refuted :
  (forall s n, request s n -> s < 2^53 -> 1000000 < s * 1000000000 + n ->
     exists r, nanosleep Windows s n = Ok r /\ answer r = Some (-1) /\ remaining r = Some (s, n)) /\
  (forall s n k, request s n -> s < 2^53 -> 1000000 < s * 1000000000 + n -> exists t, sleep_all k Windows s n = Ok (t, Some (s, n))) /\
  (forall s, 0 < s < 2^32 -> exists r, sleep Windows s = Ok r /\ answer r = Some (2^32 - s)) /\
  (forall us, 1000 < us < 2^32 -> exists r, usleep Windows us = Ok r /\ answer r = Some (-1)).
Proof.
  split; [|split; [|split]].
  - intros s n R L N. rewrite win_nanosleep by assumption. destruct (Z.leb_spec (s * 1000000000 + n) 1000000); [lia|]. eexists. split; [reflexivity|]. split; reflexivity.
  - intros s n k. apply win_sleep_all.
  - intros s H. cbn [sleep]. change (stamp_diff (T 0 0) (T 0 0)) with (Ok (T 0 0)). cbn [bind secs]. eexists. split; [reflexivity|]. cbn [answer].
    destruct (Z.leb_spec s 0); [lia|]. f_equal. unfold to_u32. rewrite <- (Z.mod_add _ 1) by lia. rewrite Z.mod_small by lia. lia.
  - intros us H. cbn [usleep]. change (stamp_diff (T 0 0) (T 0 0)) with (Ok (T 0 0)). cbn [bind]. change (to_usec (T 0 0)) with (Ok 0). cbn [bind]. eexists. split; [reflexivity|].
    cbn [answer]. destruct (Z.leb_spec us (0 + 1000)); [lia|reflexivity].
Qed.
Print Assumptions C66_windows_answer_refuted.
(* RTAI: nanosleep counts the seconds as milliseconds, whatever is asked for *)
Theorem C66_rtai_nanosleep_refuted : forall s n, request s n -> s < 9223372000000 ->
  exists r, nanosleep Rtai s n = Ok r /\ asked r = s * 1000000 + n /\ answer r = Some 0 /\ remaining r = Some (0, 0).
Proof.
  intros s n (H1 & H2) H3. cbn [nanosleep]. unfold chk64.
  assert (A : in_i64 (1000000 * s) = true) by (unfold in_i64; apply andb_true_intro; split; [apply Z.leb_le|apply Z.ltb_lt]; lia).
  assert (B : in_i64 (1000000 * s + n) = true) by (unfold in_i64; apply andb_true_intro; split; [apply Z.leb_le|apply Z.ltb_lt]; lia).
  rewrite A. cbn [bind]. rewrite B. cbn [bind]. eexists. split; [reflexivity|]. cbn [asked answer remaining]. split; [lia|]. split; reflexivity.
Qed.
Print Assumptions C66_rtai_nanosleep_refuted.
(* RTAI: nanosleep takes a second for a millisecond, sleep(5) sleeps 0.7 seconds; Windows: sleep(4294968) sleeps 0.7 seconds *)
Theorem C66_sleep_too_short_refuted :
  (exists r, nanosleep Rtai 1 0 = Ok r /\ asked r = 1000000) /\ (exists r, sleep Rtai 5 = Ok r /\ asked r = 705032704) /\
  (exists r, sleep Windows 4294968 = Ok r /\ asked r = 704000000).
Proof. split; [|split]; eexists; split; vm_compute; reflexivity. Qed.
Print Assumptions C66_sleep_too_short_refuted.

Example C66_nonvacuous :
  now Linux 1577836800123456789 = Ok (T 1577836800 123456000) /\ now Windows 1577836800123456789 = Ok (T 1577836800 123000000) /\
  futureMSec Linux 1577836800123456789 1900 = Ok (T 1577836802 23456000) /\
  stamp_of_ptime (188 * 8388608 * 1000000 + 250000) = Ok (T (188 * 8388608) 250000000) /\
  nanosleep Windows 2 500000000 = Ok (Slept 2500000000 (Some (-1)) (Some (2, 500000000))).
Proof. repeat split; vm_compute; reflexivity. Qed.
