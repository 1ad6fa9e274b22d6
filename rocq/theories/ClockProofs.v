From Verif Require Import Base BaseLemmas CInt TimeModel TimeSpec TimeProofs PeriodSpec PeriodProofs ClockModel ClockSpec.
From Coq Require Import Znumtheory.
Local Open Scope Z_scope.

Lemma clock_read sys c : 0 <= c < 2^62 * 1000000000 ->
  exists s n, gettimeofday sys c = (s, n) /\ 0 <= s < 2^62 /\ 0 <= n < 1000000000 /\ s * 1000000000 + n <= c < s * 1000000000 + n + resolution sys.
Proof.
  intros H. pose proof (Z.mod_pos_bound c 1000000000 ltac:(lia)) as M. pose proof (Z.div_mod c 1000000000 ltac:(lia)) as D.
  assert (Q : 0 <= c / 1000000000 < 2^62) by (split; [apply Z.div_pos; lia|apply Z.div_lt_upper_bound; lia]).
  set (m := c mod 1000000000) in *. set (q := c / 1000000000) in *.
  assert (G : forall k, 0 < k -> (k | 1000000000) -> 0 <= m / k * k < 1000000000 /\ q * 1000000000 + m / k * k <= c < q * 1000000000 + m / k * k + k).
  { intros k K _. pose proof (Z.mod_pos_bound m k K) as Mk. pose proof (Z.div_mod m k ltac:(lia)) as Dk. assert (0 <= m / k) by (apply Z.div_pos; lia). nia. }
  destruct sys; cbn [gettimeofday resolution]; fold m q.
  - destruct (G 1000 ltac:(lia)) as [G1 G2]; [exists 1000000; reflexivity|]. eexists _, _. split; [reflexivity|]. split; [exact Q|]. split; [exact G1|exact G2].
  - destruct (G 1000 ltac:(lia)) as [G1 G2]; [exists 1000000; reflexivity|]. eexists _, _. split; [reflexivity|]. split; [exact Q|]. split; [exact G1|exact G2].
  - destruct (G 1000000 ltac:(lia)) as [G1 G2]; [exists 1000; reflexivity|]. eexists _, _. split; [reflexivity|]. split; [exact Q|]. split; [exact G1|exact G2].
Qed.
Lemma timespec_ok s n : 0 <= s < 2^63 -> 0 <= n < 1000000000 -> from_timespec s n = Ok (T s n).
Proof.
  intros A B. unfold from_timespec. rewrite to_i32_id by (apply in_i32_iff; lia).
  apply (normalize_id (T s n)). unfold canonical. cbn. split; [apply in_i64_iff; rewrite p63 in A; lia|]. lia.
Qed.
Lemma now_ok sys c : 0 <= c < 2^62 * 1000000000 ->
  exists t, now sys c = Ok t /\ canonical t /\ 0 <= secs t < 2^62 /\ total t <= c < total t + resolution sys.
Proof.
  intros H. destruct (clock_read sys c H) as (s & n & E & A & B & R). unfold now. rewrite E. cbn [fst snd].
  rewrite timespec_ok by lia. exists (T s n). split; [reflexivity|]. split; [|split; [exact A|exact R]].
  unfold canonical. cbn. split; [apply in_i64_iff; lia|]. lia.
Qed.
Lemma future_ok sys c ms : 0 <= c < 2^62 * 1000000000 -> 0 <= ms < 2^62 * 1000 ->
  exists t n, now sys c = Ok n /\ futureMSec sys c ms = Ok t /\ canonical t /\ total t = total n + ms * 1000000.
Proof.
  intros H M. destruct (now_ok sys c H) as (n & E & C0 & S0 & _). unfold futureMSec.
  pose proof (Z.mod_pos_bound ms 1000 ltac:(lia)) as B. pose proof (Z.div_mod ms 1000 ltac:(lia)) as D.
  assert (Q : 0 <= ms / 1000 < 2^62) by (split; [apply Z.div_pos; lia|apply Z.div_lt_upper_bound; lia]).
  unfold make_stamp, to_u32. rewrite Z.mod_small by lia. rewrite to_i64_id by (apply in_i64_iff; lia). rewrite to_i32_id by (apply in_i32_iff; lia).
  assert (Cr : canonical (T (ms / 1000) (ms mod 1000 * 1000000))).
  { unfold canonical. cbn. split; [apply in_i64_iff; lia|]. lia. }
  pose proof (normalize_id _ Cr) as Nr. cbn [secs nsecs] in Nr. rewrite Nr. cbn [bind]. rewrite E. cbn [bind].
  destruct (add_ok _ _ Cr C0) as (t & A1 & A2 & A3); [apply in_i64_iff; cbn; lia|..].
  - unfold representable, total in *. unfold canonical in C0. cbn. lia.
  - exists t, n. split; [reflexivity|]. split; [exact A1|]. split; [exact A2|]. rewrite A3. unfold total. cbn. lia.
Qed.

(* boost *)
Lemma ptime_value us : in_i64 (us * 1000) = true ->
  exists t, stamp_of_ptime us = Ok t /\ canonical t /\ total t = Z.quot us 1000000 * 1000000000 + to_i32 (us * 1000).
Proof.
  intros H. unfold stamp_of_ptime. rewrite chk64_Ok by exact H. cbn [bind]. apply in_i64_iff in H.
  assert (Q : -9223372036854 <= Z.quot us 1000000 <= 9223372036854).
  { pose proof (Z.quot_rem us 1000000 ltac:(lia)). pose proof (Z.rem_bound_abs us 1000000 ltac:(lia)). lia. }
  assert (R : -2147483648 <= to_i32 (us * 1000) < 2147483648).
  { unfold to_i32. pose proof (Z.mod_pos_bound (us * 1000 + 2^31) (2^32) ltac:(lia)). lia. }
  destruct (normalize_ok (Z.quot us 1000000) (to_i32 (us * 1000))) as (t & A & B & D); [apply in_i64_iff; lia|apply in_i32_iff; lia|unfold representable; rewrite p63; lia|].
  exists t. split; [exact A|]. split; [exact B|exact D].
Qed.
Lemma ptime_exact us : to_i32 (us * 1000) = Z.rem us 1000000 * 1000 <-> (2^23 | Z.quot us 1000000).
Proof.
  pose proof (Z.quot_rem us 1000000 ltac:(lia)) as E. pose proof (Z.rem_bound_abs us 1000000 ltac:(lia)) as B.
  set (q := Z.quot us 1000000) in *. set (r := Z.rem us 1000000) in *.
  assert (X : us * 1000 = q * 1000000000 + r * 1000) by lia. rewrite X. unfold to_i32. split.
  - intros Y. assert (Z0 : (2^32 | q * 1000000000)).
    { exists ((q * 1000000000 + r * 1000 + 2^31) / 2^32). pose proof (Z.div_mod (q * 1000000000 + r * 1000 + 2^31) (2^32) ltac:(lia)). lia. }
    assert (Z1 : (2^23 | 1953125 * q)). { destruct Z0 as [k K]. exists k. lia. }
    apply (Gauss (2^23) 1953125 q Z1). apply bezout_rel_prime. apply (Bezout_intro _ _ _ (-711228) 3054701). reflexivity.
  - intros [k K]. replace (q * 1000000000 + r * 1000 + 2^31) with (r * 1000 + 2^31 + k * 1953125 * 2^32) by lia.
    rewrite Z.mod_add by lia. rewrite Z.mod_small by lia. lia.
Qed.

(* sleeping *)
Lemma win_nanosleep s n : request s n -> s < 2^53 ->
  nanosleep Windows s n =
    Ok (if s * 1000000000 + n <=? 1000000 then Slept (to_u32 (s * 1000 + n / 1000000) * 1000000) (Some 0) (Some (0, 0))
        else Slept (to_u32 (s * 1000 + n / 1000000) * 1000000) (Some (-1)) (Some (s, n))).
Proof.
  intros [A B] L. cbn [nanosleep]. rewrite timespec_ok by lia. cbn [bind]. rewrite chk64_Ok by (apply in_i64_iff; lia). cbn [bind].
  rewrite Z.quot_div_nonneg by lia. assert (D : 0 <= n / 1000000 < 1000) by (split; [apply Z.div_pos; lia|apply Z.div_lt_upper_bound; lia]).
  rewrite chk64_Ok by (apply in_i64_iff; lia). cbn [bind]. change (stamp_diff (T 0 0) (T 0 0)) with (Ok (T 0 0)). cbn [bind].
  change (make_span 0 1000000) with (Ok (T 0 1000000)). cbn [bind]. change (add (T 0 0) (T 0 1000000)) with (Ok (T 0 1000000)). cbn [bind].
  replace (1000 * s + n / 1000000) with (s * 1000 + n / 1000000) by lia.
  assert (G : ge (T 0 1000000) (T s n) = (s * 1000000000 + n <=? 1000000)).
  { unfold ge. cbn [secs nsecs]. destruct (Z.eqb_spec 0 s); [subst s; rewrite Z.mul_0_l; reflexivity|]. destruct (Z.ltb_spec s 0); [lia|]. symmetry. apply Z.leb_gt. lia. }
  rewrite G. destruct (s * 1000000000 + n <=? 1000000); [reflexivity|].
  assert (C0 : canonical (T s n)) by (unfold canonical; cbn; split; [apply in_i64_iff; lia|lia]).
  unfold sub. cbn [secs nsecs]. rewrite !Z.sub_0_r. rewrite chk64_Ok by apply C0. cbn [bind]. rewrite chk32_Ok by (apply in_i32_iff; lia). cbn [bind].
  pose proof (normalize_id _ C0) as Nr. cbn [secs nsecs] in Nr. rewrite Nr. reflexivity.
Qed.
Lemma win_sleep_all s n k : request s n -> s < 2^53 -> 1000000 < s * 1000000000 + n ->
  exists t, sleep_all k Windows s n = Ok (t, Some (s, n)).
Proof.
  intros R L N. induction k as [|k [t IH]]; [exists 0; reflexivity|]. cbn [sleep_all]. rewrite win_nanosleep by assumption. cbn [bind].
  destruct (Z.leb_spec (s * 1000000000 + n) 1000000); [lia|]. cbn [answer remaining asked]. rewrite IH. cbn [bind fst snd]. eexists. reflexivity.
Qed.
