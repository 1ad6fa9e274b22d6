From Verif Require Import Base BaseLemmas CInt TimeModel TimeSpec TimeProofs PeriodModel WireModel WireSpec.
Local Open Scope Z_scope.

Ltac pw := unfold to_i64, to_u64, to_i32, to_u32; rewrite ?p63, ?p64, ?p31, ?p32.

Lemma i64_u64 z : in_i64 z = true -> to_i64 (to_u64 z) = z.
Proof. intros H. apply in_i64_iff in H. pw. Z.to_euclidean_division_equations; lia. Qed.
Lemma i32_u32 z : in_i32 z = true -> to_i32 (to_u32 z) = z.
Proof. intros H. apply in_i32_iff in H. pw. Z.to_euclidean_division_equations; lia. Qed.
Lemma u32_range z : 0 <= to_u32 z < 4294967296. Proof. pw. apply Z.mod_pos_bound. lia. Qed.
Lemma u64_range z : 0 <= to_u64 z < 18446744073709551616. Proof. pw. apply Z.mod_pos_bound. lia. Qed.
Lemma i32_range z : -2147483648 <= to_i32 z < 2147483648.
Proof. pw. pose proof (Z.mod_pos_bound (z + 2147483648) 4294967296). lia. Qed.
Lemma i64_range z : -9223372036854775808 <= to_i64 z < 9223372036854775808.
Proof. pw. pose proof (Z.mod_pos_bound (z + 9223372036854775808) 18446744073709551616). lia. Qed.
Lemma u64_id z : 0 <= z < 9223372036854775808 -> to_u64 z = z.
Proof. intros H. pw. apply Z.mod_small. lia. Qed.
Lemma u32_id z : 0 <= z < 4294967296 -> to_u32 z = z.
Proof. intros H. pw. apply Z.mod_small. lia. Qed.
Lemma i32_step z : exists k, to_i32 z = z - k * 4294967296.
Proof. exists ((z + 2147483648) / 4294967296). pw. pose proof (Z.div_mod (z + 2147483648) 4294967296). lia. Qed.

Lemma msg_round t : canonical t ->
  is_stamp_msg (stamp_to_msg t) /\ stamp_of_msg (stamp_to_msg t) = Ok t /\ stamp_assign_msg (stamp_to_msg t) = t.
Proof.
  intros Ct. pose proof Ct as (C64 & _). pose proof (canonical_i32 t Ct) as C32.
  unfold stamp_of_msg, stamp_assign_msg, stamp_to_msg, is_stamp_msg. cbn [w_sec w_nsec].
  rewrite (i64_u64 _ C64), (i32_u32 _ C32). split; [split; [apply u64_range|apply u32_range]|].
  split; [apply normalize_id; exact Ct|destruct t; reflexivity].
Qed.
Lemma nonneg_fields t : canonical t -> 0 <= total t -> 0 <= secs t < 9223372036854775808 /\ 0 <= nsecs t < 1000000000.
Proof. intros (C64 & Cn & Cp & Cm) H. apply in_i64_iff in C64. unfold total in H. lia. Qed.
Lemma msg_value t : canonical t -> (reads (stamp_to_msg t) = total t <-> 0 <= total t).
Proof.
  intros Ct. split.
  - intros E. unfold reads, stamp_to_msg in E. cbn [w_sec w_nsec] in E. pose proof (u64_range (secs t)). pose proof (u32_range (nsecs t)). lia.
  - intros H. destruct (nonneg_fields t Ct H). unfold reads, stamp_to_msg. cbn [w_sec w_nsec].
    rewrite u64_id, u32_id by lia. reflexivity.
Qed.
Lemma msg_receive w : is_stamp_msg w -> w_sec w < 9223372036854775808 -> w_nsec w < 2147483648 -> reads w < 9223372036854775808000000000 ->
  exists t, stamp_of_msg w = Ok t /\ canonical t /\ total t = reads w /\ total (stamp_assign_msg w) = reads w.
Proof.
  intros (H1 & H2) Hs Hn Hr. unfold stamp_of_msg, stamp_assign_msg. rewrite to_i64_id, to_i32_id by (try apply in_i64_iff; try apply in_i32_iff; lia).
  destruct (normalize_ok (w_sec w) (w_nsec w)) as (t & E & Ct & Et).
  - apply in_i64_iff. lia.
  - apply in_i32_iff. lia.
  - unfold representable, reads in *. rewrite p63. lia.
  - exists t. split; [exact E|]. split; [exact Ct|]. unfold total, reads in *. cbn [secs nsecs]. lia.
Qed.
Lemma msg_assign_same w : is_stamp_msg w -> w_sec w < 9223372036854775808 -> w_nsec w < 2147483648 ->
  (stamp_of_msg w = Ok (stamp_assign_msg w) <-> w_nsec w < 1000000000).
Proof.
  intros (H1 & H2) Hs Hn. unfold stamp_of_msg, stamp_assign_msg. rewrite to_i64_id, to_i32_id by (try apply in_i64_iff; try apply in_i32_iff; lia).
  split.
  - intros E. apply normalize_Ok_inv in E; [|apply in_i64_iff; lia|apply in_i32_iff; lia]. destruct E as ((_ & C & _) & _). cbn in C. lia.
  - intros H. apply (normalize_id (T (w_sec w) (w_nsec w))). unfold canonical. cbn [secs nsecs].
    rewrite in_i64_iff. lia.
Qed.
Lemma msg_high w : is_stamp_msg w -> w_sec w < 9223372036854775808 -> 2147483648 <= w_nsec w ->
  exists t, stamp_of_msg w = Ok t /\ canonical t /\ total t = reads w - 4294967296.
Proof.
  intros (H1 & H2) Hs Hn. unfold stamp_of_msg. rewrite to_i64_id by (apply in_i64_iff; lia).
  assert (E32 : to_i32 (w_nsec w) = w_nsec w - 4294967296) by (pw; Z.to_euclidean_division_equations; lia).
  rewrite E32. destruct (normalize_ok (w_sec w) (w_nsec w - 4294967296)) as (t & E & Ct & Et).
  - apply in_i64_iff. lia.
  - apply in_i32_iff. lia.
  - unfold representable. rewrite p63. lia.
  - exists t. split; [exact E|]. split; [exact Ct|]. unfold reads. lia.
Qed.

Lemma span_round t : canonical t ->
  is_span_msg (span_to_msg t) /\ reads (span_to_msg t) = total t /\
  span_of_msg (span_to_msg t) = Ok t /\ span_assign_msg (span_to_msg t) = t.
Proof.
  intros Ct. pose proof Ct as (C64 & _). pose proof (canonical_i32 t Ct) as C32. apply in_i64_iff in C64. apply in_i32_iff in C32.
  unfold is_span_msg, reads, span_of_msg, span_assign_msg, span_to_msg. cbn [w_sec w_nsec].
  split; [lia|]. split; [reflexivity|]. split; [apply normalize_id; exact Ct|destruct t; reflexivity].
Qed.
Lemma span_receive w : is_span_msg w ->
  (forall t, span_of_msg w = Ok t -> canonical t /\ total t = reads w) /\
  total (span_assign_msg w) = reads w /\
  (span_of_msg w = Ok (span_assign_msg w) <-> canonical (span_assign_msg w)).
Proof.
  intros (H1 & H2). unfold span_of_msg, span_assign_msg. split; [|split].
  - intros t E. apply normalize_Ok_inv in E; [|apply in_i64_iff; lia|apply in_i32_iff; lia]. destruct E as (C1 & C2).
    split; [exact C1|exact C2].
  - reflexivity.
  - split.
    + intros E. apply normalize_Ok_inv in E; [|apply in_i64_iff; lia|apply in_i32_iff; lia]. apply E.
    + intros Ct. apply (normalize_id (T (w_sec w) (w_nsec w))). exact Ct.
Qed.

Lemma dds_small s n : -2147483648 <= s < 2147483648 -> -2147483648 <= n < 2147483648 ->
  exists t, normalize s n = Ok t /\ canonical t /\ total t = s * 1000000000 + n.
Proof.
  intros Hs Hn. destruct (normalize_ok s n) as (t & E & Ct & Et).
  - apply in_i64_iff. lia.
  - apply in_i32_iff. lia.
  - unfold representable. rewrite p63. lia.
  - exists t. auto.
Qed.
Lemma dds_receive w : is_dds_time w -> exists t, stamp_of_dds w = Ok t /\ canonical t /\
  total t = reads w - (if w_nsec w <? 2147483648 then 0 else 4294967296).
Proof.
  intros (H1 & H2). unfold stamp_of_dds.
  assert (E32 : to_i32 (w_nsec w) = w_nsec w - (if w_nsec w <? 2147483648 then 0 else 4294967296)).
  { destruct (Z.ltb_spec (w_nsec w) 2147483648); pw; Z.to_euclidean_division_equations; lia. }
  destruct (dds_small (w_sec w) (to_i32 (w_nsec w)) H1 (i32_range _)) as (t & E & Ct & Et).
  exists t. split; [exact E|]. split; [exact Ct|]. unfold reads. lia.
Qed.
Lemma dds_assign w : is_dds_time w ->
  (forall t, stamp_of_dds w = Ok t -> total (stamp_assign_dds w) = total t) /\
  (stamp_of_dds w = Ok (stamp_assign_dds w) <-> canonical (stamp_assign_dds w)).
Proof.
  intros (H1 & H2). unfold stamp_of_dds, stamp_assign_dds.
  assert (A : in_i64 (w_sec w) = true) by (apply in_i64_iff; lia).
  assert (B : in_i32 (to_i32 (w_nsec w)) = true) by (apply in_i32_iff, i32_range).
  split; [|split].
  - intros t E. apply normalize_Ok_inv in E; [|exact A|exact B]. symmetry. apply E.
  - intros E. apply normalize_Ok_inv in E; [|exact A|exact B]. apply E.
  - intros Ct. exact (normalize_id _ Ct).
Qed.
Lemma dds_round t : canonical t ->
  is_dds_time (stamp_to_dds t) /\ exists u k, stamp_of_dds (stamp_to_dds t) = Ok u /\ canonical u /\
  total u = total t - k * 4294967296000000000 /\ (k = 0 <-> -2147483648 <= secs t < 2147483648).
Proof.
  intros Ct. pose proof (canonical_i32 t Ct) as C32.
  split; [split; [apply i32_range|apply u32_range]|].
  unfold stamp_of_dds, stamp_to_dds. cbn [w_sec w_nsec]. rewrite (i32_u32 _ C32). apply in_i32_iff in C32.
  destruct (dds_small (to_i32 (secs t)) (nsecs t) (i32_range _) C32) as (u & E & Cu & Et).
  destruct (i32_step (secs t)) as (k & Ek). exists u, k. split; [exact E|]. split; [exact Cu|].
  split; [unfold total at 2; rewrite Et, Ek; ring|].
  pose proof (i32_range (secs t)) as R. rewrite Ek in R. lia.
Qed.
Lemma dds_value t : canonical t -> 0 <= total t -> secs t < 2147483648 -> reads (stamp_to_dds t) = total t.
Proof.
  intros Ct H Hs. destruct (nonneg_fields t Ct H). unfold reads, stamp_to_dds. cbn [w_sec w_nsec].
  rewrite to_i32_id, u32_id by (try apply in_i32_iff; lia). reflexivity.
Qed.

Lemma mach_value t : canonical t ->
  (is_mach_time (mach_timespec t) /\ reads (mach_timespec t) = total t <-> 0 <= total t < 4294967296000000000).
Proof.
  intros Ct. unfold is_mach_time, reads, mach_timespec. cbn [w_sec w_nsec]. split.
  - intros ((H1 & H2) & E). rewrite <- E. lia.
  - intros H. destruct (nonneg_fields t Ct) as (H1 & H2); [lia|].
    rewrite u32_id by (unfold total in H; lia). unfold total in *. lia.
Qed.
Lemma darwin_stamp now t : canonical now -> canonical t -> in_i64 (secs t - secs now) = true ->
  total t - total now < 4294967296000000000 ->
  exists w, darwin_wait_stamp now t = Ok w /\ is_mach_time w /\ reads w = Z.max 0 (total t - total now).
Proof.
  intros Cn Ct D H. unfold darwin_wait_stamp, getRelativeTimeout.
  assert (L : lt t now = true <-> total t < total now) by (rewrite (proj1 (C10_lemma t now Ct Cn)); apply Z.ltb_lt).
  destruct (lt t now) eqn:El.
  - cbn [bind]. exists (W 0 0). split; [reflexivity|]. split; [unfold is_mach_time; cbn; lia|].
    destruct L as [L _]. specialize (L eq_refl). unfold reads. cbn [w_sec w_nsec]. lia.
  - assert (N : ~ total t < total now) by (intros Q; apply L in Q; discriminate Q).
    destruct (stamp_diff_ok t now Ct Cn D) as (d & E & Cd & Ed).
    { unfold representable. rewrite p63. lia. }
    rewrite E. cbn [bind]. exists (mach_timespec d). split; [reflexivity|].
    replace (Z.max 0 (total t - total now)) with (total d) by lia. apply mach_value; [exact Cd|lia].
Qed.
