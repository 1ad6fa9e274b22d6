(* C64: periodic threads with a timer descriptor. *)
From Verif Require Import Base CInt TimeModel TimeSpec PTimerModel PTimerSpec PTimerProofs.
Local Open Scope Z_scope.

(* at most one return of waitPeriod() in every period, and none in the first: the returns are in different, later and later periods *)
Theorem C64_one_per_period : forall max s t0 p l s' o, armed max s t0 p -> proper p -> runs max s l = Ok (s', o) -> undisturbed o ->
  increasing (0 :: map (periods_since t0 (total p)) (wakes o)).
Proof.
  intros max s t0 p l s' o A P E U. apply above_increasing. exact (proj1 (runs_timer max t0 (total p) l s s' o 0 E U (proj1 (armed_timer _ _ _ _ A) P))).
Qed.
Print Assumptions C64_one_per_period.

(* the k-th return is not before the k-th multiple of the period *)
Theorem C64_never_early : forall max s t0 p l s' o k t, armed max s t0 p -> proper p -> runs max s l = Ok (s', o) -> undisturbed o ->
  nth_error (wakes o) k = Some t -> t0 + (Z.of_nat k + 1) * total p <= t.
Proof.
  intros max s t0 p l s' o k t A P E U N.
  pose proof (proj1 (runs_timer max t0 (total p) l s s' o 0 E U (proj1 (armed_timer _ _ _ _ A) P))) as B.
  pose proof (above_nth _ 0 k (periods_since t0 (total p) t) B (map_nth_error _ _ _ N)) as D. unfold periods_since in D.
  destruct P as (_ & _ & P). assert (total p * ((t - t0) / total p) <= t - t0) by (apply Z.mul_div_le; exact P). nia.
Qed.
Print Assumptions C64_never_early.

(* a thread that waits goes on exactly when a period has ended since the last return *)
Theorem C64_wakes : forall max s t0 p l s' o t ops, armed max s t0 p -> proper p -> runs max s l = Ok (s', o) -> undisturbed o -> at_ s' = Reading ->
  exists s'', step max s' t (Step ops) =
    Ok (s'', if periods_since t0 (total p) (last (wakes o) t0) <? periods_since t0 (total p) t then [Woke true] else []).
Proof.
  intros max s t0 p l s' o t ops A P E U Rd.
  pose proof (proj2 (runs_timer max t0 (total p) l s s' o 0 E U (proj1 (armed_timer _ _ _ _ A) P))) as B.
  rewrite <- (since_self t0 (total p)) in B by (destruct P; lia). rewrite last_map in B. exact (reading_step max s' t0 (total p) _ t ops Rd B).
Qed.
Print Assumptions C64_wakes.

(* no drift: rounds that are short enough are on schedule for ever *)
Theorem C64_no_drift : forall max s t0 p l s' o w d, armed max s t0 p -> proper p -> runs max s l = Ok (s', o) -> undisturbed o ->
  0 <= d < total p -> w + d <= total p -> in_time t0 (total p) w d t0 (waits t0 o) -> on_schedule t0 (total p) d 1 (waits t0 o).
Proof.
  intros max s t0 p l s' o w d A P E U D W T.
  pose proof (proj1 (runs_timer max t0 (total p) l s s' o 0 E U (proj1 (armed_timer _ _ _ _ A) P))) as B.
  apply (schedule t0 (total p) w d (waits t0 o) ltac:(lia) D W 1 t0); [lia| |exact T].
  rewrite <- (waits_wakes o t0), map_map in B. exact B.
Qed.
Print Assumptions C64_no_drift.

(* every round runs all operations that were added, once each, in the order in which they were added; a wait between two rounds *)
Theorem C64_rounds : forall max al per l s o, runs max (new_thread al per) l = Ok (s, o) -> proper_rounds [] Idle o.
Proof. intros max al per l s o E. exact (runs_rounds max l _ s o Idle E eq_refl). Qed.
Print Assumptions C64_rounds.

(* after stop(): no new round, no new wait; what is run belongs to the current round *)
Theorem C64_stop : forall max s t s1 o1 l s2 o2, step max s t Stop = Ok (s1, o1) -> runs max s1 l = Ok (s2, o2) -> no_start l ->
  ~ occurs Begin o2 /\ ~ occurs Wait o2 /\ (count_wokes o2 <= 1)%nat /\ (ran o2 <> [] -> in_a_round s).
Proof.
  intros max s t s1 o1 l s2 o2 E1 E2 N. injection E1 as <- <-. destruct (runs_stopped max l (set_execute s false) s2 o2 E2 eq_refl N) as (_ & A & B & D & G).
  split; [exact A|]. split; [exact B|]. split; [unfold reading in D; destruct (at_ (set_execute s false)); lia|exact G].
Qed.
Print Assumptions C64_stop.

(* and the thread ends, unless it waits; then it ends when the wait does *)
Theorem C64_ends : forall max s t s1 o1 ts, step max s t Stop = Ok (s1, o1) -> at_ s <> Out -> at_ s <> Reading ->
  (length (m_dispatch_queue s) + 3 <= length ts)%nat ->
  exists s2 o2, runs max s1 (steps_at ts) = Ok (s2, o2) /\ occurs Finished o2 /\ at_ s2 = Out.
Proof.
  intros max s t s1 o1 ts E1 N1 N2 L. injection E1 as <- <-.
  destruct (ends_from max ts (set_execute s false) _ eq_refl N2 eq_refl) as (s2 & o2 & A & B & D).
  - cbn [at_ set_execute m_dispatch_queue]. destruct (at_ s); lia.
  - exists s2, o2. split; [exact A|]. split; [exact (D N1)|exact B].
Qed.
Print Assumptions C64_ends.
Theorem C64_ends_after_wait : forall max s t s1 o1 ops b ts, step max s t (Step ops) = Ok (s1, o1) -> In (Woke b) o1 -> m_execute s = false ->
  (1 <= length ts)%nat -> exists s2 o2, runs max s1 (steps_at ts) = Ok (s2, o2) /\ occurs Finished o2 /\ at_ s2 = Out.
Proof.
  intros max s t s1 o1 ops b ts E I0 X L.
  assert (A : at_ s1 = Cond /\ m_execute s1 = false).
  { cbn [step] in E. unfold act in E. destruct (at_ s) as [| | |i| |]; try (destruct (m_execute s); injection E as <- <-; destruct I0 as [I0|[]]; discriminate).
    - injection E as <- <-. destruct I0.
    - destruct (makePeriodic max s t). injection E as <- <-. destruct I0 as [I0|[]]; discriminate.
    - destruct (nth_error _ i); injection E as <- <-; destruct I0 as [I0|I0]; try discriminate; [|destruct I0].
      apply in_map_iff in I0. destruct I0 as (? & I0 & _). discriminate.
    - rewrite X in E. injection E as <- <-. destruct I0.
    - destruct (read s t) as [[[s2 c]|]| |] eqn:Rd; try discriminate; injection E as <- <-; [|destruct I0].
      destruct (read_same _ _ _ _ Rd) as [(_ & M & _) _]. cbn. split; [reflexivity|congruence]. }
  destruct A as [A1 A2]. destruct (ends_from max ts s1 1%nat A2 ltac:(congruence)) as (s2 & o2 & B & D & G); [rewrite A1; reflexivity|exact L|].
  exists s2, o2. split; [exact B|]. split; [apply G; congruence|exact D].
Qed.
Print Assumptions C64_ends_after_wait.

(* operations that are added before the start, none by other threads later: no undefined behaviour *)
Theorem C64_defined : forall max al per t ops l, Forall (fun te => forall o, snd te <> AddOp o) l ->
  exists r, runs max (new_thread al per) (map (fun o => (t, AddOp o)) ops ++ l) = Ok r.
Proof.
  intros max al per t ops l H. pose proof (adds_run max t ops (new_thread al per) eq_refl) as A.
  destruct (runs_defined max l _ (V_runs _ _ _ _ _ A (V_new al per)) H) as [[s2 o2] E]. eexists. exact (runs_app _ _ _ _ _ _ _ _ A E).
Qed.
Print Assumptions C64_defined.

(* with a free descriptor the start succeeds, and so does setPeriod() from then on *)
Theorem C64_period_is_set : forall max al per t0 ops t1 t2, (length al < max)%nat -> proper per ->
  exists s o, runs max (new_thread al per) (map (fun x => (t0, AddOp x)) ops ++ [(t1, Start); (t2, Step [])]) = Ok (s, o ++ [(t2, PeriodSet true)]) /\
    armed max s t2 per /\
    forall l s' o' t p, runs max s l = Ok (s', o') -> no_start l -> proper p ->
    exists s'', step max s' t (SetPeriod p) = Ok (s'', [PeriodSet true]) /\ m_period s'' = p.
Proof.
  intros max al per t0 ops t1 t2 L P. destruct (started max al per t0 ops t1 t2 L P) as (s & o & A & _ & W & B).
  exists s, o. split; [exact A|]. split; [exact B|]. intros l s' o' t p E N Pp. apply works_set; [|exact Pp]. exact (works_runs max l s s' o' E N W).
Qed.
Print Assumptions C64_period_is_set.

(* before the first start setPeriod() reports a failure, but the period is used *)
Theorem C64_set_before_start : forall max al per p t, exists s, step max (new_thread al per) t (SetPeriod p) = Ok (s, [PeriodSet false]) /\ s = new_thread al p.
Proof. intros max al per p t. eexists. split; reflexivity. Qed.
Print Assumptions C64_set_before_start.

(* timers that other threads have opened are left as they are *)
Theorem C64_other_timers : forall max al per l s o, runs max (new_thread al per) l = Ok (s, o) -> exists mine, timers s = al ++ mine.
Proof. intros max al per l s o E. refine (proj1 (oth_runs max al l _ _ _ _ E)). split; [exists []; symmetry; apply app_nil_r|exact I]. Qed.
Print Assumptions C64_other_timers.

(* setPeriod never uses a descriptor that has no value yet: it sets the timer only when timer_created *)
Theorem C64_no_garbage_descriptor : forall max al per l s o, runs max (new_thread al per) l = Ok (s, o) -> timer_created s = true -> timer_fd s <> NoValue.
Proof. intros max al per l s o E. refine (known_runs max l _ _ _ _ E). intros X. discriminate. Qed.
Print Assumptions C64_no_garbage_descriptor.

(* ---- what does not hold ---- *)
(* a period of zero: the timer is switched off, a wait never ends and so the destructor of the thread does not return *)
Theorem C64_zero_period_refuted : forall max s t0 p l s' o, armed max s t0 p -> canonical p -> total p = 0 ->
  runs max s l = Ok (s', o) -> undisturbed o -> no_signal l ->
  (forall b, ~ occurs (Woke b) o) /\ (at_ s = Reading \/ occurs Wait o -> at_ s' = Reading).
Proof.
  intros max s t0 p l s' o A Cp Zp E U N. exact (runs_zero max l s s' o E U N (proj2 (armed_timer _ _ _ _ A) Zp Cp)).
Qed.
Print Assumptions C64_zero_period_refuted.

(* a signal: waitPeriod() returns early *)
Theorem C64_signal_refuted : forall max s t, at_ s = Reading -> exists s1, step max s t Signal = Ok (s1, [Woke false]).
Proof. intros max s t P. cbn [step]. rewrite P. eexists. reflexivity. Qed.
Print Assumptions C64_signal_refuted.

(* a stopped thread keeps its descriptor; when they are used up a new start does not fail, but its waits do not wait *)
Theorem C64_descriptors_refuted : forall max al per t, (length al <= max)%nat ->
  exists s o, runs max (new_thread al per) (cycles (max - length al) t ++ [(t, Start); (t, Step []); (t, Step []); (t, Step []); (t, Step []); (t, Step [])]) =
    Ok (s, o ++ [(t, PeriodSet false); (t, Begin); (t, End); (t, Wait); (t, Woke false)]) /\ length (timers s) = max.
Proof.
  intros max al per t L. destruct (cycles_run max (max - length al) t (new_thread al per) eq_refl) as (s & o & A & B & D & E0).
  assert (Dm : length (timers s) = max) by (rewrite D; cbn [timers new_thread]; lia). clear D.
  assert (M : exists s2, makePeriodic max (set_at (set_execute s true) Making) t = (s2, false) /\ timer_fd s2 = Bad /\ m_dispatch_queue s2 = [] /\ m_execute s2 = true /\ timers s2 = timers s).
  { unfold makePeriodic, timerfd_create. cbn [timers set_at set_execute]. rewrite Dm, Nat.ltb_irrefl. cbv zeta. unfold setPeriod. cbv zeta.
    unfold timerfd_settime. cbn [timer_fd set_fd set_m_period set_at set_execute timer_created]. destruct (timer_created s); (eexists; split; [reflexivity|]; repeat split; exact E0). }
  destruct M as (s2 & M1 & M2 & M3 & M4 & M5). exists (set_at s2 Cond), o. split; [|cbn; rewrite M5; exact Dm].
  assert (G : runs max s [(t, Start); (t, Step []); (t, Step []); (t, Step []); (t, Step []); (t, Step [])] =
    Ok (set_at s2 Cond, [(t, PeriodSet false); (t, Begin); (t, End); (t, Wait); (t, Woke false)])).
  { cbn [runs step]. rewrite B. cbn [bind fst snd map app]. unfold act at 1. cbn [at_ set_at]. unfold set_at, set_execute in M1 |- *. cbn [timers m_period timer_created timer_fd m_dispatch_queue m_execute at_] in M1 |- *. rewrite M1. cbn [bind fst snd map app].
    unfold act at 1. cbn [at_ m_execute]. rewrite M4. cbn [bind fst snd map app timers m_period timer_created timer_fd m_dispatch_queue m_execute at_].
    unfold act at 1. cbn [at_ m_dispatch_queue]. rewrite M3. cbn [nth_error bind fst snd map app timers m_period timer_created timer_fd m_dispatch_queue m_execute at_]. unfold act at 1. cbn [at_ m_execute bind fst snd map app timers m_period timer_created timer_fd m_dispatch_queue].
    unfold act, read. cbn [at_ timer_fd]. rewrite M2. cbn [bind fst snd map app]. unfold set_at. cbn [timers m_period timer_created timer_fd m_dispatch_queue m_execute]. reflexivity. }
  exact (runs_app _ _ _ _ _ _ _ _ A G).
Qed.
Print Assumptions C64_descriptors_refuted.

(* seconds are cut to 32 bits: a long period may be a short one, and a negative one is accepted as a long one *)
Theorem C64_long_period_refuted : exists max p l s o, secs p = 2 ^ 32 + 1 /\ nsecs p = 0 /\
  runs max (new_thread [] p) l = Ok (s, o) /\ In (0, PeriodSet true) o /\ wakes o = [1000000000].
Proof.
  exists 5%nat, (T (2 ^ 32 + 1) 0), [(0, Start); (0, Step []); (0, Step []); (0, Step []); (0, Step []); (1000000000, Step [])].
  eexists _, _. split; [reflexivity|]. split; [reflexivity|]. split; [vm_compute; reflexivity|]. split; [left; reflexivity|reflexivity].
Qed.
Print Assumptions C64_long_period_refuted.
Theorem C64_negative_period_refuted : exists max p l s o, secs p = -1 /\ nsecs p = 0 /\
  runs max (new_thread [] p) l = Ok (s, o) /\ o = [(0, PeriodSet true)].
Proof.
  exists 5%nat, (T (-1) 0), [(0, Start); (0, Step [])]. eexists _, _. split; [reflexivity|]. split; [reflexivity|]. split; [vm_compute; reflexivity|reflexivity].
Qed.
Print Assumptions C64_negative_period_refuted.

(* an operation is added by another thread while the thread runs: a data race on the list *)
Theorem C64_add_while_running_refuted : forall max s t o, at_ s <> Out -> step max s t (AddOp o) = UB.
Proof. intros max s t o H. cbn [step]. destruct (at_ s); try reflexivity. destruct (H eq_refl). Qed.
Print Assumptions C64_add_while_running_refuted.

(* ---- an example: two operations, the first adds a third; an overrun; a stop ---- *)
Definition ex_p := T 0 100.
Definition ex_pre := [(0, AddOp 1%nat); (0, AddOp 2%nat); (0, Start)].
Definition ex_run := [(1005, Step []); (1006, Step [3%nat]); (1010, Step []); (1011, Step []); (1020, Step []); (1021, Step []); (1040, Step []); (1100, Step []);
  (1101, Step []); (1102, Step []); (1103, Step []); (1370, Step []); (1371, Step []); (1372, Step []); (1373, Step []); (1374, Step []); (1375, Step []); (1376, Step []);
  (1380, Stop); (1390, Step []); (1391, Step []); (1392, Step []); (1393, Step [])].
Definition ex_s1 := match runs 9 (new_thread [Disarmed] ex_p) ex_pre with Ok (s, _) => s | _ => new_thread [] ex_p end.
Definition ex_s2 := match step 9 ex_s1 1000 (Step []) with Ok (s, _) => s | _ => ex_s1 end.
Example C64_example : armed 9 ex_s2 1000 ex_p /\ proper ex_p /\
  exists s o, runs 9 ex_s2 ex_run = Ok (s, o) /\ undisturbed o /\ wakes o = [1100; 1373] /\ waits 1000 o = [(1021, 1100); (1372, 1373)] /\
    ran o = [1; 2; 3; 1; 2; 3; 1; 2; 3]%nat /\ occurs Finished o.
Proof.
  split; [|split].
  - exists [Disarmed], ex_p, ex_pre, ex_s1. eexists _, (Step []). split; [vm_compute; reflexivity|]. split; vm_compute; reflexivity.
  - unfold proper, total. cbn. lia.
  - eexists _, _. split; [vm_compute; reflexivity|]. split.
    + intros b (t & H). cbn [In] in H. intuition discriminate.
    + split; [reflexivity|]. split; [reflexivity|]. split; [reflexivity|]. exists 1393. cbn [In]. tauto.
Qed.
(* rounds of at most 30, at most 5 late *)
Definition ex_short := [(1005, Step []); (1011, Step []); (1012, Step []); (1020, Step []); (1020, Step []); (1104, Step []); (1105, Step []); (1106, Step []); (1107, Step []); (1108, Step []);
   (1110, Step []); (1203, Step [])].
Example C64_example_drift : exists s o, runs 9 ex_s2 ex_short = Ok (s, o) /\ undisturbed o /\ waits 1000 o = [(1020, 1104); (1110, 1203)] /\
  in_time 1000 100 30 5 1000 (waits 1000 o).
Proof.
  eexists _, _. split; [vm_compute; reflexivity|]. split; [intros b (t & H); cbn [In] in H; intuition discriminate|]. split; [reflexivity|].
  unfold periods_since. vm_compute. intuition congruence.
Qed.
(* zero *)
Definition ex_z1 := match runs 9 (new_thread [] (T 0 0)) [(0, Start)] with Ok (s, _) => s | _ => new_thread [] ex_p end.
Definition ex_z2 := match step 9 ex_z1 5 (Step []) with Ok (s, _) => s | _ => ex_z1 end.
Example C64_example_zero : armed 9 ex_z2 5 (T 0 0) /\ canonical (T 0 0) /\
  exists s o, runs 9 ex_z2 [(6, Step []); (7, Step []); (8, Step []); (9, Stop); (1000000, Step [])] = Ok (s, o) /\ undisturbed o /\ occurs Wait o.
Proof.
  split; [|split].
  - exists [], (T 0 0), [(0, Start)], ex_z1. eexists _, (Step []). split; [vm_compute; reflexivity|]. split; vm_compute; reflexivity.
  - unfold canonical. cbn. intuition lia.
  - eexists _, _. split; [vm_compute; reflexivity|]. split; [intros b (t & H); cbn [In] in H; intuition discriminate|]. exists 8. cbn [In]. tauto.
Qed.
