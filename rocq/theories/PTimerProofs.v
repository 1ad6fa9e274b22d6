From Verif Require Import Base CInt TimeModel TimeSpec BaseLemmas PTimerModel PTimerSpec.
Local Open Scope Z_scope.

Lemma runs_cons max s t e l s' o : runs max s ((t, e) :: l) = Ok (s', o) ->
  exists s1 o1 o2, step max s t e = Ok (s1, o1) /\ runs max s1 l = Ok (s', o2) /\ o = map (pair t) o1 ++ o2.
Proof.
  cbn [runs]. destruct (step max s t e) as [[s1 o1]| |]; cbn [bind fst snd]; try discriminate.
  destruct (runs max s1 l) as [[s2 o2]| |] eqn:R; cbn [bind fst snd]; try discriminate.
  intros E. injection E as <- <-. exists s1, o1, o2. split; [reflexivity|]. split; [assumption|reflexivity].
Qed.
Lemma runs_app max l1 : forall s l2 s1 o1 s2 o2, runs max s l1 = Ok (s1, o1) -> runs max s1 l2 = Ok (s2, o2) ->
  runs max s (l1 ++ l2) = Ok (s2, o1 ++ o2).
Proof.
  induction l1 as [|[t e] l1 IH]; intros s l2 s1 o1 s2 o2 A B.
  - injection A as <- <-. exact B.
  - destruct (runs_cons _ _ _ _ _ _ _ A) as (sa & oa & ob & E1 & E2 & ->). cbn [app runs]. rewrite E1. cbn [bind fst snd].
    rewrite (IH _ _ _ _ _ _ E2 B). cbn [bind fst snd]. rewrite app_assoc. reflexivity.
Qed.

Lemma fold_add l : forall s, fold_left addOperation l s = set_queue s (m_dispatch_queue s ++ l).
Proof.
  induction l as [|x l IH]; intros s; cbn [fold_left].
  - rewrite app_nil_r. destruct s; reflexivity.
  - rewrite IH. unfold addOperation, set_queue. cbn. rewrite <- app_assoc. reflexivity.
Qed.

(* ---- setting the period does not touch the rest ---- *)
Definition same_run (a b : state) : Prop := m_dispatch_queue a = m_dispatch_queue b /\ m_execute a = m_execute b /\ at_ a = at_ b.
Lemma setPeriod_same s now p : same_run (fst (setPeriod s now p)) s.
Proof.
  unfold setPeriod, timerfd_settime. cbv zeta. destruct (timer_created _); [|repeat split].
  destruct (timer_fd _); [repeat split|repeat split|]. destruct (_ <? 1000000000); repeat split.
Qed.
Lemma makePeriodic_same max s now : same_run (fst (makePeriodic max s now)) s.
Proof.
  unfold makePeriodic. destruct (timerfd_create max s) as [s1 fd] eqn:E. cbv zeta.
  assert (A : same_run s1 s) by (unfold timerfd_create in E; destruct (_ <? max)%nat; injection E as <- <-; repeat split).
  match goal with |- same_run (fst (setPeriod ?a ?b ?c)) _ => pose proof (setPeriod_same a b c) as B end.
  unfold same_run in *. destruct B as (-> & -> & ->), A as (A1 & A2 & A3). destruct fd; cbn; repeat split; assumption.
Qed.
Lemma read_same s now s1 b : read s now = Ok (Some (s1, b)) -> same_run s1 s /\ timer_fd s1 = timer_fd s.
Proof.
  unfold read. destruct (timer_fd s) eqn:F0; try discriminate.
  - intros E. injection E as <- <-. repeat split. assumption.
  - destruct (nth n (timers s) Disarmed) as [|st i k]; [discriminate|]. cbv zeta. destruct (k <? (now - st) / i); [|discriminate].
    intros E. injection E as <- <-. repeat split. assumption.
Qed.

(* ---- the rounds ---- *)
Definition R (s : state) (p : phase) : Prop :=
  match at_ s with
  | Out | Making => p = Idle
  | Cond => p = Idle \/ (p = After /\ m_execute s = false)
  | At i => (i <= length (m_dispatch_queue s))%nat /\ p = Round (firstn i (m_dispatch_queue s))
  | Check => p = After
  | Reading => p = Waiting
  end.
Lemma firstn_snoc {A} (l : list A) : forall i a, nth_error l i = Some a -> firstn i l ++ [a] = firstn (S i) l.
Proof. induction l as [|x l IH]; intros [|i] a N; try discriminate; cbn [nth_error firstn app] in *; [injection N as ->; reflexivity|]. f_equal. exact (IH i a N). Qed.
Lemma added_rounds t l : forall known p rest, proper_rounds (known ++ l) p rest -> proper_rounds known p (map (pair t) (map Added l) ++ rest).
Proof.
  induction l as [|x l IH]; intros known p rest H; cbn [map app proper_rounds].
  - rewrite app_nil_r in H. exact H.
  - apply IH. rewrite <- app_assoc. exact H.
Qed.
Lemma R_same a b p : same_run a b -> R b p -> R a p.
Proof. intros (A & B & D). unfold R. rewrite A, B, D. exact (fun x => x). Qed.
Lemma step_rounds max s t e s' o p rest : step max s t e = Ok (s', o) -> R s p ->
  (forall p', R s' p' -> proper_rounds (m_dispatch_queue s') p' rest) ->
  proper_rounds (m_dispatch_queue s) p (map (pair t) o ++ rest).
Proof.
  intros E Rs K. destruct e; cbn [step] in E.
  - injection E as <- <-. destruct (at_ s) eqn:P; try (apply K; exact Rs).
    apply K. unfold R in *. rewrite P in Rs. cbn. exact Rs.
  - unfold act in E. destruct (at_ s) as [| | |i| |] eqn:P.
    + injection E as <- <-. apply K. exact Rs.
    + pose proof (makePeriodic_same max s t) as M. destruct (makePeriodic max s t) as [s1 b]. injection E as <- <-. cbn [map app proper_rounds].
      cbn [fst] in M. destruct M as (M1 & M2 & M3). rewrite <- M1. apply K. unfold R in *. rewrite P in Rs. cbn. left. exact Rs.
    + destruct (m_execute s) eqn:X; injection E as <- <-; cbn [map app proper_rounds]; unfold R in Rs; rewrite P in Rs.
      * destruct Rs as [->|[_ Y]]; [|congruence]. apply K. unfold R. cbn. split; [lia|reflexivity].
      * assert (Y : proper_rounds (m_dispatch_queue s) Idle rest) by (apply K; unfold R; cbn; reflexivity).
        destruct Rs as [->|[-> _]]; exact Y.
    + unfold R in Rs. rewrite P in Rs. destruct Rs as [L ->]. destruct (nth_error _ i) as [a|] eqn:N; injection E as <- <-; cbn [map app proper_rounds].
      * assert (I0 : (i < length (m_dispatch_queue s))%nat) by (apply nth_error_Some; congruence).
        rewrite firstn_length_le by lia. split; [exact N|]. apply added_rounds.
        rewrite fold_add in K. cbn [m_dispatch_queue set_at set_queue] in K. apply K. unfold R. cbn [m_dispatch_queue at_ set_at set_queue]. rewrite app_length. split; [lia|].
        rewrite firstn_app. replace (S i - length (m_dispatch_queue s))%nat with O by lia. cbn [firstn]. rewrite app_nil_r.
        f_equal. apply firstn_snoc. exact N.
      * apply nth_error_None in N. rewrite firstn_all2 by lia. split; [reflexivity|]. apply K. unfold R. cbn. reflexivity.
    + unfold R in Rs. rewrite P in Rs. subst p. destruct (m_execute s) eqn:X; injection E as <- <-; cbn [map app proper_rounds]; apply K; unfold R; cbn; [reflexivity|].
      right. split; [reflexivity|exact X].
    + unfold R in Rs. rewrite P in Rs. subst p. destruct (read s t) as [[[s1 b]|]| |] eqn:Rd; try discriminate; injection E as <- <-; cbn [map app proper_rounds].
      * destruct (read_same _ _ _ _ Rd) as [(M1 & M2 & M3) _]. rewrite <- M1. apply K. unfold R. cbn. left. reflexivity.
      * apply K. unfold R. rewrite P. reflexivity.
  - injection E as <- <-. apply K. unfold R in *. cbn. destruct (at_ s); try exact Rs. destruct Rs as [Y|[Y _]]; [left; exact Y|right; split; [exact Y|reflexivity]].
  - pose proof (setPeriod_same s t p0) as M. destruct (setPeriod s t p0) as [s1 b]. cbn [fst] in M. injection E as <- <-. cbn [map app proper_rounds].
    destruct M as (M1 & M2 & M3). rewrite <- M1. apply K. apply (R_same s1 s); [repeat split; assumption|exact Rs].
  - destruct (at_ s) eqn:P; try discriminate. injection E as <- <-. cbn [map app proper_rounds]. apply K. unfold R in *. rewrite P in Rs. cbn. rewrite P. exact Rs.
  - destruct (at_ s) eqn:P; injection E as <- <-; cbn [map app proper_rounds]; try (apply K; exact Rs).
    unfold R in Rs. rewrite P in Rs. subst p. apply K. unfold R. cbn. left. reflexivity.
Qed.
Lemma runs_rounds max l : forall s s' o p, runs max s l = Ok (s', o) -> R s p -> proper_rounds (m_dispatch_queue s) p o.
Proof.
  induction l as [|[t e] l IH]; intros s s' o p E Rs.
  - injection E as <- <-. exact I.
  - destruct (runs_cons _ _ _ _ _ _ _ E) as (s1 & o1 & o2 & E1 & E2 & ->).
    apply (step_rounds max s t e s1 o1 p o2 E1 Rs). intros p' Rp. exact (IH _ _ _ _ E2 Rp).
Qed.

(* ---- validity of the descriptor ---- *)
Definition V (s : state) : Prop :=
  match timer_fd s with Fd n => (n < length (timers s))%nat | NoValue => at_ s = Out \/ at_ s = Making | Bad => True end.
Lemma setPeriod_tf s now p : timer_fd (fst (setPeriod s now p)) = timer_fd s /\ length (timers (fst (setPeriod s now p))) = length (timers s).
Proof.
  unfold setPeriod, timerfd_settime. cbv zeta. destruct (timer_created _); [|split; reflexivity].
  destruct (timer_fd (set_m_period s p)) eqn:F0; [split; reflexivity|split; reflexivity|]. destruct (_ <? 1000000000); [|split; reflexivity].
  cbn. rewrite list_set_length. split; reflexivity.
Qed.
Lemma makePeriodic_tf max s now :
  match timer_fd (fst (makePeriodic max s now)) with Fd n => (n < length (timers (fst (makePeriodic max s now))))%nat | NoValue => False | Bad => True end.
Proof.
  unfold makePeriodic, timerfd_create. destruct (_ <? max)%nat; cbv zeta.
  - match goal with |- context [setPeriod ?a ?b ?c] => destruct (setPeriod_tf a b c) as [-> ->] end. cbn. rewrite app_length. cbn. lia.
  - match goal with |- context [setPeriod ?a ?b ?c] => destruct (setPeriod_tf a b c) as [-> ->] end. cbn. exact I.
Qed.
Lemma V_step max s t e s' o : step max s t e = Ok (s', o) -> V s -> V s'.
Proof.
  intros E Vs. destruct e; cbn [step] in E.
  - injection E as <- <-. destruct (at_ s) eqn:P; try assumption. unfold V in *. cbn. destruct (timer_fd s); auto.
  - unfold act in E. destruct (at_ s) as [| | |i| |] eqn:P.
    + injection E as <- <-. exact Vs.
    + pose proof (makePeriodic_tf max s t) as M. destruct (makePeriodic max s t) as [s1 b]. injection E as <- <-. cbn [fst] in M.
      unfold V. cbn. destruct (timer_fd s1); [destruct M|exact I|exact M].
    + destruct (m_execute s); injection E as <- <-; unfold V in *; cbn; destruct (timer_fd s); auto; rewrite P in Vs; destruct Vs; discriminate.
    + destruct (nth_error _ i); injection E as <- <-; unfold V in *; rewrite ?fold_add; cbn; destruct (timer_fd s); auto; rewrite P in Vs; destruct Vs; discriminate.
    + destruct (m_execute s); injection E as <- <-; unfold V in *; cbn; destruct (timer_fd s); auto; rewrite P in Vs; destruct Vs; discriminate.
    + unfold V in *. unfold read in E. destruct (timer_fd s) eqn:F0; try discriminate.
      * injection E as <- <-. cbn. rewrite F0. exact I.
      * destruct (nth n (timers s) Disarmed) as [|st i k]; [injection E as <- <-; rewrite F0; exact Vs|]. cbv zeta in E.
        destruct (k <? _); injection E as <- <-; [|rewrite F0; exact Vs]. cbn. rewrite F0, list_set_length. exact Vs.
  - injection E as <- <-. exact Vs.
  - destruct (setPeriod_tf s t p) as [A B]. destruct (setPeriod_same s t p) as (_ & _ & D). destruct (setPeriod s t p) as [s1 b]. injection E as <- <-. cbn [fst] in *.
    unfold V in *. rewrite A, B, D. exact Vs.
  - destruct (at_ s) eqn:P; try discriminate. injection E as <- <-. unfold V in *. cbn. exact Vs.
  - destruct (at_ s) eqn:P; injection E as <- <-; try exact Vs. unfold V in *. cbn. destruct (timer_fd s); auto. rewrite P in Vs. destruct Vs; discriminate.
Qed.
Lemma V_runs max l : forall s s' o, runs max s l = Ok (s', o) -> V s -> V s'.
Proof.
  induction l as [|[t e] l IH]; intros s s' o E Vs; [injection E as <- <-; exact Vs|].
  destruct (runs_cons _ _ _ _ _ _ _ E) as (s1 & o1 & o2 & E1 & E2 & ->). exact (IH _ _ _ E2 (V_step _ _ _ _ _ _ E1 Vs)).
Qed.
Lemma V_new al p : V (new_thread al p). Proof. left. reflexivity. Qed.

(* ---- the timer ---- *)
Lemma u32_id z : 0 <= z < 2 ^ 32 -> to_u32 z = z.
Proof. intros H. unfold to_u32. apply Z.mod_small. exact H. Qed.
Definition Tm (s : state) (s0 p k : Z) : Prop :=
  exists n, timer_fd s = Fd n /\ (n < length (timers s))%nat /\ nth n (timers s) Disarmed = Armed s0 p k.
Definition Tz (s : state) : Prop := exists n, timer_fd s = Fd n /\ (n < length (timers s))%nat /\ nth n (timers s) Disarmed = Disarmed.
Lemma nth_set {A} (l : list A) n x d : (n < length l)%nat -> nth n (list_set l n x) d = x.
Proof. revert n. induction l as [|y l IH]; intros [|n] H; cbn in *; try lia; [reflexivity|]. apply IH. lia. Qed.

Lemma setPeriod_arms s t p s1 : V s -> setPeriod s t p = (s1, true) -> m_period s1 = p /\
  (proper p -> Tm s1 t (total p) 0) /\ (total p = 0 -> canonical p -> Tz s1).
Proof.
  intros Vs E. unfold setPeriod in E. cbv zeta in E. destruct (timer_created _); [|discriminate].
  unfold timerfd_settime in E. destruct (timer_fd (set_m_period s p)) eqn:F0; try discriminate. cbn in F0.
  destruct (to_u32 (nsecs p) <? 1000000000) eqn:L; [|discriminate]. injection E as <-. unfold V in Vs. rewrite F0 in Vs.
  split; [reflexivity|]. split.
  - intros (P1 & P2 & P3). exists n. cbn. split; [assumption|]. rewrite list_set_length. split; [assumption|]. rewrite nth_set by assumption.
    unfold total in *. rewrite !u32_id by lia. destruct ((secs p =? 0) && (nsecs p =? 0)) eqn:Z0; [|reflexivity].
    apply andb_true_iff in Z0. lia.
  - intros P C0. assert (Y : secs p = 0 /\ nsecs p = 0) by (unfold total, canonical in *; lia). destruct Y as [Y1 Y2].
    exists n. cbn. rewrite list_set_length. split; [assumption|]. split; [assumption|]. rewrite nth_set by assumption. rewrite Y1, Y2. reflexivity.
Qed.
Lemma step_arms max s t e s1 o : V s -> step max s t e = Ok (s1, o) -> In (PeriodSet true) o ->
  (proper (m_period s1) -> Tm s1 t (total (m_period s1)) 0) /\ (total (m_period s1) = 0 -> canonical (m_period s1) -> Tz s1).
Proof.
  intros Vs E I0. destruct e; cbn [step] in E.
  - injection E as <- <-. destruct I0.
  - unfold act in E. destruct (at_ s) as [| | |i| |] eqn:P.
    + injection E as <- <-. destruct I0.
    + assert (G : exists s3, V s3 /\ makePeriodic max s t = setPeriod s3 t (m_period s3)).
      { unfold makePeriodic, timerfd_create. destruct (_ <? max)%nat; cbv zeta; eexists; (split; [|reflexivity]).
        - unfold V. cbn. rewrite app_length. cbn. lia.
        - unfold V. cbn. exact I. }
      destruct G as (s3 & V3 & G). rewrite G in E. destruct (setPeriod s3 t (m_period s3)) as [s2 b] eqn:E3. injection E as <- <-.
      destruct I0 as [I0|[]]. injection I0 as ->. pose proof (setPeriod_arms _ _ _ _ V3 E3) as (A & B & D).
      cbn. rewrite A. exact (conj B D).
    + destruct (m_execute s); injection E as <- <-; destruct I0 as [I0|[]]; discriminate.
    + destruct (nth_error _ i); injection E as <- <-; destruct I0 as [I0|I0]; try discriminate; [|destruct I0].
      apply in_map_iff in I0. destruct I0 as (x & I0 & _). discriminate.
    + destruct (m_execute s); injection E as <- <-; [destruct I0 as [I0|[]]; discriminate|destruct I0].
    + destruct (read s t) as [[[s2 b]|]| |]; try discriminate; injection E as <- <-; [destruct I0 as [I0|[]]; discriminate|destruct I0].
  - injection E as <- <-. destruct I0.
  - destruct (setPeriod s t p) as [s2 b] eqn:E3. injection E as <- <-. destruct I0 as [I0|[]]. injection I0 as ->.
    destruct (setPeriod_arms _ _ _ _ Vs E3) as (A & B & D). rewrite A. exact (conj B D).
  - destruct (at_ s); try discriminate. injection E as <- <-. destruct I0 as [I0|[]]. discriminate.
  - destruct (at_ s); injection E as <- <-; try destruct I0; try discriminate. contradiction.
Qed.

Definition quiet (o : list obs) : Prop := forall b, ~ In (PeriodSet b) o.
(* one step that sets no period *)
Definition wake_of (o : list obs) : bool := existsb (fun x => match x with Woke true => true | _ => false end) o.
Lemma wake_added l : wake_of (map Added l) = false.
Proof. induction l; [reflexivity|exact IHl]. Qed.
Lemma step_keeps max s t e s1 o s0 p k : step max s t e = Ok (s1, o) -> quiet o -> Tm s s0 p k ->
  (wake_of o = false /\ Tm s1 s0 p k) \/ (o = [Woke true] /\ at_ s = Reading /\ k < (t - s0) / p /\ Tm s1 s0 p ((t - s0) / p)).
Proof.
  intros E Q T0. destruct e; cbn [step] in E.
  - injection E as <- <-. left. split; [reflexivity|]. destruct (at_ s); exact T0.
  - unfold act in E. destruct (at_ s) as [| | |i| |] eqn:P.
    + injection E as <- <-. left. split; [reflexivity|exact T0].
    + destruct (makePeriodic max s t) as [s2 b]. injection E as <- <-. destruct (Q b). left. reflexivity.
    + left. destruct (m_execute s); injection E as <- <-; (split; [reflexivity|exact T0]).
    + left. destruct (nth_error _ i); injection E as <- <-.
      * split; [exact (wake_added new_ops)|]. rewrite fold_add. exact T0.
      * split; [reflexivity|exact T0].
    + left. destruct (m_execute s); injection E as <- <-; (split; [reflexivity|exact T0]).
    + destruct T0 as (n & F0 & L & N). unfold read in E. rewrite F0, N in E. cbv zeta in E. destruct (k <? (t - s0) / p) eqn:B; injection E as <- <-.
      * right. split; [reflexivity|]. split; [reflexivity|]. split; [lia|]. exists n. cbn. split; [assumption|]. rewrite list_set_length. split; [assumption|].
        apply nth_set. assumption.
      * left. split; [reflexivity|]. exists n. auto.
  - left. injection E as <- <-. split; [reflexivity|exact T0].
  - destruct (setPeriod s t p0) as [s2 b]. injection E as <- <-. destruct (Q b). left. reflexivity.
  - left. destruct (at_ s) eqn:P; try discriminate. injection E as <- <-. split; [reflexivity|exact T0].
  - left. destruct (at_ s) eqn:P; injection E as <- <-; (split; [reflexivity|exact T0]).
Qed.

Lemma wakes_app a : forall b, wakes (a ++ b) = wakes a ++ wakes b.
Proof. induction a as [|[t x] a IH]; intros b; [reflexivity|]. cbn [app wakes]. destruct x; try apply IH. destruct success; [cbn [app]; f_equal|]; apply IH. Qed.
Lemma wakes_none t o : wake_of o = false -> wakes (map (pair t) o) = [].
Proof.
  induction o as [|x o IH]; [reflexivity|]. unfold wake_of in *. cbn [existsb map wakes]. intros H. apply orb_false_iff in H. destruct H as [H1 H2].
  destruct x; try (apply IH; exact H2). destruct success; [discriminate|apply IH; exact H2].
Qed.
Lemma undisturbed_app a b : undisturbed (a ++ b) -> undisturbed a /\ undisturbed b.
Proof. intros H. split; intros x (t & I0); apply (H x); exists t; apply in_or_app; [left|right]; exact I0. Qed.
Lemma undisturbed_quiet t o : undisturbed (map (pair t) o) -> quiet o.
Proof. intros H b I0. apply (H b). exists t. apply in_map. exact I0. Qed.

Fixpoint above (k : Z) (l : list Z) : Prop := match l with [] => True | x :: r => k < x /\ above x r end.
Lemma above_increasing k l : above k l <-> increasing (k :: l).
Proof.
  revert k. induction l as [|x l IH]; intros k; cbn [above increasing]; [tauto|]. rewrite IH. tauto.
Qed.
Lemma last_default {A} (l : list A) : forall y d d', last (y :: l) d = last (y :: l) d'.
Proof. induction l as [|x l IH]; intros y d d'; [reflexivity|]. exact (IH x d d'). Qed.
Lemma last_cons {A} (l : list A) x d : last (x :: l) d = last l x.
Proof. destruct l as [|y l]; [reflexivity|]. exact (last_default l y d x). Qed.
Lemma runs_timer max s0 p l : forall s s' o k, runs max s l = Ok (s', o) -> undisturbed o -> Tm s s0 p k ->
  above k (map (periods_since s0 p) (wakes o)) /\ Tm s' s0 p (last (map (periods_since s0 p) (wakes o)) k).
Proof.
  induction l as [|[t e] l IH]; intros s s' o k E U T0.
  - injection E as <- <-. split; [exact I|exact T0].
  - destruct (runs_cons _ _ _ _ _ _ _ E) as (s1 & o1 & o2 & E1 & E2 & ->). destruct (undisturbed_app _ _ U) as [U1 U2].
    destruct (step_keeps _ _ _ _ _ _ _ _ _ E1 (undisturbed_quiet _ _ U1) T0) as [[W T1]|(-> & _ & L & T1)].
    + rewrite wakes_app, wakes_none by exact W. cbn [app]. exact (IH _ _ _ _ E2 U2 T1).
    + cbn [map app wakes]. destruct (IH _ _ _ _ E2 U2 T1) as [A B]. split.
      * cbn [map above]. split; [exact L|]. exact A.
      * cbn [map]. rewrite last_cons. exact B.
Qed.

Lemma above_nth l : forall k i x, above k l -> nth_error l i = Some x -> k + Z.of_nat i + 1 <= x.
Proof.
  induction l as [|y l IH]; intros k [|i] x H N; cbn in *; try discriminate.
  - injection N as ->. lia.
  - destruct H as [H1 H2]. specialize (IH _ _ _ H2 N). lia.
Qed.
Lemma waits_wakes o : forall b, map snd (waits b o) = wakes o.
Proof. induction o as [|[t x] o IH]; intros b; [reflexivity|]. cbn [waits wakes]. destruct x; try apply IH. destruct success; [cbn [map snd]; f_equal|]; apply IH. Qed.

Lemma schedule s p w d l : 0 < p -> 0 <= d < p -> w + d <= p -> forall k prev, s + (k - 1) * p <= prev <= s + (k - 1) * p + d ->
  above (k - 1) (map (fun br => periods_since s p (snd br)) l) -> in_time s p w d prev l -> on_schedule s p d k l.
Proof.
  intros Pp D W. induction l as [|[b r] l IH]; intros k prev H A T0; [exact I|]. cbn [map above snd in_time on_schedule] in *.
  destruct A as [A1 A2], T0 as (T1 & T2 & T3).
  assert (Q : periods_since s p prev = k - 1).
  { unfold periods_since. symmetry. apply Z.div_unique with (prev - s - (k - 1) * p); [left; lia|ring]. }
  rewrite Q in T2. replace (k - 1 + 1) with k in T2 by lia.
  assert (Lo : s + k * p <= r).
  { assert (k <= periods_since s p r) by lia. unfold periods_since in *. assert (p * ((r - s) / p) <= r - s) by (apply Z.mul_div_le; lia). nia. }
  assert (Hi : r <= s + k * p + d).
  { assert (b <= s + k * p) by nia. lia. }
  split; [lia|]. apply (IH (k + 1) r); [replace (k + 1 - 1) with k by lia; lia| |exact T3].
  replace (k + 1 - 1) with (periods_since s p r); [exact A2|]. unfold periods_since. symmetry. apply Z.div_unique with (r - s - k * p); [left; lia|ring].
Qed.

(* ---- zero: no wake ---- *)
Lemma step_zero max s t e s1 o : step max s t e = Ok (s1, o) -> quiet o -> e <> Signal -> Tz s ->
  Tz s1 /\ (forall b, ~ In (Woke b) o) /\ (at_ s = Reading -> at_ s1 = Reading) /\ (In Wait o -> at_ s1 = Reading).
Proof.
  intros E Q Ns T0. destruct e; cbn [step] in E; try contradiction.
  - injection E as <- <-. split; [destruct (at_ s); exact T0|]. split; [intros b []|]. split; [intros P; rewrite P; exact P|intros []].
  - unfold act in E. destruct (at_ s) as [| | |i| |] eqn:P.
    + injection E as <- <-. split; [exact T0|]. split; [intros b []|]. split; [discriminate|intros []].
    + destruct (makePeriodic max s t) as [s2 b]. injection E as <- <-. destruct (Q b). left. reflexivity.
    + destruct (m_execute s); injection E as <- <-; (split; [exact T0|]; split; [intros b [X|[]]; discriminate|]; split; [discriminate|intros [X|[]]; discriminate]).
    + destruct (nth_error _ i); injection E as <- <-.
      * rewrite fold_add. split; [exact T0|]. split; [intros b [X|X]; [discriminate|]; apply in_map_iff in X; destruct X as (? & X & _); discriminate|].
        split; [discriminate|]. intros [X|X]; [discriminate|]. apply in_map_iff in X; destruct X as (? & X & _); discriminate.
      * split; [exact T0|]. split; [intros b [X|[]]; discriminate|]. split; [discriminate|intros [X|[]]; discriminate].
    + destruct (m_execute s); injection E as <- <-.
      * split; [exact T0|]. split; [intros b [X|[]]; discriminate|]. split; [discriminate|reflexivity].
      * split; [exact T0|]. split; [intros b []|]. split; [discriminate|intros []].
    + destruct T0 as (n & F0 & L & N). unfold read in E. rewrite F0, N in E. injection E as <- <-.
      split; [exists n; auto|]. split; [intros b []|]. split; [intros _; exact P|intros []].
  - injection E as <- <-. split; [exact T0|]. split; [intros b []|]. split; [exact (fun x => x)|intros []].
  - destruct (setPeriod s t p) as [s2 b]. injection E as <- <-. destruct (Q b). left. reflexivity.
  - destruct (at_ s) eqn:P; try discriminate. injection E as <- <-. split; [exact T0|]. split; [intros b [X|[]]; discriminate|]. split; [discriminate|intros [X|[]]; discriminate].
Qed.
Lemma runs_zero max l : forall s s' o, runs max s l = Ok (s', o) -> undisturbed o -> no_signal l -> Tz s ->
  (forall b, ~ occurs (Woke b) o) /\ (at_ s = Reading \/ occurs Wait o -> at_ s' = Reading).
Proof.
  induction l as [|[t e] l IH]; intros s s' o E U Ns T0.
  - injection E as <- <-. split; [intros b (t & [])|]. intros [P|(t & [])]. exact P.
  - destruct (runs_cons _ _ _ _ _ _ _ E) as (s1 & o1 & o2 & E1 & E2 & ->). destruct (undisturbed_app _ _ U) as [U1 U2].
    apply Forall_cons_iff in Ns. destruct Ns as [N1 N2].
    destruct (step_zero _ _ _ _ _ _ E1 (undisturbed_quiet _ _ U1) N1 T0) as (Z1 & Z2 & Z3 & Z4).
    destruct (IH _ _ _ E2 U2 N2 Z1) as [A B]. split.
    + intros b (t0 & I0). apply in_app_or in I0. destruct I0 as [I0|I0]; [|apply (A b); exists t0; exact I0].
      apply in_map_iff in I0. destruct I0 as (x & X & I0). injection X as _ ->. exact (Z2 b I0).
    + intros [P|(t0 & I0)]; [apply B; left; exact (Z3 P)|]. apply in_app_or in I0. destruct I0 as [I0|I0].
      * apply in_map_iff in I0. destruct I0 as (x & X & I0). injection X as _ ->. apply B. left. exact (Z4 I0).
      * apply B. right. exists t0. exact I0.
Qed.

(* ---- stop ---- *)
Lemma ran_app a : forall b, ran (a ++ b) = ran a ++ ran b.
Proof. induction a as [|[t x] a IH]; intros b; [reflexivity|]. cbn [app ran]. destruct x; try apply IH. cbn [app]. f_equal. apply IH. Qed.
Lemma count_app a : forall b, count_wokes (a ++ b) = (count_wokes a + count_wokes b)%nat.
Proof. induction a as [|[t x] a IH]; intros b; [reflexivity|]. cbn [app count_wokes]. destruct x; try apply IH. cbn [Nat.add]. f_equal. apply IH. Qed.
Lemma ran_added t l : ran (map (pair t) (map Added l)) = [].
Proof. induction l; [reflexivity|exact IHl]. Qed.
Lemma count_added t l : count_wokes (map (pair t) (map Added l)) = O.
Proof. induction l; [reflexivity|exact IHl]. Qed.
Definition reading (s : state) : nat := match at_ s with Reading => 1%nat | _ => 0%nat end.
Ltac fin := repeat match goal with |- _ /\ _ => split end; cbn; try lia; try assumption; try (intros; intuition congruence).
Lemma step_stopped max s t e s1 o : step max s t e = Ok (s1, o) -> m_execute s = false -> e <> Start ->
  m_execute s1 = false /\ ~ In Begin o /\ ~ In Wait o /\ (count_wokes (map (pair t) o) + reading s1 <= reading s)%nat /\
  (forall i, at_ s1 = At i -> (exists j, at_ s = At j /\ (j <= i)%nat)) /\
  (ran (map (pair t) o) <> [] -> in_a_round s) /\ (in_a_round s1 -> in_a_round s).
Proof.
  intros E X Ns.
  assert (G : m_execute s1 = false /\ ~ In Begin o /\ ~ In Wait o /\ (count_wokes (map (pair t) o) + reading s1 <= reading s)%nat /\
    (forall i, at_ s1 = At i -> (exists j, at_ s = At j /\ (j <= i)%nat)) /\ (ran (map (pair t) o) <> [] -> in_a_round s)).
  { destruct e; cbn [step] in E; try contradiction.
    - unfold act in E. destruct (at_ s) as [| | |i| |] eqn:P.
      + injection E as <- <-. cbn. unfold reading. rewrite P. fin.
      + destruct (makePeriodic_same max s t) as (M1 & M2 & M3). destruct (makePeriodic max s t) as [s2 b]. injection E as <- <-. cbn in *.
        unfold reading. rewrite P. fin.
      + rewrite X in E. injection E as <- <-. cbn. unfold reading. rewrite P. fin.
      + destruct (nth_error _ i); injection E as <- <-; rewrite ?fold_add; cbn; unfold reading; rewrite P; cbn.
        * rewrite count_added. split; [exact X|]. split; [intros [Y|Y]; [discriminate|]; apply in_map_iff in Y; destruct Y as (? & Y & _); discriminate|].
          split; [intros [Y|Y]; [discriminate|]; apply in_map_iff in Y; destruct Y as (? & Y & _); discriminate|].
          split; [lia|]. split; [intros j Y; injection Y as <-; exists i; split; [reflexivity|lia]|]. intros _. exists i. exact P.
        * fin.
      + rewrite X in E. injection E as <- <-. cbn. unfold reading. rewrite P. fin.
      + destruct (read s t) as [[[s2 b]|]| |] eqn:Rd; try discriminate; injection E as <- <-.
        * destruct (read_same _ _ _ _ Rd) as [(M1 & M2 & M3) _]. cbn. unfold reading. rewrite P. cbn. fin.
        * cbn. unfold reading. rewrite P. fin.
    - injection E as <- <-. cbn. unfold reading, in_a_round. cbn. repeat (split; [intuition congruence|]). split; [lia|]. split; [|intuition congruence].
      intros i Y. exists i. split; [exact Y|lia].
    - destruct (setPeriod_same s t p) as (M1 & M2 & M3). destruct (setPeriod s t p) as [s2 b]. injection E as <- <-. cbn [fst] in *. cbn. unfold reading. rewrite M3.
      repeat (split; [intuition congruence|]). split; [lia|]. split; [|intuition congruence]. intros i Y. exists i. split; [congruence|lia].
    - destruct (at_ s) eqn:P; try discriminate. injection E as <- <-. cbn. unfold reading. cbn. rewrite P. fin.
    - destruct (at_ s) eqn:P; injection E as <- <-; cbn; unfold reading; cbn; rewrite ?P; cbn; fin.
      intros j Y. injection Y as <-. exists i. split; [reflexivity|lia]. }
  destruct G as (G1 & G2 & G3 & G4 & G5 & G6). repeat (split; [assumption|]). intros (i & Y). destruct (G5 i Y) as (j & Z0 & _). exists j. exact Z0.
Qed.
Lemma runs_stopped max l : forall s s' o, runs max s l = Ok (s', o) -> m_execute s = false -> no_start l ->
  m_execute s' = false /\ ~ occurs Begin o /\ ~ occurs Wait o /\ (count_wokes o <= reading s)%nat /\ (ran o <> [] -> in_a_round s).
Proof.
  induction l as [|[t e] l IH]; intros s s' o E X Ns.
  - injection E as <- <-. split; [exact X|]. split; [intros (t & [])|]. split; [intros (t & [])|]. split; [cbn; lia|]. intros H. destruct (H eq_refl).
  - destruct (runs_cons _ _ _ _ _ _ _ E) as (s1 & o1 & o2 & E1 & E2 & ->). apply Forall_cons_iff in Ns. destruct Ns as [N1 N2].
    destruct (step_stopped _ _ _ _ _ _ E1 X N1) as (A1 & A2 & A3 & A4 & _ & A6 & A7).
    destruct (IH _ _ _ E2 A1 N2) as (B1 & B2 & B3 & B4 & B5).
    assert (O : forall x, ~ In x o1 -> ~ occurs x o2 -> ~ occurs x (map (pair t) o1 ++ o2)).
    { intros x Y1 Y2 (t0 & I0). apply in_app_or in I0. destruct I0 as [I0|I0]; [|apply Y2; exists t0; exact I0].
      apply in_map_iff in I0. destruct I0 as (y & Y & I0). injection Y as _ ->. exact (Y1 I0). }
    split; [exact B1|]. split; [exact (O _ A2 B2)|]. split; [exact (O _ A3 B3)|]. rewrite count_app, ran_app. split; [lia|].
    intros H. destruct (ran (map (pair t) o1)) eqn:Y; [apply A7, B5; exact H|apply A6; discriminate].
Qed.

(* the thread ends after a stop *)
Lemma ends_from max ts : forall s n, m_execute s = false -> at_ s <> Reading ->
  n = match at_ s with Out => 0 | Making => 2 | Cond => 1 | At i => length (m_dispatch_queue s) - i + 3 | Check => 2 | Reading => 0 end%nat ->
  (n <= length ts)%nat -> exists s' o, runs max s (steps_at ts) = Ok (s', o) /\ at_ s' = Out /\ (at_ s <> Out -> occurs Finished o).
Proof.
  induction ts as [|t ts IH]; intros s n X P N L.
  - cbn in L. exists s, []. split; [reflexivity|]. destruct (at_ s) eqn:Q; try lia; [split; [reflexivity|congruence]|congruence].
  - cbn [length] in L. cbn [steps_at map runs step]. unfold act. destruct (at_ s) as [| | |i| |] eqn:Q; [| | | | |congruence].
    + cbn [bind fst snd map app]. destruct (IH s O X) as (s' & o & A & B & _); [rewrite Q; discriminate|rewrite Q; reflexivity|lia|]. unfold steps_at in A. rewrite A. cbn [bind fst snd].
      exists s', o. split; [reflexivity|]. split; [exact B|congruence].
    + destruct (makePeriodic_same max s t) as (M1 & M2 & M3). destruct (makePeriodic max s t) as [s2 b]. cbn [fst] in *. cbn [bind fst snd].
      destruct (IH (set_at s2 Cond) 1%nat) as (s' & o & A & B & C0); [cbn; congruence|discriminate|reflexivity|lia|].
      unfold steps_at in A. rewrite A. cbn [bind fst snd]. eexists _, _. split; [reflexivity|]. split; [exact B|]. intros _.
      destruct (C0 ltac:(discriminate)) as (t0 & I0). exists t0. apply in_or_app. right. exact I0.
    + rewrite X. cbn [bind fst snd]. destruct (IH (set_at s Out) O) as (s' & o & A & B & _); [exact X|discriminate|reflexivity|lia|].
      unfold steps_at in A. rewrite A. cbn [bind fst snd]. eexists _, _. split; [reflexivity|]. split; [exact B|]. intros _. exists t. left. reflexivity.
    + destruct (nth_error (m_dispatch_queue s) i) as [a|] eqn:Y.
      * assert (I1 : (i < length (m_dispatch_queue s))%nat) by (apply nth_error_Some; congruence). cbn [fold_left bind fst snd].
        destruct (IH (set_at s (At (S i))) (length (m_dispatch_queue s) - S i + 3)%nat) as (s' & o & A & B & C0); [exact X|discriminate|reflexivity|lia|].
        unfold steps_at in A. rewrite A. cbn [bind fst snd]. eexists _, _. split; [reflexivity|]. split; [exact B|]. intros _.
        destruct (C0 ltac:(discriminate)) as (t0 & I0). exists t0. apply in_or_app. right. exact I0.
      * cbn [bind fst snd]. destruct (IH (set_at s Check) 2%nat) as (s' & o & A & B & C0); [exact X|discriminate|reflexivity|lia|].
        unfold steps_at in A. rewrite A. cbn [bind fst snd]. eexists _, _. split; [reflexivity|]. split; [exact B|]. intros _.
        destruct (C0 ltac:(discriminate)) as (t0 & I0). exists t0. apply in_or_app. right. exact I0.
    + rewrite X. cbn [bind fst snd]. destruct (IH (set_at s Cond) 1%nat) as (s' & o & A & B & C0); [exact X|discriminate|reflexivity|lia|].
      unfold steps_at in A. rewrite A. cbn [bind fst snd]. eexists _, _. split; [reflexivity|]. split; [exact B|]. intros _.
      destruct (C0 ltac:(discriminate)) as (t0 & I0). exists t0. apply in_or_app. right. exact I0.
Qed.

(* ---- no undefined behaviour ---- *)
Lemma step_defined max s t e : V s -> (forall o, e <> AddOp o) -> exists s1 o, step max s t e = Ok (s1, o).
Proof.
  intros Vs Na. destruct e; cbn [step]; try (eexists _, _; reflexivity).
  - unfold act. destruct (at_ s) as [| | |i| |] eqn:P; try (eexists _, _; reflexivity).
    + destruct (makePeriodic max s t). eexists _, _; reflexivity.
    + destruct (m_execute s); eexists _, _; reflexivity.
    + destruct (nth_error _ i); eexists _, _; reflexivity.
    + destruct (m_execute s); eexists _, _; reflexivity.
    + unfold V in Vs. unfold read. destruct (timer_fd s); [rewrite P in Vs; destruct Vs; discriminate|eexists _, _; reflexivity|].
      destruct (nth n (timers s) Disarmed); [eexists _, _; reflexivity|]. cbv zeta. destruct (taken <? _); eexists _, _; reflexivity.
  - destruct (setPeriod s t p). eexists _, _; reflexivity.
  - destruct (Na o eq_refl).
  - destruct (at_ s); eexists _, _; reflexivity.
Qed.
Lemma runs_defined max l : forall s, V s -> Forall (fun te => forall o, snd te <> AddOp o) l -> exists r, runs max s l = Ok r.
Proof.
  induction l as [|[t e] l IH]; intros s Vs H; [eexists; reflexivity|]. apply Forall_cons_iff in H. destruct H as [H1 H2].
  destruct (step_defined max s t e Vs H1) as (s1 & o & E). cbn [runs]. rewrite E. cbn [bind fst snd].
  destruct (IH s1 (V_step _ _ _ _ _ _ E Vs) H2) as [r ->]. cbn [bind]. eexists. reflexivity.
Qed.

(* ---- descriptors ---- *)
Lemma make_len max s now : length (timers (fst (makePeriodic max s now))) = Nat.max (length (timers s)) (Nat.min (S (length (timers s))) max).
Proof.
  unfold makePeriodic, timerfd_create. destruct (length (timers s) <? max)%nat eqn:L; cbv zeta.
  - match goal with |- context [setPeriod ?a ?b ?c] => destruct (setPeriod_tf a b c) as [_ ->] end. cbn [timers set_created set_fd set_timers length]. rewrite app_length. cbn [length]. apply Nat.ltb_lt in L. lia.
  - match goal with |- context [setPeriod ?a ?b ?c] => destruct (setPeriod_tf a b c) as [_ ->] end. cbn [timers set_created set_fd set_timers length]. apply Nat.ltb_ge in L. lia.
Qed.
Lemma cycles_run max n t : forall s, at_ s = Out -> exists s' o, runs max s (cycles n t) = Ok (s', o) /\ at_ s' = Out /\
  length (timers s') = Nat.max (length (timers s)) (Nat.min (n + length (timers s)) max) /\ m_dispatch_queue s' = m_dispatch_queue s.
Proof.
  induction n as [|n IH]; intros s P.
  - exists s, []. split; [reflexivity|]. split; [exact P|]. split; [lia|reflexivity].
  - cbn [cycles]. set (sm := set_at (set_execute s true) Making).
    destruct (makePeriodic_same max sm t) as (M1 & M2 & M3). pose proof (make_len max sm t) as M4.
    assert (G : exists s1 o1, runs max s (start_stop t) = Ok (s1, o1) /\ at_ s1 = Out /\
      length (timers s1) = Nat.max (length (timers s)) (Nat.min (S (length (timers s))) max) /\ m_dispatch_queue s1 = m_dispatch_queue s).
    { unfold start_stop. cbn [runs step]. rewrite P. cbn [bind fst snd map app]. fold sm. unfold act at 1. cbn [at_ sm set_at].
      change (mkS (timers s) (m_period s) (timer_created s) (timer_fd s) (m_dispatch_queue s) true Making) with sm. fold sm.
      destruct (makePeriodic max sm t) as [s2 b]. cbn [fst] in *. cbn [bind fst snd map app]. unfold act. cbn [at_ set_at set_execute m_execute bind fst snd].
      eexists _, _. split; [reflexivity|]. cbn [at_ set_at set_execute timers m_dispatch_queue]. split; [reflexivity|]. split; [exact M4|exact M1]. }
    destruct G as (s1 & o1 & G1 & G2 & G3 & G4). destruct (IH s1 G2) as (s' & o & A & B & D & E0).
    exists s', (o1 ++ o). split; [exact (runs_app _ _ _ _ _ _ _ _ G1 A)|]. split; [exact B|]. split; [rewrite D, G3; lia|congruence].
Qed.

(* ---- everything from an armed state ---- *)
Lemma armed_timer max s t0 p : armed max s t0 p -> (proper p -> Tm s t0 (total p) 0) /\ (total p = 0 -> canonical p -> Tz s).
Proof.
  intros (al & per & l1 & s1 & o1 & e & E1 & E2 & <-). apply (step_arms max s1 t0 e s [PeriodSet true]); [|exact E2|left; reflexivity].
  exact (V_runs _ _ _ _ _ E1 (V_new al per)).
Qed.
Lemma last_map {A B} (f : A -> B) l d : last (map f l) (f d) = f (last l d).
Proof. revert d. induction l as [|x l IH]; intros d; [reflexivity|]. cbn [map]. rewrite !last_cons. apply IH. Qed.
Lemma since_self s p : p <> 0 -> periods_since s p s = 0.
Proof. intros H. unfold periods_since. rewrite Z.sub_diag. apply Z.div_0_l. exact H. Qed.
Lemma reading_step max s s0 p k t ops : at_ s = Reading -> Tm s s0 p k ->
  exists s1, step max s t (Step ops) = Ok (s1, if k <? periods_since s0 p t then [Woke true] else []).
Proof.
  intros P (n & F0 & L & N). cbn [step]. unfold act, read, periods_since. rewrite P, F0, N. cbv zeta. destruct (k <? _); eexists; reflexivity.
Qed.

(* a timer that works keeps working *)
Definition works (s : state) : Prop := timer_created s = true /\ (exists n, timer_fd s = Fd n) /\ at_ s <> Making.
Lemma works_step max s t e s1 o : step max s t e = Ok (s1, o) -> e <> Start -> works s -> works s1.
Proof.
  intros E Ns (A & B & D). destruct e; cbn [step] in E; try contradiction.
  - unfold act in E. destruct (at_ s) as [| | |i| |] eqn:P; try contradiction.
    + injection E as <- <-. split; [exact A|]. split; [exact B|]. rewrite P. discriminate.
    + destruct (m_execute s); injection E as <- <-; (split; [exact A|]; split; [exact B|discriminate]).
    + destruct (nth_error _ i); injection E as <- <-; rewrite ?fold_add; (split; [exact A|]; split; [exact B|discriminate]).
    + destruct (m_execute s); injection E as <- <-; (split; [exact A|]; split; [exact B|discriminate]).
    + destruct B as [n B]. unfold read in E. rewrite B in E. destruct (nth n (timers s) Disarmed).
      * injection E as <- <-. split; [exact A|]. split; [exists n; exact B|rewrite P; discriminate].
      * cbv zeta in E. destruct (taken <? _); injection E as <- <-; (split; [exact A|]; split; [exists n; exact B|cbn; rewrite ?P; discriminate]).
  - injection E as <- <-. split; [exact A|]. split; [exact B|exact D].
  - destruct (setPeriod_same s t p) as (_ & _ & M). destruct (setPeriod_tf s t p) as (M2 & _).
    assert (M3 : timer_created (fst (setPeriod s t p)) = timer_created s).
    { unfold setPeriod, timerfd_settime. cbv zeta. change (timer_created (set_m_period s p)) with (timer_created s). rewrite A.
      destruct (timer_fd (set_m_period s p)); [exact A|exact A|]. destruct (_ <? 1000000000); exact A. }
    destruct (setPeriod s t p) as [s2 b]. injection E as <- <-. cbn [fst] in *. unfold works. rewrite M, M2, M3. auto.
  - destruct (at_ s) eqn:P; try discriminate. injection E as <- <-. split; [exact A|]. split; [exact B|]. cbn. rewrite P. discriminate.
  - destruct (at_ s) eqn:P; injection E as <- <-; (split; [exact A|]; split; [exact B|cbn; rewrite ?P; congruence]).
Qed.
Lemma works_runs max l : forall s s' o, runs max s l = Ok (s', o) -> no_start l -> works s -> works s'.
Proof.
  induction l as [|[t e] l IH]; intros s s' o E Ns W; [injection E as <- <-; exact W|].
  destruct (runs_cons _ _ _ _ _ _ _ E) as (s1 & o1 & o2 & E1 & E2 & ->). apply Forall_cons_iff in Ns. destruct Ns as [N1 N2].
  exact (IH _ _ _ E2 N2 (works_step _ _ _ _ _ _ E1 N1 W)).
Qed.
Lemma works_set max s t p : works s -> proper p -> exists s1, step max s t (SetPeriod p) = Ok (s1, [PeriodSet true]) /\ m_period s1 = p.
Proof.
  intros (A & [n B] & D) (P1 & P2 & P3). cbn [step]. unfold setPeriod. cbv zeta. cbn [timer_created set_m_period]. rewrite A. unfold timerfd_settime.
  cbn [timer_fd set_m_period]. rewrite B. rewrite (u32_id (nsecs p)) by lia. assert (L : (nsecs p <? 1000000000) = true) by lia. rewrite L.
  eexists. split; reflexivity.
Qed.
Lemma adds_run max t ops : forall s, at_ s = Out -> runs max s (map (fun o => (t, AddOp o)) ops) = Ok (set_queue s (m_dispatch_queue s ++ ops), map (fun o => (t, Added o)) ops).
Proof.
  induction ops as [|o ops IH]; intros s P; cbn [map runs].
  - rewrite app_nil_r. destruct s; reflexivity.
  - cbn [step]. rewrite P. cbn [bind fst snd map app]. rewrite IH by exact P. cbn [bind fst snd]. unfold addOperation, set_queue. cbn. rewrite <- app_assoc. reflexivity.
Qed.
Lemma started max al per t0 ops t1 t2 : (length al < max)%nat -> proper per ->
  exists s o, runs max (new_thread al per) (map (fun x => (t0, AddOp x)) ops ++ [(t1, Start); (t2, Step [])]) = Ok (s, o ++ [(t2, PeriodSet true)]) /\
    m_period s = per /\ works s /\ armed max s t2 per.
Proof.
  intros L P. pose proof (adds_run max t0 ops (new_thread al per) eq_refl) as A. set (s0 := set_queue (new_thread al per) (m_dispatch_queue (new_thread al per) ++ ops)) in *.
  set (sm := set_at (set_execute s0 true) Making). pose proof (conj P P) as P'. destruct P as (P1 & P2 & P3).
  assert (M : exists s2, makePeriodic max sm t2 = (s2, true) /\ m_period s2 = per /\ timer_created s2 = true /\ exists n, timer_fd s2 = Fd n).
  { unfold makePeriodic, timerfd_create. cbn [sm s0 timers set_at set_execute set_queue new_thread]. apply Nat.ltb_lt in L. rewrite L. cbv zeta. unfold setPeriod. cbv zeta.
    cbn [timer_created set_created set_m_period m_period set_fd set_timers]. unfold timerfd_settime. cbn [timer_fd set_created set_m_period set_fd].
    change (m_period sm) with per.
    rewrite (u32_id (nsecs per)) by lia. assert (X : (nsecs per <? 1000000000) = true) by lia. rewrite X. eexists. split; [reflexivity|]. split; [reflexivity|]. split; [reflexivity|].
    eexists. reflexivity. }
  destruct M as (s2 & M1 & M2 & M3 & M4).
  assert (B : runs max s0 [(t1, Start)] = Ok (sm, [])) by reflexivity.
  assert (D : step max sm t2 (Step []) = Ok (set_at s2 Cond, [PeriodSet true])) by (cbn [step]; unfold act; cbn [at_ sm set_at]; fold sm; rewrite M1; reflexivity).
  assert (B2 : runs max s0 [(t1, Start); (t2, Step [])] = Ok (set_at s2 Cond, [(t2, PeriodSet true)])).
  { apply (runs_app max [(t1, Start)] s0 [(t2, Step [])] _ _ _ _ B). cbn [runs]. rewrite D. reflexivity. }
  exists (set_at s2 Cond), (map (fun o => (t0, Added o)) ops). split; [exact (runs_app _ _ _ _ _ _ _ _ A B2)|].
  split; [exact M2|]. split; [split; [exact M3|]; split; [exact M4|discriminate]|].
  exists al, per, (map (fun x => (t0, AddOp x)) ops ++ [(t1, Start)]), sm, (map (fun o => (t0, Added o)) ops ++ []), (Step []).
  split; [exact (runs_app _ _ _ _ _ _ _ _ A B)|]. split; [exact D|exact M2].
Qed.

(* ---- the timers of other threads ---- *)
Definition Oth (al : list timer) (s : state) : Prop :=
  (exists r, timers s = al ++ r) /\ match timer_fd s with Fd n => (length al <= n)%nat | _ => True end.
Lemma list_set_app {A} (l r : list A) n x : (length l <= n)%nat -> list_set (l ++ r) n x = l ++ list_set r (n - length l) x.
Proof.
  revert n. induction l as [|y l IH]; intros n H; cbn [app length].
  - rewrite Nat.sub_0_r. reflexivity.
  - cbn [length] in H. destruct n as [|n]; [lia|]. cbn [list_set]. rewrite IH by lia. reflexivity.
Qed.
Lemma oth_setPeriod al s t p s1 b : Oth al s -> setPeriod s t p = (s1, b) -> Oth al s1.
Proof.
  intros [(r & R) F0] E. unfold setPeriod in E. cbv zeta in E. destruct (timer_created _); [|injection E as <- <-; split; [exists r|]; assumption].
  unfold timerfd_settime in E. cbn [timer_fd set_m_period] in E. destruct (timer_fd s) as [| |n] eqn:G.
  - injection E as <- <-. split; [exists r; exact R|]. cbn. rewrite G. exact I.
  - injection E as <- <-. split; [exists r; exact R|]. cbn. rewrite G. exact I.
  - destruct (_ <? _); injection E as <- <-; (split; [|cbn; rewrite G; exact F0]).
    + cbn [timers set_timers set_m_period]. rewrite R, list_set_app by exact F0. eexists. reflexivity.
    + exists r. exact R.
Qed.
Lemma fold_add_others l s : timers (fold_left addOperation l s) = timers s /\ timer_fd (fold_left addOperation l s) = timer_fd s.
Proof. revert s. induction l as [|x l IH]; intros s; cbn [fold_left]; [split; reflexivity|]. destruct (IH (addOperation s x)) as [A B]. rewrite A, B. split; reflexivity. Qed.
Lemma oth_step max al s t e s1 o : Oth al s -> step max s t e = Ok (s1, o) -> Oth al s1.
Proof.
  intros H E. destruct e; cbn [step] in E.
  - injection E as <- <-. destruct (at_ s); exact H.
  - unfold act in E. destruct (at_ s) as [| | |i| |] eqn:P.
    + injection E as <- <-. exact H.
    + destruct (makePeriodic max s t) as [s2 b] eqn:M. injection E as <- <-. cut (Oth al s2); [intros X; exact X|].
      unfold makePeriodic, timerfd_create in M. destruct H as [(r & R) F0]. destruct (_ <? max)%nat; cbv zeta in M; apply oth_setPeriod with (al := al) in M; try exact M.
      * split; cbn; [exists (r ++ [Disarmed]); rewrite R, <- app_assoc; reflexivity|]. rewrite R, app_length. lia.
      * split; cbn; [exists r; exact R|exact I].
    + destruct (m_execute s); injection E as <- <-; exact H.
    + destruct (nth_error _ i); injection E as <- <-; [|exact H]. unfold Oth. cbn [timers timer_fd set_at].
      destruct (fold_add_others new_ops s) as [A B]. rewrite A, B. exact H.
    + destruct (m_execute s); injection E as <- <-; exact H.
    + unfold read in E. destruct H as [(r & R) F0]. destruct (timer_fd s) as [| |n] eqn:G; try discriminate.
      * injection E as <- <-. split; [exists r; exact R|]. cbn. rewrite G. exact I.
      * destruct (nth n (timers s) Disarmed); [injection E as <- <-; split; [exists r; exact R|rewrite G; exact F0]|].
        destruct (_ <? _); injection E as <- <-; (split; [|cbn; rewrite G; exact F0]).
        -- cbn [timers set_timers set_at]. rewrite R, list_set_app by exact F0. eexists. reflexivity.
        -- exists r. exact R.
  - injection E as <- <-. exact H.
  - destruct (setPeriod s t p) as [s2 b] eqn:M. injection E as <- <-. exact (oth_setPeriod _ _ _ _ _ _ H M).
  - destruct (at_ s); try discriminate. injection E as <- <-. exact H.
  - destruct (at_ s); injection E as <- <-; exact H.
Qed.
Lemma oth_runs max al l : forall s s1 o, Oth al s -> runs max s l = Ok (s1, o) -> Oth al s1.
Proof.
  induction l as [|[t e] l IH]; intros s s1 o H E; cbn [runs] in E; [injection E as <- <-; exact H|].
  destruct (step max s t e) as [[s2 o2]| |] eqn:G; try discriminate. cbn [bind fst snd] in E. apply (oth_step _ _ _ _ _ _ _ H) in G.
  destruct (runs max s2 l) as [[s3 o3]| |] eqn:K; try discriminate. cbn [bind fst snd] in E. injection E as <- <-. exact (IH _ _ _ G K).
Qed.

(* a timer that was created has a descriptor, or the attempt to get another one has failed *)
Definition Known (s : state) : Prop := timer_created s = true -> timer_fd s <> NoValue.
Lemma settime_fields s t a b : timer_created (fst (timerfd_settime s t a b)) = timer_created s /\ timer_fd (fst (timerfd_settime s t a b)) = timer_fd s.
Proof. unfold timerfd_settime. destruct (timer_fd s) eqn:E; cbn; rewrite ?E; auto. destruct (b <? 1000000000); cbn; auto. Qed.
Lemma setPeriod_fields s t p : timer_created (fst (setPeriod s t p)) = timer_created s /\ timer_fd (fst (setPeriod s t p)) = timer_fd s.
Proof.
  unfold setPeriod. cbv zeta. destruct (timer_created (set_m_period s p)) eqn:E; cbn [fst]; [|split; reflexivity].
  exact (settime_fields (set_m_period s p) t _ _).
Qed.
Lemma known_step max s t e s1 o : Known s -> step max s t e = Ok (s1, o) -> Known s1.
Proof.
  intros H E. destruct e; cbn [step] in E.
  - injection E as <- <-. destruct (at_ s); exact H.
  - unfold act in E. destruct (at_ s) as [| | |i| |] eqn:P.
    + injection E as <- <-. exact H.
    + destruct (makePeriodic max s t) as [s2 b] eqn:M. injection E as <- <-. cut (Known s2); [intros X; exact X|].
      unfold makePeriodic in M. destruct (timerfd_create max s) as [s0 fd] eqn:Cr. cbv zeta in M.
      assert (N : fd <> NoValue). { unfold timerfd_create in Cr. destruct (_ <? max)%nat; injection Cr as <- <-; discriminate. }
      set (s3 := match fd with Fd _ => set_created (set_fd s0 fd) true | _ => set_fd s0 fd end) in M.
      assert (N3 : timer_fd s3 = fd) by (unfold s3; destruct fd; reflexivity).
      pose proof (proj2 (setPeriod_fields s3 t (m_period s3))) as Q. rewrite M in Q. cbn [fst] in Q. unfold Known. rewrite Q, N3. intros _. exact N.
    + destruct (m_execute s); injection E as <- <-; exact H.
    + destruct (nth_error _ i); injection E as <- <-; [|exact H]. unfold Known. cbn [timer_created timer_fd set_at].
      assert (G : forall l x, timer_created (fold_left addOperation l x) = timer_created x /\ timer_fd (fold_left addOperation l x) = timer_fd x).
      { induction l as [|z l IH]; intros x; cbn [fold_left]; [split; reflexivity|]. destruct (IH (addOperation x z)) as [-> ->]. split; reflexivity. }
      destruct (G new_ops s) as [-> ->]. exact H.
    + destruct (m_execute s); injection E as <- <-; exact H.
    + unfold read in E. unfold Known in *. destruct (timer_fd s) as [| |n] eqn:G; try discriminate; [injection E as <- <-; cbn; rewrite G; exact H|].
      destruct (nth n (timers s) Disarmed); [injection E as <- <-; rewrite G; exact H|].
      destruct (_ <? _); injection E as <- <-; cbn; rewrite G; exact H.
  - injection E as <- <-. exact H.
  - destruct (setPeriod s t p) as [s2 b] eqn:M. injection E as <- <-. destruct (setPeriod_fields s t p) as [A B]. rewrite M in A, B. cbn [fst] in A, B.
    unfold Known. rewrite A, B. exact H.
  - destruct (at_ s); try discriminate. injection E as <- <-. exact H.
  - destruct (at_ s); injection E as <- <-; exact H.
Qed.
Lemma known_runs max l : forall s s1 o, Known s -> runs max s l = Ok (s1, o) -> Known s1.
Proof.
  induction l as [|[t e] l IH]; intros s s1 o H E; cbn [runs] in E; [injection E as <- <-; exact H|].
  destruct (step max s t e) as [[s2 o2]| |] eqn:G; try discriminate. cbn [bind fst snd] in E. apply (known_step _ _ _ _ _ _ H) in G.
  destruct (runs max s2 l) as [[s3 o3]| |] eqn:K; try discriminate. cbn [bind fst snd] in E. injection E as <- <-. exact (IH _ _ _ G K).
Qed.
