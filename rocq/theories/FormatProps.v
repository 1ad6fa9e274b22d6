(* C76: changes of the log format *)
From Verif Require Import Conc FormatModel FormatSpec.
From Verif Require FormatProofs.

(* If calls of changeLogFormat do not overlap and no signal interrupts their waits (signals may interrupt those of threads that log, whose line is then
   lost), any number of threads may log meanwhile: every line is printed with all the entries of one format that was asked for (or the default), and when no change is under way the format is the one asked for last. *)
Theorem C76_whole_formats : forall E (dflt : list E) ip s, reach (finit dflt) (fstep true false ip) s ->
  (forall l, In l (lines s) -> In l (asked s)) /\ (settled s -> nth_error (asked s) 0 = Some (log s) /\ new s = []).
Proof.
  intros E dflt ip s R. destruct (FormatProofs.finv_reach ip dflt s R) as (_ & I0). split; [exact (FormatProofs.f_lines _ I0)|exact (FormatProofs.f_rest _ I0)].
Qed.
Print Assumptions C76_whole_formats.

(* Whatever the calls and the signals: at most one thread is inside; while a line is printed the format does not change; the line has all its entries. *)
Theorem C76_locked : forall E (dflt : list E) single ic ip s, reach (finit dflt) (fstep single ic ip) s ->
  (forall t u, inside (pc s t) -> inside (pc s u) -> t = u) /\
  (forall t d, pc s t = G187 d -> (exists r, log s = d ++ r) /\ forall u s', u <> t -> fact u s = Some s' -> log s' = log s) /\
  (forall t d s', pc s t = G187 d -> fact t s = Some s' -> pc s' t = G292 -> lines s' = log s :: lines s /\ log s' = log s).
Proof.
  intros E dflt single ic ip s R. pose proof (FormatProofs.lock_reach _ _ _ _ _ R) as L.
  assert (X : forall t u, inside (pc s t) -> inside (pc s u) -> t = u).
  { intros t u A B. apply FormatProofs.inside_holding in A, B. exact (FormatProofs.lock_excl s t u L A B). }
  split; [exact X|]. split.
  - intros t d Q. split; [exact (FormatProofs.l_print _ L t d Q)|]. intros u s' N H.
    assert (NI : ~ inside (pc s u)). { intros A. apply N, X; [exact A|]. rewrite Q. exact Logic.I. }
    unfold fact in H. destruct (pc s u) as [|[|e r]| | | | | | |d'|]; try (destruct (NI Logic.I)); try discriminate H.
    + injection H as <-. reflexivity.
    + injection H as <-. reflexivity.
    + destruct (mx s); [discriminate H|]. injection H as <-. reflexivity.
    + destruct (mx s); [discriminate H|]. injection H as <-. reflexivity.
  - intros t d s' Q H P. unfold fact in H. rewrite Q in H. destruct (FormatProofs.l_print _ L t d Q) as (r & Er).
    destruct (nth_error (log s) (length d)) as [e|] eqn:Z; injection H as <-.
    + cbn in P. rewrite upd_same in P. discriminate P.
    + assert (r = []) as ->. { destruct r as [|e r]; [reflexivity|]. rewrite Er, nth_error_app2, Nat.sub_diag in Z by lia. discriminate Z. }
      rewrite app_nil_r in Er. rewrite Er. split; reflexivity.
Qed.
Print Assumptions C76_locked.

(* No deadlock: while some call is under way some thread can act. *)
Theorem C76_no_deadlock : forall E (dflt : list E) single ic ip s t, reach (finit dflt) (fstep single ic ip) s -> pc s t <> Idle -> exists u s', fact u s = Some s'.
Proof. intros E dflt single ic ip s t. apply FormatProofs.progress. Qed.
Print Assumptions C76_no_deadlock.

(* No call hangs: whatever the order in which the threads go on (some thread does as long as a call is under way), all calls under way have
   returned after finitely many actions, unless new ones are made. *)
Theorem C76_calls_finish : forall E (dflt : list E) single ic ip (r : nat -> fst_ E), reach (finit dflt) (fstep single ic ip) (r 0) ->
  (forall i, (exists t, fact t (r i) = Some (r (S i))) \/ forall t, pc (r i) t = Idle) -> exists i, forall t, pc (r i) t = Idle.
Proof. intros E dflt single ic ip r R. destruct (FormatProofs.few_calls _ _ _ _ _ R) as (n & Z). exact (FormatProofs.finishes n _ _ r (le_n _) (le_n _) Z). Qed.
Print Assumptions C76_calls_finish.

(* Two changes at once mix their entries: m_new_log_format is filled without the mutex (in C++ even that is a data race). *)
Theorem C76_two_changes_refuted :
  ~ (forall s, reach (finit [0]) (fstep false false false) s -> forall l : list nat, In l (lines s) -> In l (asked s)).
Proof.
  intros H. destruct FormatProofs.mixed as (s & R & L & A). specialize (H s R [1; 3; 2; 4]). rewrite L, A in H.
  specialize (H (or_introl eq_refl)). cbn in H. intuition discriminate.
Qed.
Print Assumptions C76_two_changes_refuted.

(* A change whose wait is interrupted by a signal is dropped, and its entries come back in front of those of the next change. *)
Theorem C76_interrupted_refuted :
  ~ (forall s, reach (finit [0]) (fstep true true false) s -> settled s -> In (log s) (asked s : list (list nat))).
Proof.
  intros H. destruct FormatProofs.left_over as (s & R & T & L & A). specialize (H s R T). rewrite L, A in H. cbn in H. intuition discriminate.
Qed.
Print Assumptions C76_interrupted_refuted.

(* a line printed with the format asked for, and one with the default while the change waits *)
Example C76_nonvacuous : exists s, reach (finit [0]) (fstep true false false) s /\ lines s = [[1; 2]; [0]] /\ asked s = [[1; 2]; [0]] /\ log s = [1; 2].
Proof.
  assert (R0 : reach (finit [0]) (fstep true false false) (call_change 1 [1; 2] (call_print 2 (finit [0])))).
  { eapply reach_step; [eapply reach_step; [apply reach_init|]|].
    - refine (f_print true false false 2 _ _). reflexivity.
    - refine (f_change true false false 1 [1; 2] _ _ _); [reflexivity|]. intros _ u. cbn. unfold upd. destruct (u =? 2); reflexivity. }
  destruct (acts [2; 1; 1; 1; 2; 2; 2; 1; 1; 1; 1; 1] (call_change 1 [1; 2] (call_print 2 (finit [0])))) as [s1|] eqn:A; [|vm_compute in A; discriminate A].
  pose proof (FormatProofs.acts_reach _ _ _ _ _ _ _ A R0) as R1.
  assert (R2 : reach (finit [0]) (fstep true false false) (call_print 2 s1)).
  { eapply reach_step; [exact R1|]. apply f_print. revert A. vm_compute. intros [= <-]. reflexivity. }
  destruct (acts [2; 2; 2; 2; 2] (call_print 2 s1)) as [s3|] eqn:B.
  - exists s3. split; [exact (FormatProofs.acts_reach _ _ _ _ _ _ _ B R2)|]. revert B. revert A. vm_compute. intros [= <-] [= <-]. repeat split.
  - exfalso. revert B. revert A. vm_compute. intros [= <-]. discriminate.
Qed.
(* for C76_calls_finish: a change and a line under way, thread 1 goes on whenever it can *)
Example C76_finish_nonvacuous : exists r : nat -> fst_ nat, reach (finit [0]) (fstep true false false) (r 0) /\ pc (r 0) 1 = F130 [1; 2] /\ pc (r 0) 2 = G184 /\
  (forall i, (exists t, fact t (r i) = Some (r (S i))) \/ forall t, pc (r i) t = Idle).
Proof.
  pose (nx := fun s : fst_ nat => match fact 1 s with Some s' => s' | None => match fact 2 s with Some s' => s' | None => s end end).
  pose (s0 := call_change 1 [1; 2] (call_print 2 (finit [0]))).
  assert (R0 : reach (finit [0]) (fstep true false false) s0).
  { eapply reach_step; [eapply reach_step; [apply reach_init|]|].
    - refine (f_print true false false 2 _ _). reflexivity.
    - refine (f_change true false false 1 [1; 2] _ _ _); [reflexivity|]. intros _ u. cbn. unfold upd. destruct (u =? 2); reflexivity. }
  exists (fun i => Nat.iter i nx s0). split; [exact R0|]. split; [reflexivity|]. split; [reflexivity|].
  assert (K : forall i, reach (finit [0]) (fstep true false false) (Nat.iter i nx s0) /\ forall u, 2 < u \/ u = 0 -> pc (Nat.iter i nx s0) u = Idle).
  { assert (Only : forall t s s', fact t s = Some s' -> 0 < t <= 2 -> (forall u, 2 < u \/ u = 0 -> pc s u = Idle) -> forall u, 2 < u \/ u = 0 -> pc s' u = @Idle nat).
    { intros t s s' H T Z u Hu. assert (N : u <> t) by lia. assert (E0 : pc s' u = pc s u); [|rewrite E0; exact (Z u Hu)].
      revert H. unfold fact. destruct (pc s t) as [|[|e l]| | | | | | |d|]; try destruct (mx s); try destruct (nth_error _ _); try discriminate;
        intros [= <-]; cbn; unfold upd; destruct (Nat.eqb_spec u t); congruence. }
    induction i as [|i (R & Z)].
    - split; [exact R0|]. intros u Hu. cbn. unfold upd. repeat match goal with |- context [?a =? ?b] => destruct (Nat.eqb_spec a b) end; try lia; reflexivity.
    - cbn [Nat.iter nat_rect]. change (nat_rect _ _ _ i) with (Nat.iter i nx s0). set (s := Nat.iter i nx s0) in *. unfold nx.
      destruct (fact 1 s) as [s'|] eqn:A; [split; [eapply reach_step; [exact R|exact (f_act _ _ _ 1 s s' A)]|exact (Only 1 s s' A ltac:(lia) Z)]|].
      destruct (fact 2 s) as [s'|] eqn:B; [split; [eapply reach_step; [exact R|exact (f_act _ _ _ 2 s s' B)]|exact (Only 2 s s' B ltac:(lia) Z)]|].
      split; assumption. }
  intros i. destruct (K i) as (R & Z). change (Nat.iter (S i) nx s0) with (nx (Nat.iter i nx s0)). set (s := Nat.iter i nx s0) in *. unfold nx.
  destruct (fact 1 s) as [s'|] eqn:A; [left; exists 1; exact A|]. destruct (fact 2 s) as [s'|] eqn:B; [left; exists 2; exact B|]. right. intros t.
  destruct (Nat.eq_dec t 1) as [T1|T1]; [|destruct (Nat.eq_dec t 2) as [T2|T2]; [|apply Z; lia]];
    (destruct (pc s t) eqn:Q; [reflexivity|..]); exfalso;
    (destruct (C76_no_deadlock _ _ _ _ _ s t R ltac:(rewrite Q; discriminate)) as (u & s' & U));
    (assert (u = 1 \/ u = 2) as [-> | ->] by
      (destruct (Nat.eq_dec u 1); [tauto|]; destruct (Nat.eq_dec u 2); [tauto|]; unfold fact in U; rewrite (Z u) in U by lia; discriminate U)); congruence.
Qed.
