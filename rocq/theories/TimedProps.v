(* Property C65: locks and semaphores, with and without time-outs. *)
From Verif Require Import Base CInt TimeModel TimeSpec TimeProofs PeriodModel PeriodSpec PeriodProofs TimedModel TimedSpec TimedProofs.
Local Open Scope Z_scope.

(* two threads have a lock at the same time only if both read *)
Theorem C65_exclusion :
  forall p ob l s o t1 w1 t2 w2, fresh ob -> runs p (idle ob) l = Ok (s, o) ->
  has t1 w1 o -> has t2 w2 o -> t1 <> t2 -> w1 = Read /\ w2 = Read.
Proof.
  intros p ob l s o t1 w1 t2 w2 F0 E A B N. exact (inv_exclusion _ _ _ _ _ _ (runs_inv _ _ _ _ _ _ E (fresh_inv _ F0)) A B N).
Qed.
Print Assumptions C65_exclusion.

(* a call that has been made at time now1, when the thread runs again at time now2: it returns true exactly if the lock is free for
   it, whatever the time; otherwise false if its time is over (or it writes itself); otherwise it goes on waiting *)
Theorem C65_lock_answer :
  forall p ob l1 s1 o1 t now1 w h l2 s2 o2 now2,
  fresh ob -> runs p (idle ob) l1 = Ok (s1, o1) -> waiting s1 t = None -> exists_ p w ob = true ->
  in_range p now1 h -> clock_value now1 -> clock_value now2 -> others_only t l2 ->
  runs p s1 ((t, now1, Call w h) :: l2) = Ok (s2, o2) ->
  let o := o1 ++ o2 in
  (free_for t w o -> exists s3, step p s2 t now2 Run = Ok (s3, [Returned t w true])) /\
  (~ free_for t w o -> gives_up p now1 h now2 \/ refused p h t o -> exists s3, step p s2 t now2 Run = Ok (s3, [Returned t w false])) /\
  (~ free_for t w o -> ~ gives_up p now1 h now2 -> ~ refused p h t o -> step p s2 t now2 Run = Ok (s2, [])).
Proof.
  intros p ob l1 s1 o1 t now1 w h l2 s2 o2 now2 F0 E1 W X R0 C1 C2 N E2 o.
  destruct (begin_all p now1 h R0 C1) as (l & B & L & D).
  pose proof (answer_gen p ob l1 s1 o1 t now1 w h l l2 s2 o2 now2 (gives_up p now1 h now2) F0 E1 W X B (L now2 C2) N E2) as A.
  unfold refused. rewrite <- D. exact A.
Qed.
Print Assumptions C65_lock_answer.

(* nothing is undefined while locks are released only by threads that have them *)
Theorem C65_locks_defined :
  forall p ob l s o t now e, fresh ob -> runs p (idle ob) l = Ok (s, o) -> clock_value now ->
  (forall w h, e = Call w h -> in_range p now h) -> (e = Release -> exists w, has t w o) ->
  exists s' o', step p s t now e = Ok (s', o').
Proof.
  intros p ob l s o t now e F0 E C0 A R. apply step_defined; [exact A|exact C0|]. intros Q _. destruct (R Q) as [w H].
  exact (release_defined _ _ _ _ (runs_inv _ _ _ _ _ _ E (fresh_inv _ F0)) H).
Qed.
Print Assumptions C65_locks_defined.

(* a new semaphore has the value asked for *)
Theorem C65_new_semaphore :
  forall p v, 0 <= v < 2^31 -> new_semaphore p v = Ok (Sem v).
Proof.
  intros p v H. destruct p; cbn [new_semaphore]; unfold to_u32, sem_max; try (rewrite Z.mod_small by lia; destruct (Z.leb_spec v 2147483647); [reflexivity|lia]).
  rewrite to_i32_id by (unfold in_i32; lia). destruct (Z.leb_spec 0 v); [reflexivity|lia].
Qed.
Print Assumptions C65_new_semaphore.

(* its value is the initial one with the posts and without the successful waits, and never negative; nothing is undefined *)
Theorem C65_semaphore_value :
  forall p v0 l s o, 0 <= v0 < 2^31 -> runs p (idle (Sem v0)) l = Ok (s, o) ->
  object s = Sem (count v0 o) /\ 0 <= count v0 o < 2^31 /\
  (no_overflow v0 o -> count v0 o = v0 + posts o - takes o) /\
  forall t now e, clock_value now -> (forall w h, e = Call w h -> in_range p now h) -> exists s' o', step p s t now e = Ok (s', o').
Proof.
  intros p v0 l s o H E. destruct (runs_sem _ _ _ _ _ _ E eq_refl) as [A B]; [unfold sem_max; lia|].
  split; [exact A|]. split; [unfold sem_max in B; lia|]. split; [apply count_sum|]. intros t now e C0 R. apply step_defined; [exact R|exact C0|].
  intros _ _. rewrite A. cbn [release]. eexists. reflexivity.
Qed.
Print Assumptions C65_semaphore_value.

Theorem C65_semaphore_answer :
  forall p v0 l1 s1 o1 t now1 h l2 s2 o2 now2,
  p <> Darwin -> 0 <= v0 < 2^31 -> runs p (idle (Sem v0)) l1 = Ok (s1, o1) -> waiting s1 t = None ->
  in_range p now1 h -> clock_value now1 -> clock_value now2 -> others_only t l2 ->
  runs p s1 ((t, now1, Call Take h) :: l2) = Ok (s2, o2) ->
  let value := count v0 (o1 ++ o2) in
  (0 < value -> exists s3, step p s2 t now2 Run = Ok (s3, [Returned t Take true])) /\
  (value = 0 -> gives_up p now1 h now2 -> exists s3, step p s2 t now2 Run = Ok (s3, [Returned t Take false])) /\
  (value = 0 -> ~ gives_up p now1 h now2 -> step p s2 t now2 Run = Ok (s2, [])).
Proof.
  intros p v0 l1 s1 o1 t now1 h l2 s2 o2 now2 Np H E1 W R0 C1 C2 N E2 value.
  destruct (begin_all p now1 h R0 C1) as (l & B & L & D).
  apply (answer_sem p v0 l1 s1 o1 t now1 h l l2 s2 o2 now2 (gives_up p now1 h now2) Np ltac:(unfold sem_max; lia) E1 W B (L now2 C2) N E2).
Qed.
Print Assumptions C65_semaphore_answer.

(* used in scopes (each post by a thread that got it), a semaphore lets at most as many threads in as its initial value, and what
   is left is its value *)
Theorem C65_semaphore_scopes :
  forall p v0 l s o, 0 <= v0 < 2^31 -> runs p (idle (Sem v0)) l = Ok (s, o) -> scoped_use [] o ->
  exists left, object s = Sem left /\ 0 <= left /\ Z.of_nat (length (holders [] o)) + left = v0.
Proof.
  intros p v0 l s o H E U. destruct (runs_sem _ _ _ _ _ _ E eq_refl) as [A B]; [unfold sem_max; lia|].
  exists (count v0 o). split; [exact A|]. split; [lia|]. pose proof (scoped_sem v0 o ltac:(unfold sem_max; lia) [] U) as G. cbn [length] in G. rewrite Z.sub_0_r in G. exact G.
Qed.
Print Assumptions C65_semaphore_scopes.

(* Win32 gives up at most one millisecond too early, never too late *)
Theorem C65_whole_milliseconds :
  forall now1 d now2, 0 <= total d ->
  (expired now1 (For d) now2 -> expired_ms now1 (For d) now2) /\
  (expired_ms now1 (For d) now2 -> total now1 + total d < total now2 + 1000000).
Proof.
  intros now1 d now2 P. cbn [expired expired_ms]. unfold whole_ms. destruct (Z.ltb_spec (total d) 0); [lia|].
  pose proof (Z.mod_pos_bound (total d) 1000000 ltac:(lia)). rewrite (Z.div_mod (total d) 1000000) at 1 3 by lia. split; intros; lia.
Qed.
Print Assumptions C65_whole_milliseconds.

(* What does not hold. *)
Definition busy_win : history := [(1%nat, T 100 0, Call Lock Block); (1%nat, T 100 0, Run)].
Theorem C65_early_refuted :
  exists s, runs Win32 (idle (Mtx None)) (busy_win ++ [(2%nat, T 100 0, Call Lock (For (T 0 999999))); (2%nat, T 100 0, Run)]) =
    Ok (s, [Returned 1 Lock true; Returned 2 Lock false]).
Proof. eexists. vm_compute. reflexivity. Qed.
Print Assumptions C65_early_refuted.
(* a span of minus one millisecond waits for ever, one of 2^32 milliseconds not at all *)
Theorem C65_win32_range_refuted :
  (forall now, begin Win32 now (For (T 0 (-1000000))) = Ok Forever) /\
  (forall now, begin Win32 now (For (T 4294967 296000000)) = Ok (Deadline (ns now))).
Proof.
  split; intros now; [vm_compute; reflexivity|]. cbn [begin]. unfold milliseconds. change (to_msec (T 4294967 296000000)) with (Ok 4294967296). cbn [bind].
  change (to_u32 4294967296) with 0. cbv zeta. change (0 =? 4294967295) with false. cbv iota. rewrite Z.add_0_r. reflexivity.
Qed.
Print Assumptions C65_win32_range_refuted.
(* a signal ends the wait for a semaphore without its having been taken, though nobody has posted and no time-out was given *)
Theorem C65_signal_refuted :
  forall now, exists s, runs Posix (idle (Sem 0)) [(1%nat, now, Call Take Block); (1%nat, now, Signal)] = Ok (s, [Returned 1 Take false]).
Proof. intros now. eexists. vm_compute. reflexivity. Qed.
Print Assumptions C65_signal_refuted.
(* posts at the largest value are lost *)
Theorem C65_post_lost_refuted :
  forall p now, exists s, runs p (idle (Sem (2^31 - 1))) [(1%nat, now, Release)] = Ok (s, [Released 1]) /\ object s = Sem (2^31 - 1).
Proof. intros p now. destruct p; eexists; split; vm_compute; reflexivity. Qed.
Print Assumptions C65_post_lost_refuted.
(* a size_t is cut to 32 bits; a value that does not fit leaves a semaphore that must not be used *)
Theorem C65_initial_value_refuted :
  new_semaphore Posix (2^32 + 1) = Ok (Sem 1) /\ new_semaphore Posix (2^31) = UB.
Proof. split; vm_compute; reflexivity. Qed.
Print Assumptions C65_initial_value_refuted.
(* unlock() of a read-write lock by a thread that does not have it *)
Theorem C65_foreign_unlock_refuted :
  forall p now, runs p (idle (Rwl None [])) [(1%nat, now, Release)] = UB.
Proof. intros p now. destruct p; vm_compute; reflexivity. Qed.
Print Assumptions C65_foreign_unlock_refuted.

(* Concrete cases: a mutex taken twice, a time-out of half a second that passes, one that is saved by the unlock, a reader beside
   readers, a writer that asks again *)
Example C65_nonvacuous_mutex :
  exists s, runs Posix (idle (Mtx None))
    [(1%nat, T 100 0, Call Lock Block); (1%nat, T 100 0, Run); (1%nat, T 101 0, Call Lock Try); (1%nat, T 101 0, Run);
     (2%nat, T 102 700000000, Call Lock (For (T 0 500000000))); (2%nat, T 103 199999999, Run); (2%nat, T 103 200000000, Run);
     (2%nat, T 104 0, Call Lock (Until (T 105 0))); (1%nat, T 104 1, Release); (2%nat, T 104 2, Run); (1%nat, T 104 3, Release); (2%nat, T 200 0, Run)] =
    Ok (s, [Returned 1 Lock true; Returned 1 Lock true; Returned 2 Lock false; Released 1; Released 1; Returned 2 Lock true]).
Proof. eexists. vm_compute. reflexivity. Qed.
Example C65_nonvacuous_rwlock :
  exists s, runs Posix (idle (Rwl None []))
    [(1%nat, T 100 0, Call Read Block); (1%nat, T 100 0, Run); (2%nat, T 101 0, Call Read Try); (2%nat, T 101 0, Run);
     (3%nat, T 102 0, Call Write (Until (T 103 0))); (3%nat, T 102 0, Run); (1%nat, T 102 1, Release); (3%nat, T 102 2, Run); (2%nat, T 102 3, Release);
     (3%nat, T 104 0, Run); (3%nat, T 104 0, Call Read Block); (3%nat, T 104 0, Run); (1%nat, T 105 0, Call Read (For (T 0 0))); (1%nat, T 105 0, Run)] =
    Ok (s, [Returned 1 Read true; Returned 2 Read true; Released 1; Released 2; Returned 3 Write true; Returned 3 Read false; Returned 1 Read false]).
Proof. eexists. vm_compute. reflexivity. Qed.
Example C65_nonvacuous_semaphore :
  exists s, runs Posix (idle (Sem 1))
    [(1%nat, T 100 0, Call Take Block); (1%nat, T 100 0, Run); (2%nat, T 100 0, Call Take (For (T 1 0))); (2%nat, T 100 999999999, Run); (2%nat, T 101 0, Run);
     (2%nat, T 101 0, Call Take Block); (1%nat, T 102 0, Release); (2%nat, T 102 0, Run)] =
    Ok (s, [Returned 1 Take true; Returned 2 Take false; Released 1; Returned 2 Take true]) /\
    scoped_use [] [Returned 1 Take true; Returned 2 Take false; Released 1; Returned 2 Take true].
Proof. eexists. split; [vm_compute; reflexivity|]. cbn. tauto. Qed.
Example C65_nonvacuous_times :
  in_range Posix (T 102 700000000) (For (T 0 500000000)) /\ in_range Win32 (T 104 0) (Until (T 105 0)) /\ clock_value (T 102 700000000) /\
  others_only 2 [(1%nat, T 104 1, Release)].
Proof.
  unfold in_range, sane, moderate, canonical, total, clock_value, fits_ms. cbn.
  unfold others_only. repeat split; try lia; try discriminate. constructor; [discriminate|constructor].
Qed.
