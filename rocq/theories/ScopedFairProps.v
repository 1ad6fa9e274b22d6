(* C63: scoped locks, what happens in every fair execution. Vocabulary: Fair, ScopedSpec, ScopedFairSpec. *)
From Verif Require Import Base ScopedModel ScopedSpec ScopedProofs FairLemmas ScopedFairSpec ScopedFairProofs.

(* every constructor of a scoped lock returns, if blocks end, locks are taken in ascending order and readers leave a writer some moment *)
Theorem C63_fair_constructors_return m r n t : fair m r -> blocks_end r -> readers_pause r ->
  entering (threads (r n) t) <> None -> eventually n (fun k => entering (threads (r k) t) = None).
Proof. intros (Ex & Sf & L & Few) Ends Pause. exact (constructors_return m r Ex Sf L Few Ends Pause n t). Qed.
Print Assumptions C63_fair_constructors_return.
(* so every block ends *)
Theorem C63_fair_blocks_left m r n t o rest : fair m r -> blocks_end r -> readers_pause r ->
  scopes (threads (r n) t) = o :: rest -> eventually n (fun k => scopes (threads (r k) t) = rest).
Proof. intros (Ex & Sf & L & Few) Ends Pause. exact (blocks_left m r Ex Sf L Few Ends Pause n t o rest). Qed.
Print Assumptions C63_fair_blocks_left.
(* with mutexes only, nothing is needed of the readers *)
Theorem C63_fair_mutexes m r n t : (forall l, m l = true) -> fair m r -> blocks_end r ->
  entering (threads (r n) t) <> None -> eventually n (fun k => entering (threads (r k) t) = None).
Proof. intros M (Ex & Sf & L & Few) Ends. exact (constructors_return m r Ex Sf L Few Ends (mutexes_pause m r M Ex) n t). Qed.
Print Assumptions C63_fair_mutexes.
(* refuted: without the pause a writer may wait for ever, though every reader leaves: the readers overlap *)
Theorem C63_fair_writer_starvation_refuted : ~ (forall m r n t, fair m r -> blocks_end r ->
  entering (threads (r n) t) <> None -> eventually n (fun k => entering (threads (r k) t) = None)).
Proof.
  intros H. destruct (H overlap_mutex overlap_run 4 2 overlap_fair overlap_end) as (k & Lk & E).
  - rewrite (overlap_waits 4 (le_n 4)). discriminate.
  - rewrite (overlap_waits k Lk) in E. discriminate E.
Qed.
Print Assumptions C63_fair_writer_starvation_refuted.

(* the hypotheses can be met: thread 1 waits for a mutex of thread 0, which takes another one and a read lock that thread 2 waits for *)
Example C63_fair_ex : fair nested_mutex nested_run /\ blocks_end nested_run /\ readers_pause nested_run /\
  waits_for (nested_run 11) 1 0 /\ waits_for (nested_run 11) 2 0 /\ in_scope (nested_run 14) 2 3 Wr /\ in_scope (nested_run 17) 1 1 Mx.
Proof.
  split; [exact nested_fair|]. split; [exact nested_end|]. split; [exact nested_pause|].
  assert (Q : forall n, n <= 18 -> same (nested_run n) (at_ nested_mutex nested_evs n)).
  { intros n L. pose proof (run_same nested_mutex nested_evs 0 nested_closes n) as K. replace (pos nested_mutex nested_evs 0 n) with n in K; [exact K|].
    unfold pos. pose proof (loop_forward (fun p => apply_event (ev nested_evs p)) 0 (last_ nested_evs) (init nested_mutex) (Nat.le_0_l _) 0 n) as F0. rewrite Nat.add_0_r in F0.
    rewrite F0; [reflexivity|]. change (last_ nested_evs) with 18. exact L. }
  destruct (Q 11 ltac:(lia)) as [_ B]. destruct (Q 14 ltac:(lia)) as [_ B']. destruct (Q 17 ltac:(lia)) as [_ B'']. unfold waits_for, in_scope.
  rewrite !B, B', B''. split; [|split; [|split]].
  - split; [discriminate|]. exists 1, Mx, true, Mx. split; [vm_compute; reflexivity|]. split; [exists true; vm_compute; right; right; left; reflexivity|]. intros [X _]; discriminate X.
  - split; [discriminate|]. exists 3, Wr, true, Rd. split; [vm_compute; reflexivity|]. split; [exists false; vm_compute; left; reflexivity|]. intros [X _]; discriminate X.
  - exists true. vm_compute. left; reflexivity.
  - exists true. vm_compute. left; reflexivity.
Qed.
