(* C63: scoped locks. *)
From Verif Require Import Base ScopedModel ScopedSpec ScopedProofs.

(* two threads are never in locked scopes of the same lock, unless both have read locks *)
Theorem C63_exclusion : forall m tr s t u l h h', run (init m) tr = Next s -> t <> u -> in_scope s t l h -> in_scope s u l h' -> compatible h h'.
Proof. intros m tr s t u l h h' R. pose proof (run_inv tr (init m) (inv_init m)) as K. rewrite R in K. exact (exclusion s t u l h h' K). Qed.
Print Assumptions C63_exclusion.

(* no destructor unlocks what the thread has not locked *)
Theorem C63_defined : forall m tr, run (init m) tr <> Undefined.
Proof. intros m tr E. pose proof (run_inv tr (init m) (inv_init m)) as K. rewrite E in K. exact K. Qed.
Print Assumptions C63_defined.

(* a lock that nobody has a locked scope of is as free as in the beginning *)
Theorem C63_released : forall m tr s l, run (init m) tr = Next s -> (forall t h, ~ in_scope s t l h) -> locks s l = MFree \/ locks s l = RW None [].
Proof. intros m tr s l R. pose proof (run_inv tr (init m) (inv_init m)) as K. rewrite R in K. exact (released s l K). Qed.
Print Assumptions C63_released.

(* a forced scope is locked *)
Theorem C63_forced : forall m tr s t o, run (init m) tr = Next s -> In o (scopes (threads s t)) -> s_force o = true -> in_scope s t (s_lock o) (s_how o).
Proof.
  intros m tr s t o R I0 Fo. pose proof (run_inv tr (init m) (inv_init m)) as K. rewrite R in K. pose proof (i_force s K t o I0 Fo) as L.
  exists (s_force o). destruct o. cbn in *. subst. exact I0.
Qed.
Print Assumptions C63_forced.

(* nobody else has it in a conflicting way, and not the thread itself (unless it is a mutex): the attempt succeeds *)
Theorem C63_acquired : forall m tr s t l h f, run (init m) tr = Next s -> entering (threads s t) = Some (l, h, f) ->
  (forall u h', u <> t -> in_scope s u l h' -> compatible h h') -> (h = Mx \/ forall h', ~ in_scope s t l h') ->
  exists s', step s t (Attempt false) = Next s' /\ in_scope s' t l h.
Proof.
  intros m tr s t l h f R E A B. pose proof (run_inv tr (init m) (inv_init m)) as K. rewrite R in K.
  destruct (attempt_cases s t l h f K E) as [G|[(u & h' & N & Iu & Nc)|[Nm [h' It]]]].
  - exact (proj2 (attempt_entering s t l h f E G)).
  - destruct (Nc (A u h' N Iu)).
  - destruct B as [B|B]; [destruct (Nm B)|destruct (B h' It)].
Qed.
Print Assumptions C63_acquired.

(* locks taken in ascending order: whoever waits, waits in the end for a thread that can go on *)
Theorem C63_no_deadlock : forall m tr s t, ordered (init m) tr -> run (init m) tr = Next s -> exists u, chain s t u /\ goes_on s u.
Proof.
  intros m tr s t Or R. destruct (run_ordered tr (init m) s 0 (inv_init m)) as (K & O & n & F0); try assumption.
  - intros u l h f Q. discriminate Q.
  - intros u l h f Q. discriminate Q.
  - apply (no_deadlock s n K O F0 (S n) t). intros l h f _. lia.
Qed.
Print Assumptions C63_no_deadlock.

(* ---- what does not hold ---- *)
(* without an order *)
Definition ex_two := fun _ : nat => true.
Definition ex_cross : list (nat * event) :=
  [(0, Enter 1 Mx true); (1, Enter 2 Mx true); (0, Attempt false); (1, Attempt false); (0, Enter 2 Mx true); (1, Enter 1 Mx true); (0, Attempt false); (1, Attempt false)].
Theorem C63_any_order_refuted : exists s, run (init ex_two) ex_cross = Next s /\ waits_for s 0 1 /\ waits_for s 1 0 /\ ~ goes_on s 0 /\ ~ goes_on s 1.
Proof.
  eexists. split; [reflexivity|]. split; [|split; [|split]].
  - split; [discriminate|]. exists 2, Mx, true, Mx. split; [reflexivity|]. split; [exists true; left; reflexivity|]. intros [Q _]; discriminate Q.
  - split; [discriminate|]. exists 1, Mx, true, Mx. split; [reflexivity|]. split; [exists true; left; reflexivity|]. intros [Q _]; discriminate Q.
  - intros (s' & E & N). injection E as <-. discriminate N.
  - intros (s' & E & N). injection E as <-. discriminate N.
Qed.
Print Assumptions C63_any_order_refuted.

(* a read-write lock that the thread already has (unless it reads twice): the forced constructor never returns, whatever happens *)
Theorem C63_upgrade_refuted : forall m tr s t l h h', run (init m) tr = Next s -> in_scope s t l h' -> entering (threads s t) = Some (l, h, true) ->
  h <> Mx -> ~ compatible h h' -> forall tr' s', run s tr' = Next s' -> entering (threads s' t) = Some (l, h, true).
Proof.
  intros m tr s t l h h' R It E Nm Nc tr' s' R'. pose proof (run_inv tr (init m) (inv_init m)) as K. rewrite R in K.
  exact (stuck_run tr' s t l h h' s' K It Nm Nc E R').
Qed.
Print Assumptions C63_upgrade_refuted.

(* another thread has it in a conflicting way: the constructor waits, forced or not *)
Theorem C63_waits : forall m tr s t u l h h' f again, run (init m) tr = Next s -> entering (threads s t) = Some (l, h, f) ->
  u <> t -> in_scope s u l h' -> ~ compatible h h' -> step s t (Attempt again) = Next s.
Proof.
  intros m tr s t u l h h' f again R E. pose proof (run_inv tr (init m) (inv_init m)) as K. rewrite R in K.
  exact (waits_for_other s t u l h h' f again K E).
Qed.
Print Assumptions C63_waits.
(* the thread itself has the write lock: an unforced scope is constructed at once, and isLocked() is false *)
Theorem C63_own_write_lock : forall m tr s t l h, run (init m) tr = Next s -> entering (threads s t) = Some (l, h, false) -> in_scope s t l Wr ->
  forall again, exists s', step s t (Attempt again) = Next s' /\ locks s' = locks s /\ entering (threads s' t) = None /\
  scopes (threads s' t) = Scope l h false false :: scopes (threads s t).
Proof.
  intros m tr s t l h R. pose proof (run_inv tr (init m) (inv_init m)) as K. rewrite R in K. exact (own_write s t l h K).
Qed.
Print Assumptions C63_own_write_lock.

(* ---- examples ---- *)
(* lock 0 is a mutex, the others are read-write locks *)
Definition ex_m (l : nat) : bool := Nat.eqb l 0.
Definition ex_tr : list (nat * event) :=
  [(0, Enter 0 Mx true); (0, Attempt false); (1, Enter 1 Rd true); (1, Attempt true); (1, Attempt false); (2, Enter 1 Rd true); (2, Attempt false);
   (0, Enter 0 Mx true); (0, Attempt false); (0, Enter 1 Wr true); (0, Attempt false); (1, Enter 2 Wr false); (1, Attempt false); (3, Enter 1 Rd false); (3, Attempt true)].
Example C63_ex_state : exists s, run (init ex_m) ex_tr = Next s /\ in_scope s 1 1 Rd /\ in_scope s 2 1 Rd /\ in_scope s 0 0 Mx /\
  waits_for s 0 1 /\ ~ goes_on s 0 /\ chain s 0 1 /\ goes_on s 1 /\ scopes (threads s 3) = [Scope 1 Rd false false].
Proof.
  assert (W : forall s, entering (threads s 0) = Some (1, Wr, true) -> in_scope s 1 1 Rd -> waits_for s 0 1).
  { intros s E A. split; [discriminate|]. exists 1, Wr, true, Rd. split; [exact E|]. split; [exact A|]. intros [Q _]; discriminate Q. }
  eexists. split; [reflexivity|]. split; [exists true; right; left; reflexivity|]. split; [exists true; left; reflexivity|]. split; [exists true; left; reflexivity|].
  split; [apply W; [reflexivity|exists true; right; left; reflexivity]|].
  split; [intros (s' & E & N); injection E as <-; discriminate N|]. split; [|split; [exact Logic.I|reflexivity]].
  apply (chain_next _ 0 1 1); [|constructor]. apply W; [reflexivity|exists true; right; left; reflexivity].
Qed.
Ltac next_step := match goal with
  | |- ordered _ [] => exact Logic.I
  | |- ordered ?s ((?t, ?e) :: ?r) =>
    split; [|let v := eval vm_compute in (step s t e) in match v with Next ?s' => change (ordered s' r) end]
  end.
Ltac in_order_tac := cbn [in_order]; first
  [ exact Logic.I
  | left; split; [reflexivity|]; exists true; left; reflexivity
  | right; intros l' h' (f & I0); vm_compute in I0; repeat (destruct I0 as [I0|I0]; [injection I0; intros; subst; lia|]); destruct I0 ].
Example C63_ex_ordered : ordered (init ex_m) ex_tr.
Proof. unfold ex_tr. repeat (next_step; [in_order_tac|]). next_step. Qed.
(* a thread that reads and then wants to write *)
Example C63_ex_upgrade : exists s, run (init ex_m) [(0, Enter 1 Rd true); (0, Attempt false); (0, Enter 1 Wr true)] = Next s /\
  in_scope s 0 1 Rd /\ entering (threads s 0) = Some (1, Wr, true) /\ ~ compatible Wr Rd.
Proof. eexists. split; [reflexivity|]. split; [exists true; left; reflexivity|]. split; [reflexivity|]. intros [Q _]; discriminate Q. Qed.
(* all scopes left again *)
Example C63_ex_free : exists s, run (init ex_m) (ex_tr ++ [(3, Leave); (2, Leave); (1, Leave); (1, Leave); (0, Attempt false); (0, Leave); (0, Leave); (0, Leave)]) = Next s /\
  locks s 0 = MFree /\ locks s 1 = RW None [] /\ locks s 2 = RW None [].
Proof. eexists. split; [reflexivity|]. repeat split; reflexivity. Qed.
Example C63_ex_own_write : exists s, run (init ex_m) [(0, Enter 1 Wr true); (0, Attempt false); (0, Enter 1 Rd false); (1, Enter 1 Rd false)] = Next s /\
  in_scope s 0 1 Wr /\ entering (threads s 0) = Some (1, Rd, false) /\ entering (threads s 1) = Some (1, Rd, false).
Proof. eexists. split; [reflexivity|]. split; [exists true; left; reflexivity|]. split; reflexivity. Qed.
