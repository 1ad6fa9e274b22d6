From Verif Require Import Conc SpinLockModel SpinLockSpec.

Ltac updc u t := unfold upd; destruct (Nat.eqb_spec u t) as [->|?].
Ltac inj E := injection E as <-.

(* who has the token: locked iff exactly one thread has it or is about to store UNLOCKED *)
Definition owner (s : st) (t : tid) : Prop := has s t = true \/ pcs s t = U68.
Definition inv (s : st) : Prop :=
  (forall t, has s t = true -> resting (pcs s t) = true) /\
  (forall t, pcs s t <> T62) /\
  (locked s = false -> forall t, ~ owner s t) /\
  (locked s = true -> exists t, owner s t /\ forall u, owner s u -> u = t).

Lemma inv_step s s' : inv s -> any without_tryLock s s' -> inv s'.
Proof.
  intros (I1 & I2 & I3 & I4) (t & ST). destruct ST as [t s s' E|t s Hr Hh|t s F|t s Hr Hh]; [| |discriminate F|].
  - unfold tstep in E. destruct (pcs s t) eqn:Ep; try discriminate E; inj E.
    + destruct (locked s) eqn:El.
      * unfold set_locked. split; [|split; [|split]]; cbn; auto.
      * split; [|split; [|split]]; cbn; try discriminate.
        -- intros u. updc u t; auto.
        -- intros u. updc u t; auto. discriminate.
        -- intros _. exists t. split; [left; cbn; rewrite upd_same; auto|].
           intros u Hu. destruct (Nat.eq_dec u t) as [|N]; auto. exfalso. apply (I3 eq_refl u).
           destruct Hu as [Hu|Hu]; cbn in Hu; rewrite upd_other in Hu by auto; [left|right]; auto.
    + exfalso. apply (I2 t Ep).
    + assert (L : locked s = true).
      { destruct (locked s) eqn:El; auto. exfalso. apply (I3 eq_refl t). right; auto. }
      destruct (I4 L) as (w & Hw & U). assert (t = w) by (apply U; right; auto). subst w.
      assert (Hh : has s t = false).
      { destruct (has s t) eqn:Hh; auto. apply I1 in Hh. rewrite Ep in Hh. discriminate. }
      split; [|split; [|split]]; cbn; try discriminate.
      * intros u. updc u t; auto.
      * intros u. updc u t; auto. discriminate.
      * intros _ u [Hu|Hu]; cbn in Hu.
        -- assert (u = t) by (apply U; left; auto). congruence.
        -- revert Hu. updc u t; [discriminate|]. intros Hu. apply n. apply U. right; auto.
  - (* lock() *)
    split; [|split; [|split]]; cbn.
    + intros u. updc u t; auto. congruence.
    + intros u. updc u t; auto. discriminate.
    + intros El u [Hu|Hu]; cbn in Hu.
      * apply (I3 El u). left; auto.
      * revert Hu. updc u t; [discriminate|]. intros Hu. apply (I3 El u). right; auto.
    + intros El. destruct (I4 El) as (w & Hw & U). exists w. split.
      * destruct Hw as [Hw|Hw]; [left; auto|right]. cbn. updc w t; auto. rewrite Hw in Hr. discriminate.
      * intros u [Hu|Hu]; cbn in Hu; [apply U; left; auto|]. revert Hu. updc u t; [discriminate|]. intros Hu. apply U. right; auto.
  - (* unlock() *)
    assert (L : locked s = true).
    { destruct (locked s) eqn:El; auto. exfalso. apply (I3 eq_refl t). left; auto. }
    destruct (I4 L) as (w & Hw & U). assert (t = w) by (apply U; left; auto). subst w.
    split; [|split; [|split]]; cbn.
    + intros u. updc u t; auto.
    + intros u. updc u t; auto. discriminate.
    + congruence.
    + intros _. exists t. split; [right; cbn; apply upd_same|].
      intros u [Hu|Hu]; cbn in Hu; revert Hu; updc u t; auto; intros Hu; apply U; [left|right]; auto.
Qed.
Lemma reach_inv s : reach init (any without_tryLock) s -> inv s.
Proof.
  intros R. induction R; [|eapply inv_step; eauto].
  split; [|split; [|split]]; cbn; try discriminate.
  intros _ t [F|F]; discriminate F.
Qed.

Lemma mutual_exclusion s t u : reach init (any without_tryLock) s -> has s t = true -> has s u = true -> t = u.
Proof.
  intros R Ht Hu. destruct (reach_inv s R) as (I1 & I2 & I3 & I4). destruct (locked s) eqn:El.
  - destruct (I4 eq_refl) as (w & _ & U). rewrite (U t), (U u); auto; left; auto.
  - exfalso. apply (I3 eq_refl t). left; auto.
Qed.

(* when nobody has the lock and nobody is releasing it, a waiting lock() succeeds at its next turn *)
Lemma lock_succeeds s t : reach init (any without_tryLock) s -> pcs s t = L48 -> nobody_has s ->
  (forall u, pcs s u <> U68) -> exists s', tstep t s = Some s' /\ has s' t = true /\ pcs s' t = Ret true.
Proof.
  intros R Ep N NU. destruct (reach_inv s R) as (I1 & I2 & I3 & I4).
  assert (El : locked s = false).
  { destruct (locked s) eqn:El; auto. destruct (I4 eq_refl) as (w & [Hw|Hw] & _); [rewrite N in Hw; discriminate|].
    exfalso. apply (NU w Hw). }
  eexists. unfold tstep. rewrite Ep, El. split; [reflexivity|]. cbn. rewrite !upd_same. auto.
Qed.

(* tryLock() does the opposite of what it promises *)
Lemma tryLock_inverted s t s' : pcs s t = T62 -> tstep t s = Some s' ->
  pcs s' t = Ret (locked s) /\ locked s' = true.
Proof.
  intros Ep E. unfold tstep in E. rewrite Ep in E. inj E. unfold returns. destruct (locked s); cbn; rewrite ?upd_same; auto.
Qed.

(* runs *)
Inductive act := AS (t : tid) | AL (t : tid) | AT (t : tid) | AU (t : tid).
Definition arun1 (try : bool) (s : st) (a : act) : option st :=
  match a with
  | AS t => tstep t s
  | AL t => if resting (pcs s t) && negb (has s t) then Some (goto s t L48) else None
  | AT t => if try && resting (pcs s t) && negb (has s t) then Some (goto s t T62) else None
  | AU t => if resting (pcs s t) && has s t then Some (goto (set_has s t false) t U68) else None
  end.
Fixpoint arun (try : bool) (s : st) (l : list act) : option st :=
  match l with [] => Some s | a :: l => match arun1 try s a with Some s => arun try s l | None => None end end.
Lemma arun_reach try l : forall s s', reach init (any try) s -> arun try s l = Some s' -> reach init (any try) s'.
Proof.
  induction l as [|a l IH]; intros s s' R E; cbn in E; [congruence|].
  destruct (arun1 try s a) as [s1|] eqn:E1; [|discriminate]. apply (IH s1); auto. eapply reach_step; eauto.
  destruct a as [t|t|t|t]; exists t; cbn in E1.
  - apply step_thread; auto.
  - destruct (resting (pcs s t)) eqn:Hr, (has s t) eqn:Hh; try discriminate E1. inj E1. apply step_lock; auto.
  - destruct try, (resting (pcs s t)) eqn:Hr, (has s t) eqn:Hh; try discriminate E1. inj E1. apply step_tryLock; auto.
  - destruct (resting (pcs s t)) eqn:Hr, (has s t) eqn:Hh; try discriminate E1. inj E1. apply step_unlock; auto.
Qed.

Lemma try_two_owners : exists s, reach init (any with_tryLock) s /\ has s 0 = true /\ has s 1 = true.
Proof.
  eexists. split; [eapply (arun_reach true [AL 0; AS 0; AT 1; AS 1] init); [constructor|vm_compute; reflexivity]|].
  split; reflexivity.
Qed.

Definition stuck (s : st) : Prop := locked s = true /\ nobody_has s /\ forall t, pcs s t <> U68 /\ pcs s t <> T62.
Lemma stuck_step s s' : stuck s -> any without_tryLock s s' -> stuck s'.
Proof.
  intros (L & N & P) (t & ST). destruct ST as [t s s' E|t s Hr Hh|t s F|t s Hr Hh]; [| |discriminate F|].
  - unfold tstep in E. destruct (P t) as (P1 & P2).
    destruct (pcs s t) eqn:Ep; try discriminate E; try congruence. rewrite L in E. inj E. split; [|split]; auto.
  - split; [|split]; auto. intros u. cbn. updc u t; auto. split; discriminate.
  - exfalso. rewrite N in Hh. discriminate.
Qed.
Lemma try_leaks : exists s, reach init (any with_tryLock) s /\ all_resting s /\ nobody_has s /\ pcs s 0 = Ret false /\
  forall s' t, steps (any without_tryLock) s s' -> has s' t = false.
Proof.
  eexists. split; [eapply (arun_reach true [AT 0; AS 0] init); [constructor|vm_compute; reflexivity]|].
  split; [|split; [|split; [reflexivity|]]].
  - intros [|t]; reflexivity.
  - intros t; reflexivity.
  - intros s' t S. match type of S with steps _ ?s0 _ => assert (L0 : stuck s0) end.
    { split; [reflexivity|]. split; [intros u; reflexivity|]. intros [|u]; split; discriminate. }
    assert (L : stuck s') by (induction S; auto; apply IHS; eapply stuck_step; eauto).
    apply L.
Qed.
Lemma example : exists s, reach init (any without_tryLock) s /\ has s 1 = true /\ pcs s 0 = L48.
Proof.
  eexists. split; [eapply (arun_reach false [AL 0; AL 1; AS 1; AS 0; AS 0] init); [constructor|vm_compute; reflexivity]|].
  split; reflexivity.
Qed.
Lemma example_free : exists s, reach init (any without_tryLock) s /\ nobody_has s /\ pcs s 0 = L48 /\ forall u, pcs s u <> U68.
Proof.
  eexists. split; [eapply (arun_reach false [AL 0; AL 1; AS 1; AS 0; AU 1; AS 1] init); [constructor|vm_compute; reflexivity]|].
  split; [|split; [reflexivity|]].
  - intros [|[|t]]; reflexivity.
  - intros [|[|t]]; discriminate.
Qed.

Lemma unlock_result s t : pcs s t = U68 ->
  exists s', tstep t s = Some s' /\ pcs s' t = Ret true /\ locked s' = false /\ has s' = has s.
Proof. intros E. unfold tstep. rewrite E. eexists. split; [reflexivity|]. cbn. rewrite upd_same. auto. Qed.
