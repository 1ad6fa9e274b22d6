(* Interleaving semantics: transition systems over a shared state and per-thread local states.
   Memory is sequentially consistent; every labelled action is atomic. *)
From Verif Require Export Base.

Definition tid := nat.

(* the states reachable from an initial state *)
Inductive reach {S : Type} (init : S) (step : S -> S -> Prop) : S -> Prop :=
| reach_init : reach init step init
| reach_step : forall s s', reach init step s -> step s s' -> reach init step s'.

(* zero or more steps *)
Inductive steps {S : Type} (step : S -> S -> Prop) : S -> S -> Prop :=
| steps_refl : forall s, steps step s s
| steps_more : forall s1 s2 s3, step s1 s2 -> steps step s2 s3 -> steps step s1 s3.

(* a per-thread map and its update *)
Definition upd {A : Type} (f : tid -> A) (t : tid) (x : A) : tid -> A :=
  fun u => if u =? t then x else f u.

Lemma upd_same {A} (f : tid -> A) t x : upd f t x t = x.
Proof. unfold upd. rewrite Nat.eqb_refl. reflexivity. Qed.
Lemma upd_other {A} (f : tid -> A) t u x : u <> t -> upd f t x u = f u.
Proof. unfold upd. intros H. apply Nat.eqb_neq in H. rewrite H. reflexivity. Qed.

Lemma reach_invariant {S} (init : S) step (P : S -> Prop) :
  P init -> (forall s s', reach init step s -> P s -> step s s' -> P s') -> forall s, reach init step s -> P s.
Proof. intros H0 HS s R. induction R; eauto. Qed.

Lemma reach_steps {S} (init : S) step s s' : reach init step s -> steps step s s' -> reach init step s'.
Proof. intros R H. induction H; auto. apply IHsteps. eapply reach_step; eauto. Qed.

Lemma steps_app {S} (step : S -> S -> Prop) s1 s2 s3 : steps step s1 s2 -> steps step s2 s3 -> steps step s1 s3.
Proof. intros H1 H2. induction H1; auto. eapply steps_more; eauto. Qed.
Lemma steps_one {S} (step : S -> S -> Prop) s1 s2 : step s1 s2 -> steps step s1 s2.
Proof. intros. eapply steps_more; eauto. apply steps_refl. Qed.
