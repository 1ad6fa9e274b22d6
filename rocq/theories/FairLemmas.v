(* Rules for proving that something happens in every fair execution *)
From Verif Require Export Fair.

Lemma execution_reach {S} (init : S) step r : execution init step r -> forall n, reach init step (r n).
Proof.
  intros [E0 E]. induction n as [|n IH]; [rewrite E0; constructor|]. destruct (E n) as [-> |H]; [exact IH|]. eapply reach_step; eauto.
Qed.
Lemma strong_weak {S} (act : S -> option S) r : strongly_fair act r -> weakly_fair act r.
Proof.
  intros [H|[N H]] n.
  - destruct (H n) as (m & L & T). exists m. auto.
  - exists (max n N). split; [lia|]. left. apply H. lia.
Qed.
Lemma persist (P Q : nat -> Prop) : (forall k, P k -> P (S k) \/ Q (S k)) ->
  forall n m, n <= m -> P n -> P m \/ exists j, n <= j /\ Q j.
Proof.
  intros H n m L Pn. induction L as [|m L IH]; [auto|].
  destruct IH as [IH|IH]; [|auto]. destruct (H m IH) as [A|A]; [auto|]. right. exists (S m). split; [lia|exact A].
Qed.
Lemma wf_leads {S} (act : S -> option S) (r : nat -> S) (P Q : nat -> Prop) : weakly_fair act r ->
  (forall k, P k -> act (r k) <> None) -> (forall k, P k -> P (Datatypes.S k) \/ Q (Datatypes.S k)) ->
  (forall k, P k -> taken act r k -> Q (Datatypes.S k)) -> forall n, P n -> eventually n Q.
Proof.
  intros W En K T n Pn. destruct (W n) as (m & L & D). destruct (persist P Q K n m L Pn) as [Pm|X]; [|exact X].
  destruct D as [D|D]; [destruct (En m Pm D)|]. exists (Datatypes.S m). split; [lia|]. auto.
Qed.
Lemma sf_leads {S} (act : S -> option S) (r : nat -> S) (P Q : nat -> Prop) : strongly_fair act r ->
  (forall k, P k -> eventually k (fun m => act (r m) <> None \/ Q m)) -> (forall k, P k -> P (Datatypes.S k) \/ Q (Datatypes.S k)) ->
  (forall k, P k -> taken act r k -> Q (Datatypes.S k)) -> forall n, P n -> eventually n Q.
Proof.
  intros [W|[N W]] En K T n Pn.
  - destruct (W n) as (m & L & D). destruct (persist P Q K n m L Pn) as [Pm|X]; [|exact X]. exists (Datatypes.S m). split; [lia|]. auto.
  - destruct (persist P Q K n (max n N) ltac:(lia) Pn) as [Pm|X]; [|exact X].
    destruct (En _ Pm) as (m & L & [D|D]); [destruct (D (W m ltac:(lia)))|]. exists m. split; [lia|exact D].
Qed.
Lemma eventually_trans (Q R : nat -> Prop) n : eventually n Q -> (forall m, n <= m -> Q m -> eventually m R) -> eventually n R.
Proof. intros (m & L & H) K. destruct (K m L H) as (p & L' & H'). exists p. split; [lia|exact H']. Qed.
Lemma eventually_now (Q : nat -> Prop) n : Q n -> eventually n Q.
Proof. intros H. exists n. auto. Qed.
Lemma eventually_imp (Q R : nat -> Prop) n : eventually n Q -> (forall m, n <= m -> Q m -> R m) -> eventually n R.
Proof. intros H K. apply (eventually_trans Q R n H). intros m L Qm. apply eventually_now. auto. Qed.
Lemma leads_rank (P Q : nat -> Prop) (f : nat -> nat) : (forall n, P n -> eventually n (fun m => Q m \/ (P m /\ f m < f n))) ->
  forall n, P n -> eventually n Q.
Proof.
  intros H. assert (A : forall v n, f n <= v -> P n -> eventually n Q).
  { induction v as [v IH] using lt_wf_ind. intros n L Pn. apply (eventually_trans _ Q n (H n Pn)). intros m Lm [X|[X Y]]; [apply eventually_now, X|].
    apply (IH (f m)); auto. lia. }
  intros n. apply (A (f n) n (le_n _)).
Qed.
Lemma wf_leads_rel {S} (act : S -> S -> Prop) (r : nat -> S) (P Q : nat -> Prop) : weakly_fair_rel act r ->
  (forall k, P k -> exists s, act (r k) s) -> (forall k, P k -> P (Datatypes.S k) \/ Q (Datatypes.S k)) ->
  (forall k, P k -> act (r k) (r (Datatypes.S k)) -> Q (Datatypes.S k)) -> forall n, P n -> eventually n Q.
Proof.
  intros W En K T n Pn. destruct (W n) as (m & L & D). destruct (persist P Q K n m L Pn) as [Pm|X]; [|exact X].
  destruct D as [D|D]; [destruct (En m Pm) as [s Hs]; destruct (D s Hs)|]. exists (Datatypes.S m). split; [lia|]. auto.
Qed.

(* an execution that ends in a loop: the actions f 0, f 1, ..., f last, f first, ..., f last, f first, ... *)
Section Loop.
Context {S : Type} (f : nat -> S -> S) (first last : nat) (s0 : S).
Hypothesis FL : first <= last.
Definition next (p : nat) : nat := if p =? last then first else Datatypes.S p.
Fixpoint loop (n : nat) : nat * S := match n with O => (0, s0) | Datatypes.S k => (next (fst (loop k)), f (fst (loop k)) (snd (loop k))) end.
Definition loop_run (n : nat) : S := snd (loop n).
Lemma loop_le n : fst (loop n) <= last.
Proof. induction n as [|n IH]; cbn; [lia|]. unfold next. destruct (Nat.eqb_spec (fst (loop n)) last); lia. Qed.
Lemma loop_forward n d : fst (loop n) + d <= last -> fst (loop (d + n)) = fst (loop n) + d.
Proof.
  induction d as [|d IH]; intros H; [cbn; lia|]. cbn. rewrite IH by lia. unfold next. destruct (Nat.eqb_spec (fst (loop n) + d) last); lia.
Qed.
Lemma loop_again n p : first <= p -> p <= last -> exists m, n <= m /\ fst (loop m) = p.
Proof.
  intros H1 H2. pose proof (loop_le n) as L. set (d := last - fst (loop n)).
  pose proof (loop_forward n d ltac:(lia)) as E. assert (E1 : fst (loop (Datatypes.S (d + n))) = first). { cbn. rewrite E. unfold next. replace (fst (loop n) + d) with last by lia. rewrite Nat.eqb_refl. reflexivity. }
  exists (p - first + Datatypes.S (d + n)). split; [lia|]. rewrite loop_forward; rewrite E1; lia.
Qed.
Lemma loop_ge n : first <= n -> first <= fst (loop n).
Proof.
  induction 1 as [|n L IH].
  - pose proof (loop_forward 0 first) as H. cbn in H. rewrite Nat.add_0_r in H. rewrite H by exact FL. lia.
  - cbn. unfold next. destruct (Nat.eqb_spec (fst (loop n)) last); lia.
Qed.
(* the states of the loop, up to a relation *)
Variable sim : S -> S -> Prop.
Hypothesis sim_refl : forall s, sim s s.
Hypothesis sim_trans : forall a b c, sim a b -> sim b c -> sim a c.
Hypothesis sim_f : forall p a b, sim a b -> sim (f p a) (f p b).
Fixpoint conc (p : nat) : S := match p with O => s0 | Datatypes.S q => f q (conc q) end.
Hypothesis closes : sim (f last (conc last)) (conc first).
Lemma loop_sim n : sim (snd (loop n)) (conc (fst (loop n))).
Proof.
  induction n as [|n IH]; [apply sim_refl|]. cbn. unfold next. destruct (Nat.eqb_spec (fst (loop n)) last) as [E|E].
  - apply sim_trans with (f last (conc last)); [|exact closes]. rewrite <- E. apply sim_f, IH.
  - cbn. apply sim_f, IH.
Qed.
End Loop.
