(* Proofs about scoped locks in fair executions (C63). *)
From Verif Require Import Base Conc ScopedModel ScopedSpec ScopedProofs FairLemmas ScopedFairSpec.

Notation enters s t := (entering (threads s t)).
Lemma entering_step s u e s' t l h f : step s u e = Next s' -> enters s t = Some (l, h, f) ->
  enters s' t = None \/ enters s' t = Some (l, h, f) /\ scopes (threads s' t) = scopes (threads s t).
Proof.
  intros St E. destruct (Nat.eq_dec t u) as [->|N].
  - destruct e as [l0 h0 f0|again|]; cbn [step] in St; rewrite E in St; try discriminate.
    destruct (call_lock u again h (locks s l)) as [y| |]; [|destruct f|]; injection St as <-; try (right; split; [exact E|reflexivity]);
      left; cbn; rewrite upd_same; reflexivity.
  - right. assert (K : threads s' t = threads s t); [|rewrite K; split; [exact E|reflexivity]].
    destruct e as [l0 h0 f0|again|]; cbn [step] in St.
    + destruct (enters s u); [discriminate|]. destruct (Bool.eqb _ _); [|discriminate]. injection St as <-. cbn. apply upd_other. exact N.
    + destruct (enters s u) as [[[l0 h0] f0]|]; [|discriminate]. destruct (call_lock u again h0 (locks s l0)); [|destruct f0|]; injection St as <-; try reflexivity; cbn; apply upd_other; exact N.
    + destruct (enters s u); [discriminate|]. destruct (scopes (threads s u)) as [|o r]; [discriminate|].
      destruct (s_locked o); [destruct (unlock u _); [|discriminate]|]; injection St as <-; cbn; apply upd_other; exact N.
Qed.
(* who has a lock exclusively, until it is free *)
Definition owner (x : lock) : option nat := match x with MOwned u _ => Some u | RW (Some u) _ => Some u | _ => None end.
Definition free (x : lock) : Prop := x = MFree \/ x = RW None [].
Lemma owner_step s u e s' l w : Inv s -> step s u e = Next s' -> owner (locks s l) = Some w -> owner (locks s' l) = Some w \/ free (locks s' l).
Proof.
  intros [IL _ _] St O. specialize (IL l). unfold LInv in IL. destruct e as [l0 h0 f0|again|]; cbn [step] in St.
  - destruct (enters s u); [discriminate|]. destruct (Bool.eqb _ _); [|discriminate]. injection St as <-. left; exact O.
  - destruct (enters s u) as [[[l0 h0] f0]|]; [|discriminate]. destruct (call_lock u again h0 (locks s l0)) as [y| |] eqn:G; [|destruct f0; injection St as <-; left; exact O|injection St as <-; left; exact O].
    injection St as <-. cbn. unfold upd. destruct (Nat.eqb_spec l l0) as [<-|_]; [|left; exact O].
    left. destruct (locks s l) as [|v d|[v|] r]; try discriminate O; cbn in O; injection O as ->; destruct h0; cbn in G; try discriminate; destruct (Nat.eqb w u) eqn:Ewu; try discriminate.
    destruct again; [discriminate|]. injection G as <-. cbn. apply Nat.eqb_eq in Ewu. rewrite Ewu. reflexivity.
  - destruct (enters s u); [discriminate|]. destruct (scopes (threads s u)) as [|o r]; [discriminate|].
    destruct (s_locked o); [|injection St as <-; left; exact O]. destruct (unlock u (locks s (s_lock o))) as [y|] eqn:G; [|discriminate].
    injection St as <-. cbn. unfold upd. destruct (Nat.eqb_spec l (s_lock o)) as [El|_]; [rewrite <- El in G|left; exact O].
    destruct (locks s l) as [|v d|[v|] rd]; try discriminate O; cbn in O; injection O as ->; cbn in G; destruct (Nat.eqb w u) eqn:Ewu; try discriminate.
    + destruct d as [|[|d]]; [discriminate| |]; injection G as <-; [right; left; reflexivity|left; reflexivity].
    + injection G as <-. destruct IL as [-> _]. right; right; reflexivity.
Qed.
Lemma owner_scope s l w : Inv s -> owner (locks s l) = Some w -> exists h, in_scope s w l h.
Proof.
  intros [IL _ _] O. specialize (IL l). unfold LInv in IL. destruct (locks s l) as [|v d|[v|] r]; try discriminate O; cbn in O; injection O as ->.
  - exists Mx. apply in_scope_held. lia.
  - exists Wr. apply in_scope_held. lia.
Qed.
Lemma free_got t h x : kind_ok x h -> free x -> exists y, call_lock t false h x = Got y.
Proof. unfold kind_ok. intros K [-> | ->]; destruct h; try discriminate K; eexists; reflexivity. Qed.
Lemma kind_step s u e s' l h : step s u e = Next s' -> kind_ok (locks s l) h -> kind_ok (locks s' l) h.
Proof.
  intros St K. destruct e as [l0 h0 f0|again|]; cbn [step] in St.
  - destruct (enters s u); [discriminate|]. destruct (Bool.eqb _ _); [|discriminate]. injection St as <-. exact K.
  - destruct (enters s u) as [[[l0 h0] f0]|]; [|discriminate]. destruct (call_lock u again h0 (locks s l0)) as [y| |] eqn:G; [|destruct f0; injection St as <-; exact K|injection St as <-; exact K].
    injection St as <-. cbn. unfold upd. destruct (Nat.eqb_spec l l0) as [->|_]; [exact (kind_kept u again h0 _ y h G K)|exact K].
  - destruct (enters s u); [discriminate|]. destruct (scopes (threads s u)) as [|o r]; [discriminate|].
    destruct (s_locked o); [|injection St as <-; exact K]. destruct (unlock u (locks s (s_lock o))) as [y|] eqn:G; [|discriminate].
    injection St as <-. cbn. unfold upd. destruct (Nat.eqb_spec l (s_lock o)) as [->|_]; [exact (kind_unlock u _ y h G K)|exact K].
Qed.

Section Fairness.
Variables (mutex : nat -> bool) (r : nat -> state).
Hypothesis Ex : execution (init mutex) moves r.
Hypothesis Sf : forall t, strongly_fair (finishes t) r.
Variable last : nat.
Hypothesis Few : forall n t l h f, enters (r n) t = Some (l, h, f) -> l <= last.
Hypothesis Ends : blocks_end r.

Lemma invs n : Inv (r n) /\ OInv (r n).
Proof.
  destruct Ex as [E0 En]. induction n as [|n [I0 O]].
  - rewrite E0. split; [apply inv_init|]. intros t l h f Q. discriminate Q.
  - destruct (En n) as [->|(t & e & Io & St)]; [split; assumption|]. split.
    + pose proof (step_inv (r n) t e I0) as K. rewrite St in K. exact K.
    + exact (step_oinv _ t e _ O Io St).
Qed.
Lemma entering_next k t l h f : enters (r k) t = Some (l, h, f) ->
  (enters (r (S k)) t = Some (l, h, f) /\ scopes (threads (r (S k)) t) = scopes (threads (r k) t)) \/ enters (r (S k)) t = None.
Proof.
  intros E. destruct Ex as [_ En]. destruct (En k) as [->|(u & e & _ & St)]; [left; split; [exact E|reflexivity]|].
  destruct (entering_step _ u e _ t l h f St E) as [A|A]; [right|left]; exact A.
Qed.
Lemma entering_later k m t l h f : k <= m -> enters (r k) t = Some (l, h, f) ->
  enters (r m) t = Some (l, h, f) \/ eventually k (fun j => enters (r j) t = None).
Proof.
  intros L E. refine (persist (fun j => enters (r j) t = Some (l, h, f)) (fun j => enters (r j) t = None) _ k m L E).
  intros j Ej. destruct (entering_next j t l h f Ej) as [[A _]|A]; [left|right]; exact A.
Qed.
Lemma can_finish k t l h f : enters (r k) t = Some (l, h, f) -> (exists y, call_lock t false h (locks (r k) l) = Got y) -> finishes t (r k) <> None.
Proof. intros E [y G]. unfold finishes. cbn [step]. rewrite E, G. cbn [set_thread set_lock threads]. rewrite upd_same. discriminate. Qed.
Lemma finished k t : taken (finishes t) r k -> enters (r (S k)) t = None.
Proof.
  unfold taken, finishes. destruct (step (r k) t (Attempt false)) as [s'| |]; try discriminate. destruct (enters s' t) eqn:E; [discriminate|].
  intros Q. injection Q as <-. exact E.
Qed.
(* it is free again and again: the constructor returns *)
Lemma returns_if n t l h f : enters (r n) t = Some (l, h, f) ->
  (forall k, enters (r k) t = Some (l, h, f) -> eventually k (fun m => (exists y, call_lock t false h (locks (r m) l) = Got y) \/ enters (r m) t = None)) ->
  eventually n (fun m => enters (r m) t = None).
Proof.
  intros E Fr. refine (sf_leads (finishes t) r (fun k => enters (r k) t = Some (l, h, f)) (fun k => enters (r k) t = None) (Sf t) _ _ _ n E).
  - intros k Ek. destruct (Fr k Ek) as (m & Lm & [G|G]); [|exists m; split; [exact Lm|right; exact G]].
    destruct (entering_later k m t l h f Lm Ek) as [Em|(j & Lj & Ej)].
    + exists m. split; [exact Lm|]. left. exact (can_finish m t l h f Em G).
    + exists j. split; [exact Lj|]. right; exact Ej.
  - intros k Ek. destruct (entering_next k t l h f Ek) as [[A _]|A]; [left|right]; exact A.
  - intros k _ T. exact (finished k t T).
Qed.
(* a mutex the thread has *)
Lemma own_returns n t l f : enters (r n) t = Some (l, Mx, f) -> in_scope (r n) t l Mx -> eventually n (fun m => enters (r m) t = None).
Proof.
  intros E It. refine (sf_leads (finishes t) r (fun k => enters (r k) t = Some (l, Mx, f) /\ in_scope (r k) t l Mx) (fun k => enters (r k) t = None) (Sf t) _ _ _ n (conj E It)).
  - intros k [Ek Ik]. exists k. split; [lia|]. left. apply (can_finish k t l Mx f Ek).
    destruct (invs k) as [Iv _]. destruct (attempt_cases (r k) t l Mx f Iv Ek) as [G|[(u & h' & Nu & Iu & Nc)|[X _]]]; [exact G| |destruct (X eq_refl)].
    destruct (exclusion (r k) t u l Mx h' Iv (not_eq_sym Nu) Ik Iu) as [Q _]. discriminate Q.
  - intros k [Ek Ik]. destruct (entering_next k t l Mx f Ek) as [[A B]|A]; [left|right; exact A]. split; [exact A|]. unfold in_scope in *. rewrite B. exact Ik.
  - intros k _ T. exact (finished k t T).
Qed.
(* all blocks of a thread end, or it stays in a constructor *)
Lemma all_end : forall len n t, length (scopes (threads (r n) t)) = len ->
  eventually n (fun k => scopes (threads (r k) t) = [] \/ stuck_from r k t).
Proof.
  induction len as [|len IH]; intros n t Ln.
  - exists n. split; [lia|]. left. destruct (scopes (threads (r n) t)); [reflexivity|discriminate Ln].
  - destruct (scopes (threads (r n) t)) as [|o rest] eqn:E; [discriminate Ln|]. destruct (Ends n t o rest E) as (k & Lk & [A|A]).
    + destruct (IH k t) as (j & Lj & B); [rewrite A; cbn in Ln; lia|]. exists j. split; [lia|exact B].
    + exists k. split; [exact Lk|right; exact A].
Qed.

Hypothesis Pause : readers_pause r.
Section Level.
Variable lv : nat.
Hypothesis Above : forall n t l h f, lv < l -> enters (r n) t = Some (l, h, f) -> eventually n (fun m => enters (r m) t = None).
(* whoever has the lock leaves its scopes *)
Lemma leaves n u : eventually n (fun m => forall h, ~ in_scope (r m) u lv h).
Proof.
  destruct (all_end _ n u eq_refl) as (k & Lk & [A|A]).
  - exists k. split; [exact Lk|]. intros h (f & I0). rewrite A in I0. destruct I0.
  - exists k. split; [exact Lk|]. intros h I0. specialize (A k (le_n k)) as Ne. destruct (enters (r k) u) as [[[l2 h2] f2]|] eqn:E; [|destruct (Ne eq_refl)].
    assert (K : eventually k (fun m => enters (r m) u = None)).
    { destruct (invs k) as [_ O]. destruct (O u l2 h2 f2 E) as [[-> Im]|As]; [exact (own_returns k u l2 f2 E Im)|]. exact (Above k u l2 h2 f2 (As lv h I0) E). }
    destruct K as (m & Lm & Em). exact (A m Lm Em).
Qed.
Lemma owned_free n w : owner (locks (r n) lv) = Some w -> eventually n (fun m => free (locks (r m) lv)).
Proof.
  intros O. destruct (leaves n w) as (m & Lm & Nm).
  destruct (persist (fun j => owner (locks (r j) lv) = Some w) (fun j => free (locks (r j) lv))) with (n := n) (m := m) as [A|A]; try assumption.
  - intros j Oj. destruct Ex as [_ En]. destruct (En j) as [->|(u & e & _ & St)]; [left; exact Oj|]. exact (owner_step _ u e _ lv w (proj1 (invs j)) St Oj).
  - destruct (owner_scope (r m) lv w (proj1 (invs m)) A) as [h I0]. destruct (Nm h I0).
Qed.
Lemma kind_later n m h : n <= m -> kind_ok (locks (r n) lv) h -> kind_ok (locks (r m) lv) h.
Proof.
  intros L K. induction L as [|m L IH]; [exact K|]. destruct Ex as [_ En]. destruct (En m) as [->|(u & e & _ & St)]; [exact IH|]. exact (kind_step _ u e _ lv h St IH).
Qed.
Lemma level n t h f : enters (r n) t = Some (lv, h, f) -> eventually n (fun m => enters (r m) t = None).
Proof.
  intros E. apply (returns_if n t lv h f E). intros k Ek. destruct (invs k) as [Iv O]. pose proof (i_enter _ Iv t lv h f Ek) as Kd.
  assert (Owned : forall j w, k <= j -> owner (locks (r j) lv) = Some w -> eventually k (fun m => (exists y, call_lock t false h (locks (r m) lv) = Got y) \/ enters (r m) t = None)).
  { intros j w Lj Ow. destruct (owned_free j w Ow) as (m & Lm & Fm). exists m. split; [lia|]. left. apply free_got; [|exact Fm]. apply (kind_later k m h); [lia|exact Kd]. }
  destruct (attempt_cases (r k) t lv h f Iv Ek) as [G|[(u & h' & Nu & Iu & Nc)|[Nm [h' It]]]].
  - exists k. split; [lia|left; exact G].
  - destruct (owner (locks (r k) lv)) as [w|] eqn:Ow; [exact (Owned k w (le_n k) Ow)|].
    assert (h = Wr) as ->.
    { pose proof (i_lock _ Iv lv) as IL. unfold LInv in IL. unfold kind_ok in Kd. apply in_scope_held in Iu.
      destruct (locks (r k) lv) as [|w d|[w|] rd]; try discriminate Ow; destruct h; try discriminate Kd; [rewrite IL in Iu; lia| |reflexivity].
      destruct (IL u) as (U1 & U2 & _). destruct h'; try lia. destruct Nc. split; reflexivity. }
    destruct (Pause k t lv f Ek) as (m & Lm & Nr). destruct (entering_later k m t lv Wr f Lm Ek) as [Em|(j & Lj & Ej)]; [|exists j; split; [exact Lj|right; exact Ej]].
    destruct (owner (locks (r m) lv)) as [w|] eqn:Owm; [exact (Owned m w Lm Owm)|].
    exists m. split; [exact Lm|]. left. destruct (invs m) as [Ivm _]. pose proof (i_enter _ Ivm t lv Wr f Em) as Km. pose proof (i_lock _ Ivm lv) as IL. unfold LInv in IL. unfold kind_ok in Km.
    destruct (locks (r m) lv) as [|w d|[w|] rd]; try discriminate Owm; try discriminate Km.
    assert (rd = []) as ->; [|eexists; reflexivity]. apply count_zero. intros v. destruct (IL v) as (_ & _ & <-). specialize (Nr v). rewrite in_scope_held in Nr. lia.
  - exfalso. destruct (O t lv h f Ek) as [[Q _]|As]; [destruct (Nm Q)|]. specialize (As lv h' It). lia.
Qed.
End Level.
Lemma all_return : forall d n t l h f, enters (r n) t = Some (l, h, f) -> last - l < d -> eventually n (fun m => enters (r m) t = None).
Proof.
  induction d as [|d IH]; intros n t l h f E Ld; [lia|]. apply (level l) with (h := h) (f := f); [|exact E].
  intros n' t' l' h' f' Ll E'. apply (IH n' t' l' h' f' E'). pose proof (Few n' t' l' h' f' E'). lia.
Qed.
Lemma constructors_return n t : enters (r n) t <> None -> eventually n (fun m => enters (r m) t = None).
Proof. destruct (enters (r n) t) as [[[l h] f]|] eqn:E; [|congruence]. intros _. exact (all_return (S (last - l)) n t l h f E (Nat.lt_succ_diag_r _)). Qed.
Lemma blocks_left n t o rest : scopes (threads (r n) t) = o :: rest -> eventually n (fun k => scopes (threads (r k) t) = rest).
Proof.
  intros E. destruct (Ends n t o rest E) as (k & Lk & [A|A]); [exists k; split; assumption|]. exfalso.
  destruct (constructors_return k t (A k (le_n k))) as (m & Lm & Em). exact (A m Lm Em).
Qed.
End Fairness.

(* ---- executions that end in a loop ---- *)
Definition scope_eq_dec (a b : scope) : {a = b} + {a <> b}.
Proof. decide equality; try apply Bool.bool_dec; try apply Nat.eq_dec. decide equality. Defined.
Definition scopes_eqb (a b : list scope) : bool := if list_eq_dec scope_eq_dec a b then true else false.
Definition apply_event (p : nat * event) (s : state) : state := match step s (fst p) (snd p) with Next s' => s' | _ => s end.
Definition same (a b : state) : Prop := (forall l, locks a l = locks b l) /\ forall t, threads a t = threads b t.
Lemma same_refl s : same s s. Proof. split; reflexivity. Qed.
Lemma same_trans a b c : same a b -> same b c -> same a c.
Proof. intros [A1 A2] [B1 B2]. split; [intros l; rewrite A1; apply B1|intros t; rewrite A2; apply B2]. Qed.
Lemma same_set_thread a b t x : same a b -> same (set_thread a t x) (set_thread b t x).
Proof. intros [A B]. split; [exact A|]. intros u. cbn. unfold upd. destruct (Nat.eqb u t); [reflexivity|apply B]. Qed.
Lemma same_set_lock a b l x : same a b -> same (set_lock a l x) (set_lock b l x).
Proof. intros [A B]. split; [|exact B]. intros u. cbn. unfold upd. destruct (Nat.eqb u l); [reflexivity|apply A]. Qed.
Lemma step_same a b t e : same a b -> match step a t e, step b t e with Next a', Next b' => same a' b' | Undefined, Undefined | Impossible, Impossible => True | _, _ => False end.
Proof.
  intros H. pose proof H as [A B]. destruct e as [l h f|again|]; cbn [step].
  - rewrite B, A. destruct (enters b t); [exact Logic.I|]. destruct (Bool.eqb _ _); [|exact Logic.I]. apply same_set_thread, H.
  - rewrite B. destruct (enters b t) as [[[l h] f]|]; [|exact Logic.I]. rewrite A. destruct (call_lock t again h (locks b l)).
    + apply same_set_thread, same_set_lock, H.
    + destruct f; [exact H|apply same_set_thread, H].
    + exact H.
  - rewrite B. destruct (enters b t); [exact Logic.I|]. destruct (scopes (threads b t)) as [|o r]; [exact Logic.I|]. destruct (s_locked o); [|apply same_set_thread, H].
    rewrite A. destruct (unlock t (locks b (s_lock o))); [|exact Logic.I]. apply same_set_thread, same_set_lock, H.
Qed.
Lemma in_order_same a b t e : same a b -> in_order a t e -> in_order b t e.
Proof. intros [A B]. destruct e; cbn [in_order]; unfold in_scope; rewrite ?B; exact (fun H => H). Qed.
Lemma apply_same p a b : same a b -> same (apply_event p a) (apply_event p b).
Proof.
  intros H. unfold apply_event. pose proof (step_same a b (fst p) (snd p) H) as K. destruct (step a (fst p) (snd p)), (step b (fst p) (snd p)); try contradiction; try exact H. exact K.
Qed.
(* the order and the bound, computed *)
Definition in_orderb (s : state) (t : nat) (e : event) : bool :=
  match e with
  | Enter l h _ => ((how_eqb h Mx && negb (Nat.eqb (held (scopes (threads s t)) l Mx) 0)) || forallb (fun o => negb (s_locked o) || Nat.ltb (s_lock o) l) (scopes (threads s t)))%bool
  | _ => true
  end.
Lemma in_orderb_ok s t e : in_orderb s t e = true -> in_order s t e.
Proof.
  destruct e as [l h f|again|]; cbn [in_orderb in_order]; [|constructor..]. intros H. apply Bool.orb_true_iff in H. destruct H as [H|H].
  - left. apply andb_prop in H. destruct H as [H1 H2]. apply how_eqb_eq in H1. split; [exact H1|]. apply in_scope_held. destruct (held (scopes (threads s t)) l Mx); [discriminate H2|lia].
  - right. intros l' h' (f' & I0). rewrite forallb_forall in H. specialize (H _ I0). cbn in H. apply Nat.ltb_lt. exact H.
Qed.
Section Loops.
Variables (mutex : nat -> bool) (evs : list (nat * event)) (first : nat) (threads_ : nat).
Definition ev (p : nat) : nat * event := nth p evs (0, Leave).
Definition last_ := length evs - 1.
Definition the_run : nat -> state := loop_run (fun p => apply_event (ev p)) first last_ (init mutex).
Definition at_ (p : nat) : state := conc (fun p => apply_event (ev p)) (init mutex) p.
Definition pos (n : nat) : nat := fst (loop (fun p => apply_event (ev p)) first last_ (init mutex) n).
Hypothesis FL : first <= last_.
Hypothesis closes : same (apply_event (ev last_) (at_ last_)) (at_ first).
(* every position takes a step, in order, by one of the first threads *)
Hypothesis steps : forallb (fun p => (match step (at_ p) (fst (ev p)) (snd (ev p)) with Next _ => true | _ => false end && in_orderb (at_ p) (fst (ev p)) (snd (ev p)) && Nat.ltb (fst (ev p)) threads_)%bool) (seq 0 (S last_)) = true.
Lemma pos_le n : pos n <= last_. Proof. apply loop_le. exact FL. Qed.
Lemma run_same n : same (the_run n) (at_ (pos n)).
Proof.
  exact (loop_sim (fun p => apply_event (ev p)) first last_ (init mutex) same same_refl same_trans (fun p a b => apply_same (ev p) a b) closes n).
Qed.
Lemma at_in p : p <= last_ -> In p (seq 0 (S last_)). Proof. intros L. apply in_seq. lia. Qed.
Lemma steps_at p : p <= last_ -> (exists s', step (at_ p) (fst (ev p)) (snd (ev p)) = Next s') /\ in_order (at_ p) (fst (ev p)) (snd (ev p)) /\ fst (ev p) < threads_.
Proof.
  intros L. pose proof steps as H. rewrite forallb_forall in H. specialize (H p (at_in p L)). apply andb_prop in H. destruct H as [H H3]. apply andb_prop in H. destruct H as [H1 H2].
  split; [|split; [apply in_orderb_ok; exact H2|apply Nat.ltb_lt; exact H3]]. destruct (step (at_ p) (fst (ev p)) (snd (ev p))) as [s'| |]; try discriminate H1. exists s'. reflexivity.
Qed.
Lemma run_step n : step (the_run n) (fst (ev (pos n))) (snd (ev (pos n))) = Next (the_run (S n)).
Proof.
  destruct (steps_at (pos n) (pos_le n)) as ((s' & St) & _). pose proof (step_same _ _ (fst (ev (pos n))) (snd (ev (pos n))) (run_same n)) as K. rewrite St in K.
  change (the_run (S n)) with (apply_event (ev (pos n)) (the_run n)). unfold apply_event. destruct (step (the_run n) (fst (ev (pos n))) (snd (ev (pos n)))); try contradiction. reflexivity.
Qed.
Lemma loops_execution : execution (init mutex) moves the_run.
Proof.
  split; [reflexivity|]. intros n. right. exists (fst (ev (pos n))), (snd (ev (pos n))). split; [|exact (run_step n)].
  destruct (steps_at (pos n) (pos_le n)) as (_ & Io & _). apply (in_order_same (at_ (pos n))); [|exact Io]. destruct (run_same n) as [A B]. split; [intros l; symmetry; apply A|intros t; symmetry; apply B].
Qed.
Lemma other_at p t : p <= S last_ -> threads_ <= t -> threads (at_ p) t = mkT None [].
Proof.
  intros L T. induction p as [|p IH]; [reflexivity|]. specialize (IH ltac:(lia)). destruct (steps_at p ltac:(lia)) as (_ & _ & Lt).
  change (at_ (S p)) with (apply_event (ev p) (at_ p)). unfold apply_event. set (u := fst (ev p)) in *. assert (N : t <> u) by lia. clearbody u.
  destruct (step (at_ p) u (snd (ev p))) as [s'| |] eqn:St; try exact IH.
  destruct (snd (ev p)) as [l0 h0 f0|again|]; cbn [step] in St.
  - destruct (enters (at_ p) u); [discriminate|]. destruct (Bool.eqb _ _); [|discriminate]. injection St as <-. cbn. rewrite upd_other by exact N. exact IH.
  - destruct (enters (at_ p) u) as [[[l0 h0] f0]|]; [|discriminate]. destruct (call_lock u again h0 (locks (at_ p) l0)); [|destruct f0|]; injection St as <-; try exact IH; cbn; rewrite upd_other by exact N; exact IH.
  - destruct (enters (at_ p) u); [discriminate|]. destruct (scopes (threads (at_ p) u)) as [|o r]; [discriminate|].
    destruct (s_locked o); [destruct (unlock u _); [|discriminate]|]; injection St as <-; cbn; rewrite upd_other by exact N; exact IH.
Qed.
Lemma other_run n t : threads_ <= t -> threads (the_run n) t = mkT None [].
Proof. intros T. destruct (run_same n) as [_ B]. rewrite B. apply other_at; [pose proof (pos_le n); lia|exact T]. Qed.
Lemma again n p : first <= p -> p <= last_ -> exists m, n <= m /\ pos m = p.
Proof. apply loop_again. exact FL. Qed.
Lemma pos_ge n : first <= n -> first <= pos n.
Proof. apply loop_ge. exact FL. Qed.
(* a thread finishes a constructor in the loop, or never can *)
Definition ends_at (t p : nat) : bool := match finishes t (at_ p) with Some _ => true | None => false end.
Lemma finishes_same a b t : same a b -> finishes t a = None -> finishes t b = None.
Proof.
  intros H. unfold finishes. pose proof (step_same a b t (Attempt false) H) as K. destruct (step a t (Attempt false)) as [a'| |], (step b t (Attempt false)) as [b'| |]; try contradiction; try reflexivity.
  destruct K as [_ K]. rewrite K. destruct (enters b' t); [reflexivity|discriminate].
Qed.
Lemma loops_fair : forallb (fun t => (existsb (fun p => (Nat.leb first p && Nat.eqb (fst (ev p)) t && match snd (ev p) with Attempt false => ends_at t p | _ => false end)%bool) (seq 0 (S last_)) ||
    forallb (fun p => (Nat.ltb p first || negb (ends_at t p))%bool) (seq 0 (S last_)))%bool) (seq 0 threads_) = true -> forall t, strongly_fair (finishes t) the_run.
Proof.
  intros H t. destruct (Nat.le_gt_cases threads_ t) as [T|T].
  - right. exists 0. intros n _. unfold finishes. cbn [step]. rewrite (other_run n t T). reflexivity.
  - rewrite forallb_forall in H. specialize (H t ltac:(apply in_seq; lia)). apply Bool.orb_true_iff in H. destruct H as [H|H].
    + left. apply existsb_exists in H. destruct H as (p & Ip & H). apply in_seq in Ip. apply andb_prop in H. destruct H as [H H3]. apply andb_prop in H. destruct H as [H1 H2].
      apply Nat.leb_le in H1. apply Nat.eqb_eq in H2. intros n. destruct (again n p H1 ltac:(lia)) as (m & Lm & Pm). exists m. split; [exact Lm|].
      pose proof (run_step m) as St. rewrite Pm, H2 in St. destruct (snd (ev p)) as [| [|] |] eqn:Ee; try discriminate H3. unfold taken.
      unfold ends_at in H3. assert (Nn : finishes t (the_run m) <> None).
      { intros Q. apply (finishes_same _ _ t (run_same m)) in Q. rewrite Pm in Q. rewrite Q in H3. discriminate H3. }
      unfold finishes in *. rewrite St in *. destruct (enters (the_run (S m)) t); [destruct (Nn eq_refl)|reflexivity].
    + right. exists first. intros n L. rewrite forallb_forall in H. specialize (H (pos n) ltac:(apply at_in, pos_le)). pose proof (pos_ge n L) as G.
      apply Bool.orb_true_iff in H. destruct H as [H|H]; [apply Nat.ltb_lt in H; lia|]. unfold ends_at in H. destruct (finishes t (at_ (pos n))) eqn:Q; [discriminate H|].
      apply (finishes_same (at_ (pos n))); [|exact Q]. destruct (run_same n) as [A B]. split; [intros l; symmetry; apply A|intros u; symmetry; apply B].
Qed.
(* blocks *)
Lemma loops_end : forallb (fun t => forallb (fun p => match scopes (threads (at_ p) t) with
     | [] => true
     | _ :: rest => existsb (fun q => (Nat.leb first q && scopes_eqb (scopes (threads (at_ q) t)) rest)%bool) (seq 0 (S last_)) end) (seq 0 (S last_))) (seq 0 threads_) = true -> blocks_end the_run.
Proof.
  intros H n t o rest E. destruct (Nat.le_gt_cases threads_ t) as [T|T]; [rewrite (other_run n t T) in E; discriminate E|].
  rewrite forallb_forall in H. specialize (H t ltac:(apply in_seq; lia)). rewrite forallb_forall in H. specialize (H (pos n) ltac:(apply at_in, pos_le)).
  destruct (run_same n) as [_ B]. rewrite B in E. rewrite E in H. apply existsb_exists in H. destruct H as (q & Iq & H). apply in_seq in Iq. apply andb_prop in H. destruct H as [H1 H2]. apply Nat.leb_le in H1.
  destruct (again n q H1 ltac:(lia)) as (m & Lm & Pm). exists m. split; [exact Lm|]. left. destruct (run_same m) as [_ Bm]. rewrite Bm, Pm. unfold scopes_eqb in H2.
  destruct (list_eq_dec scope_eq_dec _ rest) as [Q|]; [exact Q|discriminate H2].
Qed.
Lemma loops_few L : forallb (fun t => forallb (fun p => match enters (at_ p) t with Some (l, _, _) => Nat.leb l L | None => true end) (seq 0 (S last_))) (seq 0 threads_) = true ->
  forall n t l h f, enters (the_run n) t = Some (l, h, f) -> l <= L.
Proof.
  intros H n t l h f E. destruct (Nat.le_gt_cases threads_ t) as [T|T]; [rewrite (other_run n t T) in E; discriminate E|].
  rewrite forallb_forall in H. specialize (H t ltac:(apply in_seq; lia)). rewrite forallb_forall in H. specialize (H (pos n) ltac:(apply at_in, pos_le)).
  destruct (run_same n) as [_ B]. rewrite B in E. rewrite E in H. apply Nat.leb_le. exact H.
Qed.
(* at a position of the loop nobody has a read lock *)
Lemma loops_pause q : first <= q -> q <= last_ -> forallb (fun t => forallb (fun o => negb (how_eqb (s_how o) Rd)) (scopes (threads (at_ q) t))) (seq 0 threads_) = true -> readers_pause the_run.
Proof.
  intros L1 L2 H n t l f _. destruct (again n q L1 L2) as (m & Lm & Pm). exists m. split; [exact Lm|]. intros u (g & I0).
  destruct (Nat.le_gt_cases threads_ u) as [T|T]; [rewrite (other_run m u T) in I0; destruct I0|].
  destruct (run_same m) as [_ B]. rewrite B, Pm in I0. rewrite forallb_forall in H. specialize (H u ltac:(apply in_seq; lia)). rewrite forallb_forall in H. specialize (H _ I0). discriminate H.
Qed.
End Loops.

(* only mutexes: nobody waits to write *)
Lemma mutexes_pause mutex r : (forall l, mutex l = true) -> execution (init mutex) moves r -> readers_pause r.
Proof.
  intros M Ex n t l f E. exfalso. pose proof (i_enter _ (proj1 (invs mutex r Ex n)) t l Wr f E) as K.
  assert (K0 : kind_ok (locks (r n) l) Mx).
  { clear E K. destruct Ex as [E0 En]. induction n as [|n IH]; [rewrite E0; cbn; rewrite M; reflexivity|].
    destruct (En n) as [->|(u & e & _ & St)]; [exact IH|exact (kind_step _ u e _ l Mx St IH)]. }
  unfold kind_ok in *. rewrite K in K0. discriminate K0.
Qed.

(* two threads that take a mutex after the other, a reader and a writer *)
Definition nested_mutex (l : nat) : bool := Nat.ltb l 3.
Definition nested_evs : list (nat * event) :=
  [(0, Enter 1 Mx true); (1, Enter 1 Mx true); (0, Attempt false); (1, Attempt false); (0, Enter 2 Mx true); (0, Attempt true); (0, Attempt false);
   (0, Enter 3 Rd false); (0, Attempt false); (2, Enter 3 Wr true); (2, Attempt false); (0, Leave); (0, Leave); (2, Attempt false); (1, Attempt false);
   (0, Leave); (1, Attempt false); (2, Leave); (1, Leave)].
Definition nested_run : nat -> state := the_run nested_mutex nested_evs 0.
Lemma nested_fl : 0 <= last_ nested_evs. Proof. lia. Qed.
Lemma nested_closes : same (apply_event (ev nested_evs (last_ nested_evs)) (at_ nested_mutex nested_evs (last_ nested_evs))) (at_ nested_mutex nested_evs 0).
Proof. split; [intros [|[|[|[|l]]]]|intros [|[|[|t]]]]; vm_compute; reflexivity. Qed.
Lemma nested_fair : fair nested_mutex nested_run.
Proof.
  split; [|split].
  - exact (loops_execution nested_mutex nested_evs 0 3 nested_fl nested_closes ltac:(vm_compute; reflexivity)).
  - exact (loops_fair nested_mutex nested_evs 0 3 nested_fl nested_closes ltac:(vm_compute; reflexivity) ltac:(vm_compute; reflexivity)).
  - exists 3. exact (loops_few nested_mutex nested_evs 0 3 nested_fl nested_closes ltac:(vm_compute; reflexivity) 3 ltac:(vm_compute; reflexivity)).
Qed.
Lemma nested_end : blocks_end nested_run.
Proof. exact (loops_end nested_mutex nested_evs 0 3 nested_fl nested_closes ltac:(vm_compute; reflexivity) ltac:(vm_compute; reflexivity)). Qed.
Lemma nested_pause : readers_pause nested_run.
Proof. exact (loops_pause nested_mutex nested_evs 0 3 nested_fl nested_closes ltac:(vm_compute; reflexivity) 0 ltac:(lia) ltac:(vm_compute; lia) ltac:(vm_compute; reflexivity)). Qed.

(* two readers that always overlap *)
Definition overlap_mutex (l : nat) : bool := false.
Definition overlap_evs : list (nat * event) :=
  [(0, Enter 0 Rd true); (0, Attempt false); (2, Enter 0 Wr true); (2, Attempt false);
   (1, Enter 0 Rd true); (1, Attempt false); (0, Leave); (0, Enter 0 Rd true); (0, Attempt false); (2, Attempt false); (1, Leave)].
Definition overlap_run : nat -> state := the_run overlap_mutex overlap_evs 4.
Lemma overlap_fl : 4 <= last_ overlap_evs. Proof. vm_compute. lia. Qed.
Lemma overlap_closes : same (apply_event (ev overlap_evs (last_ overlap_evs)) (at_ overlap_mutex overlap_evs (last_ overlap_evs))) (at_ overlap_mutex overlap_evs 4).
Proof. split; [intros [|l]|intros [|[|[|t]]]]; vm_compute; reflexivity. Qed.
Lemma overlap_fair : fair overlap_mutex overlap_run.
Proof.
  split; [|split].
  - exact (loops_execution overlap_mutex overlap_evs 4 3 overlap_fl overlap_closes ltac:(vm_compute; reflexivity)).
  - exact (loops_fair overlap_mutex overlap_evs 4 3 overlap_fl overlap_closes ltac:(vm_compute; reflexivity) ltac:(vm_compute; reflexivity)).
  - exists 0. exact (loops_few overlap_mutex overlap_evs 4 3 overlap_fl overlap_closes ltac:(vm_compute; reflexivity) 0 ltac:(vm_compute; reflexivity)).
Qed.
Lemma overlap_end : blocks_end overlap_run.
Proof. exact (loops_end overlap_mutex overlap_evs 4 3 overlap_fl overlap_closes ltac:(vm_compute; reflexivity) ltac:(vm_compute; reflexivity)). Qed.
Lemma overlap_waits n : 4 <= n -> enters (overlap_run n) 2 = Some (0, Wr, true).
Proof.
  intros L. destruct (run_same overlap_mutex overlap_evs 4 overlap_closes n) as [_ B]. unfold overlap_run. rewrite B.
  pose proof (pos_ge overlap_mutex overlap_evs 4 overlap_fl n L) as G. pose proof (pos_le overlap_mutex overlap_evs 4 overlap_fl n) as U.
  set (p := pos overlap_mutex overlap_evs 4 n) in *. clearbody p. change (last_ overlap_evs) with 10 in U.
  do 11 (destruct p as [|p]; [first [lia|vm_compute; reflexivity]|]). lia.
Qed.
