(* Proofs for C44: what happens in every fair execution *)
From Verif Require Import Conc SpinLockModel SpinLockSpec SpinLockProofs FairLemmas SpinLockFairSpec.

Lemma others_step s s' v t : step without_tryLock v s s' -> t <> v -> pcs s' t = pcs s t /\ has s' t = has s t.
Proof.
  intros H Ne. inversion H as [? ? ? Hs|? ? Hr Hh|? ? F|? ? Hr Hh]; subst.
  - unfold tstep in Hs. destruct (pcs s v); try discriminate Hs; unfold returns in Hs; try destruct (locked s); injection Hs as Hs; rewrite <- Hs; cbn; rewrite ?upd_other by exact Ne; auto.
  - cbn. rewrite upd_other by exact Ne. auto.
  - discriminate F.
  - cbn. rewrite !upd_other by exact Ne. auto.
Qed.

Section Run.
Variable r : nat -> st.
Hypothesis Fr : fair r.
Let Er : execution init (any without_tryLock) r := proj1 Fr.
Let Rr : forall n, reach init (any without_tryLock) (r n) := execution_reach _ _ _ Er.

Lemma unlock_goes n t : pcs (r n) t = U68 -> eventually n (fun m => locked (r m) = false /\ pcs (r m) t = Ret true).
Proof.
  apply (sf_leads (progress t) r (fun k => pcs (r k) t = U68) (fun m => locked (r m) = false /\ pcs (r m) t = Ret true)).
  - apply Fr.
  - intros k E. apply eventually_now. left. unfold progress, tstep. rewrite E. discriminate.
  - intros k E. destruct (proj2 Er k) as [-> |[v H]]; [auto|]. destruct (Nat.eq_dec t v) as [->|Ne].
    + right. inversion H as [? ? ? Hs|? ? Hr Hh|? ? F|? ? Hr Hh]; subst; try (rewrite E in Hr; discriminate Hr); try discriminate F.
      unfold tstep in Hs. rewrite E in Hs. injection Hs as Hs. rewrite <- Hs. cbn. rewrite upd_same. auto.
    + left. rewrite (proj1 (others_step _ _ _ t H Ne)). exact E.
  - intros k E T. unfold taken, progress, tstep in T. rewrite E in T. injection T as T. rewrite <- T. cbn. rewrite upd_same. auto.
Qed.
Hypothesis Lr : locks_are_released r.
Lemma frees n : eventually n (fun m => locked (r m) = false).
Proof.
  destruct (locked (r n)) eqn:El; [|apply eventually_now, El].
  destruct (reach_inv _ (Rr n)) as (_ & _ & _ & I4). destruct (I4 El) as (t & [Ht|Ht] & _).
  2:{ apply (eventually_imp _ _ n (unlock_goes n t Ht)). tauto. }
  apply (eventually_trans (fun m => pcs (r m) t = U68)).
  - destruct (Lr n t Ht) as (m & L & E).
    destruct (persist (fun k => has (r k) t = true) (fun k => pcs (r k) t = U68)) with (n := n) (m := m) as [Y|Y]; auto; [|congruence].
    intros k Hk. destruct (proj2 Er k) as [-> |[v H]]; [auto|]. destruct (Nat.eq_dec t v) as [->|Ne].
    + pose proof (proj1 (reach_inv _ (Rr k)) v Hk) as Rs.
      inversion H as [? ? ? Hs|? ? Hr Hh|? ? F|? ? Hr Hh]; subst.
      * unfold tstep in Hs. destruct (pcs (r k) v); try discriminate Rs; discriminate Hs.
      * congruence.
      * discriminate F.
      * right. cbn. apply upd_same.
    + left. rewrite (proj2 (others_step _ _ _ t H Ne)). exact Hk.
  - intros m _ Hm. apply (eventually_imp _ _ m (unlock_goes m t Hm)). tauto.
Qed.
Lemma lock_gets n t : pcs (r n) t = L48 -> eventually n (fun m => has (r m) t = true /\ pcs (r m) t = Ret true).
Proof.
  apply (sf_leads (progress t) r (fun k => pcs (r k) t = L48) (fun m => has (r m) t = true /\ pcs (r m) t = Ret true)).
  - apply Fr.
  - intros k E. destruct (frees k) as (m & L & Fm). destruct (persist (fun k => pcs (r k) t = L48) (fun m => has (r m) t = true /\ pcs (r m) t = Ret true)) with (n := k) (m := m) as [Y|(j & Lj & Y)]; auto.
    + intros j Ej. destruct (proj2 Er j) as [-> |[v H]]; [auto|]. destruct (Nat.eq_dec t v) as [->|Ne]; [|left; rewrite (proj1 (others_step _ _ _ t H Ne)); exact Ej].
      inversion H as [? ? ? Hs|? ? Hr Hh|? ? F|? ? Hr Hh]; subst; try (rewrite Ej in Hr; discriminate Hr); try discriminate F.
      unfold tstep in Hs. rewrite Ej in Hs. destruct (locked (r j)); injection Hs as Hs; rewrite <- Hs; cbn; rewrite ?upd_same; auto.
    + exists m. split; [exact L|]. left. unfold progress, tstep. rewrite Y, Fm. discriminate.
    + exists j. auto.
  - intros j Ej. destruct (proj2 Er j) as [-> |[v H]]; [auto|]. destruct (Nat.eq_dec t v) as [->|Ne]; [|left; rewrite (proj1 (others_step _ _ _ t H Ne)); exact Ej].
    inversion H as [? ? ? Hs|? ? Hr Hh|? ? F|? ? Hr Hh]; subst; try (rewrite Ej in Hr; discriminate Hr); try discriminate F.
    unfold tstep in Hs. rewrite Ej in Hs. destruct (locked (r j)); injection Hs as Hs; rewrite <- Hs; cbn; rewrite ?upd_same; auto.
  - intros k E T. unfold taken, progress, tstep in T. rewrite E in T. destruct (locked (r k)); [discriminate T|]. injection T as T. rewrite <- T. cbn. rewrite !upd_same. auto.
Qed.
End Run.

(* executions that end in a loop *)
Definition alab (l : act) (s : st) : option st := arun1 false s l.
Definition who (l : act) : tid := match l with AS t | AL t | AT t | AU t => t end.
Definition fl (ls : list act) (p : nat) (s : st) : st :=
  match nth_error ls p with Some l => match alab l s with Some s' => s' | None => s end | None => s end.
Definition sim (a b : st) : Prop := locked a = locked b /\ forall t, pcs a t = pcs b t /\ has a t = has b t.
Lemma sim_refl s : sim s s.
Proof. unfold sim. auto. Qed.
Lemma sim_trans a b c : sim a b -> sim b c -> sim a c.
Proof. intros (A1 & A7) (B1 & B7). split; [congruence|]. intros t. destruct (A7 t), (B7 t). split; congruence. Qed.
Definition both (x y : option st) : Prop := match x, y with Some a, Some b => sim a b | None, None => True | _, _ => False end.
Lemma upd_ptw {A : Type} (f g : tid -> A) t x : (forall u, f u = g u) -> forall u, upd f t x u = upd g t x u.
Proof. intros E u. unfold upd. destruct (u =? t); auto. Qed.
Lemma tstep_sim t a b : sim a b -> both (tstep t a) (tstep t b).
Proof.
  destruct a as [la ca ha], b as [lb cb hb]. intros (A1 & A7). cbn in *. subst lb. unfold tstep. cbn [pcs].
  assert (Pc : forall u, ca u = cb u) by apply A7. assert (Ph : forall u, ha u = hb u) by apply A7.
  rewrite <- (Pc t). destruct (ca t); cbn; auto; destruct la; cbn; unfold sim; cbn; (split; [reflexivity|]); intros u; split; auto; apply upd_ptw; auto.
Qed.
Lemma fl_tstep ls p t s : nth_error ls p = Some (AS t) -> tstep t s <> None -> tstep t s = Some (fl ls p s).
Proof. intros E N. unfold fl. rewrite E. cbn. destruct (tstep t s); [reflexivity|congruence]. Qed.
Lemma alab_any l s s' : alab l s = Some s' -> any without_tryLock s s' /\ forall t, t <> who l -> pcs s' t = pcs s t /\ has s' t = has s t.
Proof.
  intros H. assert (X : step without_tryLock (who l) s s').
  { destruct l as [t|t|t|t]; cbn in H |- *.
    - apply step_thread; auto.
    - destruct (resting (pcs s t)) eqn:Hr, (has s t) eqn:Hh; try discriminate H. injection H as <-. apply step_lock; auto.
    - discriminate H.
    - destruct (resting (pcs s t)) eqn:Hr, (has s t) eqn:Hh; try discriminate H. injection H as <-. apply step_unlock; auto. }
  split; [exists (who l); exact X|]. intros t Ne. apply (others_step _ _ _ t X Ne).
Qed.
Lemma alab_sim l a b : sim a b -> both (alab l a) (alab l b).
Proof.
  intros Sm. destruct l as [t|t|t|t]; cbn; [apply tstep_sim, Sm| | |]; pose proof Sm as (A1 & A7); auto.
  - destruct (A7 t) as (-> & ->). destruct (_ && _); cbn; auto. split; [exact A1|]. intros u. split; cbn; [apply upd_ptw|]; apply A7.
  - destruct (A7 t) as (-> & ->). destruct (_ && _); cbn; auto. split; [exact A1|]. intros u. split; cbn; apply upd_ptw; apply A7.
Qed.
Lemma fl_sim ls p a b : sim a b -> sim (fl ls p a) (fl ls p b).
Proof.
  intros Sm. unfold fl. destruct (nth_error ls p) as [l|]; auto. pose proof (alab_sim l a b Sm) as H. unfold both in H.
  destruct (alab l a), (alab l b); auto; contradiction.
Qed.
Lemma loop_run_sim ls a b n : sim (fl ls b (conc (fl ls) init b)) (conc (fl ls) init a) ->
  sim (loop_run (fl ls) a b init n) (conc (fl ls) init (fst (loop (fl ls) a b init n))).
Proof. intros H. exact (loop_sim (fl ls) a b init sim sim_refl sim_trans (fl_sim ls) H n). Qed.
Lemma loop_run_exec ls a b : execution init (any without_tryLock) (loop_run (fl ls) a b init).
Proof.
  split; [reflexivity|]. intros n. unfold loop_run. cbn [loop snd]. generalize (snd (loop (fl ls) a b init n)) (fst (loop (fl ls) a b init n)). intros s p.
  unfold fl. destruct (nth_error ls p) as [l|]; auto. destruct (alab l s) as [s'|] eqn:E; auto. right. exact (proj1 (alab_any _ _ _ E)).
Qed.
Lemma loop_run_others ls a b t : (forall l, In l ls -> who l <> t) -> forall n, pcs (loop_run (fl ls) a b init n) t = Idle /\ has (loop_run (fl ls) a b init n) t = false.
Proof.
  intros N n. unfold loop_run. induction n as [|n IH]; [split; reflexivity|]. cbn [loop snd]. revert IH. generalize (snd (loop (fl ls) a b init n)) (fst (loop (fl ls) a b init n)). intros s p IH.
  unfold fl. destruct (nth_error ls p) as [l|] eqn:El; auto. destruct (alab l s) as [s'|] eqn:E; auto.
  destruct (proj2 (alab_any _ _ _ E) t) as [-> ->]; auto. apply nth_error_In in El. intros X. apply (N l El). auto.
Qed.

(* thread 1 has the lock; thread 2 waits in lock() and gets its turns while the lock is taken; thread 1 unlocks and locks *)
Definition greedy : list act := [AL 1; AS 1; AL 2] ++ [AS 2; AU 1; AS 1; AL 1; AS 1].
Definition greedy_run : nat -> st := loop_run (fl greedy) 3 7 init.
Lemma greedy_closes : sim (fl greedy 7 (conc (fl greedy) init 7)) (conc (fl greedy) init 3).
Proof. unfold sim. split; [vm_compute; reflexivity|]. intros [|[|[|t]]]; [vm_compute; auto..|]. cbv. auto. Qed.
Lemma greedy_sim n : sim (greedy_run n) (conc (fl greedy) init (fst (loop (fl greedy) 3 7 init n))).
Proof. unfold greedy_run. apply loop_run_sim. exact greedy_closes. Qed.
Lemma greedy_comes n p : 3 <= p -> p <= 7 -> exists m, n <= m /\ sim (greedy_run m) (conc (fl greedy) init p) /\ greedy_run (S m) = fl greedy p (greedy_run m).
Proof.
  intros H1 H2. destruct (loop_again (fl greedy) 3 7 init ltac:(lia) n p H1 H2) as (m & L & E). exists m. split; [exact L|].
  pose proof (greedy_sim m) as Sm. rewrite E in Sm. split; [exact Sm|]. unfold greedy_run, loop_run. cbn [loop snd]. rewrite E. reflexivity.
Qed.
Lemma greedy_moves n t p : 3 <= p -> p <= 7 -> nth_error greedy p = Some (AS t) -> tstep t (conc (fl greedy) init p) <> None -> exists m, n <= m /\ taken (tstep t) greedy_run m.
Proof.
  intros H1 H2 El En. destruct (greedy_comes n p H1 H2) as (m & L & Sm & Hs). exists m. split; [exact L|]. unfold taken. rewrite Hs. apply fl_tstep; [exact El|].
  pose proof (tstep_sim t _ _ Sm) as B. unfold both in B. destruct (tstep t (greedy_run m)); [discriminate|]. destruct (tstep t (conc (fl greedy) init p)); [contradiction|congruence].
Qed.
Lemma greedy_others t : t <> 1 -> t <> 2 -> forall l, In l greedy -> who l <> t.
Proof.
  intros N1 N2 l Hl X. assert (Y : forallb (fun l => (who l =? 1) || (who l =? 2)) greedy = true) by reflexivity.
  rewrite forallb_forall in Y. specialize (Y l Hl). rewrite Bool.orb_true_iff, !Nat.eqb_eq in Y. lia.
Qed.
Lemma greedy_turns : takes_turns greedy_run.
Proof.
  split; [apply loop_run_exec|]. intros t.
  destruct (Nat.eq_dec t 1) as [->|N1]; [left; intros n; apply (greedy_moves n 1 5); try lia; vm_compute; congruence|].
  destruct (Nat.eq_dec t 2) as [->|N2]; [left; intros n; apply (greedy_moves n 2 3); try lia; vm_compute; congruence|].
  right. exists 0. intros m _. unfold tstep, greedy_run. rewrite (proj1 (loop_run_others greedy 3 7 t (greedy_others t N1 N2) m)). reflexivity.
Qed.
Lemma greedy_released : locks_are_released greedy_run.
Proof.
  intros n t H. assert (X : forall p t, 3 <= p -> p <= 7 -> has (conc (fl greedy) init p) t = false -> eventually n (fun m => has (greedy_run m) t = false)).
  { intros p u H1 H2 E. destruct (greedy_comes n p H1 H2) as (m & L & Sm & _). exists m. split; [exact L|]. destruct Sm as (_ & A7). destruct (A7 u) as (_ & ->). exact E. }
  destruct (Nat.eq_dec t 1) as [->|N1]; [apply (X 5); try lia; vm_compute; reflexivity|].
  destruct (Nat.eq_dec t 2) as [->|N2]; [apply (X 5); try lia; vm_compute; reflexivity|].
  pose proof (proj2 (loop_run_others greedy 3 7 t (greedy_others t N1 N2) n)) as E. unfold greedy_run in H. congruence.
Qed.
Lemma greedy_waits n : 3 <= n -> pcs (greedy_run n) 2 = L48.
Proof.
  intros L. set (p := fst (loop (fl greedy) 3 7 init n)). pose proof (greedy_sim n) as Sm. fold p in Sm. destruct Sm as (_ & A7). destruct (A7 2) as (-> & _).
  pose proof (loop_ge (fl greedy) 3 7 init ltac:(lia) n L) as G. pose proof (loop_le (fl greedy) 3 7 init ltac:(lia) n) as Le. fold p in G, Le. clearbody p.
  destruct (Nat.eq_dec p 3) as [->|]; [reflexivity|]. destruct (Nat.eq_dec p 4) as [->|]; [reflexivity|]. destruct (Nat.eq_dec p 5) as [->|]; [reflexivity|].
  destruct (Nat.eq_dec p 6) as [->|]; [reflexivity|]. replace p with 7 by lia. reflexivity.
Qed.

(* a fair execution: thread 1 and thread 2 give the lock to each other for ever *)
Definition polite_round : list act := [AL 2; AS 2; AU 1; AS 1; AS 2; AL 1; AS 1; AU 2; AS 2; AS 1].
Definition polite : list act := [AL 1; AS 1] ++ polite_round ++ polite_round.
Definition polite_run : nat -> st := loop_run (fl polite) 12 21 init.
Lemma polite_closes : sim (fl polite 21 (conc (fl polite) init 21)) (conc (fl polite) init 12).
Proof. unfold sim. split; [vm_compute; reflexivity|]. intros [|[|[|t]]]; [vm_compute; auto..|]. cbv. auto. Qed.
Lemma polite_sim n : sim (polite_run n) (conc (fl polite) init (fst (loop (fl polite) 12 21 init n))).
Proof. unfold polite_run. apply loop_run_sim. exact polite_closes. Qed.
Lemma polite_comes n p : 12 <= p -> p <= 21 -> exists m, n <= m /\ sim (polite_run m) (conc (fl polite) init p) /\ polite_run (S m) = fl polite p (polite_run m).
Proof.
  intros H1 H2. destruct (loop_again (fl polite) 12 21 init ltac:(lia) n p H1 H2) as (m & L & E). exists m. split; [exact L|].
  pose proof (polite_sim m) as Sm. rewrite E in Sm. split; [exact Sm|]. unfold polite_run, loop_run. cbn [loop snd]. rewrite E. reflexivity.
Qed.
Lemma polite_moves n t p : 12 <= p -> p <= 21 -> nth_error polite p = Some (AS t) -> pcs (conc (fl polite) init p) t = U68 -> exists m, n <= m /\ taken (progress t) polite_run m.
Proof.
  intros H1 H2 El En. destruct (polite_comes n p H1 H2) as (m & L & Sm & Hs). exists m. split; [exact L|]. unfold taken. rewrite Hs.
  destruct Sm as (_ & A7). destruct (A7 t) as (Ep & _). rewrite En in Ep. unfold progress. rewrite Ep. apply fl_tstep; [exact El|]. unfold tstep. rewrite Ep. discriminate.
Qed.
Lemma polite_others t : t <> 1 -> t <> 2 -> forall l, In l polite -> who l <> t.
Proof.
  intros N1 N2 l Hl X. assert (Y : forallb (fun l => (who l =? 1) || (who l =? 2)) polite = true) by reflexivity.
  rewrite forallb_forall in Y. specialize (Y l Hl). rewrite Bool.orb_true_iff, !Nat.eqb_eq in Y. lia.
Qed.
Lemma polite_fair : fair polite_run.
Proof.
  split; [apply loop_run_exec|]. intros t.
  destruct (Nat.eq_dec t 1) as [->|N1]; [left; intros n; apply (polite_moves n 1 15); try lia; vm_compute; congruence|].
  destruct (Nat.eq_dec t 2) as [->|N2]; [left; intros n; apply (polite_moves n 2 20); try lia; vm_compute; congruence|].
  right. exists 0. intros m _. unfold progress, tstep, polite_run. rewrite (proj1 (loop_run_others polite 12 21 t (polite_others t N1 N2) m)). reflexivity.
Qed.
Lemma polite_released : locks_are_released polite_run.
Proof.
  intros n t H. assert (X : forall p t, 12 <= p -> p <= 21 -> has (conc (fl polite) init p) t = false -> eventually n (fun m => has (polite_run m) t = false)).
  { intros p u H1 H2 E. destruct (polite_comes n p H1 H2) as (m & L & Sm & _). exists m. split; [exact L|]. destruct Sm as (_ & A7). destruct (A7 u) as (_ & ->). exact E. }
  destruct (Nat.eq_dec t 1) as [->|N1]; [apply (X 15); try lia; vm_compute; reflexivity|].
  destruct (Nat.eq_dec t 2) as [->|N2]; [apply (X 15); try lia; vm_compute; reflexivity|].
  pose proof (proj2 (loop_run_others polite 12 21 t (polite_others t N1 N2) n)) as E. unfold polite_run in H. congruence.
Qed.
