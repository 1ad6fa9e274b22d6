(* Proofs for C49: what happens in every fair execution *)
From Verif Require Import Conc Text LogTextModel LogStreamModel LogStreamSpec LogStreamProofs FairLemmas LogStreamFairSpec.

Lemma tstep_doing SIZE outs s t s' m : below s t = [] -> tstep SIZE outs t s = Some s' -> doing (pcs s t) = Some m -> crashed s' = false -> crashed s = false ->
  (doing (pcs s' t) = Some m /\ hist s' t = hist s t) \/ (pcs s' t = Idle /\ hist s' t = hist s t ++ [m]).
Proof.
  intros B H D Cr C0. unfold LogStreamModel.tstep in H.
  destruct (pcs s t) as [|k|k|k i|k i|k i l|k i n x l|k i n l|k i|k i|k i|k i|k i|k i]; cbn in D; try discriminate D; injection D as D; subst k;
    repeat match type of H with context[match ?x with _ => _ end] => destruct x eqn:?; try discriminate H end; injection H as H; subst s'; try (cbn in Cr; congruence);
    cbn; rewrite ?upd_same, ?B; cbn; auto; rewrite ?upd_same; auto.
Qed.
Lemma tstep_others SIZE outs s t s' u : tstep SIZE outs t s = Some s' -> u <> t -> pcs s' u = pcs s u /\ hist s' u = hist s u.
Proof.
  intros H Ne. unfold LogStreamModel.tstep in H.
  destruct (pcs s t) as [|k|k|k i|k i|k i l|k i n x l|k i n l|k i|k i|k i|k i|k i|k i]; try discriminate H;
    repeat match type of H with context[match ?x with _ => _ end] => destruct x eqn:?; try discriminate H end; injection H as H; subst s';
    cbn; rewrite ?upd_other by exact Ne; auto.
Qed.

Lemma tstep_dist SIZE outs s t s' : below s t = [] -> tstep SIZE outs t s = Some s' -> crashed s' = false -> crashed s = false -> dist (pcs s' t) < dist (pcs s t).
Proof.
  intros B H Cr C0. unfold LogStreamModel.tstep in H.
  destruct (pcs s t) as [|k|k|k i|k i|k i l|k i n x l|k i n l|k i|k i|k i|k i|k i|k i]; try discriminate H;
    repeat match type of H with context[match ?x with _ => _ end] => destruct x eqn:?; try discriminate H end; injection H as H; subst s'; try (cbn in Cr; congruence);
    cbn; rewrite ?upd_same, ?B; cbn; lia.
Qed.
Lemma holder_same SIZE outs s t s' : tstep SIZE outs t s = Some s' -> in_mutex (pcs s t) = true -> mutex s = Some t -> mutex s' = None \/ mutex s' = Some t.
Proof.
  intros H I1 M. unfold LogStreamModel.tstep in H.
  destruct (pcs s t) as [|k|k|k i|k i|k i l|k i n x l|k i n l|k i|k i|k i|k i|k i|k i]; try discriminate I1;
    repeat match type of H with context[match ?x with _ => _ end] => destruct x eqn:?; try discriminate H end; injection H as H; subst s'; cbn; auto.
Qed.
Definition needs_mutex (p : pc) : bool := match p with A94 _ | F128 _ _ => true | _ => false end.
Lemma can_go SIZE outs s t : pcs s t <> Idle -> needs_mutex (pcs s t) = false -> tstep SIZE outs t s <> None.
Proof.
  intros N W. unfold LogStreamModel.tstep. destruct (pcs s t) as [|k|k|k i|k i|k i l|k i n x l|k i n l|k i|k i|k i|k i|k i|k i]; try discriminate; try congruence.
  - destruct (own_slot s t (s_level k)); [|destruct (free_slot s)]; discriminate.
  - destruct l as [|[]]; discriminate.
Qed.

Section Run.
Context (SIZE POOL : nat) (outs : list nat) (HS : 2 <= SIZE) (ND : NoDup outs).
Variable r : nat -> st.
Hypothesis Fr : fair SIZE POOL outs r.
Let Er : execution (init SIZE POOL) (any SIZE outs false) r := proj1 Fr.
Let Iv : forall n, Inv SIZE outs (r n) := fun n => inv_reach SIZE POOL outs HS ND (r n) (execution_reach _ _ _ Er n).

(* what happens to a thread within a statement, in one step *)
Lemma one k t : pcs (r k) t <> Idle ->
  (pcs (r (S k)) t = pcs (r k) t /\ hist (r (S k)) t = hist (r k) t) \/ tstep SIZE outs t (r k) = Some (r (S k)).
Proof.
  intros N. destruct (proj2 Er k) as [-> |(v & H)]; [auto|]. destruct (Nat.eq_dec t v) as [->|Ne].
  - inversion H as [? ? ? _ Hs|? ? ? _ Hi|]; subst; [auto|congruence|discriminate].
  - left. inversion H as [? ? ? _ Hs|? ? ? _ Hi|]; subst; [apply (tstep_others _ _ _ _ _ _ Hs Ne)| |discriminate].
    cbn. rewrite upd_other by exact Ne. auto.
Qed.
Lemma moves k t m : doing (pcs (r k) t) = Some m -> tstep SIZE outs t (r k) = Some (r (S k)) ->
  ((doing (pcs (r (S k)) t) = Some m /\ hist (r (S k)) t = hist (r k) t) \/ (pcs (r (S k)) t = Idle /\ hist (r (S k)) t = hist (r k) t ++ [m])) /\
  dist (pcs (r (S k)) t) < dist (pcs (r k) t).
Proof.
  intros D H. pose proof (i_crash _ _ _ (Iv k)) as C0. pose proof (i_crash _ _ _ (Iv (S k))) as C1. pose proof (i_below _ _ _ (Iv k) t) as B. split.
  - apply (tstep_doing SIZE outs _ _ _ m B H D C1 C0).
  - apply (tstep_dist SIZE outs _ _ _ B H C1 C0).
Qed.
Lemma mutex_frees n : eventually n (fun k => mutex (r k) = None).
Proof.
  destruct (mutex (r n)) as [u|] eqn:M; [|apply eventually_now, M].
  apply (leads_rank (fun k => mutex (r k) = Some u) _ (fun k => dist (pcs (r k) u))); [|exact M]. clear n M. intros n M.
  set (P := fun k => mutex (r k) = Some u /\ pcs (r k) u = pcs (r n) u).
  set (Q := fun k => mutex (r k) = None \/ (mutex (r k) = Some u /\ dist (pcs (r k) u) < dist (pcs (r n) u))).
  assert (In1 : forall k, P k -> in_mutex (pcs (r k) u) = true) by (intros k (A & _); apply (i_mutex _ _ _ (Iv k)); exact A).
  assert (T : forall k, P k -> tstep SIZE outs u (r k) = Some (r (S k)) -> Q (S k)).
  { intros k Pk H. pose proof (In1 k Pk) as I1. destruct Pk as (A & E). unfold Q. rewrite <- E.
    pose proof (tstep_dist SIZE outs _ _ _ (i_below _ _ _ (Iv k) u) H (i_crash _ _ _ (Iv (S k))) (i_crash _ _ _ (Iv k))) as D.
    destruct (mutex (r (S k))) as [v|] eqn:E1; auto. right. split; [|exact D]. f_equal.
    pose proof (holder_same SIZE outs _ _ _ H I1 A) as [Z|Z]; congruence. }
  apply (sf_leads (tstep SIZE outs u) r P Q).
  - apply Fr.
  - intros k Pk. apply eventually_now. left. pose proof (In1 k Pk) as I1. apply can_go; destruct (pcs (r k) u); try discriminate I1; first [reflexivity|discriminate].
  - intros k Pk. pose proof (In1 k Pk) as I1. destruct (one k u) as [(E1 & E2)|H]; [intros X; rewrite X in I1; discriminate I1| |right; auto].
    left. destruct Pk as (A & E). split; [|congruence]. apply (i_mutex _ _ _ (Iv (S k))). rewrite E1. exact I1.
  - exact T.
  - split; auto.
Qed.
Lemma ends n t m : doing (pcs (r n) t) = Some m -> eventually n (fun k => pcs (r k) t = Idle /\ hist (r k) t = hist (r n) t ++ [m]).
Proof.
  intros D. apply (leads_rank (fun k => doing (pcs (r k) t) = Some m /\ hist (r k) t = hist (r n) t) _ (fun k => dist (pcs (r k) t))); [|auto].
  generalize (hist (r n) t). clear n D. intros h n (D & Hh).
  set (P := fun k => pcs (r k) t = pcs (r n) t /\ hist (r k) t = h).
  set (Q := fun k => (pcs (r k) t = Idle /\ hist (r k) t = h ++ [m]) \/ ((doing (pcs (r k) t) = Some m /\ hist (r k) t = h) /\ dist (pcs (r k) t) < dist (pcs (r n) t))).
  assert (T : forall k, P k -> tstep SIZE outs t (r k) = Some (r (S k)) -> Q (S k)).
  { intros k (E1 & E2) H. destruct (moves k t m) as ([(A & B)|(A & B)] & L); auto; unfold Q; rewrite ?E1 in *; [congruence|right|left]; rewrite ?A, ?B, ?E2; auto. }
  assert (K : forall k, P k -> P (S k) \/ Q (S k)).
  { intros k Pk. pose proof Pk as (E1 & E2). destruct (one k t) as [(A & B)|H]; [intros X; rewrite <- E1, X in D; discriminate D| |right; auto]. left. split; congruence. }
  apply (sf_leads (tstep SIZE outs t) r P Q); auto.
  - apply Fr.
  - intros k Pk. destruct (needs_mutex (pcs (r n) t)) eqn:W.
    + destruct (mutex_frees k) as (j & L & Em). destruct (persist P Q K k j L Pk) as [(E1 & _)|(i & Li & Qi)]; [|exists i; auto].
      exists j. split; [exact L|]. left. rewrite <- E1 in W. unfold LogStreamModel.tstep. destruct (pcs (r j) t); try discriminate W; rewrite Em; discriminate.
    + apply eventually_now. left. destruct Pk as (E1 & _). apply can_go; rewrite E1; [intros X; rewrite X in D; discriminate D|exact W].
  - split; auto.
Qed.
End Run.

(* an execution in which one thread logs all the time while another one waits for the mutex *)
Inductive lab := Begin (t : tid) (m : stmt) | Do (t : tid).
Definition by_ (l : lab) : tid := match l with Begin t _ | Do t => t end.
Definition alab (SIZE : nat) (outs : list nat) (l : lab) (s : st) : option st :=
  if crashed s then None else match l with Begin t m => match pcs s t with Idle => Some (goto s t (A94 m)) | _ => None end | Do t => tstep SIZE outs t s end.
Definition fl (SIZE : nat) (outs : list nat) (ls : list lab) (p : nat) (s : st) : st :=
  match nth_error ls p with Some l => match alab SIZE outs l s with Some s' => s' | None => s end | None => s end.
Definition sim (a b : st) : Prop :=
  mutex a = mutex b /\ nslots a = nslots b /\ crashed a = crashed b /\ (forall i, slots a i = slots b i) /\ forall t, pcs a t = pcs b t /\ below a t = below b t.
Lemma sim_refl s : sim s s.
Proof. unfold sim. auto 10. Qed.
Lemma sim_trans a b c : sim a b -> sim b c -> sim a c.
Proof.
  intros (A1 & A2 & A3 & A4 & A5) (B1 & B2 & B3 & B4 & B5). split; [congruence|]. split; [congruence|]. split; [congruence|]. split; [intros i; congruence|].
  intros t. destruct (A5 t), (B5 t). split; congruence.
Qed.
Lemma upd_ptw {A : Type} (f g : nat -> A) t x y : (forall u, f u = g u) -> x = y -> forall u, upd f t x u = upd g t y u.
Proof. intros E -> u. unfold upd. destruct (u =? t); auto. Qed.
Lemma find_ext {A} (f g : A -> bool) l : (forall x, f x = g x) -> find f l = find g l.
Proof. intros E. induction l as [|x l IH]; cbn; [reflexivity|]. rewrite E, IH. reflexivity. Qed.
Definition both (x y : option st) : Prop := match x, y with Some a, Some b => sim a b | None, None => True | _, _ => False end.
Ltac s5 := unfold sim; cbn; (split; [auto; congruence|]); (split; [auto; congruence|]); (split; [auto; congruence|]); split.
Lemma tstep_sim SIZE outs t a b : sim a b -> both (tstep SIZE outs t a) (tstep SIZE outs t b).
Proof.
  intros (A1 & A2 & A3 & A4 & A5). assert (Pc : forall u, pcs a u = pcs b u) by apply A5. assert (Pb : forall u, below a u = below b u) by apply A5.
  assert (Po : forall l, own_slot a t l = own_slot b t l) by (intros l; unfold own_slot; rewrite A2; apply find_ext; intros i; rewrite A4; reflexivity).
  assert (Pf : free_slot a = free_slot b) by (unfold free_slot; rewrite A2; apply find_ext; intros i; rewrite A4; reflexivity).
  unfold LogStreamModel.tstep. rewrite <- (Pc t).
  destruct (pcs a t) as [|k|k|k i|k i|k i l|k i n x l|k i n l|k i|k i|k i|k i|k i|k i]; cbn; rewrite <- ?A1, <- ?A2, <- ?Po, <- ?Pf, <- ?A4; auto;
    repeat match goal with |- context[match ?x with _ => _ end] => destruct x eqn:?; cbn; auto end;
    s5; intros u; try (split; [|auto]); try apply A4; try apply Pc; try apply Pb; try (apply upd_ptw; [assumption|]); rewrite <- ?A4, <- ?A2, <- ?Pb; auto;
    try (split; [|auto]); try (apply upd_ptw; [assumption|reflexivity]); try (rewrite ?Pb; apply upd_ptw; [assumption|rewrite ?Pb; reflexivity]).
Qed.
Lemma fl_tstep SIZE outs ls p t s : nth_error ls p = Some (Do t) -> crashed s = false -> tstep SIZE outs t s <> None -> tstep SIZE outs t s = Some (fl SIZE outs ls p s).
Proof. intros E Cr N. unfold fl. rewrite E. unfold alab. rewrite Cr. destruct (tstep SIZE outs t s); [reflexivity|congruence]. Qed.
Lemma alab_any SIZE outs l s s' : alab SIZE outs l s = Some s' -> any SIZE outs false s s' /\ forall t, t <> by_ l -> pcs s' t = pcs s t.
Proof.
  unfold alab. destruct (crashed s) eqn:Cr; [discriminate|]. destruct l as [t m|t]; intros H; cbn [by_].
  - destruct (pcs s t) eqn:E; try discriminate H. injection H as H. subst s'. split; [exists t; apply step_start; auto|]. intros u Ne. cbn. apply upd_other. exact Ne.
  - split; [exists t; apply step_thread; auto|]. intros u Ne. apply (tstep_others _ _ _ _ _ _ H Ne).
Qed.
Lemma alab_sim SIZE outs l a b : sim a b -> both (alab SIZE outs l a) (alab SIZE outs l b).
Proof.
  intros Sm. unfold alab. pose proof Sm as (A1 & A2 & A3 & A4 & A5). rewrite <- A3. destruct (crashed a) eqn:Ca; [exact Logic.I|]. destruct l as [t m|t]; [|apply tstep_sim, Sm].
  rewrite <- (proj1 (A5 t)). destruct (pcs a t); cbn [both]; auto. s5; intros u; [apply A4|]. split; [|apply A5]. apply upd_ptw; [|reflexivity]. intros v. apply A5.
Qed.
Lemma fl_sim SIZE outs ls p a b : sim a b -> sim (fl SIZE outs ls p a) (fl SIZE outs ls p b).
Proof.
  intros Sm. unfold fl. destruct (nth_error ls p) as [l|]; auto. pose proof (alab_sim SIZE outs l a b Sm) as H. unfold both in H.
  destruct (alab SIZE outs l a), (alab SIZE outs l b); auto; contradiction.
Qed.
Section Loops.
Context (SIZE POOL : nat) (outs : list nat) (ls : list lab) (a b : nat).
Let go := fl SIZE outs ls.
Let i0 := init SIZE POOL.
Hypothesis HL : a <= b.
Hypothesis HC : sim (go b (conc go i0 b)) (conc go i0 a).
Definition therun : nat -> st := loop_run go a b i0.
Lemma therun_sim n : sim (therun n) (conc go i0 (fst (loop go a b i0 n))).
Proof. exact (loop_sim go a b i0 sim sim_refl sim_trans (fl_sim SIZE outs ls) HC n). Qed.
Lemma therun_exec : execution i0 (any SIZE outs false) therun.
Proof.
  split; [reflexivity|]. intros n. unfold therun, loop_run. cbn [loop snd]. generalize (snd (loop go a b i0 n)) (fst (loop go a b i0 n)). intros s p.
  unfold go, fl. destruct (nth_error ls p) as [l|]; auto. destruct (alab SIZE outs l s) as [s'|] eqn:E; auto. right. exact (proj1 (alab_any _ _ _ _ _ E)).
Qed.
Lemma therun_others t : (forall l, In l ls -> by_ l <> t) -> forall n, pcs (therun n) t = Idle.
Proof.
  intros N n. unfold therun, loop_run. induction n as [|n IH]; [reflexivity|]. cbn [loop snd]. revert IH. generalize (snd (loop go a b i0 n)) (fst (loop go a b i0 n)). intros s p IH.
  unfold go, fl. destruct (nth_error ls p) as [l|] eqn:El; auto. destruct (alab SIZE outs l s) as [s'|] eqn:E; auto.
  rewrite (proj2 (alab_any _ _ _ _ _ E) t); auto. apply nth_error_In in El. intros X. apply (N l El). auto.
Qed.
Lemma therun_comes n p : a <= p -> p <= b -> exists m, n <= m /\ sim (therun m) (conc go i0 p) /\ therun (S m) = go p (therun m).
Proof.
  intros H1 H2. destruct (loop_again go a b i0 HL n p H1 H2) as (m & L & E). exists m. split; [exact L|].
  pose proof (therun_sim m) as Sm. rewrite E in Sm. split; [exact Sm|]. unfold therun, loop_run. cbn [loop snd]. rewrite E. reflexivity.
Qed.
Lemma therun_moves n t p : a <= p -> p <= b -> nth_error ls p = Some (Do t) -> crashed (conc go i0 p) = false -> tstep SIZE outs t (conc go i0 p) <> None ->
  exists m, n <= m /\ Fair.taken (tstep SIZE outs t) therun m.
Proof.
  intros H1 H2 El Cr En. destruct (therun_comes n p H1 H2) as (m & L & Sm & Hs). exists m. split; [exact L|]. unfold Fair.taken. rewrite Hs. apply fl_tstep; [exact El| |].
  - rewrite <- Cr. apply Sm.
  - pose proof (tstep_sim SIZE outs t _ _ Sm) as B. unfold both in B. destruct (tstep SIZE outs t (therun m)); [discriminate|]. destruct (tstep SIZE outs t (conc go i0 p)); [contradiction|congruence].
Qed.
End Loops.
Definition said (l : Z) (x : list str) : stmt := mkStmt (mkMeta Info $"a.cpp" l $"C" [] $"f") x true.

(* thread 1 logs all the time; thread 2 waits for the mutex and could take it again and again, but never without interruption *)
Definition busy_round : list lab := Begin 1 (said 1 []) :: repeat (Do 1) 14.
Definition busy : list lab := busy_round ++ [Begin 2 (said 2 [])] ++ busy_round.
Definition busy_run : nat -> st := therun 64 1 [0] busy 16 30.
Lemma busy_closes : sim (fl 64 [0] busy 30 (conc (fl 64 [0] busy) (init 64 1) 30)) (conc (fl 64 [0] busy) (init 64 1) 16).
Proof.
  split; [vm_compute; reflexivity|]. split; [vm_compute; reflexivity|]. split; [vm_compute; reflexivity|]. split.
  - intros [|i]; vm_compute; reflexivity.
  - intros [|[|[|t]]]; (split; vm_compute; reflexivity).
Qed.
Lemma busy_others t : t <> 1 -> t <> 2 -> forall l, In l busy -> by_ l <> t.
Proof.
  intros N1 N2 l Hl X. assert (Y : forallb (fun l => (by_ l =? 1) || (by_ l =? 2)) busy = true) by reflexivity.
  rewrite forallb_forall in Y. specialize (Y l Hl). rewrite Bool.orb_true_iff, !Nat.eqb_eq in Y. lia.
Qed.
Lemma busy_weak : weakly_fair_run 64 1 [0] busy_run.
Proof.
  split; [apply therun_exec|]. intros t n.
  destruct (Nat.eq_dec t 1) as [->|N1].
  { destruct (therun_moves 64 1 [0] busy 16 30 ltac:(lia) busy_closes n 1 17) as (m & L & T); [lia|lia|reflexivity|vm_compute; reflexivity|vm_compute; discriminate|].
    exists m. split; [exact L|]. right. exact T. }
  destruct (Nat.eq_dec t 2) as [->|N2].
  { destruct (therun_comes 64 1 [0] busy 16 30 ltac:(lia) busy_closes n 18) as (m & L & Sm & _); [lia|lia|]. exists m. split; [exact L|]. left.
    pose proof (tstep_sim 64 [0] 2 _ _ Sm) as B. assert (E : tstep 64 [0] 2 (conc (fl 64 [0] busy) (init 64 1) 18) = None) by (vm_compute; reflexivity).
    unfold both in B. unfold busy_run. rewrite E in B. destruct (tstep 64 [0] 2 (therun 64 1 [0] busy 16 30 m)); [contradiction|reflexivity]. }
  exists n. split; [lia|]. left. unfold LogStreamModel.tstep, busy_run. rewrite (therun_others 64 1 [0] busy 16 30 t (busy_others t N1 N2)). reflexivity.
Qed.
Lemma busy_waits n : 16 <= n -> pcs (busy_run n) 2 = A94 (said 2 []).
Proof.
  intros L. pose proof (therun_sim 64 1 [0] busy 16 30 busy_closes n) as Sm. destruct Sm as (_ & _ & _ & _ & A5).
  destruct (A5 2) as (E & _). unfold busy_run. rewrite E. clear E A5.
  pose proof (loop_ge (fl 64 [0] busy) 16 30 (init 64 1) ltac:(lia) n L) as G. pose proof (loop_le (fl 64 [0] busy) 16 30 (init 64 1) ltac:(lia) n) as Le.
  set (p := fst (loop (fl 64 [0] busy) 16 30 (init 64 1) n)) in *. clearbody p.
  assert (Y : In p (seq 16 15)) by (apply in_seq; lia).
  assert (Z : Forall (fun p => pcs (conc (fl 64 [0] busy) (init 64 1) p) 2 = A94 (said 2 [])) (seq 16 15)).
  { cbn [seq]. repeat (constructor; [vm_compute; reflexivity|]). constructor. }
  rewrite Forall_forall in Z. apply Z. exact Y.
Qed.

(* a fair execution: thread 2 logs while thread 1 is in a statement, for ever *)
Definition shared_round : list lab := Begin 1 (said 1 [$"a"]) :: repeat (Do 1) 3 ++ Begin 2 (said 2 [$"b"]) :: repeat (Do 2) 17 ++ repeat (Do 1) 14.
Definition shared : list lab := shared_round ++ shared_round.
Definition shared_run : nat -> st := therun 64 2 [0] shared 36 71.
Lemma shared_closes : sim (fl 64 [0] shared 71 (conc (fl 64 [0] shared) (init 64 2) 71)) (conc (fl 64 [0] shared) (init 64 2) 36).
Proof.
  split; [vm_compute; reflexivity|]. split; [vm_compute; reflexivity|]. split; [vm_compute; reflexivity|]. split.
  - intros [|[|i]]; vm_compute; reflexivity.
  - intros [|[|[|t]]]; (split; vm_compute; reflexivity).
Qed.
Lemma shared_others t : t <> 1 -> t <> 2 -> forall l, In l shared -> by_ l <> t.
Proof.
  intros N1 N2 l Hl X. assert (Y : forallb (fun l => (by_ l =? 1) || (by_ l =? 2)) shared = true) by reflexivity.
  rewrite forallb_forall in Y. specialize (Y l Hl). rewrite Bool.orb_true_iff, !Nat.eqb_eq in Y. lia.
Qed.
Lemma shared_fair : fair 64 2 [0] shared_run.
Proof.
  split; [apply therun_exec|]. intros t.
  destruct (Nat.eq_dec t 1) as [->|N1].
  { left. intros n. apply (therun_moves 64 2 [0] shared 36 71 ltac:(lia) shared_closes n 1 37); [lia|lia|reflexivity|vm_compute; reflexivity|vm_compute; discriminate]. }
  destruct (Nat.eq_dec t 2) as [->|N2].
  { left. intros n. apply (therun_moves 64 2 [0] shared 36 71 ltac:(lia) shared_closes n 2 41); [lia|lia|reflexivity|vm_compute; reflexivity|vm_compute; discriminate]. }
  right. exists 0. intros m _. unfold LogStreamModel.tstep, shared_run. rewrite (therun_others 64 2 [0] shared 36 71 t (shared_others t N1 N2)). reflexivity.
Qed.
(* up to the end of the loop the execution follows the labels *)
Lemma therun_first SIZE POOL outs ls a b n : n <= b -> therun SIZE POOL outs ls a b n = conc (fl SIZE outs ls) (init SIZE POOL) n.
Proof.
  intros L. assert (E : loop (fl SIZE outs ls) a b (init SIZE POOL) n = (n, conc (fl SIZE outs ls) (init SIZE POOL) n)).
  { induction n as [|n IH]; [reflexivity|]. cbn [loop]. rewrite IH by lia. cbn [fst snd conc]. f_equal. unfold FairLemmas.next. destruct (Nat.eqb_spec n b); lia. }
  unfold therun, loop_run. rewrite E. reflexivity.
Qed.
