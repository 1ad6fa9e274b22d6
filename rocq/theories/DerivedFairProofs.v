(* Proofs for C74: fair executions *)
From Verif Require Import Conc BaseLemmas ThreadModel ThreadSpec ThreadProofs FairLemmas ThreadFairSpec ThreadFairProofs DerivedModel DerivedSpec DerivedProofs DerivedFairSpec.
From Verif Require Export Fair.

Definition phase_ok (s : dst) : Prop :=
  (ph s = Stopping -> cp (base s) = P189 false \/ cp (base s) = P189b false \/ cp (base s) = RStop) /\
  (ph s = Joining -> cp (base s) = J140 KJoin \/ cp (base s) = J142 KJoin \/ cp (base s) = J145 KJoin \/ cp (base s) = RJoin) /\
  (ph s = Gone -> in_dtor (cp (base s)) = true).
Lemma phase_pcs stops careful s : reach dinit (dstep stops careful) s -> phase_ok s.
Proof.
  intros R. unfold phase_ok. induction R as [|s s' R IH H]; [repeat split; discriminate|].
  inversion H as [w a b Hw|c a b Hc|a p Hp Hr Hc Npp|a Hs Hp Hr Ca|a Hs Hp Hr Ca|a Hp Hc|a Hp Hc]; subst; cbn in *; try (repeat split; try discriminate; auto; fail).
  - rewrite (worker_cp w _ _ Hw). exact IH.
  - destruct IH as (I1 & I2 & I3). repeat split; intros G.
    + destruct (I1 G) as [E|[E|E]]; unfold cstep in Hc; rewrite E in Hc; try discriminate Hc.
      * destruct (m_starting (base s)); [discriminate Hc|]. injection Hc as <-. auto.
      * injection Hc as <-. auto.
    + destruct (I2 G) as [E|[E|[E|E]]]; unfold cstep in Hc; rewrite E in Hc; try discriminate Hc;
        repeat match type of Hc with context[match ?x with _ => _ end] => destruct x; try discriminate Hc end; injection Hc as <-; cbn; auto.
    + exact (dtor_client c _ _ (I3 G) Hc).
Qed.

Section Run.
Variables careful : bool.
Variable r : nat -> dst.
Hypothesis Fr : fair_delete true careful false r.
Let Er : execution dinit (dstep true careful) r := proj1 Fr.
Let Rr : forall n, reach dinit (dstep true careful) (r n) := execution_reach _ _ _ Er.
Let b (n : nat) : st := base (r n).

Lemma base_exec : execution init (step false) b.
Proof.
  split; [unfold b; rewrite (proj1 Er); reflexivity|]. intros n. unfold b. destruct (proj2 Er n) as [E|H]; [left; rewrite E; reflexivity|right; exact (dstep_base _ _ _ _ H)].
Qed.
Lemma base_fair : fair false b.
Proof. split; [exact base_exec|]. split; [apply Fr|apply (proj1 (proj2 (proj2 Fr)))]. Qed.
(* what a step can do to the phase once delete has begun *)
Definition order (p : phase) : nat := match p with Living => 0 | Stopping => 1 | Joining => 2 | Gone => 3 end.
Lemma order_step n : order (ph (r n)) <= order (ph (r (S n))).
Proof.
  destruct (proj2 Er n) as [E|H]; [rewrite E; lia|]. inversion H as [w a c Hw|f a c Hc|a p Hp Hr Hc Np|a Hs Hp Hr Ca|a Hs Hp Hr Ca|a Hp Hc|a Hp Hc]; subst; cbn; try rewrite Hp; cbn; try lia.
Qed.
Lemma order_le n m : n <= m -> order (ph (r n)) <= order (ph (r m)).
Proof. intros L. induction L as [|m L IH]; [lia|]. pose proof (order_step m). lia. Qed.
Lemma call_pc p : in_dtor p = true -> p <> Destroyed -> in_call p = true.
Proof. destruct p; try discriminate; intros; try congruence; reflexivity. Qed.

Lemma gone_ends n : ph (r n) = Gone -> eventually n (fun m => cp (b m) = Destroyed).
Proof.
  intros G. destruct (phase_pcs _ _ _ (Rr n)) as (_ & _ & P). specialize (P G). fold (b n) in P.
  assert (D : cp (b n) = Destroyed \/ cp (b n) <> Destroyed) by (destruct (cp (b n)); try (left; reflexivity); right; discriminate).
  destruct D as [D|D]; [exists n; split; [lia|exact D]|].
  assert (A : awaits_run (cp (b n)) = false) by (destruct (cp (b n)); try discriminate P; try reflexivity; destruct k; try discriminate P; reflexivity).
  destruct (returns false b base_fair n (conj (call_pc _ P D) (or_intror A))) as (m & L & Q). exists m. split; [exact L|].
  assert (Gm : ph (r m) = Gone) by (pose proof (order_le n m L) as O; rewrite G in O; destruct (ph (r m)); cbn in O; try lia; reflexivity).
  destruct (phase_pcs _ _ _ (Rr m)) as (_ & _ & Pm). specialize (Pm Gm). fold (b m) in Pm.
  destruct (cp (b m)); try discriminate Pm; try discriminate Q; reflexivity.
Qed.
(* the client rests inside the destructor: it goes on *)
Lemma rests n k : order (ph (r n)) = k -> (k = 1 /\ cp (b n) = RStop \/ k = 2 /\ cp (b n) = RJoin) ->
  eventually n (fun m => order (ph (r m)) = S k).
Proof.
  intros K C0. assert (St : forall m, n <= m -> (order (ph (r m)) = k /\ cp (b m) = cp (b n)) \/ k < order (ph (r m))).
  { intros m L. induction L as [|m L IH]; [auto|]. destruct IH as [(O & E)|O]; [|right; pose proof (order_step m); lia].
    destruct (proj2 Er m) as [Q|H]; [rewrite Q; unfold b in *; rewrite Q; auto|]. rewrite <- E in C0. unfold b in *.
    inversion H as [w a c Hw|f a c Hc|a p Hp Hr Hc Np|a Hs Hp Hr Ca|a Hs Hp Hr Ca|a Hp Hc|a Hp Hc]; subst; cbn.
    - left. rewrite (worker_cp w _ _ Hw). auto.
    - exfalso. unfold cstep in Hc. destruct C0 as [[_ Z]|[_ Z]]; rewrite Z in Hc; discriminate Hc.
    - rewrite Hp in O. cbn in O. destruct C0 as [[Z _]|[Z _]]; lia.
    - discriminate Hs.
    - rewrite Hp in O. cbn in O. destruct C0 as [[Z _]|[Z _]]; lia.
    - right. rewrite Hp in O. cbn in O. lia.
    - right. rewrite Hp in O. cbn in O. lia. }
  destruct (proj2 (proj2 (proj2 Fr)) n) as (m & L & Q).
  assert (Up : forall j, n <= j -> k < order (ph (r j)) -> exists i, n <= i /\ i <= j /\ order (ph (r i)) = S k).
  { intros j Lj. induction Lj as [|j Lj IH]; [lia|]. intros O. destruct (St j Lj) as [(O' & E)|O'].
    - exists (S j). split; [lia|]. split; [lia|]. destruct (proj2 Er j) as [Q'|H]; [rewrite Q' in O; lia|].
      inversion H as [w a c Hw|f a c Hc|a p Hp Hr Hc Np|a Hs Hp Hr Ca|a Hs Hp Hr Ca|a Hp Hc|a Hp Hc]; subst;
        try match goal with E : _ = r (S j) |- _ => rewrite <- E in *; cbn in * end; try (rewrite Hp in *; cbn in *); try lia; try discriminate Hs.
    - destruct (IH O') as (i & A & B & D). exists i. split; [exact A|]. split; [lia|exact D]. }
  assert (F : exists j, n <= j /\ k < order (ph (r j))).
  { destruct (St m L) as [(O & E)|O]; [|exists m; auto]. destruct Q as [Q|[H Q]].
    - exfalso. destruct C0 as [[K1 C1]|[K1 C1]]; rewrite <- E in C1.
      + assert (P : ph (r m) = Stopping) by (destruct (ph (r m)); cbn in O; try lia; reflexivity).
        apply (Q (mkD (cgoto (base (r m)) (J140 KJoin)) Joining)). split; [apply d_join; [exact P|exact C1]|left; auto].
      + assert (P : ph (r m) = Joining) by (destruct (ph (r m)); cbn in O; try lia; reflexivity).
        apply (Q (mkD (cgoto (base (r m)) D85) Gone)). split; [apply d_joined; [exact P|exact C1]|right; auto].
    - exists (S m). split; [lia|]. destruct Q as [[P P']|[P P']]; rewrite P'; rewrite P in O; cbn in *; lia. }
  destruct F as (j & Lj & Oj). destruct (Up j Lj Oj) as (i & A & _ & D). exists i. auto.
Qed.
(* while the destructor joins, the worker's run() ends, as execute() is false *)
Lemma joining_fair n : 2 <= order (ph (r n)) -> fair true b.
Proof.
  intros O. assert (X : forall m, n <= m -> m_execute (b m) = false).
  { intros m L. pose proof (order_le n m L) as O'. assert (P : ph (r m) = Joining \/ ph (r m) = Gone) by (destruct (ph (r m)); cbn in O'; try lia; auto).
    destruct (asked_to_stop careful (r m) (Rr m) P) as (_ & s0 & R0 & E0 & S0). exact (stop_not_lost s0 _ R0 E0 S0). }
  split; [exact base_exec|]. split; [|apply (proj1 (proj2 (proj2 Fr)))]. intros w k.
  destruct (proj1 (proj2 Fr) w (max n k)) as (m & L & Q). exists m. split; [lia|].
  assert (E : bound true w (b m) = bound false w (b m)) by (unfold bound; rewrite X by lia; reflexivity).
  unfold taken in *. rewrite E. exact Q.
Qed.
Lemma joining_ends n : ph (r n) = Joining -> eventually n (fun m => cp (b m) = Destroyed).
Proof.
  intros J. assert (F : fair true b) by (apply (joining_fair n); rewrite J; cbn; lia).
  assert (M : exists m, n <= m /\ (ph (r m) = Gone \/ ph (r m) = Joining /\ cp (b m) = RJoin)).
  { destruct (phase_pcs _ _ _ (Rr n)) as (_ & P & _). specialize (P J). fold (b n) in P.
    assert (D : cp (b n) = RJoin \/ in_call (cp (b n)) = true) by (destruct P as [P|[P|[P|P]]]; rewrite P; auto).
    destruct D as [D|D]; [exists n; auto|].
    destruct (returns true b F n (conj D (or_introl eq_refl))) as (m & L & Q). exists m. split; [exact L|].
    pose proof (order_le n m L) as O. rewrite J in O. cbn in O. destruct (ph (r m)) eqn:Pm; cbn in O; try lia; [|auto].
    right. split; [reflexivity|]. destruct (phase_pcs _ _ _ (Rr m)) as (_ & P' & _). specialize (P' Pm). fold (b m) in P'.
    destruct P' as [E|[E|[E|E]]]; rewrite E in Q; try discriminate Q. exact E. }
  destruct M as (m & L & [G|[G Q]]).
  - destruct (gone_ends m G) as (k & L' & D). exists k. split; [lia|exact D].
  - destruct (rests m 2) as (k & L' & O); [rewrite G; reflexivity|auto|].
    assert (Gk : ph (r k) = Gone) by (destruct (ph (r k)); cbn in O; try lia; reflexivity).
    destruct (gone_ends k Gk) as (i & Li & D). exists i. split; [lia|exact D].
Qed.
Lemma delete_ends n : ph (r n) <> Living -> eventually n (fun m => cp (b m) = Destroyed).
Proof.
  intros Nl. destruct (ph (r n)) eqn:J; [congruence| |apply joining_ends, J|apply gone_ends, J].
  assert (M : exists m, n <= m /\ (2 <= order (ph (r m)) \/ ph (r m) = Stopping /\ cp (b m) = RStop)).
  { destruct (phase_pcs _ _ _ (Rr n)) as (P & _ & _). specialize (P J). fold (b n) in P.
    assert (D : cp (b n) = RStop \/ in_call (cp (b n)) = true /\ awaits_run (cp (b n)) = false) by (destruct P as [P|[P|P]]; rewrite P; auto).
    destruct D as [D|[D A]]; [exists n; auto|].
    destruct (returns false b base_fair n (conj D (or_intror A))) as (m & L & Q). exists m. split; [exact L|].
    pose proof (order_le n m L) as O. rewrite J in O. cbn in O. destruct (ph (r m)) eqn:Pm; cbn in O |- *; try lia.
    right. split; [reflexivity|]. destruct (phase_pcs _ _ _ (Rr m)) as (P' & _ & _). specialize (P' Pm). fold (b m) in P'.
    destruct P' as [E|[E|E]]; rewrite E in Q; try discriminate Q. exact E. }
  assert (K : exists k, n <= k /\ 2 <= order (ph (r k))).
  { destruct M as (m & L & [G|[G Q]]); [exists m; auto|]. destruct (rests m 1) as (k & L' & O); [rewrite G; reflexivity|auto|]. exists k. split; lia. }
  destruct K as (k & L & O). destruct (ph (r k)) eqn:Pk; cbn in O; try lia.
  - destruct (joining_ends k Pk) as (i & Li & D). exists i. split; [lia|exact D].
  - destruct (gone_ends k Pk) as (i & Li & D). exists i. split; [lia|exact D].
Qed.
End Run.

Lemma fair_weaker careful ends r : fair_delete true careful ends r -> fair_delete true careful false r.
Proof.
  intros (E & W & C & N). split; [exact E|]. split; [|split; assumption]. intros w n. destruct (W w n) as (m & L & Q). exists m. split; [exact L|].
  unfold taken, bound in *. destruct (wpcs (base (r m)) w); try exact Q. destruct (m_execute (base (r m))); cbn in *; [auto|]. destruct ends; exact Q.
Qed.

(* finite schedules as infinite executions *)
Inductive dact := DB (a : act) | DDel | DNext.
Definition livingb (p : phase) : bool := match p with Living => true | _ => false end.
Definition is_call (a : act) : bool := match a with AStart | AWait _ | AStop | AJoin => true | _ => false end.
Definition dact1 (s : dst) (a : dact) : option dst :=
  match a with
  | DB (AW w) => match wstep w (base s) with Some x => Some (mkD x (ph s)) | None => None end
  | DB (AC f) => match cstep f (base s) with Some x => Some (mkD x (ph s)) | None => None end
  | DB a => if is_call a && livingb (ph s) && resting (cp (base s)) then match ent false a with Some p => Some (mkD (cgoto (base s) p) Living) | None => None end else None
  | DDel => if livingb (ph s) && resting (cp (base s)) then Some (mkD (cgoto (base s) (P189 false)) Stopping) else None
  | DNext => match ph s, cp (base s) with
             | Stopping, RStop => Some (mkD (cgoto (base s) (J140 KJoin)) Joining)
             | Joining, RJoin => Some (mkD (cgoto (base s) D85) Gone)
             | _, _ => None
             end
  end.
Lemma dact1_step s a s' : dact1 s a = Some s' -> dstep true false s s'.
Proof.
  intros H. destruct a as [a| |]; unfold dact1 in H.
  - destruct a; cbn [is_call andb] in H; try discriminate H;
      try (destruct (livingb (ph s)) eqn:L; [|discriminate H]; destruct (resting (cp (base s))) eqn:Rs; [|discriminate H]; cbn in H; injection H as <-;
           apply d_call; [destruct (ph s); try discriminate L; reflexivity|exact Rs|constructor|discriminate]).
    + destruct (wstep w (base s)) as [x|] eqn:E; [|discriminate H]. injection H as <-. exact (d_worker _ _ w s x E).
    + destruct (cstep b (base s)) as [x|] eqn:E; [|discriminate H]. injection H as <-. exact (d_client _ _ b s x E).
  - destruct (livingb (ph s)) eqn:L; [|discriminate H]; destruct (resting (cp (base s))) eqn:Rs; [|discriminate H]. cbn in H. injection H as <-.
    apply d_stop; [reflexivity|destruct (ph s); try discriminate L; reflexivity|exact Rs|intros Q; discriminate Q].
  - destruct (ph s) eqn:P; try discriminate H; destruct (cp (base s)) eqn:E; try discriminate H; injection H as <-; [apply d_join|apply d_joined]; assumption.
Qed.
Fixpoint dacts (s : dst) (l : list dact) : option dst := match l with [] => Some s | a :: l => match dact1 s a with Some s => dacts s l | None => None end end.
Definition dfollow (ls : list dact) (n : nat) : dst := match dacts dinit (firstn n ls) with Some s => s | None => dinit end.
Lemma dacts_app x y s : dacts s (x ++ y) = match dacts s x with Some s' => dacts s' y | None => None end.
Proof. revert s. induction x as [|l x IH]; intros s; [reflexivity|]. cbn. destruct (dact1 s l); auto. Qed.
Lemma dfollow_fair ends ls s : dacts dinit ls = Some s -> ph s = Gone -> (forall w, bound ends w (base s) = None) -> (forall f, cstep f (base s) = None) ->
  fair_delete true false ends (dfollow ls).
Proof.
  intros Rn G W C.
  assert (Late : forall m, length ls <= m -> dfollow ls m = s) by (intros m L; unfold dfollow; rewrite firstn_all2 by exact L; rewrite Rn; reflexivity).
  split; [split|split; [|split]]; [reflexivity| | | |].
  - intros n. destruct (Nat.le_gt_cases (length ls) n) as [L|L]; [left; rewrite !Late; auto; lia|]. right.
    unfold dfollow. destruct (nth_error ls n) as [l|] eqn:E; [|apply nth_error_None in E; lia].
    destruct (nth_error_split ls n E) as (x & y & -> & La). subst n.
    replace (firstn (S (length x)) (x ++ l :: y)) with (x ++ [l]) by (replace (S (length x)) with (length x + 1) by lia; rewrite firstn_app_2; reflexivity).
    replace (firstn (length x) (x ++ l :: y)) with x by (rewrite firstn_app, Nat.sub_diag, firstn_O, app_nil_r, firstn_all; reflexivity).
    rewrite dacts_app in Rn |- *. destruct (dacts dinit x) as [s1|]; [|discriminate Rn]. cbn in Rn |- *. destruct (dact1 s1 l) as [s2|] eqn:A; [|discriminate Rn].
    exact (dact1_step _ _ _ A).
  - intros w n. exists (max n (length ls)). split; [lia|]. left. rewrite Late by lia. apply W.
  - intros n. exists (max n (length ls)). split; [lia|]. left. intros s' [f H]. rewrite Late in H by lia. rewrite C in H. discriminate H.
  - intros n. exists (max n (length ls)). split; [lia|]. left. intros s' [_ H]. rewrite Late in H by lia. rewrite G in H. destruct H as [[H _]|[H _]]; discriminate H.
Qed.
Definition delete_running : list dact := map DB (started 1) ++ DDel :: map DB (cs 2) ++ DNext :: map DB (cs 1 ++ ws 1 5 ++ cs 2) ++ DNext :: map DB (cs 2).
Lemma delete_running_fair : fair_delete true false false (dfollow delete_running) /\ exists n, ph (dfollow delete_running n) = Joining /\ wpcs (base (dfollow delete_running n)) 1 = WRun.
Proof.
  split.
  - destruct (dacts dinit delete_running) as [s|] eqn:E; [|vm_compute in E; discriminate E].
    assert (X : ph s = Gone /\ cstep true (base s) = None /\ cstep false (base s) = None /\ bound false 1 (base s) = None /\ (forall w, w <> 1 -> wpcs (base s) w = WNone)).
    { vm_compute in E. injection E as E. rewrite <- E. repeat (split; [reflexivity|]). intros [|[|w]] Ne; try reflexivity. congruence. }
    destruct X as (G & C1 & C2 & B1 & X). apply (dfollow_fair false delete_running s E G).
    + intros w. destruct (Nat.eq_dec w 1) as [->|Ne]; [exact B1|]. unfold bound, wstep. rewrite (X w Ne). reflexivity.
    + intros [|]; assumption.
  - exists (length (started 1) + 4). split; vm_compute; reflexivity.
Qed.
