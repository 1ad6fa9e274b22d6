(* Proofs for C74 *)
From Verif Require Import Conc ThreadModel ThreadSpec ThreadProofs DerivedModel DerivedSpec.

Lemma dstep_base stops careful s s' : dstep stops careful s s' -> step without_cancel (base s) (base s').
Proof.
  intros H. inversion H; subst; cbn.
  - eapply step_worker; eassumption.
  - eapply step_client; eassumption.
  - apply step_call; assumption.
  - apply step_call; [assumption|constructor].
  - apply step_call; [assumption|constructor].
  - apply step_call; [rewrite H1; reflexivity|constructor].
  - apply step_call; [rewrite H1; reflexivity|constructor].
Qed.
Lemma reach_base stops careful s : reach dinit (dstep stops careful) s -> reach init (step without_cancel) (base s).
Proof. intros R. induction R as [|s s' R IH H]; [constructor|]. eapply reach_step; [exact IH|exact (dstep_base _ _ _ _ H)]. Qed.

Definition idle_w (s : st) : Prop := forall w, busy (wpcs s w) = false.
Lemma idle_worker s w s' : idle_w s -> wstep w s = Some s' -> idle_w s'.
Proof.
  intros I0 H u. pose proof (I0 w) as Iw. unfold wstep in H. destruct (wpcs s w) eqn:E; try discriminate H; try discriminate Iw.
  injection H as <-. cbn. unfold upd. destruct (Nat.eqb_spec u w) as [->|_]; [reflexivity|apply I0].
Qed.
(* a client step that creates no worker *)
Lemma idle_client s c s' : idle_w s -> cstep c s = Some s' -> cp s <> S196 -> idle_w s'.
Proof.
  intros I0 H N u. pose proof (I0 u) as Iu. unfold cstep in H. destruct (cp s) eqn:E; try discriminate H; try (destruct (N eq_refl));
    repeat match type of H with context[match ?x with _ => _ end] => destruct x eqn:?; try discriminate H end; injection H as <-; exact Iu.
Qed.
Lemma idle_at s : reach init (step without_cancel) s -> (cp s = Idle \/ cp s = RWait true \/ cp s = RStart false \/ exists k, cp s = J145 k) -> idle_w s.
Proof.
  intros R H w. pose proof (reach_inv s R) as [H1 H2 _ _ _ _ _]. destruct (Nat.eq_dec w (cur s)) as [->|N].
  - destruct H as [E|[E|[E|[k E]]]]; rewrite E in H1; destruct (wpcs s (cur s)); try reflexivity; discriminate H1.
  - specialize (H2 w N). destruct (wpcs s w); try discriminate H2; reflexivity.
Qed.
Lemma idle_joined s : reach init (step without_cancel) s -> cp s = RJoin -> idle_w s.
Proof.
  intros R. assert (K : reach init (step without_cancel) s /\ (cp s = RJoin -> idle_w s)); [|exact (proj2 K)].
  induction R as [|s s' R [_ IH] H]; [split; [constructor|discriminate]|]. split; [eapply reach_step; eassumption|].
  intros E. inversion H as [w a b Hw|w a Hw Hc|b a a' Hc|a p Hr Hc]; subst.
  - assert (E0 : cp s = RJoin).
    { unfold wstep in Hw. destruct (wpcs s w); try discriminate Hw; repeat match type of Hw with context[match ?x with _ => _ end] => destruct x; try discriminate Hw end; injection Hw as <-; exact E. }
    exact (idle_worker s w s' (IH E0) Hw).
  - intros u. cbn. unfold upd. destruct (Nat.eqb_spec u w) as [->|_]; [reflexivity|]. cbn in E. apply (IH E).
  - assert (K : cp s = J145 KJoin).
    { unfold cstep in Hc. destruct (cp s) eqn:Ec; try discriminate Hc; repeat match type of Hc with context[match ?x with _ => _ end] => destruct x eqn:?; try discriminate Hc end; injection Hc as <-;
        cbn in E; try discriminate E; try (destruct k; cbn in E; try discriminate E); reflexivity. }
    apply (idle_client s b s'); [apply idle_at; [exact R|right; right; right; exists KJoin; exact K]|exact Hc|rewrite K; discriminate].
  - cbn in E. subst p. inversion Hc.
Qed.

(* after the derived part is gone: the destructor of Thread runs, and nobody is in run() *)
Definition in_dtor (p : cpc) : bool :=
  match p with D85 | P189 true | P189b true | J140 KDtor | J142 KDtor | J145 KDtor | D91 | Destroyed => true | _ => false end.
Definition gone_ok (s : dst) : Prop := ph s = Gone -> in_dtor (cp (base s)) = true /\ idle_w (base s).
Lemma dtor_client b s s' : in_dtor (cp s) = true -> cstep b s = Some s' -> in_dtor (cp s') = true.
Proof.
  intros D H. unfold cstep in H. destruct (cp s) eqn:E; try discriminate D; try discriminate H;
    try (destruct k; try discriminate D); repeat match type of H with context[if ?x then _ else _] => destruct x; try discriminate H end; injection H as <-; reflexivity.
Qed.
Lemma worker_cp w s s' : wstep w s = Some s' -> cp s' = cp s.
Proof. intros Hw. unfold wstep in Hw. destruct (wpcs s w); try discriminate Hw; repeat match type of Hw with context[match ?x with _ => _ end] => destruct x; try discriminate Hw end; injection Hw as <-; reflexivity. Qed.
Lemma gone_inv stops careful s : stops = true \/ careful = true -> reach dinit (dstep stops careful) s -> gone_ok s.
Proof.
  intros SC R. induction R as [|s s' R IH H]; [intros Q; discriminate Q|].
  pose proof (reach_base _ _ _ R) as Rb. intros G. inversion H as [w a b Hw|c a b Hc|a p Hp Hr Hc Np|a Hs Hp Hr Ca|a Hs Hp Hr Ca|a Hp Hc|a Hp Hc]; subst; cbn in *; try discriminate G.
  - destruct (IH G) as [D I0]. split; [rewrite (worker_cp w _ _ Hw); exact D|exact (idle_worker _ w _ I0 Hw)].
  - destruct (IH G) as [D I0]. split; [exact (dtor_client c _ _ D Hc)|]. apply (idle_client _ c _ I0 Hc). intros Q. rewrite Q in D. discriminate D.
  - destruct SC as [Q|Q]; [congruence|]. specialize (Ca Q). split; [reflexivity|]. change (idle_w (base s)).
    destruct (cp (base s)) eqn:E; try discriminate Ca.
    + apply idle_at; [exact Rb|left; exact E].
    + destruct b; [discriminate Ca|]. apply idle_at; [exact Rb|right; right; left; exact E].
    + destruct b; [|discriminate Ca]. apply idle_at; [exact Rb|right; left; exact E].
    + apply idle_joined; [exact Rb|exact E].
  - split; [reflexivity|]. change (idle_w (base s)). apply idle_joined; [exact Rb|exact Hc].
Qed.

Lemma derived_progress stops careful s : reach dinit (dstep stops careful) s -> in_delete s -> exists s', dstep stops careful s s'.
Proof.
  intros R [Np Nd]. pose proof (reach_base _ _ _ R) as Rb.
  assert (K : in_call (cp (base s)) = true \/ ph s = Stopping /\ cp (base s) = RStop \/ ph s = Joining /\ cp (base s) = RJoin).
  { clear Rb. assert (Q : (ph s = Stopping -> cp (base s) = P189 false \/ cp (base s) = P189b false \/ cp (base s) = RStop) /\
      (ph s = Joining -> cp (base s) = J140 KJoin \/ cp (base s) = J142 KJoin \/ cp (base s) = J145 KJoin \/ cp (base s) = RJoin) /\
      (ph s = Gone -> in_dtor (cp (base s)) = true)).
    { clear Np Nd. induction R as [|s s' R IH H]; [repeat split; discriminate|].
      inversion H as [w a b Hw|c a b Hc|a p Hp Hr Hc Npp|a Hs Hp Hr Ca|a Hs Hp Hr Ca|a Hp Hc|a Hp Hc]; subst; cbn in *; try (repeat split; try discriminate; auto; fail).
      - rewrite (worker_cp w _ _ Hw). exact IH.
      - destruct IH as (I1 & I2 & I3). repeat split; intros G.
        + destruct (I1 G) as [E|[E|E]]; unfold cstep in Hc; rewrite E in Hc; try discriminate Hc.
          * destruct (m_starting (base s)); [discriminate Hc|]. injection Hc as <-. auto.
          * injection Hc as <-. auto.
        + destruct (I2 G) as [E|[E|[E|E]]]; unfold cstep in Hc; rewrite E in Hc; try discriminate Hc;
            repeat match type of Hc with context[match ?x with _ => _ end] => destruct x; try discriminate Hc end; injection Hc as <-; cbn; auto.
        + exact (dtor_client c _ _ (I3 G) Hc). }
    destruct Q as (Q1 & Q2 & Q3). destruct (ph s) eqn:Ep; [congruence| | |].
    - destruct (Q1 eq_refl) as [E|[E|E]]; rewrite E; auto.
    - destruct (Q2 eq_refl) as [E|[E|[E|E]]]; rewrite E; auto.
    - specialize (Q3 eq_refl). left. destruct (cp (base s)); try discriminate Q3; try congruence; reflexivity. }
  destruct K as [K|[[Ep Ec]|[Ep Ec]]].
  - destruct (thread_progress (base s) Rb K) as [(w & b & E)|(b & s' & E)]; eexists; [eapply d_worker|eapply d_client]; exact E.
  - eexists. apply d_join; assumption.
  - eexists. apply d_joined; assumption.
Qed.

(* concrete schedules *)
Lemma lift_run stops careful : forall l s b, ph s = Living -> (forall c, In (AX c) l -> False) -> (In ADtor l -> False) -> (In ACancel l -> False) ->
  reach dinit (dstep stops careful) s -> arun false (base s) l = Some b -> reach dinit (dstep stops careful) (mkD b Living).
Proof.
  induction l as [|a l IH]; intros s b P X D C0 R E; cbn in E.
  - destruct s as [bs p]. cbn in *. subst p. injection E as <-. exact R.
  - destruct (arun1 false (base s) a) as [b1|] eqn:E1; [|discriminate E].
    apply (IH (mkD b1 Living)); [reflexivity|intros c Q; apply (X c); right; exact Q|intros Q; apply D; right; exact Q|intros Q; apply C0; right; exact Q| |exact E].
    eapply reach_step; [exact R|]. destruct s as [bs p]. cbn in P. subst p. cbn [base] in *.
    destruct a; cbn in E1; try (destruct (X w); left; reflexivity); try (destruct D; left; reflexivity); try (destruct C0; left; reflexivity).
    1: exact (d_worker _ _ w (mkD bs Living) b1 E1).
    1: exact (d_client _ _ b0 (mkD bs Living) b1 E1).
    all: destruct (resting (cp bs)) eqn:Hr; [|discriminate E1]; injection E1 as <-; apply (d_call _ _ (mkD bs Living)); [reflexivity|exact Hr|constructor|discriminate].
Qed.
(* inside a phase of the destructor *)
Fixpoint drun (s : st) (l : list act) : option st :=
  match l with [] => Some s | AW w :: l => match wstep w s with Some s => drun s l | None => None end
  | AC b :: l => match cstep b s with Some s => drun s l | None => None end | _ => None end.
Lemma lift_drun stops careful p : forall l s b, reach dinit (dstep stops careful) (mkD s p) -> drun s l = Some b -> reach dinit (dstep stops careful) (mkD b p).
Proof.
  induction l as [|a l IH]; intros s b R E; cbn in E; [injection E as <-; exact R|].
  destruct a; try discriminate E.
  - destruct (wstep w s) as [s1|] eqn:E1; [|discriminate E]. apply (IH s1); [|exact E]. eapply reach_step; [exact R|]. exact (d_worker _ _ w (mkD s p) s1 E1).
  - destruct (cstep b0 s) as [s1|] eqn:E1; [|discriminate E]. apply (IH s1); [|exact E]. eapply reach_step; [exact R|]. exact (d_client _ _ b0 (mkD s p) s1 E1).
Qed.
Definition after (l : list act) : st := match arun false init l with Some s => s | None => init end.
Definition okr (o : option st) : bool := match o with Some _ => true | None => false end.
Definition safe_act (a : act) : bool := match a with AX _ | ADtor | ACancel => false | _ => true end.
Lemma after_reach stops careful l : forallb safe_act l = true -> okr (arun false init l) = true -> reach dinit (dstep stops careful) (mkD (after l) Living).
Proof.
  intros Sf Ne. rewrite forallb_forall in Sf. apply (lift_run stops careful l dinit); try reflexivity.
  - intros c Q. discriminate (Sf _ Q).
  - intros Q. discriminate (Sf _ Q).
  - intros Q. discriminate (Sf _ Q).
  - constructor.
  - unfold after. cbn [base dinit]. destruct (arun false init l); [reflexivity|discriminate Ne].
Qed.
Lemma del_any s : reach dinit (dstep plain_destructor any_client) (mkD s Living) -> resting (cp s) = true -> reach dinit (dstep plain_destructor any_client) (mkD (cgoto s D85) Gone).
Proof. intros R H. eapply reach_step; [exact R|]. exact (d_delete false false (mkD s Living) eq_refl eq_refl H (fun Q : false = true => False_ind _ (diff_false_true Q))). Qed.
Lemma del_careful s : reach dinit (dstep plain_destructor careful_client) (mkD s Living) -> resting (cp s) = true -> at_rest (cp s) = true -> reach dinit (dstep plain_destructor careful_client) (mkD (cgoto s D85) Gone).
Proof. intros R H A. eapply reach_step; [exact R|]. exact (d_delete false true (mkD s Living) eq_refl eq_refl H (fun _ => A)). Qed.
Lemma del_stop s : reach dinit (dstep stopping_destructor any_client) (mkD s Living) -> resting (cp s) = true -> reach dinit (dstep stopping_destructor any_client) (mkD (cgoto s (P189 false)) Stopping).
Proof. intros R H. eapply reach_step; [exact R|]. exact (d_stop true false (mkD s Living) eq_refl eq_refl H (fun Q : false = true => False_ind _ (diff_false_true Q))). Qed.
Definition is_stop (p : cpc) : bool := match p with RStop => true | _ => false end.
Definition is_rjoin (p : cpc) : bool := match p with RJoin => true | _ => false end.
Lemma del_join s : reach dinit (dstep stopping_destructor any_client) (mkD s Stopping) -> is_stop (cp s) = true -> reach dinit (dstep stopping_destructor any_client) (mkD (cgoto s (J140 KJoin)) Joining).
Proof. intros R H. eapply reach_step; [exact R|]. apply (d_join true false (mkD s Stopping) eq_refl). cbn. destruct (cp s); try discriminate H; reflexivity. Qed.
Lemma del_joined s : reach dinit (dstep stopping_destructor any_client) (mkD s Joining) -> is_rjoin (cp s) = true -> reach dinit (dstep stopping_destructor any_client) (mkD (cgoto s D85) Gone).
Proof. intros R H. eapply reach_step; [exact R|]. apply (d_joined true false (mkD s Joining) eq_refl). cbn. destruct (cp s); try discriminate H; reflexivity. Qed.
Lemma at_reach stops careful p s w q : reach dinit (dstep stops careful) (mkD s p) -> (wpcs s w = q) -> exists d, reach dinit (dstep stops careful) d /\ ph d = p /\ wpcs (base d) w = q /\ base d = s.
Proof. intros R E. exists (mkD s p). auto. Qed.

(* start(); delete, while the worker is in run() *)
Lemma plain_in_run : exists s, reach dinit (dstep plain_destructor any_client) s /\ uses_destroyed_data s.
Proof.
  destruct (at_reach plain_destructor any_client Gone (cgoto (after (started 1)) D85) 1 WRun) as (d & R & P & W & _).
  - apply del_any; [apply after_reach; vm_compute; reflexivity|vm_compute; reflexivity].
  - vm_compute. reflexivity.
  - exists d. split; [exact R|]. split; [exact P|exists 1; exact W].
Qed.
(* start(); stop(); delete: stop() does not wait *)
Definition stopped : list act := started 1 ++ [AStop] ++ cs 2.
Lemma plain_after_stop : exists s, reach dinit (dstep plain_destructor any_client) s /\ uses_destroyed_data s /\ m_execute (base s) = false.
Proof.
  destruct (at_reach plain_destructor any_client Gone (cgoto (after stopped) D85) 1 WRun) as (d & R & P & W & B).
  - apply del_any; [apply after_reach; vm_compute; reflexivity|vm_compute; reflexivity].
  - vm_compute. reflexivity.
  - exists d. split; [exact R|]. split; [split; [exact P|exists 1; exact W]|]. rewrite B. vm_compute. reflexivity.
Qed.
(* start(); delete, before the worker gets to run() *)
Definition early : list act := AStart :: cs 7 ++ ws 1 4 ++ [AC true].
Lemma plain_pure : exists s, reach dinit (dstep plain_destructor any_client) s /\ will_call_pure_virtual s.
Proof.
  destruct (at_reach plain_destructor any_client Gone (cgoto (after early) D85) 1 W234) as (d & R & P & W & _).
  - apply del_any; [apply after_reach; vm_compute; reflexivity|vm_compute; reflexivity].
  - vm_compute. reflexivity.
  - exists d. split; [exact R|]. split; [exact P|exists 1; exact W].
Qed.
(* the destructor that stops and joins, called while the worker is in run() *)
Definition ran (s : st) (l : list act) : st := match drun s l with Some s => s | None => init end.
Lemma ran_reach stops careful p l s : reach dinit (dstep stops careful) (mkD s p) -> okr (drun s l) = true -> reach dinit (dstep stops careful) (mkD (ran s l) p).
Proof. intros R N. apply (lift_drun stops careful p l s _ R). unfold ran. destruct (drun s l); [reflexivity|discriminate N]. Qed.
Definition k0 : st := cgoto (after (started 1)) (P189 false).
Definition k1 : st := cgoto (ran k0 (cs 2)) (J140 KJoin).
Definition k2 : st := cgoto (ran k1 (cs 1 ++ ws 1 5 ++ cs 2)) D85.
Lemma k0_reach : reach dinit (dstep stopping_destructor any_client) (mkD k0 Stopping).
Proof. apply del_stop; [apply after_reach; vm_compute; reflexivity|vm_compute; reflexivity]. Qed.
Lemma k1_reach : reach dinit (dstep stopping_destructor any_client) (mkD k1 Joining).
Proof. apply del_join; [apply ran_reach; [exact k0_reach|vm_compute; reflexivity]|vm_compute; reflexivity]. Qed.
Lemma k2_reach : reach dinit (dstep stopping_destructor any_client) (mkD k2 Gone).
Proof. apply del_joined; [apply ran_reach; [exact k1_reach|vm_compute; reflexivity]|vm_compute; reflexivity]. Qed.
Lemma stopping_runs : exists s, reach dinit (dstep stopping_destructor any_client) s /\ ph s = Gone /\ cp (base s) = Destroyed /\ joins (base s) 1 = 1 /\ wpcs (base s) 1 = WEnd.
Proof.
  destruct (at_reach stopping_destructor any_client Gone (ran k2 (cs 2)) 1 WEnd) as (d & R & P & W & B).
  - apply ran_reach; [exact k2_reach|vm_compute; reflexivity].
  - vm_compute. reflexivity.
  - exists d. split; [exact R|]. split; [exact P|]. rewrite B in *. split; [vm_compute; reflexivity|]. split; [vm_compute; reflexivity|exact W].
Qed.
Lemma stopping_midway : exists s, reach dinit (dstep stopping_destructor any_client) s /\ in_delete s /\ wpcs (base s) 1 = WRun.
Proof.
  destruct (at_reach stopping_destructor any_client Stopping k0 1 WRun k0_reach) as (d & R & P & W & B); [vm_compute; reflexivity|].
  exists d. split; [exact R|]. split; [|exact W]. split; [rewrite P; discriminate|]. rewrite B. vm_compute. discriminate.
Qed.
(* a careful client: start(), join(), delete *)
Definition joined : list act := started 1 ++ [AJoin] ++ cs 1 ++ ws 1 5 ++ cs 2.
Lemma careful_runs : exists s, reach dinit (dstep plain_destructor careful_client) s /\ ph s = Gone /\ cp (base s) = Destroyed /\ wpcs (base s) 1 = WEnd.
Proof.
  destruct (at_reach plain_destructor careful_client Gone (ran (cgoto (after joined) D85) (cs 2)) 1 WEnd) as (d & R & P & W & B).
  - apply ran_reach; [apply del_careful; [apply after_reach; vm_compute; reflexivity|vm_compute; reflexivity|vm_compute; reflexivity]|vm_compute; reflexivity].
  - vm_compute. reflexivity.
  - exists d. split; [exact R|]. split; [exact P|]. rewrite B in *. split; [vm_compute; reflexivity|exact W].
Qed.

(* ---- the stopping destructor has asked the thread to stop --------------------------------------------------------------- *)
Lemma steps_snoc {A} (st : A -> A -> Prop) a b c : steps st a b -> st b c -> steps st a c.
Proof. intros S H. induction S as [x|x y z H1 _ IH]; [eapply steps_more; [exact H|constructor]|eapply steps_more; [exact H1|exact (IH H)]]. Qed.
Lemma cstep_not_start f b b' : cstep f b = Some b' -> cp b' <> S179a.
Proof.
  intros H. unfold cstep in H. destruct (cp b) eqn:E; try discriminate H;
    repeat match type of H with context[match ?x with _ => _ end] => destruct x eqn:?; try discriminate H end; injection H as <-; cbn; try discriminate; destruct k; discriminate.
Qed.
Lemma asked_to_stop careful s : reach dinit (dstep true careful) s -> ph s = Joining \/ ph s = Gone ->
  cp (base s) <> S179a /\ exists s0, reach init (step without_cancel) s0 /\ cp s0 = RStop /\ steps (step_no_start without_cancel) s0 (base s).
Proof.
  intros R. induction R as [|s s' R IH H]; [intros [Q|Q]; discriminate Q|]. intros P. pose proof (dstep_base _ _ _ _ H) as Hb.
  inversion H as [w a b Hw|c a b Hc|a p Hp Hr Hc Np|a Hs Hp Hr Ca|a Hs Hp Hr Ca|a Hp Hc|a Hp Hc]; subst; cbn in *; try (destruct P; discriminate); try discriminate Hs.
  - destruct (IH P) as (N & s0 & R0 & E0 & S0). assert (N' : cp b <> S179a) by (rewrite (worker_cp _ _ _ Hw); exact N). split; [exact N'|]. exists s0. do 2 (split; [assumption|]). eapply steps_snoc; [exact S0|split; assumption].
  - destruct (IH P) as (N & s0 & R0 & E0 & S0). assert (N' : cp b <> S179a) by exact (cstep_not_start _ _ _ Hc). split; [exact N'|]. exists s0. do 2 (split; [assumption|]). eapply steps_snoc; [exact S0|split; assumption].
  - split; [discriminate|]. exists (base s). split; [exact (reach_base _ _ _ R)|]. split; [exact Hc|]. eapply steps_more; [split; [exact Hb|discriminate]|constructor].
  - destruct (IH (or_introl Hp)) as (N & s0 & R0 & E0 & S0). split; [discriminate|]. exists s0. do 2 (split; [assumption|]). eapply steps_snoc; [exact S0|split; [exact Hb|discriminate]].
Qed.
