From Verif Require Import Conc SingletonModel SingletonSpec.

Definition crit (p : pc) : bool :=
  match p with L44 | L45 _ | L47 | L52 | L54 _ | L55 | L57 | L57throw => true | _ => false end.

(* what a thread knows at its program counter *)
Definition loc (s : st) (p : pc) : Prop :=
  match p with
  | L41 (Some x) => m_instance s = Some x
  | L45 o => m_instance s = o
  | L47 => m_instance s = None
  | L52 => m_instance s = None /\ m_destroyed s = false
  | L54 x => m_instance s = None /\ m_destroyed s = false /\ live s x
  | L55 => m_instance s <> None /\ atexits s = 0
  | L57 | L58 => m_instance s <> None
  | Done RNull | L66 | L67 | L68 => False
  | _ => True
  end.

Section Inv.
Variable c : config.
Hypothesis HL : locking c = true.

Record inv (s : st) : Prop := {
  i_lock : forall t, crit (pcs s t) = true <-> m_lock s = Some t;
  i_dead : forall x, In x (dead s) -> x < created s;
  i_inst : forall x, m_instance s = Some x -> live s x;
  i_cover : forall x, live s x -> m_instance s = Some x \/ exists t, pcs s t = L54 x;
  i_loc : forall t, loc s (pcs s t);
  i_destroyed : m_destroyed s = true -> m_instance s = None;
  i_atexit : atexits s <= 1 /\ (atexits s = 1 -> m_instance s <> None);
  i_late : phoenix c = false -> forall t, late s t = true -> m_destroyed s = true /\ forall x, pcs s t <> Done (ROk x);
  i_count : phoenix c = false -> created s <= 1 /\
     (created s = 0 \/ m_destroyed s = true \/ m_instance s <> None \/ exists t x, pcs s t = L54 x)
}.

Lemma crit_unique s t u : inv s -> crit (pcs s t) = true -> crit (pcs s u) = true -> t = u.
Proof. intros I Ht Hu. apply (i_lock _ I) in Ht, Hu. congruence. Qed.

Lemma init_inv : inv init.
Proof.
  constructor; cbn.
  - intros t; split; discriminate.
  - intros x [].
  - discriminate.
  - intros x [H _]. cbn in H. lia.
  - intros t. exact Logic.I.
  - discriminate.
  - split; [lia|discriminate].
  - discriminate.
  - intros _. split; auto.
Qed.

Lemma inv_step s s' : inv s -> step c Quiescent s s' -> inv s'.
Proof.
  intros I ST. remember Quiescent as m. destruct ST as [m t s s' E|m t s R|s n A Q|]; try discriminate; subst.
  2: { (* call *)
    assert (Lt : m_lock s <> Some t).
    { intros F. apply (i_lock _ I) in F. destruct (pcs s t); cbn in *; try discriminate; tauto. }
    constructor; cbn.
    - intros u. unfold upd. destruct (Nat.eqb_spec u t) as [->|]; [|apply I]. cbn. split; [discriminate|tauto].
    - apply I.
    - apply I.
    - intros x Hx. destruct (i_cover _ I x Hx) as [?|[u Hu]]; [auto|]. right. exists u. rewrite upd_other; auto.
      intros ->. rewrite Hu in R. exact R.
    - intros u. unfold upd. destruct (Nat.eqb_spec u t) as [->|]; [exact Logic.I|apply I].
    - apply I.
    - apply I.
    - intros P u. unfold upd. destruct (Nat.eqb_spec u t) as [->|].
      + intros ->. split; [auto|discriminate].
      + apply (i_late _ I P).
    - intros P. destruct (i_count _ I P) as (C1 & C2). split; [exact C1|].
      destruct C2 as [?|[?|[?|(u & x & Hu)]]]; auto. right. right. right. exists u, x.
      rewrite upd_other; auto. intros ->. rewrite Hu in R. exact R. }
  2: { (* exit *)
    assert (NC : forall t, crit (pcs s t) = false).
    { intros t. specialize (Q t). destruct (pcs s t); cbn in *; try reflexivity; tauto. }
    assert (N54 : forall t x, pcs s t <> L54 x).
    { intros t x E. specialize (NC t). rewrite E in NC. discriminate. }
    destruct (i_atexit _ I) as (A1 & A2).
    assert (n = 0) by lia. subst n.
    constructor; cbn.
    - intros t. rewrite NC. pose proof (i_lock _ I t) as H. rewrite NC in H. exact H.
    - intros x Hx. destruct (m_instance s) as [y|] eqn:Ey; [|apply I; auto].
      destruct Hx as [<-|Hx]; [apply (i_inst _ I y Ey)|apply I; auto].
    - discriminate.
    - intros x [Hx1 Hx2]. exfalso. cbn in Hx1, Hx2.
      destruct (m_instance s) as [y|] eqn:Ey.
      + destruct (i_cover _ I x) as [E|[t Ht]].
        * split; [auto|]. intros F. apply Hx2. right. auto.
        * apply Hx2. left. congruence.
        * apply (N54 _ _ Ht).
      + destruct (i_cover _ I x) as [E|[t Ht]]; [split; auto|congruence|apply (N54 _ _ Ht)].
    - intros t. pose proof (i_loc _ I t) as H. specialize (Q t). destruct (pcs s t); cbn in *; tauto.
    - auto.
    - split; [lia|]. discriminate.
    - intros P t Hl. split; [auto|]. apply (i_late _ I P t Hl).
    - intros P. destruct (i_count _ I P). split; [auto|]. auto. }
  (* a thread step *)
  pose proof (i_loc _ I t) as Lt. pose proof (i_lock _ I t) as Kt.
  assert (OT : forall u, u <> t -> crit (pcs s t) = true -> crit (pcs s u) = false).
  { intros u Hu Ct. destruct (crit (pcs s u)) eqn:Cu; [|auto]. exfalso. apply Hu. eapply crit_unique; eauto. }
  unfold tstep in E. rewrite HL in E.
  destruct (pcs s t) as [ | |temp| | |temp| | |temp| | | | |r| | | ] eqn:Ep; try discriminate E.
  - (* L39 *)
    injection E as <-. constructor; cbn; try apply I.
    + intros u. unfold upd. destruct (Nat.eqb_spec u t) as [->|]; [|apply I]. cbn. exact Kt.
    + intros x Hx. destruct (i_cover _ I x Hx) as [?|[u Hu]]; [auto|]. right. exists u. rewrite upd_other; auto. congruence.
    + intros u. unfold upd. destruct (Nat.eqb_spec u t) as [->|]; [|apply I]. cbn. destruct (m_instance s); auto.
    + intros P u Hu. destruct (i_late _ I P u Hu) as (D & N). split; [auto|]. unfold upd. destruct (u =? t); [discriminate|auto].
    + intros P. destruct (i_count _ I P) as (C1 & C2). split; [auto|].
      destruct C2 as [?|[?|[?|(u & x & Hu)]]]; auto. right. right. right. exists u, x. rewrite upd_other; auto. congruence.
  - (* L41 *)
    assert (E' : s' = goto s t (match temp with None => L43 | Some _ => L58 end)) by (destruct temp; congruence).
    subst s'. clear E. constructor; cbn; try apply I.
    + intros u. unfold upd. destruct (Nat.eqb_spec u t) as [->|]; [|apply I]. destruct temp; exact Kt.
    + intros x Hx. destruct (i_cover _ I x Hx) as [?|[u Hu]]; [auto|]. right. exists u. rewrite upd_other; auto. congruence.
    + intros u. unfold upd. destruct (Nat.eqb_spec u t) as [->|]; [|apply I]. cbn in *. destruct temp; cbn; [congruence|auto].
    + intros P u Hu. destruct (i_late _ I P u Hu) as (D & N). split; [auto|]. unfold upd. destruct (u =? t); [destruct temp; discriminate|auto].
    + intros P. destruct (i_count _ I P) as (C1 & C2). split; [auto|].
      destruct C2 as [?|[?|[?|(u & x & Hu)]]]; auto. right. right. right. exists u, x. rewrite upd_other; auto. congruence.
  - (* L43 *)
    destruct (m_lock s) as [o|] eqn:El; [discriminate|]. injection E as <-. constructor; cbn; try apply I.
    + intros u. unfold upd. destruct (Nat.eqb_spec u t) as [->|N]; cbn; [tauto|].
      split; [|intros [= ->]; tauto]. intros H. apply (i_lock _ I) in H. congruence.
    + intros x Hx. destruct (i_cover _ I x Hx) as [?|[u Hu]]; [auto|]. right. exists u. rewrite upd_other; auto. congruence.
    + intros u. unfold upd. destruct (Nat.eqb_spec u t) as [->|]; [exact Logic.I|apply I].
    + intros P u Hu. destruct (i_late _ I P u Hu) as (D & N). split; [auto|]. unfold upd. destruct (u =? t); [discriminate|auto].
    + intros P. destruct (i_count _ I P) as (C1 & C2). split; [auto|].
      destruct C2 as [?|[?|[?|(u & x & Hu)]]]; auto. right. right. right. exists u, x. rewrite upd_other; auto. congruence.
  - (* L44 *)
    injection E as <-. constructor; cbn; try apply I.
    + intros u. unfold upd. destruct (Nat.eqb_spec u t) as [->|]; [|apply I]. cbn. exact Kt.
    + intros x Hx. destruct (i_cover _ I x Hx) as [?|[u Hu]]; [auto|]. right. exists u. rewrite upd_other; auto. congruence.
    + intros u. unfold upd. destruct (Nat.eqb_spec u t) as [->|]; [|apply I]. cbn. auto.
    + intros P u Hu. destruct (i_late _ I P u Hu) as (D & N). split; [auto|]. unfold upd. destruct (u =? t); [discriminate|auto].
    + intros P. destruct (i_count _ I P) as (C1 & C2). split; [auto|].
      destruct C2 as [?|[?|[?|(u & x & Hu)]]]; auto. right. right. right. exists u, x. rewrite upd_other; auto. congruence.
  - (* L45 *)
    assert (E' : s' = goto s t (match temp with None => L47 | Some _ => L57 end)) by (destruct temp; congruence).
    subst s'. clear E. constructor; cbn; try apply I.
    + intros u. unfold upd. destruct (Nat.eqb_spec u t) as [->|]; [|apply I]. destruct temp; exact Kt.
    + intros x Hx. destruct (i_cover _ I x Hx) as [?|[u Hu]]; [auto|]. right. exists u. rewrite upd_other; auto. congruence.
    + intros u. unfold upd. destruct (Nat.eqb_spec u t) as [->|]; [|apply I]. cbn in *. destruct temp; cbn; congruence.
    + intros P u Hu. destruct (i_late _ I P u Hu) as (D & N). split; [auto|]. unfold upd. destruct (u =? t); [destruct temp; discriminate|auto].
    + intros P. destruct (i_count _ I P) as (C1 & C2). split; [auto|].
      destruct C2 as [?|[?|[?|(u & x & Hu)]]]; auto. right. right. right. exists u, x. rewrite upd_other; auto. congruence.
  - (* L47 *)
    cbn in Lt. destruct (m_destroyed s) eqn:Ed; [destruct (phoenix c) eqn:Ph|]; injection E as <-.
    + constructor; cbn; try apply I; try discriminate.
      * intros u. unfold upd. destruct (Nat.eqb_spec u t) as [->|]; [|apply I]. cbn. exact Kt.
      * intros x Hx. destruct (i_cover _ I x Hx) as [?|[u Hu]]; [auto|]. right. exists u. rewrite upd_other; auto. congruence.
      * intros u. unfold upd. destruct (Nat.eqb_spec u t) as [->|N]; [cbn; auto|].
        specialize (OT u N eq_refl). pose proof (i_loc _ I u) as H. destruct (pcs s u); cbn in *; try discriminate; auto.
      * congruence.
      * congruence.
    + constructor; cbn; rewrite ?Ed; try apply I; auto.
      * intros u. unfold upd. destruct (Nat.eqb_spec u t) as [->|]; [|apply I]. cbn. exact Kt.
      * intros x Hx. destruct (i_cover _ I x Hx) as [?|[u Hu]]; [auto|]. right. exists u. rewrite upd_other; auto. congruence.
      * intros u. unfold upd. destruct (Nat.eqb_spec u t) as [->|]; [exact Logic.I|apply I].
      * intros P u Hu. destruct (i_late _ I P u Hu) as (D & N). split; [auto|]. unfold upd. destruct (u =? t); [discriminate|auto].
      * intros P. destruct (i_count _ I P) as (C1 & C2). split; auto.
    + constructor; cbn; rewrite ?Ed; try apply I; try discriminate.
      * intros u. unfold upd. destruct (Nat.eqb_spec u t) as [->|]; [|apply I]. cbn. exact Kt.
      * intros x Hx. destruct (i_cover _ I x Hx) as [?|[u Hu]]; [auto|]. right. exists u. rewrite upd_other; auto. congruence.
      * intros u. unfold upd. destruct (Nat.eqb_spec u t) as [->|]; [cbn; auto|apply I].
      * intros P u Hu. destruct (i_late _ I P u Hu) as (D & N). congruence.
      * intros P. destruct (i_count _ I P) as (C1 & C2). split; [auto|].
        destruct C2 as [H|[H|[H|(u & x & Hu)]]]; [auto|congruence|auto|]. right. right. right. exists u, x. rewrite upd_other; auto. congruence.
  - (* L52 *)
    cbn in Lt. destruct Lt as (Ei & Ed). injection E as <-.
    assert (NL : forall x, ~ live s x).
    { intros x Hx. destruct (i_cover _ I x Hx) as [?|[u Hu]]; [congruence|].
      destruct (Nat.eq_dec u t) as [->|N]; [congruence|]. specialize (OT u N eq_refl). rewrite Hu in OT. discriminate. }
    constructor; cbn; try apply I.
    + intros u. unfold upd. destruct (Nat.eqb_spec u t) as [->|]; [|apply I]. cbn. exact Kt.
    + intros x Hx. apply (i_dead _ I) in Hx. lia.
    + intros x Hx. congruence.
    + intros x [Hx1 Hx2]. cbn in *. destruct (Nat.eq_dec x (created s)) as [->|].
      * right. exists t. apply upd_same.
      * exfalso. apply (NL x). split; [lia|auto].
    + intros u. unfold upd. destruct (Nat.eqb_spec u t) as [->|N].
      * cbn. split; [auto|]. split; [auto|]. split; cbn; [lia|]. intros F. apply (i_dead _ I) in F. lia.
      * specialize (OT u N eq_refl). pose proof (i_loc _ I u) as H. destruct (pcs s u); cbn in *; try discriminate; auto.
    + intros P u Hu. destruct (i_late _ I P u Hu) as (D & N). congruence.
    + intros P. destruct (i_count _ I P) as (C1 & C2).
      assert (C0 : created s = 0).
      { destruct C2 as [?|[?|[?|(u & x & Hu)]]]; [auto|congruence|congruence|].
        destruct (Nat.eq_dec u t) as [->|N]; [congruence|]. specialize (OT u N eq_refl). rewrite Hu in OT. discriminate. }
      split; [lia|]. right. right. right. exists t, (created s). apply upd_same.
  - (* L54 *)
    cbn in Lt. destruct Lt as (Ei & Ed & Hx). injection E as <-.
    assert (Huniq : forall y, live s y -> y = temp).
    { intros y Hy. destruct (i_cover _ I y Hy) as [?|[u Hu]]; [congruence|].
      destruct (Nat.eq_dec u t) as [->|N]; [congruence|]. specialize (OT u N eq_refl). rewrite Hu in OT. discriminate. }
    constructor; cbn; try apply I.
    + intros u. unfold upd. destruct (Nat.eqb_spec u t) as [->|]; [|apply I]. cbn. exact Kt.
    + intros x [= <-]. exact Hx.
    + intros x Hl. left. f_equal. symmetry. apply Huniq. exact Hl.
    + intros u. unfold upd. destruct (Nat.eqb_spec u t) as [->|N].
      * cbn. split; [discriminate|]. destruct (i_atexit _ I) as (A1 & A2).
        destruct (Nat.eq_dec (atexits s) 1) as [F|]; [|lia]. apply A2 in F. congruence.
      * specialize (OT u N eq_refl). pose proof (i_loc _ I u) as H. destruct (pcs s u) as [ | |[y|]| | | | | | | | | | |[]| | | ]; cbn in *; try discriminate; auto; try congruence.
    + congruence.
    + split; [apply I|]. discriminate.
    + intros P u Hu. destruct (i_late _ I P u Hu) as (D & N). congruence.
    + intros P. destruct (i_count _ I P) as (C1 & C2). split; [auto|]. right. right. left. discriminate.
  - (* L55 *)
    cbn in Lt. destruct Lt as (Ei & Ea). injection E as <-. constructor; cbn; try apply I.
    + intros u. unfold upd. destruct (Nat.eqb_spec u t) as [->|]; [|apply I]. cbn. exact Kt.
    + intros x Hx. destruct (i_cover _ I x Hx) as [?|[u Hu]]; [auto|]. right. exists u. rewrite upd_other; auto. congruence.
    + intros u. unfold upd. destruct (Nat.eqb_spec u t) as [->|N]; [exact Ei|].
      specialize (OT u N eq_refl). pose proof (i_loc _ I u) as H. destruct (pcs s u); cbn in *; try discriminate; auto.
    + rewrite Ea. destruct (destroys c); split; auto; lia.
    + intros P u Hu. destruct (i_late _ I P u Hu) as (D & N). split; [auto|]. unfold upd. destruct (u =? t); [discriminate|auto].
    + intros P. destruct (i_count _ I P) as (C1 & C2). split; [auto|]. auto.
  - (* L57 *)
    cbn in Lt. injection E as <-. constructor; cbn; try apply I.
    + intros u. unfold upd. destruct (Nat.eqb_spec u t) as [->|N]; cbn; [split; discriminate|].
      rewrite (OT u N eq_refl). split; discriminate.
    + intros x Hx. destruct (i_cover _ I x Hx) as [?|[u Hu]]; [auto|]. right. exists u. rewrite upd_other; auto. congruence.
    + intros u. unfold upd. destruct (Nat.eqb_spec u t) as [->|N]; [exact Lt|apply I].
    + intros P u Hu. destruct (i_late _ I P u Hu) as (D & N). split; [auto|]. unfold upd. destruct (u =? t); [discriminate|auto].
    + intros P. destruct (i_count _ I P) as (C1 & C2). split; [auto|]. auto.
  - (* L57throw *)
    injection E as <-. constructor; cbn; try apply I.
    + intros u. unfold upd. destruct (Nat.eqb_spec u t) as [->|N]; cbn; [split; discriminate|].
      rewrite (OT u N eq_refl). split; discriminate.
    + intros x Hx. destruct (i_cover _ I x Hx) as [?|[u Hu]]; [auto|]. right. exists u. rewrite upd_other; auto. congruence.
    + intros u. unfold upd. destruct (Nat.eqb_spec u t) as [->|N]; [exact Logic.I|apply I].
    + intros P u Hu. destruct (i_late _ I P u Hu) as (D & N). split; [auto|]. unfold upd. destruct (u =? t); [discriminate|auto].
    + intros P. destruct (i_count _ I P) as (C1 & C2). split; [auto|].
      destruct C2 as [?|[?|[?|(u & x & Hu)]]]; auto. right. right. right. exists u, x. rewrite upd_other; auto. congruence.
  - (* L58 *)
    cbn in Lt. injection E as <-. constructor; cbn; try apply I.
    + intros u. unfold upd. destruct (Nat.eqb_spec u t) as [->|N]; [|apply I]. cbn. exact Kt.
    + intros x Hx. destruct (i_cover _ I x Hx) as [?|[u Hu]]; [auto|]. right. exists u. rewrite upd_other; auto. congruence.
    + intros u. unfold upd. destruct (Nat.eqb_spec u t) as [->|N]; [|apply I]. cbn. destruct (m_instance s); [exact Logic.I|congruence].
    + intros P u Hu. destruct (i_late _ I P u Hu) as (D & N). split; [auto|]. unfold upd.
      destruct (Nat.eqb_spec u t) as [->|]; [|auto]. rewrite (i_destroyed _ I D) in Lt. congruence.
    + intros P. destruct (i_count _ I P) as (C1 & C2). split; [auto|]. auto.
  - cbn in Lt. tauto.
  - cbn in Lt. tauto.
  - cbn in Lt. tauto.
Qed.

Lemma reach_inv s : reach init (step c Quiescent) s -> inv s.
Proof. intros R. induction R; [apply init_inv|]. eapply inv_step; eauto. Qed.

Lemma one_live s x y : reach init (step c Quiescent) s -> live s x -> live s y -> x = y.
Proof.
  intros R Hx Hy. apply reach_inv in R as I.
  destruct (i_cover _ I x Hx) as [Ex|[t Ht]], (i_cover _ I y Hy) as [Ey|[u Hu]].
  - congruence.
  - pose proof (i_loc _ I u) as H. rewrite Hu in H. cbn in H. destruct H. congruence.
  - pose proof (i_loc _ I t) as H. rewrite Ht in H. cbn in H. destruct H. congruence.
  - assert (t = u) by (eapply crit_unique; eauto; rewrite ?Ht, ?Hu; reflexivity). congruence.
Qed.

Lemma returns_live s s' t x : reach init (step c Quiescent) s ->
  tstep c t s = Some s' -> pcs s' t = Done (ROk x) -> live s' x /\ m_instance s' = Some x.
Proof.
  intros R E D. apply reach_inv in R as I. assert (I' : inv s') by (eapply inv_step; eauto; econstructor; eauto).
  assert (m_instance s' = Some x).
  { unfold tstep in E. rewrite HL in E.
    destruct (pcs s t) as [ | |[]| | |[]| | |temp| | | | |r| | | ] eqn:Ep; try discriminate E;
      try (injection E as <-; cbn in D; rewrite upd_same in D; discriminate D).
    - destruct (m_lock s); [discriminate|]. injection E as <-. cbn in D. rewrite upd_same in D. discriminate D.
    - destruct (m_destroyed s); [destruct (phoenix c)|]; injection E as <-; cbn in D; rewrite upd_same in D; discriminate D.
    - injection E as <-. cbn in D. rewrite upd_same in D. cbn. destruct (m_instance s); congruence. }
  split; [apply I'|]; auto.
Qed.

Lemma no_null s t : reach init (step c Quiescent) s -> pcs s t <> Done RNull.
Proof. intros R E. apply reach_inv in R as I. pose proof (i_loc _ I t) as H. rewrite E in H. exact H. Qed.

Lemma progress s t : reach init (step c Quiescent) s -> ~ resting (pcs s t) -> exists u s', tstep c u s = Some s'.
Proof.
  intros R N. apply reach_inv in R as I.
  destruct (m_lock s) as [o|] eqn:El.
  - exists o. assert (C : crit (pcs s o) = true) by (apply (i_lock _ I); auto).
    unfold tstep. rewrite HL.
    destruct (pcs s o) as [ | |[]| | |[]| | |temp| | | | |r| | | ]; try discriminate C; eauto.
    destruct (m_destroyed s); [destruct (phoenix c)|]; eauto.
  - exists t. unfold tstep. rewrite HL, El.
    destruct (pcs s t) as [ | |[]| | |[]| | |temp| | | | |r| | | ]; cbn in N; try tauto; eauto.
    destruct (m_destroyed s); [destruct (phoenix c)|]; eauto.
Qed.

Lemma default_once s : phoenix c = false -> reach init (step c Quiescent) s -> created s <= 1.
Proof. intros P R. apply reach_inv in R as I. apply (i_count _ I P). Qed.

Lemma died_destroyed s x : phoenix c = false -> reach init (step c Quiescent) s -> In x (dead s) -> m_destroyed s = true.
Proof.
  intros P R Hd. apply reach_inv in R as I.
  pose proof (i_dead _ I x Hd). destruct (i_count _ I P) as (C1 & [C0|[D|[N|(t & y & E)]]]).
  - lia.
  - exact D.
  - exfalso. destruct (m_instance s) as [y|] eqn:Ei; [|congruence]. destruct (i_inst _ I y Ei) as (L & N2).
    assert (x = y) by lia. subst. contradiction.
  - exfalso. pose proof (i_loc _ I t) as L. rewrite E in L. cbn in L. destruct L as (_ & _ & L & N2).
    assert (x = y) by lia. subst. contradiction.
Qed.

(* destroySingleton() step by step is destroySingleton() at once *)
Lemma destroy_steps s t : pcs s t = L66 -> exists s1 s2 s3,
  tstep c t s = Some s1 /\ tstep c t s1 = Some s2 /\ tstep c t s2 = Some s3 /\
  pcs s3 t = Idle /\ (forall u, u <> t -> pcs s3 u = pcs s u) /\
  m_instance s3 = None /\ m_destroyed s3 = true /\ created s3 = created s /\ m_lock s3 = m_lock s /\
  dead s3 = match m_instance s with Some x => x :: dead s | None => dead s end.
Proof.
  intros E. eexists _, _, _. split; [unfold tstep; rewrite E; reflexivity|].
  split; [unfold tstep; cbn [pcs]; rewrite upd_same; reflexivity|].
  split; [unfold tstep; cbn [pcs]; rewrite upd_same; reflexivity|].
  cbn. rewrite upd_same. split; [reflexivity|]. split; [|auto 6].
  intros u N. rewrite !upd_other by congruence. reflexivity.
Qed.

Lemma late_throws s t r : phoenix c = false -> reach init (step c Quiescent) s -> late s t = true ->
  pcs s t = Done r -> r = RThrow.
Proof.
  intros P R Hl E. apply reach_inv in R as I. destruct (i_late _ I P t Hl) as (_ & N).
  destruct r as [x| |]; auto; [exfalso; apply (N x E)|]. exfalso. apply (no_null s t R E).
Qed.
End Inv.

(* ---- runs for the examples and refutations ------------------------------------------------------- *)

(* run a list of actions: call by t, step of t, exit *)
Inductive act := ACall (t : tid) | AStep (t : tid) | AExitQ | AExit (t : tid).
Definition restb (p : pc) : bool := match p with Idle | Done _ => true | _ => false end.
Definition arun1 (c : config) (s : st) (a : act) : option st :=
  match a with
  | ACall t => if restb (pcs s t) then Some (mkSt (m_instance s) (m_destroyed s) (m_lock s) (created s) (dead s) (atexits s)
                     (upd (pcs s) t L39) (upd (late s) t (m_destroyed s))) else None
  | AStep t => tstep c t s
  | AExitQ => None
  | AExit t => match atexits s with S n => if restb (pcs s t) then Some (goto (set_atexits s n) t L66) else None | O => None end
  end.
Fixpoint arun (c : config) (s : st) (l : list act) : option st :=
  match l with [] => Some s | a :: l => match arun1 c s a with Some s => arun c s l | None => None end end.

Lemma restb_ok p : restb p = true -> resting p.
Proof. destruct p; cbn; try discriminate; auto. Qed.

Lemma arun_reach c l : forall s s', reach init (step c Anytime) s -> arun c s l = Some s' -> reach init (step c Anytime) s'.
Proof.
  induction l as [|a l IH]; intros s s' R E; cbn in E; [congruence|].
  destruct (arun1 c s a) as [s1|] eqn:E1; [|discriminate]. apply (IH s1); auto. eapply reach_step; eauto.
  destruct a as [t|t| |t]; cbn in E1.
  - destruct (restb (pcs s t)) eqn:B; [|discriminate]. injection E1 as <-. apply step_call. apply restb_ok; auto.
  - eapply step_thread; eauto.
  - discriminate.
  - destruct (atexits s) eqn:A; [discriminate|]. destruct (restb (pcs s t)) eqn:B; [|discriminate].
    injection E1 as <-. apply step_exit_anytime; auto. apply restb_ok; auto.
Qed.
Fixpoint no_exit (l : list act) : bool :=
  match l with [] => true | (AExit _ | AExitQ) :: _ => false | _ :: l => no_exit l end.
Lemma arun_reach_q c l : forall s s', no_exit l = true -> reach init (step c Quiescent) s -> arun c s l = Some s' ->
  reach init (step c Quiescent) s'.
Proof.
  induction l as [|a l IH]; intros s s' N R E; cbn in E; [congruence|].
  destruct (arun1 c s a) as [s1|] eqn:E1; [|discriminate].
  destruct a as [t|t| |t]; cbn in E1, N; try discriminate.
  - apply (IH s1); auto. eapply reach_step; eauto.
    destruct (restb (pcs s t)) eqn:B; [|discriminate]. injection E1 as <-. apply step_call. apply restb_ok; auto.
  - apply (IH s1); auto. eapply reach_step; eauto. eapply step_thread; eauto.
Qed.

Definition rep (n : nat) (a : act) : list act := repeat a n.
(* one thread calls instance() for the first time: 11 actions *)
Definition first_call (t : tid) : list act := ACall t :: rep 11 (AStep t).

Lemma destroy_race : exists s, reach init (step default_mt Anytime) s /\ pcs s 1 = Done RNull.
Proof.
  eexists. split.
  - eapply (arun_reach default_mt (first_call 0 ++ [ACall 1; AStep 1; AStep 1; AExit 0; AStep 0; AStep 0; AStep 1]) init);
      [constructor|vm_compute; reflexivity].
  - reflexivity.
Qed.

Lemma unlocked_two : exists s, reach init (step (mkConfig false false true) Quiescent) s /\ live s 0 /\ live s 1.
Proof.
  eexists. split.
  - eapply (arun_reach_q (mkConfig false false true) (ACall 0 :: ACall 1 :: rep 7 (AStep 0) ++ rep 7 (AStep 1)) init);
      [reflexivity|constructor|vm_compute; reflexivity].
  - unfold live. cbn. repeat split; auto.
Qed.

Lemma example_run : exists s, reach init (step default_mt Quiescent) s /\
  pcs s 0 = Done (ROk 0) /\ pcs s 1 = Done (ROk 0) /\ live s 0 /\ atexits s = 1.
Proof.
  eexists. split.
  - eapply (arun_reach_q default_mt (ACall 0 :: ACall 1 :: rep 2 (AStep 1) ++ rep 11 (AStep 0) ++ rep 5 (AStep 1)) init);
      [reflexivity|constructor|vm_compute; reflexivity].
  - unfold live. cbn. repeat split; auto.
Qed.

Lemma example_late : exists s, reach init (step default_mt Quiescent) s /\ late s 1 = true /\ pcs s 1 = Done RThrow.
Proof.
  eexists. split.
  - eapply (arun_reach_q default_mt (ACall 1 :: rep 7 (AStep 1))); [reflexivity| |].
    + eapply reach_step.
      * eapply (arun_reach_q default_mt (first_call 0) init); [reflexivity|constructor|vm_compute; reflexivity].
      * eapply (step_exit_quiescent _ _ 0); [reflexivity|].
        intros u. cbn. repeat (destruct u as [|u]; cbn; auto).
    + vm_compute. reflexivity.
  - split; reflexivity.
Qed.
