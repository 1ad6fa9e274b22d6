(* Proofs for C75 *)
From Verif Require Import Conc ThreadModel ThreadSpec ThreadProofs LxrtThreadModel LxrtThreadSpec.
From Coq Require Import Lia.

Lemma begin_cur s w : reach init (step without_cancel) s -> wpcs s w = WBegin -> w = cur s /\ cp s = S206 /\ m_starting s = true.
Proof.
  intros R E. destruct (reach_inv s R) as [H1 H2 _ _ _ _ _]. destruct (Nat.eq_dec w (cur s)) as [->|N].
  - split; [reflexivity|]. rewrite E in H1. destruct (cp s); try discriminate H1. destruct (m_starting s); [auto|discriminate H1].
  - specialize (H2 w N). rewrite E in H2. discriminate H2.
Qed.
Lemma j142_inv s k : reach init (step without_cancel) s -> cp s = J142 k -> m_joined s = false /\ joins s (cur s) = 0 /\ cur s <> 0.
Proof.
  intros R E. destruct (reach_inv s R) as [H1 _ _ _ _ _ H7]. rewrite E in H1. unfold okb in H1. cbn [j142 j196 s200] in H1.
  assert (Z : j0 (joins s (cur s)) = true /\ m_joined s = false /\ isnone (wpcs s (cur s)) = false).
  { repeat rewrite andb_true_iff in H1. destruct H1 as [[[[[[_ _] _] H1] _] _] H2].
    cbn in H1. rewrite andb_true_iff in H1. destruct H1 as [A B]. destruct (m_joined s); [discriminate A|]. split; [exact B|]. split; [reflexivity|].
    destruct (isnone (wpcs s (cur s))); [discriminate H2|reflexivity]. }
  destruct Z as (Z & J & N). split; [exact J|]. split; [unfold j0 in Z; apply Nat.eqb_eq, Z|].
  intros Q. rewrite Q, H7 in N. discriminate N.
Qed.
Lemma d91_inv s : reach init (step without_cancel) s -> cp s = D91 -> postp (wpcs s (cur s)) = true.
Proof.
  intros R E. destruct (reach_inv s R) as [H1 _ _ _ _ _ _]. rewrite E in H1. unfold okb in H1. destruct (wpcs s (cur s)); try discriminate H1; try reflexivity. exfalso. cbn in H1. rewrite ?andb_false_r in H1. discriminate H1.
Qed.

Definition early (p : ppc) : bool := match p with P182 | P190 | P220 => true | _ => false end.
Definition j_ip_ok (s : lst) : Prop :=
  match ip s with
  | Out => True | I149 => cp (base s) = S196 | I156 => cp (base s) = S196 /\ exists n, sync s = Some n /\ arr s n = 0
  | I161 => cp (base s) = S196 /\ tid s = 0 /\ exists n, sync s = Some n
  | I166 => cp (base s) = S206 /\ tid s <> 0 /\ exists n, sync s = Some n /\ (early (pre s (tid s)) = true \/ pre s (tid s) = P220w n)
  | I166w m => cp (base s) = S206 /\ tid s <> 0 /\ sync s = Some m /\ (2 <= arr s m \/ early (pre s (tid s)) = true)
  | I170 => (cp (base s) = S206 /\ tid s <> 0) \/ (cp (base s) = S196 /\ tid s = 0)
  | I51 => cp (base s) = D91
  end.
Definition j_pre_ok (s : lst) (w : nat) : Prop :=
  match pre s w with
  | PNone => wpcs (base s) w = WNone
  | P182 | P190 | P220 => wpcs (base s) w = WBegin /\ w = tid s /\ exists n, sync s = Some n /\ (ip s = I166 /\ arr s n = 0 \/ ip s = I166w n /\ arr s n = 1)
  | P220w m => wpcs (base s) w = WBegin /\ w = tid s /\ sync s = Some m /\ (ip s = I166 /\ arr s m = 1 \/ ip s <> I166 /\ 2 <= arr s m)
  | PRun => wpcs (base s) w <> WNone
  | _ => False
  end.
Definition gone_tid (b : st) : Prop := joins b (cur b) <> 0 \/ m_joined b = true \/ j196 (cp b) = true \/ s200 (cp b) = true \/ cp b = D91 \/ cp b = Destroyed.
Record jinv (s : lst) : Prop := {
  j_base : reach init (step without_cancel) (base s);
  j_tid : tid s = cur (base s) \/ tid s = 0 /\ gone_tid (base s);
  j_ip : j_ip_ok s;
  j_sync : forall n, sync s = Some n -> n < made s;
  j_fresh : forall n, made s <= n -> arr s n = 0;
  j_pre : forall w, j_pre_ok s w;
  j_some : tid s <> 0 -> pre s (tid s) <> PNone
}.
Definition no_failure (c : bool) : env := mkEnv false false c.

Lemma worker_frame w b b' : wstep w b = Some b' -> cp b' = cp b /\ cur b' = cur b /\ m_joined b' = m_joined b /\ joins b' = joins b /\
  (forall v, v <> w -> wpcs b' v = wpcs b v) /\ wpcs b' w <> WNone.
Proof.
  intros H. unfold wstep in H. destruct (wpcs b w) eqn:E; try discriminate H;
    repeat match type of H with context[match ?x with _ => _ end] => destruct x; try discriminate H end; injection H as <-; cbn;
    (do 4 (split; [reflexivity|])); (split; [intros v N; unfold upd; destruct (Nat.eqb_spec v w); congruence|unfold upd; rewrite Nat.eqb_refl; discriminate]).
Qed.
Lemma client_frame f b b' : cstep f b = Some b' -> in_impl (cp b) = false -> cur b' = cur b /\ wpcs b' = wpcs b /\ joins b' = joins b /\ (gone_tid b -> gone_tid b').
Proof.
  intros H N. unfold cstep in H. unfold gone_tid. destruct (cp b) eqn:E; try discriminate H; try discriminate N;
    repeat match type of H with context[match ?x with _ => _ end] => destruct x eqn:?; try discriminate H end; injection H as <-; cbn;
    (do 3 (split; [reflexivity|])); intros [Q|[Q|[Q|[Q|[Q|Q]]]]]; try discriminate Q; auto 10.
Qed.

Lemma jinit : jinv linit.
Proof. constructor; cbn; auto; try discriminate; try exact Logic.I; try (constructor; fail). Qed.

Lemma with_base_pre s b : (forall w, pre s w <> PRun -> wpcs b w = wpcs (base s) w) -> (forall w, wpcs (base s) w <> WNone -> wpcs b w <> WNone) -> (forall w, j_pre_ok s w) -> forall w, j_pre_ok (with_base s b) w.
Proof.
  intros E E2 P w. specialize (P w). specialize (E w). specialize (E2 w). unfold j_pre_ok in *. cbn. destruct (pre s w); try (rewrite E by discriminate); auto.
Qed.
Lemma jstep_worker c f w s s' : jinv s -> lwstep (no_failure c) f w s = Some s' -> jinv s'.
Proof.
  intros [Jb Jt Ji Js Jf Jp Jo] H. unfold lwstep in H. pose proof (Jp w) as Pw. unfold j_pre_ok in Pw. destruct (pre s w) eqn:Ep; try discriminate H; try contradiction.
  - (* P182 *) destruct Pw as (Pb & Pt & n & Sn & Pi). rewrite Sn in H. injection H as <-. constructor; cbn; auto.
    + unfold j_ip_ok in *. cbn. unfold upd. destruct (ip s); auto; subst w; rewrite Nat.eqb_refl; rewrite Ep in Ji; cbn in *.
      * destruct Ji as (A & B & n0 & D & _). split; [exact A|]. split; [exact B|]. exists n0. auto.
      * destruct Ji as (A & B & D & _). auto.
    + intros v. specialize (Jp v). unfold j_pre_ok in *. cbn. unfold upd. destruct (Nat.eqb_spec v w) as [->|N]; [|exact Jp]. split; [exact Pb|]. split; [exact Pt|]. exists n. auto.
    + intros N. unfold upd. destruct (Nat.eqb_spec (tid s) w); [discriminate|auto].
  - (* P190 *) destruct Pw as (Pb & Pt & n & Sn & Pi). cbn in H. destruct f; [discriminate H|]. cbn in H. injection H as <-. constructor; cbn; auto.
    + unfold j_ip_ok in *. cbn. unfold upd. destruct (ip s); auto; subst w; rewrite Nat.eqb_refl; rewrite Ep in Ji; cbn in *.
      * destruct Ji as (A & B & n0 & D & _). split; [exact A|]. split; [exact B|]. exists n0. auto.
      * destruct Ji as (A & B & D & _). auto.
    + intros v. specialize (Jp v). unfold j_pre_ok in *. cbn. unfold upd. destruct (Nat.eqb_spec v w) as [->|N]; [|exact Jp]. split; [exact Pb|]. split; [exact Pt|]. exists n. auto.
    + intros N. unfold upd. destruct (Nat.eqb_spec (tid s) w); [discriminate|auto].
  - (* P220 *) destruct Pw as (Pb & Pt & n & Sn & Pi). rewrite Sn in H. injection H as <-. constructor; cbn; auto.
    + unfold j_ip_ok in *. cbn. unfold upd. destruct (ip s) eqn:Ei; auto; subst w; rewrite ?Nat.eqb_refl.
      * destruct Pi as [[Q _]|[Q _]]; discriminate Q.
      * destruct Ji as (A & B & n0 & D & _). split; [exact A|]. split; [exact B|]. exists n0. split; [exact D|right]. congruence.
      * destruct Ji as (A & B & D & _). assert (n0 = n) by congruence. subst n0. do 3 (split; [auto|]). left. rewrite Nat.eqb_refl. destruct Pi as [[Q _]|[_ Q]]; [discriminate Q|lia].
    + intros m Hm. unfold upd. destruct (Nat.eqb_spec m n) as [->|_]; [specialize (Js n Sn); lia|auto].
    + intros v. specialize (Jp v). unfold j_pre_ok in *. cbn. unfold upd at 1. destruct (Nat.eqb_spec v w) as [->|N].
      * split; [exact Pb|]. split; [exact Pt|]. split; [exact Sn|]. unfold upd. rewrite Nat.eqb_refl. destruct Pi as [[Q1 Q2]|[Q1 Q2]]; [left|right]; rewrite Q2; [auto|split; [rewrite Q1; discriminate|lia]].
      * destruct (pre s v); auto; destruct Jp as (_ & Q & _); congruence.
    + intros N. unfold upd. destruct (Nat.eqb_spec (tid s) w); [discriminate|auto].
  - (* P220w *) destruct Pw as (Pb & Pt & Sn & Pi). destruct (Nat.leb_spec 2 (arr s n)) as [L|L]; [|discriminate H]. injection H as <-. constructor; cbn; auto.
    + unfold j_ip_ok in *. cbn. unfold upd. destruct (ip s) eqn:Ei; auto; subst w; rewrite ?Nat.eqb_refl.
      * destruct Pi as [[_ Q]|[Q _]]; [lia|congruence].
      * destruct Ji as (A & B & D & _). assert (n0 = n) by congruence. subst n0. auto.
    + intros v. specialize (Jp v). unfold j_pre_ok in *. cbn. unfold upd. destruct (Nat.eqb_spec v w) as [->|N]; [rewrite Pb; discriminate|exact Jp].
    + intros N. unfold upd. destruct (Nat.eqb_spec (tid s) w); [discriminate|auto].
  - (* PRun *) destruct (wstep w (base s)) as [b|] eqn:E; [|discriminate H]. injection H as <-. destruct (worker_frame w _ _ E) as (F1 & F2 & F3 & F4 & F5 & F6).
    constructor; cbn; auto.
    + eapply reach_step; [exact Jb|eapply step_worker; exact E].
    + unfold gone_tid in *. rewrite F1, F2, F3, F4. exact Jt.
    + unfold j_ip_ok in *. cbn. rewrite F1. exact Ji.
    + apply with_base_pre; [| |exact Jp].
      * intros v Nv. apply F5. intros ->. congruence.
      * intros v Nv. destruct (Nat.eq_dec v w) as [->|N]; [exact F6|rewrite F5; auto].
Qed.
Lemma base_client s f b' : jinv s -> ip s = Out -> in_impl (cp (base s)) = false -> cstep f (base s) = Some b' -> jinv (with_base s b').
Proof.
  intros [Jb Jt Ji Js Jf Jp Jo] Ei N H. destruct (client_frame _ _ _ H N) as (F1 & F2 & F3 & F4). constructor; cbn; auto.
  - eapply reach_step; [exact Jb|eapply step_client; exact H].
  - destruct Jt as [T|[T G]]; [left; congruence|right; auto].
  - unfold j_ip_ok in *. cbn. rewrite Ei in *. exact Ji.
  - apply with_base_pre; [| |exact Jp]; intros v; rewrite F2; auto.
Qed.
(* no worker is before its barrier when the client is not in start() *)
Lemma no_early s w : jinv s -> cp (base s) <> S206 -> pre s w = PNone \/ pre s w = PRun.
Proof.
  intros [Jb Jt Ji Js Jf Jp Jo] N. specialize (Jp w). unfold j_pre_ok in Jp. destruct (pre s w); auto; try contradiction;
    destruct Jp as (Q & _); destruct (begin_cur _ _ Jb Q) as (_ & Z & _); contradiction.
Qed.
Lemma pre_frame s s' : jinv s -> cp (base s) <> S206 -> pre s' = pre s -> wpcs (base s') = wpcs (base s) -> forall w, j_pre_ok s' w.
Proof.
  intros J N E1 E2 w. pose proof (no_early s w J N) as Q. destruct J as [_ _ _ _ _ Jp _]. specialize (Jp w). unfold j_pre_ok in *. rewrite E1, E2. destruct Q as [Q|Q]; rewrite Q in *; exact Jp.
Qed.
Lemma jstep_client c f s s' : jinv s -> lcstep (no_failure c) f s = Some s' -> jinv s'.
Proof.
  intros J H. pose proof J as [Jb Jt Ji Js Jf Jp Jo]. unfold lcstep in H. unfold j_ip_ok in Ji. destruct (ip s) eqn:Ei.
  - destruct (in_impl (cp (base s))) eqn:II.
    + destruct (cp (base s)) eqn:Ec; try discriminate II.
      * (* S196 *) injection H as <-. constructor; cbn; auto. apply (pre_frame s); auto. rewrite Ec. discriminate.
      * (* J142 *) destruct (j142_inv _ _ Jb Ec) as (Z1 & Z2 & Z3). destruct (Nat.eqb_spec (tid s) 0) as [T0|T0].
        { exfalso. destruct Jt as [T|[_ [G|[G|[G|[G|[G|G]]]]]]]; try congruence; rewrite Ec in G; discriminate G. }
        destruct Jt as [T|[T _]]; [|contradiction]. destruct (over s (tid s)) eqn:Eo; [|discriminate H]. injection H as <-. constructor; cbn; auto.
        { eapply reach_step; [exact Jb|]. apply (step_client _ true). unfold cstep. rewrite Ec. rewrite T.
          assert (En : ended (wpcs (base s) (cur (base s))) = true).
          { rewrite <- T. unfold over in Eo. destruct (no_early s (tid s) J) as [Q|Q]; [rewrite Ec; discriminate| |]; rewrite Q in Eo; [discriminate Eo|exact Eo]. }
          rewrite En. reflexivity. }
        { right. split; [reflexivity|]. left. cbn. rewrite T. unfold upd. rewrite Nat.eqb_refl. discriminate. }
        { unfold j_ip_ok. cbn. rewrite Ei. exact Logic.I. }
        { apply (pre_frame s); auto. rewrite Ec. discriminate. }
      * (* D91 *) destruct (Nat.eqb_spec (tid s) 0) as [T0|T0].
        { injection H as <-. constructor; cbn; auto. apply (pre_frame s); auto. rewrite Ec. discriminate. }
        destruct (over s (tid s)); [|discriminate H]. injection H as <-. constructor; cbn; auto.
        { right. split; [reflexivity|]. unfold gone_tid. auto 10. }
        { apply (pre_frame s); auto. rewrite Ec. discriminate. }
    + assert (exists b', cstep f (base s) = Some b' /\ s' = with_base s b') as (b' & E1 & E2).
      { destruct (cp (base s)) eqn:Ec; try discriminate II; rewrite <- ?Ec in *; destruct (cstep f (base s)) as [b'|]; try discriminate H; injection H as <-; eauto. }
      subst s'. exact (base_client s f b' J Ei II E1).
  - (* I149 *) assert (Nc : cp (base s) <> S206) by (rewrite Ji; discriminate). injection H as <-. cbn [names_unique no_failure andb]. constructor; cbn; auto.
    + unfold j_ip_ok. cbn. split; [exact Ji|]. exists (made s). split; [reflexivity|apply Jf; lia].
    + intros n [= <-]. lia.
    + intros n Hn. apply Jf. lia.
    + apply (pre_frame s); auto.
  - (* I156 *) destruct Ji as (Ec & n & Sn & An). assert (Nc : cp (base s) <> S206) by (rewrite Ec; discriminate). destruct f.
    + injection H as <-. constructor; cbn; auto.
      * eapply reach_step; [exact Jb|]. apply (step_client _ true). unfold cstep. rewrite Ec. reflexivity.
      * unfold j_ip_ok. cbn. split; [reflexivity|]. split; [discriminate|]. exists n. split; [exact Sn|left]. unfold upd. rewrite Nat.eqb_refl. reflexivity.
      * intros w. unfold j_pre_ok. cbn. unfold upd. destruct (Nat.eqb_spec w (S (cur (base s)))) as [->|N].
        { split; [reflexivity|]. split; [reflexivity|]. exists n. auto. }
        { pose proof (no_early s w J Nc) as Q. specialize (Jp w). unfold j_pre_ok in Jp. destruct Q as [Q|Q]; rewrite Q in *; exact Jp. }
      * intros _. unfold upd. rewrite Nat.eqb_refl. discriminate.
    + cbn in H. destruct c; [|discriminate H]. injection H as <-. constructor; cbn; auto.
      * right. split; [reflexivity|]. unfold gone_tid. rewrite Ec. auto.
      * unfold j_ip_ok. cbn. eauto.
      * apply (pre_frame s); auto.
  - (* I161 *) destruct Ji as (Ec & T & n & Sn). rewrite Sn in H. injection H as <-. constructor; cbn; auto.
    + discriminate.
    + apply (pre_frame s); auto. rewrite Ec. discriminate.
  - (* I166 *) destruct Ji as (Ec & T & n & Sn & Q). rewrite Sn in H. injection H as <-. constructor; cbn; auto.
    + unfold j_ip_ok. cbn. split; [exact Ec|]. split; [exact T|]. split; [exact Sn|]. destruct Q as [Q|Q]; [right; exact Q|left].
      specialize (Jp (tid s)). unfold j_pre_ok in Jp. rewrite Q in Jp. destruct Jp as (_ & _ & _ & [[_ K]|[K _]]); [|congruence]. unfold upd. rewrite Nat.eqb_refl. lia.
    + intros m Hm. unfold upd. destruct (Nat.eqb_spec m n) as [->|_]; [specialize (Js n Sn); lia|auto].
    + intros w. specialize (Jp w). unfold j_pre_ok in *. cbn. rewrite Ei in Jp.
      destruct (pre s w); try exact Jp;
        try (destruct Jp as (A & B & m & D & [[_ K]|[K _]]); [|discriminate K]; assert (m = n) by congruence; subst m; split; [exact A|]; split; [exact B|]; exists n; split; [exact Sn|right]; unfold upd; rewrite Nat.eqb_refl, K; auto).
      destruct Jp as (A & B & D & [[_ K]|[K _]]); [|congruence]. assert (n0 = n) by congruence. subst n0. split; [exact A|]. split; [exact B|]. split; [exact Sn|right]. split; [discriminate|]. unfold upd. rewrite Nat.eqb_refl. lia.
  - (* I166w *) destruct Ji as (Ec & T & Sn & _). destruct (Nat.leb_spec 2 (arr s n)) as [L|L]; [|discriminate H]. injection H as <-. constructor; cbn; auto.
    + intros w. specialize (Jp w). unfold j_pre_ok in *. cbn. rewrite Ei in Jp.
      destruct (pre s w); try exact Jp;
        try (destruct Jp as (_ & _ & m & D & [[K _]|[_ K]]); [discriminate K|]; assert (m = n) by congruence; subst m; lia).
      destruct Jp as (A & B & D & [[K _]|[_ K]]); [discriminate K|]. split; [exact A|]. split; [exact B|]. split; [exact D|right]. split; [discriminate|exact K].
  - (* I170 *) injection H as <-. destruct Ji as [[Ec T]|[Ec T]].
    + rewrite (proj2 (Nat.eqb_neq _ _) T). assert (Eb : cgoto (base s) S206 = base s) by (destruct (base s); cbn in *; subst; reflexivity). rewrite Eb.
      constructor; cbn; auto. intros w. specialize (Jp w). unfold j_pre_ok in *. cbn. rewrite Ei in Jp.
      destruct (pre s w); try exact Jp; try (destruct Jp as (_ & _ & m & D & [[K _]|[K _]]); discriminate K).
      destruct Jp as (A & B & D & [[K _]|[_ K]]); [discriminate K|]. split; [exact A|]. split; [exact B|]. split; [exact D|right]. split; [discriminate|exact K].
    + rewrite T. cbn [Nat.eqb]. constructor; cbn; auto.
      * eapply reach_step; [exact Jb|]. apply (step_client _ false). unfold cstep. rewrite Ec. reflexivity.
      * right. split; [exact T|]. unfold gone_tid. cbn. auto.
      * apply (pre_frame s); auto. rewrite Ec. discriminate.
  - (* I51 *) injection H as <-. assert (G : gone_tid (cgoto (base s) Destroyed)) by (unfold gone_tid; cbn; auto 10).
    assert (Rb : reach init (step without_cancel) (cgoto (base s) Destroyed)).
    { eapply reach_step; [exact Jb|]. apply (step_client _ true). unfold cstep. rewrite Ji. reflexivity. }
    assert (Nc : cp (base s) <> S206) by (rewrite Ji; discriminate).
    assert (Jt' : tid s = cur (base s) \/ tid s = 0 /\ gone_tid (cgoto (base s) Destroyed)) by (destruct Jt as [T|[T _]]; auto).
    destruct (sync s) as [n|] eqn:Sn; constructor; cbn; auto.
    + discriminate.
    + apply (pre_frame s); auto.
    + intros m. rewrite Sn. discriminate.
    + apply (pre_frame s); auto.
Qed.
Lemma reach_jinv c s : reach linit (lstep (no_failure c)) s -> jinv s.
Proof.
  intros R. induction R as [|s s' R IH H]; [exact jinit|]. destruct H as [w f s s' H|f s s' H|s p Ei Hr Hc].
  - exact (jstep_worker c f w s s' IH H).
  - exact (jstep_client c f s s' IH H).
  - destruct IH as [Jb Jt Ji Js Jf Jp Jo]. constructor; cbn; auto.
    + eapply reach_step; [exact Jb|apply step_call; assumption].
    + destruct Jt as [T|[T G]]; [left; exact T|right]. split; [exact T|]. unfold gone_tid in *. cbn. destruct G as [G|[G|[G|[G|[G|G]]]]]; auto; rewrite ?G in *; try discriminate Hr; destruct (cp (base s)); try discriminate Hr; discriminate G.
    + unfold j_ip_ok. cbn. rewrite Ei. exact Logic.I.
Qed.

(* progress *)
Lemma early_moves c s w n : early (pre s w) = true -> sync s = Some n -> exists s', lstep (no_failure c) s s'.
Proof.
  intros E Sn. destruct (pre s w) eqn:Ep; try discriminate E; eexists; apply (l_worker _ w false); unfold lwstep; rewrite Ep, ?Sn; reflexivity.
Qed.
Lemma worker_moves c s w b : jinv s -> ip s = Out -> wstep w (base s) = Some b -> exists s', lstep (no_failure c) s s'.
Proof.
  intros J Ei E. destruct J as [_ _ _ _ _ Jp _]. specialize (Jp w). unfold j_pre_ok in Jp. destruct (pre s w) eqn:Ep; try contradiction.
  - unfold wstep in E. rewrite Jp in E. discriminate E.
  - destruct Jp as (_ & _ & n & Sn & _). apply (early_moves c s w n); [rewrite Ep; reflexivity|exact Sn].
  - destruct Jp as (_ & _ & n & Sn & _). apply (early_moves c s w n); [rewrite Ep; reflexivity|exact Sn].
  - destruct Jp as (_ & _ & n & Sn & _). apply (early_moves c s w n); [rewrite Ep; reflexivity|exact Sn].
  - destruct Jp as (_ & _ & Sn & [[Q _]|[_ Q]]); [congruence|]. eexists. apply (l_worker _ w false). unfold lwstep. rewrite Ep. rewrite (proj2 (Nat.leb_le _ _) Q). reflexivity.
  - eexists. apply (l_worker _ w false). unfold lwstep. rewrite Ep, E. reflexivity.
Qed.
Lemma over_ended s w : jinv s -> ended (wpcs (base s) w) = true -> over s w = true.
Proof.
  intros [_ _ _ _ _ Jp _] E. specialize (Jp w). unfold j_pre_ok, over in *. destruct (pre s w); try contradiction; try exact E; try (rewrite Jp in E; discriminate E); destruct Jp as (Q & _); rewrite Q in E; discriminate E.
Qed.
Lemma lxrt_progress c s : reach linit (lstep (no_failure c)) s -> in_call (cp (base s)) = true -> exists s', lstep (no_failure c) s s'.
Proof.
  intros R IC. pose proof (reach_jinv c s R) as J. pose proof J as [Jb Jt Ji Js Jf Jp Jo]. unfold j_ip_ok in Ji. destruct (ip s) eqn:Ei.
  - destruct (in_impl (cp (base s))) eqn:II.
    + destruct (cp (base s)) eqn:Ec; try discriminate II.
      * eexists. apply (l_client _ true). unfold lcstep. rewrite Ei, Ec. reflexivity.
      * destruct (thread_progress (base s) Jb) as [(w & b & E)|(f & b & E)]; [rewrite Ec; exact IC|exact (worker_moves c s w b J Ei E)|].
        unfold cstep in E. rewrite Ec in E. destruct (ended (wpcs (base s) (cur (base s)))) eqn:En; [|discriminate E].
        destruct (Nat.eqb_spec (tid s) 0) as [T|T]; [eexists; apply (l_client _ true); unfold lcstep; rewrite Ei, Ec, T; reflexivity|].
        destruct Jt as [T'|[T' _]]; [|contradiction]. rewrite <- T' in En. eexists. apply (l_client _ true). unfold lcstep. rewrite Ei, Ec, (proj2 (Nat.eqb_neq _ _) T). rewrite (over_ended s _ J En). reflexivity.
      * destruct (Nat.eqb_spec (tid s) 0) as [T|T]; [eexists; apply (l_client _ true); unfold lcstep; rewrite Ei, Ec, T; reflexivity|].
        destruct Jt as [T'|[T' _]]; [|contradiction]. pose proof (d91_inv _ Jb Ec) as P. rewrite <- T' in P. specialize (Jo T).
        destruct (wpcs (base s) (tid s)) eqn:Ew; try discriminate P.
        -- exfalso. specialize (Jp (tid s)). unfold j_pre_ok in Jp. destruct (no_early s (tid s) J) as [Q|Q]; [rewrite Ec; discriminate|contradiction|].
           rewrite Q in Jp. contradiction.
        -- apply (worker_moves c s (tid s) (wgoto (base s) (tid s) WEnd) J Ei). unfold wstep. rewrite Ew. reflexivity.
        -- eexists. apply (l_client _ true). unfold lcstep. rewrite Ei, Ec. rewrite (proj2 (Nat.eqb_neq _ _) T). rewrite (over_ended s (tid s) J); [reflexivity|rewrite Ew; reflexivity].
    + destruct (thread_progress (base s) Jb IC) as [(w & b & E)|(f & b & E)]; [exact (worker_moves c s w b J Ei E)|].
      eexists. apply (l_client _ f). unfold lcstep. rewrite Ei. destruct (cp (base s)) eqn:Ec; try discriminate II; rewrite E; reflexivity.
  - eexists. apply (l_client _ true). unfold lcstep. rewrite Ei. reflexivity.
  - eexists. apply (l_client _ true). unfold lcstep. rewrite Ei. reflexivity.
  - destruct Ji as (_ & _ & n & Sn). eexists. apply (l_client _ true). unfold lcstep. rewrite Ei, Sn. reflexivity.
  - destruct Ji as (_ & _ & n & Sn & _). eexists. apply (l_client _ true). unfold lcstep. rewrite Ei, Sn. reflexivity.
  - destruct Ji as (_ & T & Sn & [L|E]); [|exact (early_moves c s _ n E Sn)]. eexists. apply (l_client _ true). unfold lcstep. rewrite Ei, (proj2 (Nat.leb_le _ _) L). reflexivity.
  - eexists. apply (l_client _ true). unfold lcstep. rewrite Ei. reflexivity.
  - eexists. apply (l_client _ true). unfold lcstep. rewrite Ei. reflexivity.
Qed.

(* ---- the destructor waits for the last worker --------------------------------------------------------------------- *)
Definition dinv (s : lst) : Prop := (tid s = 0 -> cur (base s) = 0 \/ ended (wpcs (base s) (cur (base s))) = true) /\
  (ip s = I51 \/ cp (base s) = Destroyed -> tid s = 0).
Lemma ended_stays w b b' v : wstep w b = Some b' -> ended (wpcs b v) = true -> ended (wpcs b' v) = true.
Proof.
  intros H E. unfold wstep in H. destruct (wpcs b w) eqn:Ew; try discriminate H;
    repeat match type of H with context[match ?x with _ => _ end] => destruct x; try discriminate H end; injection H as <-; cbn; unfold upd;
    destruct (Nat.eqb_spec v w) as [->|_]; try exact E; rewrite Ew in E; discriminate E.
Qed.
Lemma cstep_destroyed f b b' : cstep f b = Some b' -> in_impl (cp b) = false -> cp b' <> Destroyed.
Proof.
  intros H N. unfold cstep in H. destruct (cp b) eqn:E; try discriminate H; try discriminate N;
    repeat match type of H with context[match ?x with _ => _ end] => destruct x eqn:?; try discriminate H end; injection H as <-; cbn; try discriminate; destruct k; discriminate.
Qed.
Lemma reach_dinv s : reach linit (lstep (no_failure false)) s -> dinv s.
Proof.
  intros R. induction R as [|s s' R [IH1 IH2] H]; [split; auto|]. pose proof (reach_jinv _ _ R) as J. destruct H as [w f s s' H|f s s' H|s p Ei Hr Hc].
  - unfold lwstep in H. destruct (pre s w) eqn:Ep; try discriminate H;
      repeat match type of H with context[match ?x with _ => _ end] => destruct x eqn:?; try discriminate H end; injection H as <-; try (split; [exact IH1|exact IH2]).
    destruct (worker_frame w _ _ Heqo) as (F1 & F2 & _). split; cbn.
    + intros T. rewrite F2. destruct (IH1 T) as [Q|Q]; [left; exact Q|right; exact (ended_stays _ _ _ _ Heqo Q)].
    + rewrite F1. exact IH2.
  - pose proof J as [Jb Jt Ji _ _ _ _]. unfold j_ip_ok in Ji. unfold lcstep in H. destruct (ip s) eqn:Ei.
    + destruct (in_impl (cp (base s))) eqn:II.
      * destruct (cp (base s)) eqn:Ec; try discriminate II.
        -- injection H as <-. split; [exact IH1|]. cbn. rewrite Ec. intros [Q|Q]; discriminate Q.
        -- destruct (Nat.eqb_spec (tid s) 0) as [T|T].
           ++ injection H as <-. split; [exact IH1|]. cbn. rewrite Ei. intros [Q|Q]; discriminate Q.
           ++ destruct (over s (tid s)) eqn:Eo; [|discriminate H]. injection H as <-. split; cbn; [|reflexivity]. intros _. right.
              destruct Jt as [T'|[T' _]]; [|contradiction]. rewrite <- T'. unfold over in Eo. destruct (no_early s (tid s) J) as [Q|Q]; [rewrite Ec; discriminate| |]; rewrite Q in Eo; [discriminate Eo|exact Eo].
        -- destruct (Nat.eqb_spec (tid s) 0) as [T|T].
           ++ injection H as <-. split; [exact IH1|]. cbn. auto.
           ++ destruct (over s (tid s)) eqn:Eo; [|discriminate H]. injection H as <-. split; cbn; [|reflexivity]. intros _. right.
              destruct Jt as [T'|[T' _]]; [|contradiction]. rewrite <- T'. unfold over in Eo. destruct (no_early s (tid s) J) as [Q|Q]; [rewrite Ec; discriminate| |]; rewrite Q in Eo; [discriminate Eo|exact Eo].
      * assert (exists b', cstep f (base s) = Some b' /\ s' = with_base s b') as (b' & E1 & ->).
        { destruct (cp (base s)) eqn:Ec; try discriminate II; rewrite <- ?Ec in *; destruct (cstep f (base s)) as [b'|]; try discriminate H; injection H as <-; eauto. }
        destruct (client_frame _ _ _ E1 II) as (F1 & F2 & _). split; cbn; [rewrite F1, F2; exact IH1|]. rewrite Ei. intros [Q|Q]; [discriminate Q|]. destruct (cstep_destroyed _ _ _ E1 II Q).
    + injection H as <-. cbn. split; [exact IH1|]. cbn. rewrite Ji. intros [Q|Q]; discriminate Q.
    + destruct f; [|discriminate H]. injection H as <-. split; cbn; [discriminate|intros [Q|Q]; discriminate Q].
    + destruct Ji as (Ec & _ & n & Sn). rewrite Sn in H. injection H as <-. split; [exact IH1|]. cbn. rewrite Ec. intros [Q|Q]; discriminate Q.
    + destruct Ji as (Ec & _ & n & Sn & _). rewrite Sn in H. injection H as <-. split; [exact IH1|]. cbn. rewrite Ec. intros [Q|Q]; discriminate Q.
    + destruct Ji as (Ec & _). destruct (2 <=? arr s n); [|discriminate H]. injection H as <-. split; [exact IH1|]. cbn. rewrite Ec. intros [Q|Q]; discriminate Q.
    + injection H as <-. split; [exact IH1|]. cbn. destruct (tid s =? 0); intros [Q|Q]; discriminate Q.
    + injection H as <-. assert (T : tid s = 0) by (apply IH2; left; reflexivity). destruct (sync s); split; cbn; auto.
  - split; [exact IH1|]. cbn. rewrite Ei. intros [Q|Q]; [discriminate Q|]. subst p. inversion Hc.
Qed.

(* ---- one start only, when names are unique ------------------------------------------------------------------------ *)
Record ninv (s : lst) : Prop := {
  n_cur : cur (base s) = 0 \/ cur (base s) = 1 /\ ip s <> I156 /\ ip s <> I161 /\ (cp (base s) <> Destroyed -> taken s = true);
  n_ip : match ip s with I149 | I161 => cp (base s) = S196 | I156 => cp (base s) = S196 /\ taken s = true | I51 => cp (base s) = D91 | Out => True | _ => cp (base s) <> Destroyed end
}.
Lemma taken_new s : taken (new_sem s) = true.
Proof. unfold taken. cbn [made new_sem live]. rewrite seq_S, existsb_app. cbn. unfold upd. rewrite Nat.eqb_refl. apply orb_true_r. Qed.
Lemma reach_ninv t c s : reach linit (lstep (mkEnv true t c)) s -> ninv s.
Proof.
  intros R. induction R as [|s s' R [Nc Ni] H]; [constructor; cbn; auto|]. destruct H as [w f s s' H|f s s' H|s p Ei Hr Hc].
  - unfold lwstep in H. destruct (pre s w) eqn:Ep; try discriminate H;
      repeat match type of H with context[match ?x with _ => _ end] => destruct x eqn:?; try discriminate H end; injection H as <-; try (constructor; [exact Nc|exact Ni]).
    destruct (worker_frame w _ _ Heqo) as (F1 & F2 & _). constructor; cbn; rewrite ?F1, ?F2; [exact Nc|exact Ni].
  - unfold lcstep in H. destruct (ip s) eqn:Ei.
    + destruct (in_impl (cp (base s))) eqn:II.
      * destruct (cp (base s)) eqn:Ec; try discriminate II.
        -- injection H as <-. constructor; cbn; [|exact Ec]. destruct Nc as [Q|(Q & _ & _ & K)]; [left; exact Q|right]. split; [exact Q|]; split; [discriminate|]; split; [discriminate|]. intros _. apply K. discriminate.
        -- destruct (tid s =? 0); [|destruct (over s (tid s)); [|discriminate H]]; injection H as <-; constructor; cbn; rewrite ?Ei; auto;
             (destruct Nc as [Q|(Q & _ & _ & K)]; [left; exact Q|right]; split; [exact Q|]; split; [discriminate|]; split; [discriminate|]; intros _; apply K; discriminate).
        -- destruct (tid s =? 0); [|destruct (over s (tid s)); [|discriminate H]]; injection H as <-; constructor; cbn; auto;
             (destruct Nc as [Q|(Q & _ & _ & K)]; [left; exact Q|right]; split; [exact Q|]; split; [discriminate|]; split; [discriminate|]; intros _; apply K; discriminate).
      * assert (exists b', cstep f (base s) = Some b' /\ s' = with_base s b') as (b' & E1 & ->).
        { destruct (cp (base s)) eqn:Ec; try discriminate II; rewrite <- ?Ec in *; destruct (cstep f (base s)) as [b'|]; try discriminate H; injection H as <-; eauto. }
        destruct (client_frame _ _ _ E1 II) as (F1 & F2 & _). constructor; cbn; rewrite ?Ei; [|exact Logic.I]. rewrite F1. destruct Nc as [Q|(Q & _ & _ & K)]; [left; exact Q|right]. split; [exact Q|]; split; [discriminate|]; split; [discriminate|].
        intros _. apply K. intros Z. unfold cstep in E1. rewrite Z in E1. discriminate E1.
    + cbn [names_unique andb] in H. destruct (taken s) eqn:Et; injection H as <-; constructor.
      * destruct Nc as [Q|(Q & _ & _ & K)]; [left; exact Q|right]. split; [exact Q|]. split; [discriminate|]. split; [discriminate|]. intros _. exact Et.
      * cbn. rewrite Ni. discriminate.
      * destruct Nc as [Q|(Q & _ & _ & K)]; [left; exact Q|]. rewrite Ni in K. specialize (K ltac:(discriminate)). congruence.
      * cbn. split; [exact Ni|apply taken_new].
    + destruct Nc as [Q|(_ & Q & _)]; [|congruence]. destruct Ni as [Ni Nk]. destruct f; [|cbn in H; destruct c; [|discriminate H]]; injection H as <-; constructor; cbn; auto.
      * right. rewrite Q. split; [reflexivity|]. split; [discriminate|]. split; [discriminate|]. intros _. exact Nk.
      * discriminate.
    + destruct Nc as [Q|(_ & _ & Q & _)]; [|congruence]. destruct (sync s); [|discriminate H]. injection H as <-. constructor; cbn; auto. rewrite Ni. discriminate.
    + destruct (sync s); [|discriminate H]. injection H as <-. constructor; cbn; auto. destruct Nc as [Q|(Q & _ & _ & K)]; [left; exact Q|right]. split; [exact Q|]. split; [discriminate|]. split; [discriminate|]. exact K.
    + destruct (2 <=? arr s n); [|discriminate H]. injection H as <-. constructor; cbn; auto. destruct Nc as [Q|(Q & _ & _ & K)]; [left; exact Q|right]. split; [exact Q|]. split; [discriminate|]. split; [discriminate|]. exact K.
    + injection H as <-. constructor; cbn; auto. destruct Nc as [Q|(Q & _ & _ & K)]; [left; exact Q|right]. split; [exact Q|]. split; [discriminate|]. split; [discriminate|]. intros _. exact (K Ni).
    + injection H as <-. destruct (sync s); constructor; cbn; auto;
        (destruct Nc as [Q|(Q & _ & _ & K)]; [left; exact Q|right]; split; [exact Q|]; split; [discriminate|]; split; [discriminate|]; intros Z; destruct (Z eq_refl)).
  - constructor; cbn; rewrite ?Ei; auto. destruct Nc as [Q|(Q & _ & _ & K)]; [left; exact Q|right]. split; [exact Q|]; split; [discriminate|]; split; [discriminate|]. intros _. apply K. intros Z. rewrite Z in Hr. discriminate Hr.
Qed.

(* ---- concrete schedules --------------------------------------------------------------------------------------------- *)
Inductive lact := LW (w : nat) | LF (w : nat) | LC | LX | LA (a : act).
Definition outb (i : ipc) : bool := match i with Out => true | _ => false end.
Definition lrun1 (e : env) (s : lst) (a : lact) : option lst :=
  match a with
  | LW w => lwstep e false w s | LF w => lwstep e true w s | LC => lcstep e true s | LX => lcstep e false s
  | LA a => match ent false a with Some p => if outb (ip s) && resting (cp (base s)) then Some (with_base s (cgoto (base s) p)) else None | None => None end
  end.
Fixpoint lrun (e : env) (s : lst) (l : list lact) : option lst :=
  match l with [] => Some s | a :: l => match lrun1 e s a with Some s => lrun e s l | None => None end end.
Lemma ent_call a p : ent false a = Some p -> call false p.
Proof. destruct a; cbn; try discriminate; intros [= <-]; constructor. Qed.
Lemma lrun_reach e l : forall s s', reach linit (lstep e) s -> lrun e s l = Some s' -> reach linit (lstep e) s'.
Proof.
  induction l as [|a l IH]; intros s s' R E; cbn in E; [injection E as <-; exact R|].
  destruct (lrun1 e s a) as [s1|] eqn:E1; [|discriminate E]. apply (IH s1); [|exact E]. eapply reach_step; [exact R|].
  destruct a; cbn in E1.
  - exact (l_worker e w false s s1 E1).
  - exact (l_worker e w true s s1 E1).
  - exact (l_client e true s s1 E1).
  - exact (l_client e false s s1 E1).
  - destruct (ent false a) as [p|] eqn:Ea; [|discriminate E1]. destruct (ip s) eqn:Ei; cbn in E1; try discriminate E1. destruct (resting (cp (base s))) eqn:Er; [|discriminate E1].
    injection E1 as <-. apply l_call; [exact Ei|exact Er|exact (ent_call _ _ Ea)].
Qed.
Definition ws' (w n : nat) : list lact := repeat (LW w) n.
Definition cs' (n : nat) : list lact := repeat LC n.
Definition lstarted (w : nat) : list lact := LA AStart :: cs' 9 ++ ws' w 3 ++ cs' 3 ++ ws' w 6 ++ cs' 1.
Definition got (e : env) (l : list lact) : lst := match lrun e linit l with Some s => s | None => linit end.
Definition lok (e : env) (l : list lact) : bool := match lrun e linit l with Some _ => true | None => false end.
Lemma got_reach e l : lok e l = true -> reach linit (lstep e) (got e l).
Proof. unfold lok, got. intros H. destruct (lrun e linit l) eqn:E; [|discriminate H]. apply (lrun_reach e l linit); [constructor|exact E]. Qed.

(* nobody can do anything: start() waits for a worker that will not come *)
Definition quiet_w (s : lst) (w : nat) : bool := match pre s w with PNone | PFailed => true | PRun => ended (wpcs (base s) w) | _ => false end.
Definition waits (s : lst) : bool := outb (ip s) && (match cp (base s) with S206 => true | _ => false end) && m_starting (base s).
Lemma stuck_state e s : waits s = true -> (forall w, quiet_w s w = true) -> ~ can_go_on e s.
Proof.
  unfold waits. intros W Q (s' & H). destruct (ip s) eqn:Ei; try discriminate W. destruct (cp (base s)) eqn:Ec; try discriminate W. cbn in W.
  destruct H as [w f s s' H|f s s' H|s p _ Hr Hc].
  - specialize (Q w). unfold quiet_w in Q. unfold lwstep in H. destruct (pre s w); try discriminate H; try discriminate Q.
    unfold wstep in H. destruct (wpcs (base s) w); try discriminate H; discriminate Q.
  - unfold lcstep in H. rewrite Ei, Ec in H. unfold cstep in H. rewrite Ec, W in H. discriminate H.
  - rewrite Ec in Hr. discriminate Hr.
Qed.
(* run() ends; join(); start() *)
Definition restart : list lact := lstarted 1 ++ ws' 1 5 ++ [LA AJoin] ++ cs' 2 ++ LA AStart :: cs' 9.
Lemma restart_stuck : exists s, reach linit (lstep (unique_names false false)) s /\ in_call (cp (base s)) = true /\ ~ can_go_on (unique_names false false) s.
Proof.
  exists (got (unique_names false false) restart). split; [apply got_reach; vm_compute; reflexivity|]. split; [vm_compute; reflexivity|].
  apply stuck_state; [vm_compute; reflexivity|]. intros [|[|w]]; vm_compute; reflexivity.
Qed.
(* the RTAI task cannot be made *)
Definition no_task : list lact := LA AStart :: cs' 9 ++ LW 1 :: LF 1 :: LW 1 :: cs' 3 ++ ws' 1 1.
Lemma no_task_stuck : exists s, reach linit (lstep tasks_fail) s /\ in_call (cp (base s)) = true /\ ~ can_go_on tasks_fail s.
Proof.
  exists (got tasks_fail no_task). split; [apply got_reach; vm_compute; reflexivity|]. split; [vm_compute; reflexivity|].
  apply stuck_state; [vm_compute; reflexivity|]. intros [|[|w]]; vm_compute; reflexivity.
Qed.
(* without the rule about names: two starts, then delete: a semaphore is left *)
Definition twice : list lact := lstarted 1 ++ ws' 1 5 ++ [LA AJoin] ++ cs' 2 ++ lstarted 2 ++ [LA ADtor] ++ cs' 4 ++ ws' 2 5 ++ cs' 4.
Definition once : list lact := lstarted 1 ++ [LA ADtor] ++ cs' 4 ++ ws' 1 5 ++ cs' 4.
(* start() after a join() that waited: answers false *)
Definition again : list lact := lstarted 1 ++ [LA AJoin] ++ cs' 1 ++ ws' 1 5 ++ cs' 2 ++ LA AStart :: cs' 12.
Definition created : list lact := LA AStart :: cs' 9.

Definition rst_false (p : cpc) : bool := match p with RStart false => true | _ => false end.
Lemma again_false : exists s, reach linit (lstep (unique_names false false)) s /\ cp (base s) = RStart false /\ wpcs (base s) 1 = WEnd /\ ip s = Out.
Proof. exists (got (unique_names false false) again). split; [apply got_reach; vm_compute; reflexivity|]. split; [vm_compute; reflexivity|]. split; vm_compute; reflexivity. Qed.
Lemma twice_leaks : exists s, reach linit (lstep nothing_fails) s /\ cp (base s) = Destroyed /\ live s 0 = true.
Proof. exists (got nothing_fails twice). split; [apply got_reach; vm_compute; reflexivity|]. split; vm_compute; reflexivity. Qed.
Lemma once_clean : exists s, reach linit (lstep nothing_fails) s /\ cp (base s) = Destroyed /\ made s = 1 /\ live s 0 = false /\ cur (base s) = 1.
Proof. exists (got nothing_fails once). split; [apply got_reach; vm_compute; reflexivity|]. repeat split; vm_compute; reflexivity. Qed.
Lemma at_barrier : exists s, reach linit (lstep nothing_fails) s /\ in_call (cp (base s)) = true /\ ip s = I166 /\ pre s 1 = P182.
Proof. exists (got nothing_fails created). split; [apply got_reach; vm_compute; reflexivity|]. repeat split; vm_compute; reflexivity. Qed.
Lemma once_running : exists s, reach linit (lstep (unique_names false false)) s /\ cp (base s) = RStart true /\ wpcs (base s) 1 = WRun.
Proof. exists (got (unique_names false false) (lstarted 1)). split; [apply got_reach; vm_compute; reflexivity|]. repeat split; vm_compute; reflexivity. Qed.

(* ---- semaphores ------------------------------------------------------------------------------------------------------ *)
(* at most the last semaphore is reachable; each one that is live and not the last has been forgotten *)
Record sinv (s : lst) : Prop := {
  s_made : forall n, made s <= n -> live s n = false;
  s_sync : forall n, sync s = Some n -> live s n = true /\ n < made s
}.
Lemma reach_sinv e s : reach linit (lstep e) s -> sinv s.
Proof.
  intros R. induction R as [|s s' R [S1 S2] H]; [constructor; cbn; auto; discriminate|]. destruct H as [w f s s' H|f s s' H|s p Ei Hr Hc].
  - unfold lwstep in H. destruct (pre s w); try discriminate H;
      repeat match type of H with context[match ?x with _ => _ end] => destruct x eqn:?; try discriminate H end; injection H as <-; (constructor; [exact S1|]); try exact S2; match goal with E : sync s = _ |- _ => cbn; rewrite E; exact S2 end.
  - unfold lcstep in H. destruct (ip s) eqn:Ei.
    + destruct (cp (base s)) eqn:Ec;
        try (destruct (cstep f (base s)); [|discriminate H]; injection H as <-; (constructor; [exact S1|exact S2]));
        repeat match type of H with context[if ?x then _ else _] => destruct x eqn:?; try discriminate H end; injection H as <-; (constructor; [exact S1|exact S2]).
    + injection H as <-. destruct (names_unique e && taken s); constructor; cbn; auto; try discriminate.
      * intros n L. unfold upd. destruct (Nat.eqb_spec n (made s)) as [->|_]; [lia|apply S1; lia].
      * intros n [= <-]. unfold upd. rewrite Nat.eqb_refl. split; [reflexivity|lia].
    + destruct f; [|destruct (create_null e); [|discriminate H]]; injection H as <-; constructor; cbn; auto.
    + destruct (sync s) as [m|]; [|discriminate H]. injection H as <-. constructor; cbn; try discriminate. intros n L. unfold upd. destruct (Nat.eqb_spec n m); auto.
    + destruct (sync s) as [m|] eqn:Es; [|discriminate H]. injection H as <-. constructor; [exact S1|]. cbn. rewrite Es. exact S2.
    + destruct (2 <=? arr s n); [|discriminate H]. injection H as <-. constructor; cbn; auto.
    + injection H as <-. constructor; cbn; auto.
    + injection H as <-. destruct (sync s) as [m|] eqn:Es; constructor; cbn; auto; try discriminate.
      * intros n L. unfold upd. destruct (Nat.eqb_spec n m); auto.
      * intros n Q. rewrite Es in Q. discriminate Q.
  - constructor; cbn; auto.
Qed.

(* ---- one start ------------------------------------------------------------------------------------------------------- *)
Lemma none_beyond e s : reach linit (lstep e) s -> wpcs (base s) 0 = WNone /\ forall w, cur (base s) < w -> wpcs (base s) w = WNone.
Proof.
  intros R. induction R as [|s s' R [Z B] H]; [split; reflexivity|]. destruct H as [w f s s' H|f s s' H|s p Ei Hr Hc].
  - unfold lwstep in H. destruct (pre s w); try discriminate H;
      repeat match type of H with context[match ?x with _ => _ end] => destruct x eqn:?; try discriminate H end; injection H as <-; try (split; [exact Z|exact B]).
    destruct (worker_frame w _ _ Heqo) as (_ & F2 & _ & _ & F5 & _).
    assert (Nw : wpcs (base s) w <> WNone) by (unfold wstep in Heqo; destruct (wpcs (base s) w); try discriminate Heqo; discriminate).
    split; cbn; [rewrite F5; [exact Z|intros <-; contradiction]|]. intros v L. rewrite F2 in L. rewrite F5; [auto|]. intros ->. apply Nw, B, L.
  - unfold lcstep in H. destruct (ip s) eqn:Ei.
    + destruct (in_impl (cp (base s))) eqn:II.
      * destruct (cp (base s)) eqn:Ec; try discriminate II;
          repeat match type of H with context[if ?x then _ else _] => destruct x eqn:?; try discriminate H end; injection H as <-; (split; [exact Z|exact B]).
      * assert (exists b', cstep f (base s) = Some b' /\ s' = with_base s b') as (b' & E1 & ->).
        { destruct (cp (base s)) eqn:Ec; try discriminate II; rewrite <- ?Ec in *; destruct (cstep f (base s)) as [b'|]; try discriminate H; injection H as <-; eauto. }
        destruct (client_frame _ _ _ E1 II) as (F1 & F2 & _). cbn. rewrite F1, F2. auto.
    + injection H as <-. destruct (names_unique e && taken s); (split; [exact Z|exact B]).
    + destruct f; [|destruct (create_null e); [|discriminate H]]; injection H as <-; [|split; [exact Z|exact B]]. cbn. unfold upd. split; [exact Z|].
      intros w L. destruct (Nat.eqb_spec w (S (cur (base s)))) as [Q|_]; [lia|]. apply B. lia.
    + destruct (sync s); [|discriminate H]. injection H as <-. split; [exact Z|exact B].
    + destruct (sync s); [|discriminate H]. injection H as <-. split; [exact Z|exact B].
    + destruct (2 <=? arr s n); [|discriminate H]. injection H as <-. split; [exact Z|exact B].
    + injection H as <-. split; [exact Z|exact B].
    + injection H as <-. destruct (sync s); (split; [exact Z|exact B]).
  - split; [exact Z|exact B].
Qed.
Lemma one_start t c s : reach linit (lstep (unique_names t c)) s -> cur (base s) <= 1 /\ forall w, wpcs (base s) w <> WNone -> w = 1.
Proof.
  intros R. destruct (reach_ninv t c s R) as [Nc _]. destruct (none_beyond _ s R) as [Z B]. assert (L : cur (base s) <= 1) by (destruct Nc as [Q|(Q & _)]; lia).
  split; [exact L|]. intros w N. destruct w as [|[|w]]; [contradiction|reflexivity|]. exfalso. apply N, B. lia.
Qed.
