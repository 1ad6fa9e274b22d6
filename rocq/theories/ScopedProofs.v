(* Proofs about scoped locks (C63). *)
From Verif Require Import Base Conc ScopedModel ScopedSpec.

Definition how_eqb (a b : how) : bool := match a, b with Mx, Mx | Rd, Rd | Wr, Wr => true | _, _ => false end.
Lemma how_eqb_eq a b : how_eqb a b = true <-> a = b.
Proof. destruct a, b; split; intros H; try reflexivity; discriminate. Qed.
Definition one (l : nat) (h : how) (o : scope) : nat := if (s_locked o && Nat.eqb (s_lock o) l && how_eqb (s_how o) h)%bool then 1 else 0.
Fixpoint held (os : list scope) (l : nat) (h : how) : nat := match os with [] => 0 | o :: r => one l h o + held r l h end.
Notation hold s t l h := (held (scopes (threads s t)) l h).

Lemma held_in os l h : 0 < held os l h <-> exists f, In (Scope l h f true) os.
Proof.
  induction os as [|o os IH]; cbn [held].
  - split; [lia|]. intros (f & []).
  - unfold one. destruct (s_locked o && Nat.eqb (s_lock o) l && how_eqb (s_how o) h)%bool eqn:E.
    + split; [|lia]. intros _. apply andb_prop in E. destruct E as [E E3]. apply andb_prop in E. destruct E as [E1 E2].
      apply Nat.eqb_eq in E2. apply how_eqb_eq in E3. destruct o as [ol oh of ok]. cbn in *. subst. exists of. left; reflexivity.
    + split.
      * intros H. apply IH in H. destruct H as [f H]. exists f. right; exact H.
      * intros (f & [->|H]); [|cbn [Nat.add]; apply IH; exists f; exact H]. cbn in E. rewrite Nat.eqb_refl in E. destruct h; discriminate E.
Qed.
Lemma in_scope_held s t l h : in_scope s t l h <-> 0 < hold s t l h.
Proof. unfold in_scope. rewrite held_in. reflexivity. Qed.

Fixpoint count (t : nat) (r : list nat) : nat := match r with [] => 0 | u :: r' => (if Nat.eqb u t then 1 else 0) + count t r' end.
Lemma remove_one_count t r : match remove_one t r with
  | Some r' => forall u, count u r = (if Nat.eqb t u then 1 else 0) + count u r'
  | None => count t r = 0 end.
Proof.
  induction r as [|v r IH]; cbn [remove_one count]; [reflexivity|]. destruct (Nat.eqb_spec v t) as [->|N].
  - reflexivity.
  - destruct (remove_one t r) as [r'|].
    + intros u. cbn [count]. specialize (IH u). lia.
    + exact IH.
Qed.
Lemma count_zero r : (forall u, count u r = 0) -> r = [].
Proof. destruct r as [|v r]; [reflexivity|]. intros H. specialize (H v). cbn [count] in H. rewrite Nat.eqb_refl in H. lia. Qed.

(* the lock knows who has it *)
Definition LInv (s : state) (l : nat) : Prop :=
  match locks s l with
  | MFree => forall t h, hold s t l h = 0
  | MOwned u d => 0 < d /\ hold s u l Mx = d /\ (forall t, t <> u -> hold s t l Mx = 0) /\ forall t, hold s t l Rd = 0 /\ hold s t l Wr = 0
  | RW None r => forall t, hold s t l Mx = 0 /\ hold s t l Wr = 0 /\ hold s t l Rd = count t r
  | RW (Some u) r => r = [] /\ hold s u l Wr = 1 /\ (forall t, t <> u -> hold s t l Wr = 0) /\ forall t, hold s t l Mx = 0 /\ hold s t l Rd = 0
  end.
Definition kind_ok (x : lock) (h : how) : Prop := is_mutex x = match h with Mx => true | _ => false end.
Record Inv (s : state) : Prop := MkInv {
  i_lock : forall l, LInv s l;
  i_enter : forall t l h f, entering (threads s t) = Some (l, h, f) -> kind_ok (locks s l) h;
  i_force : forall t o, In o (scopes (threads s t)) -> s_force o = true -> s_locked o = true
}.
Lemma inv_init m : Inv (init m).
Proof.
  constructor.
  - intros l. unfold LInv. cbn. destruct (m l); [reflexivity|]. intros t. repeat split; reflexivity.
  - intros t l h f H. discriminate H.
  - intros t o [].
Qed.
(* a change of thread t that leaves its held locks alone *)
Lemma linv_ext s s' l : locks s' l = locks s l -> (forall t h, hold s' t l h = hold s t l h) -> LInv s l -> LInv s' l.
Proof.
  intros E H. unfold LInv. rewrite E. destruct (locks s l) as [|u d|[u|] r].
  - intros A t h. rewrite H. apply A.
  - rewrite H. intros (A & B & C0 & D0). split; [exact A|]. split; [exact B|]. split; [intros t N; rewrite H; exact (C0 t N)|]. intros t. rewrite !H. apply D0.
  - rewrite H. intros (A & B & C0 & D0). split; [exact A|]. split; [exact B|]. split; [intros t N; rewrite H; exact (C0 t N)|]. intros t. rewrite !H. apply D0.
  - intros A t. rewrite !H. apply A.
Qed.
Lemma hold_upd lk s t x u l h : hold (set_thread (mkS lk (threads s)) t x) u l h = if Nat.eqb u t then held (scopes x) l h else hold s u l h.
Proof. cbn [set_thread threads]. unfold upd. destruct (Nat.eqb u t); reflexivity. Qed.
Lemma hold_set s t x u l h : hold (set_thread s t x) u l h = if Nat.eqb u t then held (scopes x) l h else hold s u l h.
Proof. cbn [set_thread threads]. unfold upd. destruct (Nat.eqb u t); reflexivity. Qed.
Lemma kind_kept t again h x y h' : call_lock t again h x = Got y -> kind_ok x h' -> kind_ok y h'.
Proof.
  unfold kind_ok. destruct h; cbn [call_lock].
  - destruct x as [|u d|w r]; cbn; [destruct again|destruct (Nat.eqb u t); [destruct again|]|]; intros H; try discriminate; injection H as <-; auto.
  - destruct x as [|u d|[w|] r]; cbn; try discriminate; [destruct (Nat.eqb w t); discriminate|]. destruct again; intros H; [discriminate|]. injection H as <-; auto.
  - destruct x as [|u d|[w|] [|v r]]; cbn; try discriminate; try (destruct (Nat.eqb w t); discriminate). intros H. injection H as <-; auto.
Qed.
Lemma kind_unlock t x y h' : unlock t x = Some y -> kind_ok x h' -> kind_ok y h'.
Proof.
  unfold kind_ok, unlock. destruct x as [|u d|[w|] r]; try discriminate.
  - destruct (Nat.eqb u t); [|discriminate]. destruct d as [|[|d]]; intros H; try discriminate; injection H as <-; auto.
  - destruct (Nat.eqb w t); [|discriminate]. intros H. injection H as <-; auto.
  - destruct (remove_one t r); intros H; [|discriminate]. injection H as <-; auto.
Qed.

(* acquiring *)
Lemma linv_got s t again l h f y : LInv s l -> call_lock t again h (locks s l) = Got y ->
  LInv (set_thread (set_lock s l y) t (mkT None (Scope l h f true :: scopes (threads s t)))) l.
Proof.
  intros L G. set (s' := set_thread _ _ _).
  assert (Hl : locks s' l = y) by (cbn; apply upd_same).
  assert (Hh : forall u k, hold s' u l k = (if Nat.eqb u t then if how_eqb h k then 1 else 0 else 0) + hold s u l k).
  { intros u k. unfold s'. rewrite hold_set. cbn [scopes held]. unfold one. cbn [s_locked s_lock s_how]. rewrite Nat.eqb_refl. cbn [andb].
    destruct (Nat.eqb_spec u t) as [->|_]; reflexivity. }
  clearbody s'. unfold LInv in *. rewrite Hl. destruct h; cbn [call_lock] in G.
  - destruct (locks s l) as [|u d|w r]; cbn in G; [|destruct (Nat.eqb_spec u t) as [->|]; [|discriminate]|discriminate]; destruct again; try discriminate; injection G as <-.
    + split; [lia|]. rewrite Hh, Nat.eqb_refl, L. cbn [how_eqb]. split; [reflexivity|]. split.
      * intros u N. rewrite Hh, L. apply Nat.eqb_neq in N. rewrite N. reflexivity.
      * intros u. rewrite !Hh, !L. cbn [how_eqb]. destruct (Nat.eqb u t); split; reflexivity.
    + destruct L as (A & B & C0 & D0). split; [lia|]. rewrite Hh, Nat.eqb_refl, B. cbn [how_eqb]. split; [reflexivity|]. split.
      * intros u N. rewrite Hh, (C0 u N). apply Nat.eqb_neq in N. rewrite N. reflexivity.
      * intros u. rewrite !Hh. destruct (D0 u) as [-> ->]. cbn [how_eqb]. destruct (Nat.eqb u t); split; reflexivity.
  - destruct (locks s l) as [|u d|[w|] r]; cbn in G; try discriminate; [destruct (Nat.eqb w t); discriminate|]. destruct again; try discriminate. injection G as <-.
    intros u. rewrite !Hh. destruct (L u) as (-> & -> & ->). cbn [how_eqb count]. rewrite (Nat.eqb_sym t u). destruct (Nat.eqb u t); repeat split; reflexivity.
  - destruct (locks s l) as [|u d|[w|] [|v r]]; cbn in G; try discriminate; try (destruct (Nat.eqb w t); discriminate). injection G as <-.
    split; [reflexivity|]. rewrite Hh, Nat.eqb_refl. cbn [how_eqb]. destruct (L t) as (_ & -> & _). split; [reflexivity|]. split.
    + intros u N. rewrite Hh. destruct (L u) as (_ & -> & _). apply Nat.eqb_neq in N. rewrite N. reflexivity.
    + intros u. rewrite !Hh. destruct (L u) as (-> & _ & ->). cbn [how_eqb count]. destruct (Nat.eqb u t); split; reflexivity.
Qed.

(* releasing *)
Lemma linv_release s t o r : LInv s (s_lock o) -> scopes (threads s t) = o :: r -> s_locked o = true ->
  exists y, unlock t (locks s (s_lock o)) = Some y /\ LInv (set_thread (set_lock s (s_lock o) y) t (mkT None r)) (s_lock o).
Proof.
  destruct o as [l h f k]. cbn [s_lock s_locked]. intros L E ->.
  assert (Hh : forall y u m, hold s u l m = (if Nat.eqb u t then if how_eqb h m then 1 else 0 else 0) +
     hold (set_thread (set_lock s l y) t (mkT None r)) u l m).
  { intros y u m. rewrite hold_set. cbn [scopes]. destruct (Nat.eqb_spec u t) as [->|_]; [|reflexivity]. rewrite E. cbn [held]. unfold one.
    cbn [s_locked s_lock s_how]. rewrite Nat.eqb_refl. reflexivity. }
  assert (Hl : forall y, locks (set_thread (set_lock s l y) t (mkT None r)) l = y) by (intros y; cbn; apply upd_same).
  unfold LInv in *. unfold unlock. destruct (locks s l) as [|u d|[w|] rd].
  - exfalso. specialize (L t h). rewrite (Hh MFree t h), Nat.eqb_refl in L. destruct h; cbn [how_eqb] in L; lia.
  - destruct L as (A & B & C0 & D0). assert (Hm : h = Mx).
    { destruct (D0 t) as [D1 D2]. rewrite (Hh MFree) in D1. rewrite (Hh MFree) in D2. rewrite Nat.eqb_refl in D1, D2. destruct h; cbn [how_eqb] in *; [reflexivity|lia|lia]. }
    subst h. destruct (Nat.eqb_spec u t) as [->|N].
    2:{ exfalso. specialize (C0 t (not_eq_sym N)). rewrite (Hh MFree), Nat.eqb_refl in C0. cbn [how_eqb] in C0. lia. }
    destruct d as [|[|d]]; [lia| |].
    + exists MFree. split; [reflexivity|]. rewrite Hl. intros u m. pose proof (Hh MFree u m) as Q. destruct (Nat.eqb_spec u t) as [->|Nu].
      * destruct (D0 t). destruct m; cbn [how_eqb] in Q; lia.
      * destruct (D0 u). specialize (C0 u Nu). destruct m; lia.
    + exists (MOwned t (S d)). split; [reflexivity|]. rewrite Hl. split; [lia|]. split; [|split].
      * pose proof (Hh (MOwned t (S d)) t Mx) as Q. rewrite Nat.eqb_refl in Q. cbn [how_eqb] in Q. lia.
      * intros u Nu. pose proof (Hh (MOwned t (S d)) u Mx) as Q. specialize (C0 u Nu). lia.
      * intros u. pose proof (Hh (MOwned t (S d)) u Rd). pose proof (Hh (MOwned t (S d)) u Wr). destruct (D0 u). lia.
  - destruct L as (A & B & C0 & D0). assert (Hm : h = Wr).
    { destruct (D0 t) as [D1 D2]. rewrite (Hh MFree) in D1. rewrite (Hh MFree) in D2. rewrite Nat.eqb_refl in D1, D2. destruct h; cbn [how_eqb] in *; [lia|lia|reflexivity]. }
    subst h. destruct (Nat.eqb_spec w t) as [->|N].
    2:{ exfalso. specialize (C0 t (not_eq_sym N)). rewrite (Hh MFree), Nat.eqb_refl in C0. cbn [how_eqb] in C0. lia. }
    exists (RW None rd). split; [reflexivity|]. rewrite Hl. intros u. pose proof (Hh (RW None rd) u Mx). pose proof (Hh (RW None rd) u Rd). pose proof (Hh (RW None rd) u Wr) as Q.
    destruct (D0 u). subst rd. cbn [count]. split; [lia|]. split; [|lia]. destruct (Nat.eqb_spec u t) as [Eu|Nu]; cbn [how_eqb] in Q; [rewrite Eu in *; lia|]. specialize (C0 u Nu). lia.
  - assert (Hm : h = Rd).
    { destruct (L t) as (D1 & D2 & _). rewrite (Hh MFree) in D1. rewrite (Hh MFree) in D2. rewrite Nat.eqb_refl in D1, D2. destruct h; cbn [how_eqb] in *; [lia|reflexivity|lia]. }
    subst h. pose proof (remove_one_count t rd) as R. destruct (remove_one t rd) as [rd'|].
    + exists (RW None rd'). split; [reflexivity|]. rewrite Hl. intros u. pose proof (Hh (RW None rd') u Mx). pose proof (Hh (RW None rd') u Rd) as Q. pose proof (Hh (RW None rd') u Wr).
      destruct (L u) as (L1 & L2 & L3). specialize (R u). split; [lia|]. split; [lia|]. cbn [how_eqb] in Q. rewrite (Nat.eqb_sym t u) in R. destruct (Nat.eqb u t); lia.
    + exfalso. destruct (L t) as (_ & _ & L3). rewrite (Hh MFree), Nat.eqb_refl in L3. cbn [how_eqb] in L3. lia.
Qed.

Lemma step_inv s t e : Inv s -> match step s t e with Next s' => Inv s' | Undefined => False | Impossible => True end.
Proof.
  intros [IL IE IF]. destruct e as [l h f|again|]; cbn [step].
  - destruct (entering (threads s t)) as [[[l0 h0] f0]|] eqn:E; [exact Logic.I|]. destruct (Bool.eqb _ _) eqn:K; [|exact Logic.I]. apply Bool.eqb_prop in K.
    constructor.
    + intros l'. apply (linv_ext s); [reflexivity| |apply IL]. intros u m. rewrite hold_set. cbn [scopes]. destruct (Nat.eqb_spec u t) as [->|_]; reflexivity.
    + intros u l' h' f' Q. cbn [set_thread threads locks] in *. unfold upd in Q. destruct (Nat.eqb_spec u t) as [->|_].
      * cbn [entering] in Q. injection Q as <- <- <-. exact K.
      * exact (IE u l' h' f' Q).
    + intros u o. cbn [set_thread threads]. unfold upd. destruct (Nat.eqb_spec u t) as [->|_]; [cbn [scopes]|]; apply IF.
  - destruct (entering (threads s t)) as [[[l h] f]|] eqn:E; [|exact Logic.I]. destruct (call_lock t again h (locks s l)) as [y| |] eqn:G.
    + constructor.
      * intros l'. destruct (Nat.eq_dec l' l) as [->|N]; [exact (linv_got s t again l h f y (IL l) G)|].
        apply (linv_ext s); [cbn; apply upd_other; exact N| |apply IL]. intros u m. rewrite hold_set. cbn [scopes]. destruct (Nat.eqb_spec u t) as [->|_]; [|reflexivity].
        cbn [held]. unfold one. cbn [s_locked s_lock s_how]. destruct (Nat.eqb_spec l l') as [->|_]; [destruct (N eq_refl)|]. rewrite Bool.andb_false_l || cbn [andb]. reflexivity.
      * intros u l' h' f' Q. cbn [set_thread set_lock threads locks] in *. unfold upd in Q at 1. destruct (Nat.eqb_spec u t) as [->|_]; [discriminate Q|].
        pose proof (IE u l' h' f' Q) as K. unfold upd. destruct (Nat.eqb_spec l' l) as [->|_]; [exact (kind_kept t again h _ y h' G K)|exact K].
      * intros u o. cbn [set_thread set_lock threads]. unfold upd. destruct (Nat.eqb_spec u t) as [->|_]; [|apply IF]. cbn [scopes]. intros [<-|I0]; [reflexivity|exact (IF t o I0)].
    + destruct f; [constructor; assumption|]. constructor.
      * intros l'. apply (linv_ext s); [reflexivity| |apply IL]. intros u m. rewrite hold_set. cbn [scopes held]. destruct (Nat.eqb_spec u t) as [->|_]; reflexivity.
      * intros u l' h' f' Q. cbn [set_thread threads locks] in *. unfold upd in Q. destruct (Nat.eqb_spec u t) as [->|_]; [discriminate Q|exact (IE u l' h' f' Q)].
      * intros u o. cbn [set_thread threads]. unfold upd. destruct (Nat.eqb_spec u t) as [->|_]; [|apply IF]. cbn [scopes]. intros [<-|I0]; [discriminate|exact (IF t o I0)].
    + constructor; assumption.
  - destruct (entering (threads s t)) as [[[l0 h0] f0]|] eqn:E; [exact Logic.I|]. destruct (scopes (threads s t)) as [|o r] eqn:Sc; [exact Logic.I|].
    destruct (s_locked o) eqn:Lk.
    + destruct (linv_release s t o r (IL (s_lock o)) Sc Lk) as (y & U & L'). rewrite U. constructor.
      * intros l'. destruct (Nat.eq_dec l' (s_lock o)) as [->|N]; [exact L'|]. apply (linv_ext s); [cbn; apply upd_other; exact N| |apply IL].
        intros u m. rewrite hold_set. cbn [scopes]. destruct (Nat.eqb_spec u t) as [->|_]; [|reflexivity]. rewrite Sc. cbn [held]. unfold one.
        destruct (Nat.eqb_spec (s_lock o) l') as [Q|_]; [destruct (N (eq_sym Q))|]. rewrite Bool.andb_false_r. reflexivity.
      * intros u l' h' f' Q. cbn [set_thread set_lock threads locks] in *. unfold upd in Q at 1. destruct (Nat.eqb_spec u t) as [->|_]; [discriminate Q|].
        pose proof (IE u l' h' f' Q) as K. unfold upd. destruct (Nat.eqb_spec l' (s_lock o)) as [->|_]; [exact (kind_unlock t _ y h' U K)|exact K].
      * intros u o'. cbn [set_thread set_lock threads]. unfold upd. destruct (Nat.eqb_spec u t) as [->|_]; [|apply IF]. cbn [scopes]. intros I0. apply (IF t). rewrite Sc. right; exact I0.
    + constructor.
      * intros l'. apply (linv_ext s); [reflexivity| |apply IL]. intros u m. rewrite hold_set. cbn [scopes]. destruct (Nat.eqb_spec u t) as [->|_]; [|reflexivity].
        rewrite Sc. cbn [held]. unfold one. rewrite Lk. reflexivity.
      * intros u l' h' f' Q. cbn [set_thread threads locks] in *. unfold upd in Q. destruct (Nat.eqb_spec u t) as [->|_]; [discriminate Q|exact (IE u l' h' f' Q)].
      * intros u o'. cbn [set_thread threads]. unfold upd. destruct (Nat.eqb_spec u t) as [->|_]; [|apply IF]. cbn [scopes]. intros I0. apply (IF t). rewrite Sc. right; exact I0.
Qed.
Lemma run_inv tr : forall s, Inv s -> match run s tr with Next s' => Inv s' | Undefined => False | Impossible => True end.
Proof.
  induction tr as [|[t e] tr IH]; intros s H; cbn [run]; [exact H|]. pose proof (step_inv s t e H) as K. destruct (step s t e); [apply IH; exact K|exact K|exact K].
Qed.

(* ---- exclusion ---- *)
Lemma exclusion s t u l h h' : Inv s -> t <> u -> in_scope s t l h -> in_scope s u l h' -> compatible h h'.
Proof.
  intros [IL _ _] N A B. apply in_scope_held in A, B. specialize (IL l). unfold LInv in IL. destruct (locks s l) as [|w d|[w|] r].
  - rewrite IL in A. lia.
  - destruct IL as (_ & _ & C0 & D0). exfalso. destruct (D0 t), (D0 u). destruct h, h'; try lia.
    destruct (Nat.eq_dec t w) as [->|Nt]; [rewrite (C0 u) in B by congruence; lia|rewrite (C0 t Nt) in A; lia].
  - destruct IL as (_ & _ & C0 & D0). exfalso. destruct (D0 t), (D0 u). destruct h, h'; try lia.
    destruct (Nat.eq_dec t w) as [->|Nt]; [rewrite (C0 u) in B by congruence; lia|rewrite (C0 t Nt) in A; lia].
  - destruct (IL t) as (T1 & T2 & _), (IL u) as (U1 & U2 & _). destruct h, h'; try lia. split; reflexivity.
Qed.
(* ---- release ---- *)
Lemma released s l : Inv s -> (forall t h, ~ in_scope s t l h) -> locks s l = MFree \/ locks s l = RW None [].
Proof.
  intros [IL _ _] H. assert (Z0 : forall t h, hold s t l h = 0). { intros t h. specialize (H t h). rewrite in_scope_held in H. lia. }
  specialize (IL l). unfold LInv in IL. destruct (locks s l) as [|w d|[w|] r]; [left; reflexivity| | |].
  - destruct IL as (A & B & _). rewrite Z0 in B. lia.
  - destruct IL as (_ & B & _). rewrite Z0 in B. lia.
  - right. f_equal. apply count_zero. intros u. destruct (IL u) as (_ & _ & Q). rewrite Z0 in Q. lia.
Qed.
(* ---- acquisition ---- *)
Lemma attempt_entering s t l h f : entering (threads s t) = Some (l, h, f) -> (exists y, call_lock t false h (locks s l) = Got y) -> goes_on s t /\
  exists s', step s t (Attempt false) = Next s' /\ in_scope s' t l h.
Proof.
  intros E [y G]. assert (K : exists s', step s t (Attempt false) = Next s' /\ entering (threads s' t) = None /\ in_scope s' t l h).
  { cbn [step]. rewrite E, G. eexists. split; [reflexivity|]. unfold in_scope. cbn [set_thread set_lock threads]. rewrite upd_same. split; [reflexivity|].
    exists f. left; reflexivity. }
  destruct K as (s' & K1 & K2 & K3). split; [unfold goes_on; rewrite E|]; exists s'; split; assumption.
Qed.
(* what the next attempt meets *)
Lemma attempt_cases s t l h f : Inv s -> entering (threads s t) = Some (l, h, f) ->
  (exists y, call_lock t false h (locks s l) = Got y) \/
  (exists u h', u <> t /\ in_scope s u l h' /\ ~ compatible h h') \/
  (h <> Mx /\ exists h', in_scope s t l h').
Proof.
  intros [IL IE _] E. specialize (IE t l h f E). specialize (IL l). unfold LInv, kind_ok in *. destruct h; cbn [call_lock].
  - destruct (locks s l) as [|w d|w r]; [left; eexists; reflexivity| |discriminate IE]. cbn [mutex_lock]. destruct (Nat.eqb_spec w t) as [->|N]; [left; eexists; reflexivity|].
    right; left. exists w, Mx. split; [exact N|]. split; [apply in_scope_held; lia|]. intros [Q _]; discriminate Q.
  - destruct (locks s l) as [|w d|[w|] r]; try discriminate IE; cbn [read_lock]; [|left; eexists; reflexivity]. destruct IL as (_ & B & _).
    destruct (Nat.eq_dec w t) as [->|N].
    + right; right. split; [discriminate|]. exists Wr. apply in_scope_held. lia.
    + right; left. exists w, Wr. split; [exact N|]. split; [apply in_scope_held; lia|]. intros [_ Q]; discriminate Q.
  - destruct (locks s l) as [|w d|[w|] r]; try discriminate IE; cbn [write_lock].
    + destruct IL as (_ & B & _). destruct (Nat.eq_dec w t) as [->|N].
      * right; right. split; [discriminate|]. exists Wr. apply in_scope_held. lia.
      * right; left. exists w, Wr. split; [exact N|]. split; [apply in_scope_held; lia|]. intros [Q _]; discriminate Q.
    + destruct r as [|v r]; [left; eexists; reflexivity|]. destruct (IL v) as (_ & _ & Q). cbn [count] in Q. rewrite Nat.eqb_refl in Q.
      destruct (Nat.eq_dec v t) as [->|N].
      * right; right. split; [discriminate|]. exists Rd. apply in_scope_held. lia.
      * right; left. exists v, Rd. split; [exact N|]. split; [apply in_scope_held; lia|]. intros [Q2 _]; discriminate Q2.
Qed.

(* ---- ascending order: no deadlock ---- *)
Definition OInv (s : state) : Prop := forall t l h f, entering (threads s t) = Some (l, h, f) ->
  (h = Mx /\ in_scope s t l Mx) \/ forall l' h', in_scope s t l' h' -> l' < l.
Lemma step_oinv s t e s' : OInv s -> in_order s t e -> step s t e = Next s' -> OInv s'.
Proof.
  intros O Io E u l h f Q.
  assert (K : entering (threads s' u) = Some (l, h, f) -> (forall k m, in_scope s' u k m <-> in_scope s u k m) /\ (entering (threads s u) = Some (l, h, f) \/ u = t /\ e = Enter l h f)).
  { intros _. destruct e as [l0 h0 f0|again|]; cbn [step] in E.
    - destruct (entering (threads s t)) as [[[? ?] ?]|] eqn:En; [discriminate|]. destruct (Bool.eqb _ _); [|discriminate]. injection E as <-.
      unfold in_scope. cbn [set_thread threads] in *. unfold upd in *. destruct (Nat.eqb_spec u t) as [->|_].
      + cbn [entering scopes] in *. injection Q as <- <- <-. split; [reflexivity|right; split; reflexivity].
      + split; [reflexivity|left; exact Q].
    - destruct (entering (threads s t)) as [[[l0 h0] f0]|] eqn:En; [|discriminate]. destruct (call_lock t again h0 (locks s l0)) as [y| |].
      + injection E as <-. unfold in_scope. cbn [set_thread set_lock threads] in *. unfold upd in *. destruct (Nat.eqb_spec u t) as [->|_]; [discriminate Q|]. split; [reflexivity|left; exact Q].
      + destruct f0; injection E as <-; [split; [reflexivity|left; exact Q]|].
        unfold in_scope. cbn [set_thread set_lock threads] in *. unfold upd in *. destruct (Nat.eqb_spec u t) as [->|_]; [discriminate Q|]. split; [reflexivity|left; exact Q].
      + injection E as <-. split; [reflexivity|left; exact Q].
    - destruct (entering (threads s t)) as [[[l0 h0] f0]|] eqn:En; [discriminate|]. destruct (scopes (threads s t)) as [|o r]; [discriminate|].
      destruct (s_locked o); [destruct (unlock t (locks s (s_lock o))); [|discriminate]|]; injection E as <-;
        unfold in_scope; cbn [set_thread set_lock threads] in *; unfold upd in *; (destruct (Nat.eqb_spec u t) as [->|_]; [discriminate Q|]); (split; [reflexivity|left; exact Q]). }
  destruct (K Q) as [Ks [Q0|[-> ->]]].
  - destruct (O u l h f Q0) as [[A B]|A]; [left; split; [exact A|apply Ks; exact B]|right]. intros l' h' I0. apply (A l' h'). apply Ks. exact I0.
  - cbn [in_order] in Io. destruct Io as [[A B]|A]; [left; split; [exact A|apply Ks; exact B]|right]. intros l' h' I0. apply (A l' h'). apply Ks. exact I0.
Qed.
(* only finitely many threads are in constructors *)
Definition Fin (n : nat) (s : state) : Prop := forall t l h f, entering (threads s t) = Some (l, h, f) -> l <= n.
Lemma step_fin s t e s' n : Fin n s -> step s t e = Next s' -> Fin (Nat.max n (match e with Enter l _ _ => l | _ => 0 end)) s'.
Proof.
  intros F0 E u l h f Q. destruct e as [l0 h0 f0|again|]; cbn [step] in E.
  - destruct (entering (threads s t)) as [[[? ?] ?]|]; [discriminate|]. destruct (Bool.eqb _ _); [|discriminate]. injection E as <-.
    cbn [set_thread threads] in Q. unfold upd in Q. destruct (Nat.eqb_spec u t) as [->|_]; [cbn in Q; injection Q as <- <- <-; lia|]. specialize (F0 u l h f Q). lia.
  - destruct (entering (threads s t)) as [[[l0 h0] f0]|] eqn:En; [|discriminate]. assert (K : entering (threads s u) = Some (l, h, f)).
    { destruct (call_lock t again h0 (locks s l0)) as [y| |]; [|destruct f0|]; injection E as <-; try exact Q;
        cbn [set_thread set_lock threads] in Q; unfold upd in Q; (destruct (Nat.eqb u t); [discriminate Q|exact Q]). }
    specialize (F0 u l h f K). lia.
  - destruct (entering (threads s t)) as [[[l0 h0] f0]|] eqn:En; [discriminate|]. destruct (scopes (threads s t)) as [|o r]; [discriminate|].
    assert (K : entering (threads s u) = Some (l, h, f)).
    { destruct (s_locked o); [destruct (unlock t (locks s (s_lock o))); [|discriminate]|]; injection E as <-;
        cbn [set_thread set_lock threads] in Q; unfold upd in Q; (destruct (Nat.eqb u t); [discriminate Q|exact Q]). }
    specialize (F0 u l h f K). lia.
Qed.
Lemma run_ordered tr : forall s s' n, Inv s -> OInv s -> Fin n s -> ordered s tr -> run s tr = Next s' -> Inv s' /\ OInv s' /\ exists n', Fin n' s'.
Proof.
  induction tr as [|[t e] tr IH]; intros s s' n I0 O F0 Or R; cbn [run ordered] in *.
  - injection R as <-. split; [exact I0|]. split; [exact O|]. exists n; exact F0.
  - destruct Or as [Io Or]. pose proof (step_inv s t e I0) as K. destruct (step s t e) as [s1| |] eqn:E; try discriminate.
    exact (IH s1 s' _ K (step_oinv s t e s1 O Io E) (step_fin s t e s1 n F0 E) Or R).
Qed.
Lemma no_deadlock s n : Inv s -> OInv s -> Fin n s -> forall k t, (forall l h f, entering (threads s t) = Some (l, h, f) -> n - l < k) ->
  exists u, chain s t u /\ goes_on s u.
Proof.
  intros I0 O F0. induction k as [|k IH]; intros t B.
  - destruct (entering (threads s t)) as [[[l h] f]|] eqn:E; [specialize (B l h f eq_refl); lia|].
    exists t. split; [constructor|]. unfold goes_on. rewrite E. exact Logic.I.
  - destruct (entering (threads s t)) as [[[l h] f]|] eqn:E.
    2:{ exists t. split; [constructor|]. unfold goes_on. rewrite E. exact Logic.I. }
    destruct (attempt_cases s t l h f I0 E) as [G|[(u & h' & N & Iu & Nc)|[Nm [h' It]]]].
    + exists t. split; [constructor|]. exact (proj1 (attempt_entering s t l h f E G)).
    + assert (W : waits_for s t u). { split; [congruence|]. exists l, h, f, h'. auto. }
      destruct (entering (threads s u)) as [[[l2 h2] f2]|] eqn:Eu.
      2:{ exists u. split; [apply (chain_next s t u u W); constructor|]. unfold goes_on. rewrite Eu. exact Logic.I. }
      destruct (O u l2 h2 f2 Eu) as [[-> Im]|As].
      * (* a mutex that it has already *)
        exists u. split; [apply (chain_next s t u u W); constructor|]. destruct (attempt_cases s u l2 Mx f2 I0 Eu) as [G|[(v & h3 & Nv & Iv & Nc3)|[X _]]].
        -- exact (proj1 (attempt_entering s u l2 Mx f2 Eu G)).
        -- exfalso. destruct (exclusion s u v l2 Mx h3 I0 (not_eq_sym Nv) Im Iv) as [Q _]. discriminate Q.
        -- destruct (X eq_refl).
      * destruct (IH u) as (v & Cv & Gv).
        { intros l3 h3 f3 Q. rewrite Eu in Q. injection Q as <- <- <-. specialize (As l h' Iu). pose proof (B l h f eq_refl). pose proof (F0 u l2 h2 f2 Eu). lia. }
        exists v. split; [exact (chain_next s t u v W Cv)|exact Gv].
    + destruct (O t l h f E) as [[Q _]|As]; [destruct (Nm Q)|]. specialize (As l h' It). lia.
Qed.

(* ---- a thread that waits for itself ---- *)
Lemma self_stuck s t l h h' again y : Inv s -> in_scope s t l h' -> h <> Mx -> ~ compatible h h' -> call_lock t again h (locks s l) = Got y -> False.
Proof.
  intros [IL _ _] It Nm Nc G. apply in_scope_held in It. specialize (IL l). unfold LInv in IL. destruct h; [destruct (Nm eq_refl)| |]; cbn [call_lock] in G.
  - destruct (locks s l) as [|u d|[w|] r]; cbn [read_lock] in G; try discriminate; [destruct (Nat.eqb w t); discriminate|].
    destruct (IL t) as (A & B & _). destruct h'; try lia. destruct Nc. split; reflexivity.
  - destruct (locks s l) as [|u d|[w|] [|v r]]; cbn [write_lock] in G; try discriminate; try (destruct (Nat.eqb w t); discriminate).
    destruct (IL t) as (A & B & D0). cbn [count] in D0. destruct h'; lia.
Qed.
Lemma stuck_step s t l h h' u e s' : Inv s -> in_scope s t l h' -> h <> Mx -> ~ compatible h h' -> entering (threads s t) = Some (l, h, true) ->
  step s u e = Next s' -> in_scope s' t l h' /\ entering (threads s' t) = Some (l, h, true).
Proof.
  intros I0 It Nm Nc E St. destruct (Nat.eq_dec u t) as [->|N].
  - destruct e as [l0 h0 f0|again|]; cbn [step] in St; rewrite E in St; try discriminate.
    destruct (call_lock t again h (locks s l)) as [y| |] eqn:G.
    + destruct (self_stuck s t l h h' again y I0 It Nm Nc G).
    + injection St as <-. split; assumption.
    + injection St as <-. split; assumption.
  - assert (K : threads s' t = threads s t).
    { destruct e as [l0 h0 f0|again|]; cbn [step] in St.
      - destruct (entering (threads s u)); [discriminate|]. destruct (Bool.eqb _ _); [|discriminate]. injection St as <-. cbn. apply upd_other. congruence.
      - destruct (entering (threads s u)) as [[[l0 h0] f0]|]; [|discriminate]. destruct (call_lock u again h0 (locks s l0)); [|destruct f0|]; injection St as <-; try reflexivity; cbn; apply upd_other; congruence.
      - destruct (entering (threads s u)); [discriminate|]. destruct (scopes (threads s u)) as [|o r]; [discriminate|].
        destruct (s_locked o); [destruct (unlock u _); [|discriminate]|]; injection St as <-; cbn; apply upd_other; congruence. }
    unfold in_scope in *. rewrite K. split; assumption.
Qed.
Lemma stuck_run tr : forall s t l h h' s', Inv s -> in_scope s t l h' -> h <> Mx -> ~ compatible h h' -> entering (threads s t) = Some (l, h, true) ->
  run s tr = Next s' -> entering (threads s' t) = Some (l, h, true).
Proof.
  induction tr as [|[u e] tr IH]; intros s t l h h' s' I0 It Nm Nc E R; cbn [run] in R; [injection R as <-; exact E|].
  pose proof (step_inv s u e I0) as K. destruct (step s u e) as [s1| |] eqn:St; try discriminate.
  destruct (stuck_step s t l h h' u e s1 I0 It Nm Nc E St) as [It1 E1]. exact (IH s1 t l h h' s' K It1 Nm Nc E1 R).
Qed.

(* ---- what a constructor does when the lock is taken ---- *)
Lemma waits_for_other s t u l h h' f again : Inv s -> entering (threads s t) = Some (l, h, f) -> u <> t -> in_scope s u l h' -> ~ compatible h h' ->
  step s t (Attempt again) = Next s.
Proof.
  intros [IL IE _] E N A Nc. cbn [step]. rewrite E. apply in_scope_held in A. specialize (IE t l h f E). specialize (IL l). unfold LInv, kind_ok in *.
  assert (K : call_lock t again h (locks s l) = Blocks); [|rewrite K; reflexivity].
  destruct (locks s l) as [|w d|[w|] r].
  - rewrite IL in A. lia.
  - destruct IL as (_ & _ & C0 & D0). destruct (D0 u) as [D1 D2]. assert (u = w) as ->.
    { destruct (Nat.eq_dec u w) as [Q|Q]; [exact Q|]. specialize (C0 u Q). destruct h'; lia. }
    destruct h; try discriminate IE. cbn. destruct (Nat.eqb_spec w t); [contradiction|reflexivity].
  - destruct IL as (_ & _ & C0 & D0). destruct (D0 u) as [D1 D2]. assert (u = w) as ->.
    { destruct (Nat.eq_dec u w) as [Q|Q]; [exact Q|]. specialize (C0 u Q). destruct h'; lia. }
    destruct h; try discriminate IE; cbn; destruct (Nat.eqb_spec w t); congruence.
  - destruct (IL u) as (D1 & D2 & D3). destruct h'; try lia. destruct h; try discriminate IE.
    + exfalso. apply Nc. split; reflexivity.
    + destruct r as [|v r]; [cbn in D3; lia|reflexivity].
Qed.
Lemma own_write s t l h : Inv s -> entering (threads s t) = Some (l, h, false) -> in_scope s t l Wr ->
  forall again, exists s', step s t (Attempt again) = Next s' /\ locks s' = locks s /\ entering (threads s' t) = None /\
  scopes (threads s' t) = Scope l h false false :: scopes (threads s t).
Proof.
  intros [IL IE _] E A again. cbn [step]. rewrite E. apply in_scope_held in A. specialize (IE t l h false E). specialize (IL l). unfold LInv, kind_ok in *.
  assert (K : call_lock t again h (locks s l) = Error).
  { destruct (locks s l) as [|w d|[w|] r].
    - rewrite IL in A. lia.
    - destruct IL as (_ & _ & _ & D0). destruct (D0 t). lia.
    - destruct IL as (_ & _ & C0 & _). assert (t = w) as <-.
      { destruct (Nat.eq_dec t w) as [Q|Q]; [exact Q|]. specialize (C0 t Q). lia. }
      destruct h; try discriminate IE; cbn; rewrite Nat.eqb_refl; reflexivity.
    - destruct (IL t) as (D1 & D2 & D3). lia. }
  rewrite K. eexists. split; [reflexivity|]. cbn [set_thread locks threads]. rewrite upd_same. repeat split.
Qed.
