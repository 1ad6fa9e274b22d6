From Verif Require Import Base Text ATreeModel ATreeSpec ATreeProofs ATreeProofs2.
From Coq Require Import Permutation.
From Verif Require Conc.

Lemma remove_first_in p l c : NoDup l -> (In c (remove_first p l) <-> In c l /\ c <> p).
Proof.
  induction l as [|x l IH]; cbn; intros N; [tauto|]. inversion N; subst. destruct (Nat.eqb_spec x p) as [->|D].
  - split; [intros I; split; [now right|congruence]|intros [[->|I] Q]; [congruence|exact I]].
  - cbn. rewrite IH by assumption. split; [intros [->|[I Q]]; auto|intros [[->|I] Q]; auto].
Qed.
Lemma remove_first_nodup p l : NoDup l -> NoDup (remove_first p l).
Proof.
  induction l as [|x l IH]; cbn; intros N; [constructor|]. inversion N; subst. destruct (Nat.eqb_spec x p); [assumption|].
  constructor; [|auto]. rewrite remove_first_in by assumption. tauto.
Qed.
Lemma not_own_parent h p : forest h -> ~ parent_of h p p.
Proof.
  intros F P. destruct (live_depth h p F) as [k D]; [exact (f_parents _ F _ _ P)|].
  pose proof (depth_fun _ _ _ _ D (dS _ _ _ _ P D)). lia.
Qed.
Lemma below_parent_of h t c p : below h t p -> parent_of h c p -> below h t c.
Proof. intros B P. econstructor; eassumption. Qed.
Lemma below_not_above h c p : forest h -> parent_of h c p -> ~ below h c p.
Proof.
  intros F P B. destruct (live_depth h p F (f_parents _ F _ _ P)) as [k D].
  pose proof (below_depth _ _ _ _ _ B (dS _ _ _ _ P D) D). lia.
Qed.

(* ---- unlink ---- *)
Lemma unlink_effect h p n : forest h -> cell h p = Some n ->
  match parent n with
  | None => unlink h p = Done h
  | Some q => exists m, cell h q = Some m /\ In p (subs m) /\ p <> q /\
      unlink h p = Done (put (put h q (set_changed true (set_subs (remove_first p (subs m)) m))) p (set_parent None n))
  end.
Proof.
  intros F E. unfold unlink, deref. rewrite E. cbn [obind]. destruct (parent n) as [q|] eqn:P; [|reflexivity].
  assert (PO : parent_of h p q) by (exists n; auto).
  destruct (proj1 (live_ex h q) (f_parents _ F _ _ PO)) as [m Em]. exists m. destruct (f_lists _ F _ _ Em) as [_ L].
  assert (I : In p (subs m)) by now apply L. assert (N : p <> q) by (intros ->; exact (not_own_parent _ _ F PO)).
  split; [exact Em|]. split; [exact I|]. split; [exact N|]. rewrite Em. cbn [obind]. destruct (subs m) as [|x r] eqn:S; [easy|].
  rewrite (update_done _ _ _ m Em). cbn [obind]. rewrite S. apply update_done. now rewrite put_other.
Qed.
Lemma unlink_forest h p h' : forest h -> unlink h p = Done h' -> forest h'.
Proof.
  intros F U. destruct (cell h p) as [n|] eqn:E; [|unfold unlink, deref in U; rewrite E in U; discriminate].
  pose proof (unlink_effect h p n F E) as X. destruct (parent n) as [q|] eqn:P; [|congruence].
  destruct X as (m & Em & I & N & X). rewrite U in X. inversion X. clear X U. subst h'.
  assert (C : forall x, cell (put (put h q (set_changed true (set_subs (remove_first p (subs m)) m))) p (set_parent None n)) x =
    if x =? p then Some (set_parent None n) else if x =? q then Some (set_changed true (set_subs (remove_first p (subs m)) m)) else cell h x).
  { intros x. now rewrite !cell_put. }
  set (h' := put (put h q (set_changed true (set_subs (remove_first p (subs m)) m))) p (set_parent None n)) in *.
  assert (PO : forall c x, parent_of h' c x <-> parent_of h c x /\ c <> p).
  { intros c x. unfold parent_of. rewrite C. destruct (Nat.eqb_spec c p) as [->|D].
    - split; [intros (k & A & B); inversion A; subst; discriminate|intros [_ A]; congruence].
    - destruct (Nat.eqb_spec c q) as [->|D2].
      + split; [intros (k & A & B); inversion A; subst k; cbn in B; split; [eauto|exact D]|intros [(k & A & B) _]].
        eexists. split; [reflexivity|]. cbn. congruence.
      + split; [intros A; split; [exact A|exact D]|intros [A _]; exact A]. }
  assert (LV : forall x, live h' x <-> live h x).
  { intros x. unfold live. rewrite C. destruct (Nat.eqb_spec x p) as [->|]; [rewrite E; split; congruence|].
    destruct (Nat.eqb_spec x q) as [->|]; [rewrite Em; split; congruence|reflexivity]. }
  assert (RP : is_root h' p).
  { exists (set_parent None n). split; [rewrite C, Nat.eqb_refl; reflexivity|reflexivity]. }
  constructor.
  - intros x L. apply LV in L. exact (f_fresh _ F x L).
  - intros x k. rewrite C. destruct (Nat.eqb_spec x p) as [->|D].
    + intros A. inversion A. subst k. cbn [subs set_parent]. destruct (f_lists _ F _ _ E) as [ND L]. split; [exact ND|]. intros c.
      rewrite PO, L. split; [|tauto]. intros B. split; [exact B|]. intros ->. exact (not_own_parent _ _ F B).
    + destruct (Nat.eqb_spec x q) as [->|D2].
      * intros A. inversion A. subst k. cbn [subs set_changed set_subs]. destruct (f_lists _ F _ _ Em) as [ND L].
        split; [now apply remove_first_nodup|]. intros c. rewrite remove_first_in, PO, L by exact ND. reflexivity.
      * intros A. destruct (f_lists _ F _ _ A) as [ND L]. split; [exact ND|]. intros c. rewrite PO, L. split; [|tauto].
        intros B. split; [exact B|]. intros ->. destruct B as (k' & B1 & B2). congruence.
  - intros c x A. apply LV. apply PO in A. exact (f_parents _ F _ _ (proj1 A)).
  - intros x L. apply LV in L. pose proof (f_rooted _ F x L) as R. clear L. induction R as [x R|c x Pc R IH].
    + constructor. destruct R as (k & A & B). destruct (Nat.eq_dec x p) as [->|D]; [exact RP|].
      unfold is_root. rewrite C. destruct (Nat.eqb_spec x p); [congruence|]. destruct (Nat.eqb_spec x q) as [->|]; [|eauto].
      eexists. split; [reflexivity|]. cbn. congruence.
    + destruct (Nat.eq_dec c p) as [->|D]; [constructor; exact RP|]. apply below_parent with x; [|exact IH]. apply PO. now split.
Qed.

(* ---- delete ---- *)
Lemma reparent h par t q n : repr h par t -> NoDup (ids t) -> cell h (tid t) = Some n -> repr (put h (tid t) (set_parent q n)) q t.
Proof.
  destruct t as [i d a ch l]. rewrite ids_eq, !repr_eq. intros [E S] N En. cbn [tid] in *. rewrite E in En. inversion En. subst n.
  inversion N; subst. split; [now rewrite put_same|]. rewrite Forall_forall in *. intros y I. apply repr_ext with h; [|auto].
  intros x J. apply put_other. intros ->. apply H1. apply in_flat_map. eauto.
Qed.
Definition pruned (h h' : heap) (par : option nat) (t : tree) : Prop :=
  next h' = next h /\ (forall x, In x (ids t) -> cell h' x = None) /\
  (forall x, ~ In x (ids t) -> par <> Some x -> cell h' x = cell h x) /\
  (forall q, par = Some q -> exists m, cell h q = Some m /\ cell h' q = Some (set_changed true (set_subs (remove_first (tid t) (subs m)) m))).
Lemma delete_effect t : forall h par fuel, repr h par t -> NoDup (ids t) -> height t <= fuel ->
  (forall q, par = Some q -> ~ In q (ids t) /\ exists m, cell h q = Some m /\ subs m <> []) ->
  exists h', delete_tree fuel h (tid t) = Done h' /\ pruned h h' par t.
Proof.
  induction t as [i d a ch l IH] using tree_ind'. intros h par [|f] R N HF Q; [cbn in HF; lia|].
  cbn [height] in HF. apply le_S_n in HF. pose proof (proj1 (repr_eq h par i d a ch l) R) as [E S]. rewrite ids_eq in N. inversion N as [|? ? N0 N1]; subst.
  cbn [delete_tree tid]. unfold deref at 1. rewrite E. cbn [obind subs].
  assert (X : forall m g, (forall y, In y m -> In y l) -> NoDup (flat_map ids m) -> next g = next h ->
     (forall y, In y m -> repr g (Some i) y) ->
     exists g', ofold (fun g c => let* g1 := update g c (set_parent None) in delete_tree f g1 c) (map tid m) g = Done g' /\
       next g' = next h /\ (forall x, In x (flat_map ids m) -> cell g' x = None) /\ (forall x, ~ In x (flat_map ids m) -> cell g' x = cell g x)).
  { induction m as [|y m IHm]; intros g SS ND NG RG; [exists g; repeat split; auto; easy|].
    cbn [map ofold flat_map] in *. apply nodup_app_iff in ND. destruct ND as (NDy & NDm & DJ).
    assert (Ry := RG y (or_introl eq_refl)). pose proof (repr_cell _ _ _ Ry) as Ey. rewrite (update_done _ _ _ _ Ey). cbn [obind].
    assert (Il : In y l) by (apply SS; now left). rewrite Forall_forall in IH.
    assert (R1 := reparent g (Some i) y None _ Ry NDy Ey).
    set (g1 := put g (tid y) _) in *.
    destruct (IH y Il g1 None f R1 NDy) as (g2 & E2 & P1 & P2 & P3 & _); [|easy|].
    { clear - HF Il. induction l as [|z l IHl]; [easy|]. cbn [fold_right] in HF. destruct Il as [->|I]; [lia|]. apply IHl; [lia|exact I]. }
    rewrite E2. cbn [obind].
    assert (K : forall x, ~ In x (ids y) -> cell g2 x = cell g x).
    { intros x NI. rewrite P3; [|exact NI|discriminate]. unfold g1. apply put_other. intros ->. apply NI, id_in. }
    destruct (IHm g2) as (g' & E' & A & B & D).
    - intros z Iz. apply SS. now right.
    - exact NDm.
    - rewrite P1. exact NG.
    - intros z Iz. apply repr_ext with g; [|apply RG; now right]. intros x Ix. apply K. intros J. apply (DJ x J). apply in_flat_map. eauto.
    - exists g'. split; [exact E'|]. split; [exact A|]. split.
      + intros x Ix. destruct (in_dec Nat.eq_dec x (flat_map ids m)) as [J|J]; [auto|]. rewrite D by exact J.
        apply in_app_or in Ix. destruct Ix as [Ix|Ix]; [auto|contradiction].
      + intros x NI. rewrite D by (intros J; apply NI, in_or_app; now right). apply K. intros J. apply NI, in_or_app. now left. }
  destruct (X l h (fun y I => I) N1 eq_refl) as (g & EG & NG & DG & KG).
  { rewrite Forall_forall in S. exact S. }
  rewrite EG. cbn [obind]. assert (Ei : cell g i = Some (mkN d a ch par (map tid l))) by (rewrite KG by exact N0; exact E).
  rewrite (update_done _ _ _ _ Ei). cbn [obind]. change (set_subs [] (mkN d a ch par (map tid l))) with (mkN d a ch par []).
  set (g1 := put g i (mkN d a ch par [])). assert (E1 : cell g1 i = Some (mkN d a ch par [])) by apply put_same.
  assert (D1 : forall x, In x (flat_map ids l) -> cell g1 x = None).
  { intros x I. unfold g1. rewrite put_other; [auto|]. intros ->. contradiction. }
  unfold unlink. unfold deref at 1. rewrite E1. cbn [obind parent]. destruct par as [q|].
  - destruct (Q q eq_refl) as (NQ & m & Em & Sm). rewrite ids_eq in NQ.
    assert (Nq : q <> i) by (intros ->; apply NQ; now left).
    assert (Eq : cell g1 q = Some m). { unfold g1. rewrite put_other by exact Nq. rewrite KG; [exact Em|]. intros J. apply NQ. now right. }
    unfold deref at 1. rewrite Eq. cbn [obind]. destruct (subs m) as [|s0 sr] eqn:SM; [congruence|].
    rewrite (update_done _ _ _ m Eq). cbn [obind].
    rewrite (update_done _ _ _ (mkN d a ch (Some q) [])) by (rewrite put_other by congruence; exact E1). cbn [obind].
    eexists. split; [reflexivity|]. unfold pruned. split; [exact NG|]. split; [|split].
    + intros x. rewrite ids_eq, cell_free, !cell_put. destruct (Nat.eqb_spec x i) as [->|Di]; [reflexivity|]. intros [<-|I]; [congruence|].
      destruct (Nat.eqb_spec x q) as [->|]; [exfalso; apply NQ; now right|]. auto.
    + intros x NI PX. rewrite ids_eq in NI. rewrite cell_free, !cell_put. destruct (Nat.eqb_spec x i) as [->|Di]; [exfalso; apply NI; now left|].
      destruct (Nat.eqb_spec x q) as [->|]; [congruence|]. unfold g1. rewrite put_other by exact Di. apply KG. intros J. apply NI. now right.
    + intros q' [= <-]. exists m. split; [exact Em|]. rewrite cell_free, !cell_put. destruct (Nat.eqb_spec q i); [congruence|].
      rewrite Nat.eqb_refl. cbn [tid]. reflexivity.
  - cbn [obind]. eexists. split; [reflexivity|]. unfold pruned. split; [exact NG|]. split; [|split].
    + intros x. rewrite ids_eq, cell_free. destruct (Nat.eqb_spec x i) as [->|Di]; [reflexivity|]. intros [<-|I]; [congruence|]. auto.
    + intros x NI _. rewrite ids_eq in NI. rewrite cell_free. destruct (Nat.eqb_spec x i) as [->|Di]; [exfalso; apply NI; now left|].
      unfold g1. rewrite put_other by exact Di. apply KG. intros J. apply NI. now right.
    + discriminate.
Qed.
Lemma prune h h' par t : forest h -> repr h par t -> pruned h h' par t -> forest h'.
Proof.
  intros F R (NX & DE & KE & QE).
  assert (PQ : forall q, par = Some q -> parent_of h (tid t) q).
  { intros q Q. eexists. split; [exact (repr_cell _ _ _ R)|exact Q]. }
  assert (QN : forall q, par = Some q -> ~ In q (ids t)).
  { intros q Q I. apply (ids_below h par t q F R) in I. exact (below_not_above _ _ _ F (PQ q Q) I). }
  assert (C : forall x n', cell h' x = Some n' -> ~ In x (ids t) /\ exists n, cell h x = Some n /\ parent n = parent n' /\
     (subs n' = subs n /\ par <> Some x \/ subs n' = remove_first (tid t) (subs n) /\ par = Some x)).
  { intros x n' E. assert (NI : ~ In x (ids t)) by (intros I; rewrite (DE x I) in E; discriminate). split; [exact NI|].
    assert (Dq : par = Some x \/ par <> Some x) by (destruct par as [q|]; [|right; easy]; destruct (Nat.eq_dec q x); [left|right]; congruence).
    destruct Dq as [Q|Q].
    - destruct (QE x Q) as (m & Em & E'). rewrite E in E'. inversion E'. subst n'. exists m. cbn. auto.
    - rewrite (KE x NI Q) in E. exists n'. auto. }
  assert (C' : forall x n, cell h x = Some n -> ~ In x (ids t) -> exists n', cell h' x = Some n' /\ parent n' = parent n).
  { intros x n E NI.
    assert (Dq : par = Some x \/ par <> Some x) by (destruct par as [q|]; [|right; easy]; destruct (Nat.eq_dec q x); [left|right]; congruence).
    destruct Dq as [Q|Q].
    - destruct (QE x Q) as (m & Em & E'). exists (set_changed true (set_subs (remove_first (tid t) (subs m)) m)). split; [exact E'|]. cbn. congruence.
    - exists n. rewrite (KE x NI Q). auto. }
  assert (PO : forall c x, parent_of h' c x <-> parent_of h c x /\ ~ In c (ids t)).
  { intros c x. split.
    - intros (n' & E & P). destruct (C c n' E) as (NI & n & En & Pn & _). split; [|exact NI]. exists n. split; [exact En|congruence].
    - intros ((n & E & P) & NI). destruct (C' c n E NI) as (n' & E' & P'). exists n'. split; [exact E'|congruence]. }
  assert (UP : forall c x, parent_of h c x -> ~ In c (ids t) -> ~ In x (ids t)).
  { intros c x P NI I. apply NI. apply (ids_below h par t c F R). apply below_parent_of with x; [|exact P].
    now apply (ids_below h par t x F R). }
  constructor.
  - intros p L. apply live_ex in L. destruct L as [n' E]. destruct (C p n' E) as (_ & n & En & _). rewrite NX. apply (f_fresh _ F), live_ex. eauto.
  - intros p n' E. destruct (C p n' E) as (NI & n & En & _ & S). destruct (f_lists _ F _ _ En) as [ND L].
    destruct S as [[S Q]|[S Q]]; rewrite S.
    + split; [exact ND|]. intros c. rewrite PO, L. split; [|tauto]. intros P. split; [exact P|]. intros I.
      destruct (repr_parent _ _ _ _ R I) as [->|(y & Iy & _ & Py)].
      * destruct P as (k & Ek & Pk). pose proof (repr_cell _ _ _ R) as Et. rewrite Et in Ek. inversion Ek. subst k. cbn in Pk. contradiction.
      * rewrite (parent_fun _ _ _ _ P Py) in NI. apply NI. now apply in_map.
    + split; [now apply remove_first_nodup|]. intros c. rewrite remove_first_in, PO, L by exact ND. split.
      * intros [P D]. split; [exact P|]. intros I. destruct (repr_parent _ _ _ _ R I) as [->|(y & Iy & _ & Py)]; [congruence|].
        rewrite (parent_fun _ _ _ _ P Py) in NI. apply NI. now apply in_map.
      * intros [P NC]. split; [exact P|]. intros ->. apply NC, id_in.
  - intros c p P. apply PO in P. destruct P as [P NC]. pose proof (f_parents _ F _ _ P) as L. apply live_ex in L. destruct L as [n E].
    apply live_ex. destruct (C' p n E (UP _ _ P NC)) as (n' & E' & _). eauto.
  - intros p L. apply live_ex in L. destruct L as [n' E]. destruct (C p n' E) as (NI & n & En & _ & _).
    assert (RH : rooted h p) by (apply (f_rooted _ F), live_ex; eauto). clear - RH NI UP PO C'. induction RH as [p RH|c p P RH IH].
    + constructor. destruct RH as (n & E & P). destruct (C' p n E NI) as (n' & E' & P'). exists n'. split; [exact E'|congruence].
    + apply below_parent with p; [apply PO; now split|]. apply IH. exact (UP _ _ P NI).
Qed.
Lemma delete_ok h p n fuel : forest h -> cell h p = Some n -> next h <= fuel ->
  exists t h', repr h (parent n) t /\ tid t = p /\ delete_tree fuel h p = Done h' /\ pruned h h' (parent n) t /\ forest h'.
Proof.
  intros F E L. destruct (tree_at h p n F E) as (t & R & <-). exists t.
  destruct (delete_effect t h (parent n) fuel R (ids_nodup _ _ _ F R)) as (h' & D & P).
  - pose proof (height_bound _ _ _ F R). lia.
  - intros q Q. assert (PO : parent_of h (tid t) q) by (exists n; auto). split.
    + intros I. apply (ids_below h _ t q F R) in I. exact (below_not_above _ _ _ F PO I).
    + destruct (proj1 (live_ex h q) (f_parents _ F _ _ PO)) as [m Em]. exists m. split; [exact Em|].
      destruct (f_lists _ F _ _ Em) as [_ LL]. apply LL in PO. intros Z. rewrite Z in PO. easy.
  - exists h'. split; [exact R|]. split; [reflexivity|]. split; [exact D|]. split; [exact P|]. exact (prune _ _ _ _ F R P).
Qed.
