From Verif Require Import Base Text ATreeModel ATreeSpec ATreeProofs.
From Coq Require Import Permutation.
From Verif Require Conc.

Arguments put : simpl never.
Arguments free : simpl never.
Lemma put_same h p n : cell (put h p n) p = Some n.
Proof. rewrite cell_put, Nat.eqb_refl. reflexivity. Qed.
Lemma put_other h p n q : q <> p -> cell (put h p n) q = cell h q.
Proof. intros N. rewrite cell_put. destruct (Nat.eqb_spec q p); congruence. Qed.

Lemma nodup_app_iff {A} (l m : list A) : NoDup (l ++ m) <-> NoDup l /\ NoDup m /\ forall x, In x l -> ~ In x m.
Proof.
  induction l as [|a l IH]; cbn.
  - split; [intros H; split; [constructor|]; split; [exact H|easy]|easy].
  - rewrite !NoDup_cons_iff, IH, in_app_iff. split.
    + intros (N & Nl & Nm & D). split; [split; [tauto|exact Nl]|]. split; [exact Nm|]. intros x [<-|I]; [tauto|auto].
    + intros ((N & Nl) & Nm & D). split; [intros [I|I]; [auto|exact (D a (or_introl eq_refl) I)]|]. auto.
Qed.

(* ---- no change of the links ---- *)
Definition same_links (h h' : heap) : Prop :=
  next h <= next h' /\
  forall p, match cell h p, cell h' p with
            | None, None => True
            | Some n, Some n' => parent n = parent n' /\ Permutation (subs n) (subs n')
            | _, _ => False
            end.
Lemma same_links_refl h : same_links h h.
Proof. split; [lia|]. intros p. destruct (cell h p); [split; reflexivity|exact I]. Qed.
Lemma same_links_trans a b c : same_links a b -> same_links b c -> same_links a c.
Proof.
  intros [A A'] [B B']. split; [lia|]. intros p. specialize (A' p). specialize (B' p).
  destruct (cell a p), (cell b p), (cell c p); try easy. destruct A', B'. split; [congruence|]. etransitivity; eassumption.
Qed.
Lemma same_links_parent h h' c p : same_links h h' -> (parent_of h' c p <-> parent_of h c p).
Proof.
  intros [_ S]. unfold parent_of. specialize (S c). split; intros (n & E & P); rewrite E in S.
  - destruct (cell h c) as [n'|]; [|easy]. exists n'. split; [reflexivity|]. destruct S. congruence.
  - destruct (cell h' c) as [n'|]; [|easy]. exists n'. split; [reflexivity|]. destruct S. congruence.
Qed.
Lemma same_links_live h h' p : same_links h h' -> (live h' p <-> live h p).
Proof. intros [_ S]. unfold live. specialize (S p). destruct (cell h p), (cell h' p); try easy; split; congruence. Qed.
Lemma same_links_root h h' p : same_links h h' -> is_root h p -> is_root h' p.
Proof.
  intros [_ S] (n & E & P). specialize (S p). rewrite E in S. destruct (cell h' p) as [n'|] eqn:E'; [|easy]. exists n'. destruct S.
  split; [exact E'|congruence].
Qed.
Lemma rooted_mono h h' p : (forall x, is_root h x -> is_root h' x) -> (forall c x, parent_of h c x -> parent_of h' c x) -> rooted h p -> rooted h' p.
Proof. intros A B R. induction R; [constructor; auto|]. eapply below_parent; eauto. Qed.
Lemma forest_links h h' : same_links h h' -> forest h -> forest h'.
Proof.
  intros S F. constructor.
  - intros p L. apply (same_links_live _ _ _ S) in L. pose proof (f_fresh _ F p L). destruct S. lia.
  - intros p n E. pose proof (proj2 S p) as SP. rewrite E in SP. destruct (cell h p) as [m|] eqn:Em; [|easy]. destruct SP as [P Q].
    destruct (f_lists _ F _ _ Em) as [N L]. split; [exact (Permutation_NoDup Q N)|]. intros c.
    rewrite (same_links_parent _ _ _ _ S), <- L. split; intros I; [exact (Permutation_in _ (Permutation_sym Q) I)|exact (Permutation_in _ Q I)].
  - intros c p P. apply (same_links_live _ _ _ S). apply (same_links_parent _ _ _ _ S) in P. exact (f_parents _ F _ _ P).
  - intros p L. apply (same_links_live _ _ _ S) in L. apply (rooted_mono h); [|..|exact (f_rooted _ F p L)].
    + intros x. now apply same_links_root.
    + intros c x. now apply same_links_parent.
Qed.
Lemma put_links h p n n' : cell h p = Some n -> parent n' = parent n -> Permutation (subs n) (subs n') -> same_links h (put h p n').
Proof.
  intros E P Q. split; [rewrite next_put; lia|]. intros x. rewrite cell_put. destruct (Nat.eqb_spec x p) as [->|N].
  - rewrite E. split; [congruence|exact Q].
  - destruct (cell h x); [split; reflexivity|exact I].
Qed.

(* ---- parents inside a tree ---- *)
Lemma nodes_sub t y z : In y (nodes t) -> In z (tsubs y) -> In z (nodes t).
Proof.
  revert y z. induction t as [i d a ch l IH] using tree_ind'. intros y z. rewrite nodes_eq. intros [<-|I] J.
  - right. apply in_flat_map. exists z. split; [exact J|]. destruct z. rewrite nodes_eq. now left.
  - right. apply in_flat_map in I. destruct I as (w & Iw & I). rewrite Forall_forall in IH. apply in_flat_map. exists w. split; [exact Iw|].
    exact (IH w Iw y z I J).
Qed.
Lemma node_parent t x : In x (nodes t) -> x = t \/ exists y, In y (nodes t) /\ In x (tsubs y).
Proof.
  induction t as [i d a ch l IH] using tree_ind'. rewrite nodes_eq. intros [<-|I]; [now left|]. right.
  apply in_flat_map in I. destruct I as (w & Iw & I). rewrite Forall_forall in IH. destruct (IH w Iw I) as [->|(y & Iy & J)].
  - exists (T i d a ch l). split; [now left|exact Iw].
  - exists y. split; [|exact J]. right. apply in_flat_map. eauto.
Qed.
Lemma repr_parent h par t x : repr h par t -> In x (ids t) ->
  (x = tid t) \/ exists y, In y (nodes t) /\ In x (map tid (tsubs y)) /\ parent_of h x (tid y).
Proof.
  intros R I. destruct (ids_nodes _ _ I) as (z & Iz & <-). destruct (node_parent _ _ Iz) as [->|(y & Iy & J)]; [now left|]. right.
  exists y. split; [exact Iy|]. split; [now apply in_map|]. destruct (repr_node _ _ _ _ R Iy) as [q Q].
  pose proof (repr_subs _ _ _ Q) as S. rewrite Forall_forall in S. exists (mkN (tdesc z) (tattr z) (tchanged z) (Some (tid y)) (map tid (tsubs z))).
  split; [exact (repr_cell _ _ _ (S z J))|reflexivity].
Qed.
Lemma ids_sub i d a ch l y x : In y l -> In x (ids y) -> In x (ids (T i d a ch l)).
Proof. intros I J. rewrite ids_eq. right. apply in_flat_map. eauto. Qed.
Lemma nodup_subs t y : NoDup (ids t) -> In y (nodes t) -> NoDup (map tid (tsubs y)).
Proof.
  revert y. induction t as [i d a ch l IH] using tree_ind'. intros y N. rewrite ids_eq in N. inversion N as [|? ? N0 N1]; subst.
  rewrite nodes_eq. intros [<-|I].
  - cbn [tsubs]. clear - N1. induction l as [|z l IHl]; [constructor|]. cbn [flat_map] in N1. apply nodup_app_iff in N1.
    destruct N1 as (A & B & D). cbn. constructor; [|auto]. intros J. apply in_map_iff in J. destruct J as (w & E & J).
    apply (D (tid z) (id_in z)). apply in_flat_map. exists w. split; [exact J|]. rewrite <- E. apply id_in.
  - apply in_flat_map in I. destruct I as (w & Iw & I). rewrite Forall_forall in IH. apply (IH w Iw); [|exact I].
    clear - N1 Iw. induction l as [|z l IHl]; [easy|]. cbn [flat_map] in N1. apply nodup_app_iff in N1. destruct N1 as (A & B & _).
    destruct Iw as [->|Iw]; auto.
Qed.

(* ---- a new tree in the heap ---- *)
Lemma graft h h' q t :
  forest h -> next h <= next h' -> NoDup (ids t) -> (forall x, In x (ids t) -> next h <= x < next h') -> repr h' q t ->
  (forall p, ~ In p (ids t) -> q <> Some p -> cell h' p = cell h p) ->
  (forall p, q = Some p -> exists n n', cell h p = Some n /\ cell h' p = Some n' /\ parent n' = parent n /\ subs n' = tid t :: subs n) ->
  forest h'.
Proof.
  intros F NX ND FR R SM QQ.
  assert (OLD : forall p n, cell h p = Some n -> exists n', cell h' p = Some n' /\ parent n' = parent n /\ (subs n' = subs n /\ q <> Some p \/ subs n' = tid t :: subs n /\ q = Some p)).
  { intros p n E. assert (L : p < next h) by (apply (f_fresh _ F); apply live_ex; eauto).
    assert (NI : ~ In p (ids t)) by (intros I; specialize (FR p I); lia).
    assert (Dq : q = Some p \/ q <> Some p) by (destruct q as [q|]; [|right; easy]; destruct (Nat.eq_dec q p); [left|right]; congruence).
    destruct Dq as [Q|Q].
    - destruct (QQ p Q) as (n0 & n' & E0 & E' & P & S). rewrite E in E0. inversion E0. subst n0. exists n'. auto.
    - exists n. rewrite (SM p NI Q). auto. }
  assert (NEW : forall p n', cell h' p = Some n' -> In p (ids t) \/ exists n, cell h p = Some n).
  { intros p n' E. destruct (in_dec Nat.eq_dec p (ids t)) as [I|NI]; [now left|]. right.
    assert (Dq : q = Some p \/ q <> Some p) by (destruct q as [q|]; [|right; easy]; destruct (Nat.eq_dec q p); [left|right]; congruence).
    destruct Dq as [Q|Q]; [destruct (QQ p Q) as (n0 & _ & E0 & _); eauto|]. rewrite (SM p NI Q) in E. eauto. }
  assert (PO : forall c p, parent_of h c p -> parent_of h' c p).
  { intros c p (n & E & P). destruct (OLD c n E) as (n' & E' & P' & _). exists n'. split; [exact E'|congruence]. }
  assert (PN : forall c p, parent_of h' c p -> In c (ids t) \/ parent_of h c p).
  { intros c p (n' & E & P). destruct (NEW c n' E) as [I|(n & En)]; [now left|]. right. destruct (OLD c n En) as (n0 & E' & P' & _).
    exists n. split; [exact En|congruence]. }
  assert (QL : forall p, q = Some p -> p < next h).
  { intros p Q. destruct (QQ p Q) as (n & _ & E & _). apply (f_fresh _ F), live_ex. eauto. }
  assert (RP : forall p, q = Some p -> parent_of h' (tid t) p).
  { intros p Q. pose proof (repr_cell _ _ _ R) as E. eexists. split; [exact E|exact Q]. }
  assert (RT : rooted h' (tid t)).
  { destruct q as [p|] eqn:Q.
    - apply below_parent with p; [auto|]. destruct (QQ p eq_refl) as (n & n' & E & _). apply (rooted_mono h).
      + intros x (m & Em & Pm). destruct (OLD x m Em) as (m' & Em' & Pm' & _). exists m'. split; [exact Em'|congruence].
      + exact PO.
      + apply (f_rooted _ F), live_ex. eauto.
    - constructor. pose proof (repr_cell _ _ _ R) as E. eexists. split; [exact E|reflexivity]. }
  constructor.
  - intros p L. apply live_ex in L. destruct L as [n' E]. destruct (NEW p n' E) as [I|(n & En)]; [specialize (FR p I); lia|].
    assert (p < next h) by (apply (f_fresh _ F), live_ex; eauto). lia.
  - intros p n' E. destruct (NEW p n' E) as [I|(n & En)].
    + destruct (ids_nodes _ _ I) as (y & Iy & <-). destruct (repr_node _ _ _ _ R Iy) as [qy Ry]. pose proof (repr_cell _ _ _ Ry) as Ey.
      rewrite E in Ey. inversion Ey. subst n'. cbn [subs]. split; [exact (nodup_subs _ _ ND Iy)|]. intros c. split.
      * intros J. apply in_map_iff in J. destruct J as (z & <- & J). pose proof (repr_subs _ _ _ Ry) as S. rewrite Forall_forall in S.
        eexists. split; [exact (repr_cell _ _ _ (S z J))|reflexivity].
      * intros P. destruct (PN _ _ P) as [Ic|Po].
        -- destruct (repr_parent _ _ _ _ R Ic) as [->|(w & Iw & Jw & Pw)].
           ++ exfalso. destruct P as (m & Em & Pm). pose proof (repr_cell _ _ _ R) as Et. rewrite Et in Em. inversion Em. subst m. cbn in Pm.
              specialize (QL _ Pm). specialize (FR _ I). lia.
           ++ pose proof (parent_fun _ _ _ _ P Pw) as EQ. destruct (repr_node _ _ _ _ R Iw) as [qw Rw].
              destruct (repr_unique _ _ _ _ _ Ry Rw EQ) as [-> _]. exact Jw.
        -- exfalso. pose proof (f_fresh _ F _ (f_parents _ F _ _ Po)). specialize (FR _ I). lia.
    + destruct (OLD p n En) as (n0 & E0 & _ & S). rewrite E in E0. inversion E0. subst n0. destruct (f_lists _ F _ _ En) as [N L].
      assert (NT : ~ In (tid t) (subs n)).
      { intros J. apply L in J. destruct J as (m & Em & _). assert (tid t < next h) by (apply (f_fresh _ F), live_ex; eauto).
        specialize (FR _ (id_in t)). lia. }
      destruct S as [[S Q]|[S Q]]; rewrite S.
      * split; [exact N|]. intros c. rewrite L. split; [apply PO|]. intros P. destruct (PN _ _ P) as [Ic|Po]; [|exact Po]. exfalso.
        assert (Lp : p < next h) by (apply (f_fresh _ F), live_ex; eauto).
        destruct (repr_parent _ _ _ _ R Ic) as [->|(w & Iw & Jw & Pw)].
        -- destruct P as (m & Em & Pm). pose proof (repr_cell _ _ _ R) as Et. rewrite Et in Em. inversion Em. subst m. cbn in Pm. contradiction.
        -- pose proof (parent_fun _ _ _ _ P Pw) as EQ. assert (In p (ids t)) by (rewrite EQ; now apply in_map). specialize (FR _ H). lia.
      * split; [constructor; assumption|]. intros c. cbn [In]. rewrite L. split.
        -- intros [<-|P]; [auto|auto].
        -- intros P. destruct (PN _ _ P) as [Ic|Po]; [|auto]. left.
           assert (Lp : p < next h) by (apply (f_fresh _ F), live_ex; eauto).
           destruct (repr_parent _ _ _ _ R Ic) as [->|(w & Iw & Jw & Pw)]; [reflexivity|]. exfalso.
           pose proof (parent_fun _ _ _ _ P Pw) as EQ. assert (In p (ids t)) by (rewrite EQ; now apply in_map). specialize (FR _ H). lia.
  - intros c p P. apply live_ex. destruct (PN _ _ P) as [Ic|Po].
    + destruct (repr_parent _ _ _ _ R Ic) as [->|(w & Iw & Jw & Pw)].
      * destruct P as (m & Em & Pm). pose proof (repr_cell _ _ _ R) as Et. rewrite Et in Em. inversion Em. subst m. cbn in Pm.
        destruct (QQ p Pm) as (n & n' & _ & E & _). eauto.
      * rewrite (parent_fun _ _ _ _ P Pw). destruct (repr_node _ _ _ _ R Iw) as [qw Rw]. eexists. exact (repr_cell _ _ _ Rw).
    + pose proof (f_parents _ F _ _ Po) as L. apply live_ex in L. destruct L as [n E]. destruct (OLD p n E) as (n' & E' & _). eauto.
  - intros p L. apply live_ex in L. destruct L as [n' E]. destruct (NEW p n' E) as [I|(n & En)].
    + clear - R RT I. revert RT. generalize R. revert q R I. induction t as [i d a ch l IH] using tree_ind'. intros q R I R0 RT.
      rewrite ids_eq in I. destruct I as [<-|I]; [exact RT|]. apply in_flat_map in I. destruct I as (y & Iy & I). rewrite Forall_forall in IH.
      apply repr_eq in R. destruct R as [E S]. rewrite Forall_forall in S. apply (IH y Iy (Some i) (S y Iy) I (S y Iy)).
      apply below_parent with i; [|exact RT]. eexists. split; [exact (repr_cell _ _ _ (S y Iy))|reflexivity].
    + apply (rooted_mono h).
      * intros x (m & Em & Pm). destruct (OLD x m Em) as (m' & Em' & Pm' & _). exists m'. split; [exact Em'|congruence].
      * exact PO.
      * apply (f_rooted _ F), live_ex. eauto.
Qed.

(* ---- new nodes ---- *)
Lemma new_tree_none h d : new_tree h d None = Done (fst (alloc h (mkN d None false None [])), next h).
Proof. reflexivity. Qed.
Lemma alloc_same h n : cell (fst (alloc h n)) (next h) = Some n.
Proof. rewrite cell_alloc, Nat.eqb_refl. reflexivity. Qed.
Lemma alloc_other h n p : p <> next h -> cell (fst (alloc h n)) p = cell h p.
Proof. rewrite cell_alloc. destruct (Nat.eqb_spec p (next h)); congruence. Qed.
Lemma fresh_cell h : forest h -> cell h (next h) = None.
Proof. intros F. destruct (cell h (next h)) eqn:E; [|reflexivity]. assert (next h < next h) by (apply (f_fresh _ F), live_ex; eauto). lia. Qed.
Definition below_new (h : heap) (d : option str) (q : nat) (m : node) : heap :=
  put (fst (alloc h (mkN d None false (Some q) []))) q (set_subs (next h :: subs m) m).
Lemma new_tree_some h d q m : forest h -> cell h q = Some m -> new_tree h d (Some q) = Done (below_new h d q m, next h).
Proof.
  intros F E. assert (N : q <> next h) by (intros ->; rewrite (fresh_cell h F) in E; discriminate).
  unfold new_tree, below_new. cbn [alloc]. rewrite (update_done _ _ _ m); [reflexivity|]. rewrite <- E.
  exact (alloc_other h (mkN d None false (Some q) []) q N).
Qed.
Lemma below_new_cells h d q m : forest h -> cell h q = Some m ->
  cell (below_new h d q m) q = Some (set_subs (next h :: subs m) m) /\
  cell (below_new h d q m) (next h) = Some (mkN d None false (Some q) []) /\
  (forall p, p <> q -> p <> next h -> cell (below_new h d q m) p = cell h p).
Proof.
  intros F E. assert (N : q <> next h) by (intros ->; rewrite (fresh_cell h F) in E; discriminate).
  unfold below_new. split; [apply put_same|]. split.
  - rewrite put_other by congruence. apply alloc_same.
  - intros p A B. rewrite put_other by congruence. now apply alloc_other.
Qed.
Lemma new_tree_forest h d q h' p : forest h -> (forall x, q = Some x -> live h x) -> new_tree h d q = Done (h', p) -> forest h' /\ p = next h.
Proof.
  intros F L E. destruct q as [q|].
  - destruct (proj1 (live_ex h q) (L q eq_refl)) as [m Em]. rewrite (new_tree_some _ _ _ _ F Em) in E. inversion E. subst. split; [|reflexivity].
    destruct (below_new_cells h d q m F Em) as (C1 & C2 & C3).
    assert (NX : next (below_new h d q m) = S (next h)) by reflexivity.
    apply (graft h _ (Some q) (T (next h) d None false [])); try assumption.
    + lia.
    + rewrite ids_eq. repeat constructor. easy.
    + intros x. rewrite ids_eq. cbn. intros [<-|[]]. lia.
    + rewrite repr_eq. split; [exact C2|constructor].
    + intros x N Q. rewrite ids_eq in N. cbn in N. apply C3; [congruence|]. intros ->. apply N. now left.
    + intros x Q. inversion Q. subst x. exists m, (set_subs (next h :: subs m) m). repeat split; auto.
  - rewrite new_tree_none in E. inversion E. split; [|reflexivity].
    apply (graft h _ None (T (next h) d None false [])); try assumption; try discriminate.
    + cbn. lia.
    + rewrite ids_eq. repeat constructor. easy.
    + intros x. rewrite ids_eq. cbn. intros [<-|[]]. lia.
    + rewrite repr_eq. split; [apply alloc_same|constructor].
    + intros x N _. rewrite ids_eq in N. cbn in N. apply alloc_other. intros ->. apply N. now left.
Qed.
