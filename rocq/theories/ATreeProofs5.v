From Verif Require Import Base Text ATreeModel ATreeSpec ATreeProofs ATreeProofs2 ATreeProofs3 ATreeProofs4.
From Coq Require Import Permutation.
From Verif Require Conc.

Lemma max_height l y f : fold_right (fun x k => max (height x) k) 0 l <= f -> In y l -> height y <= f.
Proof. intros H I. induction l as [|z l IH]; [easy|]. cbn [fold_right] in H. destruct I as [->|I]; [lia|]. apply IH; [lia|exact I]. Qed.

(* ---- one visit per node ---- *)
Fixpoint revt (t : tree) : tree := match t with T i d a ch l => T i d a ch (rev (map revt l)) end.
Fixpoint unmarkt (t : tree) : tree := match t with T i d a _ l => T i d a false (map unmarkt l) end.
Lemma revt_id t : tid (revt t) = tid t.
Proof. now destruct t. Qed.
Lemma unmarkt_id t : tid (unmarkt t) = tid t.
Proof. now destruct t. Qed.
Lemma unmarkt_ids t : ids (unmarkt t) = ids t.
Proof.
  induction t as [i d a ch l IH] using tree_ind'. cbn [unmarkt]. rewrite !ids_eq. f_equal. induction l as [|y l IHl]; [reflexivity|].
  rewrite Forall_cons_iff in IH. destruct IH as [Hy H]. cbn [map flat_map]. now rewrite Hy, IHl.
Qed.
Lemma revt_ids t x : In x (ids (revt t)) <-> In x (ids t).
Proof.
  induction t as [i d a ch l IH] using tree_ind'. cbn [revt]. rewrite !ids_eq. cbn [In]. rewrite !in_flat_map. rewrite Forall_forall in IH.
  apply or_iff_compat_l. split.
  - intros (y & Iy & I). apply in_rev in Iy. apply in_map_iff in Iy. destruct Iy as (z & <- & Iz). exists z. split; [exact Iz|]. now apply IH.
  - intros (z & Iz & I). exists (revt z). split; [apply -> in_rev; now apply in_map|]. now apply IH.
Qed.
Lemma revt_content t : content_of (revt t) = reversed (content_of t).
Proof.
  induction t as [i d a ch l IH] using tree_ind'. cbn [revt content_of reversed]. f_equal. rewrite map_rev. f_equal.
  rewrite !map_map. apply map_ext_in. rewrite Forall_forall in IH. exact IH.
Qed.
Lemma unmarkt_content t : content_of (unmarkt t) = content_of t.
Proof.
  induction t as [i d a ch l IH] using tree_ind'. cbn [unmarkt content_of]. f_equal. rewrite map_map. apply map_ext_in. rewrite Forall_forall in IH. exact IH.
Qed.

(* a visit that leaves the sub trees of other lists alone *)
Definition visited (h h' : heap) (t t' : tree) : Prop :=
  next h' = next h /\ repr h' (match cell h (tid t) with Some n => parent n | None => None end) t' /\ same_but h h' (ids t).

Lemma visit_list (op : heap -> nat -> outcome heap) (f : tree -> tree) h0 par l :
  (forall y, tid (f y) = tid y) -> (forall y x, In x (ids (f y)) -> In x (ids y)) ->
  (forall y g, In y l -> repr g par y -> exists g', op g (tid y) = Done g' /\ next g' = next g /\ repr g' par (f y) /\ same_but g g' (ids y)) ->
  forall m g, (forall y, In y m -> In y l) -> NoDup (flat_map ids m) -> next g = next h0 -> Forall (repr g par) m ->
  exists g', ofold op (map tid m) g = Done g' /\ next g' = next h0 /\ Forall (repr g' par) (map f m) /\ same_but g g' (flat_map ids m).
Proof.
  intros FI FS OP. induction m as [|y m IH]; intros g SS ND NG R.
  - exists g. cbn. split; [reflexivity|]. split; [exact NG|]. split; [constructor|]. intros p _. reflexivity.
  - cbn [map ofold flat_map] in *. apply nodup_app_iff in ND. destruct ND as (NDy & NDm & DJ). rewrite Forall_cons_iff in R. destruct R as [Ry R].
    destruct (OP y g (SS y (or_introl eq_refl)) Ry) as (g1 & E1 & N1 & R1 & S1). rewrite E1. cbn [obind].
    destruct (IH g1) as (g' & E' & N' & R' & S').
    + intros z I. apply SS. now right.
    + exact NDm.
    + congruence.
    + rewrite Forall_forall in R |- *. intros z Iz. apply repr_ext with g; [|auto]. intros x I. apply S1. intros J. apply (DJ x J), in_flat_map. eauto.
    + exists g'. split; [exact E'|]. split; [exact N'|]. split.
      * constructor; [|exact R']. apply repr_ext with g1; [|exact R1]. intros x I. apply S'. exact (DJ x (FS _ _ I)).
      * intros x NI. rewrite in_app_iff in NI. rewrite S', S1; auto.
Qed.

Lemma revert_effect t : forall h par fuel, repr h par t -> NoDup (ids t) -> height t <= fuel ->
  exists h', revertOrder fuel h (tid t) = Done h' /\ next h' = next h /\ repr h' par (revt t) /\ same_but h h' (ids t).
Proof.
  induction t as [i d a ch l IH] using tree_ind'. intros h par [|f] R N HF; [cbn in HF; lia|].
  cbn [height] in HF. apply le_S_n in HF. apply repr_eq in R. destruct R as [E SB]. rewrite ids_eq in N. inversion N as [|? ? N0 N1]; subst.
  cbn [revertOrder tid]. unfold deref at 1. rewrite E. cbn [obind subs].
  destruct (visit_list (revertOrder f) revt h (Some i) l revt_id) with (m := l) (g := h) as (g & EG & NG & RG & SG); auto.
  { intros y x. now rewrite revt_ids. }
  { intros y g Iy Ry. rewrite Forall_forall in IH. apply (IH y Iy g (Some i) f Ry).
    - clear - N1 Iy. induction l as [|z l IHl]; [easy|]. cbn [flat_map] in N1. apply nodup_app_iff in N1. destruct N1 as (A & B & _). destruct Iy as [->|I]; auto.
    - exact (max_height l y f HF Iy). }
  change (ofold (fun g c => revertOrder f g c) (map tid l) h = Done g) in EG.
  rewrite EG. cbn [obind]. assert (Ei : cell g i = Some (mkN d a ch par (map tid l))) by (rewrite SG; auto).
  rewrite (update_done _ _ _ _ Ei). eexists. split; [reflexivity|]. split; [exact NG|]. split.
  - cbn [revt]. apply repr_eq. split.
    + rewrite put_same. unfold set_subs. cbn. f_equal. f_equal. rewrite map_rev, map_map. f_equal. apply map_ext. intros. now rewrite revt_id.
    + rewrite Forall_forall in RG |- *. intros y Iy. apply in_rev in Iy. apply repr_ext with g; [|auto]. intros x I. apply put_other.
      intros ->. apply N0. apply in_map_iff in Iy. destruct Iy as (z & <- & Iz). apply in_flat_map. exists z. split; [exact Iz|]. now apply revt_ids.
  - intros x NI. rewrite ids_eq in NI. rewrite put_other by (intros ->; apply NI; now left). apply SG. intros J. apply NI. now right.
Qed.
Lemma unmark_effect t : forall h par fuel, repr h par t -> NoDup (ids t) -> height t <= fuel ->
  exists h', unmarkChanges fuel h (tid t) = Done h' /\ next h' = next h /\ repr h' par (unmarkt t) /\ same_but h h' (ids t).
Proof.
  induction t as [i d a ch l IH] using tree_ind'. intros h par [|f] R N HF; [cbn in HF; lia|].
  cbn [height] in HF. apply le_S_n in HF. apply repr_eq in R. destruct R as [E SB]. rewrite ids_eq in N. inversion N as [|? ? N0 N1]; subst.
  cbn [unmarkChanges tid]. rewrite (update_done _ _ _ _ E). cbn [obind]. change (set_changed false (mkN d a ch par (map tid l))) with (mkN d a false par (map tid l)).
  set (h1 := put h i (mkN d a false par (map tid l))). unfold deref at 1. assert (E1 : cell h1 i = Some (mkN d a false par (map tid l))) by apply put_same.
  rewrite E1. cbn [obind subs].
  destruct (visit_list (unmarkChanges f) unmarkt h1 (Some i) l unmarkt_id) with (m := l) (g := h1) as (g & EG & NG & RG & SG); auto.
  { intros y x. now rewrite unmarkt_ids. }
  { intros y g Iy Ry. rewrite Forall_forall in IH. apply (IH y Iy g (Some i) f Ry).
    - clear - N1 Iy. induction l as [|z l IHl]; [easy|]. cbn [flat_map] in N1. apply nodup_app_iff in N1. destruct N1 as (A & B & _). destruct Iy as [->|I]; auto.
    - exact (max_height l y f HF Iy). }
  { rewrite Forall_forall in SB |- *. intros y Iy. apply repr_ext with h; [|auto]. intros x I. apply put_other. intros ->. apply N0, in_flat_map. eauto. }
  exists g. split; [exact EG|]. split; [exact NG|]. split.
  - cbn [unmarkt]. apply repr_eq. split; [|exact RG]. rewrite SG by exact N0. rewrite E1. f_equal. f_equal. rewrite map_map. apply map_ext. intros. now rewrite unmarkt_id.
  - intros x NI. rewrite ids_eq in NI. rewrite SG by (intros J; apply NI; now right). apply put_other. intros ->. apply NI. now left.
Qed.
Lemma repr_parents t : forall h h' par t', repr h par t -> repr h' par t' -> t' = revt t \/ t' = unmarkt t -> forall x, In x (ids t) ->
  exists n n', cell h x = Some n /\ cell h' x = Some n' /\ parent n = parent n' /\ Permutation (subs n) (subs n').
Proof.
  induction t as [i d a ch l IH] using tree_ind'. intros h h' par t' R R' T x. rewrite ids_eq. apply repr_eq in R. destruct R as [E SB]. rewrite Forall_forall in IH, SB.
  intros [<-|I].
  - destruct T as [-> | ->]; cbn [revt unmarkt] in R'; apply repr_eq in R'; destruct R' as [E' _].
    + exists (mkN d a ch par (map tid l)), (mkN d a ch par (map tid (rev (map revt l)))). repeat split; try assumption. cbn [subs]. rewrite map_rev, map_map.
      rewrite (map_ext _ tid revt_id). apply Permutation_rev.
    + exists (mkN d a ch par (map tid l)), (mkN d a false par (map tid (map unmarkt l))). repeat split; try assumption. cbn [subs]. rewrite map_map.
      rewrite (map_ext _ tid unmarkt_id). reflexivity.
  - apply in_flat_map in I. destruct I as (y & Iy & I). destruct T as [-> | ->]; cbn [revt unmarkt] in R'; apply repr_eq in R'; destruct R' as [_ SB']; rewrite Forall_forall in SB'.
    + apply (IH y Iy h h' (Some i) (revt y)); auto. apply SB'. apply -> in_rev. now apply in_map.
    + apply (IH y Iy h h' (Some i) (unmarkt y)); auto. apply SB'. now apply in_map.
Qed.
Lemma visit_forest h h' par t t' : forest h -> next h' = next h -> repr h par t -> repr h' par t' -> t' = revt t \/ t' = unmarkt t -> same_but h h' (ids t) -> forest h'.
Proof.
  intros F NX R R' T SB. apply (forest_links h); [|exact F]. split; [lia|]. intros p. destruct (in_dec Nat.eq_dec p (ids t)) as [I|NI].
  - destruct (repr_parents t h h' par t' R R' T p I) as (n & n' & E & E' & P & Q). rewrite E, E'. auto.
  - rewrite (SB p NI). destruct (cell h p); [split; reflexivity|exact Logic.I].
Qed.
Lemma revert_ok h p n fuel : forest h -> cell h p = Some n -> next h <= fuel ->
  exists t h', repr h (parent n) t /\ tid t = p /\ revertOrder fuel h p = Done h' /\ repr h' (parent n) (revt t) /\ same_but h h' (ids t) /\ next h' = next h /\ forest h'.
Proof.
  intros F E L. destruct (tree_at h p n F E) as (t & R & <-). exists t. pose proof (height_bound _ _ _ F R).
  destruct (revert_effect t h (parent n) fuel R (ids_nodup _ _ _ F R) ltac:(lia)) as (h' & D & N & R' & S). exists h'.
  do 6 (split; [assumption || reflexivity|]). exact (visit_forest h h' _ t _ F N R R' (or_introl eq_refl) S).
Qed.
Lemma unmark_ok h p n fuel : forest h -> cell h p = Some n -> next h <= fuel ->
  exists t h', repr h (parent n) t /\ tid t = p /\ unmarkChanges fuel h p = Done h' /\ repr h' (parent n) (unmarkt t) /\ same_but h h' (ids t) /\ next h' = next h /\ forest h'.
Proof.
  intros F E L. destruct (tree_at h p n F E) as (t & R & <-). exists t. pose proof (height_bound _ _ _ F R).
  destruct (unmark_effect t h (parent n) fuel R (ids_nodup _ _ _ F R) ltac:(lia)) as (h' & D & N & R' & S). exists h'.
  do 6 (split; [assumption || reflexivity|]). exact (visit_forest h h' _ t _ F N R R' (or_intror eq_refl) S).
Qed.

(* ---- questions ---- *)
Definition has_attr (t : tree) : bool := match tattr t with Some _ => true | None => false end.
Lemma contains_effect t : forall h par fuel, repr h par t -> height t <= fuel -> contains fuel h (tid t) = Done (length (filter has_attr (nodes t))).
Proof.
  induction t as [i d a ch l IH] using tree_ind'. intros h par [|f] R HF; [cbn in HF; lia|]. cbn [height] in HF. apply le_S_n in HF.
  apply repr_eq in R. destruct R as [E SB]. cbn [contains tid]. unfold deref. rewrite E. cbn [obind subs attr]. rewrite nodes_eq. cbn [filter has_attr tattr].
  assert (X : forall m k, (forall y, In y m -> In y l) -> ofold (fun k c => let* m := contains f h c in Done (k + m)) (map tid m) k = Done (k + length (filter has_attr (flat_map nodes m)))).
  { induction m as [|y m IHm]; intros k SS; [cbn; f_equal; lia|]. cbn [map ofold flat_map]. rewrite Forall_forall in IH, SB.
    assert (Iy : In y l) by (apply SS; now left). rewrite (IH y Iy h (Some i) f (SB y Iy) (max_height l y f HF Iy)). cbn [obind].
    rewrite IHm by (intros z Iz; apply SS; now right). f_equal. rewrite filter_app, app_length. lia. }
  rewrite X by auto. destruct a; cbn [length]; f_equal; lia.
Qed.
Definition matching (d : str) (a : option str) (t : tree) : bool :=
  opt_is (tdesc t) d && (match a with None => true | Some x => opt_is (tattr t) x end).
Lemma find_app {A} (f : A -> bool) l m : find f (l ++ m) = match find f l with Some x => Some x | None => find f m end.
Proof. induction l as [|x l IH]; cbn; [reflexivity|]. destruct (f x); [reflexivity|exact IH]. Qed.
Lemma search_effect d a t : forall h par fuel, repr h par t -> height t <= fuel -> search fuel h (tid t) d a = Done (option_map tid (find (matching d a) (nodes t))).
Proof.
  induction t as [i ds at_ ch l IH] using tree_ind'. intros h par [|f] R HF; [cbn in HF; lia|]. cbn [height] in HF. apply le_S_n in HF.
  apply repr_eq in R. destruct R as [E SB]. cbn [search tid]. unfold deref. rewrite E. cbn [obind subs attr desc]. rewrite nodes_eq. cbn [find matching tdesc tattr].
  change (matching d a (T i ds at_ ch l)) with (opt_is ds d && match a with None => true | Some x => opt_is at_ x end).
  destruct (opt_is ds d && match a with None => true | Some x => opt_is at_ x end); [reflexivity|].
  clear E. induction l as [|y l IHl]; [reflexivity|]. cbn [map flat_map]. rewrite Forall_cons_iff in IH, SB. destruct IH as [IHy IH], SB as [Ry SB]. cbn [fold_right] in HF.
  rewrite (IHy h (Some i) f Ry ltac:(lia)). cbn [obind]. rewrite find_app. destruct (find (matching d a) (nodes y)); [reflexivity|]. apply IHl; try assumption; lia.
Qed.
Lemma changed_effect t : forall h par fuel, repr h par t -> height t <= fuel -> is_changed fuel h (tid t) = Done (existsb tchanged (nodes t)).
Proof.
  induction t as [i ds at_ ch l IH] using tree_ind'. intros h par [|f] R HF; [cbn in HF; lia|]. cbn [height] in HF. apply le_S_n in HF.
  apply repr_eq in R. destruct R as [E SB]. cbn [is_changed tid]. unfold deref. rewrite E. cbn [obind subs changed]. rewrite nodes_eq. cbn [existsb tchanged].
  destruct ch; [reflexivity|]. cbn [orb]. clear E. induction l as [|y l IHl]; [reflexivity|]. cbn [map flat_map]. rewrite Forall_cons_iff in IH, SB. destruct IH as [IHy IH], SB as [Ry SB]. cbn [fold_right] in HF.
  rewrite (IHy h (Some i) f Ry ltac:(lia)). cbn [obind]. rewrite existsb_app. destruct (existsb tchanged (nodes y)); [reflexivity|]. cbn [orb]. apply IHl; try assumption; lia.
Qed.
Lemma root_effect h p : forest h -> live h p -> exists r, is_root h r /\ below h r p /\ forall fuel, next h <= fuel -> root fuel h p = Done r.
Proof.
  intros F L. destruct (live_depth h p F L) as [k D]. pose proof (depth_bound _ _ _ F D) as B.
  enough (X : exists r, is_root h r /\ below h r p /\ forall fuel, S k <= fuel -> root fuel h p = Done r).
  { destruct X as (r & A & A' & X). exists r. split; [exact A|]. split; [exact A'|]. intros fuel H. apply X. lia. }
  clear L B. induction D as [p R|k c p P D (r & Rr & Br & IH)].
  - exists p. split; [exact R|]. split; [constructor|]. intros [|f] H; [lia|]. cbn. destruct R as (n & E & P). unfold deref. rewrite E. cbn. now rewrite P.
  - exists r. split; [exact Rr|]. split; [econstructor; eassumption|]. intros [|f] H; [lia|]. cbn. destruct P as (n & E & P). unfold deref. rewrite E. cbn. rewrite P. apply IH. lia.
Qed.

(* ---- unlinkSub ---- *)
Lemma unlinkSub_effect h p n : forest h -> cell h p = Some n -> exists h', unlinkSub h p = Done h' /\ next h' = next h /\
  (forall x, cell h' x = if x =? p then Some (set_subs [] n) else if in_dec Nat.eq_dec x (subs n) then option_map (set_parent None) (cell h x) else cell h x).
Proof.
  intros F E. unfold unlinkSub, deref. rewrite E. cbn [obind]. destruct (f_lists _ F _ _ E) as [ND L].
  assert (NP : ~ In p (subs n)) by (intros I; apply L in I; exact (not_own_parent _ _ F I)).
  assert (X : forall l g, NoDup l -> ~ In p l -> (forall c, In c l -> live g c) -> exists g', ofold (fun g c => update g c (set_parent None)) l g = Done g' /\ next g' = next g /\
     forall x, cell g' x = if in_dec Nat.eq_dec x l then option_map (set_parent None) (cell g x) else cell g x).
  { induction l as [|c l IH]; intros g N Np LV; [exists g; cbn; auto|]. inversion N; subst. destruct (proj1 (live_ex g c) (LV c (or_introl eq_refl))) as [m Em].
    cbn [ofold]. rewrite (update_done _ _ _ m Em). cbn [obind]. destruct (IH (put g c (set_parent None m))) as (g' & E' & N' & C').
    - assumption.
    - intros I. apply Np. now right.
    - intros y I. apply live_ex. rewrite cell_put. destruct (Nat.eqb_spec y c); [eauto|]. apply live_ex, LV. now right.
    - exists g'. split; [exact E'|]. split; [exact N'|]. intros x. rewrite C', cell_put. destruct (Nat.eqb_spec x c) as [->|D].
      + destruct (in_dec Nat.eq_dec c l); [contradiction|]. destruct (in_dec Nat.eq_dec c (c :: l)) as [|Z]; [now rewrite Em|exfalso; apply Z; now left].
      + destruct (in_dec Nat.eq_dec x l), (in_dec Nat.eq_dec x (c :: l)) as [Z|Z]; try reflexivity; [exfalso; apply Z; now right|destruct Z; congruence]. }
  destruct (X (subs n) h ND NP) as (g & EG & NG & CG).
  { intros c I. apply L in I. destruct I as (m & Em & _). apply live_ex. eauto. }
  rewrite EG. cbn [obind]. assert (Ep : cell g p = Some n) by (rewrite CG; destruct in_dec; [contradiction|exact E]).
  rewrite (update_done _ _ _ _ Ep). eexists. split; [reflexivity|]. split; [exact NG|]. intros x. rewrite cell_put. destruct (x =? p); [reflexivity|apply CG].
Qed.
Lemma unlinkSub_forest h p h' : forest h -> unlinkSub h p = Done h' -> forest h'.
Proof.
  intros F U. destruct (cell h p) as [n|] eqn:E; [|unfold unlinkSub, deref in U; rewrite E in U; discriminate].
  destruct (unlinkSub_effect h p n F E) as (h'' & U' & NX & CX). rewrite U in U'. inversion U'. subst h''. clear U U'.
  destruct (f_lists _ F _ _ E) as [ND L]. assert (NP : ~ In p (subs n)) by (intros I; apply L in I; exact (not_own_parent _ _ F I)).
  assert (LV : forall x, live h' x <-> live h x).
  { intros x. unfold live. rewrite CX. destruct (Nat.eqb_spec x p) as [->|]; [rewrite E; split; congruence|]. destruct in_dec; [|reflexivity].
    destruct (cell h x); cbn; split; congruence. }
  assert (PO : forall c x, parent_of h' c x <-> parent_of h c x /\ x <> p).
  { intros c x. unfold parent_of. rewrite CX. destruct (Nat.eqb_spec c p) as [->|D].
    - split; [intros (k & A & B); inversion A; subst k; cbn in B|intros [(k & A & B) _]; eexists; split; [reflexivity|]; cbn; congruence].
      split; [eauto|]. intros ->. apply (not_own_parent h p F). exists n. auto.
    - destruct in_dec as [I|NI].
      + split; [intros (k & A & B); destruct (cell h c); inversion A; subst; discriminate|]. intros [P Q]. apply L in I.
        destruct Q. exact (parent_fun h c x p P I).
      + split; [intros P; split; [exact P|]; intros ->; apply NI, L; exact P|intros [P _]; exact P]. }
  constructor.
  - intros x A. apply LV in A. rewrite NX. exact (f_fresh _ F x A).
  - intros x k. rewrite CX. destruct (Nat.eqb_spec x p) as [->|D].
    + intros A. inversion A. cbn [subs set_subs]. split; [constructor|]. intros c. rewrite PO. split; [easy|tauto].
    + intros A. assert (B : exists k0, cell h x = Some k0 /\ subs k = subs k0).
      { destruct in_dec; [destruct (cell h x) as [k0|]; inversion A; subst; exists k0; auto|eauto]. }
      destruct B as (k0 & Ek & Sk). destruct (f_lists _ F _ _ Ek) as [NDk Lk]. rewrite Sk. split; [exact NDk|]. intros c. rewrite PO, Lk. tauto.
  - intros c x P. apply LV. apply PO in P. exact (f_parents _ F _ _ (proj1 P)).
  - intros x A. apply LV in A. pose proof (f_rooted _ F x A) as R. clear A. induction R as [x R|c x P R IH].
    + constructor. destruct R as (k & A & B). unfold is_root. rewrite CX. destruct (Nat.eqb_spec x p) as [->|]; [eexists; split; [reflexivity|]; cbn; congruence|].
      rewrite A. destruct in_dec; cbn; eauto.
    + destruct (Nat.eq_dec x p) as [->|D].
      * constructor. assert (I : In c (subs n)) by (apply L; exact P). destruct P as (k & A & B). exists (set_parent None k).
        rewrite CX. destruct (Nat.eqb_spec c p) as [->|]; [contradiction|]. destruct in_dec; [|contradiction]. rewrite A. auto.
      * apply below_parent with x; [apply PO; auto|exact IH].
Qed.

(* ---- addSubTree ---- *)
Lemma insert_after_in p after l c : l <> [] -> (In c (insert_after p after l) <-> c = p \/ In c l).
Proof.
  induction l as [|x r IH]; [congruence|]. intros _. cbn [insert_after]. destruct r as [|y r]; [cbn; intuition congruence|].
  destruct (x =? after); [cbn; intuition congruence|]. cbn [In]. rewrite IH by discriminate. cbn [In]. intuition congruence.
Qed.
Lemma insert_after_nodup p after l : NoDup l -> ~ In p l -> NoDup (insert_after p after l).
Proof.
  induction l as [|x r IH]; intros N NI; [constructor|]. cbn [insert_after]. inversion N; subst. destruct r as [|y r].
  - constructor; [cbn; intros [->|[]]; apply NI; now left|constructor; [easy|constructor]].
  - assert (~ In p (y :: r)) by (intros I; apply NI; now right).
    destruct (x =? after).
    + constructor; [intros [->|I]; [apply NI; now left|contradiction]|]. now constructor.
    + constructor; [|auto]. rewrite insert_after_in by discriminate. intros [->|I]; [apply NI; now left|contradiction].
Qed.
Lemma add_forest h p t n m l n' m' : forest h -> cell h p = Some n -> cell h t = Some m -> parent m = None -> ~ below h t p ->
  NoDup l -> (forall c, In c l <-> c = t \/ In c (subs n)) ->
  parent n' = parent n -> subs n' = l -> parent m' = Some p -> subs m' = subs m ->
  forest (put (put h p n') t m').
Proof.
  intros F Ep Et Pm NB ND IL P1 S1 P2 S2.
  assert (D : p <> t) by (intros ->; apply NB; constructor).
  set (h' := put (put h p n') t m').
  assert (C : forall x, cell h' x = if x =? t then Some m' else if x =? p then Some n' else cell h x) by (intros x; unfold h'; now rewrite !cell_put).
  assert (LV : forall x, live h' x <-> live h x).
  { intros x. unfold live. rewrite C. destruct (Nat.eqb_spec x t) as [->|]; [rewrite Et; split; congruence|].
    destruct (Nat.eqb_spec x p) as [->|]; [rewrite Ep; split; congruence|reflexivity]. }
  assert (NT : forall x, ~ parent_of h t x) by (intros x (k & A & B); congruence).
  assert (PO : forall c x, parent_of h' c x <-> parent_of h c x \/ c = t /\ x = p).
  { intros c x. unfold parent_of. rewrite C. destruct (Nat.eqb_spec c t) as [->|D1].
    - split; [intros (k & A & B); inversion A; subst k; right; split; [reflexivity|congruence]|].
      intros [A|[_ ->]]; [exfalso; exact (NT _ A)|]. eauto.
    - destruct (Nat.eqb_spec c p) as [->|D2].
      + split; [intros (k & A & B); inversion A; subst k; left; exists n; split; [exact Ep|congruence]|]. intros [(k & A & B)|[Z _]]; [|congruence].
        exists n'. split; [reflexivity|congruence].
      + split; [intros A; left; exact A|intros [A|[Z _]]; [exact A|congruence]]. }
  assert (UPR : forall x, rooted h x -> ~ below h t x -> rooted h' x).
  { intros x R. induction R as [x R|c x P R IH]; intros NBx.
    - constructor. destruct R as (k & A & B). unfold is_root. rewrite C. destruct (Nat.eqb_spec x t) as [->|]; [exfalso; apply NBx; constructor|].
      destruct (Nat.eqb_spec x p) as [->|]; [|eauto]. exists n'. split; [reflexivity|congruence].
    - apply below_parent with x; [apply PO; now left|]. apply IH. intros B. apply NBx. econstructor; eassumption. }
  assert (RT : rooted h' t).
  { apply below_parent with p; [apply PO; right; auto|]. apply UPR; [|exact NB]. apply (f_rooted _ F), live_ex. eauto. }
  constructor.
  - intros x L. apply LV in L. exact (f_fresh _ F x L).
  - intros x k. rewrite C. destruct (Nat.eqb_spec x t) as [->|D1].
    + intros A. inversion A. subst k. rewrite S2. destruct (f_lists _ F _ _ Et) as [N L]. split; [exact N|]. intros c. rewrite PO, L. split; [auto|].
      intros [B|[_ Z]]; [exact B|congruence].
    + destruct (Nat.eqb_spec x p) as [->|D2].
      * intros A. inversion A. subst k. rewrite S1. split; [exact ND|]. intros c. rewrite IL, PO. destruct (f_lists _ F _ _ Ep) as [_ L]. rewrite L. tauto.
      * intros A. destruct (f_lists _ F _ _ A) as [N L]. split; [exact N|]. intros c. rewrite PO, L. split; [auto|]. intros [B|[_ Z]]; [exact B|congruence].
  - intros c x P. apply LV. apply PO in P. destruct P as [P|[_ ->]]; [exact (f_parents _ F _ _ P)|]. apply live_ex. eauto.
  - intros x L. apply LV in L. pose proof (f_rooted _ F x L) as R. clear L. induction R as [x R|c x P R IH].
    + destruct (Nat.eq_dec x t) as [->|D1]; [exact RT|]. constructor. destruct R as (k & A & B). unfold is_root. rewrite C.
      destruct (Nat.eqb_spec x t); [congruence|]. destruct (Nat.eqb_spec x p) as [->|]; [|eauto]. exists n'. split; [reflexivity|congruence].
    + apply below_parent with x; [apply PO; now left|exact IH].
Qed.
