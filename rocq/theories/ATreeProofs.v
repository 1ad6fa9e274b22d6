From Verif Require Import Base Text ATreeModel ATreeSpec.
From Verif Require Conc.

(* ---- basics ---- *)
Lemma obind_done {A B} (r : outcome A) (f : A -> outcome B) b : obind r f = Done b <-> exists a, r = Done a /\ f a = Done b.
Proof. destruct r; cbn; split; try discriminate; intros H; try (destruct H as (a' & E & H); congruence); eauto. Qed.
Lemma str_eqb_spec a b : str_eqb a b = true <-> a = b.
Proof. unfold str_eqb. destruct list_eq_dec; split; congruence. Qed.
Lemma str_eqb_refl a : str_eqb a a = true.
Proof. now apply str_eqb_spec. Qed.
Lemma str_eqb_false a b : str_eqb a b = false <-> a <> b.
Proof. unfold str_eqb. destruct list_eq_dec; split; congruence. Qed.
Lemma opt_is_spec o s : opt_is o s = true <-> o = Some s.
Proof. destruct o; cbn; [rewrite str_eqb_spec|]; split; congruence. Qed.
Lemma cell_put h p n q : cell (put h p n) q = if q =? p then Some n else cell h q.
Proof. reflexivity. Qed.
Lemma cell_alloc h n q : cell (fst (alloc h n)) q = if q =? next h then Some n else cell h q.
Proof. reflexivity. Qed.
Lemma cell_free h p q : cell (free h p) q = if q =? p then None else cell h q.
Proof. reflexivity. Qed.
Lemma deref_done h p n : deref h p = Done n <-> cell h p = Some n.
Proof. unfold deref. destruct (cell h p); split; congruence. Qed.
Lemma live_ex h p : live h p <-> exists n, cell h p = Some n.
Proof. unfold live. destruct (cell h p); split; intros H; try congruence; [eauto|]. destruct H. discriminate. Qed.
Lemma update_done h p f n : cell h p = Some n -> update h p f = Done (put h p (f n)).
Proof. intros E. unfold update, deref. now rewrite E. Qed.
Lemma update_inv h p f h' : update h p f = Done h' -> exists n, cell h p = Some n /\ h' = put h p (f n).
Proof. unfold update, deref. destruct (cell h p) eqn:E; cbn; intros H; inversion H. eauto. Qed.
Lemma next_put h p n : next (put h p n) = next h.
Proof. reflexivity. Qed.

Lemma tree_ind' (P : tree -> Prop) : (forall i d a c l, Forall P l -> P (T i d a c l)) -> forall t, P t.
Proof.
  intros H. fix IH 1. intros [i d a c l]. apply H. revert l. fix go 1. intros [|t l]; constructor; [apply IH|apply go].
Qed.
Lemma content_ind' (P : content -> Prop) : (forall d a l, Forall P l -> P (C d a l)) -> forall c, P c.
Proof.
  intros H. fix IH 1. intros [d a l]. apply H. revert l. fix go 1. intros [|t l]; constructor; [apply IH|apply go].
Qed.
Lemma repr_eq h par i d a c l : repr h par (T i d a c l) <-> cell h i = Some (mkN d a c par (map tid l)) /\ Forall (repr h (Some i)) l.
Proof.
  cbn [repr]. apply and_iff_compat_l. induction l as [|t l IH]; [split; constructor|]. rewrite IH, Forall_cons_iff. reflexivity.
Qed.
Lemma nodes_eq i d a c l : nodes (T i d a c l) = T i d a c l :: flat_map nodes l.
Proof. reflexivity. Qed.
Lemma ids_eq i d a c l : ids (T i d a c l) = i :: flat_map ids l.
Proof.
  unfold ids. rewrite nodes_eq. cbn [map tid]. f_equal. induction l as [|t l IH]; [reflexivity|]. cbn [flat_map].
  rewrite map_app. f_equal. exact IH.
Qed.
Lemma id_in t : In (tid t) (ids t).
Proof. destruct t. rewrite ids_eq. now left. Qed.
Lemma repr_cell h par t : repr h par t -> cell h (tid t) = Some (mkN (tdesc t) (tattr t) (tchanged t) par (map tid (tsubs t))).
Proof. destruct t. rewrite repr_eq. now intros [E _]. Qed.
Lemma repr_subs h par t : repr h par t -> Forall (repr h (Some (tid t))) (tsubs t).
Proof. destruct t. rewrite repr_eq. now intros [_ E]. Qed.
Lemma repr_node h par t x : repr h par t -> In x (nodes t) -> exists q, repr h q x.
Proof.
  revert par x. induction t as [i d a c l IH] using tree_ind'. intros par x. rewrite repr_eq, nodes_eq. intros [E F] [<-|I].
  - exists par. rewrite repr_eq. now split.
  - apply in_flat_map in I. destruct I as (y & Iy & I). rewrite Forall_forall in IH, F. exact (IH y Iy (Some i) x (F y Iy) I).
Qed.
Lemma repr_live h par t x : repr h par t -> In x (ids t) -> live h x.
Proof.
  intros R I. apply in_map_iff in I. destruct I as (y & <- & I). destruct (repr_node _ _ _ _ R I) as [q Q].
  apply live_ex. eexists. exact (repr_cell _ _ _ Q).
Qed.
Lemma repr_ext h h' par t : (forall x, In x (ids t) -> cell h' x = cell h x) -> repr h par t -> repr h' par t.
Proof.
  revert par. induction t as [i d a c l IH] using tree_ind'. intros par X. rewrite !repr_eq. intros [E F]. split.
  - rewrite X; [exact E|]. rewrite ids_eq. now left.
  - rewrite Forall_forall in *. intros y I. apply IH; [exact I| |auto]. intros x J. apply X. rewrite ids_eq. right.
    apply in_flat_map. eauto.
Qed.
Lemma repr_unique h par par' t t' : repr h par t -> repr h par' t' -> tid t = tid t' -> t = t' /\ par = par'.
Proof.
  revert par par' t'. induction t as [i d a c l IH] using tree_ind'. intros par par' [i' d' a' c' l'] R R' E. cbn in E. subst i'.
  rewrite repr_eq in R, R'. destruct R as [E1 F1], R' as [E2 F2]. rewrite E1 in E2. inversion E2. subst d' a' c' par'.
  split; [|reflexivity]. f_equal. clear E1 E2. rename H4 into M. revert l' F2 M.
  induction l as [|t l IHl]; intros [|t' l'] F2 M; try discriminate; [reflexivity|]. cbn in M. inversion M.
  rewrite Forall_cons_iff in F1, F2, IH. destruct F1, F2, IH as [IHt IH]. destruct (IHt _ _ _ H H3 H0) as [-> _]. f_equal. auto.
Qed.
Lemma ids_nodes t x : In x (ids t) -> exists y, In y (nodes t) /\ tid y = x.
Proof. intros I. apply in_map_iff in I. destruct I as (y & E & I). eauto. Qed.

(* ---- depth ---- *)
Inductive depth (h : heap) : nat -> nat -> Prop :=
| d0 p : is_root h p -> depth h 0 p
| dS k c p : parent_of h c p -> depth h k p -> depth h (S k) c.
Lemma rooted_depth h p : rooted h p -> exists k, depth h k p.
Proof. induction 1 as [p R|c p P R [k D]]; [exists 0; now constructor|]. exists (S k). econstructor; eassumption. Qed.
Lemma depth_rooted h k p : depth h k p -> rooted h p.
Proof. induction 1; [now constructor|]. eapply below_parent; eassumption. Qed.
Lemma parent_fun h c p q : parent_of h c p -> parent_of h c q -> p = q.
Proof. intros (n & E & P) (n' & E' & P'). congruence. Qed.
Lemma root_no_parent h c p : is_root h c -> parent_of h c p -> False.
Proof. intros (n & E & P) (n' & E' & P'). congruence. Qed.
Lemma depth_fun h k k' p : depth h k p -> depth h k' p -> k = k'.
Proof.
  intros D. revert k'. induction D as [p R|k c p P D IH]; intros k' D'; inversion D'; subst; auto.
  - exfalso. eapply root_no_parent; eassumption.
  - exfalso. eapply root_no_parent; eassumption.
  - f_equal. apply IH. now rewrite (parent_fun _ _ _ _ P H).
Qed.
Lemma depth_live h k p : depth h k p -> live h p.
Proof. intros D. apply live_ex. destruct D as [p (n & E & _)|k c p (n & E & _) _]; eauto. Qed.
Lemma depth_chain h k p : depth h k p -> exists l, length l = S k /\ NoDup l /\ forall x, In x l -> exists j, j <= k /\ depth h j x.
Proof.
  induction 1 as [p R|k c p P D (l & L & N & H)].
  - exists [p]. split; [reflexivity|]. split; [constructor; [easy|constructor]|]. intros x [<-|[]]. exists 0. split; [lia|]. now constructor.
  - exists (c :: l). cbn [length]. split; [lia|]. assert (DC : depth h (S k) c) by (econstructor; eassumption). split.
    + constructor; [|exact N]. intros I. destruct (H c I) as (j & J & D'). pose proof (depth_fun _ _ _ _ DC D'). lia.
    + intros x [<-|I]; [exists (S k); split; [lia|exact DC]|]. destruct (H x I) as (j & J & D'). exists j. split; [lia|exact D'].
Qed.
Lemma bounded_length (l : list nat) m : NoDup l -> (forall x, In x l -> x < m) -> length l <= m.
Proof.
  intros N B. replace m with (length (seq 0 m)) by apply seq_length. apply NoDup_incl_length; [exact N|].
  intros x I. apply in_seq. specialize (B x I). lia.
Qed.
Lemma depth_bound h k p : forest h -> depth h k p -> S k <= next h.
Proof.
  intros F D. destruct (depth_chain _ _ _ D) as (l & <- & N & H). apply bounded_length; [exact N|].
  intros x I. destruct (H x I) as (j & _ & D'). exact (f_fresh _ F _ (depth_live _ _ _ D')).
Qed.
Lemma live_depth h p : forest h -> live h p -> exists k, depth h k p.
Proof. intros F L. apply rooted_depth. exact (f_rooted _ F p L). Qed.

(* every node of a forest is the root of a tree *)
Lemma build h m : forest h -> forall k p n, cell h p = Some n -> depth h k p -> next h - k <= m -> exists t, repr h (parent n) t /\ tid t = p.
Proof.
  intros F. induction m as [|m IH]; intros k p n E D M.
  - pose proof (depth_bound _ _ _ F D). lia.
  - destruct (f_lists _ F _ _ E) as [ND L].
    assert (X : forall l, (forall c, In c l -> In c (subs n)) -> exists ts, map tid ts = l /\ Forall (repr h (Some p)) ts).
    { induction l as [|c l IHl]; intros SS; [exists []; split; [reflexivity|constructor]|].
      destruct IHl as (ts & E1 & F1); [intros x I; apply SS; now right|].
      assert (Pc : parent_of h c p) by (apply L, SS; now left). destruct Pc as (nc & Ec & Pc).
      destruct (IH (S k) c nc Ec) as (t & R & Et); [|lia|].
      - eapply dS; [exists nc; eauto|exact D].
      - exists (t :: ts). cbn. split; [congruence|]. constructor; [now rewrite <- Pc|exact F1]. }
    destruct (X (subs n)) as (ts & E1 & F1); [auto|]. exists (T p (desc n) (attr n) (changed n) ts). split; [|reflexivity].
    rewrite repr_eq. split; [|exact F1]. rewrite E, E1. now destruct n.
Qed.
Lemma tree_at h p n : forest h -> cell h p = Some n -> exists t, repr h (parent n) t /\ tid t = p.
Proof.
  intros F E. destruct (live_depth h p F) as [k D]; [apply live_ex; eauto|]. exact (build h (next h) F k p n E D ltac:(lia)).
Qed.

Lemma below_trans h a b c : below h a b -> below h b c -> below h a c.
Proof. intros A B. induction B as [|x c B IH P]; [exact A|]. econstructor; eassumption. Qed.
Lemma ids_below h par t x : forest h -> repr h par t -> (In x (ids t) <-> below h (tid t) x).
Proof.
  intros F. split.
  - revert par x H. induction t as [i d a c l IH] using tree_ind'. intros par x R. rewrite repr_eq, ids_eq in *. destruct R as [E FR].
    intros [<-|I]; [constructor|]. apply in_flat_map in I. destruct I as (y & Iy & I). rewrite Forall_forall in IH, FR.
    apply below_trans with (tid y).
    + econstructor 2; [constructor|]. exists (mkN (tdesc y) (tattr y) (tchanged y) (Some i) (map tid (tsubs y))).
      split; [exact (repr_cell _ _ _ (FR y Iy))|reflexivity].
    + exact (IH y Iy _ x (FR y Iy) I).
  - intros B. induction B as [|x c B IH P]; [apply id_in|]. destruct (ids_nodes _ _ IH) as (y & Iy & <-).
    destruct (repr_node _ _ _ _ H Iy) as [q Q]. pose proof (repr_cell _ _ _ Q) as Ey.
    destruct (f_lists _ F _ _ Ey) as [_ L]. apply L in P. cbn [subs] in P.
    assert (IC : In c (ids y)).
    { destruct y as [i d a ch l]. rewrite ids_eq. right. cbn [tsubs] in P. apply in_map_iff in P. destruct P as (z & <- & Iz).
      apply in_flat_map. exists z. split; [exact Iz|apply id_in]. }
    clear - Iy IC. unfold ids in *. apply in_map_iff in IC. destruct IC as (z & <- & Iz). apply in_map.
    revert Iy. induction t as [i d a ch l IHt] using tree_ind'. rewrite nodes_eq. intros [<-|I]; [exact Iz|]. right.
    apply in_flat_map in I. destruct I as (w & Iw & I). apply in_flat_map. exists w. split; [exact Iw|].
    rewrite Forall_forall in IHt. exact (IHt w Iw I).
Qed.
Lemma below_depth h p x k k' : below h p x -> depth h k p -> depth h k' x -> k <= k' /\ (k = k' -> x = p).
Proof.
  intros B. revert k'. induction B as [|x c B IH P]; intros k' D D'.
  - pose proof (depth_fun _ _ _ _ D D'). split; [lia|reflexivity].
  - inversion D' as [? R|j ? q P' Dq]; subst; [exfalso; eapply root_no_parent; eassumption|].
    rewrite <- (parent_fun _ _ _ _ P P') in Dq. destruct (IH j D Dq). split; [lia|]. lia.
Qed.
Lemma below_unique h a b x k : below h a x -> below h b x -> depth h k a -> depth h k b -> a = b.
Proof.
  intros A B Da Db. induction A as [|x c A IH P].
  - eapply below_depth; [exact B|exact Db|exact Da|reflexivity].
  - inversion B as [|y ? B' P']; subst.
    + assert (D : exists j, depth h j x).
      { inversion Db; subst; [exfalso; eapply root_no_parent; eassumption|]. rewrite (parent_fun _ _ _ _ P H). eauto. }
      destruct D as [j D]. pose proof (below_depth _ _ _ _ _ A Da D) as [L _].
      pose proof (depth_fun _ _ _ _ Db (dS _ _ _ _ P D)). lia.
    + apply IH. now rewrite (parent_fun _ _ _ _ P P').
Qed.
Lemma ids_nodup h par t : forest h -> repr h par t -> NoDup (ids t).
Proof.
  intros F. revert par. induction t as [i d a ch l IH] using tree_ind'. intros par R. pose proof R as R0. rewrite repr_eq in R.
  destruct R as [E FR]. rewrite ids_eq. destruct (f_lists _ F _ _ E) as [ND L]. cbn [subs] in ND, L.
  destruct (live_depth h i F) as [k D]; [apply live_ex; eauto|].
  assert (DC : forall y, In y l -> depth h (S k) (tid y)).
  { intros y I. eapply dS; [|exact D]. apply L. now apply in_map. }
  rewrite Forall_forall in IH, FR. constructor.
  - intros I. apply in_flat_map in I. destruct I as (y & Iy & I). apply (ids_below h _ _ _ F (FR y Iy)) in I.
    pose proof (below_depth _ _ _ _ _ I (DC y Iy) D). lia.
  - assert (X : forall m, (forall y, In y m -> In y l) -> NoDup (map tid m) -> NoDup (flat_map ids m)).
    { induction m as [|y m IHm]; intros SS NM; [constructor|]. cbn [flat_map]. cbn in NM. inversion NM; subst.
      assert (Iy : In y l) by (apply SS; now left).
      assert (NDy := IH y Iy _ (FR y Iy)). assert (NDm : NoDup (flat_map ids m)) by (apply IHm; [intros z Iz; apply SS; now right|assumption]).
      assert (DJ : forall x, In x (ids y) -> ~ In x (flat_map ids m)).
      { intros x Ix J. apply in_flat_map in J. destruct J as (z & Iz & J). assert (Iz' : In z l) by (apply SS; now right).
        apply (ids_below h _ _ _ F (FR y Iy)) in Ix. apply (ids_below h _ _ _ F (FR z Iz')) in J.
        apply H1. rewrite (below_unique _ _ _ _ _ Ix J (DC y Iy) (DC z Iz')). now apply in_map. }
      clear - NDy NDm DJ. induction (ids y) as [|a r IHr]; [exact NDm|]. cbn. inversion NDy; subst. constructor.
      - rewrite in_app_iff. intros [I|I]; [contradiction|]. exact (DJ a (or_introl eq_refl) I).
      - apply IHr; [assumption|]. intros x I. apply DJ. now right. }
    apply X; auto.
Qed.
Lemma height_ids t : height t <= length (ids t).
Proof.
  induction t as [i d a ch l IH] using tree_ind'. rewrite ids_eq. cbn [height length]. apply le_n_S.
  induction l as [|y l IHl]; [cbn; lia|]. rewrite Forall_cons_iff in IH. destruct IH as [Hy H]. cbn [fold_right flat_map].
  rewrite app_length. specialize (IHl H). lia.
Qed.
Lemma height_bound h par t : forest h -> repr h par t -> height t <= next h.
Proof.
  intros F R. pose proof (height_ids t). enough (length (ids t) <= next h) by lia. apply bounded_length.
  - exact (ids_nodup _ _ _ F R).
  - intros x I. exact (f_fresh _ F _ (repr_live _ _ _ _ R I)).
Qed.
Lemma height_sub t y : In y (tsubs t) -> S (height y) <= height t.
Proof.
  destruct t as [i d a ch l]. cbn [tsubs height]. intros I. apply le_n_S. induction l as [|z l IH]; [easy|]. cbn [fold_right].
  destruct I as [->|I]; [lia|]. specialize (IH I). lia.
Qed.
