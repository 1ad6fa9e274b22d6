From Verif Require Import Base Text LogTextModel ATreeModel ATreeSpec ATreeProofs ATreeProofs2 ATreeProofs3 ATreeProofs4 ATreeProofs5 ATreeProofs6 ATreeProofs7 ATreeProofs8.
From Coq Require Import Permutation.

Definition place (t : nat) (after : option nat) (l : list nat) : list nat := match after with None => t :: l | Some a => insert_after t a l end.
Lemma list_sub_none strict h n r : list_sub strict h n None = Done r -> r = None.
Proof.
  unfold list_sub. intros H. assert (X : forall l, find_sub h l None = Done r -> r = None).
  { induction l as [|c l IH]; cbn [find_sub]; [congruence|]. intros E. apply obind_done in E. destruct E as (k & _ & E). destruct (desc k); [discriminate|auto]. }
  destruct (subs n); [destruct strict; [discriminate|congruence]|eapply X; exact H].
Qed.
Lemma desc_forest h t m d : forest h -> cell h t = Some m -> forest (put h t (set_desc d m)).
Proof. intros F E. eapply forest_links; [|exact F]. eapply put_links; [exact E|reflexivity|apply Permutation_refl]. Qed.
Lemma add_inv fuel strict h p t after h' : forest h -> may_add h p t -> addSubTree_after fuel strict h p t after = Done h' ->
  exists d, (forall n, cell h p = Some n -> joined h h' p t d (place t after (subs n))) /\ forest h' /\ (forall n, after <> None -> cell h p = Some n -> subs n <> []) /\
    exists n m, cell h p = Some n /\ cell h t = Some m /\
      (d = desc m /\ list_sub strict h n (desc m) = Done None \/
       exists x c d', desc m = Some x /\ list_sub strict h n (Some x) = Done (Some c) /\ newSubNodeDescription fuel strict h p x = Done d' /\ d = Some d').
Proof.
  intros F (L & R & NB) H. destruct R as (m & Em & Pm). destruct (proj1 (live_ex h p) L) as [n En].
  assert (D : p <> t) by (intros ->; apply NB; constructor).
  unfold addSubTree_after, deref in H. rewrite En, Em in H. cbn [obind] in H. apply obind_done in H. destruct H as (s & LS & H).
  apply obind_done in H. destruct H as (h1 & N1 & H).
  assert (X : exists d, h1 = h /\ d = desc m /\ s = None \/ exists x c d', s = Some c /\ desc m = Some x /\ newSubNodeDescription fuel strict h p x = Done d' /\ d = Some d' /\ h1 = put h t (set_desc d m)).
  { destruct s as [c|]; [|exists (desc m); left; inversion N1; auto]. destruct (desc m) as [x|] eqn:DM; [|discriminate].
    apply obind_done in N1. destruct N1 as (d' & ND & N1). apply update_inv in N1. destruct N1 as (m' & Em' & ->). rewrite Em in Em'. inversion Em'. subst m'.
    exists (Some d'). right. exists x, c, d'. auto. }
  destruct X as (d & X). exists d.
  assert (F1 : forest h1) by (destruct X as [(-> & _)|(? & ? & ? & _ & _ & _ & _ & ->)]; [exact F|now apply desc_forest]).
  assert (C1 : forall x, cell h1 x = if x =? t then Some (set_desc d m) else cell h x).
  { intros x. destruct X as [(-> & -> & _)|(? & ? & ? & _ & _ & _ & _ & ->)]; [|now rewrite cell_put]. destruct (Nat.eqb_spec x t) as [->|]; [|reflexivity]. rewrite Em. now destruct m. }
  assert (NX : next h1 = next h) by (destruct X as [(-> & _)|(? & ? & ? & _ & _ & _ & _ & ->)]; reflexivity).
  assert (E1 : cell h1 p = Some n) by (rewrite C1; destruct (Nat.eqb_spec p t); [contradiction|exact En]).
  assert (E2 : cell h1 t = Some (set_desc d m)) by (rewrite C1, Nat.eqb_refl; reflexivity).
  rewrite E1 in H. cbn [obind] in H. apply obind_done in H. destruct H as (h2 & P2 & H).
  assert (Y : h2 = put h1 p (set_subs (place t after (subs n)) n) /\ (after <> None -> subs n <> [])).
  { unfold place. destruct after as [a|]; [|inversion P2; split; [reflexivity|easy]]. destruct (subs n); [discriminate|]. inversion P2. split; [reflexivity|easy]. }
  destruct Y as [-> NE]. apply update_inv in H. destruct H as (m' & Em' & ->). rewrite put_other in Em' by auto. rewrite E2 in Em'. inversion Em'. subst m'. clear Em'.
  assert (NI : ~ In t (subs n)) by (intros I; apply (f_lists _ F _ _ En) in I; destruct I as (k & A & B); congruence).
  split; [|split; [|split]].
  - intros n0 E0. rewrite En in E0. injection E0 as <-. exists n, m. split; [exact En|]. split; [exact Em|]. split; [rewrite !next_put; exact NX|]. rewrite !cell_put, Nat.eqb_refl. split; [reflexivity|].
    destruct (Nat.eqb_spec p t); [contradiction|]. rewrite Nat.eqb_refl. split; [reflexivity|]. intros x D1 D2. rewrite !cell_put, C1.
    destruct (Nat.eqb_spec x t); [contradiction|]. destruct (Nat.eqb_spec x p); [contradiction|]. reflexivity.
  - assert (NB1 : ~ below h1 t p).
    { intros B. apply NB. clear - B Em C1. induction B as [|y z B IH (k & A & P)]; [constructor|]. eapply below_child; [exact IH|].
      rewrite C1 in A. destruct (Nat.eqb_spec z t) as [->|]; [|exists k; auto]. inversion A. subst k. exists m. auto. }
    eapply (add_forest h1 p t n (set_desc d m) (place t after (subs n))); auto.
    + destruct (f_lists _ F _ _ En) as [ND _]. unfold place. destruct after; [now apply insert_after_nodup|now constructor].
    + intros c. unfold place. destruct after as [a|]; [|cbn; intuition congruence]. apply insert_after_in, NE. easy.
  - intros k A E. rewrite En in E. inversion E. subst k. auto.
  - exists n, m. split; [exact En|]. split; [exact Em|]. destruct X as [(_ & -> & ->)|(x & c & d' & -> & DM & ND & -> & _)]; [left; auto|].
    right. exists x, c, d'. rewrite DM in LS. auto.
Qed.
(* addSubTree in the defined cases *)
Lemma add_ok h p t m n x fuel : forest h -> may_add h p t -> cell h p = Some n -> cell h t = Some m -> desc m = Some x ->
  (Z.of_nat (length (subs n)) < 99999)%Z -> length (subs n) < fuel -> (taken h n x -> forall b c, x = b ++ [c] -> ~ digit c) ->
  forall after, (after <> None -> subs n <> []) -> exists h', addSubTree_after fuel false h p t after = Done h'.
Proof.
  intros F (L & R & NB) En Em Dm LT FU N after A. unfold addSubTree_after, deref. rewrite En, Em. cbn [obind]. rewrite Dm.
  assert (D : p <> t) by (intros ->; apply NB; constructor).
  assert (K : forall h1 m1, cell h1 p = Some n -> cell h1 t = Some m1 -> exists h',
     (let* n1 := match cell h1 p with Some n0 => Done n0 | None => Undef end in
      let* h2 := match after with None => Done (put h1 p (set_subs (t :: subs n1) n1)) | Some a => match subs n1 with [] => Undef | l => Done (put h1 p (set_subs (insert_after t a l) n1)) end end in
      update h2 t (set_parent (Some p))) = Done h').
  { intros h1 m1 E1 E2. rewrite E1. cbn [obind]. destruct after as [a|].
    - destruct (subs n) as [|y l] eqn:S; [exfalso; now apply A|]. cbn [obind]. erewrite update_done; [eauto|]. rewrite put_other by auto. exact E2.
    - cbn [obind]. erewrite update_done; [eauto|]. rewrite put_other by auto. exact E2. }
  destruct (used_cases h p n x F En) as [(U & c & X)|[NU X]]; rewrite X; cbn [obind].
  - destruct (newSub_ok h p n x fuel F En LT FU (N U)) as (k & _ & Z & _). rewrite Z. cbn [obind]. unfold setDescription. rewrite (update_done _ _ _ m Em). cbn [obind].
    destruct (K (put h t (set_desc (Some (x ++ dec (Z.of_nat k))) m)) (set_desc (Some (x ++ dec (Z.of_nat k))) m)) as [h' H]; [rewrite put_other by auto; exact En|apply put_same|].
    exists h'. destruct after; exact H.
  - destruct (K h m En Em) as [h' H]. exists h'. destruct after; exact H.
Qed.

(* ---- every history leaves a forest ---- *)
Lemma attribute_forest h p d a h' c : forest h -> live h p -> setAttribute h p d a = Done (h', c) -> forest h'.
Proof. intros F L S. destruct (set_ok d a h p F L) as (h2 & c2 & S2 & F2 & _). rewrite S in S2. inversion S2. subst. exact F2. Qed.
Lemma update_forest h p f h' : (forall n, parent (f n) = parent n /\ subs (f n) = subs n) -> forest h -> update h p f = Done h' -> forest h'.
Proof.
  intros X F U. apply update_inv in U. destruct U as (n & E & ->). eapply forest_links; [|exact F]. eapply put_links; [exact E|apply X|].
  rewrite (proj2 (X n)). apply Permutation_refl.
Qed.
Lemma cell_of_done {A} h p (f : node -> outcome A) r : (let* n := deref h p in f n) = Done r -> exists n, cell h p = Some n.
Proof. intros H. apply obind_done in H. destruct H as (n & E & _). apply deref_done in E. eauto. Qed.
Lemma operation_forest strict h h' : forest h -> operation strict h h' -> forest h'.
Proof.
  intros F O. destruct O.
  - eapply new_tree_forest in H0; [exact (proj1 H0)|exact F|exact H].
  - destruct fuel as [|f]; [discriminate|]. destruct (cell_of_done _ _ _ _ H0) as [n E]. destruct (copy_ok h src n par (S f) F E H H1) as (t & h2 & t2 & _ & _ & C & _ & F2).
    rewrite H0 in C. inversion C. subst. exact F2.
  - destruct fuel as [|f]; [discriminate|]. destruct (cell_of_done _ _ _ _ H) as [n E]. destruct (delete_ok h p n (S f) F E H0) as (t & h2 & _ & _ & C & _ & F2).
    rewrite H in C. inversion C. subst. exact F2.
  - eapply unlink_forest; eauto.
  - eapply unlinkSub_forest; eauto.
  - eapply update_forest; [|exact F|exact H]. intros n. now split.
  - eapply attribute_forest; eauto.
  - unfold subTree in H0. apply obind_done in H0. destruct H0 as (s & _ & S). destruct s as [x|]; [inversion S; subst; exact F|].
    eapply new_tree_forest in S; [exact (proj1 S)|exact F|]. intros q [= <-]. exact H.
  - unfold getOrSetDefault in H0. apply obind_done in H0. destruct H0 as (r & _ & S). destruct (fst r); [inversion S; subst; exact F|].
    apply obind_done in S. destruct S as ([h2 c] & S & Z). inversion Z. subst. eapply attribute_forest; eauto.
  - unfold addNewSubTree in H0. apply obind_done in H0. destruct H0 as (d & _ & S). eapply attribute_forest; eauto.
  - unfold addSubTree in H0. destruct (add_inv _ _ _ _ _ _ _ F H H0) as (d & _ & F2 & _). exact F2.
  - unfold addNextTree in H1. apply obind_done in H1. destruct H1 as (n & E & S). apply deref_done in E. destruct H as (n' & E' & P). rewrite E in E'. inversion E'. subst n'. rewrite P in S.
    apply obind_done in S. destruct S as (h2 & S & Z). inversion Z. subst h2. destruct (add_inv _ _ _ _ _ _ _ F H0 S) as (d & _ & F2 & _). exact F2.
  - eapply update_forest; [|exact F|exact H]. intros n. now split.
  - eapply update_forest; [|exact F|exact H]. intros n. now split.
  - unfold setComment in H0. eapply attribute_forest; [exact F|exact H|exact H0].
  - destruct fuel as [|f]; [discriminate|]. assert (E : exists n, cell h p = Some n). { cbn [unmarkChanges] in H. apply obind_done in H. destruct H as (h1 & U & _). apply update_inv in U. destruct U as (n & E & _). eauto. }
    destruct E as [n E]. destruct (unmark_ok h p n (S f) F E H0) as (t & h2 & _ & _ & C & X). rewrite H in C. inversion C. subst. tauto.
  - destruct fuel as [|f]; [discriminate|]. destruct (cell_of_done _ _ _ _ H) as [n E].
    destruct (revert_ok h p n (S f) F E H0) as (t & h2 & _ & _ & C & X). rewrite H in C. inversion C. subst. tauto.
Qed.
Lemma empty_forest : forest empty_heap.
Proof. constructor; unfold live, parent_of; cbn; try congruence; try easy. intros c p (n & E & _). discriminate. Qed.
Lemma history_forest strict h : history strict h -> forest h.
Proof. induction 1; [apply empty_forest|eapply operation_forest; eauto]. Qed.
