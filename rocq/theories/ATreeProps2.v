(* C53: the structure of the trees. *)
From Verif Require Import Base Text LogTextModel ATreeModel ATreeSpec ATreeProofs ATreeProofs2 ATreeProofs3 ATreeProofs4 ATreeProofs5 ATreeProofs6 ATreeProofs7 ATreeProofs8 ATreeProofs9 ATreeProofs10 ATreeProofs11 ATreeExamples.

(* Whatever has been done, the nodes form trees, with parents and lists of sub trees that agree. *)
Theorem C53_forest : forall b h, history b h -> forest h.
Proof. exact history_forest. Qed.
Print Assumptions C53_forest.
Example C53_forest_ex : history true ex5 /\ next ex5 = 5 /\ cell ex5 1 = Some (mkN (Some $"a") None false (Some 0) [3; 2]) /\ cell ex5 3 = Some (mkN (Some $"c") (Some $"2") false (Some 1) []).
Proof. split; [apply ex5_history|now vm_compute]. Qed.

(* firstSubTree and nextSubTree enumerate the sub trees, each once *)
Theorem C53_enumerate : forall b h p n, history b h -> cell h p = Some n ->
  (forall c, In c (subs n) <-> parent_of h c p) /\ firstSubTree h p = Done (hd_error (subs n)) /\
  (forall before x y after, subs n = before ++ x :: y :: after -> nextSubTree h p x = Done (Some y)) /\
  (forall before x, subs n = before ++ [x] -> nextSubTree h p x = Done None).
Proof.
  intros b h p n H E. apply history_forest in H. destruct (f_lists _ H _ _ E) as [ND L]. split; [exact L|]. unfold firstSubTree, nextSubTree, deref. rewrite E. cbn [obind].
  split; [reflexivity|]. split.
  - intros bf x y r S. rewrite S in *. now rewrite next_in_split by now apply nodup_not_before in ND.
  - intros bf x S. rewrite S in *. now rewrite next_in_last by now apply nodup_not_before in ND.
Qed.
Print Assumptions C53_enumerate.
Theorem C53_root : forall b h p fuel, history b h -> live h p -> next h <= fuel -> exists r, root fuel h p = Done r /\ is_root h r /\ below h r p.
Proof. intros b h p fuel H L FU. apply history_forest in H. destruct (root_effect h p H L) as (r & R & B & X). exists r. auto. Qed.
Print Assumptions C53_root.
Example C53_enumerate_ex : firstSubTree ex3 1 = Done (Some 3) /\ nextSubTree ex3 1 3 = Done (Some 2) /\ nextSubTree ex3 1 2 = Done None /\ root 4 ex3 3 = Done 0.
Proof. now vm_compute. Qed.

(* ---- deletion ---- *)
(* The destructor frees the node and all below it, takes it out of the list of its parent and touches nothing else. *)
Theorem C53_delete : forall b h p n fuel, history b h -> cell h p = Some n -> next h <= fuel -> exists h', delete_tree fuel h p = Done h' /\ forest h' /\
  (forall x, below h p x -> ~ live h' x) /\
  (forall x, ~ below h p x -> parent n <> Some x -> cell h' x = cell h x) /\
  (forall q m, parent n = Some q -> cell h q = Some m -> exists before after, subs m = before ++ p :: after /\
     cell h' q = Some (mkN (desc m) (attr m) true (parent m) (before ++ after))).
Proof.
  intros b h p n fuel H E FU. apply history_forest in H. destruct (delete_ok h p n fuel H E FU) as (t & h' & R & <- & D & (NX & DEAD & SAME & PAR) & F'). exists h'.
  split; [exact D|]. split; [exact F'|]. split; [|split].
  - intros x B. apply (ids_below _ _ _ _ H R) in B. unfold live. rewrite (DEAD x B). easy.
  - intros x NB NP. apply SAME; [|exact NP]. intros I. apply NB. now apply (ids_below _ _ _ _ H R).
  - intros q m P Em. destruct (PAR q P) as (m' & Em' & C). rewrite Em in Em'. injection Em' as <-.
    assert (I : In (tid t) (subs m)) by (apply (f_lists _ H _ _ Em); exists n; auto). destruct (remove_first_split _ _ I) as (bf & af & S1 & S2). exists bf, af. split; [exact S1|].
    rewrite C, S2. reflexivity.
Qed.
Print Assumptions C53_delete.
(* unlink: the node is the root of its own tree *)
Theorem C53_unlink : forall b h p n, history b h -> cell h p = Some n -> exists h', unlink h p = Done h' /\ forest h' /\
  cell h' p = Some (mkN (desc n) (attr n) (changed n) None (subs n)) /\
  (forall x, x <> p -> parent n <> Some x -> cell h' x = cell h x) /\
  (forall q m, parent n = Some q -> cell h q = Some m -> exists before after, subs m = before ++ p :: after /\
     cell h' q = Some (mkN (desc m) (attr m) true (parent m) (before ++ after))).
Proof.
  intros b h p n H E. apply history_forest in H. pose proof (unlink_effect h p n H E) as U. destruct (parent n) as [q|] eqn:P.
  - destruct U as (m & Em & I & D & U). eexists. split; [exact U|]. split; [eapply unlink_forest; [exact H|exact U]|]. split; [now rewrite put_same|]. split.
    + intros x Dx NQ. rewrite !put_other by congruence. reflexivity.
    + intros q' m' Eq Em'. injection Eq as <-. rewrite Em in Em'. injection Em' as <-. destruct (remove_first_split _ _ I) as (bf & af & S1 & S2). exists bf, af. split; [exact S1|].
      rewrite put_other, put_same by auto. rewrite S2. reflexivity.
  - exists h. split; [exact U|]. split; [exact H|]. split; [rewrite E, <- P; now destruct n|]. split; [auto|]. discriminate.
Qed.
Print Assumptions C53_unlink.
(* deleting the parent afterwards does not delete it *)
Theorem C53_unlink_survives : forall b h p h1 q fuel h2 x, history b h -> parent_of h p q -> unlink h p = Done h1 -> next h <= fuel -> delete_tree fuel h1 q = Done h2 ->
  below h1 p x -> cell h2 x = cell h1 x /\ live h2 x.
Proof.
  intros b h p h1 q fuel h2 x H (n & E & P) U FU D B.
  assert (H1 : history b h1) by (eapply more; [exact H|]; eapply o_unlink; exact U).
  pose proof (C53_unlink b h p n H E) as (h1' & U' & F1 & C1 & C2 & C3). rewrite U in U'. injection U' as <-.
  assert (F := history_forest _ _ H). assert (Lq : live h q) by (eapply f_parents; [exact F|]; exists n; eauto).
  pose proof (unlink_effect h p n F E) as UE. rewrite P in UE. destruct UE as (m & Em & I & D1 & UE). rewrite U in UE. injection UE as UE.
  assert (NX : next h1 = next h) by (rewrite UE; reflexivity).
  destruct (C3 q m P Em) as (bf & af & S1 & Cq).
  assert (BB : forall z, below h1 p z -> below h p z).
  { intros z Z. induction Z as [|y z Z IH (k & Ek & Pk)]; [constructor|]. econstructor; [exact IH|].
    destruct (Nat.eq_dec z p) as [->|]; [rewrite C1 in Ek; injection Ek as <-; discriminate|].
    destruct (Nat.eq_dec z q) as [->|]; [rewrite Cq in Ek; injection Ek as <-; exists m; auto|]. rewrite C2 in Ek by (auto; congruence). exists k. auto. }
  assert (NB : ~ below h1 q x).
  { intros B'. (* q above x and the root p above x *)
    assert (R : is_root h1 p) by (eexists; split; [exact C1|reflexivity]).
    assert (A : forall y z, below h1 p y -> below h1 z y -> below h1 p z \/ below h1 z p).
    { intros y z By. revert z. induction By as [|y c By IH PO]; intros z Bz; [now right|]. inversion Bz as [|y' c' By' PO']; subst; [left; econstructor; eassumption|].
      apply IH. now rewrite (parent_fun _ _ _ _ PO PO'). }
    assert (NBq : ~ below h p q).
    { intros Z. eapply below_not_above; [exact F| |exact Z]. exists n. auto. }
    destruct (A x q B B') as [Z|Z].
    - exact (NBq (BB q Z)).
    - exact (root_not_below _ _ _ R D1 Z). }
  assert (NP : forall k, cell h1 q = Some k -> parent k <> Some x).
  { intros k Ek Pk. rewrite Cq in Ek. injection Ek as <-. cbn in Pk. assert (Z : below h p x) by exact (BB x B).
    eapply below_not_above; [exact F| |]. { exists n. split; [exact E|exact P]. } econstructor; [exact Z|]. exists m. auto. }
  destruct (C53_delete b h1 q _ fuel H1 Cq ltac:(lia)) as (h2' & D' & _ & _ & SAME & _). rewrite D in D'. injection D' as <-.
  assert (EQ : cell h2 x = cell h1 x) by (apply SAME; [exact NB|exact (NP _ Cq)]). split; [exact EQ|]. unfold live. rewrite EQ.
  eapply below_live; [exact F1| |exact B]. apply live_ex. eauto.
Qed.
Print Assumptions C53_unlink_survives.
Theorem C53_unlinkSub : forall b h p n, history b h -> cell h p = Some n -> exists h', unlinkSub h p = Done h' /\ forest h' /\
  cell h' p = Some (mkN (desc n) (attr n) (changed n) (parent n) []) /\
  (forall c k, In c (subs n) -> cell h c = Some k -> cell h' c = Some (mkN (desc k) (attr k) (changed k) None (subs k))) /\
  (forall x, x <> p -> ~ In x (subs n) -> cell h' x = cell h x).
Proof.
  intros b h p n H E. apply history_forest in H. destruct (unlinkSub_effect h p n H E) as (h' & U & _ & C). exists h'. split; [exact U|]. split; [eapply unlinkSub_forest; eauto|].
  split; [rewrite C, Nat.eqb_refl; reflexivity|]. split.
  - intros c k I Ek. rewrite C. destruct (Nat.eqb_spec c p) as [->|]; [exfalso; apply (f_lists _ H _ _ E) in I; exact (not_own_parent _ _ H I)|].
    destruct in_dec; [|contradiction]. now rewrite Ek.
  - intros x D NI. rewrite C. destruct (Nat.eqb_spec x p); [contradiction|]. destruct in_dec; [contradiction|reflexivity].
Qed.
Print Assumptions C53_unlinkSub.
Example C53_delete_ex : let h := the_heap (delete_tree 9 ex3 1) in is_done (delete_tree 9 ex3 1) = true /\ cell h 0 = Some (mkN None None true None []) /\ cell h 1 = None /\ cell h 2 = None /\ cell h 3 = None.
Proof. now vm_compute. Qed.
Example C53_unlink_ex : let h := the_heap (unlink ex3 2) in let g := the_heap (delete_tree 9 h 1) in is_done (unlink ex3 2) = true /\ is_done (delete_tree 9 h 1) = true /\
  cell g 2 = Some (mkN (Some $"b") (Some $"1") true None []) /\ cell g 3 = None.
Proof. now vm_compute. Qed.

(* ---- copies ---- *)
(* The copy constructors: new nodes with the same descriptions and attributes, but with every list of sub trees reversed;
   the original is as before. *)
Theorem C53_copy : forall b h p n par fuel, history b h -> cell h p = Some n -> (forall q, par = Some q -> live h q) -> next h <= fuel ->
  exists t h' c t', repr h (parent n) t /\ tid t = p /\ copy_tree fuel h p par = Done (h', c) /\ forest h' /\ repr h' par t' /\ tid t' = c /\
    content_of t' = reversed (content_of t) /\ (forall y, In y (nodes t') -> tchanged y = false) /\ (forall x, In x (ids t') -> ~ live h x) /\
    (forall x, live h x -> par <> Some x -> cell h' x = cell h x) /\
    (forall q m, par = Some q -> cell h q = Some m -> cell h' q = Some (mkN (desc m) (attr m) (changed m) (parent m) (c :: subs m))).
Proof.
  intros b h p n par fuel H E LP FU. apply history_forest in H. destruct (copy_ok h p n par fuel H E LP FU) as (t & h' & t' & R & T & C & (I & _ & (ND & FR) & R' & CT & CH & SAME & PAR) & F').
  exists t, h', (next h), t'. do 7 (split; [assumption|]). split; [exact CH|]. split; [|split].
  - intros x Ix L. apply FR in Ix. pose proof (f_fresh _ H x L). lia.
  - intros x L NP. apply SAME; [|exact NP]. intros Ix. apply FR in Ix. pose proof (f_fresh _ H x L). lia.
  - intros q m Q Em. rewrite (PAR q m Q Em). reflexivity.
Qed.
Print Assumptions C53_copy.
(* a copy of a copy has the order of the original *)
Theorem C53_copy_order : forall c, reversed (reversed c) = c.
Proof. exact reversed_twice. Qed.
Print Assumptions C53_copy_order.
(* "Creates new Tree with same attributes and subtree": the order of the sub trees is another one *)
Theorem C53_copy_same_refuted : exists h p h' c k n m, history true h /\ copy_tree k h p None = Done (h', c) /\ cell h p = Some n /\ cell h' c = Some m /\
  exists x y xd yd, hd_error (subs n) = Some x /\ hd_error (subs m) = Some y /\ described h xd x /\ described h' yd y /\ xd <> yd.
Proof.
  exists ex3, 1, (heap_of (copy_tree 9 ex3 1 None)), 4, 9. do 2 eexists. split; [apply ex3_history|]. split; [exact (heap_done (copy_tree 9 ex3 1 None) 0 eq_refl)|].
  split; [now vm_compute|]. split; [now vm_compute|]. exists 3, 6, $"c", $"b". split; [reflexivity|]. split; [reflexivity|].
  split; [eexists; now vm_compute|]. split; [eexists; now vm_compute|discriminate].
Qed.
Print Assumptions C53_copy_same_refuted.
(* revertOrder: every list of sub trees is reversed, and nothing else happens *)
Theorem C53_revert : forall b h p n fuel, history b h -> cell h p = Some n -> next h <= fuel -> exists h', revertOrder fuel h p = Done h' /\ forest h' /\
  (forall x, ~ below h p x -> cell h' x = cell h x) /\
  (forall x k, below h p x -> cell h x = Some k -> cell h' x = Some (mkN (desc k) (attr k) (changed k) (parent k) (rev (subs k)))).
Proof.
  intros b h p n fuel H E FU. apply history_forest in H. destruct (revert_ok h p n fuel H E FU) as (t & h' & R & <- & U & R' & SB & NX & F').
  exists h'. split; [exact U|]. split; [exact F'|]. split.
  - intros x NB. apply SB. intros I. apply NB. now apply (ids_below _ _ _ _ H R).
  - intros x k B Ek. apply (ids_below _ _ _ _ H R) in B. clear - R R' B Ek. revert R R' B Ek. generalize (parent n) as q. revert x k.
    induction t as [i d a ch l IH] using tree_ind'. intros x k q R R' B Ek. cbn [revt] in R'. apply repr_eq in R, R'. destruct R as [C R]. destruct R' as [C' R'].
    rewrite ids_eq in B. destruct B as [<-|B].
    + rewrite C in Ek. injection Ek as <-. cbn. rewrite C'. do 2 f_equal. rewrite map_rev, map_map. f_equal. apply map_ext. intros y. apply revt_id.
    + apply in_flat_map in B. destruct B as (y & Iy & B). rewrite Forall_forall in IH, R, R'. apply (IH y Iy x k (Some i)); auto. apply R'. rewrite <- in_rev. now apply in_map.
Qed.
Print Assumptions C53_revert.
Example C53_revert_ex : is_done (revertOrder 9 ex3 0) = true /\ cell (the_heap (revertOrder 9 ex3 0)) 1 = Some (mkN (Some $"a") None false (Some 0) [2; 3]).
Proof. now vm_compute. Qed.

(* ---- new sub trees ---- *)
(* newSubNodeDescription: the base and the least number, from 1, for which there is no sub tree *)
Theorem C53_new_name : forall b h p n base fuel, history b h -> cell h p = Some n -> (Z.of_nat (length (subs n)) < 99999)%Z -> length (subs n) < fuel -> ~ ends_in_digit base ->
  exists k, first_number h n base k /\ newSubNodeDescription fuel false h p base = Done (base ++ dec (Z.of_nat k)).
Proof.
  intros b h p n base fuel H E LT FU N. apply history_forest in H. destruct (newSub_ok h p n base fuel H E LT FU) as (k & K & X & NT & T).
  - intros x c B D. apply N. exists x, c. auto.
  - exists k. split; [split; auto|exact X].
Qed.
Print Assumptions C53_new_name.
(* addNewSubTree: a new sub tree with this number, without an attribute *)
Theorem C53_add_new : forall b h p n fuel, history b h -> cell h p = Some n -> (Z.of_nat (length (subs n)) < 99999)%Z -> length (subs n) < fuel ->
  exists k h' c, first_number h n [] k /\ addNewSubTree fuel false h p = Done (h', c) /\ sub_named h' p (dec (Z.of_nat k)) c /\ only_wrote h h' c None.
Proof.
  intros b h p n fuel H E LT FU. destruct (C53_new_name b h p n [] fuel H E LT FU) as (k & FN & X).
  { intros (x & c & Z & _). now destruct x. }
  unfold addNewSubTree. rewrite X. cbn [obind app]. assert (ND : ~ In "."%char (dec (Z.of_nat k))).
  { intros I. pose proof (LogTextProofs.dec_numeral (Z.of_nat k)) as NM. unfold LogTextSpec.numeral in NM. destruct (Z.ltb_spec (Z.of_nat k) 0); [lia|].
    destruct NM as (d & Ed & _ & DG & _). cbn [app] in Ed. rewrite Ed in I. apply DG in I. discriminate. }
  assert (NE : dec (Z.of_nat k) <> []).
  { pose proof (LogTextProofs.dec_numeral (Z.of_nat k)) as NM. unfold LogTextSpec.numeral in NM. destruct (Z.ltb_spec (Z.of_nat k) 0); [lia|].
    destruct NM as (d & Ed & NEd & _). cbn [app] in Ed. now rewrite Ed. }
  assert (L : live h p) by (apply live_ex; eauto). apply history_forest in H.
  destruct (set_ok (Some (dec (Z.of_nat k))) None h p H L) as (h' & c & S & _ & W & PT & _). exists k, h', c. split; [exact FN|]. split; [exact S|]. split; [|exact W].
  cbn [parts] in PT. replace (split_dots (dec (Z.of_nat k))) with [dec (Z.of_nat k)] in PT.
  - destruct (dec (Z.of_nat k)) as [|c0 r0] eqn:Z; [easy|]. cbn [trunc] in PT. inversion PT as [|p0 d0 c1 l0 x0 SN PE]; subst. inversion PE; subst. assumption.
  - apply components_split. split; [easy|]. split; [|reflexivity]. intros x [<-|[]]. exact ND.
Qed.
Print Assumptions C53_add_new.
Example C53_new_name_ex : newSubNodeDescription 9 false ex3 1 $"b" = Done $"b1" /\ newSubNodeDescription 9 false ex3 1 $"b7" = Done $"b8" /\
  newSubNodeDescription 9 false (heap_of (addNewSubTree 9 false ex3 1)) 1 [] = Done $"2" /\ length (subs (match cell ex3 1 with Some n => n | None => mkN None None false None [] end)) = 2.
Proof. now vm_compute. Qed.

(* addSubTree: the tree is the first sub tree; if its description is taken, it gets a number that is not *)
Theorem C53_add : forall b h p t n m x fuel, history b h -> may_add h p t -> cell h p = Some n -> cell h t = Some m -> desc m = Some x ->
  (Z.of_nat (length (subs n)) < 99999)%Z -> length (subs n) < fuel -> ~ (taken h n x /\ ends_in_digit x) ->
  exists h' d, addSubTree fuel false h p t = Done h' /\ forest h' /\ joined h h' p t (Some d) (t :: subs n) /\
    ((~ taken h n x /\ d = x) \/ (taken h n x /\ exists k, first_number h n x k /\ d = x ++ dec (Z.of_nat k))).
Proof.
  intros b h p t n m x fuel H MA En Em Dm LT FU N. pose proof (history_forest _ _ H) as F.
  assert (NU : taken h n x -> forall b c, x = b ++ [c] -> ~ digit c) by (intros T bb c Z DG; apply N; split; [exact T|exists bb, c; auto]).
  destruct (add_ok h p t m n x fuel F MA En Em Dm LT FU NU None ltac:(congruence)) as [h' A]. destruct (add_inv fuel false h p t None h' F MA A) as (d & J & F' & _ & n' & m' & En' & Em' & X).
  rewrite En in En'. injection En' as <-. rewrite Em in Em'. injection Em' as <-. specialize (J n En). cbn [place] in J.
  destruct X as [[-> LS]|(x' & c & d' & Dm' & LS & NN & ->)].
  - exists h', x. rewrite Dm in *. split; [exact A|]. split; [exact F'|]. split; [exact J|]. left. split; [|reflexivity].
    destruct (used_cases h p n x F En) as [(_ & c & Z)|[NT _]]; [rewrite Z in LS; discriminate|exact NT].
  - rewrite Dm in Dm'. injection Dm' as <-. assert (T : taken h n x) by (destruct (used_cases h p n x F En) as [(T & _)|[_ Z]]; [exact T|rewrite Z in LS; discriminate]).
    destruct (C53_new_name b h p n x fuel H En LT FU) as (k & FN & NN'); [intros Z; apply N; auto|]. rewrite NN in NN'. injection NN' as ->.
    exists h', (x ++ dec (Z.of_nat k)). split; [exact A|]. split; [exact F'|]. split; [exact J|]. right. eauto.
Qed.
Print Assumptions C53_add.
(* addNextTree: the same, behind the node *)
Theorem C53_add_next : forall b h s p t n m x fuel before after, history b h -> parent_of h s p -> may_add h p t -> cell h p = Some n -> cell h t = Some m -> desc m = Some x ->
  (Z.of_nat (length (subs n)) < 99999)%Z -> length (subs n) < fuel -> ~ (taken h n x /\ ends_in_digit x) -> subs n = before ++ s :: after ->
  exists h' d, addNextTree fuel false h s t = Done (Some h') /\ forest h' /\ joined h h' p t (Some d) (before ++ s :: t :: after) /\
    ((~ taken h n x /\ d = x) \/ (taken h n x /\ exists k, first_number h n x k /\ d = x ++ dec (Z.of_nat k))).
Proof.
  intros b h s p t n m x fuel bf af H (ns & Es & Ps) MA En Em Dm LT FU N S. pose proof (history_forest _ _ H) as F.
  assert (NU : taken h n x -> forall b c, x = b ++ [c] -> ~ digit c) by (intros T bb c Z DG; apply N; split; [exact T|exists bb, c; auto]).
  assert (NE : Some s <> None -> subs n <> []) by (intros _; rewrite S; now destruct bf).
  destruct (add_ok h p t m n x fuel F MA En Em Dm LT FU NU (Some s) NE) as [h' A]. destruct (add_inv fuel false h p t (Some s) h' F MA A) as (d & J & F' & _ & n' & m' & En' & Em' & X).
  rewrite En in En'. injection En' as <-. rewrite Em in Em'. injection Em' as <-. specialize (J n En). cbn [place] in J.
  rewrite S in J. rewrite insert_after_split in J. 2:{ destruct (f_lists _ F _ _ En) as [ND _]. rewrite S in ND. now apply nodup_not_before in ND. }
  assert (A' : addNextTree fuel false h s t = Done (Some h')) by (unfold addNextTree, deref; rewrite Es; cbn [obind]; rewrite Ps, A; reflexivity).
  destruct X as [[-> LS]|(x' & c & d' & Dm' & LS & NN & ->)].
  - exists h', x. rewrite Dm in *. split; [exact A'|]. split; [exact F'|]. split; [exact J|]. left. split; [|reflexivity].
    destruct (used_cases h p n x F En) as [(_ & c & Z)|[NT _]]; [rewrite Z in LS; discriminate|exact NT].
  - rewrite Dm in Dm'. injection Dm' as <-. assert (T : taken h n x) by (destruct (used_cases h p n x F En) as [(T & _)|[_ Z]]; [exact T|rewrite Z in LS; discriminate]).
    destruct (C53_new_name b h p n x fuel H En LT FU) as (k & FN & NN'); [intros Z; apply N; auto|]. rewrite NN in NN'. injection NN' as ->.
    exists h', (x ++ dec (Z.of_nat k)). split; [exact A'|]. split; [exact F'|]. split; [exact J|]. right. eauto.
Qed.
Print Assumptions C53_add_next.
Example C53_add_ex : may_add ex5 0 4 /\ is_done (addSubTree 9 false ex5 0 4) = true /\ cell (the_heap (addSubTree 9 false ex5 0 4)) 4 = Some (mkN (Some $"a1") None false (Some 0) []) /\
  cell (the_heap (addSubTree 9 false ex5 0 4)) 0 = Some (mkN None None false None [4; 1]) /\ ~ ends_in_digit $"a".
Proof.
  split.
  { split; [now apply alive_live|]. split; [eapply root_of; now vm_compute|]. apply root_not_below; [eapply root_of; now vm_compute|discriminate]. }
  do 3 (split; [now vm_compute|]). intros (b & c & E & D). destruct b as [|y b]; [|destruct b; discriminate]. injection E as <-. unfold digit in D. vm_compute in D. lia.
Qed.

(* ---- what goes wrong ---- *)
(* a node without sub trees: a member function is called through a null pointer *)
Theorem C53_add_leaf_refuted : exists h p t, history true h /\ may_add h p t /\ addSubTree 9 true h p t = Undef.
Proof.
  exists ex5, 2, 4. split; [apply ex5_history|]. split; [|now vm_compute]. split; [now apply alive_live|]. split; [eapply root_of; now vm_compute|].
  intros B. inversion B as [|x c B1 (n1 & E1 & P1)]; subst. vm_compute in E1. injection E1 as <-. injection P1 as <-.
  inversion B1 as [|x c B2 (n2 & E2 & P2)]; subst. vm_compute in E2. injection E2 as <-. injection P2 as <-.
  inversion B2 as [|x c B3 (n3 & E3 & P3)]; subst. vm_compute in E3. injection E3 as <-. discriminate.
Qed.
Print Assumptions C53_add_leaf_refuted.
(* a description of digits only that is taken: the character before the description is read *)
Theorem C53_add_digits_refuted : exists h p t, history false h /\ may_add h p t /\ addSubTree 9 false h p t = Undef.
Proof.
  exists ex8, 0, 3. split; [apply ex8_history|]. split; [|now vm_compute]. split; [now apply alive_live|]. split; [eapply root_of; now vm_compute|].
  apply root_not_below; [eapply root_of; now vm_compute|discriminate].
Qed.
Print Assumptions C53_add_digits_refuted.
(* a tree that is still a sub tree of another: it is in two lists and is deleted twice *)
Theorem C53_add_twice_refuted : exists h p t h', history false h /\ live h p /\ live h t /\ ~ below h t p /\ addSubTree 9 false h p t = Done h' /\ ~ forest h' /\
  exists h'', delete_tree 9 h' p = Done h'' /\ delete_tree 9 h'' 0 = Undef.
Proof.
  exists ex5, 4, 1, (the_heap (addSubTree 9 false ex5 4 1)). split; [apply ex5_history|]. split; [now apply alive_live|]. split; [now apply alive_live|].
  split; [apply root_not_below; [eapply root_of; now vm_compute|discriminate]|]. split; [apply the_done; now vm_compute|]. split.
  - intros F. set (g := the_heap _) in F. assert (C0 : cell g 0 = Some (mkN None None false None [1])) by now vm_compute.
    assert (C1 : exists n, cell g 1 = Some n /\ parent n = Some 4) by (eexists; now vm_compute).
    assert (P : parent_of g 1 0) by (apply (f_lists _ F _ _ C0); now left). pose proof (parent_fun _ _ _ _ P C1). discriminate.
  - exists (the_heap (delete_tree 9 (the_heap (addSubTree 9 false ex5 4 1)) 4)). split; [apply the_done; now vm_compute|now vm_compute].
Qed.
Print Assumptions C53_add_twice_refuted.
(* a tree below itself: the nodes are in a cycle, and root(), contains() and the destructor do not return *)
Theorem C53_add_cycle_refuted : exists h p h', history false h /\ is_root h p /\ addSubTree 9 false h p p = Done h' /\
  forall fuel, root fuel h' p = Running /\ contains fuel h' p = Running.
Proof.
  exists ex1, 0, (the_heap (addSubTree 9 false ex1 0 0)). split; [apply ex1_history|]. split; [eapply root_of; now vm_compute|]. split; [apply the_done; now vm_compute|].
  set (g := the_heap _). assert (C0 : cell g 0 = Some (mkN None None false (Some 0) [0])) by now vm_compute.
  intros fuel. split; [eapply search_fuel_root; [exact C0|reflexivity]|]. eapply contains_loop; [exact C0|now left|]. intros c [<-|[]]. reflexivity.
Qed.
Print Assumptions C53_add_cycle_refuted.
