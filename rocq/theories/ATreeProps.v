(* C52: getAttribute, setAttribute, getOrSetDefault, isAttribute, search, contains, changed. *)
From Verif Require Import Base Text LogTextModel ATreeModel ATreeSpec ATreeProofs ATreeProofs5 ATreeProofs6 ATreeProofs7 ATreeProofs8 ATreeProofs9 ATreeProofs10 ATreeExamples.

(* Every description has exactly one list of components. *)
Theorem C52_components : forall s, exists l, components s l /\ forall l', components s l' -> l' = l.
Proof. intros s. exists (split_dots s). split; [now apply components_split|]. intros l' C. now apply components_split. Qed.
Print Assumptions C52_components.
Example C52_components_ex : components $"Pushbutton.1.x" [$"Pushbutton"; $"1"; $"x"].
Proof. apply components_split. reflexivity. Qed.

(* Three cases for a description: the node has an attribute, it has none, or there is no such node. *)
Theorem C52_get_cases : forall b h p l, history b h -> live h p ->
  (exists c a, stored h p l c a) \/
  (exists x n, path h p l x /\ cell h x = Some n /\ attr n = None) \/
  (exists l1 d l2 x n, l = l1 ++ d :: l2 /\ path h p l1 x /\ cell h x = Some n /\ forall c, ~ sub_named h x d c).
Proof.
  intros b h p l H L. apply history_forest in H. destruct (path_cases h l H p L) as [(x & n & P & E)|X]; [|auto].
  destruct (attr n) as [a|] eqn:A; [left; exists x, a; split; [exact P|eauto]|right; left; eauto].
Qed.
Print Assumptions C52_get_cases.
(* the attribute that is stored is returned ... *)
Theorem C52_get_stored : forall b h strict fuel p s l c a def, history b h -> ordinary s -> components s l -> stored h p l c a ->
  getAttribute fuel strict h p (Some s) def = Done (Some a, Some c).
Proof. intros b h strict fuel p s l c a def H O C S. apply components_split in C. subst l. apply get_found; auto. eapply history_forest; eauto. Qed.
Print Assumptions C52_get_stored.
(* ... and otherwise the default; but if the search ends at a node without sub trees, the C++ standard leaves it undefined *)
Theorem C52_get_unset : forall b h strict fuel p s l x n def, history b h -> ordinary s -> components s l -> path h p l x -> cell h x = Some n -> attr n = None ->
  getAttribute fuel strict h p (Some s) def = Done (def, None).
Proof. intros b h strict fuel p s l x n def H O C P E A. apply components_split in C. subst l. eapply get_empty; eauto. eapply history_forest; eauto. Qed.
Print Assumptions C52_get_unset.
Theorem C52_get_missing : forall b h strict fuel p s l1 d l2 x n def, history b h -> ordinary s -> components s (l1 ++ d :: l2) ->
  path h p l1 x -> (forall c, ~ sub_named h x d c) -> cell h x = Some n ->
  getAttribute fuel strict h p (Some s) def = match subs n with [] => if strict then Undef else Done (def, None) | _ :: _ => Done (def, None) end.
Proof. intros b h strict fuel p s l1 d l2 x n def H O C P N E. apply components_split in C. eapply get_missing; eauto. eapply history_forest; eauto. Qed.
Print Assumptions C52_get_missing.
Example C52_get_ex : getAttribute 0 true ex3 0 (Some $"a.b") None = Done (Some $"1", Some 2) /\ getAttribute 0 true ex3 0 (Some $"a.d") (Some $"9") = Done (Some $"9", None) /\
  getAttribute 0 true ex3 0 (Some $"a") (Some $"9") = Done (Some $"9", None).
Proof. now vm_compute. Qed.
(* "If the description is not stored in the tree, the default_attribute is returned": not for a tree that is empty *)
Theorem C52_get_leaf_refuted : exists h p s def, history true h /\ live h p /\ ordinary s /\ getAttribute 1 true h p (Some s) def = Undef.
Proof.
  exists ex1, 0, $"a", None. split; [apply ex1_history|]. split; [now apply alive_live|]. split; [|now vm_compute].
  intros (b & [E|E]); apply (f_equal (@length ascii)) in E; rewrite app_length in E; cbn in E; lia.
Qed.
Print Assumptions C52_get_leaf_refuted.

(* setAttribute stores the attribute at the end of the path and changes no other attribute, description or parent;
   nodes that are needed are added to the lists of sub trees. *)
Theorem C52_set : forall b h p s l a, history b h -> live h p -> components s l -> proper l ->
  exists h' c, setAttribute h p (Some s) a = Done (h', c) /\ path h' p l c /\ only_wrote h h' c a.
Proof.
  intros b h p s l a H L C P. apply components_split in C. subst l. apply history_forest in H. destruct (set_ok (Some s) a h p H L) as (h' & c & S & _ & W & PT & _).
  exists h', c. cbn [parts] in PT. rewrite (trunc_proper _ P) in PT. auto.
Qed.
Print Assumptions C52_set.
(* what is set is what one gets *)
Theorem C52_set_get : forall b h strict fuel p s l v h' c def, history b h -> live h p -> ordinary s -> components s l -> proper l ->
  setAttribute h p (Some s) (Some v) = Done (h', c) -> getAttribute fuel strict h' p (Some s) def = Done (Some v, Some c).
Proof. intros b h strict fuel p s l v h' c def H L O C P S. apply components_split in C. subst l. eapply set_get; eauto. eapply history_forest; eauto. Qed.
Print Assumptions C52_set_get.
(* another description has the value it had *)
Theorem C52_set_other : forall b h fuel p s l a h' c s' l' def, history b h -> live h p -> components s l -> proper l -> setAttribute h p (Some s) a = Done (h', c) ->
  ordinary s' -> components s' l' -> l' <> l -> getAttribute fuel false h' p (Some s') def = getAttribute fuel false h p (Some s') def.
Proof.
  intros b h fuel p s l a h' c s' l' def H L C P S O' C' D. apply components_split in C, C'. subst l l'. apply history_forest in H.
  destruct (set_ok (Some s) a h p H L) as (h2 & c2 & S2 & F2 & _ & _ & L2 & _ & X & _). rewrite S in S2. inversion S2. subst h2 c2.
  apply get_same; auto. apply X. cbn [parts]. rewrite (trunc_proper _ P). exact D.
Qed.
Print Assumptions C52_set_other.
Example C52_set_ex : proper [$"a"; $"b"] /\ ordinary $"a.b" /\ is_done (setAttribute ex3 0 (Some $"a.b") (Some $"7")) = true /\
  (let h := heap_of (setAttribute ex3 0 (Some $"a.b") (Some $"7")) in
   getAttribute 0 true h 0 (Some $"a.b") None = Done (Some $"7", Some 2) /\ getAttribute 0 true h 0 (Some $"a.c") None = Done (Some $"2", Some 3)).
Proof.
  split; [intros [E|[E|[]]]; discriminate|]. split; [|now vm_compute].
  intros (b & [E|E]); apply (f_equal (@length ascii)) in E; rewrite app_length in E; cbn in E; lia.
Qed.
(* "If attribute is 0, it is not set": the attribute is erased *)
Theorem C52_set_null : forall b h strict fuel p s l h' c def, history b h -> live h p -> ordinary s -> components s l -> proper l ->
  setAttribute h p (Some s) None = Done (h', c) -> getAttribute fuel strict h' p (Some s) def = Done (def, None).
Proof.
  intros b h strict fuel p s l h' c def H L O C P S. apply components_split in C. subst l. apply history_forest in H.
  destruct (set_ok (Some s) None h p H L) as (h2 & c2 & S2 & F2 & W & PT & _). rewrite S in S2. inversion S2. subst h2 c2. cbn [parts] in PT. rewrite (trunc_proper _ P) in PT.
  destruct (w_here _ _ _ _ W) as (n & E & A). eapply get_empty; eauto.
Qed.
Print Assumptions C52_set_null.
Theorem C52_set_null_refuted : exists h p s v h' c, history true h /\ live h p /\ getAttribute 1 true h p (Some s) None = Done (Some v, Some c) /\
  setAttribute h p (Some s) None = Done (h', c) /\ getAttribute 1 true h' p (Some s) None = Done (None, None).
Proof.
  exists ex3, 0, $"a.b", $"1", (heap_of (setAttribute ex3 0 (Some $"a.b") None)), 2. split; [apply ex3_history|]. split; [now apply alive_live|]. split; [now vm_compute|].
  split; [|now vm_compute]. exact (heap_done (setAttribute ex3 0 (Some $"a.b") None) 2 eq_refl).
Qed.
Print Assumptions C52_set_null_refuted.
(* with an empty component what is set is not what one gets *)
Theorem C52_empty_component_refuted : exists h p s v h' c, history true h /\ live h p /\ ordinary s /\
  setAttribute h p (Some s) (Some v) = Done (h', c) /\ getAttribute 1 false h' p (Some s) None = Done (None, None).
Proof.
  exists ex3, 0, $"a..b", $"7", (heap_of (setAttribute ex3 0 (Some $"a..b") (Some $"7"))), 1. split; [apply ex3_history|]. split; [now apply alive_live|].
  split; [intros (b & [E|E]); apply (f_equal (@length ascii)) in E; rewrite app_length in E; cbn in E; lia|].
  split; [|now vm_compute]. exact (heap_done (setAttribute ex3 0 (Some $"a..b") (Some $"7")) 1 eq_refl).
Qed.
Print Assumptions C52_empty_component_refuted.

(* getOrSetDefault returns the stored value and changes nothing, or stores and returns the default *)
Theorem C52_default : forall b h strict fuel p s l v h' r, history b h -> live h p -> ordinary s -> components s l -> proper l ->
  getOrSetDefault fuel strict h p (Some s) (Some v) = Done (h', r) ->
  (forall c a, stored h p l c a -> h' = h /\ r = Some a) /\
  ((forall c a, ~ stored h p l c a) -> r = Some v /\ exists c, stored h' p l c v /\ only_wrote h h' c (Some v)).
Proof.
  intros b h strict fuel p s l v h' r H L O C P G. apply components_split in C. subst l. apply history_forest in H. destruct (default_ok _ _ _ _ _ _ _ _ H L O P G) as [A B].
  split; [exact A|]. intros N. destruct (B N) as (R & c & S & ST). split; [exact R|]. exists c. split; [exact ST|].
  destruct (set_ok (Some s) (Some v) h p H L) as (h2 & c2 & S2 & _ & W & _). rewrite S in S2. inversion S2. subst. exact W.
Qed.
Print Assumptions C52_default.
Theorem C52_default_returns : forall b h fuel p s v, history b h -> live h p -> next h <= fuel -> exists h' r, getOrSetDefault fuel false h p (Some s) v = Done (h', r).
Proof.
  intros b h fuel p s v H L FU. apply history_forest in H. unfold getOrSetDefault. destruct (get_total h p (Some s) None fuel H L FU) as [r ->]. cbn [obind].
  destruct (fst r); [eauto|]. destruct (set_ok (Some s) v h p H L) as (h2 & c2 & S2 & _). rewrite S2. cbn. eauto.
Qed.
Print Assumptions C52_default_returns.
Example C52_default_ex : snd_of (getOrSetDefault 1 true ex3 0 (Some $"a.b") (Some $"9")) None = Some $"1" /\ snd_of (getOrSetDefault 1 true ex3 0 (Some $"a.d") (Some $"9")) None = Some $"9" /\
  getAttribute 1 true (heap_of (getOrSetDefault 1 true ex3 0 (Some $"a.d") (Some $"9"))) 0 (Some $"a.d") None = Done (Some $"9", Some 4).
Proof. now vm_compute. Qed.
(* isAttribute: the attribute is stored and, if one is given, is this one *)
Theorem C52_is_attribute : forall b h strict fuel p s l x r, history b h -> live h p -> ordinary s -> components s l -> isAttribute fuel strict h p (Some s) x = Done r ->
  (r = true <-> exists c a, stored h p l c a /\ (x = None \/ x = Some a)).
Proof. intros b h strict fuel p s l x r H L O C G. apply components_split in C. subst l. eapply is_ok; eauto. eapply history_forest; eauto. Qed.
Print Assumptions C52_is_attribute.
Example C52_is_ex : isAttribute 1 true ex3 0 (Some $"a.b") (Some $"1") = Done true /\ isAttribute 1 true ex3 0 (Some $"a.b") (Some $"2") = Done false /\
  isAttribute 1 true ex3 0 (Some $"a.c") None = Done true.
Proof. now vm_compute. Qed.

(* A description that ends in the name for the path or the name of the file is looked up upwards: the nearest node with such a sub tree. *)
Theorem C52_file_attribute : forall b h fuel p x d c n a def, history b h -> live h p -> next h <= fuel -> d = file_path_str \/ d = file_name_str ->
  nearest h d p (Some c) -> cell h c = Some n -> attr n = Some a -> getAttribute fuel false h p (Some (x ++ d)) def = Done (Some a, Some c).
Proof. intros b h fuel p x d c n a def H. intros. eapply get_special; eauto. eapply history_forest; eauto. Qed.
Print Assumptions C52_file_attribute.
Theorem C52_nearest : forall b h d p, history b h -> live h p -> exists r, nearest h d p r /\ forall r', nearest h d p r' -> r' = r.
Proof.
  intros b h d p H L. apply history_forest in H. destruct (getSpecial_ok h d p (next h) H L ltac:(lia)) as (r & N & _). exists r. split; [exact N|].
  intros r' N'. eapply nearest_fun; eauto.
Qed.
Print Assumptions C52_nearest.
Theorem C52_get_returns : forall b h fuel p s def, history b h -> live h p -> next h <= fuel -> exists r, getAttribute fuel false h p s def = Done r.
Proof. intros b h fuel p s def H. intros. apply get_total; auto. eapply history_forest; eauto. Qed.
Print Assumptions C52_get_returns.
Example C52_file_ex : let h := heap_of (setAttribute ex3 0 (Some file_path_str) (Some $"/tmp/")) in
  getAttribute 9 false h 3 (Some file_path_str) None = Done (Some $"/tmp/", Some 4) /\ nearest h file_path_str 3 (Some 4).
Proof.
  cbv zeta. split; [now vm_compute|]. set (h := heap_of _).
  assert (C0 : cell h 0 = Some (mkN None None false None [4; 1])) by now vm_compute.
  assert (C1 : cell h 1 = Some (mkN (Some $"a") None false (Some 0) [3; 2])) by now vm_compute.
  assert (C2 : cell h 2 = Some (mkN (Some $"b") (Some $"1") true (Some 1) [])) by now vm_compute.
  assert (C3 : cell h 3 = Some (mkN (Some $"c") (Some $"2") true (Some 1) [])) by now vm_compute.
  assert (C4 : exists n, cell h 4 = Some n /\ desc n = Some file_path_str) by (eexists; now vm_compute).
  apply near_up with 1.
  - intros c (n & x & y & E & S & _). rewrite C3 in E. injection E as <-. destruct x; discriminate.
  - exists (mkN (Some $"c") (Some $"2") true (Some 1) []). auto.
  - apply near_up with 0.
    + intros c (n & x & y & E & S & (m & Em & D) & _). rewrite C1 in E. injection E as <-. cbn [subs] in S.
      assert (I : In c [3; 2]) by (rewrite S; apply in_elt). destruct I as [<-|[<-|[]]].
      * rewrite C3 in Em. injection Em as <-. discriminate.
      * rewrite C2 in Em. injection Em as <-. discriminate.
    + exists (mkN (Some $"a") None false (Some 0) [3; 2]). auto.
    + apply near_here. exists (mkN None None false None [4; 1]), [], [1]. split; [exact C0|]. split; [reflexivity|]. split; [exact C4|easy].
Qed.

(* ---- the tree below a node ---- *)
(* search: the first node, in the order of the printed tree, with the description and the attribute *)
Theorem C52_search : forall b h fuel p d a, history b h -> live h p -> next h <= fuel -> exists q t, repr h q t /\ tid t = p /\
  search fuel h p d a = Done (option_map tid (find (fun y => opt_is (tdesc y) d && match a with None => true | Some x => opt_is (tattr y) x end) (nodes t))).
Proof.
  intros b h fuel p d a H L FU. apply history_forest in H. destruct (proj1 (live_ex h p) L) as [n E]. destruct (tree_at h p n H E) as (t & R & <-).
  exists (parent n), t. split; [exact R|]. split; [reflexivity|]. apply search_effect with (par := parent n); [exact R|]. pose proof (height_bound _ _ _ H R). lia.
Qed.
Print Assumptions C52_search.
(* contains: the number of nodes in the sub tree that have an attribute *)
Theorem C52_contains : forall b h fuel p, history b h -> live h p -> next h <= fuel ->
  exists l, contains fuel h p = Done (length l) /\ NoDup l /\ forall x, In x l <-> below h p x /\ exists n, cell h x = Some n /\ attr n <> None.
Proof. intros b h fuel p H L FU. apply contains_spec; auto. eapply history_forest; eauto. Qed.
Print Assumptions C52_contains.
Example C52_tree_ex : search 9 ex3 0 $"b" None = Done (Some 2) /\ search 9 ex3 0 $"c" (Some $"1") = Done None /\ contains 9 ex3 0 = Done 2 /\ next ex3 = 4.
Proof. now vm_compute. Qed.

(* ---- changed ---- *)
Theorem C52_changed : forall b h fuel p, history b h -> live h p -> next h <= fuel ->
  exists r, is_changed fuel h p = Done r /\ (r = true <-> exists x n, below h p x /\ cell h x = Some n /\ changed n = true).
Proof. intros b h fuel p H L FU. apply changed_spec; auto. eapply history_forest; eauto. Qed.
Print Assumptions C52_changed.
(* setAttribute: every node above is changed, unless the attribute had this value *)
Theorem C52_set_changed : forall b h p d a h' c, history b h -> live h p -> setAttribute h p d a = Done (h', c) ->
  (exists m, cell h c = Some m /\ attr m = a /\ a <> None /\ forall x, cell h' x = cell h x) \/
  (forall q fuel, below h' q c -> next h' <= fuel -> is_changed fuel h' q = Done true).
Proof. intros b h p d a h' c H L S. eapply set_changed; eauto. eapply history_forest; eauto. Qed.
Print Assumptions C52_set_changed.
(* unmarkChanges: nothing below is changed, and that is all it does *)
Theorem C52_unmark : forall b h fuel p, history b h -> live h p -> next h <= fuel -> exists h', unmarkChanges fuel h p = Done h' /\ is_changed fuel h' p = Done false /\
  (forall x, ~ below h p x -> cell h' x = cell h x) /\
  (forall x n, below h p x -> cell h x = Some n -> cell h' x = Some (mkN (desc n) (attr n) false (parent n) (subs n))).
Proof.
  intros b h fuel p H L FU. apply history_forest in H. destruct (proj1 (live_ex h p) L) as [n E]. destruct (unmark_ok h p n fuel H E FU) as (t & h' & R & <- & U & R' & SB & NX & F').
  exists h'. split; [exact U|]. split; [|split].
  - rewrite <- (unmarkt_id t). erewrite changed_effect; [|exact R'|pose proof (height_bound _ _ _ F' R'); lia]. f_equal.
    destruct (existsb tchanged (nodes (unmarkt t))) eqn:X; [|reflexivity]. exfalso. apply existsb_exists in X. destruct X as (y & I & C). clear - I C. revert y I C.
    induction t as [i d a ch l IH] using tree_ind'. intros y. cbn [unmarkt]. rewrite nodes_eq. intros [<-|I] C; [discriminate|]. apply in_flat_map in I. destruct I as (z & Iz & I).
    apply in_map_iff in Iz. destruct Iz as (w & <- & Iw). rewrite Forall_forall in IH. exact (IH w Iw y I C).
  - intros x NB. apply SB. intros I. apply NB. now apply (ids_below _ _ _ _ H R).
  - intros x k B Ek. apply (ids_below _ _ _ _ H R) in B. clear - R R' B Ek. revert R R' B Ek. generalize (parent n) as q. revert x k.
    induction t as [i d a ch l IH] using tree_ind'. intros x k q R R' B Ek. cbn [unmarkt] in R'. apply repr_eq in R, R'. destruct R as [C R]. destruct R' as [C' R'].
    rewrite ids_eq in B. destruct B as [<-|B].
    + rewrite C in Ek. injection Ek as <-. cbn. rewrite C'. do 2 f_equal. rewrite map_map. apply map_ext. intros y. apply unmarkt_id.
    + apply in_flat_map in B. destruct B as (y & Iy & B). rewrite Forall_forall in IH, R, R'. apply (IH y Iy x k (Some i)); auto. apply R'. now apply in_map.
Qed.
Print Assumptions C52_unmark.
Example C52_changed_ex : is_changed 9 ex3 0 = Done true /\ is_changed 9 ex4 0 = Done false /\ is_changed 9 (heap_of (setAttribute ex4 0 (Some $"a.b") (Some $"1"))) 0 = Done false /\
  is_changed 9 (heap_of (setAttribute ex4 0 (Some $"a.b") (Some $"3"))) 0 = Done true.
Proof. now vm_compute. Qed.
(* "true if any changes occurred since the last call of unmarkChanges()": not for a new sub tree and not for a new description *)
Theorem C52_changed_added_refuted : exists h p t h', history true h /\ may_add h p t /\ addSubTree 9 true h p t = Done h' /\ is_changed 9 h' p = Done false.
Proof.
  exists ex5, 0, 4, (the_heap (addSubTree 9 true ex5 0 4)). split; [apply ex5_history|]. split; [|split; [apply the_done; now vm_compute|now vm_compute]].
  split; [now apply alive_live|]. split; [eapply root_of; now vm_compute|]. apply root_not_below; [eapply root_of; now vm_compute|discriminate].
Qed.
Print Assumptions C52_changed_added_refuted.
Theorem C52_changed_renamed_refuted : exists h p d h', history true h /\ setDescription h p (Some d) = Done h' /\ (exists n, cell h p = Some n /\ desc n <> Some d) /\
  is_changed 9 h' 0 = Done false /\ is_changed 9 h' p = Done false.
Proof.
  exists ex4, 1, $"z", (the_heap (setDescription ex4 1 (Some $"z"))). split; [apply ex4_history|]. split; [apply the_done; now vm_compute|].
  split; [eexists; split; [now vm_compute|discriminate]|now vm_compute].
Qed.
Print Assumptions C52_changed_renamed_refuted.
