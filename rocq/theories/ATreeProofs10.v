From Verif Require Import Base Text LogTextModel ATreeModel ATreeSpec ATreeProofs ATreeProofs2 ATreeProofs3 ATreeProofs4 ATreeProofs5 ATreeProofs6 ATreeProofs7 ATreeProofs8 ATreeProofs9.
From Coq Require Import Permutation.

Lemma components_split s l : components s l <-> l = split_dots s.
Proof.
  split.
  - intros (NE & ND & <-). symmetry. now apply split_unique.
  - intros ->. split; [apply split_ne|]. split; [apply split_parts|apply split_join].
Qed.
Lemma named_list strict h p d c n : forest h -> cell h p = Some n -> sub_named h p d c -> list_sub strict h n (Some d) = Done (Some c).
Proof.
  intros F E S. destruct (list_sub_cases h p n d F E) as [(c' & S' & X)|[N _]]; [|exfalso; exact (N c S)].
  rewrite (sub_named_fun _ _ _ _ _ F S S'). unfold list_sub in *. destruct (subs n); [discriminate|exact X].
Qed.
Lemma named_live h p d c : sub_named h p d c -> live h p /\ live h c.
Proof. intros (n & b & a & E & _ & (m & Em & _) & _). split; apply live_ex; eauto. Qed.
Lemma path_walk_any strict h p l c : forest h -> path h p l c -> walk strict h p l = Done (Some c).
Proof.
  intros F P. induction P as [p|p d c l x S P IH]; [reflexivity|]. cbn [walk]. destruct (proj1 (live_ex h p) (proj1 (named_live _ _ _ _ S))) as [n E].
  unfold deref. rewrite E. cbn [obind]. rewrite (named_list strict h p d c n F E S). exact IH.
Qed.
Lemma walk_app strict h p l l' x : walk strict h p l = Done (Some x) -> walk strict h p (l ++ l') = walk strict h x l'.
Proof.
  revert p. induction l as [|d l IH]; intros p; cbn [walk app]; [congruence|]. intros H. apply obind_done in H. destruct H as (n & E & H). rewrite E. cbn [obind].
  apply obind_done in H. destruct H as (s & E2 & H). rewrite E2. cbn [obind]. destruct s; [auto|discriminate].
Qed.
Lemma find_walk fuel strict h p s : ordinary s -> find_attribute fuel strict h p (Some s) =
  let* w := walk strict h p (split_dots s) in match w with None => Done None | Some c => let* m := deref h c in Done (option_map (fun a => (c, a)) (attr m)) end.
Proof. intros O. destruct (ordinary_ends s O) as [A B]. unfold find_attribute. now rewrite A, B. Qed.
Lemma get_found strict fuel h p s c a def : forest h -> ordinary s -> stored h p (split_dots s) c a -> getAttribute fuel strict h p (Some s) def = Done (Some a, Some c).
Proof.
  intros F O (P & n & E & A). unfold getAttribute. rewrite (find_walk _ _ _ _ _ O), (path_walk_any strict _ _ _ _ F P). cbn [obind]. unfold deref. rewrite E. cbn [obind]. now rewrite A.
Qed.
Lemma get_empty strict fuel h p s x n def : forest h -> ordinary s -> path h p (split_dots s) x -> cell h x = Some n -> attr n = None ->
  getAttribute fuel strict h p (Some s) def = Done (def, None).
Proof.
  intros F O P E A. unfold getAttribute. rewrite (find_walk _ _ _ _ _ O), (path_walk_any strict _ _ _ _ F P). cbn [obind]. unfold deref. rewrite E. cbn [obind]. now rewrite A.
Qed.
Lemma get_missing strict fuel h p s l1 d l2 x n def : forest h -> ordinary s -> split_dots s = l1 ++ d :: l2 -> path h p l1 x -> (forall c, ~ sub_named h x d c) -> cell h x = Some n ->
  getAttribute fuel strict h p (Some s) def = match subs n with [] => if strict then Undef else Done (def, None) | _ :: _ => Done (def, None) end.
Proof.
  intros F O S P N E. unfold getAttribute. rewrite (find_walk _ _ _ _ _ O), S, (walk_app _ _ _ _ (d :: l2) _ (path_walk_any strict _ _ _ _ F P)). cbn [walk]. unfold deref. rewrite E. cbn [obind].
  destruct (list_sub_cases h x n d F E) as [(c & S' & _)|[_ X]]; [exfalso; exact (N c S')|]. unfold list_sub in *.
  destruct (subs n) as [|y l]; [destruct strict; reflexivity|]. rewrite X. reflexivity.
Qed.
Lemma path_cases h l : forest h -> forall p, live h p -> (exists x n, path h p l x /\ cell h x = Some n) \/
  exists l1 d l2 x n, l = l1 ++ d :: l2 /\ path h p l1 x /\ cell h x = Some n /\ forall c, ~ sub_named h x d c.
Proof.
  intros F. induction l as [|d l IH]; intros p L; destruct (proj1 (live_ex h p) L) as [n E].
  - left. exists p, n. split; [constructor|exact E].
  - destruct (list_sub_cases h p n d F E) as [(c & S & _)|[N _]].
    + destruct (IH c (proj2 (named_live _ _ _ _ S))) as [(x & m & P & Em)|(l1 & d' & l2 & x & m & -> & P & Em & N)].
      * left. exists x, m. split; [econstructor; eauto|exact Em].
      * right. exists (d :: l1), d', l2, x, m. split; [reflexivity|]. split; [econstructor; eauto|auto].
    + right. exists [], d, l, p, n. split; [reflexivity|]. split; [constructor|auto].
Qed.
Lemma stored_fun h p l c a c' a' : forest h -> stored h p l c a -> stored h p l c' a' -> c = c' /\ a = a'.
Proof.
  intros F (P & n & E & A) (P' & n' & E' & A'). pose proof (path_walk_any false _ _ _ _ F P) as W. pose proof (path_walk_any false _ _ _ _ F P') as W'.
  assert (c = c') by congruence. subst c'. split; congruence.
Qed.
(* what a call that returned says *)
Lemma get_done strict fuel h p s def r : forest h -> live h p -> ordinary s -> getAttribute fuel strict h p (Some s) def = Done r ->
  (exists c a, stored h p (split_dots s) c a /\ r = (Some a, Some c)) \/ (forall c a, ~ stored h p (split_dots s) c a) /\ r = (def, None).
Proof.
  intros F L O G. assert (G' : getAttribute fuel false h p (Some s) def = Done r) by (destruct strict; [now apply get_strict|exact G]).
  destruct (get_spec fuel h p s def F L O) as [(c & a & S & E)|[N E]]; rewrite E in G'; injection G' as <-; [left|right]; eauto.
Qed.
Lemma default_ok strict fuel h p s v h' r : forest h -> live h p -> ordinary s -> proper (split_dots s) -> getOrSetDefault fuel strict h p (Some s) (Some v) = Done (h', r) ->
  (forall c a, stored h p (split_dots s) c a -> h' = h /\ r = Some a) /\
  ((forall c a, ~ stored h p (split_dots s) c a) -> r = Some v /\ exists c, setAttribute h p (Some s) (Some v) = Done (h', c) /\ stored h' p (split_dots s) c v).
Proof.
  intros F L O P G. unfold getOrSetDefault in G. apply obind_done in G. destruct G as (x & G & H).
  destruct (get_done _ _ _ _ _ _ _ F L O G) as [(c & a & S & ->)|[N ->]]; cbn [fst] in H.
  - injection H as <- <-. split; [|intros N; exfalso; exact (N c a S)]. intros c' a' S'. destruct (stored_fun _ _ _ _ _ _ _ F S S'). now subst.
  - apply obind_done in H. destruct H as ([h2 c] & S & H). injection H as <- <-. split; [intros c' a' S'; exfalso; exact (N _ _ S')|]. intros _. split; [reflexivity|].
    exists c. split; [exact S|]. destruct (set_ok (Some s) (Some v) h p F L) as (h3 & c3 & S3 & F3 & W & PT & _). rewrite S in S3. inversion S3. subst h3 c3.
    cbn [parts] in PT. rewrite (trunc_proper _ P) in PT. split; [exact PT|]. exact (w_here _ _ _ _ W).
Qed.
Lemma is_ok strict fuel h p s x b : forest h -> live h p -> ordinary s -> isAttribute fuel strict h p (Some s) x = Done b ->
  (b = true <-> exists c a, stored h p (split_dots s) c a /\ (x = None \/ x = Some a)).
Proof.
  intros F L O G. unfold isAttribute in G. apply obind_done in G. destruct G as (r & G & H). injection H as <-.
  destruct (get_done _ _ _ _ _ _ _ F L O G) as [(c & a & S & ->)|[N ->]]; cbn [fst].
  - destruct x as [x|].
    + rewrite str_eqb_spec. split; [intros ->; eauto|]. intros (c' & a' & S' & [Z|Z]); [discriminate|]. destruct (stored_fun _ _ _ _ _ _ _ F S S') as [_ ->]. congruence.
    + split; [eauto|easy].
  - split; [destruct x; discriminate|]. intros (c' & a' & S' & _). exfalso. exact (N _ _ S').
Qed.
Lemma set_changed d a h p h' c : forest h -> live h p -> setAttribute h p d a = Done (h', c) ->
  (exists m, cell h c = Some m /\ attr m = a /\ a <> None /\ forall x, cell h' x = cell h x) \/
  forall q fuel, below h' q c -> next h' <= fuel -> is_changed fuel h' q = Done true.
Proof.
  intros F L S. destruct (set_ok d a h p F L) as (h2 & c2 & S2 & F2 & W & _). rewrite S in S2. inversion S2. subst h2 c2.
  destruct (w_here _ _ _ _ W) as (n & E & A). destruct (set_changed_here d a h p h' c n F L S E) as [C|(m & Em & Am & -> & NA)].
  - right. intros q fuel B FU. assert (Lq : live h' q).
    { assert (Lc : live h' c) by (apply live_ex; eauto). clear - B Lc F2. induction B as [|y z B IH PO]; [exact Lc|]. apply IH. exact (f_parents _ F2 _ _ PO). }
    destruct (changed_spec h' q fuel F2 Lq FU) as (b & X & Y). rewrite X. f_equal. apply Y. exists c, n. auto.
  - left. exists m. do 3 (split; [assumption|]). intros x. rewrite cell_put. destruct (Nat.eqb_spec x c) as [->|]; auto.
Qed.
