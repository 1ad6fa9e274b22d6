From Verif Require Import Base Text ATreeModel ATreeSpec ATreeProofs ATreeProofs2 ATreeProofs3 ATreeProofs4 ATreeProofs5 ATreeProofs6.
From Coq Require Import Permutation.
From Verif Require Conc LogTextModel LogManagerProofs4 LogTextProofs.

(* ---- components ---- *)
Lemma split_ne s : split_dots s <> [].
Proof. destruct s as [|c r]; cbn; [easy|]. destruct (split_dots r); [easy|]. destruct (Ascii.eqb c "."); easy. Qed.
Lemma split_join s : join_dots (split_dots s) = s.
Proof.
  induction s as [|c r IH]; [reflexivity|]. cbn [split_dots]. pose proof (split_ne r). destruct (split_dots r) as [|x l]; [easy|].
  destruct (Ascii.eqb_spec c "."%char) as [->|N]; [cbn in *; now rewrite IH|]. destruct l as [|y l]; [cbn in *; now rewrite IH|].
  cbn [join_dots] in *. rewrite <- IH. reflexivity.
Qed.
Lemma split_parts s x : In x (split_dots s) -> ~ In "."%char x.
Proof.
  revert x. induction s as [|c r IH]; cbn [split_dots]; [intros x [<-|[]] []|]. pose proof (split_ne r). destruct (split_dots r) as [|x l]; [easy|].
  destruct (Ascii.eqb_spec c "."%char) as [->|N]; intros y [<-|I]; try (apply IH; assumption).
  - easy.
  - intros [E|I]; [congruence|]. exact (IH x (or_introl eq_refl) I).
  - apply IH. now right.
Qed.
Lemma split_unique l : l <> [] -> (forall x, In x l -> ~ In "."%char x) -> split_dots (join_dots l) = l.
Proof.
  assert (P : forall x r, ~ In "."%char x -> split_dots (x ++ "."%char :: r) = x :: split_dots r).
  { induction x as [|c x IH]; intros r N; cbn [app split_dots].
    - pose proof (split_ne r). destruct (split_dots r); [easy|reflexivity].
    - rewrite IH by (intros I; apply N; now right). destruct (Ascii.eqb_spec c "."%char) as [->|D]; [exfalso; apply N; now left|reflexivity]. }
  assert (Q : forall x, ~ In "."%char x -> split_dots x = [x]).
  { induction x as [|c x IH]; intros N; [reflexivity|]. cbn [split_dots]. rewrite IH by (intros I; apply N; now right).
    destruct (Ascii.eqb_spec c "."%char) as [->|D]; [exfalso; apply N; now left|reflexivity]. }
  induction l as [|x l IH]; intros NE H; [easy|]. destruct l as [|y l]; [apply Q, H; now left|].
  change (join_dots (x :: y :: l)) with (x ++ "."%char :: join_dots (y :: l)). rewrite P by (apply H; now left). f_equal. apply IH; [easy|].
  intros z I. apply H. now right.
Qed.
Lemma ends_with_spec t s : ends_with t s = true <-> exists b, s = b ++ t.
Proof.
  unfold ends_with. rewrite andb_true_iff, Nat.leb_le, str_eqb_spec. split.
  - intros [L E]. exists (firstn (length s - length t) s). rewrite <- E at 2. symmetry. apply firstn_skipn.
  - intros [b ->]. rewrite app_length. split; [lia|]. replace (length b + length t - length t) with (length b) by lia.
    rewrite skipn_app, skipn_all, Nat.sub_diag. reflexivity.
Qed.
Lemma ordinary_ends s : ordinary s -> ends_with file_path_str s = false /\ ends_with file_name_str s = false.
Proof.
  intros O. split; apply not_true_iff_false; intros E; apply ends_with_spec in E; destruct E as [b E]; apply O; exists b; auto.
Qed.
Lemma trunc_proper l : proper l -> trunc l = l.
Proof.
  induction l as [|d l IH]; intros P; [reflexivity|]. destruct d as [|c d]; [exfalso; apply P; now left|]. cbn [trunc]. f_equal. apply IH.
  intros I. apply P. now right.
Qed.

(* ---- paths and walks ---- *)
Lemma described_repr h q t d : repr h q t -> (described h d (tid t) <-> opt_is (tdesc t) d = true).
Proof.
  intros R. rewrite opt_is_spec. unfold described. rewrite (repr_cell _ _ _ R). split; [intros (n & E & D); inversion E; subst; exact D|].
  intros D. eexists. split; [reflexivity|exact D].
Qed.
Lemma child_named h par t d : forest h -> repr h par t -> forall c, sub_named h (tid t) d c <-> option_map tid (child (tsubs t) d) = Some c.
Proof.
  intros F R c. unfold sub_named. rewrite (repr_cell _ _ _ R). pose proof (repr_subs _ _ _ R) as RS. revert RS. generalize (tsubs t) as l.
  generalize (Some (tid t)) as q. intros q l RS. split.
  - intros (n & b & a & E & S & D & N). inversion E. subst n. cbn [subs] in S. clear E. revert b S N. induction l as [|y l IH]; intros b S N; [now destruct b|].
    rewrite Forall_cons_iff in RS. destruct RS as [Ry RS]. cbn [child]. destruct b as [|x b]; cbn [map app] in S; inversion S; subst.
    + apply (described_repr _ _ _ _ Ry) in D. rewrite D. reflexivity.
    + destruct (opt_is (tdesc y) d) eqn:O; [exfalso; apply (N (tid y)); [now left|]; now apply (described_repr _ _ _ _ Ry)|].
      apply (IH RS b); [assumption|]. intros x I. apply N. now right.
  - intros H. exists (mkN (tdesc t) (tattr t) (tchanged t) par (map tid l)). cbn [subs].
    assert (X : exists b a, map tid l = b ++ c :: a /\ described h d c /\ forall x, In x b -> ~ described h d x).
    { induction l as [|y l IH]; [discriminate|]. rewrite Forall_cons_iff in RS. destruct RS as [Ry RS]. cbn [child] in H.
      destruct (opt_is (tdesc y) d) eqn:O.
      - cbn in H. inversion H. exists [], (map tid l). split; [reflexivity|]. split; [now apply (described_repr _ _ _ _ Ry)|easy].
      - destruct (IH RS H) as (b & a & E & D & N). exists (tid y :: b), a. cbn [map app]. split; [now rewrite E|]. split; [exact D|].
        intros x [<-|I]; [|auto]. intros D'. apply (described_repr _ _ _ _ Ry) in D'. congruence. }
    destruct X as (b & a & E & D & N). exists b, a. auto.
Qed.
Lemma path_walk h l : forest h -> forall p, live h p -> forall x, path h p l x <-> walk false h p l = Done (Some x).
Proof.
  intros F. induction l as [|d l IH]; intros p L x.
  - cbn [walk]. split; [intros H; inversion H; reflexivity|]. intros [= ->]. constructor.
  - destruct (proj1 (live_ex h p) L) as [n E]. destruct (tree_at h p n F E) as (t & R & <-). cbn [walk]. unfold deref. rewrite E. cbn [obind].
    rewrite (list_sub_effect false h _ t d n R E).
    replace (match tsubs t with [] => Done None | l0 => Done (option_map tid (child l0 d)) end) with (Done (option_map tid (child (tsubs t) d))) by now destruct (tsubs t).
    cbn [obind]. split.
    + intros H. inversion H as [|? ? c ? ? N P]; subst. apply (child_named h _ t d F R) in N. destruct (child (tsubs t) d) as [y|] eqn:CH; inversion N. subst c. cbn [option_map].
      apply child_in in CH. destruct (sub_tree _ _ _ _ R (proj1 CH)) as [Ry _]. apply IH; [|exact P]. exact (repr_live _ _ _ _ Ry (id_in y)).
    + destruct (child (tsubs t) d) as [y|] eqn:CH; cbn [option_map]; [|discriminate]. intros H. apply path_sub with (tid y).
      * apply (child_named h _ t d F R). now rewrite CH.
      * apply child_in in CH. destruct (sub_tree _ _ _ _ R (proj1 CH)) as [Ry _]. apply IH; [|exact H]. exact (repr_live _ _ _ _ Ry (id_in y)).
Qed.
Lemma walk_strict h : forall l p r, walk true h p l = Done r -> walk false h p l = Done r.
Proof.
  induction l as [|d l IH]; intros p r; [auto|]. cbn [walk]. intros H. apply obind_done in H. destruct H as (n & E & H). rewrite E. cbn [obind].
  apply obind_done in H. destruct H as (s & E2 & H).
  assert (E3 : list_sub false h n (Some d) = Done s) by (unfold list_sub in *; destruct (subs n); [discriminate|exact E2]). rewrite E3. cbn [obind]. destruct s; [auto|exact H].
Qed.
Lemma value_total h p l : forest h -> live h p -> exists r, value h p l = Done r.
Proof.
  intros F L. destruct (proj1 (live_ex h p) L) as [n E]. destruct (tree_at h p n F E) as (t & R & <-). rewrite (value_effect h _ t l R). eauto.
Qed.
Lemma value_stored h p l c a : forest h -> live h p -> (value h p l = Done (Some (c, a)) <-> stored h p l c a).
Proof.
  intros F L. unfold value, stored. rewrite (path_walk h l F p L c). split.
  - intros H. apply obind_done in H. destruct H as (w & W & H). destruct w as [x|]; [|discriminate]. apply obind_done in H. destruct H as (m & E & H).
    destruct (attr m) as [b|] eqn:A; inversion H. subst. split; [exact W|]. exists m. apply deref_done in E. auto.
  - intros (W & m & E & A). rewrite W. cbn [obind]. unfold deref. rewrite E. cbn [obind]. now rewrite A.
Qed.
Lemma value_none h p l : forest h -> live h p -> (value h p l = Done None <-> forall c a, ~ stored h p l c a).
Proof.
  intros F L. split.
  - intros V c a S. apply (value_stored h p l c a F L) in S. congruence.
  - intros N. destruct (value_total h p l F L) as [[[c a]|] V]; [|exact V]. exfalso. apply (N c a). now apply value_stored.
Qed.
Lemma find_ordinary fuel h p s : ordinary s -> find_attribute fuel false h p (Some s) = value h p (split_dots s).
Proof.
  intros O. destruct (ordinary_ends s O) as [A B]. unfold find_attribute. rewrite A, B. reflexivity.
Qed.

(* ---- getAttribute ---- *)
Lemma get_spec fuel h p s def : forest h -> live h p -> ordinary s ->
  (exists c a, stored h p (split_dots s) c a /\ getAttribute fuel false h p (Some s) def = Done (Some a, Some c)) \/
  ((forall c a, ~ stored h p (split_dots s) c a) /\ getAttribute fuel false h p (Some s) def = Done (def, None)).
Proof.
  intros F L O. unfold getAttribute. rewrite (find_ordinary fuel h p s O). destruct (value_total h p (split_dots s) F L) as [[[c a]|] V]; rewrite V; cbn [obind].
  - left. exists c, a. split; [now apply value_stored|reflexivity].
  - right. split; [now apply value_none|reflexivity].
Qed.
Lemma special_loop_strict fuel h d : forall q f r, special_loop fuel true h q f d = Done r -> special_loop fuel false h q f d = Done r.
Proof.
  induction fuel as [|fu IH]; intros [q|] [f|] r; cbn [special_loop]; auto. intros H. apply obind_done in H. destruct H as (m & E & H). rewrite E. cbn [obind].
  apply obind_done in H. destruct H as (s & E2 & H).
  assert (E3 : list_sub false h m (Some d) = Done s) by (unfold list_sub in *; destruct (subs m); [discriminate|exact E2]). rewrite E3. cbn [obind]. auto.
Qed.
Lemma get_strict fuel h p s def r : getAttribute fuel true h p s def = Done r -> getAttribute fuel false h p s def = Done r.
Proof.
  assert (SP : forall d x, getSpecialAttribute fuel true h p d = Done x -> getSpecialAttribute fuel false h p d = Done x).
  { intros d x H. unfold getSpecialAttribute in *. apply obind_done in H. destruct H as (n & E & H). rewrite E. cbn [obind].
    apply obind_done in H. destruct H as (q & E2 & H).
    assert (E3 : list_sub false h n (Some d) = Done q) by (unfold list_sub in *; destruct (subs n); [discriminate|exact E2]). rewrite E3. cbn [obind].
    apply obind_done in H. destruct H as (f & E4 & H). rewrite (special_loop_strict _ _ _ _ _ _ E4). exact H. }
  unfold getAttribute. intros H. apply obind_done in H. destruct H as (x & E & H). enough (E' : find_attribute fuel false h p s = Done x) by (rewrite E'; exact H).
  clear H. destruct s as [s|]; [|exact E]. unfold find_attribute in *. apply obind_done in E. destruct E as (sp & E1 & E).
  assert (E2 : (if ends_with file_path_str s then getSpecialAttribute fuel false h p file_path_str
       else if ends_with file_name_str s then getSpecialAttribute fuel false h p file_name_str else Done None) = Done sp).
  { destruct (ends_with file_path_str s); [auto|]. destruct (ends_with file_name_str s); auto. }
  rewrite E2. cbn [obind]. destruct sp; [exact E|]. apply obind_done in E. destruct E as (w & W & E). rewrite (walk_strict _ _ _ _ W). exact E.
Qed.

(* ---- setAttribute ---- *)
Lemma set_path_ok a l h p : forest h -> live h p -> exists h' c, set_path h p l a = Done (h', c) /\ forest h' /\ only_wrote h h' c a /\
  path h' p (trunc l) c /\ live h' p /\ below h' p c /\
  (forall q, q <> trunc l -> forall x b, stored h' p q x b <-> stored h p q x b) /\ (forall x, live h x -> live h' x).
Proof.
  intros F L. destruct (set_path_spec a l h p F L) as (h' & c & S & F' & G & EA & W & V). exists h', c.
  assert (LV : forall x, live h x -> live h' x).
  { intros x Lx. apply live_ex in Lx. destruct Lx as [n E]. destruct (g_old _ _ _ _ G x n E) as (n' & E' & _). apply live_ex. eauto. }
  split; [exact S|]. split; [exact F'|]. split; [|split; [|split; [|split; [|split; [|exact LV]]]]].
  - constructor; [exact EA|]. intros x n E. destruct (g_old _ _ _ _ G x n E) as (n' & E' & A & B & C & k & D & K). exists n'. do 4 (split; [assumption|]).
    exists k. split; [exact D|]. intros y I Ly. specialize (K y I). pose proof (f_fresh _ F y Ly). lia.
  - apply path_walk; auto. now apply walk_strict.
  - auto.
  - destruct (g_above _ _ _ _ G) as [->|[B _]]; [constructor|exact B].
  - intros q NQ x b. rewrite <- (value_stored h' p q x b F' (LV p L)), <- (value_stored h p q x b F L). now rewrite V.
Qed.
Definition parts (d : option str) : list str := match d with Some s => split_dots s | None => [] end.
Lemma set_ok d a h p : forest h -> live h p -> exists h' c, setAttribute h p d a = Done (h', c) /\ forest h' /\ only_wrote h h' c a /\
  path h' p (trunc (parts d)) c /\ live h' p /\ below h' p c /\
  (forall q, q <> trunc (parts d) -> forall x b, stored h' p q x b <-> stored h p q x b) /\ (forall x, live h x -> live h' x).
Proof. intros F L. destruct d as [s|]; apply set_path_ok; assumption. Qed.
Lemma set_walk d a h p h' c : forest h -> live h p -> setAttribute h p d a = Done (h', c) -> walk true h' p (trunc (parts d)) = Done (Some c).
Proof.
  intros F L S. destruct d as [s|]; cbn [setAttribute parts] in *.
  - destruct (set_path_spec a (split_dots s) h p F L) as (h2 & c2 & S2 & _ & _ & _ & W & _). rewrite S in S2; inversion S2; subst; exact W.
  - destruct (set_path_spec a [] h p F L) as (h2 & c2 & S2 & _ & _ & _ & W & _). rewrite S in S2; inversion S2; subst; exact W.
Qed.
Lemma path_unique h p l x y : forest h -> live h p -> path h p l x -> path h p l y -> x = y.
Proof. intros F L A B. apply (path_walk h l F p L) in A. apply (path_walk h l F p L) in B. congruence. Qed.
Lemma set_get strict fuel s v def h p h' c : forest h -> live h p -> ordinary s -> proper (split_dots s) ->
  setAttribute h p (Some s) (Some v) = Done (h', c) -> getAttribute fuel strict h' p (Some s) def = Done (Some v, Some c).
Proof.
  intros F L O P S. pose proof (set_walk _ _ _ _ _ _ F L S) as W. cbn [parts] in W. rewrite (trunc_proper _ P) in W.
  destruct (set_ok (Some s) (Some v) h p F L) as (h2 & c2 & S2 & F' & WR & _ & L' & _). rewrite S in S2. inversion S2. subst h2 c2.
  destruct (ordinary_ends s O) as [A B]. unfold getAttribute, find_attribute. rewrite A, B. cbn [obind].
  assert (W2 : walk strict h' p (split_dots s) = Done (Some c)) by (destruct strict; [exact W|now apply walk_strict]). rewrite W2. cbn [obind].
  destruct (w_here _ _ _ _ WR) as (n & E & EA). unfold deref. rewrite E. cbn [obind]. rewrite EA. reflexivity.
Qed.
Lemma get_same fuel h h' p s def : forest h -> forest h' -> live h p -> live h' p -> ordinary s ->
  (forall x b, stored h' p (split_dots s) x b <-> stored h p (split_dots s) x b) -> getAttribute fuel false h' p (Some s) def = getAttribute fuel false h p (Some s) def.
Proof.
  intros F F' L L' O X. destruct (get_spec fuel h p s def F L O) as [(c & a & S & E)|[N E]]; rewrite E.
  - apply X in S. unfold getAttribute. rewrite (find_ordinary _ _ _ _ O). apply (value_stored h' p _ c a F' L') in S. rewrite S. reflexivity.
  - unfold getAttribute. rewrite (find_ordinary _ _ _ _ O). assert (V : value h' p (split_dots s) = Done None) by (apply value_none; auto; intros c a S; apply (N c a), X; exact S).
    rewrite V. reflexivity.
Qed.

(* changed flags *)
Lemma set_changed_here d a h p h' c n : forest h -> live h p -> setAttribute h p d a = Done (h', c) -> cell h' c = Some n ->
  changed n = true \/ exists m, cell h c = Some m /\ attr m = a /\ h' = put h c m /\ a <> None.
Proof.
  assert (X : forall l h p, forest h -> live h p -> set_path h p l a = Done (h', c) -> cell h' c = Some n -> changed n = true \/ exists m, cell h c = Some m /\ attr m = a /\ h' = put h c m /\ a <> None).
  { assert (BASE : forall h p, forest h -> live h p -> (let* h1 := setOwnAttribute h p a in Done (h1, p)) = Done (h', c) -> cell h' c = Some n ->
       changed n = true \/ exists m, cell h c = Some m /\ attr m = a /\ h' = put h c m /\ a <> None).
    { intros g q F L S E. destruct (proj1 (live_ex g q) L) as [m Em]. unfold setOwnAttribute in S. rewrite (update_done _ _ _ m Em) in S. cbn [obind] in S. inversion S. subst c h'.
      rewrite put_same in E. inversion E. unfold set_attr. destruct a as [x|]; [|now left]. destruct (attr m) as [y|] eqn:A; [|now left].
      destruct (str_eqb x y) eqn:SE; [|now left]. apply str_eqb_spec in SE. subst y. right. exists m. split; [exact Em|]. split; [exact A|]. split; [|easy]. unfold set_attr. rewrite ?A, ?str_eqb_refl. reflexivity. }
    induction l as [|d0 l IH]; intros g q F L S E; [exact (BASE g q F L S E)|]. destruct d0 as [|c0 ds]; [exact (BASE g q F L S E)|].
    change (set_path g q ((c0 :: ds) :: l) a) with (let* s := getSubTree g q (c0 :: ds) in match s with Some c => set_path g c l a | None => let* hp := new_tree g (Some (c0 :: ds)) (Some q) in set_path (fst hp) (snd hp) l a end) in S.
    destruct (proj1 (live_ex g q) L) as [m Em]. destruct (tree_at g q m F Em) as (t & R & <-). rewrite (getSubTree_effect g _ t _ R) in S. cbn [obind] in S.
    destruct (child (tsubs t) (c0 :: ds)) as [y|] eqn:CH; cbn [option_map] in S.
    - apply child_in in CH. destruct (sub_tree _ _ _ _ R (proj1 CH)) as [Ry _]. exact (IH g (tid y) F (repr_live _ _ _ _ Ry (id_in y)) S E).
    - rewrite (new_tree_some g _ (tid t) m F Em) in S. cbn [obind fst snd] in S.
      destruct (new_tree_forest g (Some (c0 :: ds)) (Some (tid t)) _ _ F ltac:(intros x [= <-]; exact L) (new_tree_some g _ (tid t) m F Em)) as [F1 _].
      destruct (below_new_cells g (Some (c0 :: ds)) (tid t) m F Em) as (C1 & C2 & C3).
      assert (L1 : live (below_new g (Some (c0 :: ds)) (tid t) m) (next g)) by (apply live_ex; eauto).
      destruct (IH _ (next g) F1 L1 S E) as [?|(k & Ek & Ak & Hk & NA)]; [now left|]. exfalso.
      (* a node that is new has no attribute to keep *)
      destruct (set_path_spec a l _ (next g) F1 L1) as (h2 & c2 & S2 & _ & G & _ & W & _). rewrite S in S2. inversion S2. subst h2 c2.
      destruct (Nat.eq_dec c (next g)) as [->|NC]; [rewrite C2 in Ek; inversion Ek; subst k; cbn in Ak; congruence|].
      assert (NB : ~ below (below_new g (Some (c0 :: ds)) (tid t) m) (next g) c).
      { intros B. apply NC. clear - B C1 C2 C3 F Em. induction B as [|y z B IHB (k & Ek & Pk)]; [reflexivity|]. subst y. exfalso.
        destruct (Nat.eq_dec z (tid t)) as [->|D1].
        - rewrite C1 in Ek. inversion Ek. subst k. cbn in Pk. assert (PO : parent_of g (tid t) (next g)) by (exists m; auto). pose proof (f_fresh _ F _ (f_parents _ F _ _ PO)). lia.
        - destruct (Nat.eq_dec z (next g)) as [->|D2]; [rewrite C2 in Ek; inversion Ek; subst k; cbn in Pk; inversion Pk as [Z]; rewrite Z in Em; rewrite (fresh_cell g F) in Em; discriminate|].
          rewrite C3 in Ek by assumption. assert (PO : parent_of g z (next g)) by (exists k; auto). pose proof (f_fresh _ F _ (f_parents _ F _ _ PO)). lia. }
      destruct (g_end _ _ _ _ G) as [B|B]; [contradiction|]. pose proof (f_fresh _ F1 c). assert (live (below_new g (Some (c0 :: ds)) (tid t) m) c) by (apply live_ex; eauto). specialize (H H0). lia. }
  intros F L S E. destruct d as [s|]; eapply X; eauto.
Qed.
