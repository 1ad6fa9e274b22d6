From Verif Require Import Base Text ATreeModel ATreeSpec ATreeProofs ATreeProofs2 ATreeProofs3 ATreeProofs4 ATreeProofs5.
From Coq Require Import Permutation.
From Verif Require Conc.

(* ---- reading ---- *)
Lemma find_sub_effect h q l d : Forall (repr h q) l -> find_sub h (map tid l) (Some d) = Done (option_map tid (child l d)).
Proof.
  induction l as [|y l IH]; intros R; [reflexivity|]. rewrite Forall_cons_iff in R. destruct R as [Ry R]. cbn [map find_sub child].
  unfold deref. rewrite (repr_cell _ _ _ Ry). cbn [obind desc]. destruct (tdesc y) as [x|]; cbn [opt_is]; [|exact (IH R)].
  destruct (str_eqb x d); [reflexivity|exact (IH R)].
Qed.
Lemma list_sub_effect strict h par t d n : repr h par t -> cell h (tid t) = Some n ->
  list_sub strict h n (Some d) = match tsubs t with [] => if strict then Undef else Done None | l => Done (option_map tid (child l d)) end.
Proof.
  intros R E. rewrite (repr_cell _ _ _ R) in E. inversion E. unfold list_sub. cbn [subs].
  destruct (tsubs t) as [|y l] eqn:S; [reflexivity|]. rewrite <- S. pose proof (repr_subs _ _ _ R) as RS.
  rewrite <- (find_sub_effect h (Some (tid t)) (tsubs t) d RS). rewrite S. reflexivity.
Qed.
Lemma getSubTree_effect h par t d : repr h par t -> getSubTree h (tid t) d = Done (option_map tid (child (tsubs t) d)).
Proof.
  intros R. unfold getSubTree, deref. rewrite (repr_cell _ _ _ R). cbn [obind subs]. rewrite <- (find_sub_effect h (Some (tid t)) (tsubs t) d (repr_subs _ _ _ R)).
  destruct (tsubs t); reflexivity.
Qed.
Lemma child_in l d y : child l d = Some y -> In y l /\ tdesc y = Some d.
Proof.
  induction l as [|z l IH]; cbn; [discriminate|]. destruct (opt_is (tdesc z) d) eqn:O.
  - intros [= <-]. split; [now left|]. now apply opt_is_spec.
  - intros H. destruct (IH H). auto.
Qed.
Lemma walk_effect l : forall h par t, repr h par t -> walk false h (tid t) l = Done (option_map tid (lookup t l)).
Proof.
  induction l as [|d l IH]; intros h par t R; [reflexivity|]. cbn [walk lookup]. unfold deref. rewrite (repr_cell _ _ _ R). cbn [obind].
  rewrite (list_sub_effect false h par t d _ R (repr_cell _ _ _ R)).
  replace (match tsubs t with [] => Done None | l0 => Done (option_map tid (child l0 d)) end) with (Done (option_map tid (child (tsubs t) d))) by now destruct (tsubs t).
  cbn [obind]. destruct (child (tsubs t) d) as [y|] eqn:CH; cbn [option_map]; [|reflexivity]. apply child_in in CH.
  pose proof (repr_subs _ _ _ R) as RS. rewrite Forall_forall in RS. exact (IH h _ y (RS y (proj1 CH))).
Qed.
Lemma lookup_node t l y : lookup t l = Some y -> In y (nodes t).
Proof.
  revert t. induction l as [|d l IH]; intros t; cbn [lookup]; [intros [= <-]; destruct t; rewrite nodes_eq; now left|].
  destruct (child (tsubs t) d) as [z|] eqn:CH; [|discriminate]. intros H. apply child_in in CH. specialize (IH z H).
  destruct t as [i ds a ch ts]. rewrite nodes_eq. right. apply in_flat_map. exists z. split; [exact (proj1 CH)|exact IH].
Qed.
(* the node at the end of a path and its attribute *)
Definition value (h : heap) (p : nat) (l : list str) : outcome (option (nat * str)) :=
  let* w := walk false h p l in
  match w with None => Done None | Some c => let* m := deref h c in Done (option_map (fun a => (c, a)) (attr m)) end.
Definition tvalue (t : tree) (l : list str) : option (nat * str) :=
  match lookup t l with Some y => option_map (fun a => (tid y, a)) (tattr y) | None => None end.
Lemma value_effect h par t l : repr h par t -> value h (tid t) l = Done (tvalue t l).
Proof.
  intros R. unfold value, tvalue. rewrite (walk_effect l h par t R). cbn [obind]. destruct (lookup t l) as [y|] eqn:LK; cbn [option_map]; [|reflexivity].
  destruct (repr_node _ _ _ _ R (lookup_node _ _ _ LK)) as [q Ry]. unfold deref. rewrite (repr_cell _ _ _ Ry). reflexivity.
Qed.
Lemma value_region h h' par t l : repr h par t -> (forall x, In x (ids t) -> cell h' x = cell h x) -> value h' (tid t) l = value h (tid t) l.
Proof. intros R X. rewrite (value_effect h par t l R). exact (value_effect h' par t l (repr_ext _ _ _ _ X R)). Qed.
Lemma value_cons h par t d l : repr h par t ->
  value h (tid t) (d :: l) = match child (tsubs t) d with Some y => value h (tid y) l | None => Done None end.
Proof.
  intros R. rewrite (value_effect h par t _ R). unfold tvalue. cbn [lookup]. destruct (child (tsubs t) d) as [y|] eqn:CH; [|reflexivity].
  apply child_in in CH. pose proof (repr_subs _ _ _ R) as RS. rewrite Forall_forall in RS. symmetry. exact (value_effect h _ y l (RS y (proj1 CH))).
Qed.
Lemma value_nil h p n : cell h p = Some n -> value h p [] = Done (option_map (fun a => (p, a)) (attr n)).
Proof. intros E. unfold value. cbn [walk obind]. unfold deref. now rewrite E. Qed.

(* ---- writing ---- *)
Fixpoint trunc (l : list str) : list str := match l with [] | [] :: _ => [] | d :: r => d :: trunc r end.
Record grown (h h' : heap) (p c : nat) : Prop := {
  g_next : next h <= next h';
  g_old : forall x n, cell h x = Some n -> exists n', cell h' x = Some n' /\ desc n' = desc n /\ parent n' = parent n /\
            (x <> c -> attr n' = attr n /\ changed n' = changed n) /\ exists l, subs n' = l ++ subs n /\ forall y, In y l -> next h <= y;
  g_frame : forall x, x < next h -> ~ below h p x -> cell h' x = cell h x;
  g_end : below h p c \/ next h <= c;
  g_above : c = p \/ below h' p c /\ c <> p }.

Lemma sub_tree h par t y : repr h par t -> In y (tsubs t) -> repr h (Some (tid t)) y /\ parent_of h (tid y) (tid t).
Proof.
  intros R I. pose proof (repr_subs _ _ _ R) as RS. rewrite Forall_forall in RS. split; [auto|]. eexists. split; [exact (repr_cell _ _ _ (RS y I))|reflexivity].
Qed.
Lemma below_live h p x : forest h -> live h p -> below h p x -> live h x.
Proof. intros F L B. destruct B as [|y c B (n & E & _)]; [exact L|]. apply live_ex. eauto. Qed.
Lemma grown_parent h h' p c a b : grown h h' p c -> parent_of h a b -> parent_of h' a b.
Proof. intros G (n & E & P). destruct (g_old _ _ _ _ G a n E) as (n' & E' & _ & P' & _). exists n'. split; [exact E'|congruence]. Qed.
Lemma grown_below h h' p c a b : grown h h' p c -> below h a b -> below h' a b.
Proof. intros G B. induction B; [constructor|]. econstructor; [eassumption|]. eapply grown_parent; eassumption. Qed.
Lemma grown_trans_new h q p d m : forest h -> cell h p = Some m -> q = next h -> forall h' c, grown (below_new h d p m) h' q c -> forest (below_new h d p m) -> grown h h' p c.
Proof.
  intros F E -> h' c G F1. destruct (below_new_cells h d p m F E) as (C1 & C2 & C3). set (h1 := below_new h d p m) in *.
  assert (NP : p <> next h) by (intros ->; rewrite (fresh_cell h F) in E; discriminate).
  assert (NX : next h1 = S (next h)) by reflexivity.
  assert (Lp : p < next h) by (apply (f_fresh _ F), live_ex; eauto).
  assert (NB : forall x, x < next h -> ~ below h1 (next h) x).
  { intros x L B. assert (B' : x = next h); [|lia]. clear L. induction B as [|y c0 B IH P]; [reflexivity|]. subst y. exfalso.
    destruct P as (n & En & Pn). destruct (Nat.eq_dec c0 p) as [->|D1].
    - rewrite C1 in En. inversion En. subst n. cbn in Pn.
      assert (X : parent_of h p (next h)) by (exists m; auto). pose proof (f_fresh _ F _ (f_parents _ F _ _ X)). lia.
    - destruct (Nat.eq_dec c0 (next h)) as [->|D2]; [rewrite C2 in En; inversion En; subst n; cbn in Pn; congruence|].
      rewrite C3 in En by assumption. assert (X : parent_of h c0 (next h)) by (exists n; auto). pose proof (f_fresh _ F _ (f_parents _ F _ _ X)). lia. }
  assert (PC : parent_of h' (next h) p).
  { apply (grown_parent h1 h' (next h) c); [exact G|]. eexists. split; [exact C2|reflexivity]. }
  assert (EC : next h <= c). { destruct (g_end _ _ _ _ G) as [B|B]; [|lia]. destruct (Nat.lt_ge_cases c (next h)) as [L|L]; [exfalso; exact (NB c L B)|exact L]. }
  constructor.
  - pose proof (g_next _ _ _ _ G). lia.
  - intros x n En. assert (Lx : x < next h) by (apply (f_fresh _ F), live_ex; eauto). destruct (Nat.eq_dec x p) as [->|D].
    + rewrite E in En. inversion En. subst n. destruct (g_old _ _ _ _ G p _ C1) as (n' & E' & D1 & D2 & D3 & l & D4 & D5). exists n'. split; [exact E'|].
      cbn [set_subs desc parent attr changed subs] in *. split; [exact D1|]. split; [exact D2|]. split; [exact D3|]. exists (l ++ [next h]).
      rewrite <- app_assoc. split; [exact D4|]. intros y I. apply in_app_or in I. destruct I as [I|[<-|[]]]; [specialize (D5 y I)|]; lia.
    + assert (E1 : cell h1 x = Some n) by (rewrite C3; [exact En|exact D|lia]). destruct (g_old _ _ _ _ G x n E1) as (n' & E' & D1 & D2 & D3 & l & D4 & D5).
      exists n'. do 4 (split; [assumption|]). exists l. split; [exact D4|]. intros y I. specialize (D5 y I). lia.
  - intros x L B. rewrite (g_frame _ _ _ _ G); [|lia|exact (NB x L)]. apply C3; [|lia]. intros ->. apply B. constructor.
  - right. exact EC.
  - right. split; [|lia]. assert (B : below h' (next h) c) by (destruct (g_above _ _ _ _ G) as [->|[B _]]; [constructor|exact B]).
    apply below_trans with (next h); [|exact B]. econstructor; [constructor|exact PC].
Qed.

Lemma child_ext (l l' : list tree) d : map tid l = map tid l' -> Forall2 (fun y y' => tdesc y' = tdesc y) l l' -> option_map tid (child l' d) = option_map tid (child l d).
Proof.
  intros M F. revert M. induction F as [|y y' l l' E F IH]; intros M; [reflexivity|]. cbn in M. inversion M. cbn [child]. rewrite E. destruct (opt_is (tdesc y) d); [cbn; congruence|auto].
Qed.

Definition written (a : option str) (n n' : node) : Prop := attr n' = a /\ (changed n' = true \/ n' = n).
Lemma node_eta n : n = mkN (desc n) (attr n) (changed n) (parent n) (subs n).
Proof. now destruct n. Qed.
Lemma set_attr_links a n : desc (set_attr a n) = desc n /\ parent (set_attr a n) = parent n /\ subs (set_attr a n) = subs n /\ attr (set_attr a n) = a.
Proof.
  unfold set_attr. destruct a as [x|]; [|auto]. destruct (attr n) as [y|] eqn:E; [|auto]. destruct (str_eqb x y) eqn:S; [|auto].
  apply str_eqb_spec in S. subst. auto.
Qed.

Lemma set_path_spec a : forall l h p, forest h -> live h p ->
  exists h' c, set_path h p l a = Done (h', c) /\ forest h' /\ grown h h' p c /\
    (exists n, cell h' c = Some n /\ attr n = a) /\
    walk true h' p (trunc l) = Done (Some c) /\
    (forall q, q <> trunc l -> value h' p q = value h p q).
Proof.
  assert (BASE : forall h p, forest h -> live h p -> exists h' c, (let* h1 := setOwnAttribute h p a in Done (h1, p)) = Done (h', c) /\ forest h' /\ grown h h' p c /\
    (exists n, cell h' c = Some n /\ attr n = a) /\ walk true h' p [] = Done (Some c) /\ (forall q, q <> [] -> value h' p q = value h p q)).
  { intros h p F L. destruct (proj1 (live_ex h p) L) as [n E]. unfold setOwnAttribute. rewrite (update_done _ _ _ n E). cbn [obind].
    destruct (set_attr_links a n) as (D1 & D2 & D3 & D4). exists (put h p (set_attr a n)), p. split; [reflexivity|]. split; [|split; [|split; [|split; [reflexivity|]]]].
    - apply (forest_links h); [|exact F]. apply (put_links h p n); [exact E|exact D2|rewrite D3; reflexivity].
    - constructor.
      + rewrite next_put. lia.
      + intros x m Em. rewrite cell_put. destruct (Nat.eqb_spec x p) as [->|D].
        * rewrite E in Em. inversion Em. subst m. exists (set_attr a n). repeat split; auto; try congruence. exists []. split; [exact D3|easy].
        * exists m. repeat split; auto. exists []. split; [reflexivity|easy].
      + intros x _ B. apply put_other. intros ->. apply B. constructor.
      + left. constructor.
      + now left.
    - exists (set_attr a n). split; [apply put_same|exact D4].
    - intros q NQ. destruct (tree_at h p n F E) as (t & R & <-).
      destruct q as [|d q]; [congruence|].
      assert (R' : repr (put h (tid t) (set_attr a n)) (parent n) (T (tid t) (tdesc t) a (changed (set_attr a n)) (tsubs t))).
      { apply repr_eq. pose proof (repr_cell _ _ _ R) as Ec. rewrite E in Ec. injection Ec as En. split.
        - assert (X1 : desc n = tdesc t) by (rewrite En; reflexivity). assert (X2 : subs n = map tid (tsubs t)) by (rewrite En; reflexivity).
          rewrite put_same. f_equal. rewrite (node_eta (set_attr a n)). cbn [changed]. congruence.
        - pose proof (repr_subs _ _ _ R) as RS. pose proof (ids_nodup _ _ _ F R) as ND. rewrite Forall_forall in RS |- *. intros y I. apply repr_ext with h; [|auto].
          intros x Ix. apply put_other. intros ->. destruct t as [i dd aa cc ll]. cbn [tid tsubs] in *. rewrite ids_eq in ND. inversion ND; subst. apply H1, in_flat_map. eauto. }
      change (tid t) with (tid (T (tid t) (tdesc t) a (changed (set_attr a n)) (tsubs t))) at 2. rewrite (value_cons _ _ _ d q R'), (value_cons _ _ _ d q R). cbn [tsubs].
      destruct (child (tsubs t) d) as [y|] eqn:CH; [|reflexivity]. apply child_in in CH. destruct CH as [I _].
      destruct (sub_tree _ _ _ _ R I) as [Ry _]. apply (value_region h _ _ y q Ry). intros x Ix. apply put_other. intros ->.
      pose proof (ids_nodup _ _ _ F R) as ND. destruct t as [i dd aa cc ll]. cbn [tid tsubs] in *. rewrite ids_eq in ND. inversion ND; subst. apply H1, in_flat_map. eauto. }
  induction l as [|d l IH]; intros h p F L; [exact (BASE h p F L)|].
  destruct d as [|d0 ds]; [exact (BASE h p F L)|]. set (d := d0 :: ds).
  change (trunc (d :: l)) with (d :: trunc l).
  change (set_path h p (d :: l) a) with (let* s := getSubTree h p d in match s with Some c => set_path h c l a | None => let* hp := new_tree h (Some d) (Some p) in set_path (fst hp) (snd hp) l a end).
  destruct (proj1 (live_ex h p) L) as [n E]. destruct (tree_at h p n F E) as (t & R & Et). subst p. rewrite (getSubTree_effect h _ t d R). cbn [obind].
  destruct (child (tsubs t) d) as [y|] eqn:CH; cbn [option_map].
  - pose proof (child_in _ _ _ CH) as [Iy Dy]. destruct (sub_tree _ _ _ _ R Iy) as [Ry Py].
    assert (Ly : live h (tid y)) by (destruct Py as (k & Ek & _); apply live_ex; eauto).
    destruct (IH h (tid y) F Ly) as (h' & c & S1 & F' & G & EA & W & V). exists h', c. split; [exact S1|]. split; [exact F'|].
    assert (NB : ~ below h (tid y) (tid t)) by exact (below_not_above _ _ _ F Py).
    assert (Lt : tid t < next h) by (apply (f_fresh _ F); exact L).
    assert (Ep : cell h' (tid t) = Some n) by (rewrite (g_frame _ _ _ _ G _ Lt NB); exact E).
    assert (Cne : c <> tid t). { intros ->. destruct (g_end _ _ _ _ G) as [B|B]; [contradiction|lia]. }
    assert (G' : grown h h' (tid t) c).
    { constructor.
      - exact (g_next _ _ _ _ G).
      - exact (g_old _ _ _ _ G).
      - intros x Lx B. apply (g_frame _ _ _ _ G); [exact Lx|]. intros B'. apply B. apply below_trans with (tid y); [|exact B']. econstructor; [constructor|exact Py].
      - destruct (g_end _ _ _ _ G) as [B|B]; [left|now right]. apply below_trans with (tid y); [|exact B]. econstructor; [constructor|exact Py].
      - right. split; [|exact Cne]. assert (B : below h' (tid y) c) by (destruct (g_above _ _ _ _ G) as [->|[B _]]; [constructor|exact B]).
        apply below_trans with (tid y); [|exact B]. econstructor; [constructor|]. exact (grown_parent _ _ _ _ _ _ G Py). }
    split; [exact G'|]. split; [exact EA|].
    destruct (tree_at h' (tid t) n F' Ep) as (t' & R' & Et').
    assert (ST : map tid (tsubs t') = map tid (tsubs t)).
    { pose proof (repr_cell _ _ _ R') as Ec'. rewrite Et', Ep in Ec'. pose proof (repr_cell _ _ _ R) as Ec. rewrite E in Ec. congruence. }
    assert (CHX : forall d', option_map tid (child (tsubs t') d') = option_map tid (child (tsubs t) d')).
    { intros d'. apply child_ext; [congruence|].
      assert (X : forall m m', (forall z, In z m -> In z (tsubs t)) -> (forall z, In z m' -> In z (tsubs t')) -> map tid m' = map tid m -> Forall2 (fun y y' => tdesc y' = tdesc y) m m').
      { induction m as [|z m IHm]; intros [|z' m'] A B M; try discriminate; [constructor|]. cbn in M. inversion M as [[Mz Mm]]. constructor.
        - destruct (sub_tree _ _ _ _ R (A z (or_introl eq_refl))) as [Rz _]. destruct (sub_tree _ _ _ _ R' (B z' (or_introl eq_refl))) as [Rz' _].
          destruct (g_old _ _ _ _ G _ _ (repr_cell _ _ _ Rz)) as (k & Ek & Dk & _). pose proof (repr_cell _ _ _ Rz') as Ez'. rewrite Mz, Ek in Ez'. inversion Ez'. subst k. exact Dk.
        - apply IHm; [intros w I; apply A; now right|intros w I; apply B; now right|exact Mm]. }
      apply X; auto. }
    split.
    + cbn [walk]. unfold deref. rewrite Ep. cbn [obind]. rewrite (list_sub_effect true h' _ t' d n R') by (rewrite Et'; exact Ep).
      specialize (CHX d). rewrite CH in CHX. cbn [option_map] in CHX. destruct (tsubs t') as [|z tl] eqn:TS; [discriminate|]. rewrite CHX. cbn [obind]. exact W.
    + intros q NQ. destruct q as [|d' q]; [rewrite (value_nil _ _ n Ep), (value_nil _ _ n E); reflexivity|].
      rewrite (value_cons _ _ t d' q R). rewrite <- Et'. rewrite (value_cons _ _ t' d' q R'). specialize (CHX d').
      destruct (child (tsubs t) d') as [z|] eqn:CH1, (child (tsubs t') d') as [z'|] eqn:CH2; try discriminate; [|reflexivity]. cbn in CHX. inversion CHX as [Z]. rewrite Z.
      apply child_in in CH1. destruct CH1 as [Iz Dz]. destruct (Nat.eq_dec (tid z) (tid y)) as [EQ|NE].
      * rewrite EQ. apply V. intros ->. apply NQ. f_equal. destruct (sub_tree _ _ _ _ R Iz) as [Rz _].
        destruct (repr_unique _ _ _ _ _ Rz Ry EQ) as [-> _]. congruence.
      * destruct (sub_tree _ _ _ _ R Iz) as [Rz Pz]. apply (value_region h h' _ z q Rz). intros x Ix. apply (g_frame _ _ _ _ G).
        -- apply (f_fresh _ F). exact (repr_live _ _ _ _ Rz Ix).
        -- intros B. apply (ids_below h _ z x F Rz) in Ix. destruct (live_depth h (tid t) F L) as [k D]. apply NE.
           exact (below_unique h _ _ x (S k) Ix B (dS _ _ _ _ Pz D) (dS _ _ _ _ Py D)).
  - rewrite (new_tree_some h (Some d) (tid t) n F E). cbn [obind fst snd].
    destruct (new_tree_forest h (Some d) (Some (tid t)) _ _ F ltac:(intros x [= <-]; exact L) (new_tree_some h (Some d) (tid t) n F E)) as [F1 _].
    destruct (below_new_cells h (Some d) (tid t) n F E) as (C1 & C2 & C3). set (h1 := below_new h (Some d) (tid t) n) in *.
    assert (L1 : live h1 (next h)) by (apply live_ex; eauto).
    destruct (IH h1 (next h) F1 L1) as (h' & c & S1 & F' & G & EA & W & V). exists h', c. split; [exact S1|]. split; [exact F'|].
    assert (Lt : tid t < next h) by (apply (f_fresh _ F); exact L).
    assert (PN : parent_of h1 (next h) (tid t)) by (eexists; split; [exact C2|reflexivity]).
    assert (NB : ~ below h1 (next h) (tid t)) by exact (below_not_above _ _ _ F1 PN).
    split; [exact (grown_trans_new h (next h) (tid t) (Some d) n F E eq_refl h' c G F1)|]. split; [exact EA|].
    assert (Ep : cell h' (tid t) = Some (set_subs (next h :: subs n) n)).
    { rewrite (g_frame _ _ _ _ G); [exact C1| |exact NB]. change (next h1) with (S (next h)). lia. }
    destruct (tree_at h' (tid t) _ F' Ep) as (t' & R' & Et'). pose proof (repr_cell _ _ _ R') as Ec'. rewrite Et', Ep in Ec'.
    pose proof (repr_cell _ _ _ R) as Ec. rewrite E in Ec. injection Ec as En. rewrite En in Ec'. cbn [set_subs subs] in Ec'. inversion Ec' as [[K1 K2 K3 K4]].
    destruct (tsubs t') as [|z tl] eqn:TS; [discriminate|]. cbn [map] in K4. inversion K4 as [[K5 K6]].
    assert (Iz : In z (tsubs t')) by (rewrite TS; now left). destruct (sub_tree _ _ _ _ R' Iz) as [Rz _].
    assert (Dz : tdesc z = Some d).
    { destruct (g_old _ _ _ _ G _ _ C2) as (k & Ek & Dk & _). pose proof (repr_cell _ _ _ Rz) as Ez. rewrite <- K5, Ek in Ez. inversion Ez. subst k. exact Dk. }
    assert (REG : forall x m, In m (tsubs t) -> In x (ids m) -> cell h' x = cell h x).
    { intros x m Im Ix. destruct (sub_tree _ _ _ _ R Im) as [Rm Pm]. pose proof (repr_live _ _ _ _ Rm Ix) as Lx. pose proof (f_fresh _ F _ Lx) as Lx'.
      assert (X1 : x <> tid t). { intros ->. apply (ids_below h _ m _ F Rm) in Ix. exact (below_not_above _ _ _ F Pm Ix). }
      rewrite (g_frame _ _ _ _ G); [apply C3; [exact X1|lia]|change (next h1) with (S (next h)); lia|].
      intros B. assert (Bx : below h1 (tid m) x).
      { apply (ids_below h _ m _ F Rm) in Ix. clear - Ix C1 C2 C3 E F. induction Ix as [|u v B IHB (k & Ek & Pk)]; [constructor|]. econstructor; [exact IHB|].
        destruct (Nat.eq_dec v (tid t)) as [->|D1]; [exists (set_subs (next h :: subs n) n); split; [exact C1|]; rewrite E in Ek; inversion Ek; subst; exact Pk|].
        assert (v < next h) by (apply (f_fresh _ F), live_ex; eauto). exists k. rewrite C3; [auto|exact D1|lia]. }
      assert (Pm1 : parent_of h1 (tid m) (tid t)).
      { destruct Pm as (k & Ek & Pk). assert (tid m < next h) by (apply (f_fresh _ F), live_ex; eauto). exists k. rewrite C3; [auto| |lia].
        intros X2. rewrite X2 in Ek. apply (not_own_parent h (tid t) F). exists k. auto. }
      destruct (live_depth h1 (tid t) F1) as [k D]; [apply live_ex; eauto|].
      pose proof (below_unique h1 _ _ x (S k) Bx B (dS _ _ _ _ Pm1 D) (dS _ _ _ _ PN D)) as EQ. pose proof (f_fresh _ F (tid m) (repr_live _ _ _ _ Rm (id_in m))). lia. }
    assert (TL : tl = tsubs t).
    { assert (X : forall m m', (forall w, In w m -> In w (tsubs t)) -> (forall w, In w m' -> In w tl) -> map tid m = map tid m' -> m' = m).
      { induction m as [|w m IHm]; intros [|w' m'] A B M; try discriminate; [reflexivity|]. cbn in M. inversion M as [[Mw Mm]].
        destruct (sub_tree _ _ _ _ R (A w (or_introl eq_refl))) as [Rw _]. assert (Iw' : In w' (tsubs t')) by (rewrite TS; right; apply B; now left).
        destruct (sub_tree _ _ _ _ R' Iw') as [Rw' _].
        assert (RW : repr h' (Some (tid t)) w) by (apply repr_ext with h; [intros x Ix; apply (REG x w); [apply A; now left|exact Ix]|exact Rw]).
        destruct (repr_unique _ _ _ _ _ Rw' RW (eq_sym Mw)) as [-> _]. f_equal. apply IHm; [intros u I; apply A; now right|intros u I; apply B; now right|exact Mm]. }
      apply X; auto. }
    subst tl. split.
    + cbn [walk]. unfold deref. rewrite Ep. cbn [obind]. rewrite (list_sub_effect true h' _ t' d _ R') by (rewrite Et'; exact Ep). rewrite TS. cbn [child]. rewrite Dz. cbn [opt_is].
      rewrite str_eqb_refl. cbn [option_map obind]. rewrite <- K5. exact W.
    + intros q NQ. destruct q as [|d' q].
      * rewrite (value_nil _ _ _ Ep), (value_nil _ _ n E). reflexivity.
      * rewrite (value_cons _ _ t d' q R). rewrite <- Et'. rewrite (value_cons _ _ t' d' q R'). rewrite TS. cbn [child]. rewrite Dz. cbn [opt_is].
        destruct (str_eqb d d') eqn:SD.
        -- apply str_eqb_spec in SD. subst d'. rewrite CH. rewrite <- K5. rewrite V by (intros ->; apply NQ; reflexivity).
           assert (RN : repr h1 (Some (tid t)) (T (next h) (Some d) None false [])) by (apply repr_eq; split; [exact C2|constructor]).
           change (next h) with (tid (T (next h) (Some d) None false [])). rewrite (value_effect _ _ _ q RN). unfold tvalue. destruct q; reflexivity.
        -- destruct (child (tsubs t) d') as [w|] eqn:CW; [|reflexivity]. apply child_in in CW. destruct CW as [Iw _].
           destruct (sub_tree _ _ _ _ R Iw) as [Rw _]. apply (value_region h h' _ w q Rw). intros x Ix. exact (REG x w Iw Ix).
Qed.
