(* get and load never have undefined behaviour, whatever the text, and leave trees behind *)
From Verif Require Import Base Text StringHelperModel LogTextModel ATreeModel ATreeSpec ATreeProofs ATreeProofs2 ATreeProofs5 ATreeProofs6 ATreeProofs7 ATreeProofs8 ATreeProofs9 ATreeTextModel ATreeTextSpec.
From Coq Require Import Permutation.
From Verif Require FilePathModel.

Definition safe {A} (h : heap) (o : outcome (heap * A)) : Prop :=
  o <> Undef /\ forall h' a, o = Done (h', a) -> forest h' /\ forall x, live h x -> live h' x.
Definition defined {A} (o : outcome A) : Prop := o <> Undef.
Lemma defined_bind {A B} (o : outcome A) (f : A -> outcome B) : defined o -> (forall a, o = Done a -> defined (f a)) -> defined (let* a := o in f a).
Proof. intros D F. destruct o as [a| |]; cbn [obind]; [now apply F|now contradiction D|discriminate]. Qed.
Lemma defined_done {A} (a : A) : defined (Done a). Proof. discriminate. Qed.
Lemma defined_o {A} (o : option A) : defined (o_of o). Proof. destruct o; discriminate. Qed.
Lemma defined_deref h p : live h p -> defined (deref h p).
Proof. intros L. apply live_ex in L. destruct L as [n E]. unfold deref. rewrite E. discriminate. Qed.
Lemma sub_live h p n c : forest h -> cell h p = Some n -> In c (subs n) -> live h c.
Proof. intros F E I. apply (f_lists _ F p n E) in I. destruct I as (m & E' & _). apply live_ex. eauto. Qed.
Lemma find_sub_defined h l d : (forall c, In c l -> live h c) -> defined (find_sub h l (Some d)) /\ forall c, find_sub h l (Some d) = Done (Some c) -> live h c.
Proof.
  induction l as [|x l IH]; intros L; cbn [find_sub]; [split; discriminate|]. pose proof (L x (or_introl eq_refl)) as Lx. apply live_ex in Lx. destruct Lx as [n E]. unfold deref. rewrite E. cbn [obind].
  destruct (IH (fun c I => L c (or_intror I))) as [I1 I2]. destruct (desc n) as [y|]; [|split; auto]. destruct (str_eqb y d); [|split; auto]. split; [discriminate|]. intros c [= <-]. apply live_ex. eauto.
Qed.
Lemma list_sub_defined h p n d : forest h -> cell h p = Some n -> defined (list_sub false h n (Some d)) /\ forall c, list_sub false h n (Some d) = Done (Some c) -> live h c.
Proof.
  intros F E. unfold list_sub. destruct (subs n) as [|x l] eqn:S; [split; discriminate|]. apply find_sub_defined. intros c I. eapply sub_live; eauto. now rewrite S.
Qed.
Lemma special_defined h d : forest h -> forall fuel q f, (forall p, q = Some p -> live h p) -> (forall c, f = Some c -> live h c) ->
  defined (special_loop fuel false h q f d) /\ forall c, special_loop fuel false h q f d = Done (Some c) -> live h c.
Proof.
  intros F. induction fuel as [|fuel IH]; intros [q|] [c|] LQ LF; cbn [special_loop]; try (split; [discriminate|]; intros k [= <-]; auto; fail); try (split; discriminate).
  pose proof (LQ q eq_refl) as L. apply live_ex in L. destruct L as [n E]. unfold deref. rewrite E. cbn [obind]. destruct (list_sub_defined h q n d F E) as [D1 D2].
  destruct (list_sub false h n (Some d)) as [s| |]; cbn [obind]; [|now contradiction D1|split; discriminate]. apply IH; [|intros c ->; now apply D2].
  intros p Ep. apply (f_parents _ F q p). exists n. auto.
Qed.
Lemma getSpecial_defined h p d fuel : forest h -> live h p -> defined (getSpecialAttribute fuel false h p d).
Proof.
  intros F L. unfold getSpecialAttribute. pose proof L as L'. apply live_ex in L'. destruct L' as [n E]. unfold deref at 1. rewrite E. cbn [obind]. destruct (list_sub_defined h p n d F E) as [D1 D2].
  apply defined_bind; [exact D1|]. intros s ES. destruct (special_defined h d F fuel (Some p) s) as [S1 S2]; [intros q [= <-]; exact L|intros c ->; now apply D2|].
  apply defined_bind; [exact S1|]. intros [c|] EC; [|apply defined_done]. apply defined_bind; [apply defined_deref; auto|intros; apply defined_done].
Qed.
Lemma walk_defined h l : forest h -> forall p, live h p -> defined (walk false h p l) /\ forall c, walk false h p l = Done (Some c) -> live h c.
Proof.
  intros F. induction l as [|d l IH]; intros p L; cbn [walk]; [split; [discriminate|]; now intros c [= <-]|]. pose proof L as L'. apply live_ex in L'. destruct L' as [n E]. unfold deref. rewrite E. cbn [obind].
  destruct (list_sub_defined h p n d F E) as [D1 D2]. destruct (list_sub false h n (Some d)) as [[c|]| |]; cbn [obind]; [apply IH; auto|split; discriminate|now contradiction D1|split; discriminate].
Qed.
Lemma get_defined fuel h p s def : forest h -> live h p -> defined (getAttribute fuel false h p s def).
Proof.
  intros F L. unfold getAttribute. apply defined_bind; [|intros; apply defined_done]. unfold find_attribute. destruct s as [s|]; [|apply defined_done].
  apply defined_bind; [destruct (ends_with file_path_str s); [|destruct (ends_with file_name_str s)]; try apply defined_done; now apply getSpecial_defined|]. intros [r|] _; [apply defined_done|].
  destruct (walk_defined h (split_dots s) F p L) as [W1 W2]. apply defined_bind; [exact W1|]. intros [c|] EC; [|apply defined_done]. apply defined_bind; [apply defined_deref; auto|intros; apply defined_done].
Qed.
Lemma root_defined fuel h p : forest h -> live h p -> defined (root fuel h p) /\ forall r, root fuel h p = Done r -> live h r.
Proof.
  intros F. revert p. induction fuel as [|fuel IH]; intros p L; cbn [root]; [split; discriminate|]. pose proof L as L'. apply live_ex in L'. destruct L' as [n E]. unfold deref. rewrite E. cbn [obind].
  destruct (parent n) as [q|] eqn:P; [apply IH, (f_parents _ F p q); exists n; auto|]. split; [discriminate|]. now intros r [= <-].
Qed.
(* ---- unmarkChanges and revertOrder, with any fuel ---- *)
Definition links (h : heap) (o : outcome heap) : Prop := o <> Undef /\ forall h', o = Done h' -> same_links h h'.
Lemma links_fold (op : heap -> nat -> outcome heap) l : (forall g c, forest g -> live g c -> links g (op g c)) -> forall h, forest h -> (forall c, In c l -> live h c) -> links h (ofold op l h).
Proof.
  intros H. induction l as [|x l IH]; intros h F L; cbn [ofold]; [split; [discriminate|]; intros h' [= <-]; apply same_links_refl|].
  destruct (H h x F (L x (or_introl eq_refl))) as [O1 O2]. destruct (op h x) as [h1| |]; cbn [obind]; [|now contradiction O1|split; discriminate]. specialize (O2 h1 eq_refl).
  destruct (IH h1) as [I1 I2]; [eapply forest_links; eauto|intros c I; apply (same_links_live h h1 c O2), L; now right|]. split; [exact I1|]. intros h' E. eapply same_links_trans; eauto.
Qed.
Lemma unmark_links fuel : forall h p, forest h -> live h p -> links h (unmarkChanges fuel h p).
Proof.
  induction fuel as [|fuel IH]; intros h p F L; cbn [unmarkChanges]; [split; discriminate|]. pose proof L as L'. apply live_ex in L'. destruct L' as [n E]. rewrite (update_done _ _ _ _ E). cbn [obind].
  assert (SL : same_links h (put h p (set_changed false n))) by (eapply put_links; [exact E|reflexivity|apply Permutation_refl]). pose proof (forest_links _ _ SL F) as F1.
  unfold deref. rewrite put_same. cbn [obind subs set_changed]. destruct (links_fold (fun g c => unmarkChanges fuel g c) (subs n) ltac:(intros; apply IH; auto) _ F1) as [I1 I2].
  { intros c I. apply (same_links_live _ _ c SL). eapply sub_live; eauto. }
  split; [exact I1|]. intros h' E'. eapply same_links_trans; [exact SL|]. auto.
Qed.
Lemma revert_links fuel : forall h p, forest h -> live h p -> links h (revertOrder fuel h p).
Proof.
  induction fuel as [|fuel IH]; intros h p F L; cbn [revertOrder]; [split; discriminate|]. pose proof L as L'. apply live_ex in L'. destruct L' as [n E]. unfold deref. rewrite E. cbn [obind].
  destruct (links_fold (fun g c => revertOrder fuel g c) (subs n) ltac:(intros; apply IH; auto) h F) as [I1 I2]; [intros c I; eapply sub_live; eauto|].
  destruct (ofold _ (subs n) h) as [h1| |]; cbn [obind]; [|now contradiction I1|split; discriminate]. specialize (I2 h1 eq_refl).
  pose proof (proj2 (same_links_live h h1 p I2) L) as L1. apply live_ex in L1. destruct L1 as [n1 E1]. rewrite (update_done _ _ _ _ E1). split; [discriminate|]. intros h' [= <-].
  eapply same_links_trans; [exact I2|]. eapply put_links; [exact E1|reflexivity|]. cbn [subs set_subs].
  destruct I2 as [_ I2]. specialize (I2 p). rewrite E, E1 in I2. eapply Permutation_trans; [apply Permutation_sym, I2|apply Permutation_rev].
Qed.

(* ---- one line ---- *)
Lemma safe_bind {A B} h (o : outcome (heap * A)) (f : heap * A -> outcome (heap * B)) : safe h o -> (forall h1 a, o = Done (h1, a) -> forest h1 -> (forall x, live h x -> live h1 x) -> safe h1 (f (h1, a))) -> safe h (let* r := o in f r).
Proof.
  intros [O1 O2] K. destruct o as [[h1 a]| |]; cbn [obind]; [|now contradiction O1|split; discriminate]. destruct (O2 h1 a eq_refl) as [F1 L1]. destruct (K h1 a eq_refl F1 L1) as [K1 K2].
  split; [exact K1|]. intros h' b E. destruct (K2 h' b E). split; auto.
Qed.
Lemma safe_done {A} h (a : A) : forest h -> safe h (Done (h, a)).
Proof. intros F. split; [discriminate|]. intros h' b [= <- <-]. auto. Qed.
Lemma safe_set h p d a : forest h -> live h p -> safe h (setAttribute h p d a) /\ forall h' c, setAttribute h p d a = Done (h', c) -> live h' c.
Proof.
  intros F L. destruct (set_ok d a h p F L) as (h' & c & S & F' & W & P & _ & B & _ & LV). rewrite S. split; [split; [discriminate|]; intros h2 c2 [= <- <-]; auto|].
  intros h2 c2 [= <- <-]. destruct (w_here _ _ _ _ W) as (n & E & _). apply live_ex. eauto.
Qed.
Definition safe1 (h : heap) (o : outcome heap) : Prop := o <> Undef /\ forall h', o = Done h' -> forest h' /\ forall x, live h x -> live h' x.
Lemma safe_update h p f : forest h -> live h p -> (forall n, parent (f n) = parent n /\ subs (f n) = subs n) -> safe1 h (update h p f).
Proof.
  intros F L H. pose proof L as L'. apply live_ex in L'. destruct L' as [n E]. split; [rewrite (update_done _ _ _ _ E); discriminate|]. intros h' U. split; [eapply update_forest; eauto|].
  rewrite (update_done _ _ _ _ E) in U. injection U as <-. intros x Lx. unfold live. rewrite cell_put. destruct (x =? p); [discriminate|exact Lx].
Qed.
Lemma set_attr_keeps a n : parent (set_attr a n) = parent n /\ subs (set_attr a n) = subs n.
Proof. destruct (set_attr_links a n) as (_ & A & B & _). auto. Qed.
Lemma safe_new h d q : forest h -> live h q -> safe h (new_tree h d (Some q)) /\ forall h' c, new_tree h d (Some q) = Done (h', c) -> live h' c.
Proof.
  intros F L. pose proof L as L'. apply live_ex in L'. destruct L' as [m E]. rewrite (new_tree_some _ _ _ _ F E). destruct (below_new_cells h d q m F E) as (B1 & B2 & B3).
  split; [split; [discriminate|]|].
  - intros h' c [= <- <-]. split; [apply (new_tree_forest h d (Some q) _ (next h) F); [intros x [= <-]; exact L|now apply new_tree_some]|].
    intros x Lx. unfold live. destruct (Nat.eq_dec x q) as [->|N1]; [rewrite B1; discriminate|]. destruct (Nat.eq_dec x (next h)) as [->|N2]; [rewrite B2; discriminate|]. now rewrite B3.
  - intros h' c [= <- <-]. unfold live. rewrite B2. discriminate.
Qed.
Lemma comment_safe fuel : forall h c n s, forest h -> (forall x, c = Some x -> live h x) -> comment_loop fuel h c n s <> Undef /\ forall h' k t, comment_loop fuel h c n s = Done (h', k, t) -> forest h' /\ forall x, live h x -> live h' x.
Proof.
  induction fuel as [|fuel IH]; intros h c n s F L; cbn [comment_loop]; [split; discriminate|]. destruct (readNextLine s) as [b s']. destruct (occurs _ _); [split; [discriminate|]; intros h' k t [= <- <- <-]; auto|].
  assert (S1 : safe1 h (match c with Some c => appendAttribute h c (trimmed b) [newline] | None => Done h end)).
  { destruct c as [c|]; [apply safe_update; [exact F|now apply L|intros m; split; reflexivity]|split; [discriminate|]; intros h' [= <-]; auto]. }
  destruct S1 as [S1 S2]. destruct (match c with Some c => _ | None => _ end) as [h1| |]; cbn [obind]; [|now contradiction S1|split; discriminate]. destruct (S2 h1 eq_refl) as [F1 L1].
  destruct (IH h1 c (n + 1)%Z s' F1 (fun x E => L1 x (L x E))) as [I1 I2]. split; [exact I1|]. intros h' k t E. destruct (I2 h' k t E). auto.
Qed.

Section Safe.
Variables (strict : bool) (w : world) (inc comments : bool).
Hypothesis lenient : strict = false \/ inc = false.
Definition step_safe (h : heap) (o : outcome step_result) : Prop :=
  o <> Undef /\ (forall h' k, o = Done (Return h' k) -> forest h' /\ forall x, live h x -> live h' x) /\
  (forall h' at_ n s, o = Done (Next h' at_ n s) -> forest h' /\ live h' at_ /\ forall x, live h x -> live h' x).
Lemma step_done h at_ n s : forest h -> live h at_ -> step_safe h (Done (Next h at_ n s)).
Proof. intros F L. split; [discriminate|]. split; [discriminate|]. intros h' a m t [= <- <- <- <-]. auto. Qed.
Lemma step_return h n : forest h -> step_safe h (Done (Return h n)).
Proof. intros F. split; [discriminate|]. split; [|discriminate]. intros h' k [= <- <-]. auto. Qed.
Lemma step_safe_mono h h1 o : (forall x, live h x -> live h1 x) -> step_safe h1 o -> step_safe h o.
Proof. intros L (A & B & D). split; [exact A|]. split; [intros h' k E; destruct (B h' k E); auto|]. intros h' a n s E. destruct (D h' a n s E) as (F & G & H). auto. Qed.
Lemma step_bind {A} h (o : outcome (heap * A)) f : safe h o -> (forall h1 a, o = Done (h1, a) -> forest h1 -> (forall x, live h x -> live h1 x) -> step_safe h1 (f (h1, a))) -> step_safe h (let* r := o in f r).
Proof.
  intros [O1 O2] K. destruct o as [[h1 a]| |]; cbn [obind]; [|now contradiction O1|split; [discriminate|split; discriminate]]. destruct (O2 h1 a eq_refl) as [F1 L1]. eapply step_safe_mono; eauto.
Qed.
Lemma step_bind1 h (o : outcome heap) f : safe1 h o -> (forall h1, o = Done h1 -> forest h1 -> (forall x, live h x -> live h1 x) -> step_safe h1 (f h1)) -> step_safe h (let* r := o in f r).
Proof.
  intros [O1 O2] K. destruct o as [h1| |]; cbn [obind]; [|now contradiction O1|split; [discriminate|split; discriminate]]. destruct (O2 h1 eq_refl) as [F1 L1]. eapply step_safe_mono; eauto.
Qed.
Lemma step_safe_get load fuel this fp h at_ n line s : (forall g q i, forest g -> live g q -> inc = true -> safe g (load g q i)) -> forest h -> live h at_ -> live h this ->
  step_safe h (get_step load fuel strict w this fp inc comments h at_ n line s).
Proof.
  intros LD F L LT. unfold get_step. destruct (match line with "#"%char :: _ => true | _ => false end); [now apply step_done|].
  destruct (cut ":" line) as [[[|c d] a]|].
  - apply step_bind1; [apply safe_update; auto; apply set_attr_keeps|]. intros h1 _ F1 L1. apply step_done; auto.
  - destruct (str_eqb (c :: d) include_str).
    + destruct inc eqn:EI.
      * destruct lenient as [->|X]; [|discriminate X].
        assert (DN : defined (include_name fuel false w h this fp a)).
        { unfold include_name. apply defined_bind; [apply defined_o|]. intros e _. destruct (FilePathModel.isRelativePath _); [|apply defined_done].
          apply defined_bind; [|intros; apply defined_o]. destruct fp; [apply defined_done|]. unfold getFilePath. destruct (root_defined fuel h this F LT) as [R1 R2]. apply defined_bind; [exact R1|]. intros r ER.
          apply defined_bind; [apply getSpecial_defined; auto|intros; apply defined_done]. }
        destruct (include_name fuel false w h this fp a) as [i| |]; cbn [obind]; [|now contradiction DN|split; [discriminate|split; discriminate]].
        apply step_bind; [now apply LD|]. intros h1 r _ F1 L1. apply step_done; auto.
      * destruct (safe_new h (Some include_str) at_ F L) as [S1 S2]. apply step_bind; [exact S1|]. intros h1 q E F1 L1. cbn [fst snd].
        apply step_bind1; [apply safe_update; eauto; apply set_attr_keeps|]. intros h2 _ F2 L2. apply step_done; auto.
    + destruct (negb _ || comments); [|now apply step_done]. destruct (safe_set h at_ (Some (c :: d)) (Some a) F L) as [S1 _]. apply step_bind; [exact S1|]. intros h1 q E F1 L1. apply step_done; cbn [fst]; auto.
  - destruct (cut "{" line) as [[d r]|].
    + destruct (str_eqb d comment_str).
      * set (mk := if comments then let* hp := new_tree h (Some comment_str) (Some at_) in Done (fst hp, Some (snd hp)) else Done (h, None)).
        assert (MK : safe h mk /\ forall h1 c, mk = Done (h1, c) -> forall x, c = Some x -> live h1 x).
        { unfold mk. destruct comments.
          - destruct (safe_new h (Some comment_str) at_ F L) as [S1 S2]. destruct (new_tree h (Some comment_str) (Some at_)) as [[h1 q]| |]; cbn [obind fst snd]; [|destruct S1 as [S1 _]; now contradiction S1|split; [split; discriminate|discriminate]].
            split; [|intros h2 c [= <- <-] x [= <-]; eapply S2; reflexivity]. destruct S1 as [_ S1]. destruct (S1 h1 q eq_refl). split; [discriminate|]. intros h' b [= <- <-]. auto.
          - split; [now apply safe_done|]. intros h1 c [= <- <-]. discriminate. }
        destruct MK as [M1 M2]. apply step_bind; [exact M1|]. intros h1 c E F1 L1. cbn [fst snd]. destruct (comment_safe fuel h1 c n s F1 (M2 h1 c E)) as [C1 C2].
        destruct (comment_loop fuel h1 c n s) as [[[h2 k] t]| |]; cbn [obind]; [|now contradiction C1|split; [discriminate|split; discriminate]]. destruct (C2 h2 k t eq_refl) as [F2 L2].
        apply (step_safe_mono h1 h2); [exact L2|]. apply step_done; auto.
      * destruct (safe_set h at_ (Some d) None F L) as [S1 S2]. apply step_bind; [exact S1|]. intros h1 q E F1 L1. apply step_done; cbn [fst snd]; eauto.
    + destruct (cut "}" line).
      * destruct (at_ =? this); [now apply step_return|]. pose proof L as L'. apply live_ex in L'. destruct L' as [m E]. unfold deref. rewrite E. cbn [obind]. destruct (parent m) as [q|] eqn:P; [|now apply step_return].
        apply step_done; [exact F|]. apply (f_parents _ F at_ q). exists m. auto.
      * destruct (negb (eof s) && _); [now apply step_return|now apply step_done].
Qed.
Lemma load_safe get fuel h p filename unmark preserve : (forall g fp t, forest g -> live g p -> safe g (get g fp t)) -> strict = false -> forest h -> live h p -> safe h (load_with get fuel strict w h p filename unmark preserve).
Proof.
  intros G ES F L. unfold load_with. destruct filename as [|f0 fr]; [now apply safe_done|]. destruct (FilePathModel.init _ _ _) as [fp|]; cbn [o_of obind]; [|split; discriminate].
  destruct (root_defined fuel h p F L) as [R1 R2]. destruct (root fuel h p) as [r| |]; cbn [obind]; [|now contradiction R1|split; discriminate]. subst strict.
  match goal with |- safe h (let* h1 := ?o in _) => assert (S1 : safe1 h o) end.
  { destruct (r =? p); [|split; [discriminate|]; intros h' [= <-]; auto]. pose proof (get_defined fuel h p (Some file_path_str) None F L) as GD.
    destruct (getAttribute fuel false h p (Some file_path_str) None) as [[[v|] ?]| |]; cbn [obind fst]; [split; [discriminate|]; intros h' [= <-]; auto| |now contradiction GD|split; discriminate].
    destruct (safe_set h p (Some file_path_str) (Some (FilePathModel.path fp)) F L) as [[A1 A2] _]. destruct (setAttribute h p (Some file_path_str) _) as [[h1 c1]| |]; cbn [obind fst]; [|now contradiction A1|split; discriminate].
    destruct (A2 h1 c1 eq_refl) as [F1 L1]. destruct (safe_set h1 p (Some file_name_str) (Some (FilePathModel.name fp)) F1 (L1 p L)) as [[B1 B2] _]. destruct (setAttribute h1 p _ _) as [[h2 c2]| |]; cbn [obind fst]; [|now contradiction B1|split; discriminate].
    destruct (B2 h2 c2 eq_refl) as [F2 L2]. split; [discriminate|]. intros h' [= <-]. auto. }
  destruct S1 as [S1 S2]. match goal with |- safe h (let* h1 := ?o in _) => destruct o as [h1| |] end; cbn [obind]; [|now contradiction S1|split; discriminate]. destruct (S2 h1 eq_refl) as [F1 L1].
  assert (MO : forall (o : outcome (heap * loaded)), safe h1 o -> safe h o) by (intros o [A B]; split; [exact A|]; intros h' k E; destruct (B h' k E); auto). apply MO. clear MO.
  destruct (files w _) as [text|]; [|now apply safe_done]. apply safe_bind; [apply G; auto|]. intros h2 code E F2 L2. destruct (0 <=? code)%Z; [now apply safe_done|].
  pose proof (L2 p (L1 p L)) as L3. assert (U : links h2 (if unmark then unmarkChanges fuel h2 p else Done h2)) by (destruct unmark; [now apply unmark_links|split; [discriminate|]; intros h' [= <-]; apply same_links_refl]).
  destruct U as [U1 U2]. destruct (if unmark then _ else _) as [h3| |]; cbn [obind]; [|now contradiction U1|split; discriminate]. specialize (U2 h3 eq_refl). pose proof (forest_links _ _ U2 F2) as F3. apply (same_links_live _ _ p U2) in L3.
  assert (V : links h3 (if preserve then revertOrder fuel h3 p else Done h3)) by (destruct preserve; [now apply revert_links|split; [discriminate|]; intros h' [= <-]; apply same_links_refl]).
  destruct V as [V1 V2]. destruct (if preserve then _ else _) as [h4| |]; cbn [obind]; [|now contradiction V1|split; discriminate]. specialize (V2 h4 eq_refl).
  split; [discriminate|]. intros h' k [= <- <-]. split; [eapply forest_links; eauto|]. intros x Lx. apply (same_links_live _ _ x V2), (same_links_live _ _ x U2), Lx.
Qed.
Lemma loop_safe fuel : forall this fp h at_ n b s, forest h -> live h this -> live h at_ -> safe h (get_loop fuel strict w this fp inc comments h at_ n b s).
Proof.
  induction fuel as [|fuel IH]; intros this fp h at_ n b s F LT L; cbn [get_loop]; [split; discriminate|].
  match goal with |- safe h (let* r := get_step ?ld _ _ _ _ _ _ _ _ _ ?m ?line ?s in _) => pose proof (step_safe_get ld fuel this fp h at_ m line s) as ST end.
  match type of ST with ?P -> _ => assert (LD : P) end.
  { intros g q i Fg Lg EI. destruct lenient as [ES|X]; [|congruence]. apply load_safe; auto. intros g1 fp1 t F1 L1. destruct (readNextLine t) as [b1 t1]. now apply IH. }
  specialize (ST LD F L LT). destruct ST as (A & B & D). destruct (get_step _ _ _ _ _ _ _ _ _ _ _ _ _) as [[h1 k|h1 at1 n1 s1]| |]; cbn [obind]; [| |now contradiction A|split; discriminate].
  - split; [discriminate|]. intros h' k' [= <- <-]. now apply (B h1 k).
  - destruct (D h1 at1 n1 s1 eq_refl) as (F1 & L1 & M1). destruct (readNextLine s1) as [b1 s2]. destruct (eof s2); [split; [discriminate|]; intros h' k' [= <- <-]; auto|].
    destruct (IH this fp h1 at1 n1 b1 s2 F1 (M1 _ LT) L1) as [I1 I2]. split; [exact I1|]. intros h' k E. destruct (I2 h' k E). auto.
Qed.
Lemma get_safe fuel h p s fp : forest h -> live h p -> safe h (get fuel strict w h p s inc comments fp).
Proof. intros F L. unfold get. destruct (readNextLine s) as [b s1]. now apply loop_safe. Qed.
End Safe.
