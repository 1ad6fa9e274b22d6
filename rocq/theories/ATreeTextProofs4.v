(* the commands of a printed tree build the tree again *)
From Verif Require Import Base Text LogTextModel ATreeModel ATreeSpec ATreeProofs ATreeTextModel ATreeTextSpec ATreeTextProofs2.

Definition csub (l : list content) (d : str) : option content := find (named d) l.
Fixpoint find_at (c : content) (p : list str) : option content :=
  match p with [] => Some c | d :: r => match csub (subs_of c) d with Some y => find_at y r | None => None end end.
Fixpoint put_at (c : content) (p : list str) (z : content) : content :=
  match p with
  | [] => z
  | e :: r => match c with C d a l => match first_with (named e) (fun y => put_at y r z) l with Some l' => C d a l' | None => C d a l end end
  end.
Fixpoint grow (c : content) (p : list str) : content :=
  match p with
  | [] => c
  | e :: r => match c with C d a l => match first_with (named e) (fun y => grow y r) l with Some l' => C d a l' | None => C d a (grow (C (Some e) None []) r :: l) end end
  end.
Definition add_all (ys : list content) (c : content) : content := match c with C d a l => C d a (ys ++ l) end.

Lemma first_with_split f g l : (exists pre y post, l = pre ++ y :: post /\ f y = true /\ (forall z, In z pre -> f z = false) /\ first_with f g l = Some (pre ++ g y :: post) /\ find f l = Some y) \/
  (first_with f g l = None /\ find f l = None /\ forall z, In z l -> f z = false).
Proof.
  induction l as [|x l IH]; [right; repeat split; intros z []|]. cbn [first_with find]. destruct (f x) eqn:E.
  - left. exists [], x, l. repeat split; auto. intros z [].
  - destruct IH as [(pre & y & post & -> & Fy & Fp & Fw & Ff)|(Fw & Ff & N)].
    + left. exists (x :: pre), y, post. rewrite Fw. repeat split; auto. intros z [<-|I]; auto.
    + right. rewrite Fw. repeat split; auto. intros z [<-|I]; auto.
Qed.
Lemma find_skip f pre (l : list content) : (forall z, In z pre -> f z = false) -> find f (pre ++ l) = find f l.
Proof. induction pre as [|x pre IH]; intros N; [reflexivity|]. cbn [app find]. rewrite (N x) by now left. apply IH. intros z I. apply N. now right. Qed.
Lemma find_at_app c p q : find_at c (p ++ q) = match find_at c p with Some x => find_at x q | None => None end.
Proof. revert c. induction p as [|d p IH]; intros c; [reflexivity|]. cbn [app find_at]. destruct (csub (subs_of c) d); [apply IH|reflexivity]. Qed.
Lemma named_name d c : named d c = true <-> name_of c = Some d.
Proof. unfold named. apply opt_is_spec. Qed.
Lemma named_eq d c c' : name_of c = name_of c' -> named d c = named d c'.
Proof. unfold named. now intros ->. Qed.

(* one level: replace the first sub tree of a name *)
Ltac level l f g := destruct (first_with_split f g l) as [(pre & y & post & -> & Fy & Fp & Fw & Ff)|(Fw & Ff & N)].
Lemma put_at_name c p x z : find_at c p = Some x -> name_of z = name_of x -> name_of (put_at c p z) = name_of c.
Proof. revert c. destruct p as [|e p]; intros c; cbn [find_at put_at]; [now intros [= ->]|]. destruct c as [d a l]. intros _ _. destruct (first_with _ _ l); reflexivity. Qed.
Lemma find_put p : forall c x z, find_at c p = Some x -> name_of z = name_of x -> find_at (put_at c p z) p = Some z.
Proof.
  induction p as [|e p IH]; intros c x z F Nz; [reflexivity|]. destruct c as [d a l]. cbn [find_at put_at subs_of] in *. unfold csub in *. level l (named e) (fun y => put_at y p z); rewrite Ff in F; [|discriminate].
  rewrite Fw. cbn [subs_of]. rewrite find_skip by exact Fp. cbn [find]. rewrite (named_eq e _ y) by (eapply put_at_name; eauto). rewrite Fy. eauto.
Qed.
Lemma put_put p : forall c x y z, find_at c p = Some x -> name_of y = name_of x -> put_at (put_at c p y) p z = put_at c p z.
Proof.
  induction p as [|e p IH]; intros c x y z F Ny; [reflexivity|]. destruct c as [d a l]. cbn [find_at put_at subs_of] in *. unfold csub in *.
  destruct (first_with_split (named e) (fun w => put_at w p y) l) as [(pre & u & post & -> & Fy & Fp & Fw & Ff)|(Fw & Ff & N)]; rewrite Ff in F; [|discriminate].
  rewrite Fw. rewrite first_with_skip by exact Fp. cbn [first_with]. rewrite (named_eq e _ u) by (eapply put_at_name; eauto). rewrite Fy. cbn [option_map].
  rewrite first_with_skip by exact Fp. cbn [first_with]. rewrite Fy. cbn [option_map]. now rewrite (IH u x y z).
Qed.
Lemma put_app p : forall c x q z, find_at c p = Some x -> put_at c (p ++ q) z = put_at c p (put_at x q z).
Proof.
  induction p as [|e p IH]; intros c x q z F; [cbn in F |- *; congruence|]. destruct c as [d a l]. cbn [find_at put_at subs_of app] in *. unfold csub in *.
  destruct (first_with_split (named e) (fun w => put_at w (p ++ q) z) l) as [(pre & u & post & -> & Fy & Fp & Fw & Ff)|(Fw & Ff & N)]; rewrite Ff in F; [|discriminate].
  rewrite Fw. rewrite first_with_skip by exact Fp. cbn [first_with]. rewrite Fy. cbn [option_map]. now rewrite (IH u x q z).
Qed.
Lemma put_same p : forall c x, find_at c p = Some x -> put_at c p x = c.
Proof.
  induction p as [|e p IH]; intros c x F; [cbn in F |- *; congruence|]. destruct c as [d a l]. cbn [find_at put_at subs_of] in *. unfold csub in *.
  level l (named e) (fun y => put_at y p x); rewrite Ff in F; [|discriminate]. rewrite Fw. f_equal. f_equal. f_equal. eauto.
Qed.
Lemma assign_app p : forall c x q a, find_at c p = Some x -> assign c (p ++ q) a = put_at c p (assign x q a).
Proof.
  induction p as [|e p IH]; intros c x q a F; [cbn [app put_at]; cbn in F; congruence|]. destruct c as [d b l]. cbn [find_at put_at subs_of app assign] in *. unfold csub in *.
  destruct (first_with_split (named e) (fun w => assign w (p ++ q) a) l) as [(pre & u & post & -> & Fy & Fp & Fw & Ff)|(Fw & Ff & N)]; rewrite Ff in F; [|discriminate].
  rewrite Fw. rewrite first_with_skip by exact Fp. cbn [first_with]. rewrite Fy. cbn [option_map]. now rewrite (IH u x q a).
Qed.
Lemma assign_name c p a : name_of (assign c p a) = name_of c.
Proof. destruct p, c; cbn [assign name_of]; [reflexivity|]. destruct (first_with _ _ _); reflexivity. Qed.
Lemma grow_name c p : name_of (grow c p) = name_of c.
Proof. destruct p, c; cbn [grow name_of]; [reflexivity|]. destruct (first_with _ _ _); reflexivity. Qed.
Lemma grow_found p : forall c x, find_at c p = Some x -> grow c p = c.
Proof.
  induction p as [|e p IH]; intros c x F; [reflexivity|]. destruct c as [d a l]. cbn [find_at grow subs_of] in *. unfold csub in *.
  level l (named e) (fun y => grow y p); rewrite Ff in F; [|discriminate]. rewrite Fw. repeat f_equal. eauto.
Qed.
Lemma find_grow p : forall c, exists x, find_at (grow c p) p = Some x.
Proof.
  induction p as [|e p IH]; intros c; [cbn; eauto|]. destruct c as [d a l]. cbn [find_at grow]. unfold csub. level l (named e) (fun y => grow y p); rewrite Fw; cbn [subs_of].
  - rewrite find_skip by exact Fp. cbn [find]. rewrite (named_eq e _ y) by apply grow_name. rewrite Fy. apply IH.
  - cbn [find]. rewrite (named_eq e _ (C (Some e) None [])) by apply grow_name. unfold named. cbn [name_of opt_is]. rewrite str_eqb_refl. apply IH.
Qed.
Lemma grow_app p : forall c q, grow c (p ++ q) = match find_at (grow c p) p with Some x => put_at (grow c p) p (grow x q) | None => c end.
Proof.
  induction p as [|e p IH]; intros c q; [reflexivity|]. destruct c as [d a l]. cbn [app]. cbn [find_at grow]. unfold csub.
  destruct (first_with_split (named e) (fun w => grow w (p ++ q)) l) as [(pre & u & post & -> & Fy & Fp & Fw & Ff)|(Fw & Ff & N)].
  - rewrite Fw. rewrite first_with_skip by exact Fp. cbn [first_with]. rewrite Fy. cbn [option_map subs_of]. rewrite find_skip by exact Fp. cbn [find]. rewrite (named_eq e _ u) by apply grow_name. rewrite Fy.
    rewrite IH. destruct (find_grow p u) as [x X]. rewrite X. cbn [put_at]. rewrite first_with_skip by exact Fp. cbn [first_with]. rewrite (named_eq e _ u) by apply grow_name. rewrite Fy. reflexivity.
  - rewrite Fw. rewrite (first_with_none _ _ _ N). cbn [subs_of find]. assert (NE : named e (grow (C (Some e) None []) p) = true) by (apply named_name; rewrite grow_name; reflexivity). rewrite NE.
    rewrite IH. destruct (find_grow p (C (Some e) None [])) as [x X]. rewrite X. cbn [put_at first_with]. rewrite NE. reflexivity.
Qed.
Lemma assign_grow p : forall c x q a, q <> [] -> find_at (grow c p) p = Some x -> assign c (p ++ q) a = put_at (grow c p) p (assign x q a).
Proof.
  induction p as [|e p IH]; intros c x q a Q F; [cbn [app put_at]; cbn in F; congruence|]. destruct c as [d b l]. cbn [find_at grow app assign] in *. unfold csub in *.
  destruct (first_with_split (named e) (fun w => assign w (p ++ q) a) l) as [(pre & u & post & -> & Fy & Fp & Fw & Ff)|(Fw & Ff & N)].
  - rewrite first_with_skip in F by exact Fp. cbn [first_with] in F. rewrite Fy in F. cbn [option_map subs_of] in F. rewrite find_skip in F by exact Fp. cbn [find] in F. rewrite (named_eq e _ u) in F by apply grow_name. rewrite Fy in F.
    rewrite Fw. rewrite first_with_skip by exact Fp. cbn [first_with]. rewrite Fy. cbn [option_map put_at]. rewrite first_with_skip by exact Fp. cbn [first_with]. rewrite (named_eq e _ u) by apply grow_name. rewrite Fy. cbn [option_map].
    now rewrite (IH u x q a Q F).
  - rewrite (first_with_none _ _ _ N) in F. rewrite Fw, (first_with_none _ _ _ N). cbn [subs_of find] in F. assert (NE : named e (grow (C (Some e) None []) p) = true) by (apply named_name; rewrite grow_name; reflexivity). rewrite NE in F.
    cbn [put_at first_with]. rewrite NE. now rewrite (IH _ x q a Q F).
Qed.
Lemma assign_new x t a : csub (subs_of x) t = None -> assign x [t] a = add_all [C (Some t) a []] x.
Proof. destruct x as [d b l]. cbn [subs_of assign add_all app]. unfold csub. intros F. level l (named t) (fun y : content => match y with C d _ l => C d a l end); [congruence|]. now rewrite Fw. Qed.
Lemma add_all_name ys c : name_of (add_all ys c) = name_of c. Proof. now destruct c. Qed.
Lemma csub_cons_eq y l t : name_of y = Some t -> csub (y :: l) t = Some y.
Proof. intros E. unfold csub. cbn [find]. now rewrite (proj2 (named_name t y) E). Qed.
