From Verif Require Import Base Text LogTextModel ATreeModel ATreeSpec ATreeProofs ATreeTextModel ATreeTextSpec ATreeTextProofs2 ATreeTextProofs4.

Section R.
Variable csd : Z.
Definition text_of (d : option str) : str := match d with Some x => x | None => [] end.
Fixpoint dcmds (pp : list str) (c : content) : list command :=
  match c with C d a l => (match a with Some v => [Assign (pp ++ [text_of d]) v] | None => [] end) ++ flat_map (dcmds (pp ++ [text_of d])) l end.
Fixpoint bcmds (c : content) : list command :=
  match c with
  | C d a l =>
    if (csd <=? Z.of_nat (attributes c))%Z
    then [Open [text_of d]] ++ (match a with Some (x :: v) => [Own (x :: v)] | _ => [] end) ++ flat_map bcmds l ++ [Close]
    else dcmds [] c
  end.
(* sub trees with different descriptions *)
Fixpoint separate (c : content) : Prop :=
  match c with
  | C d a l => (exists x, d = Some x) /\ ((csd <= Z.of_nat (attributes c))%Z -> a <> Some []) /\ NoDup (map name_of l) /\
               (fix all l := match l with [] => True | x :: r => separate x /\ all r end) l
  end.
Lemma separate_eq d a l : separate (C d a l) <-> (exists x, d = Some x) /\ ((csd <= Z.of_nat (attributes (C d a l)))%Z -> a <> Some []) /\ NoDup (map name_of l) /\ Forall separate l.
Proof.
  cbn [separate]. assert (X : forall k, (fix all l := match l with [] => True | x :: r => separate x /\ all r end) k <-> Forall separate k).
  { induction k as [|y k IH]; [split; auto|]. split; [intros [A B]; constructor; [exact A|now apply IH]|intros A; inversion A; split; [assumption|now apply IH]]. }
  rewrite X. tauto.
Qed.
Definition rk (c : content) : content := reversed (kept csd c).
Definition klist (l : list content) : list content := flat_map (fun x => if shown csd x then [rk x] else []) l.
Lemma rk_eq d a l : rk (C d a l) = C d a (rev (klist l)).
Proof.
  unfold rk at 1. cbn [kept reversed]. f_equal. f_equal. unfold klist. induction l as [|x l IH]; [reflexivity|]. cbn [flat_map]. rewrite map_app, IH. f_equal. destruct (shown csd x); reflexivity.
Qed.
Lemma rk_name c : name_of (rk c) = name_of c. Proof. destruct c. now rewrite rk_eq. Qed.
Lemma attributes_eq d a l : attributes (C d a l) = (match a with Some _ => 1 | None => 0 end) + list_sum (map attributes l).
Proof. cbn [attributes]. f_equal. induction l as [|x l IH]; [reflexivity|]. cbn [fold_right map list_sum]. unfold list_sum in *. cbn. lia. Qed.
Lemma attributes_in x l : In x l -> attributes x <= list_sum (map attributes l).
Proof. induction l as [|y l IH]; intros I; [destruct I|]. cbn [map list_sum fold_right] in *. unfold list_sum in *. cbn. destruct I as [->|I]; [lia|]. specialize (IH I). lia. Qed.
Lemma dcmds_none c : forall pp, attributes c = 0 -> dcmds pp c = [].
Proof.
  induction c as [d a l IH] using content_ind'. intros pp E. rewrite attributes_eq in E. destruct a; [lia|]. cbn [dcmds app]. generalize (pp ++ [text_of d]). intros qq.
  induction l as [|y l IHl]; [reflexivity|]. cbn [flat_map]. inversion IH as [|? ? Iy Il]; subst. cbn [map] in E. unfold list_sum in *. cbn [fold_right] in E. rewrite Iy, IHl by (auto; lia). reflexivity.
Qed.

(* after the commands, [x] at [pos] is [x'] *)
Definition builds (cmds : list command) (x x' : content) : Prop :=
  forall c0 pos n rest, find_at c0 pos = Some x -> exists m, run (cmds ++ rest) n c0 pos = run rest m (put_at c0 pos x') pos.
Lemma builds_nil x : builds [] x x.
Proof. intros c0 pos n rest F. exists n. cbn [app]. now rewrite put_same. Qed.
Lemma builds_app a b x y z : name_of y = name_of x -> builds a x y -> builds b y z -> builds (a ++ b) x z.
Proof.
  intros N A B c0 pos n rest F. destruct (A c0 pos n (b ++ rest) F) as [m M]. rewrite <- app_assoc, M. destruct (B (put_at c0 pos y) pos m rest) as [m' M']; [eapply find_put; eauto|].
  exists m'. rewrite M'. now rewrite (put_put pos c0 x y z).
Qed.
Lemma builds_assign p a x : builds [Assign p a] x (assign x p (Some a)).
Proof. intros c0 pos n rest F. eexists. cbn [app run]. rewrite (assign_app pos c0 x p (Some a) F). reflexivity. Qed.
Lemma builds_own a x : builds [Own a] x (assign x [] (Some a)).
Proof. intros c0 pos n rest F. eexists. cbn [app run]. rewrite <- (app_nil_r pos) at 1. rewrite (assign_app pos c0 x [] (Some a) F). reflexivity. Qed.
Lemma builds_block t cmds x y z : csub (subs_of x) t = None -> builds cmds (C (Some t) None []) y -> name_of y = Some t -> z = add_all [y] x -> builds ([Open [t]] ++ cmds ++ [Close]) x z.
Proof.
  intros N B Ny -> c0 pos n rest F. cbn [app run]. rewrite <- app_assoc. rewrite (assign_app pos c0 x [t] None F), assign_new by exact N. set (x1 := add_all [C (Some t) None []] x).
  assert (N1 : name_of x1 = name_of x) by apply add_all_name. pose proof (find_put pos c0 x x1 F N1) as F1.
  assert (F2 : find_at x1 [t] = Some (C (Some t) None [])). { unfold x1. destruct x. cbn [add_all subs_of find_at app]. now rewrite csub_cons_eq. }
  destruct (B (put_at c0 pos x1) (pos ++ [t]) (n + 1)%Z ([Close] ++ rest)) as [m M]; [now rewrite find_at_app, F1|]. rewrite M. cbn [app run].
  destruct (pos ++ [t]) as [|e0 q0] eqn:E; [destruct pos; discriminate|]. rewrite <- E, removelast_last. exists (m + 1)%Z. f_equal.
  rewrite (put_app pos _ x1 [t] y F1), (put_put pos c0 x x1 _ F N1). f_equal. unfold x1. destruct x. cbn [add_all app put_at first_with].
  unfold named at 1. cbn [name_of opt_is]. rewrite str_eqb_refl. reflexivity.
Qed.

(* ---- the style with points ---- *)
Definition list_builds (l : list content) (qq : list str) (x : content) : content :=
  if existsb (fun y => 0 <? attributes y) l
  then match find_at (grow x qq) qq with Some z => put_at (grow x qq) qq (add_all (rev (klist l)) z) | None => x end
  else x.
Lemma csub_none l t : csub l t = None <-> ~ In (Some t) (map name_of l).
Proof.
  unfold csub. split.
  - intros F I. apply in_map_iff in I. destruct I as (y & E & I). apply (find_none _ _ F) in I. rewrite (proj2 (named_name t y) E) in I. discriminate.
  - intros N. destruct (find (named t) l) as [y|] eqn:F; [|reflexivity]. exfalso. apply N. apply find_some in F. destruct F as [I E]. apply in_map_iff. exists y. split; [now apply named_name|exact I].
Qed.
Lemma add_all_app a b c : add_all a (add_all b c) = add_all (a ++ b) c.
Proof. destruct c. cbn [add_all]. now rewrite app_assoc. Qed.
Lemma klist_names l e : In e (map name_of (klist l)) -> In e (map name_of l).
Proof.
  unfold klist. induction l as [|x l IH]; [auto|]. cbn [flat_map]. rewrite map_app. intros I. apply in_app_or in I. destruct I as [I|I]; [|right; auto]. destruct (shown csd x); [|destruct I].
  destruct I as [E|[]]. left. now rewrite <- E, rk_name.
Qed.
Lemma subs_add_all ys c : subs_of (add_all ys c) = ys ++ subs_of c. Proof. now destruct c. Qed.

Lemma d_builds c : separate c -> (0 < csd)%Z -> forall pp x y, 0 < attributes c -> find_at (grow x pp) pp = Some y -> csub (subs_of y) (text_of (name_of c)) = None ->
  builds (dcmds pp c) x (put_at (grow x pp) pp (add_all [rk c] y)).
Proof.
  induction c as [d a l IH] using content_ind'. intros SE CP pp x y AT FY NY. apply separate_eq in SE. destruct SE as ((t & ->) & _ & ND & SL). cbn [name_of text_of] in NY. cbn [dcmds text_of].
  (* the list of sub trees *)
  assert (LI : forall k x0 z, NoDup (map name_of k) -> Forall separate k -> (forall w, In w k -> In w l) -> find_at (grow x0 (pp ++ [t])) (pp ++ [t]) = Some z -> (forall e, In (Some e) (map name_of k) -> ~ In (Some e) (map name_of (subs_of z))) ->
     builds (flat_map (dcmds (pp ++ [t])) k) x0 (list_builds k (pp ++ [t]) x0)).
  { set (qq := pp ++ [t]). induction k as [|w k IHk]; intros x0 z NDk SK IN FZ DJ; [apply builds_nil|]. cbn [flat_map]. inversion NDk as [|? ? NI ND']; inversion SK as [|? ? Sw Sk]; subst.
    rewrite Forall_forall in IH. unfold list_builds. cbn [existsb klist flat_map]. destruct (0 <? attributes w) eqn:AW.
    - apply Nat.ltb_lt in AW. cbn [orb]. assert (SW : shown csd w = true) by (unfold shown; rewrite (proj2 (Nat.ltb_lt _ _) AW); apply orb_true_r). rewrite FZ. fold (klist k).
      assert (Nw : exists e, name_of w = Some e) by (destruct w; apply separate_eq in Sw; destruct Sw as ((e & ->) & _); eexists; reflexivity). destruct Nw as [e Nw].
      assert (NW : csub (subs_of z) (text_of (name_of w)) = None). { apply csub_none. rewrite Nw. cbn [text_of]. apply DJ. left. exact Nw. }
      specialize (IH w (IN w (or_introl eq_refl)) Sw CP qq x0 z AW FZ NW).
      set (x1 := put_at (grow x0 qq) qq (add_all [rk w] z)) in *.
      assert (F1 : find_at x1 qq = Some (add_all [rk w] z)) by (unfold x1; eapply find_put; [exact FZ|apply add_all_name]).
      assert (G1 : grow x1 qq = x1) by (eapply grow_found; exact F1).
      eapply builds_app; [|exact IH|].
      { unfold x1. rewrite (put_at_name _ _ _ _ FZ) by apply add_all_name. apply grow_name. }
      assert (DJ' : forall e0, In (Some e0) (map name_of k) -> ~ In (Some e0) (map name_of (subs_of (add_all [rk w] z)))).
      { intros e0 I J. rewrite subs_add_all in J. cbn [app map] in J. destruct J as [J|J]; [rewrite rk_name in J; apply NI; rewrite J; exact I|apply (DJ e0); [now right|exact J]]. }
      specialize (IHk x1 (add_all [rk w] z) ND' Sk (fun v I => IN v (or_intror I)) ltac:(now rewrite G1) DJ'). unfold list_builds in IHk. rewrite G1, F1 in IHk.
      assert (EK : existsb (fun y => 0 <? attributes y) k = false -> klist k = []).
      { intros EB. unfold klist. clear - EB CP. induction k as [|u k IHu]; [reflexivity|]. cbn [existsb flat_map] in *. apply orb_false_iff in EB. destruct EB as [E1 E2]. unfold shown at 1. rewrite E1. rewrite (proj2 (Z.leb_gt csd 0)) by lia. cbn [orb app]. now apply IHu. }
      assert (RS : put_at (grow x0 qq) qq (add_all (rev ((if shown csd w then [rk w] else []) ++ klist k)) z) = put_at x1 qq (add_all (rev (klist k)) (add_all [rk w] z))).
      { rewrite SW. unfold x1. rewrite (put_put qq _ z _ _ FZ) by apply add_all_name. f_equal. rewrite add_all_app. cbn [app rev]. reflexivity. }
      rewrite RS. destruct (existsb (fun y => 0 <? attributes y) k) eqn:EB; [exact IHk|]. rewrite (EK eq_refl). cbn [rev]. assert (A0 : add_all [] (add_all [rk w] z) = add_all [rk w] z) by (destruct z; reflexivity). rewrite A0, (put_same _ _ _ F1). exact IHk.
    - cbn [orb]. apply Nat.ltb_ge in AW. rewrite dcmds_none by lia. cbn [app]. assert (SW : shown csd w = false) by (unfold shown; rewrite (proj2 (Z.leb_gt csd 0)) by lia; apply Nat.ltb_ge; lia). rewrite SW. cbn [app]. fold (klist k).
      change (builds (flat_map (dcmds qq) k) x0 (list_builds k qq x0)). apply (IHk x0 z); auto; [intros v I; apply IN; now right|intros e0 I; apply DJ; now right]. }
  rewrite rk_eq.
  destruct a as [v|]; cbn [app].
  - change (Assign (pp ++ [t]) v :: flat_map (dcmds (pp ++ [t])) l) with ([Assign (pp ++ [t]) v] ++ flat_map (dcmds (pp ++ [t])) l).
    pose proof (builds_assign (pp ++ [t]) v x) as B1. rewrite (assign_grow pp x y [t] (Some v)) in B1 by (auto; discriminate). rewrite assign_new in B1 by exact NY.
    set (x1 := put_at (grow x pp) pp (add_all [C (Some t) (Some v) []] y)) in *.
    assert (F1 : find_at x1 pp = Some (add_all [C (Some t) (Some v) []] y)) by (unfold x1; eapply find_put; [exact FY|apply add_all_name]).
    assert (F2 : find_at x1 (pp ++ [t]) = Some (C (Some t) (Some v) [])). { rewrite find_at_app, F1. destruct y. cbn [add_all app find_at subs_of]. now rewrite csub_cons_eq. }
    pose proof (grow_found _ _ _ F2) as G2.
    eapply builds_app; [|exact B1|]; [unfold x1; rewrite (put_at_name _ _ _ _ FY) by apply add_all_name; apply grow_name|].
    specialize (LI l x1 (C (Some t) (Some v) []) ND SL (fun w I => I) ltac:(now rewrite G2) ltac:(intros e _ [])). unfold list_builds in LI. rewrite G2, F2 in LI.
    assert (EK : existsb (fun y => 0 <? attributes y) l = false -> klist l = []).
    { intros EB. unfold klist. clear - EB CP. induction l as [|u k IHu]; [reflexivity|]. cbn [existsb flat_map] in *. apply orb_false_iff in EB. destruct EB as [E1 E2]. unfold shown at 1. rewrite E1. rewrite (proj2 (Z.leb_gt csd 0)) by lia. cbn [orb app]. now apply IHu. }
    assert (RS : put_at (grow x pp) pp (add_all [C (Some t) (Some v) (rev (klist l))] y) = put_at x1 (pp ++ [t]) (add_all (rev (klist l)) (C (Some t) (Some v) []))).
    { rewrite (put_app pp x1 _ [t] _ F1). unfold x1. rewrite (put_put pp _ y _ _ FY) by apply add_all_name. f_equal. destruct y. cbn [add_all app put_at first_with]. unfold named at 1. cbn [name_of opt_is]. rewrite str_eqb_refl. now rewrite app_nil_r. }
    rewrite RS. destruct (existsb (fun y => 0 <? attributes y) l) eqn:EB; [exact LI|]. rewrite (EK eq_refl). cbn [rev add_all app]. rewrite (put_same _ _ _ F2). exact LI.
  - assert (EB : existsb (fun y => 0 <? attributes y) l = true).
    { rewrite attributes_eq in AT. clear - AT. induction l as [|u k IHu]; [cbn in AT; lia|]. cbn [existsb]. destruct (0 <? attributes u) eqn:E; [reflexivity|]. apply Nat.ltb_ge in E. apply IHu. unfold list_sum in *. cbn [map fold_right] in AT. lia. }
    assert (GR : grow x (pp ++ [t]) = put_at (grow x pp) pp (add_all [C (Some t) None []] y)).
    { rewrite grow_app, FY. f_equal. destruct y as [d0 a0 l0]. cbn [grow add_all app subs_of] in *. unfold csub in NY. destruct (first_with_split (named t) (fun y => grow y []) l0) as [(pre & u & post & -> & Fy & Fp & Fw & Ff)|(Fw & Ff & N)]; [congruence|]. cbn [grow] in Fw. now rewrite Fw. }
    assert (F1 : find_at (grow x (pp ++ [t])) pp = Some (add_all [C (Some t) None []] y)) by (rewrite GR; eapply find_put; [exact FY|apply add_all_name]).
    assert (F2 : find_at (grow x (pp ++ [t])) (pp ++ [t]) = Some (C (Some t) None [])). { rewrite find_at_app, F1. destruct y. cbn [add_all app find_at subs_of]. now rewrite csub_cons_eq. }
    specialize (LI l x (C (Some t) None []) ND SL (fun w I => I) F2 ltac:(intros e _ [])). unfold list_builds in LI. rewrite EB, F2 in LI.
    assert (RS : put_at (grow x pp) pp (add_all [C (Some t) None (rev (klist l))] y) = put_at (grow x (pp ++ [t])) (pp ++ [t]) (add_all (rev (klist l)) (C (Some t) None []))).
    { rewrite (put_app pp _ _ [t] _ F1). rewrite GR. rewrite (put_put pp _ y _ _ FY) by apply add_all_name. f_equal. destruct y. cbn [add_all app put_at first_with]. unfold named at 1. cbn [name_of opt_is]. rewrite str_eqb_refl. now rewrite app_nil_r. }
    rewrite RS. exact LI.
Qed.

(* ---- the style with braces ---- *)
Lemma list_b_builds l : Forall (fun c => forall x, csub (subs_of x) (text_of (name_of c)) = None -> builds (bcmds c) x (if shown csd c then add_all [rk c] x else x)) l ->
  Forall separate l -> NoDup (map name_of l) -> forall x, fresh_in l x -> builds (flat_map bcmds l) x (add_all (rev (klist l)) x).
Proof.
  induction l as [|w l IHl]; intros IH SL ND x FR; [cbn [flat_map klist rev]; assert (A0 : add_all [] x = x) by (now destruct x); rewrite A0; apply builds_nil|].
  cbn [flat_map]. inversion ND as [|? ? NI ND']; inversion SL as [|? ? Sw Sl]; inversion IH as [|? ? Hw Hl]; subst.
  assert (Nw : exists e, name_of w = Some e) by (destruct w; apply separate_eq in Sw; destruct Sw as ((e & ->) & _); eexists; reflexivity). destruct Nw as [e Nw].
  assert (NW : csub (subs_of x) (text_of (name_of w)) = None) by (apply csub_none; rewrite Nw; apply FR; left; exact Nw). specialize (Hw x NW).
  unfold klist. cbn [flat_map]. fold (klist l). destruct (shown csd w).
  - eapply builds_app; [|exact Hw|]; [apply add_all_name|]. cbn [app rev]. rewrite <- add_all_app. apply IHl; auto.
    intros e0 I J. rewrite subs_add_all in J. cbn [app map] in J. destruct J as [J|J]; [rewrite rk_name in J; apply NI; rewrite J; exact I|apply (FR e0); [now right|exact J]].
  - eapply builds_app; [|exact Hw|]; [reflexivity|]. cbn [app]. apply IHl; auto. intros e0 I. apply FR. now right.
Qed.
Lemma b_builds c : separate c -> forall x, csub (subs_of x) (text_of (name_of c)) = None -> builds (bcmds c) x (if shown csd c then add_all [rk c] x else x).
Proof.
  induction c as [d a l IH] using content_ind'. intros SE x NY. pose proof SE as SE0. apply separate_eq in SE. destruct SE as ((t & ->) & AN & ND & SL). cbn [name_of text_of] in NY. cbn [bcmds].
  destruct (Z.leb_spec csd (Z.of_nat (attributes (C (Some t) a l)))) as [LE|GT].
  - specialize (AN LE). assert (SH : shown csd (C (Some t) a l) = true). { unfold shown. destruct (Z.leb_spec csd 0); [reflexivity|]. cbn [orb]. apply Nat.ltb_lt. lia. } rewrite SH.
    assert (IH' : Forall (fun c => forall x, csub (subs_of x) (text_of (name_of c)) = None -> builds (bcmds c) x (if shown csd c then add_all [rk c] x else x)) l).
    { rewrite Forall_forall in IH, SL |- *. intros c I. apply IH; auto. }
    rewrite !app_assoc. rewrite <- (app_assoc _ _ [Close]). rewrite <- app_assoc. rewrite app_assoc. rewrite <- app_assoc. cbn [text_of].
    assert (INNER : builds ((match a with Some (x :: v) => [Own (x :: v)] | _ => [] end) ++ flat_map bcmds l) (C (Some t) None []) (rk (C (Some t) a l))).
    { rewrite rk_eq. destruct a as [[|k v]|]; [contradiction| |].
      - eapply builds_app; [|apply builds_own|]; [apply assign_name|]. cbn [assign]. pose proof (list_b_builds l IH' SL ND (C (Some t) (Some (k :: v)) []) ltac:(intros e _ [])) as X. cbn [add_all] in X. rewrite app_nil_r in X. exact X.
      - cbn [app]. pose proof (list_b_builds l IH' SL ND (C (Some t) None []) ltac:(intros e _ [])) as X. cbn [add_all] in X. rewrite app_nil_r in X. exact X. }
    pose proof (builds_block t _ x (rk (C (Some t) a l)) _ NY INNER ltac:(apply rk_name) eq_refl) as X. rewrite <- !app_assoc in *. exact X.
  - destruct (shown csd (C (Some t) a l)) eqn:SH.
    + assert (CP : (0 < csd)%Z) by lia. unfold shown in SH. rewrite (proj2 (Z.leb_gt csd 0)) in SH by lia. cbn [orb] in SH. apply Nat.ltb_lt in SH.
      exact (d_builds _ SE0 CP [] x x SH eq_refl NY).
    + unfold shown in SH. apply orb_false_iff in SH. destruct SH as [_ SH]. apply Nat.ltb_ge in SH. rewrite dcmds_none by lia. apply builds_nil.
Qed.
End R.
