From Verif Require Import Base Text StringHelperModel LogTextModel ATreeModel ATreeSpec ATreeProofs ATreeProofs5 ATreeTextModel ATreeTextSpec.

(* ---- lines ---- *)
Lemma eqb_spec c d : Ascii.eqb c d = true <-> c = d. Proof. apply Ascii.eqb_eq. Qed.
Lemma span_line_app x r k : ~ In newline x -> length x <= k -> span_line k (x ++ newline :: r) = (x, newline :: r).
Proof.
  revert k. induction x as [|c x IH]; intros k N L; cbn [app].
  - destruct k; cbn [span_line]; [reflexivity|]. now rewrite Ascii.eqb_refl.
  - destruct k as [|k]; [cbn in L; lia|]. cbn [span_line]. destruct (Ascii.eqb c newline) eqn:E; [apply Ascii.eqb_eq in E; exfalso; apply N; left; congruence|].
    rewrite IH; [reflexivity|intros I; apply N; now right|cbn in L; lia].
Qed.
Lemma until_nul_id x : ~ In "000"%char x -> until_nul x = x.
Proof.
  induction x as [|c x IH]; intros N; [reflexivity|]. cbn [until_nul]. destruct (Ascii.eqb c "000") eqn:E; [apply Ascii.eqb_eq in E; exfalso; apply N; left; congruence|].
  rewrite IH; [reflexivity|]. intros I. apply N. now right.
Qed.
Lemma strip_cr_id x : (forall b, x <> b ++ [creturn]) -> strip_cr x = x.
Proof.
  intros N. unfold strip_cr. destruct (rev x) as [|c r] eqn:E; [now apply (f_equal (@rev _)) in E; rewrite rev_involutive in E|].
  destruct (Ascii.eqb c creturn) eqn:Q; [|reflexivity]. apply Ascii.eqb_eq in Q. subst c. exfalso. apply (N (rev r)). apply (f_equal (@rev _)) in E. rewrite rev_involutive in E. exact E.
Qed.
Lemma read_line x r : good_line x -> readNextLine (open (x ++ newline :: r)) = (x, open r).
Proof.
  intros [N1 N2 N3 L]. unfold readNextLine, getline, open. cbn [eof failed rest orb]. rewrite span_line_app by (auto; lia). rewrite Ascii.eqb_refl.
  now rewrite until_nul_id, strip_cr_id.
Qed.
Lemma read_lines x l : good_line x -> readNextLine (open (lines (x :: l))) = (x, open (lines l)).
Proof. intros G. unfold lines. cbn [flat_map]. rewrite <- app_assoc. now apply read_line. Qed.
Lemma read_end : exists b, readNextLine (open []) = (b, mkStream [] true true).
Proof. unfold readNextLine, getline, open. cbn [eof failed rest orb]. destruct (Z.to_nat (1998 - 1)) eqn:E; cbn [span_line]; eauto. Qed.

(* ---- what is printed ---- *)
Section P.
Variable csd : Z.
Fixpoint plines (upper : str) (c : content) : list str :=
  match c with
  | C d a l =>
    let t := match d with Some x => x | None => [] end in
    if about_file c then [] else
    if (csd <=? Z.of_nat (attributes c))%Z
    then [upper ++ t ++ $"{"] ++ (match a with Some (x :: v) => [upper ++ $":" ++ (x :: v)] | _ => [] end) ++
         flat_map (plines (upper ++ $" ")) l ++ [upper ++ $"}" ++ t]
    else let dd := if ends_in_blank upper then upper ++ t else upper ++ $"." ++ t in
         (match a with Some v => [dd ++ $":" ++ v] | None => [] end) ++ flat_map (plines dd) l
  end.
(* comments have an attribute, and no attribute has a newline, but for the nodes with the name of the file *)
Fixpoint simple (c : content) : Prop :=
  match c with
  | C d a l => about_file c = true \/ (d = Some comment_str -> a <> None) /\ (forall v, a = Some v -> ~ In newline v) /\
               (fix all l := match l with [] => True | x :: r => simple x /\ all r end) l
  end.
Lemma simple_subs d a l : simple (C d a l) -> about_file (C d a l) = true \/ (d = Some comment_str -> a <> None) /\ (forall v, a = Some v -> ~ In newline v) /\ Forall simple l.
Proof. cbn [simple]. intros [H|(A & B & X)]; [now left|right]. split; [exact A|]. split; [exact B|]. induction l as [|x l IH]; constructor; [exact (proj1 X)|exact (IH (proj2 X))]. Qed.
Lemma has_newline_false s : ~ In newline s -> has_newline s = false.
Proof. intros N. unfold has_newline. destruct (existsb _ s) eqn:E; [|reflexivity]. apply existsb_exists in E. destruct E as (c & I & Q). apply Ascii.eqb_eq in Q. subst c. contradiction. Qed.
Lemma lines_app a b : lines (a ++ b) = lines a ++ lines b.
Proof. unfold lines. apply flat_map_app. Qed.
Lemma attributes_count t : attributes (content_of t) = length (filter has_attr (nodes t)).
Proof.
  induction t as [i d a ch l IH] using tree_ind'. rewrite nodes_eq. cbn [content_of attributes filter]. unfold has_attr at 1. cbn [tattr].
  assert (X : fold_right (fun x k => attributes x + k) 0 (map content_of l) = length (filter has_attr (flat_map nodes l))).
  { induction IH as [|x l Hx _ IHl]; [reflexivity|]. cbn [map fold_right flat_map]. now rewrite filter_app, app_length, Hx, IHl. }
  rewrite X. destruct a; reflexivity.
Qed.
Lemma comment_simple h q l : Forall (repr h q) l -> Forall simple (map content_of l) -> exists c, comment_in h (map tid l) = Done c /\ forall x a, c = Some (x, a) -> ~ In newline a.
Proof.
  induction l as [|y l IH]; intros R Si; [exists None; split; [reflexivity|discriminate]|]. inversion R as [|? ? Ry R']; inversion Si as [|? ? Sy S']; subst. cbn [map comment_in].
  unfold deref. rewrite (repr_cell _ _ _ Ry). cbn [obind attr]. destruct y as [i d a ch ll]. cbn [tattr content_of] in *. apply simple_subs in Sy.
  destruct a as [v|]; [|apply IH; auto]. unfold is_comment. cbn [desc tdesc]. destruct (opt_is d comment_str) eqn:OC; [|apply IH; auto].
  destruct Sy as [AF|(_ & NL & _)]; [apply opt_is_spec in OC; subst d; exfalso; revert AF; vm_compute; discriminate|]. eexists. split; [reflexivity|]. intros x a [= <- <-]. now apply NL.
Qed.
Lemma print_lines t : forall h par fuel upper, repr h par t -> simple (content_of t) -> height t <= fuel ->
  printSubTree fuel h (tid t) csd upper = Done (lines (plines upper (content_of t))).
Proof.
  induction t as [i d a ch l IH] using tree_ind'. intros h par fuel upper R Si H. pose proof (contains_effect _ h par fuel R H) as CN. rewrite <- attributes_count in CN.
  destruct fuel as [|fuel]; [cbn in H; lia|]. assert (R' := R). apply repr_eq in R'. destruct R' as [Ce RS]. cbn [tid] in *.
  cbn [printSubTree]. unfold deref at 1. rewrite Ce. cbn [obind desc attr subs].
  cbn [content_of plines]. apply simple_subs in Si. fold content_of in *. unfold about_file in *. cbn [name_of] in *. destruct (opt_is d file_path_str || opt_is d file_name_str); [reflexivity|]. destruct Si as [Si|(N3 & N4 & S0)]; [discriminate|].
  assert (M : isMultilineComment (mkN d a ch par (map tid l)) = Done false).
  { unfold isMultilineComment, is_comment. cbn [desc attr]. destruct (opt_is d comment_str) eqn:E; [|reflexivity]. apply opt_is_spec in E. destruct a as [v|]; [|exfalso; now apply N3].
    f_equal. apply has_newline_false. now apply N4. }
  rewrite M. cbn [obind]. rewrite CN. cbn [obind].
  destruct (comment_simple h (Some i) l RS S0) as (cm & CM & CN2).
  assert (CO : exists c, comment h i = Done c /\ has_newline c = false).
  { unfold comment, commentAttributeTree, deref. rewrite Ce. cbn [obind subs]. rewrite CM. cbn [obind]. eexists. split; [reflexivity|]. destruct cm as [[x v]|]; [|reflexivity]. apply has_newline_false. eapply CN2. reflexivity. }
  destruct CO as (cc & CO & NL). rewrite CO. cbn [obind]. rewrite NL, orb_false_r.
  assert (SUB : forall u acc, ofold (fun acc c => let* s := printSubTree fuel h c csd u in Done (acc ++ s)) (map tid l) acc = Done (acc ++ lines (flat_map (plines u) (map content_of l)))).
  { intros u. cbn [height] in H. assert (HL : forall y, In y l -> height y <= fuel) by (intros y I; eapply max_height; [|exact I]; lia). clear - IH RS S0 HL. revert IH RS S0 HL.
    induction l as [|y l IHl]; intros IH RS S0 HL acc; cbn [map ofold flat_map]; [now rewrite app_nil_r|].
    inversion IH as [|? ? Iy Il]; inversion RS as [|? ? Ry Rl]; inversion S0 as [|? ? Sy Sl]; subst. rewrite (Iy h _ fuel u Ry Sy) by (apply HL; now left). cbn [obind].
    rewrite IHl by (auto; intros z I; apply HL; now right). now rewrite lines_app, app_assoc. }
  rewrite !SUB. cbn [obind app]. change (attributes (C d a (map content_of l))) with (attributes (content_of (T i d a ch l))).
  destruct (csd <=? Z.of_nat (attributes (content_of (T i d a ch l))))%Z.
  - f_equal. assert (L1 : forall x, lines [x] = x ++ [newline]) by (intros x; unfold lines; cbn [flat_map]; now rewrite app_nil_r). assert (L2 : forall x l, lines (x :: l) = x ++ [newline] ++ lines l) by (intros x k; unfold lines; cbn [flat_map]; now rewrite <- app_assoc). rewrite L2, !lines_app, !L1.
    destruct a as [[|x v]|]; rewrite ?L1; cbn [app]; rewrite <- ?app_assoc; cbn [app]; rewrite <- ?app_assoc; reflexivity.
  - f_equal. rewrite lines_app. f_equal. destruct a as [v|]; [|reflexivity]. unfold lines. cbn [flat_map]. now rewrite app_nil_r, <- !app_assoc.
Qed.
End P.
