(* Histories with texts, and printing is defined. *)
From Verif Require Import Base Text StringHelperModel LogTextModel ATreeModel ATreeSpec ATreeProofs ATreeProofs2 ATreeProofs5 ATreeProofs6 ATreeProofs7 ATreeProofs8 ATreeProofs9 ATreeProofs10 ATreeProofs11 ATreeTextModel ATreeTextSpec ATreeTextProofs ATreeTextProofs2 ATreeTextProofs3 ATreeTextProofs7 ATreeTextProofs6 ATreeTextProofs9.

Lemma get_load_safe w inc comments fuel h p f um order : forest h -> live h p -> safe h (load fuel false w h p f um inc comments order).
Proof.
  intros F L. unfold load. apply (load_safe false w inc (or_introl eq_refl)); auto. intros g fp s Fg Lg. apply get_safe; auto.
Qed.
Lemma text_forest b h : text_history b h -> forest h.
Proof.
  induction 1 as [|h h' _ F O|h h' k fuel w p s inc comments fp _ F L B G|h h' k fuel w p f um inc comments order _ F L -> G].
  - apply empty_forest.
  - eapply operation_forest; eauto.
  - pose proof (get_safe b w inc comments B fuel h p s fp F L) as [_ X]. now apply (X h' k).
  - pose proof (get_load_safe w inc comments fuel h p f um order F L) as [_ X]. now apply (X h' k).
Qed.
Lemma history_text b h : history b h -> text_history b h.
Proof. induction 1; [constructor|eapply t_operation; eauto]. Qed.

(* printing is defined, whatever the descriptions and attributes are, if comments have attributes *)
Lemma comment_in_ok h q l : Forall (repr h q) l -> exists c, comment_in h (map tid l) = Done c.
Proof.
  induction l as [|y l IH]; intros R; [now exists None|]. inversion R as [|? ? Ry R']; subst. cbn [map comment_in].
  unfold deref. rewrite (repr_cell _ _ _ Ry). cbn [obind attr]. destruct (tattr y); [|now apply IH]. destruct (is_comment _); [eexists; reflexivity|now apply IH].
Qed.
Lemma print_defined csd t : forall h par fuel upper, repr h par t -> (forall y, In y (nodes t) -> tdesc y = Some comment_str -> tattr y <> None) -> height t <= fuel ->
  exists s, printSubTree fuel h (tid t) csd upper = Done s.
Proof.
  induction t as [i d a ch l IH] using tree_ind'. intros h par fuel upper R Si H. pose proof (contains_effect _ h par fuel R H) as CN.
  destruct fuel as [|fuel]; [cbn in H; lia|]. assert (R' := R). apply repr_eq in R'. destruct R' as [Ce RS]. cbn [tid] in *.
  cbn [printSubTree]. unfold deref at 1. rewrite Ce. cbn [obind desc attr subs]. destruct (opt_is d file_path_str || opt_is d file_name_str); [eexists; reflexivity|].
  assert (M : exists m, isMultilineComment (mkN d a ch par (map tid l)) = Done m).
  { unfold isMultilineComment, is_comment. cbn [desc attr]. destruct (opt_is d comment_str) eqn:E; [|eexists; reflexivity]. apply opt_is_spec in E. destruct a as [v|]; [eexists; reflexivity|].
    exfalso. refine (Si (T i d None ch l) _ E eq_refl). rewrite nodes_eq. now left. }
  destruct M as [[|] M]; rewrite M; cbn [obind]; [eexists; reflexivity|]. rewrite CN. cbn [obind].
  destruct (comment_in_ok h (Some i) l RS) as (cm & CM).
  assert (CO : exists c, comment h i = Done c) by (unfold comment, commentAttributeTree, deref; rewrite Ce; cbn [obind subs]; rewrite CM; cbn [obind]; eexists; reflexivity).
  destruct CO as (cc & CO). rewrite CO. cbn [obind].
  assert (SUB : forall u acc, exists s, ofold (fun acc c => let* s := printSubTree fuel h c csd u in Done (acc ++ s)) (map tid l) acc = Done s).
  { intros u. cbn [height] in H. assert (HL : forall y, In y l -> height y <= fuel) by (intros y I; eapply max_height; [|exact I]; lia).
    assert (NL : forall x y, In x l -> In y (nodes x) -> tdesc y = Some comment_str -> tattr y <> None) by (intros x y Ix Iy; apply Si; rewrite nodes_eq; right; apply in_flat_map; eauto).
    clear - IH RS NL HL. revert IH RS NL HL.
    induction l as [|y l IHl]; intros IH RS NL HL acc; cbn [map ofold]; [eexists; reflexivity|].
    inversion IH as [|? ? Iy Il]; inversion RS as [|? ? Ry Rl]; subst. destruct (Iy h _ fuel u Ry) as [s ->]; [intros z; apply NL; now left|apply HL; now left|]. cbn [obind].
    apply IHl; auto; [intros x z Ix; apply NL; now right|intros z I; apply HL; now right]. }
  destruct (_ || _).
  - destruct (SUB (upper ++ $" ") []) as [s ->]. cbn [obind]. eexists. reflexivity.
  - match goal with |- context [ofold (fun acc c => let* s := printSubTree fuel h c csd ?u in _)] => destruct (SUB u []) as [s ->] end. cbn [obind]. eexists. reflexivity.
Qed.
Lemma means_unique comments x c1 c2 : means comments x c1 -> means comments x c2 -> c1 = c2.
Proof. intros A B. apply means_classify in A, B. congruence. Qed.

(* ---- nothing is lost if every leaf has an attribute ---- *)
Lemma complete_eq d a l : complete (C d a l) <-> (l = [] -> a <> None) /\ Forall complete l.
Proof.
  cbn [complete]. split; (intros [A B]; split; [exact A|]; clear A).
  - induction l as [|x l IH]; constructor; [apply B|apply IH, B].
  - induction B as [|x l Hx _ IH]; [exact I|split; assumption].
Qed.
Lemma complete_attributes c : complete c -> 0 < attributes c.
Proof.
  induction c as [d a l IH] using content_ind'. rewrite complete_eq. intros [A B]. cbn [attributes]. destruct a; [lia|]. destruct l as [|x l]; [now contradiction (A eq_refl)|]. cbn [fold_right].
  inversion IH as [|? ? Hx _]; inversion B as [|? ? Bx _]; subst. specialize (Hx Bx). lia.
Qed.
Lemma complete_shown csd c : complete c -> shown csd c = true.
Proof. intros X. unfold shown. apply complete_attributes in X. apply Nat.ltb_lt in X. rewrite X. apply orb_true_r. Qed.
Lemma complete_kept csd c : complete c -> kept csd c = c.
Proof.
  induction c as [d a l IH] using content_ind'. rewrite complete_eq. intros [_ B]. cbn [kept]. f_equal. induction l as [|x l IHl]; [reflexivity|]. inversion IH as [|? ? Hx Hl]; inversion B as [|? ? Bx Bl]; subst.
  cbn [flat_map]. rewrite complete_shown by exact Bx. rewrite Hx, IHl by auto. reflexivity.
Qed.
Lemma complete_list csd l : Forall complete l -> flat_map (fun x => if shown csd x then [kept csd x] else []) l = l.
Proof. induction 1 as [|x l Hx _ IH]; [reflexivity|]. cbn [flat_map]. rewrite complete_shown, complete_kept, IH by exact Hx. reflexivity. Qed.
