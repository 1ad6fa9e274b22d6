(* save and get, save and load *)
From Verif Require Import Base Text StringHelperModel LogTextModel ATreeModel ATreeSpec ATreeProofs ATreeProofs2 ATreeProofs5 ATreeProofs6 ATreeProofs7 ATreeProofs8 ATreeProofs10 ATreeProofs11 ATreeTextModel ATreeTextSpec ATreeTextProofs ATreeTextProofs2 ATreeTextProofs3 ATreeTextProofs4 ATreeTextProofs5 ATreeTextProofs6 ATreeTextProofs7.
From Verif Require FilePathModel.

Lemma root_simple csd comments a l : root_ok csd comments a l -> simple (C None a l).
Proof.
  intros [P _ V _]. cbn [simple]. right. split; [discriminate|]. split; [intros v E; apply (V v E)|]. clear - P. induction P as [|x l H _ IH]; [exact I|]. split; [|exact IH].
  destruct H as [H|H]; [destruct x; cbn [simple]; now left|eapply printable_simple; eauto].
Qed.
Lemma root_chars csd comments a l : root_ok csd comments a l -> Forall line_chars (plines csd [] (C None a l)).
Proof.
  intros [P _ V LE]. cbn [plines]. unfold about_file. cbn [name_of opt_is orb]. rewrite (proj2 (Z.leb_le _ _) LE). cbn [app].
  assert (K : forall k, In k [" "%char; ":"%char; "{"%char; "}"%char] -> ok_chars [k]) by (intros k I; repeat split; intros [J|[]]; subst k; cbn in I; intuition discriminate).
  constructor; [apply ok_line, (K "{"%char); cbn; tauto|]. apply Forall_app. split.
  - destruct a as [[|k v]|]; constructor; [|constructor]. destruct (K ":"%char) as (K1 & K2 & K3); [cbn; tauto|]. apply line_chars_app; auto. apply V. reflexivity.
  - apply Forall_app. split; [|constructor; [|constructor]; rewrite app_nil_r; apply ok_line, (K "}"%char); cbn; tauto].
    apply Forall_forall. intros x I. apply in_flat_map in I. destruct I as (c & Ic & Ix). rewrite Forall_forall in P. destruct (P c Ic) as [AF|PC]; [rewrite plines_file in Ix by exact AF; destruct Ix|].
    pose proof (plines_chars csd comments c PC $" " (K " "%char ltac:(cbn; tauto))) as X. rewrite Forall_forall in X. auto.
Qed.
Lemma print_root csd comments h par t a l fuel : forest h -> repr h par t -> content_of t = C None a l -> root_ok csd comments a l -> next h <= fuel ->
  printSubTree fuel h (tid t) csd [] = Done (lines (plines csd [] (C None a l))).
Proof. intros F R E O L. rewrite <- E. apply (print_lines csd t h par); [exact R|rewrite E; eapply root_simple; eauto|]. pose proof (height_bound h par t F R). lia. Qed.
Lemma save_text fuel h p csd um text h1 : save fuel h p csd um = Done (h1, text) -> printSubTree fuel h p csd [] = Done text.
Proof. unfold save. destruct (printSubTree fuel h p csd []) as [s| |]; cbn [obind]; try discriminate. destruct um; [destruct (unmarkChanges fuel h p); cbn [obind]; try discriminate|cbn [obind]]; intros [= <- <-]; reflexivity. Qed.
Lemma save_total fuel h p n csd um s : forest h -> cell h p = Some n -> next h <= fuel -> printSubTree fuel h p csd [] = Done s -> exists h1, save fuel h p csd um = Done (h1, s).
Proof.
  intros F E L P. unfold save. rewrite P. cbn [obind]. destruct um; [|eexists; reflexivity]. destruct (unmark_ok h p n fuel F E L) as (t & h1 & R1 & T1 & U & _). rewrite U. cbn [obind]. eexists. reflexivity.
Qed.

(* the names of sub trees that a text would add *)
Lemma get_root strict w fp inc comments csd a l h par t fuel : forest h -> repr h par t -> root_ok csd comments a l -> fits (lines (plines csd [] (C None a l))) -> fresh_in (listed l) (content_of t) ->
  length (plines csd [] (C None a l)) < fuel ->
  exists h' t', get fuel strict w h (tid t) (open (lines (plines csd [] (C None a l)))) inc comments fp = Done (h', (-1)%Z) /\ became h h' par t t' /\
    content_of t' = C (tdesc t) (nonempty a) (map reversed (rev (flat_map (fun x => if shown csd x then [kept csd x] else []) (listed l))) ++ map content_of (tsubs t)).
Proof.
  intros F R O FI FR LF. pose proof (root_means csd comments a l (ro_subs _ _ _ _ O) (ro_attr _ _ _ _ O) (ro_size _ _ _ _ O)) as M.
  destruct (get_run strict w fp inc comments _ _ fuel h par t M) as (h' & t' & G & B & EC); [apply good_lines; [eapply root_chars; eauto|exact FI]|exact LF|exact F|exact R|].
  rewrite (root_run csd comments a l _ (ro_subs _ _ _ _ O) (ro_names _ _ _ _ O) FR) in G, EC. cbn [fst snd] in G, EC. exists h', t'. split; [exact G|]. split; [exact B|]. rewrite EC, rev_klist. destruct t. reflexivity.
Qed.
Lemma get_named strict w fp inc comments csd c h par t fuel : forest h -> repr h par t -> printable csd comments c -> (csd <= Z.of_nat (attributes c))%Z -> fits (lines (plines csd [] c)) -> fresh_in [c] (content_of t) ->
  length (plines csd [] c) < fuel ->
  exists h' t', get fuel strict w h (tid t) (open (lines (plines csd [] c))) inc comments fp = Done (h', (-1)%Z) /\ became h h' par t t' /\
    content_of t' = C (tdesc t) (tattr t) (reversed (kept csd c) :: map content_of (tsubs t)).
Proof.
  intros F R P LE FI FR LF. pose proof (b_means csd comments c P [] ltac:(intros k []) (or_intror LE)) as M.
  assert (G0 : Forall good_line (plines csd [] c)) by (apply good_lines; [eapply plines_chars; eauto; repeat split; intros []|exact FI]).
  destruct (get_run strict w fp inc comments _ _ fuel h par t M G0 LF F R) as (h' & t' & G & B & EC).
  assert (NC : csub (subs_of (content_of t)) (text_of (name_of c)) = None).
  { apply csub_none. destruct c as [d a l]. apply printable_eq in P. destruct P as ((x & -> & _) & _). cbn [name_of text_of]. apply FR. now left. }
  pose proof (b_builds csd c (printable_separate _ _ _ P) (content_of t) NC (content_of t) [] 1%Z [] eq_refl) as [m RN]. rewrite app_nil_r in RN. rewrite RN in G, EC. cbn [run fst snd put_at] in G, EC.
  assert (SH : shown csd c = true). { unfold shown. destruct (Z.leb_spec csd 0); [reflexivity|]. cbn [orb]. apply Nat.ltb_lt. lia. }
  rewrite SH in EC. exists h', t'. split; [exact G|]. split; [exact B|]. rewrite EC. destruct t. reflexivity.
Qed.

(* ---- load ---- *)
Fixpoint cheight (c : content) : nat := match c with C _ _ l => S (fold_right (fun x k => max (cheight x) k) 0 l) end.
Lemma cheight_of t : cheight (content_of t) = height t.
Proof. induction t as [i d a ch l IH] using tree_ind'. cbn [content_of cheight height]. f_equal. induction IH as [|x l Hx _ IHl]; [reflexivity|]. cbn [map fold_right]. now rewrite Hx, IHl. Qed.
Lemma reversed_leaf d a : reversed (C d a []) = C d a []. Proof. reflexivity. Qed.
Lemma split_special : split_dots file_path_str = [file_path_str] /\ split_dots file_name_str = [file_name_str]. Proof. split; vm_compute; reflexivity. Qed.
Lemma no_attribute fuel h p d b ch : 0 < fuel -> cell h p = Some (mkN d b ch None []) -> getAttribute fuel false h p (Some file_path_str) None = Done (None, None).
Proof.
  intros L E. unfold getAttribute, find_attribute. assert (EW : ends_with file_path_str file_path_str = true) by (vm_compute; reflexivity). rewrite EW.
  unfold getSpecialAttribute. unfold deref at 1. rewrite E. cbn [obind list_sub subs]. destruct fuel as [|fuel]; [lia|]. cbn [special_loop]. unfold deref at 1. rewrite E. cbn [obind list_sub subs parent].
  assert (SL : special_loop fuel false h None None file_path_str = Done None) by (destruct fuel; reflexivity). rewrite SL. cbn [obind]. rewrite (proj1 split_special). cbn [walk]. unfold deref. rewrite E. reflexivity.
Qed.
Lemma load_root w comments inc csd a l h p d b ch fp filename text unmark : forest h -> cell h p = Some (mkN d b ch None []) -> root_ok csd comments a l -> text = lines (plines csd [] (C None a l)) -> fits text ->
  filename <> [] -> files w (FilePathModel.m_file fp) = Some text ->
  exists K, forall fuel, K <= fuel -> FilePathModel.init fuel (getenv w $"PWD") filename = Some fp ->
  exists h' t', load fuel false w h p filename unmark inc comments true = Done (h', eOK) /\ forest h' /\ repr h' None t' /\ tid t' = p /\
    content_of t' = C d (nonempty a) ([C (Some file_path_str) (Some (FilePathModel.path fp)) []; C (Some file_name_str) (Some (FilePathModel.name fp)) []] ++
                                      flat_map (fun x => if shown csd x then [kept csd x] else []) (listed l)) /\
    (forall x, live h x -> x <> p -> cell h' x = cell h x).
Proof.
  intros F E O -> FI NF FW.
  set (res := C d (nonempty a) (map reversed (rev (flat_map (fun x => if shown csd x then [kept csd x] else []) (listed l))) ++ [C (Some file_name_str) (Some (FilePathModel.name fp)) []; C (Some file_path_str) (Some (FilePathModel.path fp)) []])).
  exists (1 + length (plines csd [] (C None a l)) + cheight res). intros fuel LF IN. unfold load, load_with. destruct filename as [|f0 fr]; [contradiction|]. rewrite IN. cbn [o_of obind].
  destruct fuel as [|fuel]; [lia|]. set (fu := S fuel) in *. assert (RT : root fu h p = Done p) by (unfold fu; cbn [root]; unfold deref; rewrite E; reflexivity). rewrite RT. cbn [obind]. rewrite Nat.eqb_refl.
  rewrite (no_attribute fu h p d b ch) by (auto; unfold fu; lia). cbn [obind fst].
  assert (R0 : repr h None (T p d b ch [])) by (apply repr_eq; split; [exact E|constructor]).
  unfold setAttribute. destruct split_special as [SP1 SP2]. rewrite SP1, SP2.
  destruct (set_content (Some (FilePathModel.path fp)) [file_path_str] h None (T p d b ch []) F R0) as (h1 & c1 & t1 & S1 & [W1 W2 W3 W4 W5 W6 W7 W8 W9]); [intros [X|[]]; discriminate X|]. cbn [tid] in S1, W3. rewrite S1. cbn [obind fst].
  destruct (set_content (Some (FilePathModel.name fp)) [file_name_str] h1 None t1 W1 W2) as (h2 & c2 & t2 & S2 & [V1 V2 V3 V4 V5 V6 V7 V8 V9]); [intros [X|[]]; discriminate X|]. rewrite W3 in S2, V3. rewrite S2. cbn [obind fst].
  assert (B2 : became h h2 None (T p d b ch []) t2). { apply (became_trans h h1 h2 None _ t1); split; auto. congruence. }
  assert (C2 : content_of t2 = C d b [C (Some file_name_str) (Some (FilePathModel.name fp)) []; C (Some file_path_str) (Some (FilePathModel.path fp)) []]).
  { rewrite V4, W4. cbn [content_of map assign first_with]. unfold named. cbn [name_of opt_is]. assert (NE : str_eqb file_path_str file_name_str = false) by (vm_compute; reflexivity). rewrite NE. reflexivity. }
  rewrite FW.
  assert (FR : fresh_in (listed l) (content_of t2)).
  { intros e I J. rewrite C2 in J. cbn [subs_of map name_of] in J. apply in_map_iff in I. destruct I as (c & EN & Ic). apply filter_In in Ic. destruct Ic as [Ic NA]. apply negb_true_iff in NA. unfold about_file in NA. rewrite EN in NA.
    destruct J as [J|[J|[]]]; injection J as <-; revert NA; vm_compute; discriminate. }
  destruct (get_root false w (Some fp) inc comments csd a l h2 None t2 fu V1 V2 O FI FR) as (h3 & t3 & G & B3 & C3); [unfold fu; lia|]. rewrite V3 in G. rewrite G. cbn [obind]. change (0 <=? -1)%Z with false. cbv iota.
  assert (C3' : content_of t3 = res).
  { rewrite C3. unfold res. f_equal; [destruct t2; cbn [content_of] in C2; injection C2 as -> _ _; reflexivity|]. f_equal. destruct t2 as [i2 d2 a2 ch2 l2]. cbn [content_of] in C2. injection C2 as _ _ C2c. exact C2c. }
  assert (H3 : height t3 <= fu) by (rewrite <- cheight_of, C3'; unfold fu; lia).
  destruct B3 as [F3 R3 I3 N3 FR3 ID3]. rewrite V3 in I3. pose proof (ids_nodup _ _ _ F3 R3) as ND3.
  assert (UN : exists h4 t4, (if unmark then unmarkChanges fu h3 p else Done h3) = Done h4 /\ forest h4 /\ repr h4 None t4 /\ tid t4 = p /\ content_of t4 = res /\ (forall x, ~ In x (ids t3) -> cell h4 x = cell h3 x) /\ (forall x, In x (ids t4) <-> In x (ids t3))).
  { destruct unmark; [|exists h3, t3; split; [reflexivity|]; split; [exact F3|]; split; [exact R3|]; split; [exact I3|]; split; [exact C3'|]; split; [reflexivity|]; reflexivity]. destruct (unmark_effect t3 h3 None fu R3 ND3 H3) as (h4 & U & VI). rewrite I3 in U. destruct VI as (VN & VR & VS).
    exists h4, (unmarkt t3). split; [exact U|]. split; [eapply visit_forest; eauto|]. split; [exact VR|]. split; [now rewrite unmarkt_id|]. split; [now rewrite unmarkt_content|]. split; [exact VS|]. intros x. now rewrite unmarkt_ids. }
  destruct UN as (h4 & t4 & U & F4 & R4 & I4 & C4 & FR4 & ID4). rewrite U. cbn [obind].
  assert (H4 : height t4 <= fu) by (rewrite <- cheight_of, C4; unfold fu; lia). pose proof (ids_nodup _ _ _ F4 R4) as ND4.
  destruct (revert_effect t4 h4 None fu R4 ND4 H4) as (h5 & RV & VN & VR & VS). rewrite I4 in RV. rewrite RV. cbn [obind].
  exists h5, (revt t4). split; [reflexivity|]. split; [eapply visit_forest; eauto|]. split; [exact VR|]. split; [now rewrite revt_id|]. split.
  - rewrite revt_content, C4. unfold res. cbn [reversed]. f_equal. rewrite map_app, rev_app_distr. cbn [map rev app reversed]. do 2 f_equal. rewrite map_map. rewrite (map_ext _ (fun c => c)) by apply reversed_twice. now rewrite map_id, rev_involutive.
  - intros x L NX. assert (LX : x < next h) by (apply F; exact L). assert (N2 : ~ In x (ids t2)). { intros I. destruct (be_ids _ _ _ _ _ B2 x I) as [J|J]; [cbn in J; destruct J as [J|[]]; congruence|lia]. }
    assert (LX2 : x < next h2) by (pose proof (be_next _ _ _ _ _ B2); lia).
    assert (N3' : ~ In x (ids t3)). { intros I. destruct (ID3 x I) as [J|J]; [contradiction|lia]. }
    rewrite VS by (intros I; apply N3'; now apply ID4). rewrite FR4 by exact N3'. rewrite FR3 by auto. apply (be_frame _ _ _ _ _ B2); [exact LX|]. cbn. intros [J|[]]. congruence.
Qed.
