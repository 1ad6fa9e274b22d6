From Verif Require Import Base Text LogTextModel ATreeModel ATreeSpec ATreeProofs ATreeProofs2 ATreeProofs3 ATreeProofs4 ATreeProofs5 ATreeProofs6 ATreeProofs7.
From Verif Require LogTextProofs LogManagerProofs4.
From Coq Require Import Permutation.

(* ---- the attributes about the file ---- *)
Lemma list_sub_cases h p n d : forest h -> cell h p = Some n ->
  (exists c, sub_named h p d c /\ list_sub false h n (Some d) = Done (Some c)) \/
  ((forall c, ~ sub_named h p d c) /\ list_sub false h n (Some d) = Done None).
Proof.
  intros F E. destruct (tree_at h p n F E) as (t & R & <-). pose proof (list_sub_effect false h _ t d n R E) as X.
  assert (X' : list_sub false h n (Some d) = Done (option_map tid (child (tsubs t) d))) by (rewrite X; now destruct (tsubs t)). clear X. rename X' into X.
  rewrite X. destruct (child (tsubs t) d) as [y|] eqn:CH; cbn [option_map].
  - left. exists (tid y). split; [|reflexivity]. apply (child_named h _ t d F R). now rewrite CH.
  - right. split; [|reflexivity]. intros c N. apply (child_named h _ t d F R) in N. rewrite CH in N. discriminate.
Qed.
Lemma sub_named_fun h p d c c' : forest h -> sub_named h p d c -> sub_named h p d c' -> c = c'.
Proof.
  intros F A B. destruct A as (n & b & a & E & A). destruct (tree_at h p n F E) as (t & R & <-).
  assert (A' : sub_named h (tid t) d c) by (exists n, b, a; auto). apply (child_named h _ t d F R) in A', B. congruence.
Qed.
Lemma special_ok h d : forest h -> forall k p, depth h k p -> forall fuel, k < fuel -> exists r, nearest h d p r /\ special_loop fuel false h (Some p) None d = Done r.
Proof.
  intros F. induction k as [|k IH]; intros p D fuel FU; (destruct fuel as [|fuel]; [lia|]); cbn [special_loop]; inversion D; subst.
  - destruct H as (n & E & P). unfold deref. rewrite E. cbn [obind]. destruct (list_sub_cases h p n d F E) as [(c & S & X)|[N X]]; rewrite X; cbn [obind].
    + exists (Some c). split; [now constructor|]. destruct fuel, (parent n); reflexivity.
    + exists None. split; [constructor; [exact N|exists n; auto]|]. rewrite P. now destruct fuel.
  - destruct (proj1 (live_ex h p) (depth_live _ _ _ D)) as [n E]. unfold deref. rewrite E. cbn [obind]. destruct H0 as (n' & E' & P'). rewrite E in E'. inversion E'. subst n'.
    destruct (list_sub_cases h p n d F E) as [(c & S & X)|[N X]]; rewrite X; cbn [obind].
    + exists (Some c). split; [now constructor|]. destruct fuel, (parent n); reflexivity.
    + rewrite P'. destruct (IH _ H1 fuel ltac:(lia)) as (r & NR & X2). exists r. split; [|exact X2]. eapply near_up; eauto. exists n. auto.
Qed.
Lemma nearest_live h d p c : forest h -> nearest h d p (Some c) -> live h c.
Proof.
  intros F N. remember (Some c) as r. revert c Heqr. induction N; intros; try discriminate; auto.
  injection Heqr as ->. destruct H as (n & b & a & E & S & (m & Em & _) & _). apply live_ex. eauto.
Qed.
Lemma nearest_fun h d p r r' : forest h -> nearest h d p r -> nearest h d p r' -> r = r'.
Proof.
  intros F N. revert r'. induction N as [p c S|p q r NS P N IH|p NS R]; intros r' M; inversion M; subst; auto; try contradiction.
  - f_equal. eapply sub_named_fun; eauto.
  - exfalso. match goal with H : forall c, ~ sub_named _ _ _ c |- _ => eapply H; eassumption end.
  - exfalso. match goal with H : forall c, ~ sub_named _ _ _ c |- _ => eapply H; eassumption end.
  - exfalso. eapply NS; eauto.
  - apply IH. rewrite (parent_fun _ _ _ _ P H0). assumption.
  - exfalso. eapply root_no_parent; eauto.
  - exfalso. eapply NS; eauto.
  - exfalso. eapply root_no_parent; eauto.
Qed.
Lemma getSpecial_ok h d p fuel : forest h -> live h p -> next h <= fuel -> exists r, nearest h d p r /\
  getSpecialAttribute fuel false h p d = Done (match r with Some c => match cell h c with Some m => option_map (fun a => (c, a)) (attr m) | None => None end | None => None end).
Proof.
  intros F L FU. destruct (live_depth h p F L) as [k D]. pose proof (depth_bound h k p F D) as B.
  destruct (proj1 (live_ex h p) L) as [n E]. unfold getSpecialAttribute, deref. rewrite E. cbn [obind].
  destruct (special_ok h d F k p D fuel ltac:(lia)) as (r & NR & X).
  assert (Y : (let* s := list_sub false h n (Some d) in special_loop fuel false h (Some p) s d) = Done r).
  { destruct (list_sub_cases h p n d F E) as [(c & S & Z)|[N Z]]; rewrite Z; cbn [obind]; [|exact X].
    rewrite (nearest_fun h d p _ _ F NR (near_here _ _ _ _ S)). now destruct fuel. }
  exists r. split; [exact NR|]. destruct (list_sub false h n (Some d)) as [s| |]; cbn [obind] in *; try discriminate. rewrite Y. cbn [obind].
  destruct r as [c|]; [|reflexivity]. destruct (proj1 (live_ex h c) (nearest_live _ _ _ _ F NR)) as [m Em]. now rewrite Em.
Qed.
Lemma file_strs_differ b c : b ++ file_path_str <> c ++ file_name_str.
Proof.
  intros E. assert (X : rev (b ++ file_path_str) = rev (c ++ file_name_str)) by now rewrite E. rewrite !rev_app_distr in X. vm_compute in X. discriminate.
Qed.
(* the name of the file: the value at the nearest node *)
Lemma get_special h p b d c n a def fuel : forest h -> live h p -> next h <= fuel -> d = file_path_str \/ d = file_name_str ->
  nearest h d p (Some c) -> cell h c = Some n -> attr n = Some a -> getAttribute fuel false h p (Some (b ++ d)) def = Done (Some a, Some c).
Proof.
  intros F L FU D N E A. unfold getAttribute, find_attribute.
  destruct (getSpecial_ok h d p fuel F L FU) as (r & NR & X). rewrite (nearest_fun h d p _ _ F NR N) in X. rewrite E, A in X. cbn [option_map] in X.
  assert (E1 : ends_with d (b ++ d) = true) by (apply ends_with_spec; eauto).
  destruct D as [-> | ->]; rewrite ?E1.
  - rewrite X. reflexivity.
  - assert (E2 : ends_with file_path_str (b ++ file_name_str) = false).
    { destruct (ends_with file_path_str (b ++ file_name_str)) eqn:Z; [|reflexivity]. apply ends_with_spec in Z. destruct Z as [x Z]. symmetry in Z. now apply file_strs_differ in Z. }
    rewrite E2, X. reflexivity.
Qed.
(* no such node: as an ordinary description *)
Lemma get_special_none h p s fuel def : forest h -> live h p -> next h <= fuel ->
  (forall d c n, d = file_path_str \/ d = file_name_str -> nearest h d p (Some c) -> cell h c = Some n -> attr n = None) ->
  getAttribute fuel false h p (Some s) def = (let* r := value h p (split_dots s) in Done (match r with Some (c, a) => (Some a, Some c) | None => (def, None) end)).
Proof.
  intros F L FU X. unfold getAttribute, find_attribute.
  assert (Y : forall d, d = file_path_str \/ d = file_name_str -> getSpecialAttribute fuel false h p d = Done None).
  { intros d D. destruct (getSpecial_ok h d p fuel F L FU) as (r & NR & Z). rewrite Z. destruct r as [c|]; [|reflexivity].
    destruct (cell h c) as [m|] eqn:Em; [|reflexivity]. now rewrite (X d c m D NR Em). }
  replace (if ends_with file_path_str s then _ else _) with (Done (A := option (nat * str)) None); [cbn [obind]; reflexivity|].
  rewrite !Y by auto. now destruct (ends_with file_path_str s), (ends_with file_name_str s).
Qed.
Lemma get_total h p s def fuel : forest h -> live h p -> next h <= fuel -> exists r, getAttribute fuel false h p s def = Done r.
Proof.
  intros F L FU. destruct s as [s|]; [|eexists; reflexivity]. unfold getAttribute, find_attribute.
  assert (Y : exists r, (if ends_with file_path_str s then getSpecialAttribute fuel false h p file_path_str
       else if ends_with file_name_str s then getSpecialAttribute fuel false h p file_name_str else Done None) = Done r).
  { destruct (getSpecial_ok h file_path_str p fuel F L FU) as (r1 & _ & Z1). destruct (getSpecial_ok h file_name_str p fuel F L FU) as (r2 & _ & Z2).
    rewrite Z1, Z2. destruct (ends_with file_path_str s), (ends_with file_name_str s); eexists; reflexivity. }
  destruct Y as [r Y]. rewrite Y. cbn [obind]. destruct r; [eexists; reflexivity|]. destruct (value_total h p (split_dots s) F L) as [r V]. unfold value in V.
  rewrite V. eexists. reflexivity.
Qed.

(* ---- changed flags ---- *)
Lemma changed_spec h p fuel : forest h -> live h p -> next h <= fuel ->
  exists b, is_changed fuel h p = Done b /\ (b = true <-> exists x n, below h p x /\ cell h x = Some n /\ changed n = true).
Proof.
  intros F L FU. destruct (proj1 (live_ex h p) L) as [n E]. destruct (tree_at h p n F E) as (t & R & <-). eexists. split.
  { eapply changed_effect; [exact R|]. pose proof (height_bound _ _ _ F R). lia. }
  rewrite existsb_exists. split.
  - intros (x & I & C). exists (tid x). destruct (repr_node _ _ _ _ R I) as [q Rx]. eexists. split; [|split; [apply (repr_cell _ _ _ Rx)|exact C]].
    apply (ids_below _ _ _ _ F R). unfold ids. now apply in_map.
  - intros (x & k & B & Ek & C). apply (ids_below _ _ _ _ F R) in B. apply ids_nodes in B. destruct B as (y & I & <-). exists y. split; [exact I|].
    destruct (repr_node _ _ _ _ R I) as [q Ry]. rewrite (repr_cell _ _ _ Ry) in Ek. inversion Ek. subst k. exact C.
Qed.
Lemma contains_spec h p fuel : forest h -> live h p -> next h <= fuel ->
  exists l, contains fuel h p = Done (length l) /\ NoDup l /\ forall x, In x l <-> below h p x /\ exists n, cell h x = Some n /\ attr n <> None.
Proof.
  intros F L FU. destruct (proj1 (live_ex h p) L) as [n E]. destruct (tree_at h p n F E) as (t & R & <-). pose proof (height_bound _ _ _ F R) as HB.
  exists (map tid (filter has_attr (nodes t))). rewrite map_length. split; [apply contains_effect with (par := parent n); [exact R|lia]|]. split.
  - pose proof (ids_nodup _ _ _ F R) as N. unfold ids in N. clear - N. induction (nodes t) as [|y l IH]; [constructor|]. cbn [map] in N. inversion N; subst. cbn [filter].
    destruct (has_attr y); cbn [map]; [|auto]. constructor; [|auto]. intros I. apply in_map_iff in I. destruct I as (z & Ez & I). apply filter_In in I. apply H1. rewrite <- Ez. apply in_map, (proj1 I).
  - intros x. rewrite in_map_iff. split.
    + intros (y & <- & I). apply filter_In in I. destruct I as [I A]. destruct (repr_node _ _ _ _ R I) as [q Ry]. split.
      * apply (ids_below _ _ _ _ F R). unfold ids. now apply in_map.
      * eexists. split; [apply (repr_cell _ _ _ Ry)|]. unfold has_attr in A. cbn. destruct (tattr y); easy.
    + intros (B & k & Ek & A). apply (ids_below _ _ _ _ F R) in B. apply ids_nodes in B. destruct B as (y & I & <-). exists y. split; [reflexivity|]. apply filter_In. split; [exact I|].
      destruct (repr_node _ _ _ _ R I) as [q Ry]. rewrite (repr_cell _ _ _ Ry) in Ek. inversion Ek. subst k. cbn in A. unfold has_attr. now destruct (tattr y).
Qed.

(* ---- names for new sub trees ---- *)
Lemma used_cases h p n d : forest h -> cell h p = Some n -> (taken h n d /\ exists c, list_sub false h n (Some d) = Done (Some c)) \/ (~ taken h n d /\ list_sub false h n (Some d) = Done None).
Proof.
  intros F E. destruct (list_sub_cases h p n d F E) as [(c & S & X)|[N X]].
  - left. split; [|eauto]. destruct S as (n' & b & a & E' & S & D & _). rewrite E in E'. inversion E'. subst n'. exists c. split; [rewrite S; apply in_elt|exact D].
  - right. split; [|exact X]. intros (c & I & D). apply in_split in I. destruct I as (b & a & S).
    assert (X2 : exists b a c, subs n = b ++ c :: a /\ described h d c /\ forall x, In x b -> ~ described h d x).
    { clear X N. revert c a S D. induction b as [b IH] using (induction_ltof1 _ (@length nat)). unfold ltof in IH. intros c a S D.
      assert (DEC : (forall x, In x b -> ~ described h d x) \/ exists x, In x b /\ described h d x).
      { clear. induction b as [|y b [IH|(x & I & D)]]; [left; easy| |right; exists x; split; [now right|exact D]].
        assert (DY : described h d y \/ ~ described h d y).
        { unfold described. destruct (cell h y) as [k|] eqn:E; [|right; intros (k & ? & _); discriminate]. destruct (opt_is (desc k) d) eqn:O.
          - left. exists k. split; [reflexivity|now apply opt_is_spec].
          - right. intros (k' & E' & D). inversion E'. subst k'. apply opt_is_spec in D. congruence. }
        destruct DY as [DY|DY]; [right; exists y; split; [now left|exact DY]|]. left. intros x [<-|I]; auto. }
      destruct DEC as [N|(x & I & Dx)]; [exists b, a, c; auto|]. apply in_split in I. destruct I as (b1 & b2 & ->). rewrite <- app_assoc in S. cbn [app] in S.
      eapply IH; [|exact S|exact Dx]. rewrite app_length. cbn. lia. }
    destruct X2 as (b' & a' & c' & S' & D' & N'). apply (N c'). exists n, b', a'. auto.
Qed.
Definition names (h : heap) (n : node) : list str := flat_map (fun c => match cell h c with Some k => match desc k with Some d => [d] | None => [] end | None => [] end) (subs n).
Lemma names_taken h n d : taken h n d <-> In d (names h n).
Proof.
  unfold taken, names, described. rewrite in_flat_map. split; intros (c & I & X); exists c; (split; [exact I|]).
  - destruct X as (k & E & D). rewrite E, D. now left.
  - destruct (cell h c) as [k|]; [|destruct X]. exists k. split; [reflexivity|]. destruct (desc k); [|destruct X]. destruct X as [->|[]]. reflexivity.
Qed.
Lemma names_length h n : length (names h n) <= length (subs n).
Proof.
  unfold names. induction (subs n) as [|c l IH]; [reflexivity|]. cbn [flat_map length]. rewrite app_length.
  destruct (cell h c) as [k|]; [destruct (desc k)|]; cbn [length]; lia.
Qed.
Lemma numbered_pigeon h n base k : (forall i, 1 <= i <= k -> taken h n (base ++ dec (Z.of_nat i))) -> k <= length (subs n).
Proof.
  intros U. pose proof (names_length h n) as NL. enough (k <= length (names h n)) by lia.
  rewrite <- (seq_length k 1), <- (map_length (fun i => base ++ dec (Z.of_nat i)) (seq 1 k)). apply NoDup_incl_length.
  - apply FinFun.Injective_map_NoDup; [|apply seq_NoDup]. intros i j X. apply app_inv_head in X. now apply LogManagerProofs4.dec_inj.
  - intros d I. apply in_map_iff in I. destruct I as (i & <- & I). apply in_seq in I. apply names_taken, U. lia.
Qed.
Lemma scan_other c : ~ digit c -> scan_i [c] = None.
Proof. unfold digit. intros N. destruct c as [[] [] [] [] [] [] [] []]; try reflexivity; exfalso; apply N; vm_compute; lia. Qed.
Lemma last_number base fuel : (forall b c, base = b ++ [c] -> ~ digit c) -> base <> [] -> 0 < fuel -> number_loop fuel base 1 0 = Done (1%Z, 0).
Proof.
  intros N NE FU. destruct fuel as [|fuel]; [lia|]. destruct (exists_last NE) as (b & c & ->). cbn [number_loop]. rewrite app_length. cbn [length].
  destruct (Nat.leb_spec (length b + 1) 0); [lia|]. replace (length b + 1 - 0 - 1) with (length b) by lia. rewrite skipn_app, skipn_all, Nat.sub_diag. cbn [skipn app].
  rewrite scan_other; [reflexivity|]. eapply N. reflexivity.
Qed.
Lemma with_number_ok base i : (1 <= i <= 99999)%Z -> with_number base i 0 = Done (base ++ dec i).
Proof.
  intros I. unfold with_number. pose proof (LogTextProofs.dec_length i 5 ltac:(cbn; lia) ltac:(lia)) as L. destruct (Z.ltb_spec i 0); [lia|].
  destruct (Nat.leb_spec (length (dec i)) (0 + 5)); [|lia]. now rewrite Nat.sub_0_r, firstn_all.
Qed.
Lemma unused_ok h p n base : forest h -> cell h p = Some n -> (Z.of_nat (length (subs n)) < 99999)%Z ->
  forall fuel i, 1 <= i -> length (subs n) < i + fuel -> (forall j, 1 <= j < i -> taken h n (base ++ dec (Z.of_nat j))) ->
  exists k, 1 <= k /\ unused_loop fuel false h n base (base ++ dec (Z.of_nat i)) (Z.of_nat i) 0 = Done (base ++ dec (Z.of_nat k)) /\
    ~ taken h n (base ++ dec (Z.of_nat k)) /\ forall j, 1 <= j < k -> taken h n (base ++ dec (Z.of_nat j)).
Proof.
  intros F E LT. induction fuel as [|fuel IH]; intros i I FU U; cbn [unused_loop]; destruct (used_cases h p n (base ++ dec (Z.of_nat i)) F E) as [(US & c & X)|[NU X]]; rewrite X; cbn [obind].
  - assert (i <= length (subs n)) by (apply (numbered_pigeon h n base); intros j J; destruct (Nat.eq_dec j i) as [->|]; [exact US|apply U; lia]). lia.
  - exists i. auto.
  - assert (IL : i <= length (subs n)) by (apply (numbered_pigeon h n base); intros j J; destruct (Nat.eq_dec j i) as [->|]; [exact US|apply U; lia]).
    destruct (Z.ltb_spec (Z.of_nat i) 100000); [|lia]. rewrite with_number_ok by lia. cbn [obind]. replace (Z.of_nat i + 1)%Z with (Z.of_nat (S i)) by lia.
    apply IH; [lia|lia|]. intros j J. destruct (Nat.eq_dec j i) as [->|]; [exact US|apply U; lia].
  - exists i. auto.
Qed.
Lemma newSub_ok h p n base fuel : forest h -> cell h p = Some n -> (Z.of_nat (length (subs n)) < 99999)%Z -> length (subs n) < fuel ->
  (forall b c, base = b ++ [c] -> ~ digit c) ->
  exists k, 1 <= k /\ newSubNodeDescription fuel false h p base = Done (base ++ dec (Z.of_nat k)) /\
    ~ taken h n (base ++ dec (Z.of_nat k)) /\ forall j, 1 <= j < k -> taken h n (base ++ dec (Z.of_nat j)).
Proof.
  intros F E LT FU N. unfold newSubNodeDescription, deref. rewrite E. cbn [obind].
  assert (X : (match base with [] => Done (1%Z, 0) | _ :: _ => let* r := number_loop fuel base 1 0 in let (i, j) := r in match j with O => Done (i, j) | S _ => if (i <? int_max)%Z then Done ((i + 1)%Z, j) else Undef end end) = Done (1%Z, 0)).
  { destruct base as [|c0 b0] eqn:B; [reflexivity|]. rewrite (last_number (c0 :: b0) fuel N) by (easy || lia). reflexivity. }
  rewrite X. cbn [obind]. rewrite with_number_ok by lia. cbn [obind]. apply (unused_ok h p n base F E LT fuel 1); [lia|lia|lia].
Qed.
