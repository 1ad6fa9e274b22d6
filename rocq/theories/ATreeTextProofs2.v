(* setAttribute on trees as values *)
From Verif Require Import Base Text StringHelperModel LogTextModel ATreeModel ATreeSpec ATreeProofs ATreeProofs2 ATreeProofs6 ATreeProofs7 ATreeTextModel ATreeTextSpec.
From Coq Require Import Permutation.

Lemma child_split l d y : child l d = Some y -> exists pre post, l = pre ++ y :: post /\ opt_is (tdesc y) d = true /\ forall z, In z pre -> opt_is (tdesc z) d = false.
Proof.
  induction l as [|x l IH]; [discriminate|]. cbn [child]. destruct (opt_is (tdesc x) d) eqn:E.
  - intros [= <-]. exists [], l. repeat split; auto. intros z [].
  - intros X. destruct (IH X) as (pre & post & -> & Y & Z). exists (x :: pre), post. repeat split; auto. intros z [<-|I]; auto.
Qed.
Lemma child_none l d : child l d = None -> forall z, In z l -> opt_is (tdesc z) d = false.
Proof. induction l as [|x l IH]; intros X z I; [destruct I|]. cbn [child] in X. destruct (opt_is (tdesc x) d) eqn:E; [discriminate|]. destruct I as [<-|I]; auto. Qed.
Lemma named_content x d : named d (content_of x) = opt_is (tdesc x) d.
Proof. destruct x. reflexivity. Qed.
Lemma first_with_skip f g pre l : (forall z, In z pre -> f z = false) -> first_with f g (pre ++ l) = option_map (app pre) (first_with f g l).
Proof.
  induction pre as [|x pre IH]; intros N; cbn [app first_with]; [destruct (first_with f g l); reflexivity|]. rewrite (N x) by now left. rewrite IH by (intros z I; apply N; now right).
  destruct (first_with f g l); reflexivity.
Qed.
Lemma first_with_none f g l : (forall z, In z l -> f z = false) -> first_with f g l = None.
Proof. intros N. rewrite <- (app_nil_r l), first_with_skip by auto. reflexivity. Qed.

Lemma path_region h h' par t l x : forest h -> forest h' -> repr h par t -> (forall y, In y (ids t) -> cell h' y = cell h y) -> path h (tid t) l x -> path h' (tid t) l x.
Proof.
  intros F F'. revert par t. induction l as [|d l IH]; intros par t R S P; inversion P as [|? ? c ? ? SN PE]; subst; [constructor|].
  apply (child_named h par t d F R) in SN. destruct (child (tsubs t) d) as [y|] eqn:CH; [|discriminate]. injection SN as <-.
  pose proof (repr_ext _ _ _ _ S R) as R'. destruct (child_in _ _ _ CH) as [I _]. apply path_sub with (tid y); [apply (child_named h' par t d F' R'); now rewrite CH|].
  apply (IH (Some (tid t)) y); [apply (sub_tree _ _ _ _ R I)|intros z J; apply S; destruct t; cbn [tsubs] in I; eapply ids_sub; eauto|exact PE].
Qed.
Record wrote (a : option str) (l : list str) (h h' : heap) (par : option nat) (t t' : tree) (c : nat) : Prop := {
  wr_forest : forest h'; wr_repr : repr h' par t'; wr_id : tid t' = tid t; wr_content : content_of t' = assign (content_of t) l a;
  wr_frame : forall x, x < next h -> ~ In x (ids t) -> cell h' x = cell h x; wr_next : next h <= next h'; wr_path : path h' (tid t) l c;
  wr_kept : forall q x, path h (tid t) q x -> path h' (tid t) q x;
  wr_ids : forall x, In x (ids t') -> In x (ids t) \/ next h <= x }.
Lemma set_content a : forall l h par t, forest h -> repr h par t -> proper l -> exists h' c t', set_path h (tid t) l a = Done (h', c) /\ wrote a l h h' par t t' c.
Proof.
  induction l as [|d l IH]; intros h par t F R P.
  - cbn [set_path]. unfold setOwnAttribute. rewrite (update_done _ _ _ _ (repr_cell _ _ _ R)). cbn [obind]. destruct t as [i d0 a0 ch ll]. cbn [tid tdesc tattr tchanged tsubs] in *.
    assert (LK := set_attr_links a (mkN d0 a0 ch par (map tid ll))). cbn [desc parent subs] in LK. destruct LK as (L1 & L2 & L3 & L4).
    pose proof (ids_nodup _ _ _ F R) as ND. apply repr_eq in R. destruct R as [Ce RS].
    eexists _, _, (T i d0 a (changed (set_attr a (mkN d0 a0 ch par (map tid ll)))) ll). split; [reflexivity|]. split.
    + eapply forest_links; [|exact F]. eapply put_links; [exact Ce|exact L2|]. cbn [subs]. rewrite L3. apply Permutation_refl.
    + apply repr_eq. split; [rewrite put_same; f_equal; set (k := set_attr _ _) in *; clearbody k; destruct k as [k1 k2 k3 k4 k5]; cbn [desc attr changed parent subs] in *; congruence|].
      rewrite Forall_forall in RS |- *. intros y I. apply (repr_ext h); [|now apply RS]. intros x J. apply put_other. intros ->.
      rewrite ids_eq in ND. inversion ND as [|? ? NI _]. apply NI, in_flat_map. eauto.
    + reflexivity.
    + reflexivity.
    + intros x _ N. apply put_other. intros ->. apply N. rewrite ids_eq. now left.
    + rewrite next_put. lia.
    + constructor.
    + intros q x Q. assert (SL : forall p e z, sub_named h p e z -> sub_named (put h i (set_attr a (mkN d0 a0 ch par (map tid ll)))) p e z).
      { intros p e z (n & bf & af & Cn & Sn & Dz & Nb). assert (DE : forall w, described (put h i (set_attr a (mkN d0 a0 ch par (map tid ll)))) e w <-> described h e w).
        { intros w. unfold described. rewrite cell_put. destruct (w =? i) eqn:Ew; [|tauto]. apply Nat.eqb_eq in Ew. subst w. rewrite Ce. split; intros (m & [= <-] & Dm); eexists; split; try reflexivity; cbn [desc] in *; congruence. }
        assert (NN : exists n', cell (put h i (set_attr a (mkN d0 a0 ch par (map tid ll)))) p = Some n' /\ subs n' = subs n).
        { rewrite cell_put. destruct (p =? i) eqn:Ep; [|eauto]. apply Nat.eqb_eq in Ep. subst p. rewrite Ce in Cn. injection Cn as <-. eexists. split; [reflexivity|exact L3]. }
        destruct NN as (n' & C' & S'). exists n', bf, af. rewrite S'. repeat split; auto; [now apply DE|]. intros w I J. apply DE in J. now apply (Nb w). }
      clear - Q SL. induction Q; [constructor|]. eapply path_sub; eauto.
    + intros x I. left. rewrite ids_eq in *. exact I.
  - assert (Dn : d <> []) by (intros ->; apply P; now left). assert (P' : proper l) by (intros I; apply P; now right).
    assert (E : set_path h (tid t) (d :: l) a = (let* s := getSubTree h (tid t) d in match s with Some c => set_path h c l a | None => let* hp := new_tree h (Some d) (Some (tid t)) in set_path (fst hp) (snd hp) l a end)) by (destruct d; [contradiction|reflexivity]).
    rewrite E, (getSubTree_effect _ _ _ _ R). cbn [obind]. pose proof (ids_nodup _ _ _ F R) as ND. pose proof R as RC. apply repr_cell in RC. pose proof R as R0.
    destruct t as [i d0 a0 ch ll]. cbn [tid tdesc tattr tchanged tsubs] in *. apply repr_eq in R. destruct R as [Ce RS].
    destruct (child ll d) as [y|] eqn:CH; cbn [option_map].
    + destruct (child_split _ _ _ CH) as (pre & post & -> & OY & OP). rewrite Forall_forall in RS. assert (RY : repr h (Some i) y) by (apply RS, in_elt).
      destruct (IH h (Some i) y F RY P') as (h' & c & y' & SP & W). destruct W as [W1 W2 W3 W4 W5 W6 W7 W8 W9].
      assert (BND : forall x, In x (ids (T i d0 a0 ch (pre ++ y :: post))) -> x < next h) by (intros x I; apply F, (repr_live _ _ _ _ R0 I)).
      rewrite ids_eq in ND. inversion ND as [|u0 u1 NI ND' [u2 u3]]. rewrite flat_map_app in ND'. cbn [flat_map] in ND'. apply nodup_app_iff in ND'. destruct ND' as (_ & ND2 & DJ1). apply nodup_app_iff in ND2. destruct ND2 as (_ & _ & DJ2).
      assert (CI : cell h' i = cell h i). { apply W5; [apply BND; rewrite ids_eq; now left|]. intros J. apply NI, in_flat_map. exists y. split; [apply in_elt|exact J]. }
      assert (R' : repr h' par (T i d0 a0 ch (pre ++ y' :: post))).
      { apply repr_eq. split; [rewrite CI, Ce; do 2 f_equal; rewrite !map_app; cbn [map]; now rewrite W3|].
        apply Forall_forall. intros z I. apply in_app_or in I. cbn [In] in I.
        assert (OTH : In z pre \/ In z post -> repr h' (Some i) z).
        { intros J. apply (repr_ext h); [|apply RS, in_or_app; cbn [In]; tauto]. intros x K. apply W5; [apply BND; rewrite ids_eq; right; apply in_flat_map; exists z; split; [apply in_or_app; cbn [In]; tauto|exact K]|].
          intros K2. destruct J as [J|J]; [apply (DJ1 x); [apply in_flat_map; eauto|apply in_or_app; now left]|apply (DJ2 x); [exact K2|apply in_flat_map; eauto]]. }
        destruct I as [I|[<-|I]]; auto. }
      exists h', c, (T i d0 a0 ch (pre ++ y' :: post)). split; [exact SP|]. split; auto.
      * cbn [content_of]. cbn [assign]. rewrite !map_app. cbn [map]. rewrite first_with_skip by (intros z I; apply in_map_iff in I; destruct I as (w & <- & I); rewrite named_content; auto).
        cbn [first_with]. rewrite named_content, OY. cbn [option_map]. now rewrite <- W4.
      * intros x L N. apply W5; [exact L|]. intros J. apply N. rewrite ids_eq. right. apply in_flat_map. exists y. split; [apply in_elt|exact J].
      * apply path_sub with (tid y); [|exact W7]. apply (child_named h' par _ d W1 R'). cbn [tsubs].
        assert (CY : child (pre ++ y' :: post) d = Some y').
        { assert (TD : tdesc y' = tdesc y) by (apply (f_equal name_of) in W4; destruct y', y; cbn [content_of name_of] in W4; cbn [tdesc]; rewrite W4; destruct l as [|v0 v1]; cbn [assign name_of]; try reflexivity; match goal with |- context [match ?f with _ => _ end] => destruct f; reflexivity end).
          clear - OY OP TD. induction pre as [|z pre IHp]; cbn [app child]; [rewrite TD, OY; reflexivity|]. rewrite (OP z) by now left. apply IHp. intros w I. apply OP. now right. }
        rewrite CY. cbn [option_map]. now rewrite W3.
      * intros q x Q. inversion Q as [|? e c0 q' ? SN PE]; subst; [constructor|]. pose proof SN as SN'. apply (child_named h par _ e F R0) in SN. cbn [tsubs] in SN.
        destruct (child (pre ++ y :: post) e) as [z|] eqn:CZ; [|discriminate]. injection SN as <-. apply path_sub with (tid z).
        -- cbn [tid] in SN'. destruct SN' as (n & bf & af & Cn & Sn & Dz & Nb). assert (DE : forall w, In w (map tid (pre ++ y :: post)) -> (described h' e w <-> described h e w)).
           { intros w Iw. apply in_map_iff in Iw. destruct Iw as (wt & <- & Iw). assert (TD : tdesc y' = tdesc y) by (apply (f_equal name_of) in W4; destruct y', y; cbn [content_of name_of] in W4; cbn [tdesc]; rewrite W4; destruct l as [|v0 v1]; cbn [assign name_of]; try reflexivity; match goal with |- context [match ?f with _ => _ end] => destruct f; reflexivity end).
             rewrite (described_repr h (Some i) wt e (RS wt Iw)). apply repr_eq in R'. destruct R' as [_ RS']. rewrite Forall_forall in RS'.
             apply in_app_or in Iw. cbn [In] in Iw. destruct Iw as [Iw|[<-|Iw]].
             - rewrite (described_repr h' (Some i) wt e); [tauto|]. apply RS', in_or_app. now left.
             - rewrite <- W3, (described_repr h' (Some i) y' e), TD; [tauto|]. apply RS', in_elt.
             - rewrite (described_repr h' (Some i) wt e); [tauto|]. apply RS', in_or_app. right. now right. }
           rewrite Ce in Cn. injection Cn as <-. cbn [subs] in Sn. cbn [tid]. exists (mkN d0 a0 ch par (map tid (pre ++ y :: post))), bf, af. rewrite CI. repeat split; auto.
           ++ apply DE; [|exact Dz]. rewrite Sn. apply in_elt.
           ++ intros w Iw J. apply (Nb w Iw). apply DE; [|exact J]. rewrite Sn. apply in_or_app. now left.
        -- destruct (child_in _ _ _ CZ) as [IZ _]. destruct (Nat.eq_dec (tid z) (tid y)) as [EZ|NZ]; [rewrite EZ in PE |- *; now apply W8|].
           apply (path_region h h' (Some i) z q' x F W1 (RS z IZ)); [|exact PE]. intros w J. apply W5; [apply BND; rewrite ids_eq; right; apply in_flat_map; eauto|].
           intros K2. apply in_app_or in IZ. cbn [In] in IZ. destruct IZ as [IZ|[<-|IZ]]; [|congruence|]; [apply (DJ1 w); [apply in_flat_map; eauto|apply in_or_app; now left]|apply (DJ2 w); [exact K2|apply in_flat_map; eauto]].
      * intros x I. rewrite ids_eq in I |- *. cbn [In] in *. destruct I as [I|I]; [now left; left|]. rewrite flat_map_app in I. cbn [flat_map] in I. apply in_app_or in I.
        assert (J : In x (flat_map ids pre) \/ In x (ids y') \/ In x (flat_map ids post)) by (destruct I as [I|I]; [now left|right; now apply in_app_or]).
        rewrite flat_map_app. cbn [flat_map]. rewrite !in_app_iff. destruct J as [J|[J|J]]; [tauto| |tauto]. destruct (W9 x J); [tauto|now right].
    + rewrite (new_tree_some _ _ _ _ F Ce). cbn [obind fst snd]. set (h1 := below_new h (Some d) i (mkN d0 a0 ch par (map tid ll))).
      assert (F1 : forest h1). { apply (new_tree_forest h (Some d) (Some i) h1 (next h)); [exact F|intros x [= <-]; apply live_ex; eauto|apply (new_tree_some _ _ _ _ F Ce)]. }
      destruct (below_new_cells h (Some d) i _ F Ce) as (B2 & B1 & B3). fold h1 in B1, B2, B3. assert (B4 : next h1 = S (next h)) by reflexivity.
      destruct (IH h1 (Some i) (T (next h) (Some d) None false []) F1) as (h' & c & y' & SP & W); [apply repr_eq; split; [exact B1|constructor]|exact P'|]. destruct W as [W1 W2 W3 W4 W5 W6 W7 W8 W9]. cbn [tid] in SP, W3, W7.
      assert (BND : forall x, In x (ids (T i d0 a0 ch ll)) -> x < next h) by (intros x I; apply F, (repr_live _ _ _ _ R0 I)).
      assert (NX : forall x, x < next h -> cell h' x = cell h1 x). { intros x L. apply W5; [lia|]. cbn. intros [E1|[]]; lia. }
      assert (IL : i < next h) by (apply BND; rewrite ids_eq; now left).
      assert (R' : repr h' par (T i d0 a0 ch (y' :: ll))).
      { apply repr_eq. split; [rewrite NX by exact IL; rewrite B2; unfold set_subs; cbn [desc attr changed parent subs map]; now rewrite W3|].
        constructor; [exact W2|]. rewrite Forall_forall in RS |- *. intros z I. apply (repr_ext h); [|now apply RS]. intros x K.
        assert (XB : In x (ids (T i d0 a0 ch ll))) by (rewrite ids_eq; right; apply in_flat_map; eauto).
        rewrite NX by auto. apply B3; [intros ->|intros ->; specialize (BND _ XB); lia]. rewrite ids_eq in ND. inversion ND as [|? ? NI _]. apply NI, in_flat_map. eauto. }
      exists h', c, (T i d0 a0 ch (y' :: ll)). split; [exact SP|]. split; auto.
      * cbn [content_of]. cbn [assign]. rewrite first_with_none by (intros z I; apply in_map_iff in I; destruct I as (w & <- & I); rewrite named_content; eapply child_none; eauto).
        cbn [map]. now rewrite W4.
      * intros x L N. rewrite NX by exact L. apply B3; [intros ->; apply N; rewrite ids_eq; now left|lia].
      * lia.
      * apply path_sub with (next h); [|exact W7]. apply (child_named h' par _ d W1 R'). cbn [tsubs child].
        assert (TD : tdesc y' = Some d) by (apply (f_equal name_of) in W4; destruct y'; cbn [content_of name_of map] in W4; cbn [tdesc]; rewrite W4; destruct l as [|v0 v1]; cbn [assign name_of first_with]; reflexivity).
        rewrite TD. cbn [opt_is]. rewrite str_eqb_refl. cbn [option_map]. now rewrite W3.
      * intros q x Q. inversion Q as [|? e c0 q' ? SN PE]; subst; [constructor|]. apply (child_named h par _ e F R0) in SN. cbn [tsubs] in SN.
        destruct (child ll e) as [z|] eqn:CZ; [|discriminate]. injection SN as <-. destruct (child_in _ _ _ CZ) as [IZ _].
        assert (TD : tdesc y' = Some d) by (apply (f_equal name_of) in W4; destruct y'; cbn [content_of name_of map] in W4; cbn [tdesc]; rewrite W4; destruct l as [|v0 v1]; cbn [assign name_of first_with]; reflexivity).
        apply path_sub with (tid z).
        -- apply (child_named h' par _ e W1 R'). cbn [tsubs child]. rewrite TD. cbn [opt_is]. destruct (str_eqb d e) eqn:DE; [apply str_eqb_spec in DE; congruence|]. now rewrite CZ.
        -- rewrite Forall_forall in RS. apply (path_region h h' (Some i) z q' x F W1 (RS z IZ)); [|exact PE]. intros w J.
           assert (XB : In w (ids (T i d0 a0 ch ll))) by (rewrite ids_eq; right; apply in_flat_map; eauto).
           rewrite NX by auto. apply B3; [intros ->|intros ->; specialize (BND _ XB); lia]. rewrite ids_eq in ND. inversion ND as [|? ? NI _]. apply NI, in_flat_map. eauto.
      * intros x I. rewrite ids_eq in I |- *. cbn [In flat_map] in *. rewrite in_app_iff in I. destruct I as [I|[I|I]]; [tauto| |tauto]. destruct (W9 x I) as [J|J]; [|right; lia]. cbn in J. right. lia.
Qed.
