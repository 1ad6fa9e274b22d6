From Verif Require Import Base Text SMap PluginModel PluginSpec.

Lemma str_is_eq a b : str_is a b = true <-> a = b.
Proof. unfold str_is. destruct (list_eq_dec ascii_dec a b); split; congruence. Qed.
Lemma str_is_ne a b : str_is a b = false <-> a <> b.
Proof. unfold str_is. destruct (list_eq_dec ascii_dec a b); split; congruence. Qed.
Lemma map_get_filter {T} (m : list (str * T)) k : sorted m -> sorted (filter (fun kv => negb (str_is (fst kv) k)) m) /\
  forall k', map_get (filter (fun kv => negb (str_is (fst kv) k)) m) k' = if list_eq_dec ascii_dec k' k then None else map_get m k'.
Proof.
  intros S0. assert (S1 : sorted (filter (fun kv => negb (str_is (fst kv) k)) m)).
  { induction S0 as [|k0 v r S0 IH L]; [constructor|]. cbn [filter fst]. destruct (negb (str_is k0 k)); [|exact IH]. constructor; [exact IH|].
    intros k' v' I. apply filter_In in I. exact (L _ _ (proj1 I)). }
  split; [exact S1|]. intros k'. destruct (map_get (filter (fun kv => negb (str_is (fst kv) k)) m) k') as [v|] eqn:E.
  - apply map_get_in in E; [|exact S1]. apply filter_In in E. destruct E as (I & N). cbn [fst] in N. apply negb_true_iff in N. apply str_is_ne in N.
    destruct (list_eq_dec ascii_dec k' k); [congruence|]. symmetry. apply map_get_in; auto.
  - destruct (list_eq_dec ascii_dec k' k) as [->|N]; [reflexivity|]. destruct (map_get m k') as [v|] eqn:G; [|reflexivity]. exfalso.
    apply map_get_in in G; [|exact S0]. rewrite map_get_none in E by exact S1. apply (E v). apply filter_In. split; [exact G|]. cbn [fst].
    apply negb_true_iff. apply str_is_ne. exact N.
Qed.
Lemma sorted_keys {T} (m : list (str * T)) : sorted m -> ascending (map fst m).
Proof.
  induction 1 as [|k v r S0 IH L]; cbn [map fst]; constructor; auto. intros y I. apply in_map_iff in I. destruct I as ((k', v') & <- & I). exact (L _ _ I).
Qed.
Lemma key_in {T} (m : list (str * T)) k : sorted m -> (In k (map fst m) <-> exists v, map_get m k = Some v).
Proof.
  intros S0. split.
  - intros I. apply in_map_iff in I. destruct I as ((k', v) & <- & I). exists v. apply map_get_in; auto.
  - intros (v & E). apply map_get_in in E; [|exact S0]. apply in_map_iff. exists (k, v). auto.
Qed.

(* ---- reading the paths ---- *)
Lemma handle_case e s file :
  (exists id h, offers e file h id /\ loadHandle e s file = set_handles s (map_put (handles s) id h)) \/
  ((forall id h, ~ offers e file h id) /\ no_plugin e file /\ loadHandle e s file = addError s (CannotOpen file)) \/
  ((forall id h, ~ offers e file h id) /\ ~ no_plugin e file /\ loadHandle e s file = s).
Proof.
  unfold loadHandle, no_plugin. destruct (libs e file) as [l|] eqn:E.
  - destruct (l_identifier l) as [id|] eqn:E1; [destruct (l_basetype l) as [b|] eqn:E2|].
    + destruct (str_is b (type_name e)) eqn:Q.
      * left. apply str_is_eq in Q. subst b. exists id, (Some file). split; [econstructor; eauto|reflexivity].
      * right. right. apply str_is_ne in Q. split; [|split; [intros [K|K]; discriminate|reflexivity]]. intros id' h O. destruct O; congruence.
    + right. left. split; [|split; [right; reflexivity|reflexivity]]. intros id' h O. destruct O; congruence.
    + right. left. split; [|split; [left; reflexivity|destruct (l_basetype l); reflexivity]]. intros id' h O. destruct O; congruence.
  - destruct (l_identifier (program e)) as [id|] eqn:E1; [destruct (l_basetype (program e)) as [b|] eqn:E2|].
    + destruct (str_is b (type_name e)) eqn:Q.
      * left. apply str_is_eq in Q. subst b. exists id, None. split; [apply O_null; auto|reflexivity].
      * right. right. apply str_is_ne in Q. split; [|split; [intros [K|K]; discriminate|reflexivity]]. intros id' h O. destruct O; congruence.
    + right. left. split; [|split; [right; reflexivity|reflexivity]]. intros id' h O. destruct O; congruence.
    + right. left. split; [|split; [left; reflexivity|destruct (l_basetype (program e)); reflexivity]]. intros id' h O. destruct O; congruence.
Qed.
Lemma offers_fun e file h id h' id' : offers e file h id -> offers e file h' id' -> h = h' /\ id = id'.
Proof. intros A B. destruct A, B; split; congruence. Qed.
Definition no_plugin_b (e : env) (file : str) : bool :=
  let l := match libs e file with Some l => l | None => program e end in
  match l_identifier l, l_basetype l with Some _, Some _ => false | _, _ => true end.
Lemma no_plugin_iff e file : no_plugin_b e file = true <-> no_plugin e file.
Proof.
  unfold no_plugin_b, no_plugin. set (l := match libs e file with Some l => l | None => program e end).
  destruct (l_identifier l), (l_basetype l); split; auto; try discriminate. intros [H|H]; discriminate.
Qed.
Definition same_rest (s s' : pm) : Prop :=
  loaded s' = loaded s /\ statics s' = statics s /\ initialized s' = initialized s /\ lazy s' = lazy s /\ paths s' = paths s /\ made s' = made s.
(* all files of a list *)
Lemma files_ok e files : forall s, sorted (handles s) -> 
  let s' := fold_left (loadHandle e) files s in
  sorted (handles s') /\ same_rest s s' /\ errors s' = errors s ++ map CannotOpen (filter (no_plugin_b e) files) /\
  forall id, map_get (handles s') id = match map_get (handles s') id with Some h => Some h | None => None end /\
    ((exists h, found e files id h /\ map_get (handles s') id = Some h) \/ ((forall h, ~ found e files id h) /\ map_get (handles s') id = map_get (handles s) id)).
Proof.
  induction files as [|f files IH] using rev_ind; intros s S0; cbn zeta.
  - cbn. rewrite app_nil_r. split; [exact S0|]. split; [repeat split|]. split; [reflexivity|]. intros id. split; [destruct (map_get (handles s) id); reflexivity|]. right. split; [|reflexivity].
    intros h (l1 & x & l2 & E & _). destruct l1; discriminate.
  - rewrite fold_left_app. cbn [fold_left]. destruct (IH s S0) as (S1 & Rr & Er & G). set (s1 := fold_left (loadHandle e) files s) in *.
    assert (Snoc : forall id h, found e (files ++ [f]) id h <-> offers e f h id \/ (found e files id h /\ forall h', ~ offers e f h' id)).
    { intros id h. split.
      - intros (l1 & x & l2 & E & O & N). destruct (@exists_last _ (x :: l2) ltac:(discriminate)) as (y & z & Ez).
        rewrite Ez, app_assoc in E. apply app_inj_tail in E. destruct E as (E & <-). destruct y as [|y0 y].
        + injection Ez as <- ->. left. exact O.
        + injection Ez as -> Ez2. right. split; [exists l1, y0, y; split; [auto|]|].
          * split; [exact O|]. intros f' h' I. apply N. rewrite Ez2. apply in_or_app. left. exact I.
          * intros h'. apply N. rewrite Ez2. apply in_or_app. right. left. reflexivity.
      - intros [O|((l1 & x & l2 & -> & O & N) & NO)].
        + exists files, f, []. split; [reflexivity|]. split; [exact O|]. intros f' h' [].
        + exists l1, x, (l2 ++ [f]). split; [rewrite <- app_assoc; reflexivity|]. split; [exact O|]. intros f' h' I. apply in_app_or in I.
          destruct I as [I|[<-|[]]]; [apply N; exact I|apply NO]. }
    rewrite filter_app, map_app. cbn [filter].
    destruct (handle_case e s1 f) as [(id & h & O & E)|[(NO & NP & E)|(NO & NP & E)]]; rewrite E.
    + assert (NP : no_plugin_b e f = false).
      { destruct (no_plugin_b e f) eqn:Q; [|reflexivity]. apply no_plugin_iff in Q. unfold no_plugin in Q. destruct O as [file l id L1 L2 L3|file id L1 L2 L3]; rewrite L1 in Q; destruct Q; congruence. }
      rewrite NP. cbn [map]. rewrite app_nil_r. cbn [handles set_handles errors]. split; [apply map_put_sorted; exact S1|]. split; [exact Rr|]. split; [exact Er|].
      intros id'. split; [destruct (map_get (map_put (handles s1) id h) id'); reflexivity|]. rewrite map_get_put by exact S1. destruct (list_eq_dec ascii_dec id' id) as [->|Nid].
      * left. exists h. split; [apply Snoc; left; exact O|reflexivity].
      * assert (No : forall h', ~ offers e f h' id') by (intros h' O'; destruct (offers_fun _ _ _ _ _ _ O O'); congruence).
        destruct (G id') as (_ & [(h' & F0 & E')|(NF & E')]).
        { left. exists h'. split; [apply Snoc; right; auto|exact E']. }
        { right. split; [|exact E']. intros h' F0. apply Snoc in F0. destruct F0 as [F0|(F0 & _)]; [exact (No _ F0)|exact (NF _ F0)]. }
    + apply no_plugin_iff in NP. rewrite NP. cbn [map]. cbn [handles addError set_errors errors]. split; [exact S1|]. split; [exact Rr|].
      split; [rewrite Er, <- app_assoc; reflexivity|]. intros id'. destruct (G id') as (G1 & [(h' & F0 & E')|(NF & E')]); (split; [exact G1|]).
      * left. exists h'. split; [apply Snoc; right; auto|exact E'].
      * right. split; [|exact E']. intros h' F0. apply Snoc in F0. destruct F0 as [F0|(F0 & _)]; [exact (NO _ _ F0)|exact (NF _ F0)].
    + assert (NP' : no_plugin_b e f = false) by (destruct (no_plugin_b e f) eqn:Q; [apply no_plugin_iff in Q; contradiction|reflexivity]).
      rewrite NP'. cbn [map]. rewrite app_nil_r. split; [exact S1|]. split; [exact Rr|]. split; [exact Er|].
      intros id'. destruct (G id') as (G1 & [(h' & F0 & E')|(NF & E')]); (split; [exact G1|]).
      * left. exists h'. split; [apply Snoc; right; auto|exact E'].
      * right. split; [|exact E']. intros h' F0. apply Snoc in F0. destruct F0 as [F0|(F0 & _)]; [exact (NO _ _ F0)|exact (NF _ F0)].
Qed.
Lemma read_fold e r ps files ok : visits e r ps files ok -> forall s, read_paths e r ps s = (fold_left (loadHandle e) files s, ok).
Proof.
  induction 1 as [|p ps files ok E V IH|p ps l files ok E B V IH|p ps l E B]; intros s; cbn [read_paths].
  - reflexivity.
  - rewrite E. apply IH.
  - rewrite E, B, fold_left_app. apply IH.
  - rewrite E, B. reflexivity.
Qed.
Lemma visits_total e r ps : exists files ok, visits e r ps files ok.
Proof.
  induction ps as [|p ps (files & ok & V)]; [exists [], true; constructor|].
  destruct (if r then deep_dir e p else flat_dir e p) as [l|] eqn:E; [|exists files, ok; apply V_missing; auto].
  destruct (l_broken l) eqn:B; [exists (l_files l), false; apply V_broken; auto|exists (l_files l ++ files), ok; apply V_dir; auto].
Qed.

(* ---- states before the initialization ---- *)
Definition virgin (s : pm) : Prop := loaded s = [] /\ handles s = [] /\ initialized s = false /\ lazy s = false /\ errors s = [] /\ made s = [] /\ sorted (statics s).
Definition path1 (p : str) : list str := match p with [] => [] | _ => [p] end.
Lemma add_path s p : addPluginPath s p = set_paths s (paths s ++ path1 p).
Proof. destruct p; cbn; [rewrite app_nil_r; destruct s; reflexivity|reflexivity]. Qed.
Lemma path_list_cons dir o l : path_list dir (o :: l) = path1 dir ++ path_list (match o with AddPath p => p | _ => [] end) l.
Proof. destruct o; reflexivity. Qed.
Lemma path_list_dir dir l : path_list dir l = path1 dir ++ path_list [] l.
Proof. destruct l as [|o l]; cbn [path_list]; unfold path1; destruct dir; try destruct o; reflexivity. Qed.
Lemma before_ok e l : forall s, virgin s -> (forall q, In q l -> starts q = None) ->
  let s' := fst (calls e s l) in virgin s' /\ paths s' = paths s ++ path_list [] l.
Proof.
  induction l as [|o l IH]; intros s V Q; cbn zeta.
  - cbn. rewrite app_nil_r. auto.
  - pose proof (Q o (or_introl eq_refl)) as Qo. specialize (fun s V => IH s V (fun q I => Q q (or_intror I))). cbn zeta in IH.
    assert (Step : virgin (fst (call e s o)) /\ paths (fst (call e s o)) = paths s ++ path_list (match o with AddPath p => p | _ => [] end) []).
    { destruct V as (V1 & V2 & V3 & V4 & V5 & V6 & V7).
      assert (N : forall t : pm, paths t = paths s -> paths t = paths s ++ path_list [] []) by (intros t ->; cbn; rewrite app_nil_r; reflexivity).
      destruct o; cbn [starts] in Qo; try discriminate; cbn [call fst].
      - rewrite add_path. split; [unfold virgin; cbn; auto 10|]. cbn [set_paths paths]. f_equal. unfold path1. destruct path; reflexivity.
      - split; [unfold virgin; auto 10|apply N; reflexivity].
      - split; [unfold virgin; auto 10|apply N; reflexivity].
      - split; [|apply N; reflexivity]. unfold virgin. cbn. repeat (split; [assumption|]). apply map_put_sorted. apply map_get_filter. exact V7.
      - split; [|apply N; reflexivity]. unfold virgin. cbn. repeat (split; [assumption|]). apply map_get_filter. exact V7.
      - split; [unfold virgin; auto 10|apply N; reflexivity]. }
    destruct Step as (V' & P'). cbn [calls]. destruct (call e s o) as (s1, r1). cbn [fst] in V', P'. specialize (IH s1 V').
    destruct (calls e s1 l) as (s2, rs). cbn [fst] in *. destruct IH as (IH1 & IH2). split; [exact IH1|]. rewrite IH2, P', path_list_cons. cbn [path1 app path_list].
    rewrite <- app_assoc. f_equal. destruct o; try reflexivity. rewrite (path_list_dir path l). unfold path1. destruct path; reflexivity.
Qed.
Lemma new_ok dir : virgin (new_manager dir) /\ paths (new_manager dir) = path1 dir.
Proof. unfold new_manager. rewrite add_path. cbn. split; [unfold virgin; cbn; pose proof (@sorted_nil nat); auto 10|reflexivity]. Qed.

(* ---- loading ---- *)
Definition instance (e : env) (h : option str) (p : option ptr) (m : list str) : Prop :=
  match h with
  | None => p = None
  | Some f => (makes e f /\ exists k, p = Some (Made k) /\ nth_error m k = Some f) \/ (~ makes e f /\ p = None)
  end.
Lemma instance_ok e s h id : exists p, loadPluginInstance e s h id = (fst (loadPluginInstance e s h id), p) /\ 
  instance e h p (made (fst (loadPluginInstance e s h id))) /\
  (forall k, p = Some (Made k) -> k = length (made s) /\ length (made (fst (loadPluginInstance e s h id))) = S (length (made s))) /\ (forall n, p <> Some (Static n)) /\
  (exists m, made (fst (loadPluginInstance e s h id)) = made s ++ m) /\ (exists m, errors (fst (loadPluginInstance e s h id)) = errors s ++ m) /\
  handles (fst (loadPluginInstance e s h id)) = handles s /\ loaded (fst (loadPluginInstance e s h id)) = loaded s /\
  statics (fst (loadPluginInstance e s h id)) = statics s /\ initialized (fst (loadPluginInstance e s h id)) = initialized s /\
  lazy (fst (loadPluginInstance e s h id)) = lazy s /\ paths (fst (loadPluginInstance e s h id)) = paths s.
Proof.
  unfold loadPluginInstance, instance. destruct h as [f|].
  - destruct (libs e f) as [l|] eqn:E; [destruct (l_load l) as [[|]|] eqn:M|].
    + exists (Some (Made (length (made s)))). cbn. split; [reflexivity|]. split.
      { left. split; [exists l; auto|]. exists (length (made s)). split; [reflexivity|]. rewrite nth_error_app2, Nat.sub_diag by lia. reflexivity. }
      split; [intros k Q; injection Q as <-; split; [reflexivity|rewrite app_length; cbn; lia]|]. split; [discriminate|]. split; [eauto|]. split; [exists []; rewrite app_nil_r; reflexivity|]. auto 10.
    + exists None. cbn. split; [reflexivity|]. split; [right; split; [intros (l' & A & B); congruence|reflexivity]|]. split; [discriminate|]. split; [discriminate|].
      split; [exists []; rewrite app_nil_r; reflexivity|]. split; [eauto|]. auto 10.
    + exists None. cbn. split; [reflexivity|]. split; [right; split; [intros (l' & A & B); congruence|reflexivity]|]. split; [discriminate|]. split; [discriminate|].
      split; [exists []; rewrite app_nil_r; reflexivity|]. split; [eauto|]. auto 10.
    + exists None. cbn. split; [reflexivity|]. split; [right; split; [intros (l' & A & B); congruence|reflexivity]|]. split; [discriminate|]. split; [discriminate|].
      split; [exists []; rewrite app_nil_r; reflexivity|]. split; [exists []; rewrite app_nil_r; reflexivity|]. auto 10.
  - exists None. cbn. split; [reflexivity|]. split; [reflexivity|]. split; [discriminate|]. split; [discriminate|].
    split; [exists []; rewrite app_nil_r; reflexivity|]. split; [exists []; rewrite app_nil_r; reflexivity|]. auto 10.
Qed.
Lemma instance_grow e h p m m' : instance e h p m -> instance e h p (m ++ m').
Proof.
  unfold instance. destruct h as [f|]; [|auto]. intros [(M & k & -> & N)|H]; [|auto]. left. split; [exact M|]. exists k. split; [reflexivity|].
  rewrite nth_error_app1; [exact N|]. apply nth_error_Some. congruence.
Qed.

(* while loading: the keys in [todo] are missing *)
Record loading (e : env) (reg : list (str * option str)) (todo : list str) (s : pm) : Prop := mkLoading {
  g_init : initialized s = true; g_lazy : lazy s = false;
  g_h : handles s = reg; g_sl : sorted (loaded s); g_ss : sorted (statics s);
  g_l : forall id h, map_get reg id = Some h -> ~ In id todo -> exists p, map_get (loaded s) id = Some p /\ instance e h p (made s);
  g_t : forall id, In id todo -> map_get (loaded s) id = None;
  g_l0 : forall id, map_get reg id = None -> map_get (loaded s) id = None;
  g_dist : forall id id' k, map_get (loaded s) id = Some (Some (Made k)) -> map_get (loaded s) id' = Some (Some (Made k)) -> id = id';
  g_nostat : forall id n, map_get (loaded s) id <> Some (Some (Static n));
  g_bound : forall id k, map_get (loaded s) id = Some (Some (Made k)) -> k < length (made s)
}.
Lemma load_ok e reg : sorted reg -> forall todo s, NoDup todo -> (forall id, In id todo -> exists h, map_get reg id = Some h) -> loading e reg todo s ->
  let s' := load_loop e todo s in loading e reg [] s' /\ statics s' = statics s /\ paths s' = paths s /\ exists m, errors s' = errors s ++ m.
Proof.
  intros Sr. induction todo as [|id todo IH]; intros s ND K G; cbn [load_loop].
  - split; [exact G|]. split; [reflexivity|]. split; [reflexivity|]. exists []. rewrite app_nil_r. reflexivity.
  - inversion ND as [|? ? N1 N2]; subst. rewrite (g_t _ _ _ _ G id (or_introl eq_refl)). destruct (K id (or_introl eq_refl)) as (h & Kh).
    unfold create_from_handle. rewrite (g_h _ _ _ _ G), Kh.
    destruct (instance_ok e s h id) as (p & E & I & Fr & NS & (m & Mk) & (er & Er) & H1 & H2 & H3 & H4 & H5 & H6). rewrite E. set (s1 := fst (loadPluginInstance e s h id)) in *. cbn zeta.
    destruct (IH (set_loaded s1 (map_put (loaded s1) id p)) N2 (fun x Hx => K x (or_intror Hx))) as (A & B & C & (er2 & D)).
    { assert (Sl : sorted (loaded s)) by (apply (g_sl _ _ _ _ G)).
      assert (GP : forall x, map_get (loaded (set_loaded s1 (map_put (loaded s1) id p))) x = if list_eq_dec ascii_dec x id then Some p else map_get (loaded s) x)
        by (intros x; cbn; rewrite H2; apply map_get_put; exact Sl).
      constructor.
      - cbn. rewrite H4. apply (g_init _ _ _ _ G).
      - cbn. rewrite H5. apply (g_lazy _ _ _ _ G).
      - cbn. rewrite H1. apply (g_h _ _ _ _ G).
      - cbn. apply map_put_sorted. rewrite H2. exact Sl.
      - cbn. rewrite H3. apply (g_ss _ _ _ _ G).
      - intros x hx Kx Nx. rewrite GP. destruct (list_eq_dec ascii_dec x id) as [->|Ni].
        + exists p. split; [reflexivity|]. assert (hx = h) by congruence. subst hx. cbn. exact I.
        + destruct (g_l _ _ _ _ G x hx Kx) as (px & P1 & P2); [intros [Q|Q]; [congruence|contradiction]|]. exists px. split; [exact P1|]. cbn. rewrite Mk. apply instance_grow. exact P2.
      - intros x Hx. rewrite GP. destruct (list_eq_dec ascii_dec x id) as [->|Ni]; [contradiction|]. apply (g_t _ _ _ _ G). right. exact Hx.
      - intros x Hx. rewrite GP. destruct (list_eq_dec ascii_dec x id) as [->|Ni]; [congruence|]. apply (g_l0 _ _ _ _ G). exact Hx.
      - intros x y k. rewrite !GP. destruct (list_eq_dec ascii_dec x id) as [->|Nx], (list_eq_dec ascii_dec y id) as [->|Ny]; auto.
        + intros Q1 Q2. exfalso. injection Q1 as Q1. apply Fr in Q1. apply (g_bound _ _ _ _ G) in Q2. lia.
        + intros Q2 Q1. exfalso. injection Q1 as Q1. apply Fr in Q1. apply (g_bound _ _ _ _ G) in Q2. lia.
        + apply (g_dist _ _ _ _ G).
      - intros x n. rewrite GP. destruct (list_eq_dec ascii_dec x id) as [->|Nx]; [intros Q; injection Q as Q; exact (NS n Q)|apply (g_nostat _ _ _ _ G)].
      - intros x k. rewrite GP. cbn. rewrite Mk, app_length. destruct (list_eq_dec ascii_dec x id) as [->|Nx].
        + intros Q. injection Q as Q. destruct (Fr _ Q) as (-> & L). rewrite Mk, app_length in L. lia.
        + intros Q. apply (g_bound _ _ _ _ G) in Q. lia. }
    split; [exact A|]. split; [rewrite B; cbn; exact H3|]. split; [rewrite C; cbn; exact H6|]. exists (er ++ er2). rewrite D. cbn. rewrite Er, <- app_assoc. reflexivity.
Qed.
Lemma asc_nodup l : ascending l -> NoDup l.
Proof.
  induction 1 as [|x l A IH L]; constructor; auto. intros I. specialize (L x I). rewrite str_lt_irrefl in L. discriminate.
Qed.
Lemma loadPlugins_loading e s : initialized s = true -> loaded s = [] -> sorted (handles s) -> sorted (statics s) ->
  loading e (handles s) [] (loadPlugins e s) /\ statics (loadPlugins e s) = statics s /\ paths (loadPlugins e s) = paths s.
Proof.
  intros I L Sh Ss. unfold loadPlugins.
  destruct (load_ok e (handles s) Sh (map fst (handles s)) (set_lazy s false)) as (A & B & C & D).
  - apply asc_nodup. apply sorted_keys. exact Sh.
  - intros id H. apply key_in in H; auto.
  - constructor; cbn; auto.
    + rewrite L. constructor.
    + intros id h E N. exfalso. apply N. apply key_in; eauto.
    + intros id _. rewrite L. reflexivity.
    + intros id _. rewrite L. reflexivity.
    + intros id id' k. rewrite L. discriminate.
    + intros id n. rewrite L. discriminate.
    + intros id k. rewrite L. discriminate.
  - split; [exact A|]. split; [exact B|exact C].
Qed.

(* ---- after the start ---- *)
Record settled (reg : list (str * option str)) (L0 : list (str * option ptr)) (M0 : list str) (a : list op) (s : pm) : Prop := mkZ {
  z_init : initialized s = true; z_lazy : lazy s = false; z_sh : sorted (handles s); z_sl : sorted (loaded s);
  z_h : forall id h, map_get reg id = Some h -> map_get (handles s) id = Some h;
  z_h0 : forall id h, map_get reg id = None -> map_get (handles s) id = Some h -> h = None /\ In (Create id) a;
  z_hc : forall id, In (Create id) a -> exists h, map_get (handles s) id = Some h;
  z_l : forall id p, map_get L0 id = Some p -> map_get (loaded s) id = Some p;
  z_l0 : forall id p, map_get L0 id = None -> map_get (loaded s) id = Some p -> p = None /\ In (Plugin id) a;
  z_m : exists m, made s = M0 ++ m
}.
Lemma prepare_settled e reg L0 M0 a s : settled reg L0 M0 a s -> prepare e s = (s, true).
Proof. intros Z. unfold prepare. rewrite (z_init _ _ _ _ _ Z), (z_lazy _ _ _ _ _ Z). reflexivity. Qed.
Lemma query_settled e reg L0 M0 a s f : settled reg L0 M0 a s -> query e s f = f s.
Proof. intros Z. unfold query. rewrite (prepare_settled e _ _ _ _ _ Z). reflexivity. Qed.
Lemma initialize_settled e reg L0 M0 a s ll r : settled reg L0 M0 a s -> initialize e ll r s = (s, true).
Proof. intros Z. unfold initialize. rewrite (z_init _ _ _ _ _ Z), (z_lazy _ _ _ _ _ Z). reflexivity. Qed.
Lemma settled_more reg L0 M0 a q s : settled reg L0 M0 a s -> (forall id, q = Create id -> exists h, map_get (handles s) id = Some h) ->
  settled reg L0 M0 (a ++ [q]) s.
Proof.
  intros Z C. destruct Z as [z1 z2 z3 z4 z5 z6 z7 z8 z9 z10]. constructor; auto.
  - intros id h A B. destruct (z6 id h A B). split; [assumption|]. apply in_or_app. auto.
  - intros id I. apply in_app_or in I. destruct I as [I|[I|[]]]; auto.
  - intros id p A B. destruct (z9 id p A B). split; [assumption|]. apply in_or_app. auto.
Qed.
(* what matters of a state *)
Lemma settled_ext reg L0 M0 a s t : settled reg L0 M0 a s -> handles t = handles s -> loaded t = loaded s -> (exists m, made t = made s ++ m) -> initialized t = initialized s -> lazy t = lazy s ->
  settled reg L0 M0 a t.
Proof.
  intros Z Eh El (m & Em) Ei Ela. destruct Z as [z1 z2 z3 z4 z5 z6 z7 z8 z9 (m0 & z10)]. constructor; rewrite ?Eh, ?El, ?Ei, ?Ela; auto.
  exists (m0 ++ m). rewrite Em, z10, app_assoc. reflexivity.
Qed.
Lemma settled_create reg L0 M0 a e s id : settled reg L0 M0 a s ->
  let s' := fst (create_from_handle e s id) in
  settled reg L0 M0 (a ++ [Create id]) s' /\
  (forall k, snd (create_from_handle e s id) = Some (Made k) -> k = length (made s) /\ length (made s') = S k) /\ 
  (forall n, snd (create_from_handle e s id) <> Some (Static n)) /\
  instance e (match map_get reg id with Some h => h | None => None end) (snd (create_from_handle e s id)) (made s').
Proof.
  intros Z. cbn zeta. unfold create_from_handle.
  assert (X : forall t h, settled reg L0 M0 (a ++ [Create id]) t -> made t = made s -> h = match map_get reg id with Some h => h | None => None end ->
    settled reg L0 M0 (a ++ [Create id]) (fst (loadPluginInstance e t h id)) /\
    (forall k, snd (loadPluginInstance e t h id) = Some (Made k) -> k = length (made s) /\ length (made (fst (loadPluginInstance e t h id))) = S k) /\
    (forall n, snd (loadPluginInstance e t h id) <> Some (Static n)) /\
    instance e (match map_get reg id with Some h => h | None => None end) (snd (loadPluginInstance e t h id)) (made (fst (loadPluginInstance e t h id)))).
  { intros t h Zt Em Eh. destruct (instance_ok e t h id) as (p & E & I & Fr & NS & Mk & Er & H1 & H2 & H3 & H4 & H5 & H6).
    assert (Ep : snd (loadPluginInstance e t h id) = p) by (rewrite E; reflexivity). rewrite Ep. split; [apply (settled_ext _ _ _ _ t); auto|].
    split; [intros k Q; destruct (Fr k Q) as (Q1 & Q2); rewrite <- Em; lia|]. split; [exact NS|]. rewrite <- Eh. exact I. }
  destruct (map_get (handles s) id) as [h|] eqn:G.
  - apply X; [apply settled_more; [exact Z|intros id' Q; injection Q as <-; eauto]|reflexivity|].
    destruct (map_get reg id) as [h'|] eqn:R.
    + apply (z_h _ _ _ _ _ Z) in R. congruence.
    + apply (z_h0 _ _ _ _ _ Z id h R G).
  - assert (R : map_get reg id = None) by (destruct (map_get reg id) as [h'|] eqn:R; [apply (z_h _ _ _ _ _ Z) in R; congruence|reflexivity]).
    apply X; [|reflexivity|rewrite R; reflexivity]. destruct Z as [z1 z2 z3 z4 z5 z6 z7 z8 z9 z10].
    constructor; cbn; auto; try (apply map_put_sorted; assumption).
    + intros id' h'; rewrite map_get_put by assumption. destruct (list_eq_dec ascii_dec id' id) as [->|N]; [congruence|]. apply z5.
    + intros id' h'; rewrite map_get_put by assumption. destruct (list_eq_dec ascii_dec id' id) as [->|N].
      * intros _ Q. injection Q as <-. split; [reflexivity|]. apply in_or_app. right. left. reflexivity.
      * intros A B. destruct (z6 _ _ A B). split; [assumption|]. apply in_or_app. auto.
    + intros id' I. setoid_rewrite (map_get_put (handles s) id None id' z3). destruct (list_eq_dec ascii_dec id' id) as [->|N]; [eauto|]. apply in_app_or in I. destruct I as [I|[I|[]]]; [auto|congruence].
    + intros id' p A B. destruct (z9 _ _ A B). split; [assumption|]. apply in_or_app. auto.
Qed.
Lemma settled_step reg L0 M0 e a q s : settled reg L0 M0 a s -> settled reg L0 M0 (a ++ [q]) (fst (call e s q)).
Proof.
  intros Z. assert (Same : (forall id, q <> Create id) -> forall t, handles t = handles s -> loaded t = loaded s -> made t = made s -> initialized t = initialized s -> lazy t = lazy s ->
    settled reg L0 M0 (a ++ [q]) t).
  { intros N t A B C D E. apply settled_more; [|intros id Q; destruct (N id Q)]. apply (settled_ext _ _ _ _ s); auto. exists []. rewrite app_nil_r. exact C. }
  destruct q; cbn [call]; try (apply Same; [discriminate| | | | |]; reflexivity); rewrite ?(query_settled e _ _ _ _ _ _ Z).
  - rewrite (initialize_settled e _ _ _ _ _ _ _ Z). cbn [fst]. apply Same; [discriminate| | | | |]; reflexivity.
  - cbn [fst]. rewrite add_path. apply Same; [discriminate| | | | |]; reflexivity.
  - cbn [fst]. apply Same; [discriminate| | | | |]; reflexivity.
  - cbn [fst]. apply Same; [discriminate| | | | |]; reflexivity.
  - destruct (map_get (statics s) identifier) as [n|]; [cbn [fst]; apply Same; [discriminate| | | | |]; reflexivity|].
    destruct (map_get (loaded s) identifier) as [p|] eqn:G; [cbn [fst]; apply Same; [discriminate| | | | |]; reflexivity|].
    cbn [fst]. assert (R : map_get L0 identifier = None) by (destruct (map_get L0 identifier) as [h'|] eqn:R; [apply (z_l _ _ _ _ _ Z) in R; congruence|reflexivity]).
    destruct Z as [z1 z2 z3 z4 z5 z6 z7 z8 z9 z10].
    constructor; cbn; auto; try (apply map_put_sorted; assumption).
    + intros id h A B. destruct (z6 _ _ A B). split; [assumption|]. apply in_or_app. auto.
    + intros id I. apply in_app_or in I. destruct I as [I|[I|[]]]; [auto|discriminate].
    + intros id p. rewrite map_get_put by assumption. destruct (list_eq_dec ascii_dec id identifier) as [->|N]; [congruence|]. apply z8.
    + intros id p. rewrite map_get_put by assumption. destruct (list_eq_dec ascii_dec id identifier) as [->|N].
      * intros _ Q. injection Q as <-. split; [reflexivity|]. apply in_or_app. right. left. reflexivity.
      * intros A B. destruct (z9 _ _ A B). split; [assumption|]. apply in_or_app. auto.
  - destruct (settled_create _ _ _ _ e s identifier Z) as (A & _). destruct (create_from_handle e s identifier) as (s1, p). exact A.
Qed.
Lemma calls_app e l1 : forall s l2, fst (calls e s (l1 ++ l2)) = fst (calls e (fst (calls e s l1)) l2).
Proof.
  induction l1 as [|o l1 IH]; intros s l2; cbn [app calls]; [reflexivity|]. destruct (call e s o) as (s1, r1). specialize (IH s1 l2).
  destruct (calls e s1 (l1 ++ l2)) as (s2, r2), (calls e s1 l1) as (s3, r3). exact IH.
Qed.
Lemma calls_one e s q : fst (calls e s [q]) = fst (call e s q).
Proof. cbn. destruct (call e s q). reflexivity. Qed.
Lemma settled_calls reg L0 M0 e b : forall a s, settled reg L0 M0 a s -> settled reg L0 M0 (a ++ b) (fst (calls e s b)).
Proof.
  induction b as [|q b IH] using rev_ind; intros a s Z.
  - rewrite app_nil_r. exact Z.
  - rewrite calls_app, calls_one, app_assoc. apply settled_step. apply IH. exact Z.
Qed.

(* ---- lazy loading ---- *)
Definition force (e : env) (s : pm) : pm := if lazy s then loadPlugins e s else s.
Lemma load_paths e x keys : forall s, load_loop e keys (set_paths s x) = set_paths (load_loop e keys s) x.
Proof.
  induction keys as [|id keys IH]; intros s; cbn [load_loop]; [reflexivity|]. change (loaded (set_paths s x)) with (loaded s).
  destruct (map_get (loaded s) id); [apply IH|].
  assert (C : create_from_handle e (set_paths s x) id = (set_paths (fst (create_from_handle e s id)) x, snd (create_from_handle e s id))).
  { unfold create_from_handle. cbn [handles set_paths]. destruct (map_get (handles s) id) as [[f|]|]; try reflexivity.
    unfold loadPluginInstance. destruct (libs e f) as [l|]; [destruct (l_load l) as [[|]|]|]; reflexivity. }
  rewrite C. destruct (create_from_handle e s id) as (s1, p). cbn [fst snd]. rewrite <- IH. reflexivity.
Qed.
Lemma load_statics e x keys : forall s, load_loop e keys (set_statics s x) = set_statics (load_loop e keys s) x.
Proof.
  induction keys as [|id keys IH]; intros s; cbn [load_loop]; [reflexivity|]. change (loaded (set_statics s x)) with (loaded s).
  destruct (map_get (loaded s) id); [apply IH|].
  assert (C : create_from_handle e (set_statics s x) id = (set_statics (fst (create_from_handle e s id)) x, snd (create_from_handle e s id))).
  { unfold create_from_handle. cbn [handles set_statics]. destruct (map_get (handles s) id) as [[f|]|]; try reflexivity.
    unfold loadPluginInstance. destruct (libs e f) as [l|]; [destruct (l_load l) as [[|]|]|]; reflexivity. }
  rewrite C. destruct (create_from_handle e s id) as (s1, p). cbn [fst snd]. rewrite <- IH. reflexivity.
Qed.
Lemma loop_keeps e keys : forall s, statics (load_loop e keys s) = statics s /\ paths (load_loop e keys s) = paths s /\ lazy (load_loop e keys s) = lazy s /\ initialized (load_loop e keys s) = initialized s.
Proof.
  induction keys as [|id keys IH]; intros s; cbn [load_loop]; [auto|]. destruct (map_get (loaded s) id); [apply IH|].
  assert (C : let s' := fst (create_from_handle e s id) in statics s' = statics s /\ paths s' = paths s /\ lazy s' = lazy s /\ initialized s' = initialized s).
  { unfold create_from_handle. destruct (map_get (handles s) id) as [[f|]|]; try (cbn; auto; fail).
    unfold loadPluginInstance. destruct (libs e f) as [l|]; [destruct (l_load l) as [[|]|]|]; cbn; auto. }
  destruct (create_from_handle e s id) as (s1, p). cbn zeta in C. cbn [fst] in C. destruct (IH (set_loaded s1 (map_put (loaded s1) id p))) as (A & B & D & E).
  cbn in A, B, D, E. destruct C as (C1 & C2 & C3 & C4). repeat split; congruence.
Qed.
Lemma force_keeps e s : statics (force e s) = statics s /\ paths (force e s) = paths s /\ lazy (force e s) = false /\ initialized (force e s) = initialized s.
Proof.
  unfold force. destruct (lazy s) eqn:L; [|auto]. unfold loadPlugins. destruct (loop_keeps e (map fst (handles s)) (set_lazy s false)) as (A & B & C & D). auto.
Qed.
Lemma force_paths e s x : force e (set_paths s x) = set_paths (force e s) x.
Proof.
  unfold force. cbn [lazy set_paths]. destruct (lazy s) eqn:L; [|reflexivity]. unfold loadPlugins. cbn [handles set_paths]. rewrite <- load_paths. reflexivity.
Qed.
Lemma force_statics e s x : force e (set_statics s x) = set_statics (force e s) x.
Proof.
  unfold force. cbn [lazy set_statics]. destruct (lazy s) eqn:L; [|reflexivity]. unfold loadPlugins. cbn [handles set_statics]. rewrite <- load_statics. reflexivity.
Qed.
Lemma force_idle e s : lazy s = false -> force e s = s.
Proof. unfold force. intros ->. reflexivity. Qed.
Lemma call_lazy_false e s q : initialized s = true -> lazy s = false -> lazy (fst (call e s q)) = false /\ initialized (fst (call e s q)) = true.
Proof.
  intros I L. assert (P : prepare e s = (s, true)) by (unfold prepare; rewrite I, L; reflexivity).
  destruct q; cbn [call]; unfold query; rewrite ?P; try (cbn; auto; fail).
  - unfold initialize. rewrite I, L. cbn. auto.
  - cbn [fst]. rewrite add_path. cbn. auto.
  - destruct (map_get (statics s) identifier); [auto|]. destruct (map_get (loaded s) identifier); auto.
  - unfold create_from_handle. destruct (map_get (handles s) identifier) as [[f|]|]; try (cbn; auto; fail).
    unfold loadPluginInstance. destruct (libs e f) as [l|]; [destruct (l_load l) as [[|]|]|]; cbn; auto.
Qed.
Lemma force_call e s q : initialized s = true ->
  force e (fst (call e s q)) = fst (call e (force e s) q) /\ (q <> Errors -> snd (call e s q) = snd (call e (force e s) q)) /\ initialized (fst (call e s q)) = true.
Proof.
  intros I. destruct (lazy s) eqn:L.
  - assert (P : prepare e s = (force e s, true)) by (unfold prepare, force; rewrite I, L; reflexivity).
    destruct (force_keeps e s) as (K1 & K2 & K3 & K4).
    assert (P' : prepare e (force e s) = (force e s, true)) by (unfold prepare; rewrite K4, I, K3; reflexivity).
    assert (Q : forall f, (forall t, lazy t = false -> lazy (fst (f t)) = false) -> (forall t, initialized t = true -> initialized (fst (f t)) = true) ->
      force e (fst (query e s f)) = fst (query e (force e s) f) /\ (q <> Errors -> snd (query e s f) = snd (query e (force e s) f)) /\ initialized (fst (query e s f)) = true).
    { intros f Hf1 Hf2. unfold query. rewrite P, P'. split; [apply force_idle; apply Hf1; exact K3|]. split; [reflexivity|]. apply Hf2. congruence. }
    destruct q; cbn [call]; try (apply Q; [intros t Ht|intros t Ht]; exact Ht).
    + unfold initialize. rewrite I, L, K4, I, K3. cbn [andb]. destruct load_lazy; cbn [negb fst snd]; [auto|].
      assert (loadPlugins e s = force e s) as -> by (unfold force; rewrite L; reflexivity). split; [apply force_idle; exact K3|]. split; [reflexivity|congruence].
    + cbn [fst snd]. rewrite !add_path, force_paths, K2. auto.
    + cbn [fst snd]. rewrite K2. auto.
    + cbn [fst snd]. split; [reflexivity|]. split; [congruence|exact I].
    + apply Q; intros t Ht; (destruct (map_get (statics t) identifier); [auto|]; destruct (map_get (loaded t) identifier); auto).
    + apply Q; intros t Ht; unfold create_from_handle; (destruct (map_get (handles t) identifier) as [[f|]|]; try (cbn; auto; fail);
      unfold loadPluginInstance; destruct (libs e f) as [l|]; [destruct (l_load l) as [[|]|]|]; cbn; auto).
    + cbn [fst snd]. rewrite force_statics, K1. auto.
    + cbn [fst snd]. rewrite force_statics, K1. auto.
    + cbn [fst snd]. rewrite K1. auto.
  - rewrite (force_idle e s L). destruct (call_lazy_false e s q I L) as (A & B). rewrite (force_idle e _ A). auto.
Qed.
Lemma force_calls e l : forall s, initialized s = true -> force e (fst (calls e s l)) = fst (calls e (force e s) l) /\ initialized (fst (calls e s l)) = true.
Proof.
  induction l as [|q l IH] using rev_ind; intros s I; [auto|]. rewrite !calls_app, !calls_one. destruct (IH s I) as (A & B).
  destruct (force_call e _ q B) as (C & _ & D). rewrite <- A. auto.
Qed.
Lemma query_force e s f : initialized s = true -> query e s f = query e (force e s) f.
Proof.
  intros I. destruct (force_keeps e s) as (K1 & K2 & K3 & K4). unfold query, prepare. rewrite K4, I, K3. reflexivity.
Qed.
Lemma call_force e s q : initialized s = true -> (exists id, q = Plugin id \/ q = Create id) -> call e s q = call e (force e s) q.
Proof. intros I (id & [-> | ->]); cbn [call]; apply query_force; exact I. Qed.

(* ---- static plugins ---- *)
Lemma fold_keeps e files : forall s, same_rest s (fold_left (loadHandle e) files s).
Proof.
  induction files as [|f files IH]; intros s; cbn [fold_left]; [repeat split|]. specialize (IH (loadHandle e s f)).
  assert (same_rest s (loadHandle e s f)) as H.
  { destruct (handle_case e s f) as [(id & h & _ & ->)|[(_ & _ & ->)|(_ & _ & ->)]]; repeat split. }
  unfold same_rest in *. destruct IH as (a1 & a2 & a3 & a4 & a5 & a6), H as (b1 & b2 & b3 & b4 & b5 & b6). repeat split; congruence.
Qed.
Lemma init_keeps e r s : statics (fst (initializePlugins e r s)) = statics s /\ paths (fst (initializePlugins e r s)) = paths s.
Proof.
  unfold initializePlugins. destruct (visits_total e r (paths s)) as (files & ok & V). rewrite (read_fold _ _ _ _ _ V). cbn [fst].
  destruct (fold_keeps e files (set_initialized (set_errors s []) true)) as (a1 & a2 & a3 & a4 & a5 & a6). auto.
Qed.
Lemma initialize_keeps e ll r s : statics (fst (initialize e ll r s)) = statics s /\ paths (fst (initialize e ll r s)) = paths s.
Proof.
  unfold initialize, loadPlugins. destruct (initialized s && lazy s && negb ll).
  - cbn [fst]. destruct (loop_keeps e (map fst (handles s)) (set_lazy s false)) as (A & B & _). auto.
  - destruct (initialized s); [auto|]. destruct (init_keeps e r s) as (A & B). destruct (initializePlugins e r s) as (s1, ok). cbn [fst] in A, B.
    destruct ok; [|auto]. destruct ll; cbn [fst]; [auto|].
    destruct (loop_keeps e (map fst (handles s1)) (set_lazy s1 false)) as (A' & B' & _). cbn in A', B'. split; congruence.
Qed.
Lemma prepare_keeps e s : statics (fst (prepare e s)) = statics s /\ paths (fst (prepare e s)) = paths s.
Proof.
  unfold prepare. set (x := if initialized s then (s, true) else initialize e false false s).
  assert (H : statics (fst x) = statics s /\ paths (fst x) = paths s) by (subst x; destruct (initialized s); [auto|apply initialize_keeps]).
  destruct x as (s1, ok). cbn [fst] in H. destruct ok; [|exact H]. destruct (lazy s1) eqn:L; [|exact H]. cbn [fst].
  destruct (force_keeps e s1) as (A & B & _). unfold force in A, B. rewrite L in A, B. destruct H. split; congruence.
Qed.
Lemma call_statics e s q :
  paths (fst (call e s q)) = (match q with AddPath p => paths s ++ path1 p | _ => paths s end) /\
  statics (fst (call e s q)) = match q with
  | AddStatic n => map_put (filter (fun kv => negb (str_is (fst kv) (static_id e n))) (statics s)) (static_id e n) n
  | RemoveStatic id => filter (fun kv => negb (str_is (fst kv) id)) (statics s)
  | _ => statics s end.
Proof.
  assert (Q : forall f, (forall t, statics (fst (f t)) = statics t /\ paths (fst (f t)) = paths t) -> paths (fst (query e s f)) = paths s /\ statics (fst (query e s f)) = statics s).
  { intros f H. unfold query. destruct (prepare_keeps e s) as (A & B). destruct (prepare e s) as (s1, ok). cbn [fst] in A, B. destruct ok; [|auto]. destruct (H s1). split; congruence. }
  destruct q; cbn [call]; try (apply Q; intros t; split; reflexivity); try (split; reflexivity).
  - destruct (initialize_keeps e load_lazy recursive s). destruct (initialize e load_lazy recursive s). auto.
  - cbn [fst]. rewrite add_path. auto.
  - apply Q. intros t. destruct (map_get (statics t) identifier); [auto|]. destruct (map_get (loaded t) identifier); auto.
  - apply Q. intros t. unfold create_from_handle. destruct (map_get (handles t) identifier) as [[f|]|]; try (cbn; auto; fail).
    unfold loadPluginInstance. destruct (libs e f) as [l|]; [destruct (l_load l) as [[|]|]|]; cbn; auto.
Qed.
Lemma static_snoc e l q id n : static_now e (l ++ [q]) id n <->
  (q = AddStatic n /\ static_id e n = id) \/ (static_now e l id n /\ q <> RemoveStatic id /\ forall m, q = AddStatic m -> static_id e m <> id).
Proof.
  split.
  - intros (a & b & E & I & N). destruct b as [|b0 b] using rev_ind.
    + apply app_inj_tail in E. destruct E as (-> & ->). left. auto.
    + clear IHb. change (AddStatic n :: b ++ [b0]) with ((AddStatic n :: b) ++ [b0]) in E. rewrite app_assoc in E. apply app_inj_tail in E. destruct E as (-> & ->).
      right. split; [exists a, b; split; [reflexivity|]; split; [exact I|]; intros o Ho; apply N; apply in_or_app; auto|]. apply N. apply in_or_app. right. left. reflexivity.
  - intros [(-> & I)|((a & b & -> & I & N) & N1 & N2)].
    + exists l, []. split; [reflexivity|]. split; [exact I|]. intros o [].
    + exists a, (b ++ [q]). split; [rewrite <- app_assoc; reflexivity|]. split; [exact I|]. intros o Ho. apply in_app_or in Ho. destruct Ho as [Ho|[<-|[]]]; auto.
Qed.
Lemma statics_ok e dir l : let s := fst (calls e (new_manager dir) l) in
  sorted (statics s) /\ (forall id n, map_get (statics s) id = Some n <-> static_now e l id n) /\ paths s = path_list dir l.
Proof.
  cbn zeta. induction l as [|q l (IH1 & IH2 & IH3)] using rev_ind.
  - cbn [calls fst]. destruct (new_ok dir) as (V & P). split; [apply V|]. split; [|rewrite P; unfold path1; cbn [path_list]; rewrite app_nil_r; reflexivity].
    intros id n. unfold new_manager. rewrite add_path. cbn. split; [discriminate|]. intros (a & b & E & _). destruct a; discriminate.
  - rewrite calls_app, calls_one. set (s := fst (calls e (new_manager dir) l)) in *. destruct (call_statics e s q) as (Pq & Sq). rewrite Pq, Sq.
    assert (PL : forall l dir q, path_list dir (l ++ [q]) = path_list dir l ++ match q with AddPath p => path1 p | _ => [] end).
    { clear. induction l as [|o l IH]; intros dir q.
      - cbn [app]. rewrite path_list_cons. cbn [path_list]. rewrite app_nil_r. unfold path1. destruct q; cbn [path_list]; rewrite ?app_nil_r; reflexivity.
      - cbn [app]. rewrite !path_list_cons, IH, app_assoc. reflexivity. }
    rewrite PL, <- IH3.
    assert (Pth : match q with AddPath p => paths s ++ path1 p | _ => paths s end = paths s ++ match q with AddPath p => path1 p | _ => [] end) by (destruct q; rewrite ?app_nil_r; reflexivity).
    assert (Rest : (forall n, q <> AddStatic n) -> (forall id, q <> RemoveStatic id) -> forall id n, map_get (statics s) id = Some n <-> static_now e (l ++ [q]) id n).
    { intros N1 N2 id n. rewrite IH2, static_snoc. split; [intros H; right; split; [exact H|]; split; [apply N2|]; intros m Hm; destruct (N1 _ Hm)|].
      intros [(H & _)|(H & _)]; [destruct (N1 _ H)|exact H]. }
    destruct q; try (split; [exact IH1|]; split; [apply Rest; discriminate|exact Pth]).
    + destruct (map_get_filter (statics s) (static_id e n) IH1) as (F1 & F2).
      split; [apply map_put_sorted; exact F1|]. split; [|exact Pth]. intros id m. rewrite map_get_put by exact F1. rewrite static_snoc, F2, <- IH2.
      destruct (list_eq_dec ascii_dec id (static_id e n)) as [->|N].
      * split; [intros Q; injection Q as <-; left; auto|]. intros [(Q & _)|(_ & _ & Q)]; [injection Q as ->; reflexivity|]. destruct (Q n eq_refl eq_refl).
      * split; [intros Q; right; split; [exact Q|]; split; [discriminate|]; intros m' Q'; injection Q' as <-; congruence|].
        intros [(Q & Q')|(Q & _)]; [injection Q as ->; congruence|exact Q].
    + destruct (map_get_filter (statics s) identifier IH1) as (F1 & F2). split; [exact F1|]. split; [|exact Pth]. intros id m. rewrite static_snoc, F2, <- IH2.
      destruct (list_eq_dec ascii_dec id identifier) as [->|N].
      * split; [discriminate|]. intros [(Q & _)|(_ & Q & _)]; [discriminate|congruence].
      * split; [intros Q; right; split; [exact Q|]; split; [congruence|discriminate]|]. intros [(Q & _)|(Q & _)]; [discriminate|exact Q].
Qed.

(* ---- messages ---- *)
Definition complaint (e : env) (id : str) (h : option str) : list message :=
  match h with
  | None => []
  | Some f => match libs e f with Some l => match l_load l with None => [CannotLoad id] | Some MakesNull => [CannotCast id] | Some Makes => [] end | None => [] end
  end.
Lemma complaint_iff e id h m : In m (complaint e id h) <-> exists f, h = Some f /\ complains e id f m.
Proof.
  unfold complaint. destruct h as [f|]; [|split; [intros []|intros (f & Q & _); discriminate]].
  split.
  - destruct (libs e f) as [l|] eqn:E; [|intros []]. destruct (l_load l) as [[|]|] eqn:L; intros I; try destruct I as [<-|[]]; try destruct I; exists f; split; auto; [eapply C_cast|eapply C_load]; eauto.
  - intros (f' & Q & C). injection Q as <-. destruct C as [l E L|l E L]; rewrite E, L; left; reflexivity.
Qed.
Lemma complaint_short e id h : complaint e id h = [] \/ exists m, complaint e id h = [m].
Proof. unfold complaint. destruct h as [f|]; [|auto]. destruct (libs e f) as [l|]; [destruct (l_load l) as [[|]|]|]; eauto. Qed.
Lemma instance_errors e s h id : errors (fst (loadPluginInstance e s h id)) = errors s ++ complaint e id h.
Proof.
  unfold loadPluginInstance, complaint. destruct h as [f|]; [|cbn; rewrite app_nil_r; reflexivity].
  destruct (libs e f) as [l|]; [destruct (l_load l) as [[|]|]|]; cbn; rewrite ?app_nil_r; reflexivity.
Qed.
Definition load_list (e : env) (reg : list (str * option str)) : list (str * message) :=
  flat_map (fun kv => map (fun m => (fst kv, m)) (complaint e (fst kv) (snd kv))) reg.
Lemma load_errors e reg : forall s, NoDup (map fst reg) -> (forall id h, In (id, h) reg -> map_get (handles s) id = Some h /\ map_get (loaded s) id = None) -> sorted (loaded s) ->
  errors (load_loop e (map fst reg) s) = errors s ++ map snd (load_list e reg).
Proof.
  induction reg as [|(id, h) reg IH]; intros s ND H Sl; cbn [map fst load_loop]; [cbn; rewrite app_nil_r; reflexivity|].
  inversion ND as [|? ? N1 N2]; subst. destruct (H id h (or_introl eq_refl)) as (H1 & H2). rewrite H2. unfold create_from_handle. rewrite H1.
  destruct (instance_ok e s h id) as (p & E & _ & _ & _ & _ & _ & K1 & K2 & _). rewrite E. set (s1 := fst (loadPluginInstance e s h id)) in *.
  rewrite IH; [|exact N2| |cbn; apply map_put_sorted; rewrite K2; exact Sl].
  - cbn [errors set_loaded load_list flat_map fst snd]. unfold s1. rewrite instance_errors. fold (load_list e reg). rewrite map_app, map_map, map_id, <- app_assoc. reflexivity.
  - intros id' h' I. cbn. rewrite K1, K2, map_get_put by exact Sl. destruct (H id' h' (or_intror I)) as (A & B). split; [exact A|].
    destruct (list_eq_dec ascii_dec id' id) as [->|N]; [|exact B]. exfalso. apply N1. apply in_map_iff. exists (id, h'). auto.
Qed.
Lemma load_messages_ok e files reg : sorted reg -> (forall id h, found e files id h <-> map_get reg id = Some h) -> load_messages e files (map snd (load_list e reg)).
Proof.
  intros Sr Rg. exists (load_list e reg). split; [reflexivity|].
  assert (In1 : forall id m, In (id, m) (load_list e reg) <-> exists h, In (id, h) reg /\ In m (complaint e id h)).
  { intros id m. unfold load_list. rewrite in_flat_map. split.
    - intros ((id', h) & I & J). cbn [fst snd] in J. apply in_map_iff in J. destruct J as (m' & Q & J). injection Q as -> ->. eauto.
    - intros (h & I & J). exists (id, h). split; [exact I|]. cbn [fst snd]. apply in_map_iff. eauto. }
  split.
  - clear Rg. induction Sr as [|k v r Sr IH L]; [constructor|]. unfold load_list. cbn [flat_map fst snd]. fold (load_list e r).
    assert (IH' : ascending (map fst (load_list e r))).
    { apply IH. clear - Sr. intros id m. unfold load_list. rewrite in_flat_map. split.
      - intros ((id', h) & I & J). cbn [fst snd] in J. apply in_map_iff in J. destruct J as (m' & Q & J). injection Q as -> ->. eauto.
      - intros (h & I & J). exists (id, h). split; [exact I|]. cbn [fst snd]. apply in_map_iff. eauto. }
    destruct (complaint_short e k v) as [->|(m & ->)]; cbn [map app fst]; [exact IH'|]. constructor; [exact IH'|]. intros y I. apply in_map_iff in I. destruct I as ((y', m') & <- & I).
    unfold load_list in I. apply in_flat_map in I. destruct I as ((id', h) & I & J). cbn [fst snd] in J. apply in_map_iff in J. destruct J as (m'' & Q & _). injection Q as -> ->. cbn [fst]. exact (L _ _ I).
  - intros id m. rewrite In1. split.
    + intros (h & I & J). apply complaint_iff in J. destruct J as (f & -> & C). exists f. split; [|exact C]. apply Rg. apply map_get_in; auto.
    + intros (f & F & C). apply Rg in F. exists (Some f). split; [apply map_get_in; auto|]. apply complaint_iff. eauto.
Qed.
Lemma search_ok e files : search_messages e files (map CannotOpen (filter (no_plugin_b e) files)).
Proof.
  induction files as [|f fs IH]; [constructor|]. cbn [filter]. destruct (no_plugin_b e f) eqn:Q; cbn [map].
  - apply SM_miss; [apply no_plugin_iff; exact Q|exact IH].
  - apply SM_ok; [intros K; apply no_plugin_iff in K; congruence|exact IH].
Qed.

(* ---- the start ---- *)
Record start_state (e : env) (files : list str) (ok : bool) (reg : list (str * option str)) (s : pm) : Prop := mkSS {
  ss_settled : settled reg (loaded s) (made s) [] s;
  ss_reg : forall id h, found e files id h <-> map_get reg id = Some h;
  ss_sorted : sorted reg;
  ss_obj : ok = true -> forall id h, map_get reg id = Some h -> exists p, map_get (loaded s) id = Some p /\ instance e h p (made s);
  ss_none : forall id, (ok = false \/ map_get reg id = None) -> map_get (loaded s) id = None;
  ss_dist : forall id id' k, map_get (loaded s) id = Some (Some (Made k)) -> map_get (loaded s) id' = Some (Some (Made k)) -> id = id';
  ss_nostat : forall id n, map_get (loaded s) id <> Some (Some (Static n));
  ss_bound : forall id k, map_get (loaded s) id = Some (Some (Made k)) -> k < length (made s);
  ss_errors : errors s = map CannotOpen (filter (no_plugin_b e) files) ++ if ok then map snd (load_list e reg) else []
}.
Lemma start_ok e dir l0 o files ok : started e dir l0 o files ok ->
  exists reg sL, start_state e files ok reg sL /\
  forall l a q, point l0 o ok l a q ->
    let s := fst (calls e (new_manager dir) l) in let t := fst (calls e sL a) in
    force e (fst (call e s q)) = fst (call e t q) /\ (q <> Errors -> snd (call e s q) = snd (call e t q)) /\
    ((exists id, q = Plugin id \/ q = Create id) -> call e s q = call e t q) /\ statics t = statics s.
Proof.
  intros (B & r & St & V). destruct (new_ok dir) as (V0 & P0). destruct (before_ok e l0 _ V0 B) as (V1 & P1). rewrite P0 in P1.
  rewrite path_list_dir, <- P1 in V. set (s0 := fst (calls e (new_manager dir) l0)) in *. destruct V1 as (v1 & v2 & v3 & v4 & v5 & v6 & v7).
  set (s1 := fold_left (loadHandle e) files (set_initialized (set_errors s0 []) true)).
  assert (E1 : initializePlugins e r s0 = (s1, ok)) by (unfold initializePlugins; apply read_fold; exact V).
  assert (X : sorted (handles (set_initialized (set_errors s0 []) true))) by (cbn; rewrite v2; constructor).
  destruct (files_ok e files _ X) as (S1 & (c1 & c2 & c3 & c4 & c5 & c6) & c7 & G). cbn [set_initialized set_errors errors app] in c7. fold s1 in S1, c1, c2, c3, c4, c5, c6, c7, G. cbn in c1, c2, c3, c4, c5, c6.
  assert (Gr : forall id h, found e files id h <-> map_get (handles s1) id = Some h).
  { intros id h. destruct (G id) as (_ & [(h' & F1 & F2)|(F1 & F2)]).
    - rewrite F2. split; [|intros Q; injection Q as <-; exact F1]. intros F3. f_equal.
      destruct F1 as (a1 & f1 & b1 & E' & O1 & N1), F3 as (a2 & f2 & b2 & E2 & O2 & N2). rewrite E' in E2.
      assert (D : f1 = f2).
      { clear - E2 O1 N1 O2 N2. revert a2 E2. induction a1 as [|x a1 IH]; intros [|y a2] E2.
        - injection E2 as -> _. reflexivity.
        - injection E2 as -> ->. exfalso. apply (N1 f2 h); [apply in_or_app; right; left; reflexivity|exact O2].
        - injection E2 as <- <-. exfalso. apply (N2 f1 h'); [apply in_or_app; right; left; reflexivity|exact O1].
        - injection E2 as _ E2. exact (IH _ E2). }
      subst f2. exact (proj1 (offers_fun _ _ _ _ _ _ O1 O2)).
    - rewrite F2. cbn. rewrite v2. cbn. split; [intros F3; destruct (F1 _ F3)|discriminate]. }
  destruct ok.
  - assert (I1 : initialized s1 = true) by exact c3. assert (L1 : loaded s1 = []) by congruence. assert (Ss : sorted (statics s1)) by (rewrite c2; exact v7).
    destruct (loadPlugins_loading e s1 I1 L1 S1 Ss) as (G1 & G2 & G3). set (sL := loadPlugins e s1) in *.
    assert (Z : settled (handles s1) (loaded sL) (made sL) [] sL).
    { destruct G1 as [g1 g2 g3 g4 g5 g6 g7 g8 g9 g10 g11]. constructor; auto.
      - rewrite g3. exact S1.
      - intros id h Q. rewrite g3. exact Q.
      - intros id h Q Q'. rewrite g3 in Q'. congruence.
      - intros id [].
      - intros id p Q Q'. congruence.
      - exists []. rewrite app_nil_r. reflexivity. }
    exists (handles s1), sL. split.
    { constructor; auto.
      - intros _ id h Q. exact (g_l _ _ _ _ G1 id h Q (fun x => x)).
      - intros id [Q|Q]; [discriminate|]. exact (g_l0 _ _ _ _ G1 id Q).
      - apply (g_dist _ _ _ _ G1).
      - apply (g_nostat _ _ _ _ G1).
      - apply (g_bound _ _ _ _ G1).
      - unfold sL, loadPlugins. rewrite (load_errors e (handles s1)); [cbn; rewrite c7; reflexivity|apply asc_nodup; apply sorted_keys; exact S1| |cbn; rewrite L1; constructor].
        intros id h I. cbn. rewrite L1. split; [apply map_get_in; auto|reflexivity]. }
    (* the first call *)
    assert (First : force e (fst (call e s0 o)) = fst (call e sL o) /\ snd (call e s0 o) = snd (call e sL o) /\ 
      ((exists id, o = Plugin id \/ o = Create id) -> call e s0 o = call e sL o) /\ initialized (fst (call e s0 o)) = true).
    { assert (Pr : r = false -> prepare e s0 = (sL, true)).
      { intros ->. unfold prepare, initialize. rewrite v3. cbn [andb]. rewrite E1. fold sL. rewrite (z_lazy _ _ _ _ _ Z). reflexivity. }
      assert (Qu : forall f, r = false -> query e s0 f = query e sL f) by (intros f Hr; unfold query; rewrite (Pr Hr), (prepare_settled e _ _ _ _ _ Z); reflexivity).
      assert (Qall : (forall ll r', o <> Initialize ll r') -> call e s0 o = call e sL o ->  force e (fst (call e s0 o)) = fst (call e sL o) /\ snd (call e s0 o) = snd (call e sL o) /\ 
        ((exists id, o = Plugin id \/ o = Create id) -> call e s0 o = call e sL o) /\ initialized (fst (call e s0 o)) = true).
      { intros _ ->. pose proof (settled_step _ _ _ e [] o sL Z) as Z'. split; [apply force_idle; apply (z_lazy _ _ _ _ _ Z')|]. split; [reflexivity|]. split; [reflexivity|]. apply (z_init _ _ _ _ _ Z'). }
      destruct o; cbn [starts] in St; try discriminate; injection St as <-.
      - cbn [call]. rewrite (initialize_settled e _ _ _ _ _ load_lazy recursive Z). unfold initialize. rewrite v3. cbn [andb]. rewrite E1.
        destruct load_lazy; cbn [fst snd].
        + split; [unfold force; cbn [lazy set_lazy]; unfold sL, loadPlugins; reflexivity|]. split; [reflexivity|]. split; [intros (id & [Q|Q]); discriminate|exact c3].
        + fold sL. split; [apply force_idle; apply (z_lazy _ _ _ _ _ Z)|]. split; [reflexivity|]. split; [intros (id & [Q|Q]); discriminate|apply (z_init _ _ _ _ _ Z)].
      - apply Qall; [discriminate|]. apply Qu. reflexivity.
      - apply Qall; [discriminate|]. apply Qu. reflexivity.
      - apply Qall; [discriminate|]. apply Qu. reflexivity.
      - apply Qall; [discriminate|]. apply Qu. reflexivity. }
    destruct First as (F1 & F2 & F3 & F4).
    intros l a q P. inversion P as [P1' P2' P3' P4'|l' q' P1' P2' P3' P4'|]; subst; cbn zeta.
    + fold s0. cbn [calls fst]. split; [exact F1|]. split; [intros _; exact F2|]. split; [exact F3|]. congruence.
    + rewrite calls_app. fold s0. change (o :: l') with ([o] ++ l'). rewrite !calls_app, !calls_one.
      destruct (force_calls e l' _ F4) as (H1 & H2). rewrite <- F1, <- H1. destruct (force_call e _ q H2) as (J1 & J2 & J3). split; [exact J1|]. split; [exact J2|].
      split; [apply call_force; exact H2|]. apply (force_keeps e).
  - assert (Z : settled (handles s1) [] [] [] s1).
    { constructor; auto; try congruence.
      - rewrite c1, v1. constructor.
      - intros id [].
      - exists []. rewrite c6, v6. reflexivity. }
    exists (handles s1), s1. split.
    { assert (loaded s1 = [] /\ made s1 = []) as (Q1 & Q2) by (split; congruence). constructor; rewrite ?Q1, ?Q2; auto; try discriminate. rewrite app_nil_r. exact c7. }
    assert (First : fst (call e s0 o) = s1).
    { assert (Pr : r = false -> prepare e s0 = (s1, false)) by (intros ->; unfold prepare, initialize; rewrite v3; cbn [andb]; rewrite E1; reflexivity).
      destruct o; cbn [starts] in St; try discriminate; injection St as <-; cbn [call]; unfold query; rewrite ?Pr by reflexivity; try reflexivity.
      unfold initialize. rewrite v3. cbn [andb]. rewrite E1. reflexivity. }
    intros l a q P. inversion P as [| |l' q' P1' P2' P3' P4']; subst; cbn zeta. rewrite calls_app. fold s0. change (o :: a) with ([o] ++ a).
    rewrite calls_app, calls_one, First. pose proof (settled_calls _ _ _ e a [] s1 Z) as Za. cbn [app] in Za.
    pose proof (settled_step _ _ _ e a q _ Za) as Zq. split; [apply force_idle; apply (z_lazy _ _ _ _ _ Zq)|]. auto.
Qed.
Lemma behaves_ok e dir l0 o files ok : started e dir l0 o files ok -> exists obj, behaves e dir l0 o files ok obj.
Proof.
  intros St. destruct (start_ok _ _ _ _ _ _ St) as (reg & sL & SS & Run). destruct SS as [Z Rg Sr So Sn Sd Sns Sb Se].
  set (obj := fun id => match map_get (loaded sL) id with Some (Some (Made k)) => Some k | _ => None end).
  assert (Zc : forall a, settled reg (loaded sL) (made sL) a (fst (calls e sL a))) by (intros a; exact (settled_calls _ _ _ e a [] sL Z)).
  assert (Objl : forall id k, obj id = Some k <-> map_get (loaded sL) id = Some (Some (Made k))).
  { intros id k. unfold obj. destruct (map_get (loaded sL) id) as [[[m|m]|]|]; split; intros Q; try discriminate; try congruence. }
  assert (Objo : forall id p, map_get (loaded sL) id = Some p -> p = option_map Made (obj id)).
  { intros id p Q. unfold obj. rewrite Q. destruct p as [[m|m]|]; [reflexivity| |reflexivity]. destruct (Sns _ _ Q). }
  assert (Ob : forall id, (exists k, obj id = Some k) <-> ok = true /\ exists f, found e files id (Some f) /\ makes e f).
  { intros id. setoid_rewrite Objl. split.
    - intros (k & Q). destruct ok; [|rewrite (Sn id (or_introl eq_refl)) in Q; discriminate]. split; [reflexivity|].
      destruct (map_get reg id) as [h|] eqn:R; [|rewrite (Sn id (or_intror R)) in Q; discriminate]. destruct (So eq_refl id h R) as (p & P1 & P2).
      assert (p = Some (Made k)) by congruence. subst p. destruct h as [f|]; [|discriminate]. exists f. split; [apply Rg; exact R|]. destruct P2 as [(M & _)|(_ & X)]; [exact M|discriminate].
    - intros (-> & f & F & M). apply Rg in F. destruct (So eq_refl id _ F) as (p & P1 & P2). destruct P2 as [(_ & k & -> & _)|(N & _)]; [eauto|contradiction]. }
  assert (Lib : forall id k f, obj id = Some k -> found e files id (Some f) -> nth_error (made sL) k = Some f).
  { intros id k f Q F. apply Rg in F. apply Objl in Q. destruct ok; [|rewrite (Sn id (or_introl eq_refl)) in Q; discriminate].
    destruct (So eq_refl id _ F) as (p & P1 & P2). assert (p = Some (Made k)) by congruence. subst p. destruct P2 as [(_ & k' & K & N)|(_ & X)]; [|discriminate]. injection K as ->. exact N. }
  assert (After : forall l q s, s = fst (calls e (new_manager dir) l) -> fst (calls e (new_manager dir) (l ++ [q])) = fst (call e s q)).
  { intros l q s ->. rewrite calls_app, calls_one. reflexivity. }
  assert (Cr : forall a id, let t := fst (calls e sL a) in call e t (Create id) = (fst (create_from_handle e t id), Pointer (snd (create_from_handle e t id)))).
  { intros a id. cbn zeta. cbn [call]. rewrite (query_settled e _ _ _ _ _ _ (Zc a)). destruct (create_from_handle e (fst (calls e sL a)) id). reflexivity. }
  assert (Mono : forall x y, exists m, made (fst (calls e sL (x ++ y))) = made (fst (calls e sL x)) ++ m).
  { intros x y. rewrite calls_app. set (t := fst (calls e sL x)). pose proof (Zc x) as Zx. fold t in Zx.
    assert (Zt : settled reg (loaded sL) (made t) x t).
    { destruct Zx as [z1 z2 z3 z4 z5 z6 z7 z8 z9 z10]. constructor; auto. exists []. rewrite app_nil_r. reflexivity. }
    exact (z_m _ _ _ _ _ (settled_calls _ _ _ e y x t Zt)). }
  exists obj. constructor.
  - exact Ob.
  - intros id id' k A B. apply Objl in A, B. exact (Sd _ _ _ A B).
  - intros l a id P. destruct (Run _ _ _ P) as (R1 & R2 & R3 & R4). cbn zeta in *. specialize (R3 (ex_intro _ id (or_introl eq_refl))).
    destruct (statics_ok e dir l) as (T1 & T2 & _). cbn zeta in T1, T2. unfold answer. rewrite (R2 ltac:(discriminate)). cbn [call]. rewrite (query_settled e _ _ _ _ _ _ (Zc a)).
    pose proof (Zc a) as Za. set (t := fst (calls e sL a)) in *. rewrite R4. destruct (map_get (statics (fst (calls e (new_manager dir) l))) id) as [n|] eqn:Gs.
    + exists (Some (Static n)). split; [reflexivity|]. split; [constructor; apply T2; exact Gs|]. discriminate.
    + assert (NS : no_static e l id) by (intros n Q; apply T2 in Q; congruence).
      assert (Pl : plugin_is e l obj id (match map_get (loaded t) id with Some p => p | None => None end)).
      { assert (match map_get (loaded t) id with Some p => p | None => None end = option_map Made (obj id)) as ->; [|constructor; exact NS].
        destruct (map_get (loaded sL) id) as [p|] eqn:Q.
        - rewrite (z_l _ _ _ _ _ Za _ _ Q). apply Objo. exact Q.
        - assert (obj id = None) as -> by (unfold obj; rewrite Q; reflexivity). destruct (map_get (loaded t) id) as [p|] eqn:Q2; [|reflexivity]. apply (z_l0 _ _ _ _ _ Za _ _ Q Q2). }
      assert (Md : exists m, made (fst (call e t (Plugin id))) = made sL ++ m) by (apply (z_m _ _ _ _ _ (settled_step _ _ _ e a (Plugin id) t (Zc a)))).
      exists (match map_get (loaded t) id with Some p => p | None => None end). split; [destruct (map_get (loaded t) id); reflexivity|]. split; [exact Pl|].
      intros k f K F. unfold library. rewrite (After l _ _ eq_refl), R3. destruct Md as (m & ->). rewrite K in Pl. inversion Pl as [|NS' Hk]. 
      destruct (obj id) as [k'|] eqn:Ok; [|discriminate]. injection Hk as ->. pose proof (Lib _ _ _ Ok F) as N. rewrite nth_error_app1; [exact N|]. apply nth_error_Some. congruence.
  - intros l a P. destruct (Run _ _ _ P) as (R1 & R2 & R3 & R4). cbn zeta in *.
    destruct (statics_ok e dir l) as (T1 & T2 & _). cbn zeta in T1, T2. unfold answer. rewrite (R2 ltac:(discriminate)). cbn [call]. rewrite (query_settled e _ _ _ _ _ _ (Zc a)).
    set (t := fst (calls e sL a)) in *. exists (loaded t), (statics t). cbn [snd]. split; [reflexivity|]. pose proof (Zc a) as Za. fold t in Za.
    split; [apply sorted_keys; apply (z_sl _ _ _ _ _ Za)|]. split.
    { intros id p I. apply map_get_in in I; [|apply (z_sl _ _ _ _ _ Za)]. destruct (map_get (loaded sL) id) as [p'|] eqn:Q.
      - pose proof (z_l _ _ _ _ _ Za _ _ Q) as Q2. assert (p = p') by congruence. subst p'. apply Objo. exact Q.
      - unfold obj. rewrite Q. cbn. apply (z_l0 _ _ _ _ _ Za _ _ Q I). }
    split.
    { intros id h -> F. apply Rg in F. destruct (So eq_refl _ _ F) as (p & P1 & _). apply key_in; [apply (z_sl _ _ _ _ _ Za)|]. exists p. apply (z_l _ _ _ _ _ Za). exact P1. }
    split.
    { intros id I. apply key_in in I; [|apply (z_sl _ _ _ _ _ Za)]. destruct I as (p & Q). destruct (map_get (loaded sL) id) as [p'|] eqn:Q2.
      - left. destruct ok; [|rewrite (Sn id (or_introl eq_refl)) in Q2; discriminate]. split; [reflexivity|].
        destruct (map_get reg id) as [h|] eqn:R; [exists h; apply Rg; exact R|rewrite (Sn id (or_intror R)) in Q2; discriminate].
      - right. apply (z_l0 _ _ _ _ _ Za _ _ Q2 Q). }
    rewrite R4. split; [apply sorted_keys; exact T1|]. intros id n. rewrite <- T2. rewrite map_get_in by exact T1. reflexivity.
  - intros l a P. destruct (Run _ _ _ P) as (R1 & R2 & R3 & R4). cbn zeta in *.
    destruct (statics_ok e dir l) as (T1 & T2 & _). cbn zeta in T1, T2. unfold answer. rewrite (R2 ltac:(discriminate)). cbn [call]. rewrite (query_settled e _ _ _ _ _ _ (Zc a)).
    set (t := fst (calls e sL a)) in *. exists (map fst (handles t)), (map fst (statics t)). cbn [snd]. split; [reflexivity|]. pose proof (Zc a) as Za. fold t in Za.
    split; [apply sorted_keys; apply (z_sh _ _ _ _ _ Za)|]. split.
    { intros id. rewrite key_in by apply (z_sh _ _ _ _ _ Za). split.
      - intros (h & Q). destruct (map_get reg id) as [h'|] eqn:R; [left; exists h'; apply Rg; exact R|]. right. apply (z_h0 _ _ _ _ _ Za _ _ R Q).
      - intros [(h & F)|I]; [apply Rg in F; exists h; apply (z_h _ _ _ _ _ Za); exact F|apply (z_hc _ _ _ _ _ Za); exact I]. }
    rewrite R4. split; [apply sorted_keys; exact T1|]. intros id. rewrite key_in by exact T1. setoid_rewrite T2. reflexivity.
  - intros l a id P. destruct (Run _ _ _ P) as (R1 & R2 & R3 & R4). cbn zeta in *. specialize (R3 (ex_intro _ id (or_intror eq_refl))).
    unfold answer, library. rewrite (After l _ _ eq_refl), R3, (Cr a id). cbn [fst snd].
    destruct (settled_create _ _ _ _ e _ id (Zc a)) as (_ & C2 & C3 & C4). set (t := fst (calls e sL a)) in *. set (p := snd (create_from_handle e t id)) in *.
    destruct (map_get reg id) as [[f|]|] eqn:R; cbn in C4.
    + destruct C4 as [(M & k & K & N)|(NM & K)].
      * left. exists k, f. rewrite K. split; [apply Rg; exact R|]. split; [exact M|]. split; [reflexivity|]. split; [exact N|]. intros id' Q. apply Objl in Q. apply Sb in Q.
        destruct (C2 _ K) as (E & _). destruct (z_m _ _ _ _ _ (Zc a)) as (m & Em). fold t in Em. rewrite Em, app_length in E. lia.
      * right. rewrite K. split; [|reflexivity]. intros f' F. apply Rg in F. congruence.
    + right. rewrite C4. split; [|reflexivity]. intros f' F. apply Rg in F. congruence.
    + right. rewrite C4. split; [|reflexivity]. intros f' F. apply Rg in F. congruence.
  - intros l a id k l2 a' id' k' P A P' A'. destruct (Run _ _ _ P) as (R1 & R2 & _). destruct (Run _ _ _ P') as (R1' & R2' & _). cbn zeta in *.
    unfold answer in A, A'. rewrite (R2 ltac:(discriminate)), (Cr a id) in A. rewrite (R2' ltac:(discriminate)), (Cr a' id') in A'. cbn [snd] in A, A'. injection A as A. injection A' as A'.
    destruct (settled_create _ _ _ _ e _ id (Zc a)) as (_ & C2 & _). destruct (settled_create _ _ _ _ e _ id' (Zc a')) as (_ & C2' & _). cbn zeta in C2, C2'.
    destruct (C2 _ A) as (_ & L1). destruct (C2' _ A') as (L2 & _).
    assert (Ea : exists x, a' = a ++ Create id :: x).
    { assert (Pt : forall l a q, point l0 o ok l a q -> exists y, l = l0 ++ y /\ if ok then y = a else y = o :: a).
      { clear. intros l a q P. destruct P as [|l q|l q]; [exists []; rewrite app_nil_r; auto|exists (o :: l); auto|exists (o :: l); auto]. }
      destruct (Pt _ _ _ P) as (y & -> & Y). destruct (Pt _ _ _ P') as (y' & Y1 & Y2). rewrite <- app_assoc in Y1. apply app_inv_head in Y1. subst y'.
      destruct ok; subst y; [eauto|]. injection Y2 as <-. eauto. }
    destruct Ea as (x & ->). change (Create id :: x) with ([Create id] ++ x) in L2. rewrite app_assoc in L2. destruct (Mono (a ++ [Create id]) x) as (m & Em). rewrite Em, app_length in L2.
    rewrite (calls_app e a), calls_one, (Cr a id) in L2. cbn [fst] in L2. lia.
Qed.

(* ---- lazy and eager ---- *)
Lemma init_flag e r s : initialized (fst (initializePlugins e r s)) = true.
Proof.
  unfold initializePlugins. destruct (visits_total e r (paths s)) as (files & ok & V). rewrite (read_fold _ _ _ _ _ V). cbn [fst].
  destruct (fold_keeps e files (set_initialized (set_errors s []) true)) as (a1 & a2 & a3 & a4 & a5 & a6). exact a3.
Qed.
Lemma init_lazy e r s : lazy (fst (initializePlugins e r s)) = lazy s.
Proof.
  unfold initializePlugins. destruct (visits_total e r (paths s)) as (files & ok & V). rewrite (read_fold _ _ _ _ _ V). cbn [fst].
  destruct (fold_keeps e files (set_initialized (set_errors s []) true)) as (a1 & a2 & a3 & a4 & a5 & a6). exact a4.
Qed.
Lemma init_both e r s : (initialized s = false -> lazy s = false) ->
  force e (fst (call e s (Initialize true r))) = force e (fst (call e s (Initialize false r))) /\
  initialized (fst (call e s (Initialize true r))) = true /\ initialized (fst (call e s (Initialize false r))) = true /\
  snd (call e s (Initialize true r)) = snd (call e s (Initialize false r)) /\
  (initialized s = true -> forall ll, force e (fst (call e s (Initialize ll r))) = force e s).
Proof.
  intros NL. cbn [call]. unfold initialize. destruct (initialized s) eqn:I.
  - cbn [andb]. destruct (lazy s) eqn:L; cbn [andb negb fst snd].
    + destruct (force_keeps e s) as (K1 & K2 & K3 & K4). assert (E : loadPlugins e s = force e s) by (unfold force; rewrite L; reflexivity). rewrite E.
      rewrite (force_idle e _ K3). split; [reflexivity|]. split; [exact I|]. split; [congruence|]. split; [reflexivity|]. intros _ [|]; cbn [andb negb fst]; [reflexivity|]. apply force_idle. exact K3.
    + split; [reflexivity|]. split; [exact I|]. split; [exact I|]. split; [reflexivity|]. intros _ [|]; reflexivity.
  - cbn [andb]. pose proof (init_flag e r s) as F. pose proof (init_lazy e r s) as Z. destruct (initializePlugins e r s) as (s1, ok). cbn [fst] in F, Z. rewrite (NL eq_refl) in Z. destruct ok; cbn [fst snd].
    + destruct (loop_keeps e (map fst (handles s1)) (set_lazy s1 false)) as (A & B & C & D). unfold loadPlugins. cbn in C, D.
      rewrite (force_idle e (load_loop e (map fst (handles s1)) (set_lazy s1 false)) C). split; [reflexivity|]. split; [exact F|]. split; [congruence|]. split; [reflexivity|]. discriminate.
    + split; [reflexivity|]. split; [exact F|]. split; [exact F|]. split; [reflexivity|]. discriminate.
Qed.
Lemma call_flags e s q : (initialized s = false -> lazy s = false) ->
  (initialized (fst (call e s q)) = false -> lazy (fst (call e s q)) = false) /\
  (initialized s = true -> initialized (fst (call e s q)) = true) /\ (forall r, starts q = Some r -> initialized (fst (call e s q)) = true).
Proof.
  intros NL. destruct (initialized s) eqn:I.
  - destruct (force_call e s q I) as (_ & _ & A). rewrite A. split; [discriminate|auto].
  - specialize (NL eq_refl).
    assert (P : initialized (fst (prepare e s)) = true).
    { unfold prepare. rewrite I. destruct (init_both e false s (fun _ => NL)) as (_ & _ & B & _). cbn [call] in B.
      destruct (initialize e false false s) as (s1, ok). cbn [fst] in B. destruct ok; [|exact B]. destruct (lazy s1) eqn:L1; [|exact B].
      destruct (force_keeps e s1) as (K1 & K2 & K3 & K4). unfold force in K4. rewrite L1 in K4. cbn [fst]. congruence. }
    assert (Q : forall f, (forall t, initialized t = true -> initialized (fst (f t)) = true) -> initialized (fst (query e s f)) = true).
    { intros f H. unfold query. destruct (prepare e s) as (s1, ok). cbn [fst] in P. destruct ok; [apply H|]; exact P. }
    destruct q; cbn [call starts].
    all: try (match goal with |- context [query] => idtac end; match goal with |- context [fst ?x] => assert (X : initialized (fst x) = true) end;
      [apply Q; intros t Ht | rewrite X; split; [discriminate|]; split; [discriminate|auto]]; try exact Ht).
    all: try (cbn; split; [auto|]; split; discriminate).
    + destruct (init_both e recursive s (fun _ => NL)) as (_ & A & B & _). cbn [call] in A, B.
      destruct load_lazy; [rewrite A|rewrite B]; (split; [discriminate|]; split; [discriminate|auto]).
    + cbn [fst]. rewrite add_path. cbn. split; [auto|]. split; discriminate.
    + destruct (map_get (statics t) identifier); [exact Ht|]. destruct (map_get (loaded t) identifier); exact Ht.
    + unfold create_from_handle. destruct (map_get (handles t) identifier) as [[f|]|]; try (cbn; exact Ht).
      unfold loadPluginInstance. destruct (libs e f) as [l|]; [destruct (l_load l) as [[|]|]|]; cbn; exact Ht.
Qed.
Lemma flags e dir l : (initialized (after e dir l) = false -> lazy (after e dir l) = false) /\ ((exists q r, In q l /\ starts q = Some r) -> initialized (after e dir l) = true).
Proof.
  unfold after. induction l as [|q l (IH1 & IH2)] using rev_ind.
  - split; [intros _|intros (q & r & [] & _)]. cbn [calls fst]. apply new_ok.
  - rewrite calls_app, calls_one. destruct (call_flags e _ q IH1) as (A & B & C). split; [exact A|]. intros (q' & r & I & S0). apply in_app_or in I.
    destruct I as [I|[->|[]]]; [apply B; apply IH2; eauto|exact (C _ S0)].
Qed.
Lemma lazy_eager e dir l0 r l q : q <> Errors -> answer e dir (l0 ++ Initialize true r :: l) q = answer e dir (l0 ++ Initialize false r :: l) q.
Proof.
  intros N. unfold answer. change (Initialize true r :: l) with ([Initialize true r] ++ l). change (Initialize false r :: l) with ([Initialize false r] ++ l).
  rewrite !calls_app, !calls_one. destruct (init_both e r (after e dir l0) (proj1 (flags e dir l0))) as (A & B & C & _). unfold after in A, B, C.
  destruct (force_calls e l _ B) as (B1 & B2). destruct (force_calls e l _ C) as (C1 & C2).
  destruct (force_call e _ q B2) as (_ & B3 & _). destruct (force_call e _ q C2) as (_ & C3 & _). rewrite (B3 N), (C3 N), B1, C1, A. reflexivity.
Qed.
Lemma initialize_again e dir l ll r l' q : (exists q' r', In q' l /\ starts q' = Some r') -> q <> Errors ->
  answer e dir (l ++ Initialize ll r :: l') q = answer e dir (l ++ l') q.
Proof.
  intros St N. unfold answer. change (Initialize ll r :: l') with ([Initialize ll r] ++ l'). destruct (flags e dir l) as (F1 & F2). specialize (F2 St).
  rewrite !calls_app, !calls_one. destruct (init_both e r (after e dir l) F1) as (_ & B & C & _ & A). specialize (A F2 ll). unfold after in *.
  assert (D : initialized (fst (call e (fst (calls e (new_manager dir) l)) (Initialize ll r))) = true) by (destruct ll; assumption).
  destruct (force_calls e l' _ D) as (D1 & D2). destruct (force_calls e l' _ F2) as (E1 & E2).
  destruct (force_call e _ q D2) as (_ & D3 & _). destruct (force_call e _ q E2) as (_ & E3 & _). rewrite (D3 N), (E3 N), D1, E1, A. reflexivity.
Qed.


Definition create_list (e : env) (reg : list (str * option str)) (q : op) : list message :=
  match q with Create id => complaint e id (match map_get reg id with Some h => h | None => None end) | _ => [] end.
Lemma step_errors e reg L0 M0 a q s : settled reg L0 M0 a s -> errors (fst (call e s q)) = errors s ++ create_list e reg q.
Proof.
  intros Z. assert (N : forall t, errors t = errors s -> errors t = errors s ++ []) by (intros t ->; rewrite app_nil_r; reflexivity).
  destruct q; cbn [call create_list]; rewrite ?(query_settled e _ _ _ _ _ _ Z); try (apply N; reflexivity).
  - rewrite (initialize_settled e _ _ _ _ _ _ _ Z). apply N. reflexivity.
  - cbn [fst]. rewrite add_path. apply N. reflexivity.
  - destruct (map_get (statics s) identifier); [apply N; reflexivity|]. destruct (map_get (loaded s) identifier); apply N; reflexivity.
  - assert (E : errors (fst (create_from_handle e s identifier)) = errors s ++ complaint e identifier (match map_get reg identifier with Some h => h | None => None end)).
    { unfold create_from_handle. destruct (map_get (handles s) identifier) as [h|] eqn:G.
      - rewrite instance_errors. destruct (map_get reg identifier) as [h'|] eqn:R.
        + apply (z_h _ _ _ _ _ Z) in R. assert (h = h') by congruence. subst. reflexivity.
        + destruct (z_h0 _ _ _ _ _ Z _ _ R G) as (-> & _). reflexivity.
      - rewrite instance_errors. cbn [set_handles errors]. destruct (map_get reg identifier) as [h'|] eqn:R; [|reflexivity]. apply (z_h _ _ _ _ _ Z) in R. congruence. }
    destruct (create_from_handle e s identifier) as (s1, p). exact E.
Qed.
Lemma calls_errors e reg L0 M0 b : forall a s, settled reg L0 M0 a s -> errors (fst (calls e s b)) = errors s ++ flat_map (create_list e reg) b.
Proof.
  induction b as [|q b IH]; intros a s Z; [cbn; rewrite app_nil_r; reflexivity|]. change (q :: b) with ([q] ++ b). rewrite calls_app, calls_one.
  rewrite (IH (a ++ [q]) _ (settled_step _ _ _ e a q s Z)). rewrite (step_errors e _ _ _ _ _ _ Z), <- app_assoc. reflexivity.
Qed.
Lemma create_ok e files reg : (forall id h, found e files id h <-> map_get reg id = Some h) -> forall b, create_messages e files b (flat_map (create_list e reg) b).
Proof.
  intros Rg. induction b as [|q b IH]; [constructor|]. cbn [flat_map].
  destruct q; try (apply CM_silent; [discriminate|exact IH]). cbn [create_list].
  destruct (complaint_short e identifier (match map_get reg identifier with Some h => h | None => None end)) as [C|(m & C)]; rewrite C; cbn [app].
  - apply CM_silent; [|exact IH]. intros id f m Q F K. injection Q as <-. apply Rg in F. rewrite F in C. assert (I : In m (complaint e identifier (Some f))) by (apply complaint_iff; eauto). rewrite C in I. destruct I.
  - assert (I : In m (complaint e identifier (match map_get reg identifier with Some h => h | None => None end))) by (rewrite C; left; reflexivity).
    apply complaint_iff in I. destruct I as (f & Q & K). destruct (map_get reg identifier) as [h|] eqn:R; [|discriminate]. subst h. apply (CM_fails _ _ _ f); [apply Rg; exact R|exact K|exact IH].
Qed.
Definition idle_b (q : op) : bool := match q with Initialize false _ | Available | Plugins | Plugin _ | Create _ => false | _ => true end.
Lemma idle_iff q : idle_b q = true <-> idle q.
Proof. destruct q as [[|] r| | | | | | | | | |]; cbn; split; auto; try discriminate; intros []. Qed.
Lemma lazy_call e s q : initialized s = true -> lazy (fst (call e s q)) = lazy s && idle_b q /\ (lazy s = true -> idle_b q = true -> errors (fst (call e s q)) = errors s).
Proof.
  intros I. destruct (force_keeps e s) as (K1 & K2 & K3 & K4).
  assert (P : prepare e s = (force e s, true)) by (unfold prepare, force; rewrite I; reflexivity).
  destruct q; cbn [call]; unfold query; rewrite ?P; cbn [idle_b]; rewrite ?andb_true_r, ?andb_false_r.
  all: try (split; [exact K3|discriminate]). all: try (split; reflexivity).
  - unfold initialize. rewrite I. destruct (lazy s) eqn:L, load_lazy; cbn [andb negb fst]; rewrite ?L; auto.
    split; [|discriminate]. unfold loadPlugins. destruct (loop_keeps e (map fst (handles s)) (set_lazy s false)) as (A & B & C & D). exact C.
  - cbn [fst]. rewrite add_path. auto.
  - split; [|discriminate]. destruct (map_get (statics (force e s)) identifier); [exact K3|]. destruct (map_get (loaded (force e s)) identifier); exact K3.
  - split; [|discriminate]. unfold create_from_handle. destruct (map_get (handles (force e s)) identifier) as [[f|]|]; try (cbn; exact K3).
    unfold loadPluginInstance. destruct (libs e f) as [l|]; [destruct (l_load l) as [[|]|]|]; cbn; exact K3.
Qed.
Lemma lazy_calls e l : forall s, initialized s = true -> lazy (fst (calls e s l)) = lazy s && forallb idle_b l /\ (lazy s = true -> forallb idle_b l = true -> errors (fst (calls e s l)) = errors s).
Proof.
  induction l as [|q l IH]; intros s I; [cbn; rewrite andb_true_r; auto|]. change (q :: l) with ([q] ++ l). rewrite calls_app, calls_one. destruct (force_call e s q I) as (_ & _ & J).
  destruct (IH _ J) as (A & B). destruct (lazy_call e s q I) as (C & D). cbn [app forallb]. rewrite A, C, andb_assoc. split; [reflexivity|].
  intros L F. apply andb_true_iff in F. destruct F as (F1 & F2). rewrite <- (D L F1). apply B; [rewrite C, L, F1; reflexivity|exact F2].
Qed.
Lemma lazy_started e dir l0 r files : started e dir l0 (Initialize true r) files true ->
  let s := after e dir (l0 ++ [Initialize true r]) in lazy s = true /\ initialized s = true /\ errors s = map CannotOpen (filter (no_plugin_b e) files) /\ loaded s = [].
Proof.
  intros (B & r' & St & V). injection St as <-. destruct (new_ok dir) as (V0 & P0). destruct (before_ok e l0 _ V0 B) as (V1 & P1). rewrite P0 in P1.
  rewrite path_list_dir, <- P1 in V. unfold after. rewrite calls_app, calls_one. set (s0 := fst (calls e (new_manager dir) l0)) in *. destruct V1 as (v1 & v2 & v3 & v4 & v5 & v6 & v7).
  assert (X : sorted (handles (set_initialized (set_errors s0 []) true))) by (cbn; rewrite v2; constructor).
  destruct (files_ok e files _ X) as (_ & (c1 & c2 & c3 & c4 & c5 & c6) & c7 & _).
  cbn [call]. unfold initialize. rewrite v3. cbn [andb]. unfold initializePlugins. change (paths (set_initialized (set_errors s0 []) true)) with (paths s0). rewrite (read_fold _ _ _ _ _ V). cbn [fst].
  split; [reflexivity|]. split; [exact c3|]. split; [exact c7|]. cbn [set_lazy loaded]. rewrite c1. exact v1.
Qed.
Lemma not_lazy_started e dir l0 o files ok : started e dir l0 o files ok -> (ok = false \/ forall r, o <> Initialize true r) ->
  lazy (after e dir (l0 ++ [o])) = false.
Proof.
  intros St N. destruct St as (B & r & St & V). destruct (new_ok dir) as (V0 & P0). destruct (before_ok e l0 _ V0 B) as (V1 & P1). rewrite P0 in P1.
  rewrite path_list_dir, <- P1 in V. unfold after. rewrite calls_app, calls_one. set (s0 := fst (calls e (new_manager dir) l0)) in *. destruct V1 as (v1 & v2 & v3 & v4 & v5 & v6 & v7).
  pose proof (init_lazy e r s0) as IL. rewrite v4 in IL.
  assert (E1 : snd (initializePlugins e r s0) = ok) by (unfold initializePlugins; rewrite (read_fold _ _ _ _ _ V); reflexivity).
  assert (LP : forall t, lazy (loadPlugins e t) = false) by (intros t; unfold loadPlugins; apply (loop_keeps e (map fst (handles t)) (set_lazy t false))).
  destruct (initializePlugins e r s0) as (s1, ok') eqn:E. cbn [fst snd] in IL, E1. subst ok'.
  assert (Pr : r = false -> lazy (fst (prepare e s0)) = false).
  { intros ->. unfold prepare, initialize. rewrite v3. cbn [andb]. rewrite E. destruct ok; [|exact IL]. rewrite LP. apply LP. }
  assert (Q : forall f, (forall t, lazy t = false -> lazy (fst (f t)) = false) -> r = false -> lazy (fst (query e s0 f)) = false).
  { intros f Hf Hr. unfold query. specialize (Pr Hr). destruct (prepare e s0) as (s2, ok2). cbn [fst] in Pr. destruct ok2; [apply Hf|]; exact Pr. }
  destruct o; cbn [starts] in St; try discriminate; injection St as <-; cbn [call].
  - unfold initialize. rewrite v3. cbn [andb]. rewrite E. destruct ok; [|exact IL]. destruct load_lazy; [destruct N as [N|N]; [discriminate|destruct (N recursive eq_refl)]|]. apply LP.
  - apply Q; auto.
  - apply Q; auto.
  - apply Q; [|reflexivity]. intros t Ht. destruct (map_get (statics t) identifier); [exact Ht|]. destruct (map_get (loaded t) identifier); exact Ht.
  - apply Q; [|reflexivity]. intros t Ht. unfold create_from_handle. destruct (map_get (handles t) identifier) as [[f|]|]; try (cbn; exact Ht).
    unfold loadPluginInstance. destruct (libs e f) as [l|]; [destruct (l_load l) as [[|]|]|]; cbn; exact Ht.
Qed.
Lemma started_init e dir l0 o files ok : started e dir l0 o files ok -> initialized (after e dir (l0 ++ [o])) = true.
Proof. intros (_ & r & St & _). apply flags. exists o, r. split; [apply in_or_app; right; left; reflexivity|exact St]. Qed.
Lemma lazy_errors e dir l0 r files l : started e dir l0 (Initialize true r) files true -> Forall idle l ->
  exists m1, search_messages e files m1 /\ answer e dir (l0 ++ Initialize true r :: l) Errors = Messages m1.
Proof.
  intros St F. destruct (lazy_started _ _ _ _ _ St) as (A & B & C & _). exists (map CannotOpen (filter (no_plugin_b e) files)). split; [apply search_ok|].
  unfold answer. cbn [call snd]. change (Initialize true r :: l) with ([Initialize true r] ++ l). rewrite app_assoc, calls_app. fold (after e dir (l0 ++ [Initialize true r])).
  destruct (lazy_calls e l _ B) as (_ & D). rewrite D; [rewrite C; reflexivity|exact A|]. apply forallb_forall. rewrite Forall_forall in F. intros q Hq. apply idle_iff. apply F. exact Hq.
Qed.
(* after a loading call the state is the one of the forced manager *)
Lemma after_loaded e dir l0 o files ok l : started e dir l0 o files ok -> (ok = false \/ (forall r, o <> Initialize true r) \/ Exists (fun q => ~ idle q) l) ->
  force e (after e dir (l0 ++ o :: l)) = after e dir (l0 ++ o :: l).
Proof.
  intros St H. apply force_idle. change (o :: l) with ([o] ++ l). unfold after. rewrite app_assoc, calls_app. fold (after e dir (l0 ++ [o])).
  pose proof (started_init _ _ _ _ _ _ St) as I. destruct (lazy_calls e l _ I) as (A & _). rewrite A.
  assert (H' : (ok = false \/ forall r, o <> Initialize true r) \/ Exists (fun q => ~ idle q) l) by (destruct H as [H|[H|H]]; auto). destruct H' as [H'|H'].
  - rewrite (not_lazy_started _ _ _ _ _ _ St H'). reflexivity.
  - apply andb_false_iff. right. apply Exists_exists in H'. destruct H' as (q & Hq & N). destruct (forallb idle_b l) eqn:E; [|reflexivity]. rewrite forallb_forall in E. exfalso. apply N. apply idle_iff. apply E. exact Hq.
Qed.
Lemma loaded_errors e dir l0 o files l : started e dir l0 o files true -> (forall r, o <> Initialize true r) \/ Exists (fun q => ~ idle q) l ->
  exists m1 m2 m3, search_messages e files m1 /\ load_messages e files m2 /\ create_messages e files (o :: l) m3 /\ answer e dir (l0 ++ o :: l) Errors = Messages (m1 ++ m2 ++ m3).
Proof.
  intros St H. destruct (start_ok _ _ _ _ _ _ St) as (reg & sL & SS & Run). destruct SS as [Z Rg Sr So Sn Sd Sns Sb Se].
  exists (map CannotOpen (filter (no_plugin_b e) files)), (map snd (load_list e reg)), (flat_map (create_list e reg) (o :: l)).
  split; [apply search_ok|]. split; [apply load_messages_ok; auto|]. split; [apply create_ok; exact Rg|].
  destruct (Run _ _ _ (P_later l0 o l Errors)) as (R1 & _). cbn zeta in R1. cbn [call fst] in R1. unfold answer. cbn [call snd].
  pose proof (after_loaded e dir l0 o files true l St (or_intror H)) as F. unfold after in F. rewrite F in R1. rewrite R1. rewrite (calls_errors e _ _ _ _ [] sL Z), Se, <- app_assoc. reflexivity.
Qed.
Lemma failed_errors e dir l0 o files l : started e dir l0 o files false ->
  exists m1 m3, search_messages e files m1 /\ create_messages e files l m3 /\ answer e dir (l0 ++ o :: l) Errors = Messages (m1 ++ m3).
Proof.
  intros St. destruct (start_ok _ _ _ _ _ _ St) as (reg & sL & SS & Run). destruct SS as [Z Rg Sr So Sn Sd Sns Sb Se].
  exists (map CannotOpen (filter (no_plugin_b e) files)), (flat_map (create_list e reg) l).
  split; [apply search_ok|]. split; [apply create_ok; exact Rg|].
  destruct (Run _ _ _ (P_failed l0 o l Errors)) as (R1 & _). cbn zeta in R1. cbn [call fst] in R1. unfold answer. cbn [call snd].
  pose proof (after_loaded e dir l0 o files false l St (or_introl eq_refl)) as F. unfold after in F. rewrite F in R1. rewrite R1. rewrite (calls_errors e _ _ _ _ [] sL Z), Se, app_nil_r. reflexivity.
Qed.

(* ---- the destructor ---- *)
Lemma destroy_done s n : handles s = [] \/ loaded s = [] -> destroy n s = Finished s.
Proof. intros H. destruct n; cbn [destroy]; destruct (handles s) as [|hx hs]; try reflexivity; destruct (loaded s) as [|(idx, px) rx]; try reflexivity; destruct H; discriminate. Qed.
Lemma destroy_undefined s id p r f n : loaded s = (id, p) :: r -> map_get (handles s) id = Some (Some f) -> destroy (S n) s = Undefined.
Proof.
  intros L H. cbn [destroy]. destruct (handles s) as [|x hs] eqn:Hs; [discriminate|]. rewrite L. unfold close_first. rewrite Hs, H, L. cbn [map_get]. rewrite str_lt_irrefl. reflexivity.
Qed.
Lemma filter_other {T} (m : list (str * T)) id : (forall v, ~ In (id, v) m) -> filter (fun kv => negb (str_is (fst kv) id)) m = m.
Proof.
  induction m as [|(k, v) m IH]; intros H; [reflexivity|]. cbn [filter fst]. destruct (str_is k id) eqn:E.
  - apply str_is_eq in E. subst k. destruct (H v (or_introl eq_refl)).
  - cbn [negb]. rewrite IH; [reflexivity|]. intros v' I. apply (H v'). right. exact I.
Qed.
Lemma destroy_endless s id p r : sorted (handles s) -> loaded s = (id, p) :: r -> (forall f, map_get (handles s) id <> Some (Some f)) -> (exists id' h, id' <> id /\ map_get (handles s) id' = Some h) ->
  forall n, destroy n s = Running.
Proof.
  intros Sh L H E n. revert s Sh L H E. induction n as [|n IH]; intros s Sh L H (id' & h & N & G).
  - cbn [destroy]. rewrite L. destruct (handles s) eqn:Hs; [discriminate|reflexivity].
  - cbn [destroy]. rewrite L. destruct (handles s) as [|x hs] eqn:Hs; [discriminate|]. rewrite <- Hs in *. unfold close_first.
    assert (C : match map_get (handles s) id with
      | Some (Some _) => match map_get (loaded s) id with Some _ => None | None => Some (set_handles s (filter (fun kv => negb (str_is (fst kv) id)) (handles s))) end
      | _ => Some (set_handles s (filter (fun kv => negb (str_is (fst kv) id)) (handles s))) end = Some (set_handles s (filter (fun kv => negb (str_is (fst kv) id)) (handles s)))).
    { destruct (map_get (handles s) id) as [[f|]|] eqn:Q; [destruct (H f eq_refl)|reflexivity|reflexivity]. }
    rewrite C. destruct (map_get_filter (handles s) id Sh) as (F1 & F2). apply IH.
    + exact F1.
    + exact L.
    + intros f. cbn. rewrite F2. destruct (list_eq_dec ascii_dec id id); [discriminate|contradiction].
    + exists id', h. split; [exact N|]. cbn. rewrite F2. destruct (list_eq_dec ascii_dec id' id); [contradiction|exact G].
Qed.
Lemma destroy_last s id p r : sorted (handles s) -> loaded s = (id, p) :: r -> handles s = [(id, None)] -> forall n, destroy (S n) s = Finished (set_handles s []).
Proof.
  intros Sh L H n. cbn [destroy]. rewrite L, H. unfold close_first. rewrite H. cbn [map_get]. rewrite str_lt_irrefl. cbn [filter fst].
  assert (str_is id id = true) as -> by (apply str_is_eq; reflexivity). cbn [negb]. apply destroy_done. left. reflexivity.
Qed.
Lemma sorted_first {T} (m : list (str * T)) id v : sorted m -> map_get m id = Some v -> (forall id', In id' (map fst m) -> id' <> id -> str_lt id id' = true) -> exists r, m = (id, v) :: r.
Proof.
  intros S0 G H. destruct S0 as [|k w r S0 L]; [discriminate|]. destruct (list_eq_dec ascii_dec k id) as [->|N].
  - cbn [map_get] in G. rewrite str_lt_irrefl in G. injection G as ->. eauto.
  - exfalso. specialize (H k (or_introl eq_refl) N). cbn [map_get] in G. rewrite H in G. discriminate.
Qed.
Lemma started_state e dir l0 o files l : started e dir l0 o files true -> (forall r, o <> Initialize true r) \/ Exists (fun q => ~ idle q) l ->
  exists reg sL, start_state e files true reg sL /\ after e dir (l0 ++ o :: l) = fst (calls e sL (o :: l)) /\ 
  forall a b, o :: l = a ++ b -> statics (fst (calls e sL a)) = statics (after e dir (l0 ++ a)).
Proof.
  intros St H. destruct (start_ok _ _ _ _ _ _ St) as (reg & sL & SS & Run). exists reg, sL. split; [exact SS|]. split.
  - destruct (Run _ _ _ (P_later l0 o l Errors)) as (R1 & _). cbn zeta in R1. cbn [call fst] in R1. rewrite <- R1. symmetry. apply (after_loaded e dir l0 o files true l St). auto.
  - intros a b E. destruct a as [|o' a]; cbn [app] in E.
    + rewrite app_nil_r. destruct (Run _ _ _ (P_first l0 o)) as (_ & _ & _ & R). exact R.
    + injection E as <- ->. destruct (Run _ _ _ (P_later l0 o a Errors)) as (_ & _ & _ & R). exact R.
Qed.
Lemma keep_loaded e reg L0 M0 a t id p b : settled reg L0 M0 a t -> map_get (loaded t) id = Some p -> map_get (loaded (fst (calls e t b))) id = Some p.
Proof.
  intros Z G. assert (Zt : settled reg (loaded t) (made t) a t).
  { destruct Z as [z1 z2 z3 z4 z5 z6 z7 z8 z9 z10]. constructor; auto; [intros; congruence|]. exists []. rewrite app_nil_r. reflexivity. }
  apply (z_l _ _ _ _ _ (settled_calls _ _ _ e b a t Zt)). exact G.
Qed.
Lemma used_undefined e dir l0 o files l id f n : started e dir l0 o files true -> (forall r, o <> Initialize true r) \/ Exists (fun q => ~ idle q) l ->
  found e files id (Some f) -> (forall id', (exists h, found e files id' h) \/ In (Plugin id') (o :: l) -> id' = id \/ str_lt id id' = true) ->
  destroy (S n) (after e dir (l0 ++ o :: l)) = Undefined.
Proof.
  intros St H F M. destruct (started_state _ _ _ _ _ _ St H) as (reg & sL & SS & E & _). destruct SS as [Z Rg Sr So Sn Sd Sns Sb Se]. rewrite E.
  pose proof (settled_calls _ _ _ e (o :: l) [] sL Z) as Zt. cbn [app] in Zt. set (t := fst (calls e sL (o :: l))) in *. apply Rg in F.
  destruct (So eq_refl _ _ F) as (p & P1 & _). destruct (sorted_first (loaded t) id p (z_sl _ _ _ _ _ Zt) (z_l _ _ _ _ _ Zt _ _ P1)) as (r & Er).
  - intros id' I N. apply key_in in I; [|apply (z_sl _ _ _ _ _ Zt)]. destruct I as (p' & G). destruct (M id') as [Q|Q]; [|contradiction|exact Q].
    destruct (map_get (loaded sL) id') as [q|] eqn:G2.
    + left. destruct (map_get reg id') as [h|] eqn:R; [exists h; apply Rg; exact R|rewrite (Sn id' (or_intror R)) in G2; discriminate].
    + right. apply (z_l0 _ _ _ _ _ Zt _ _ G2 G).
  - eapply destroy_undefined; [exact Er|]. apply (z_h _ _ _ _ _ Zt). exact F.
Qed.
Lemma asked_endless e dir l0 o files l id a b id' h n : started e dir l0 o files true ->
  o :: l = a ++ Plugin id :: b -> no_static e (l0 ++ a) id -> (forall f, ~ found e files id (Some f)) -> found e files id' h -> id' <> id ->
  (forall id', (exists h, found e files id' h) \/ In (Plugin id') (o :: l) -> id' = id \/ str_lt id id' = true) ->
  destroy n (after e dir (l0 ++ o :: l)) = Running.
Proof.
  intros St Ea NS NF F N M.
  assert (H : (forall r, o <> Initialize true r) \/ Exists (fun q => ~ idle q) l).
  { destruct a as [|x a]; cbn [app] in Ea; injection Ea as -> ->; [left; discriminate|right]. apply Exists_exists. exists (Plugin id). split; [apply in_or_app; right; left; reflexivity|intros []]. }
  destruct (started_state _ _ _ _ _ _ St H) as (reg & sL & SS & E & Es). destruct SS as [Z Rg Sr So Sn Sd Sns Sb Se]. rewrite E.
  pose proof (settled_calls _ _ _ e (o :: l) [] sL Z) as Zt. cbn [app] in Zt.
  assert (Gl : exists p, map_get (loaded (fst (calls e sL (o :: l)))) id = Some p).
  { rewrite Ea. change (a ++ Plugin id :: b) with (a ++ [Plugin id] ++ b). rewrite app_assoc, calls_app.
    pose proof (settled_calls _ _ _ e (a ++ [Plugin id]) [] sL Z) as Z1. assert (G : exists p, map_get (loaded (fst (calls e sL (a ++ [Plugin id])))) id = Some p).
    { rewrite calls_app, calls_one. pose proof (settled_calls _ _ _ e a [] sL Z) as Z2. cbn [call]. rewrite (query_settled e _ _ _ _ _ _ Z2).
      rewrite (Es a (Plugin id :: b) Ea). destruct (statics_ok e dir (l0 ++ a)) as (_ & T2 & _). fold (after e dir (l0 ++ a)) in T2.
      destruct (map_get (statics (after e dir (l0 ++ a))) id) as [m|] eqn:Q; [apply T2 in Q; destruct (NS _ Q)|].
      destruct (map_get (loaded (fst (calls e sL a))) id) as [p|] eqn:Q2; [exists p; exact Q2|]. exists None. cbn [fst set_loaded loaded]. rewrite map_get_put by apply (z_sl _ _ _ _ _ Z2). destruct (list_eq_dec ascii_dec id id); [reflexivity|contradiction]. }
    destruct G as (p & G). exists p. exact (keep_loaded e _ _ _ _ _ id p b Z1 G). }
  set (t := fst (calls e sL (o :: l))) in *. destruct Gl as (p & Gl). destruct (sorted_first (loaded t) id p (z_sl _ _ _ _ _ Zt) Gl) as (r & Er).
  - intros id2 I N2. apply key_in in I; [|apply (z_sl _ _ _ _ _ Zt)]. destruct I as (p' & G). destruct (M id2) as [Q|Q]; [|contradiction|exact Q].
    destruct (map_get (loaded sL) id2) as [q|] eqn:G2.
    + left. destruct (map_get reg id2) as [h2|] eqn:R; [exists h2; apply Rg; exact R|rewrite (Sn id2 (or_intror R)) in G2; discriminate].
    + right. apply (z_l0 _ _ _ _ _ Zt _ _ G2 G).
  - eapply destroy_endless; [apply (z_sh _ _ _ _ _ Zt)|exact Er| |].
    + intros f Q. destruct (map_get reg id) as [h2|] eqn:R.
      * pose proof (z_h _ _ _ _ _ Zt _ _ R) as Q2. assert (h2 = Some f) by congruence. subst h2. apply (NF f). apply Rg. exact R.
      * destruct (z_h0 _ _ _ _ _ Zt _ _ R Q). discriminate.
    + exists id', h. split; [exact N|]. apply (z_h _ _ _ _ _ Zt). apply Rg. exact F.
Qed.
Lemma nothing_safe e dir l0 o files l n : started e dir l0 o files true -> (forall id h, ~ found e files id h) -> (forall id, ~ In (Create id) (o :: l)) ->
  exists s, destroy n (after e dir (l0 ++ o :: l)) = Finished s.
Proof.
  intros St NF NC. destruct (start_ok _ _ _ _ _ _ St) as (reg & sL & SS & Run). destruct SS as [Z Rg Sr So Sn Sd Sns Sb Se].
  destruct (Run _ _ _ (P_later l0 o l Errors)) as (R1 & _). cbn zeta in R1. cbn [call fst] in R1. pose proof (settled_calls _ _ _ e (o :: l) [] sL Z) as Zt. cbn [app] in Zt. rewrite <- R1 in Zt. clear R1.
  fold (after e dir (l0 ++ o :: l)) in *. set (s := after e dir (l0 ++ o :: l)) in *. exists s. apply destroy_done.
  assert (Hf : handles (force e s) = []).
  { destruct (handles (force e s)) as [|(k, h) r] eqn:Q; [reflexivity|]. exfalso. assert (G : map_get (handles (force e s)) k = Some h) by (rewrite Q; cbn [map_get]; rewrite str_lt_irrefl; reflexivity).
    destruct (map_get reg k) as [h2|] eqn:R; [apply Rg in R; exact (NF _ _ R)|]. destruct (z_h0 _ _ _ _ _ Zt _ _ R G) as (_ & I). exact (NC _ I). }
  unfold force in Hf. destruct (lazy s) eqn:L; [|auto]. destruct (handles s) as [|(k, h) r] eqn:Q; [auto|]. exfalso.
  assert (HG : forall keys t, exists x, handles (load_loop e keys t) = x /\ (handles t <> [] -> x <> [])).
  { clear. induction keys as [|id keys IH]; intros t; cbn [load_loop]; [eauto|]. destruct (map_get (loaded t) id); [apply IH|].
    assert (C : handles t <> [] -> handles (fst (create_from_handle e t id)) <> []).
    { unfold create_from_handle. destruct (map_get (handles t) id) as [[f|]|]; try (cbn; auto; fail).
      - unfold loadPluginInstance. destruct (libs e f) as [l|]; [destruct (l_load l) as [[|]|]|]; cbn; auto.
      - cbn. intros _ K. destruct (handles t) as [|(k, v) m]; [discriminate|]. cbn [map_put] in K. destruct (str_lt id k); [discriminate|]. destruct (str_lt k id); discriminate. }
    destruct (create_from_handle e t id) as (t1, p). destruct (IH (set_loaded t1 (map_put (loaded t1) id p))) as (x & X1 & X2). exists x. split; [exact X1|]. intros K. apply X2. cbn. apply C. exact K. }
  unfold loadPlugins in Hf. destruct (HG (map fst (handles s)) (set_lazy s false)) as (x & X1 & X2). rewrite Hf in X1. subst x. apply X2; [|reflexivity]. cbn. rewrite Q. discriminate.
Qed.
Lemma lazy_safe e dir l0 r files l n : started e dir l0 (Initialize true r) files true -> Forall idle l -> exists s, destroy n (after e dir (l0 ++ Initialize true r :: l)) = Finished s.
Proof.
  intros St F. destruct (lazy_started _ _ _ _ _ St) as (A & B & _ & D). exists (after e dir (l0 ++ Initialize true r :: l)). apply destroy_done. right. revert A B D F.
  change (Initialize true r :: l) with ([Initialize true r] ++ l). rewrite app_assoc. unfold after at 4. rewrite calls_app. fold (after e dir (l0 ++ [Initialize true r])). generalize (after e dir (l0 ++ [Initialize true r])) as s. clear St.
  induction l as [|q l IH]; intros s A B D F; [exact D|]. inversion F as [|? ? F1 F2]; subst. change (q :: l) with ([q] ++ l). rewrite calls_app, calls_one.
  destruct (lazy_call e s q B) as (L1 & _). apply idle_iff in F1. destruct (force_call e s q B) as (_ & _ & I). apply IH; auto; [rewrite L1, A, F1; reflexivity|].
  destruct q as [[|] rr| | | | | | | | | |]; try discriminate; cbn [call]; try exact D.
  - unfold initialize. rewrite B, A. exact D.
  - cbn [fst]. rewrite add_path. exact D.
Qed.
Lemma settled_reply e reg L0 M0 a s q : settled reg L0 M0 a s -> snd (call e s q) <> Thrown /\ (forall ll r, q = Initialize ll r -> snd (call e s q) = Bool true).
Proof.
  intros Z. destruct q; cbn [call]; rewrite ?(query_settled e _ _ _ _ _ _ Z); try (split; discriminate).
  - rewrite (initialize_settled e _ _ _ _ _ _ _ Z). split; [discriminate|reflexivity].
  - split; [|discriminate]. destruct (map_get (statics s) identifier); [discriminate|]. destruct (map_get (loaded s) identifier); discriminate.
  - split; [|discriminate]. destruct (create_from_handle e s identifier). discriminate.
Qed.
Lemma thrown_ok e dir l0 o files ok : started e dir l0 o files ok ->
  (answer e dir l0 o = Thrown <-> ok = false) /\ (forall l q, answer e dir (l0 ++ o :: l) q <> Thrown) /\ (forall l ll r, answer e dir (l0 ++ o :: l) (Initialize ll r) = Bool true).
Proof.
  intros St. destruct (start_ok _ _ _ _ _ _ St) as (reg & sL & SS & Run). destruct SS as [Z Rg Sr So Sn Sd Sns Sb Se].
  assert (Pt : forall l q, exists a, point l0 o ok (l0 ++ o :: l) a q) by (intros l q; destruct ok; [exists (o :: l); constructor|exists l; constructor]).
  assert (L : forall l q, answer e dir (l0 ++ o :: l) q <> Thrown /\ forall ll r, q = Initialize ll r -> answer e dir (l0 ++ o :: l) q = Bool true).
  { intros l q. unfold answer. destruct (Pt l q) as (a & P). destruct (Run _ _ _ P) as (_ & R2 & _). cbn zeta in R2. pose proof (settled_calls _ _ _ e a [] sL Z) as Zt.
    destruct (settled_reply e _ _ _ _ _ q Zt) as (A & B). assert (D : q = Errors \/ q <> Errors) by (destruct q; auto; right; discriminate). destruct D as [->|D]; [cbn; split; discriminate|].
    rewrite (R2 D). auto. }
  split; [|split; [intros l q; apply L|intros l ll r; apply (L l (Initialize ll r)) with (r := r) (ll := ll); reflexivity]].
  destruct ok.
  - split; [|discriminate]. intros Q. exfalso. revert Q. unfold answer. destruct (Run _ _ _ (P_first l0 o)) as (_ & R2 & _). cbn zeta in R2. rewrite R2; [apply (settled_reply e _ _ _ _ _ o Z)|].
    destruct St as (_ & r & S2 & _). intros ->. discriminate.
  - split; [auto|]. intros _. destruct St as (B & r & S2 & V). destruct (new_ok dir) as (V0 & P0). destruct (before_ok e l0 _ V0 B) as (V1 & P1). rewrite P0 in P1.
    rewrite path_list_dir, <- P1 in V. unfold answer. set (s0 := fst (calls e (new_manager dir) l0)) in *. destruct V1 as (v1 & v2 & v3 & v4 & v5 & v6 & v7).
    assert (E1 : snd (initializePlugins e r s0) = false) by (unfold initializePlugins; rewrite (read_fold _ _ _ _ _ V); reflexivity).
    assert (Ei : forall ll, initialize e ll r s0 = (fst (initializePlugins e r s0), false)) by (intros ll; unfold initialize; rewrite v3; cbn [andb]; destruct (initializePlugins e r s0); cbn [snd] in E1; subst; reflexivity).
    assert (Qu : forall f, r = false -> snd (query e s0 f) = Thrown) by (intros f ->; unfold query, prepare; rewrite v3, Ei; reflexivity).
    destruct o; cbn [starts] in S2; try discriminate; injection S2 as <-; cbn [call]; try (apply Qu; reflexivity). rewrite Ei. reflexivity.
Qed.
Lemma misc_ok e dir l : answer e dir l Paths = Strings (path_list dir l) /\ (forall id, exists b, answer e dir l (IsStatic id) = Bool b /\ (b = true <-> exists n, static_now e l id n)).
Proof.
  destruct (statics_ok e dir l) as (_ & T & P). cbn zeta in T, P. unfold answer. cbn [call snd]. rewrite P. split; [reflexivity|]. intros id.
  destruct (map_get (statics (fst (calls e (new_manager dir) l))) id) as [n|] eqn:Q.
  - exists true. split; [reflexivity|]. split; [|auto]. intros _. exists n. apply T. exact Q.
  - exists false. split; [reflexivity|]. split; [discriminate|]. intros (n & H). apply T in H. congruence.
Qed.
