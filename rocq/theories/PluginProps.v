(* C57: the plugin manager. *)
From Verif Require Import Base Text SMap PluginModel PluginSpec PluginProofs.

(* Every sequence of calls either never initialises the manager or has one call that does. *)
Theorem C57_start : forall e dir l, (forall q, In q l -> starts q = None) \/
  exists l0 o l1 files ok, l = l0 ++ o :: l1 /\ started e dir l0 o files ok.
Proof.
  intros e dir l. induction l as [|q l IH] using rev_ind; [left; intros q []|]. destruct IH as [IH|(l0 & o & l1 & files & ok & -> & St)].
  - destruct (starts q) as [r|] eqn:Q.
    + right. destruct (visits_total e r (path_list dir l)) as (files & ok & V). exists l, q, [], files, ok. split; [reflexivity|]. constructor; eauto.
    + left. intros q' I. apply in_app_or in I. destruct I as [I|[<-|[]]]; auto.
  - right. exists l0, o, (l1 ++ [q]), files, ok. split; [rewrite <- app_assoc; reflexivity|exact St].
Qed.
Print Assumptions C57_start.

(* What available(), plugins(), plugin() and createPluginInstance() answer in every history after the start. *)
Theorem C57_behaviour : forall e dir l0 o files ok, started e dir l0 o files ok -> exists obj, behaves e dir l0 o files ok obj.
Proof. exact behaves_ok. Qed.
Print Assumptions C57_behaviour.

(* plugin(id) hands out the same object again and again *)
Theorem C57_same : forall e dir l0 o files ok l a l' a' id, started e dir l0 o files ok -> point l0 o ok l a (Plugin id) -> point l0 o ok l' a' (Plugin id) ->
  no_static e l id -> no_static e l' id -> answer e dir l (Plugin id) = answer e dir l' (Plugin id).
Proof.
  intros e dir l0 o files ok l a l' a' id St P P' N N'. destruct (behaves_ok _ _ _ _ _ _ St) as (obj & B).
  destruct (b_plugin _ _ _ _ _ _ _ B _ _ _ P) as (p & -> & I & _). destruct (b_plugin _ _ _ _ _ _ _ B _ _ _ P') as (p' & -> & I' & _).
  destruct I as [n S0|_]; [destruct (N _ S0)|]. destruct I' as [n S0|_]; [destruct (N' _ S0)|]. reflexivity.
Qed.
Print Assumptions C57_same.

(* different plugins are different objects; createPluginInstance() never yields an object that plugin() hands out *)
Theorem C57_distinct : forall e dir l0 o files ok l a id l' a' id' k, started e dir l0 o files ok ->
  point l0 o ok l a (Plugin id) -> answer e dir l (Plugin id) = Pointer (Some (Made k)) ->
  (point l0 o ok l' a' (Plugin id') -> answer e dir l' (Plugin id') = Pointer (Some (Made k)) -> id = id') /\
  (point l0 o ok l' a' (Create id') -> answer e dir l' (Create id') <> Pointer (Some (Made k))).
Proof.
  intros e dir l0 o files ok l a id l' a' id' k St P A. destruct (behaves_ok _ _ _ _ _ _ St) as (obj & B).
  assert (Q : forall l a id, point l0 o ok l a (Plugin id) -> answer e dir l (Plugin id) = Pointer (Some (Made k)) -> obj id = Some k).
  { clear - B. intros l a id P A. destruct (b_plugin _ _ _ _ _ _ _ B _ _ _ P) as (p & E & I & _). rewrite A in E. injection E as <-.
    inversion I as [|N E]. destruct (obj id) as [k'|]; [|discriminate]. injection E as ->. reflexivity. }
  split.
  - intros P' A'. exact (b_inj _ _ _ _ _ _ _ B _ _ _ (Q _ _ _ P A) (Q _ _ _ P' A')).
  - intros P' A'. destruct (b_create _ _ _ _ _ _ _ B _ _ _ P') as [(k' & f & _ & _ & E & _ & N)|(_ & E)]; rewrite A' in E; [injection E as <-|discriminate].
    exact (N _ (Q _ _ _ P A)).
Qed.
Print Assumptions C57_distinct.

(* Loading lazily answers every call (but errorMessages) as loading at once does; initialising again changes nothing. *)
Theorem C57_lazy : forall e dir l0 r l q, q <> Errors -> answer e dir (l0 ++ Initialize true r :: l) q = answer e dir (l0 ++ Initialize false r :: l) q.
Proof. exact lazy_eager. Qed.
Print Assumptions C57_lazy.
Theorem C57_initialize_again : forall e dir l ll r l' q, (exists q' r', In q' l /\ starts q' = Some r') -> q <> Errors ->
  answer e dir (l ++ Initialize ll r :: l') q = answer e dir (l ++ l') q.
Proof. exact initialize_again. Qed.
Print Assumptions C57_initialize_again.
(* Only the call that starts the manager can throw, and it throws exactly when a directory cannot be read. *)
Theorem C57_thrown : forall e dir l0 o files ok, started e dir l0 o files ok ->
  (answer e dir l0 o = Thrown <-> ok = false) /\ (forall l q, answer e dir (l0 ++ o :: l) q <> Thrown) /\ (forall l ll r, answer e dir (l0 ++ o :: l) (Initialize ll r) = Bool true).
Proof. exact thrown_ok. Qed.
Print Assumptions C57_thrown.
Theorem C57_paths_static : forall e dir l, answer e dir l Paths = Strings (path_list dir l) /\
  (forall id, exists b, answer e dir l (IsStatic id) = Bool b /\ (b = true <-> exists n, static_now e l id n)).
Proof. exact misc_ok. Qed.
Print Assumptions C57_paths_static.

(* errorMessages() *)
Theorem C57_errors_lazy : forall e dir l0 r files l, started e dir l0 (Initialize true r) files true -> Forall idle l ->
  exists m1, search_messages e files m1 /\ answer e dir (l0 ++ Initialize true r :: l) Errors = Messages m1.
Proof. exact lazy_errors. Qed.
Print Assumptions C57_errors_lazy.
Theorem C57_errors : forall e dir l0 o files l, started e dir l0 o files true -> (forall r, o <> Initialize true r) \/ Exists (fun q => ~ idle q) l ->
  exists m1 m2 m3, search_messages e files m1 /\ load_messages e files m2 /\ create_messages e files (o :: l) m3 /\ answer e dir (l0 ++ o :: l) Errors = Messages (m1 ++ m2 ++ m3).
Proof. exact loaded_errors. Qed.
Print Assumptions C57_errors.
Theorem C57_errors_failed : forall e dir l0 o files l, started e dir l0 o files false ->
  exists m1 m3, search_messages e files m1 /\ create_messages e files l m3 /\ answer e dir (l0 ++ o :: l) Errors = Messages (m1 ++ m3).
Proof. exact failed_errors. Qed.
Print Assumptions C57_errors_failed.

(* The destructor: safe when nothing was found or loaded; *)
Theorem C57_destroy_nothing : forall e dir l0 o files l n, started e dir l0 o files true -> (forall id h, ~ found e files id h) -> (forall id, ~ In (Create id) (o :: l)) ->
  exists s, destroy n (after e dir (l0 ++ o :: l)) = Finished s.
Proof. exact nothing_safe. Qed.
Print Assumptions C57_destroy_nothing.
Theorem C57_destroy_lazy : forall e dir l0 r files l n, started e dir l0 (Initialize true r) files true -> Forall idle l ->
  exists s, destroy n (after e dir (l0 ++ Initialize true r :: l)) = Finished s.
Proof. exact lazy_safe. Qed.
Print Assumptions C57_destroy_lazy.
(* undefined when the first of the loaded plugins comes from a library; *)
Theorem C57_destroy_undefined : forall e dir l0 o files l id f n, started e dir l0 o files true -> (forall r, o <> Initialize true r) \/ Exists (fun q => ~ idle q) l ->
  found e files id (Some f) -> (forall id', (exists h, found e files id' h) \/ In (Plugin id') (o :: l) -> id' = id \/ str_lt id id' = true) ->
  destroy (S n) (after e dir (l0 ++ o :: l)) = Undefined.
Proof. exact used_undefined. Qed.
Print Assumptions C57_destroy_undefined.
(* endless when the first identifier plugin() was asked for is unknown and some plugin was found. *)
Theorem C57_destroy_endless : forall e dir l0 o files l id a b id' h n, started e dir l0 o files true ->
  o :: l = a ++ Plugin id :: b -> no_static e (l0 ++ a) id -> (forall f, ~ found e files id (Some f)) -> found e files id' h -> id' <> id ->
  (forall id', (exists h, found e files id' h) \/ In (Plugin id') (o :: l) -> id' = id \/ str_lt id id' = true) ->
  destroy n (after e dir (l0 ++ o :: l)) = Running.
Proof. exact asked_endless. Qed.
Print Assumptions C57_destroy_endless.

(* ---- a concrete environment ---- *)
Definition plug (id : str) (m : option maker) : lib := mkLib (Some id) (Some $"T") m.
Definition env1 : env := mkE
  (fun p => if str_is p $"d" then Some (mkL [$"d/b.so"; $"d/x.txt"; $"d/a.so"; $"d/c.so"] false) else if str_is p $"bad" then Some (mkL [$"d/a.so"] true) else None)
  (fun p => None)
  (fun f => if str_is f $"d/a.so" then Some (plug $"a" (Some Makes)) else if str_is f $"d/b.so" then Some (plug $"b" (Some Makes))
            else if str_is f $"d/c.so" then Some (plug $"c" None) else None)
  (mkLib None None None) $"T" (fun n => match n with O => $"a" | _ => $"z" end).
Definition files1 : list str := [$"d/b.so"; $"d/x.txt"; $"d/a.so"; $"d/c.so"].
Lemma visits1 : visits env1 false [$"d"] files1 true.
Proof. unfold files1. rewrite <- (app_nil_r [$"d/b.so"; _; _; _]). apply (V_dir env1 false $"d" [] (mkL files1 false)); [reflexivity|reflexivity|constructor]. Qed.
Lemma started1 o : starts o = Some false -> started env1 $"d" [] o files1 true.
Proof. intros H. constructor; [intros q []|]. exists false. split; [exact H|]. exact visits1. Qed.
Example C57_nonvacuous :
  started env1 $"d" [] (Initialize true false) files1 true /\
  snd (calls env1 (new_manager $"d") [Initialize true false; Errors; Plugin $"a"; Plugin $"b"; Plugin $"a"; Create $"a"; Create $"a"; Plugin $"c"; Errors; AddStatic 0; Plugin $"a"; Available; RemoveStatic $"a"; Plugin $"a"]) =
  [Bool true; Messages [CannotOpen $"d/x.txt"]; Pointer (Some (Made 0)); Pointer (Some (Made 1)); Pointer (Some (Made 0)); Pointer (Some (Made 2)); Pointer (Some (Made 3)); Pointer None;
   Messages [CannotOpen $"d/x.txt"; CannotLoad $"c"]; Done; Pointer (Some (Static 0)); Strings [$"a"; $"b"; $"c"; $"a"]; Done; Pointer (Some (Made 0))].
Proof. split; [apply started1; reflexivity|vm_compute; reflexivity]. Qed.
Example C57_failed_nonvacuous : started env1 $"bad" [] Plugins [$"d/a.so"] false.
Proof. constructor; [intros q []|]. exists false. split; [reflexivity|]. apply (V_broken env1 false $"bad" [] (mkL [$"d/a.so"] true)); reflexivity. Qed.
Lemma found1 : found env1 files1 $"a" (Some $"d/a.so").
Proof.
  exists [$"d/b.so"; $"d/x.txt"], $"d/a.so", [$"d/c.so"]. split; [reflexivity|]. split; [eapply O_lib; reflexivity|].
  intros f' h' [<-|[]] O. inversion O as [file l id A B C|file id A B C]; subst; vm_compute in A; [injection A as <-|discriminate]. vm_compute in B. discriminate.
Qed.
Lemma offers1 f h id : In f files1 -> offers env1 f h id -> id = $"a" \/ id = $"b" \/ id = $"c".
Proof.
  intros I O. inversion O as [file l id' A B C|file id' A B C]; subst; cbn in I; [|vm_compute in B; discriminate].
  destruct I as [<-|[<-|[<-|[<-|[]]]]]; vm_compute in A; try discriminate; injection A as <-; injection B as <-; auto.
Qed.
Lemma found_ids id h : found env1 files1 id h -> id = $"a" \/ id = $"b" \/ id = $"c".
Proof. intros (l1 & f & l2 & E & O & _). apply (offers1 f h); [rewrite E; apply in_or_app; right; left; reflexivity|exact O]. Qed.

(* A manager that handed out a plugin cannot be destroyed. *)
Theorem C57_destroy_refuted : exists e dir l p, answer e dir l (Plugin p) <> Pointer None /\ forall n, destroy (S n) (after e dir (l ++ [Plugin p])) = Undefined.
Proof.
  exists env1, $"d", [], $"a". split; [vm_compute; discriminate|]. intros n. apply (used_undefined env1 $"d" [] (Plugin $"a") files1 [] $"a" $"d/a.so" n (started1 (Plugin $"a") eq_refl)); [left; discriminate|exact found1|].
  intros id' [(h & F)|[Q|[]]]; [|injection Q as <-; auto]. destruct (found_ids _ _ F) as [->|[->| ->]]; [left; reflexivity|right; reflexivity|right; reflexivity].
Qed.
Print Assumptions C57_destroy_refuted.
Example C57_endless_nonvacuous : forall n, destroy n (after env1 $"d" [Plugin $"A"]) = Running.
Proof.
  intros n. apply (asked_endless env1 $"d" [] (Plugin $"A") files1 [] $"A" [] [] $"a" (Some $"d/a.so") n (started1 (Plugin $"A") eq_refl)); try reflexivity.
  - intros m (a & b & E & _). destruct a; discriminate.
  - intros f F. destruct (found_ids _ _ F) as [Q|[Q|Q]]; discriminate.
  - exact found1.
  - discriminate.
  - intros id' [(h & F)|[Q|[]]]; [|injection Q as <-; auto]. right. destruct (found_ids _ _ F) as [->|[->| ->]]; reflexivity.
Qed.
(* plugin() of an unknown identifier adds NULL to plugins() *)
Theorem C57_unknown_refuted : exists e dir l id, answer e dir l (Plugin id) = Pointer None /\ answer e dir (l ++ [Plugin id]) Plugins <> answer e dir l Plugins.
Proof. exists env1, $"d", [], $"zz". split; [vm_compute; reflexivity|]. vm_compute. discriminate. Qed.
Print Assumptions C57_unknown_refuted.
(* createPluginInstance() of an unknown identifier makes it available *)
Theorem C57_create_unknown_refuted : exists e dir l id, answer e dir l (Create id) = Pointer None /\ answer e dir (l ++ [Create id]) Available <> answer e dir l Available.
Proof. exists env1, $"d", [], $"zz". split; [vm_compute; reflexivity|]. vm_compute. discriminate. Qed.
Print Assumptions C57_create_unknown_refuted.
(* an available plugin need not exist *)
Theorem C57_available_null_refuted : exists e dir id ids, answer e dir [] Available = Strings ids /\ In id ids /\ answer e dir [Available] (Plugin id) = Pointer None.
Proof. exists env1, $"d", $"c", [$"a"; $"b"; $"c"]. split; [vm_compute; reflexivity|]. split; [right; right; left; reflexivity|vm_compute; reflexivity]. Qed.
Print Assumptions C57_available_null_refuted.
(* after a failed search the plugins are listed but never loaded, and initialize() says true *)
Theorem C57_retry_refuted : exists e dir id, answer e dir [] (Initialize false false) = Thrown /\ answer e dir [Initialize false false] (Initialize false false) = Bool true /\
  answer e dir [Initialize false false] Available = Strings [id] /\ forall l, (forall n, ~ In (AddStatic n) l) -> answer e dir (Initialize false false :: l) (Plugin id) = Pointer None.
Proof.
  exists env1, $"bad", $"a". split; [vm_compute; reflexivity|]. split; [vm_compute; reflexivity|]. split; [vm_compute; reflexivity|].
  assert (St : started env1 $"bad" [] (Initialize false false) [$"d/a.so"] false).
  { constructor; [intros q []|]. exists false. split; [reflexivity|]. apply (V_broken env1 false $"bad" [] (mkL [$"d/a.so"] true)); reflexivity. }
  destruct (behaves_ok _ _ _ _ _ _ St) as (obj & B). intros l NA. destruct (b_plugin _ _ _ _ _ _ _ B _ _ _ (P_failed [] (Initialize false false) l (Plugin $"a"))) as (p & A & I & _).
  cbn [app] in A. rewrite A. f_equal. destruct I as [n (x & y & E & _)|_].
  - exfalso. destruct x as [|x0 x]; cbn [app] in E; [discriminate|]. injection E as _ E. apply (NA n). cbn [app] in E. rewrite E. apply in_or_app. right. left. reflexivity.
  - destruct (obj $"a") as [k|] eqn:Q; [|reflexivity]. assert (X : exists k, obj $"a" = Some k) by eauto. apply (b_obj _ _ _ _ _ _ _ B) in X. destruct X as (X & _). discriminate.
Qed.
Print Assumptions C57_retry_refuted.
(* a path added after the start is listed but not searched *)
Theorem C57_late_path_refuted : exists e dir p, answer e dir [Initialize false false; AddPath p; Initialize false false] Paths = Strings [p] /\
  answer e dir [Initialize false false; AddPath p; Initialize false false] Available = Strings [] /\ answer e dir [AddPath p] Available <> Strings [].
Proof. exists env1, [], $"d". split; [vm_compute; reflexivity|]. split; [vm_compute; reflexivity|]. vm_compute. discriminate. Qed.
Print Assumptions C57_late_path_refuted.
