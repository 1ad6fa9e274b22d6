(* C36 Configuration source precedence, C37 Configuration observers.  Vocabulary: ConfigSpec. *)
From Verif Require Import Base Text SMap KeyValueDirectoryModel GetoptModel GetoptSpec ConfigModel ConfigSpec ConfigProofs.

(* A concrete file system: /etc/a.xml has the keys /x and, from the included file /etc/b.tree, /y/z.
   /etc/c.xml includes itself, /etc/d.xml has text directly below its root element. Everything else cannot be read. *)
Definition ex_fs : files := mkF
  (fun f => if str_eqb f $"/etc/a.xml"
            then Some (Some (Element $"config" [Other; Element $"x" [TextNode $"1"]; Element $"INCLUDE" [TextNode $"b.tree"]]))
            else if str_eqb f $"/etc/c.xml" then Some (Some (Element $"config" [Element $"INCLUDE" [TextNode $"c.xml"]]))
            else if str_eqb f $"/etc/d.xml" then Some (Some (Element $"config" [TextNode $"text"]))
            else None)
  (fun f => if str_eqb f $"/etc/b.tree"
            then Some (Some (Tree None false None [Tree (Some $"y") true (Some $"comment") [Tree (Some $"z") false (Some $"2") []]]))
            else None)
  (fun f => if str_eqb f $"/etc/b.tree" then $".tree" else $".xml")
  (fun _ => $"/etc/")
  (fun q k => str_eqb q $".*" || str_eqb q k).
Lemma ex_documents : documents ex_fs.
Proof.
  intros f root H. cbn [xml_file ex_fs] in H. destruct (str_eqb f $"/etc/a.xml"); [injection H as H; subst root; eauto|].
  destruct (str_eqb f $"/etc/c.xml"); [injection H as H; subst root; eauto|].
  destruct (str_eqb f $"/etc/d.xml"); [injection H as H; subst root; eauto|discriminate].
Qed.
Definition ex_entries : list entry := [($"/x", $"1"); ($"/y/z", $"2")].
Lemma ex_file : file_entries ex_fs $"/etc/a.xml" ex_entries.
Proof.
  eapply fe_xml; [reflexivity|reflexivity|]. cbn [directory_of ex_fs]. apply ce_other.
  apply (ce_element _ _ _ $"x" _ _ [($"/x", $"1")] [($"/y/z", $"2")]); [discriminate| |].
  - apply ce_text, ce_nil.
  - apply (ce_include _ _ _ [TextNode $"b.tree"] $"b.tree" [] [($"/y/z", $"2")] []); [reflexivity| |apply ce_nil].
    change [($"/y/z", $"2")] with (tree_entries [] (Tree None false None [Tree (Some $"y") true (Some $"comment") [Tree (Some $"z") false (Some $"2") []]])).
    apply fe_tree; reflexivity.
Qed.
(* a manager with a parameter -x (key /x), a parameter with a default, and observers 1 of /x and 2 of all keys *)
Definition ex_manager : manager :=
  registerObserver ex_fs (registerObserver ex_fs (addConfigPositional (addConfigParameter new_manager (mkC $"/x" $"exes" [])) (mkC $"/p" $"pos" $"7")) 1 $"/x") 2 [].
Definition ex_ops : list op :=
  [AddParameter (mkC $"/x" $"exes" []); AddPositional (mkC $"/p" $"pos" $"7"); Register 1 $"/x"; Register 2 []].
Lemma ex_reachable : reachable ex_fs ex_manager.
Proof.
  exists ex_ops. unfold ex_ops. eapply h_cons; [apply s_param|]. eapply h_cons; [apply s_positional|]. eapply h_cons; [apply s_register|].
  eapply h_cons; [apply s_register|]. apply h_nil.
Qed.
(* --configfile=/etc/a.xml --exes=3 --config-option/q=5 *)
Definition ex_parsed : parsed :=
  mkR [($"configfile", $"/etc/a.xml"); ($"exes", $"3")] [($"config-option", [($"/q", $"5")])] [] [].
Definition ex_after : manager := match initialize_config 2 ex_fs ex_parsed ex_manager with Some (_, m) => m | None => ex_manager end.
Example ex_initialize : initialize_config 2 ex_fs ex_parsed ex_manager = Some (true, ex_after).
Proof. vm_compute. reflexivity. Qed.

(* C36: loading a file sets the keys of the file, in document order, to its values, included files being read where they
   are included; the result says whether the file could be read *)
Theorem C36_load fs m f fuel b m' : documents fs -> reachable fs m -> load fuel fs f m = Some (b, m') ->
  b = readable fs f /\ exists l, file_entries fs f l /\ recorded m l m'.
Proof.
  intros D R H. destruct (load_sound fs D _ _ _ _ _ H) as (l & F & -> & ->). split; auto. exists l. split; auto.
  apply puts_recorded, (reachable_inv fs m D R).
Qed.
Print Assumptions C36_load.
Theorem C36_load_complete fs m f l : documents fs -> reachable fs m -> file_entries fs f l ->
  exists fuel, forall n, (fuel <= n)%nat -> exists m', load n fs f m = Some (readable fs f, m') /\ recorded m l m'.
Proof.
  intros D R H. destruct (load_complete fs D f l H) as (fuel & E). exists fuel. intros n Hn. exists (puts m l). split.
  - eapply load_mono_le; eauto.
  - apply puts_recorded, (reachable_inv fs m D R).
Qed.
Print Assumptions C36_load_complete.
Example C36_load_ex : documents ex_fs /\ reachable ex_fs ex_manager /\ file_entries ex_fs $"/etc/a.xml" ex_entries /\
  exists m', load 2 ex_fs $"/etc/a.xml" ex_manager = Some (true, m') /\ value_at m' $"/y/z" = Some $"2".
Proof. split; [apply ex_documents|]. split; [apply ex_reachable|]. split; [apply ex_file|]. eexists. split; vm_compute; reflexivity. Qed.

(* C36: loading returns if and only if there is no infinite chain of includes below the file *)
Theorem C36_load_returns fs m f : documents fs ->
  (exists fuel, load fuel fs f m <> None) <-> Acc (fun g f => includes fs f g) f.
Proof.
  intros D. split.
  - intros [fuel H]. destruct (load fuel fs f m) eqn:E; [|congruence]. eapply load_acc; eauto.
  - intros A. destruct (acc_entries fs f D A) as (l & F). destruct (load_complete fs D f l F) as (fuel & E). exists fuel. rewrite E. discriminate.
Qed.
Print Assumptions C36_load_returns.
Theorem C36_include_cycle_refuted : ~ (forall fs m f, documents fs -> reachable fs m -> exists fuel, load fuel fs f m <> None).
Proof.
  intros H. destruct (H ex_fs ex_manager $"/etc/c.xml" ex_documents ex_reachable) as [fuel E].
  assert (A : Acc (fun g f => includes ex_fs f g) $"/etc/c.xml") by (eapply C36_load_returns; [apply ex_documents|eauto]).
  assert (I : includes ex_fs $"/etc/c.xml" $"/etc/c.xml").
  { split; [reflexivity|]. eexists _, _, $"c.xml". split; [reflexivity|]. split; [left; reflexivity|reflexivity]. }
  clear -A I. remember ($"/etc/c.xml") as f. induction A as [f _ IH]. exact (IH f I Heqf I).
Qed.
Print Assumptions C36_include_cycle_refuted.
Example C36_load_returns_ex : Acc (fun g f => includes ex_fs f g) $"/etc/a.xml" /\ includes ex_fs $"/etc/a.xml" $"/etc/b.tree".
Proof.
  split.
  - eapply C36_load_returns with (m := ex_manager); [apply ex_documents|]. exists 2%nat. vm_compute. discriminate.
  - split; [reflexivity|]. eexists _, _, $"b.tree". split; [reflexivity|]. split; [left; reflexivity|reflexivity].
Qed.

(* C36: after a successful initialize every key has the value of the first of these sources that has one: --config-option,
   the registered parameters on the command line, the configuration file, the value before the call, the default values.
   A key that no source has a value for has none. *)
Theorem C36_precedence fs m fuel p m' : documents fs -> reachable fs m -> initialized m = false ->
  initialize_config fuel fs p m = Some (true, m') ->
  exists l, configured fs p l /\ forall k,
    value_at m' k = first_some [last_of k (paramPrefixOpt p $"config-option");
                                last_of k (command_line p (parameter_list m ++ positional_list m));
                                last_of k l;
                                value_at m k;
                                first_of k (defaults (parameter_list m ++ positional_list m))].
Proof.
  intros D R I H. pose proof (reachable_inv fs m D R) as V. destruct V as (O & K & C).
  destruct (initialize_puts _ _ _ _ _ D O K I H) as (l & l' & CF & IE & ->). exists l. split; auto. intros k.
  rewrite <- (precedence fs p m l l' (conj O (conj K C)) CF IE k). apply (puts_value m l' O k).
Qed.
Print Assumptions C36_precedence.
Example C36_precedence_ex : initialized ex_manager = false /\ initialize_config 2 ex_fs ex_parsed ex_manager = Some (true, ex_after) /\
  value_at ex_after $"/x" = Some $"3" /\ value_at ex_after $"/y/z" = Some $"2" /\ value_at ex_after $"/p" = Some $"7" /\
  value_at ex_after $"/q" = Some $"5" /\ value_at ex_after $"/configfile" = Some $"/etc/a.xml" /\ value_at ex_after $"/none" = None.
Proof. vm_compute. repeat split; reflexivity. Qed.

(* C36: initialize fails exactly if the configuration file cannot be read, and then changes nothing; a second
   initialize succeeds and changes nothing *)
Theorem C36_failure fs m fuel p b m' : documents fs -> initialized m = false -> initialize_config fuel fs p m = Some (b, m') ->
  (b = false <-> paramOptPresent p $"configfile" = true /\ readable fs (paramOpt p $"configfile") = false) /\
  (b = false -> m' = m) /\ (b = true -> initialized m' = true).
Proof.
  intros D I H. split; [split|split].
  - intros ->. apply initialize_fails in H; tauto.
  - intros [P N]. unfold initialize_config in H. rewrite I, P in H. cbv zeta in H.
    destruct (load fuel fs (paramOpt p $"configfile") m) as [[b1 m1]|] eqn:EL; [|discriminate].
    destruct (load_sound fs D _ _ _ _ _ EL) as (l & _ & _ & E). rewrite N in E. subst b1. congruence.
  - intros ->. apply initialize_fails in H; tauto.
  - intros ->. unfold initialize_config in H. rewrite I in H.
    destruct (match paramOptPresent p $"configfile" with true => _ | false => _ end) as [[[|] m1]|]; try discriminate.
    apply some_pair in H. subst m'. reflexivity.
Qed.
Print Assumptions C36_failure.
Theorem C36_initialize_once fs m fuel p m' : documents fs -> initialized m = false -> initialize_config fuel fs p m = Some (true, m') ->
  forall l m2, history fs l m' m2 -> forall fuel' fs' p', initialize_config fuel' fs' p' m2 = Some (true, m2).
Proof.
  intros D I H l m2 Hh fuel' fs' p'. assert (E : initialized m2 = true).
  { eapply history_initialized; eauto. eapply C36_failure; eauto. }
  unfold initialize_config. rewrite E. reflexivity.
Qed.
Print Assumptions C36_initialize_once.
(* and initialize returns if there is no infinite chain of includes below the configuration file *)
Theorem C36_initialize_returns fs m p : documents fs -> reachable fs m ->
  (paramOptPresent p $"configfile" = true -> Acc (fun g f => includes fs f g) (paramOpt p $"configfile")) ->
  exists fuel x, initialize_config fuel fs p m = Some x.
Proof.
  intros D R A. unfold initialize_config. destruct (initialized m); [exists 0%nat; eauto|].
  destruct (paramOptPresent p $"configfile"); [|exists 0%nat; eauto].
  apply C36_load_returns with (m := m) in A; auto. destruct A as [fuel A]. exists fuel. cbv zeta.
  destruct (load fuel fs (paramOpt p $"configfile") m) as [[[|] m1]|]; [eauto|eauto|congruence].
Qed.
Print Assumptions C36_initialize_returns.
Example C36_failure_ex : initialize_config 2 ex_fs (mkR [($"configfile", $"/etc/none.xml")] [] [] []) ex_manager = Some (false, ex_manager) /\
  initialized ex_after = true /\ initialize_config 0 ex_fs ex_parsed ex_after = Some (true, ex_after).
Proof. vm_compute. repeat split; reflexivity. Qed.

(* C37: everything initialize sets is announced, when it is set, to the observers registered for the key and then to those
   registered for all keys; nothing else is announced *)
Theorem C37_initialize fs m fuel p m' : documents fs -> reachable fs m -> initialized m = false ->
  initialize_config fuel fs p m = Some (true, m') ->
  exists l l', configured fs p l /\ initial_entries p m l l' /\ recorded m l' m'.
Proof.
  intros D R I H. pose proof (reachable_inv fs m D R) as (O & K & C).
  destruct (initialize_puts _ _ _ _ _ D O K I H) as (l & l' & CF & IE & ->). exists l, l'. split; auto. split; auto.
  apply (puts_recorded m l' O).
Qed.
Print Assumptions C37_initialize.
(* C37: setValue announces the change in the same way; for the key /configfile it also loads the file named by the value.
   It returns whether the key is new. *)
Theorem C37_setValue fs m fuel k v b m' : documents fs -> reachable fs m -> setValue fuel fs k v m = Some (b, m') ->
  exists l, (k <> $"/configfile" /\ l = [] \/ k = $"/configfile" /\ file_entries fs v l) /\
    recorded m (l ++ [(k, v)]) m' /\ (b = true <-> value_at m k = None /\ last_of k l = None).
Proof.
  intros D R H. pose proof (reachable_inv fs m D R) as (O & _). destruct (set_puts _ _ _ _ _ _ _ D H) as (l & -> & F & B). exists l. split.
  - destruct (list_eq_dec ascii_dec k $"/configfile"); auto.
  - split; [apply (puts_recorded m _ O)|]. rewrite B, (puts_value m l O). destruct (last_of k l); [split; intros; [discriminate|tauto]|]. 
    split; [auto|tauto].
Qed.
Print Assumptions C37_setValue.
Example C37_told_ex : told ex_after = [(1, $"/x"); (2, $"/x"); (2, $"/y/z"); (2, $"/configfile"); (2, $"/configfile"); (1, $"/x"); (2, $"/x"); (2, $"/p"); (2, $"/q")]%nat /\
  exists m', setValue 0 ex_fs $"/x" $"9" ex_after = Some (false, m') /\ told m' = told ex_after ++ [(1, $"/x"); (2, $"/x")]%nat.
Proof. split; [vm_compute; reflexivity|]. eexists. split; vm_compute; reflexivity. Qed.

(* C37: who is registered: registration adds at the end, removal takes the observer out for every key *)
Theorem C37_registration fs m : documents fs -> reachable fs m ->
  (forall o k k', registered_for (registerObserver fs m o k) k' = if list_eq_dec ascii_dec k' k then registered_for m k ++ [o] else registered_for m k') /\
  (forall o k, registered_for (unregisterObserver m o) k = remove Nat.eq_dec o (registered_for m k)) /\
  (forall k, registered_for new_manager k = []).
Proof.
  intros D R. split; [|split]; [|apply registered_unreg|reflexivity]. intros. apply registered_reg, (reachable_inv fs m D R).
Qed.
Print Assumptions C37_registration.

(* C37: an observer that registers for all keys is told about every key that has a value, once each; one that registers
   for a key which, as a regular expression, matches only itself is told if that key has a value *)
Theorem C37_register_all fs m o : documents fs -> reachable fs m -> (forall k, matches fs $".*" k = true) ->
  exists ks, told (registerObserver fs m o []) = told m ++ map (fun k => (o, k)) ks /\ NoDup ks /\
    forall k, In k ks <-> value_at m k <> None.
Proof.
  intros D R M. pose proof (reachable_inv fs m D R) as ((O & _) & _). exists (map fst (items m)).
  destruct (register_fields fs m o []) as (_ & _ & _ & _ & _ & T). cbv zeta in T. rewrite T. split; [|split].
  - rewrite map_map. f_equal. f_equal. clear -M. induction (items m) as [|e l IH]; cbn [filter]; auto. rewrite M, IH. auto.
  - clear -O. induction O as [|k v r Hs IH Hlt]; cbn [map fst]; constructor; auto. intros H. apply in_map_iff in H.
    destruct H as ([k' v'] & E & H). apply Hlt in H. cbn in E. subst k'. rewrite str_lt_irrefl in H. discriminate.
  - intros k. unfold value_at. split.
    + intros H E. apply in_map_iff in H. destruct H as ([k' v'] & Ek & H). cbn in Ek. subst k'. apply (map_get_none (items m) k O) with (v := v') in E. auto.
    + intros H. destruct (map_get (items m) k) as [v|] eqn:E; [|congruence]. apply map_get_in in E; auto.
      apply in_map_iff. exists (k, v). auto.
Qed.
Print Assumptions C37_register_all.
Theorem C37_register_key fs m o k : documents fs -> reachable fs m -> k <> [] -> (forall k', matches fs k k' = true <-> k' = k) ->
  told (registerObserver fs m o k) = told m ++ (if value_at m k then [(o, k)] else []).
Proof.
  intros D R N M. pose proof (reachable_inv fs m D R) as ((O & _) & _).
  destruct (register_fields fs m o k) as (_ & _ & _ & _ & _ & T). cbv zeta in T. rewrite T. f_equal. destruct k as [|x k]; [congruence|].
  set (q := x :: k) in *. unfold value_at. destruct (existsb _ _) eqn:E.
  - apply existsb_exists in E. destruct E as ([k' v] & Hin & Hm). apply M in Hm. cbn in Hm. subst k'. apply map_get_in in Hin; auto. rewrite Hin. auto.
  - destruct (map_get (items m) q) as [v|] eqn:Eg; auto. exfalso. apply map_get_in in Eg; auto.
    assert (existsb (fun kv => matches fs q (fst kv)) (items m) = true); [|congruence].
    apply existsb_exists. exists (q, v). split; auto. apply M. auto.
Qed.
Print Assumptions C37_register_key.
(* ... but the key is used as a regular expression: an observer can be told about a key that has no value *)
Theorem C37_register_regex_refuted : ~ (forall fs m o k, documents fs -> reachable fs m -> k <> [] ->
  (forall k', matches fs $".*" k' = true) ->
  told (registerObserver fs m o k) = told m ++ (if value_at m k then [(o, k)] else [])).
Proof.
  intros H. specialize (H ex_fs ex_after 3%nat $".*" ex_documents).
  assert (R : reachable ex_fs ex_after).
  { exists (ex_ops ++ [Initialize ex_parsed]). unfold ex_ops. eapply h_cons; [apply s_param|]. eapply h_cons; [apply s_positional|]. eapply h_cons; [apply s_register|].
    eapply h_cons; [apply s_register|]. eapply h_cons; [eapply s_init, ex_initialize|]. apply h_nil. }
  specialize (H R). assert (N : $".*" <> []) by discriminate. specialize (H N). vm_compute in H.
  assert (forall k : str, true = true) as T by reflexivity. specialize (H T). discriminate H.
Qed.
Print Assumptions C37_register_regex_refuted.

(* C37: after unregisterObserver an observer is not told anything any more until it registers again, whatever is called *)
Theorem C37_unregistered fs m o l m' : documents fs -> reachable fs m -> history fs l (unregisterObserver m o) m' ->
  (forall k, ~ In (Register o k) l) -> forall k, In (o, k) (told m') -> In (o, k) (told m).
Proof.
  intros D R H N k Hin. pose proof (reachable_inv fs m D R) as V.
  apply (history_silent fs l (unregisterObserver m o) m' o D H) with (e := (o, k)) in Hin; auto.
  - eapply step_inv; [exact D|apply s_unregister|exact V].
  - intros k' Q. rewrite registered_unreg in Q. apply in_remove in Q. tauto.
Qed.
Print Assumptions C37_unregistered.
(* more exactly: no further calls at all, not only none with new keys *)
Theorem C37_unregistered_count fs m o l m' : documents fs -> reachable fs m -> history fs l (unregisterObserver m o) m' ->
  (forall k, ~ In (Register o k) l) ->
  filter (fun e => fst e =? o)%nat (told m') = filter (fun e => fst e =? o)%nat (told m).
Proof.
  intros D R H N. pose proof (reachable_inv fs m D R) as V.
  apply (history_count fs l (unregisterObserver m o) m' o D H); auto.
  - eapply step_inv; [exact D|apply s_unregister|exact V].
  - intros k' Q. rewrite registered_unreg in Q. apply in_remove in Q. tauto.
Qed.
Print Assumptions C37_unregistered_count.
Example C37_unregistered_ex : exists m', history ex_fs [SetValue $"/x" $"8"; Initialize ex_parsed] (unregisterObserver ex_manager 1) m' /\
  (~ In (1%nat, $"/x") (told m')) /\ In (2%nat, $"/x") (told m').
Proof.
  eexists. split; [|split].
  - eapply h_cons; [eapply (s_set _ _ 0); vm_compute; reflexivity|]. eapply h_cons; [eapply (s_init _ _ 2); vm_compute; reflexivity|]. apply h_nil.
  - vm_compute. intros H. repeat (destruct H as [H|H]; [discriminate H|]). destruct H.
  - vm_compute. auto.
Qed.

(* C37: exactly one call each is refuted for the key "" (text directly below the root element of a file): the observers
   of all keys are told twice *)
Theorem C37_empty_key_refuted : ~ (forall fs m f fuel m' l, documents fs -> reachable fs m -> load fuel fs f m = Some (true, m') ->
  file_entries fs f l -> forall o, registered_for m [] = [o] -> (forall k, k <> [] -> registered_for m k = []) ->
  told m' = told m ++ map (fun e => (o, fst e)) l).
Proof.
  intros H. specialize (H ex_fs (registerObserver ex_fs new_manager 2 []) $"/etc/d.xml" 1%nat (put (registerObserver ex_fs new_manager 2 []) [] $"text") [([], $"text")] ex_documents).
  assert (R : reachable ex_fs (registerObserver ex_fs new_manager 2 [])).
  { exists [Register 2 []]. eapply h_cons; [apply s_register|]. apply h_nil. }
  specialize (H R eq_refl). assert (F : file_entries ex_fs $"/etc/d.xml" [([], $"text")]).
  { eapply fe_xml; [reflexivity|reflexivity|]. apply ce_text, ce_nil. }
  specialize (H F 2%nat eq_refl). assert (K : forall k, k <> [] -> registered_for (registerObserver ex_fs new_manager 2 []) k = []).
  { intros [|x k] N; [congruence|reflexivity]. }
  specialize (H K). vm_compute in H. discriminate H.
Qed.
Print Assumptions C37_empty_key_refuted.
