(* Proofs about the help text. *)
From Verif Require Import Base Text SMap GetoptModel HelpModel HelpSpec.

Lemma str_eqb_eq a b : str_eqb a b = true <-> a = b.
Proof. unfold str_eqb. destruct (list_eq_dec ascii_dec a b); split; congruence. Qed.

Lemma lines_cons s : exists l ls, lines s = l :: ls.
Proof. induction s as [|c r (l & ls & E)]; cbn [lines]; [eauto|]. destruct (Ascii.eqb c newline); eauto. rewrite E. eauto. Qed.
Lemma lines_nl a b : lines (a ++ newline :: b) = lines a ++ lines b.
Proof.
  induction a as [|c a IH]; cbn [app lines].
  - rewrite Ascii.eqb_refl. reflexivity.
  - destruct (Ascii.eqb c newline); rewrite IH; [reflexivity|].
    destruct (lines_cons a) as (l & ls & ->). reflexivity.
Qed.
Lemma lines_plain a : ~ In newline a -> lines a = [a].
Proof.
  induction a as [|c a IH]; cbn [lines]; [reflexivity|]. intros H.
  destruct (Ascii.eqb_spec c newline) as [->|N]; [exfalso; apply H; left; reflexivity|].
  rewrite IH; [reflexivity|]. intros X. apply H. right. exact X.
Qed.
Lemma lines_indent s : lines (tab :: indent s) = map (cons tabulator) (lines s).
Proof.
  assert (X : forall l ls, lines s = l :: ls -> lines (indent s) = l :: map (cons tabulator) ls).
  { induction s as [|c s IH]; intros l ls E; cbn [indent flat_map app lines] in *.
    - injection E as <- <-. reflexivity.
    - fold (indent s). change nl with newline. destruct (Ascii.eqb c newline) eqn:Ec; cbn [app].
      + injection E as <- <-. cbn [lines]. rewrite Ascii.eqb_refl. f_equal.
        destruct (lines_cons s) as (l & ls & E). rewrite E. rewrite (IH _ _ E). reflexivity.
      + destruct (lines_cons s) as (l1 & ls1 & E1). rewrite E1 in E. injection E as <- <-.
        cbn [lines]. rewrite Ec, (IH _ _ E1). reflexivity. }
  destruct (lines_cons s) as (l & ls & E). cbn [lines]. rewrite (X _ _ E), E. reflexivity.
Qed.

Lemma lines_block t h rest : lines (t ++ [nl] ++ [tab] ++ indent h ++ [nl] ++ rest) = block t h ++ lines rest.
Proof.
  change ([nl] ++ [tab] ++ indent h ++ [nl] ++ rest) with (newline :: (tab :: indent h) ++ newline :: rest).
  rewrite lines_nl, lines_nl, lines_indent, app_assoc. reflexivity.
Qed.

(* the registered options as items *)
Definition item_of (e : str * hparam) : item :=
  It (p_option (hp (snd e))) (p_short (hp (snd e))) (p_has_value (hp (snd e))) (hp_help (snd e)).

Lemma opt_entry_title e : opt_entry (snd e) = title (item_of e) ++ [nl] ++ [tab] ++ indent (i_help (item_of e)) ++ [nl].
Proof.
  destruct e as [k [[o s v b] h]]. unfold opt_entry, title, item_of. cbn [snd hp hp_help p_option p_short p_has_value i_name i_short i_value i_help].
  unfold str_eqb. destruct (list_eq_dec ascii_dec s []) as [->|N].
  - destruct v; rewrite <- ?app_assoc; reflexivity.
  - destruct s as [|c s]; [congruence|]. destruct v; rewrite <- ?app_assoc; cbn [app]; rewrite <- ?app_assoc; reflexivity.
Qed.
Lemma pos_entry_title p : pos_entry p = pos_title p ++ [nl] ++ [tab] ++ indent (pos_help p) ++ [nl].
Proof. unfold pos_entry, pos_title. rewrite <- !app_assoc. reflexivity. Qed.

Definition chosen (first : bool) (m : list (str * hparam)) : list item :=
  map item_of (filter (fun e => Bool.eqb first (is_generic (hp (snd e)))) m).

Lemma lines_options first m rest :
  lines (flat_map (fun e => if Bool.eqb first (is_generic (hp (snd e))) then opt_entry (snd e) else []) m ++ rest) =
  concat (map (fun i => block (title i) (i_help i)) (chosen first m)) ++ lines rest.
Proof.
  unfold chosen. induction m as [|e m IH]; cbn [flat_map filter map concat app]; [reflexivity|].
  destruct (Bool.eqb first (is_generic (hp (snd e)))); [|exact IH].
  cbn [map concat]. rewrite opt_entry_title, <- !app_assoc, <- IH. apply lines_block.
Qed.
Lemma lines_positional l rest :
  lines (flat_map pos_entry l ++ rest) = concat (map (fun p => block (pos_title p) (pos_help p)) l) ++ lines rest.
Proof.
  induction l as [|e l IH]; cbn [flat_map map concat app]; [reflexivity|].
  rewrite pos_entry_title, <- !app_assoc, <- IH. apply lines_block.
Qed.

Lemma lines_section first m rest :
  lines (section first m ++ rest) =
  (if first then $"Generic options:" else $"Options:") :: concat (map (fun i => block (title i) (i_help i)) (chosen first m)) ++ [] :: lines rest.
Proof.
  unfold section. rewrite <- !app_assoc. change ([nl] ++ ?x) with (newline :: x). rewrite lines_nl, lines_options.
  change ([nl] ++ rest) with ([] ++ newline :: rest). rewrite lines_nl. destruct first; reflexivity.
Qed.

(* what the calls leave behind *)
Lemma do_calls calls : forall g,
  h_required (fold_left do_call calls g) = h_required g ++ positional false calls /\
  h_optional (fold_left do_call calls g) = h_optional g ++ positional true calls /\
  h_name (fold_left do_call calls g) = h_name g /\
  h_version (fold_left do_call calls g) = fold_left (fun v c => match c with SetVersion w => w | _ => v end) calls (h_version g) /\
  h_description (fold_left do_call calls g) = fold_left (fun v c => match c with SetDescription w => w | _ => v end) calls (h_description g).
Proof.
  induction calls as [|c calls IH]; intros g; cbn [fold_left positional flat_map].
  - rewrite !app_nil_r. auto.
  - destruct (IH (do_call g c)) as (H1 & H2 & H3 & H4 & H5). rewrite H1, H2, H3, H4, H5. fold (positional false calls) (positional true calls).
    destruct c as [o s h b|n h b|v|d]; cbn [do_call].
    + destruct (p_is_prefix (make_param o s b)); cbn [h_required h_optional h_name h_version h_description app]; auto.
    + destruct b; cbn [h_required h_optional h_name h_version h_description Bool.eqb app]; rewrite <- ?app_assoc; auto.
    + cbn [h_required h_optional h_name h_version h_description app]; auto.
    + cbn [h_required h_optional h_name h_version h_description app]; auto.
Qed.

Lemma declares_make o n v s b : Declares o n v -> make_param o s b = mkP n s v b.
Proof.
  unfold Declares, make_param. destruct v.
  - intros ->. rewrite app_length. replace (length n + length $":" =? 0) with false by (symmetry; apply Nat.eqb_neq; cbn; lia).
    cbn [list_ascii_of_string]. rewrite last_last. cbn [negb andb Ascii.eqb].
    replace (length n + length [":"%char] - 1) with (length n) by (cbn; lia).
    rewrite firstn_app, firstn_all, Nat.sub_diag. cbn. rewrite app_nil_r. reflexivity.
  - intros [-> H]. destruct (list_eq_dec ascii_dec n []) as [->|N]; [reflexivity|].
    destruct (exists_last N) as (l & x & E2). rewrite E2, last_last.
    destruct (Ascii.eqb_spec x ":"%char) as [->|N2]; [exfalso; apply (H l); exact E2|]. rewrite andb_false_r. reflexivity.
Qed.
Lemma declares_some o : exists n v, Declares o n v.
Proof.
  destruct (list_eq_dec ascii_dec o []) as [->|N].
  - exists [], false. split; [reflexivity|]. intros n E. destruct n; discriminate.
  - destruct (exists_last N) as (l & x & E). destruct (ascii_dec x ":"%char) as [->|N2].
    + exists l, true. exact E.
    + exists o, false. split; [reflexivity|]. intros n E2. rewrite E in E2. apply app_inj_tail in E2. destruct E2 as [_ X]. contradiction.
Qed.
Lemma declares_fun o n v n' v' : Declares o n v -> Declares o n' v' -> n = n' /\ v = v'.
Proof.
  intros H1 H2. pose proof (declares_make o n v [] false H1) as E1. pose proof (declares_make o n' v' [] false H2) as E2.
  rewrite E1 in E2. injection E2 as -> ->. auto.
Qed.

(* registered names and first registrations, over any list of calls *)
Definition First (cs : list call) (i : item) : Prop :=
  exists pre post option,
    cs = pre ++ AddOption option (i_short i) (i_help i) false :: post /\
    Declares option (i_name i) (i_value i) /\
    forall option' short' help' value', In (AddOption option' short' help' false) pre -> ~ Declares option' (i_name i) value'.

Lemma first_exists cs o s h n v : In (AddOption o s h false) cs -> Declares o n v -> exists i, First cs i /\ i_name i = n.
Proof.
  induction cs as [|c cs IH]; intros Hin D; [destruct Hin|].
  assert (Dec : (exists o' s' h' v', c = AddOption o' s' h' false /\ Declares o' n v') \/ (forall o' s' h' v', c = AddOption o' s' h' false -> ~ Declares o' n v')).
  { destruct c as [o' s' h' [|]| | |]; try (right; intros; discriminate).
    destruct (declares_some o') as (n' & v' & D'). destruct (list_eq_dec ascii_dec n' n) as [->|N].
    - left. exists o', s', h', v'. auto.
    - right. intros o1 s1 h1 v1 E D1. injection E as <- _ _. destruct (declares_fun _ _ _ _ _ D' D1). contradiction. }
  destruct Dec as [(o' & s' & h' & v' & -> & D')|Dec].
  - exists (It n s' v' h'). split; [|reflexivity]. exists [], cs, o'. cbn. split; [reflexivity|]. split; [exact D'|]. intros ? ? ? ? [].
  - destruct Hin as [->|Hin]; [exfalso; exact (Dec _ _ _ _ eq_refl D)|].
    destruct (IH Hin D) as (i & (pre & post & o1 & E & D1 & H1) & Hi). exists i. split; [|exact Hi].
    exists (c :: pre), post, o1. split; [rewrite E; reflexivity|]. split; [exact D1|].
    intros o2 s2 h2 v2 [->|H2]; [rewrite Hi; apply (Dec _ _ _ _ eq_refl)|apply (H1 _ _ _ _ H2)].
Qed.

Lemma first_snoc cs c i : First (cs ++ [c]) i <->
  First cs i \/ (exists o, c = AddOption o (i_short i) (i_help i) false /\ Declares o (i_name i) (i_value i) /\
                 forall j, First cs j -> i_name j <> i_name i).
Proof.
  split.
  - intros (pre & post & o & E & D & H). destruct post as [|x post] using rev_ind.
    + apply app_inj_tail in E. destruct E as [-> ->]. right. exists o. split; [reflexivity|]. split; [exact D|].
      intros j (pre1 & post1 & o1 & E1 & D1 & _) En. rewrite En in D1. apply (H o1 (i_short j) (i_help j) (i_value j)); [|exact D1].
      rewrite E1. apply in_elt.
    + clear IHpost. rewrite app_comm_cons, app_assoc in E. apply app_inj_tail in E. destruct E as [E _]. left. exists pre, post, o. auto.
  - intros [(pre & post & o & E & D & H)|(o & -> & D & H)].
    + exists pre, (post ++ [c]), o. split; [rewrite E, <- app_assoc; reflexivity|]. auto.
    + exists cs, [], o. split; [reflexivity|]. split; [exact D|]. intros o' s' h' v' Hin D'.
      destruct (first_exists cs o' s' h' (i_name i) v' Hin D') as (j & Fj & Nj). exact (H j Fj Nj).
Qed.

Definition Agree (cs : list call) (m : list (str * hparam)) : Prop :=
  sorted m /\ (forall k h, In (k, h) m -> k = p_option (hp h)) /\ (forall i, (exists e, In e m /\ item_of e = i) <-> First cs i).

Lemma agree_calls cs : forall g, Agree [] (h_params g) -> Agree cs (h_params (fold_left do_call cs g)).
Proof.
  induction cs as [|c cs IH] using rev_ind; intros g H0; [exact H0|].
  rewrite fold_left_app. cbn [fold_left]. specialize (IH g H0). set (g1 := fold_left do_call cs g) in *.
  destruct IH as (SO & KE & MF).
  assert (Old : (forall o s h, c <> AddOption o s h false) -> Agree (cs ++ [c]) (h_params g1)).
  { intros N. split; [exact SO|]. split; [exact KE|]. intros i. rewrite MF, first_snoc. split; [auto|].
    intros [H|(o & E & _)]; [exact H|]. exfalso. exact (N _ _ _ E). }
  destruct c as [o s h b|n h [|]|v|d]; cbn [do_call]; try (apply Old; discriminate).
  destruct (declares_some o) as (n & v & D). rewrite (declares_make o n v s b D). cbn [p_is_prefix p_option].
  destruct b; [apply Old; discriminate|]. cbn [h_params]. clear Old. unfold map_insert.
  destruct (map_get (h_params g1) n) as [q|] eqn:Eg.
  - split; [exact SO|]. split; [exact KE|]. intros i. rewrite MF, first_snoc. split; [auto|].
    intros [H|(o' & E & D' & H)]; [exact H|]. exfalso. injection E as <- _ _. destruct (declares_fun _ _ _ _ _ D D') as [En _].
    apply map_get_in in Eg; [|exact SO]. assert (Fq : First cs (item_of (n, q))) by (apply MF; exists (n, q); auto).
    apply (H _ Fq). cbn [item_of i_name snd]. rewrite <- (KE _ _ Eg). exact En.
  - split; [apply map_put_sorted; exact SO|]. split.
    + intros k hq Hin. apply map_put_in in Hin; [|exact SO]. destruct Hin as [[-> ->]|[_ Hin]]; [reflexivity|exact (KE _ _ Hin)].
    + intros i. rewrite first_snoc. split.
      * intros ([k q] & Hin & <-). apply map_put_in in Hin; [|exact SO]. destruct Hin as [[-> ->]|[N Hin]].
        -- right. exists o. split; [reflexivity|]. split; [exact D|]. intros j Fj Ej. apply MF in Fj. destruct Fj as ([kj qj] & Hj & <-).
           cbn in Ej. rewrite <- (KE _ _ Hj) in Ej. subst kj. apply map_get_none with (v := qj) in Eg; [contradiction|exact SO].
        -- left. apply MF. exists (k, q). auto.
      * intros [H|(o' & E & D' & H)].
        -- apply MF in H. destruct H as ([k q] & Hin & <-). exists (k, q). split; [|reflexivity]. apply map_put_in; [exact SO|]. right. split; [|exact Hin].
           intros ->. apply map_get_none with (v := q) in Eg; [contradiction|exact SO].
        -- injection E as <- Es Eh. destruct (declares_fun _ _ _ _ _ D D') as [En Ev]. exists (n, mkH (mkP n s v false) h).
           split; [apply map_put_in; [exact SO|auto]|]. destruct i as [ni si vi hi]. cbn in *. subst. reflexivity.
Qed.

Lemma agree_registered name calls : Agree (all_calls calls) (h_params (registered_by name calls)).
Proof.
  unfold registered_by, new_hreg, all_calls.
  change (fold_left do_call calls (do_call ?g ?c)) with (fold_left do_call (c :: calls) g).
  apply agree_calls. cbn [h_params]. split; [constructor|]. split; [intros ? ? []|]. intros i. split.
  - intros (e & [] & _).
  - intros (pre & post & o & E & _). destruct pre; discriminate.
Qed.

Lemma generic_iff p : is_generic p = true <-> In (p_option p) generic_names.
Proof.
  unfold is_generic, generic_names. rewrite !orb_true_iff, !str_eqb_eq. cbn [In]. intuition congruence.
Qed.

Lemma chosen_spec name calls first :
  let l := chosen first (h_params (registered_by name calls)) in
  ascending l /\ forall i, In i l <-> Listed calls i /\ (In (i_name i) generic_names <-> first = true).
Proof.
  intros l. destruct (agree_registered name calls) as (SO & KE & MF). unfold l, chosen. clear l. split.
  - set (m := h_params (registered_by name calls)) in *. clearbody m.
    assert (X : forall f (m : list (str * hparam)), sorted m -> (forall k h, In (k, h) m -> k = p_option (hp h)) ->
       forall x, In x (map item_of (filter f m)) -> exists k h, In (k, h) m /\ i_name x = k).
    { intros f m0 _ KE0 x Hx. apply in_map_iff in Hx. destruct Hx as ([k h] & <- & Hin). apply filter_In in Hin. destruct Hin as [Hin _].
      exists k, h. split; [exact Hin|]. cbn. symmetry. exact (KE0 _ _ Hin). }
    clear MF. induction SO as [|k v r SO IH HL]; [intros a b c x y E; destruct a; discriminate|].
    assert (KE' : forall k0 h, In (k0, h) r -> k0 = p_option (hp h)) by (intros k0 h0 H0; apply KE; right; exact H0).
    cbn [filter]. destruct (Bool.eqb first (is_generic (hp (snd (k, v))))); [|exact (IH KE')].
    cbn [map]. intros a b c x y E. destruct a as [|a0 a].
    + injection E as <- E. assert (Hy : In y (map item_of (filter (fun e => Bool.eqb first (is_generic (hp (snd e)))) r))) by (rewrite E; apply in_elt).
      destruct (X _ r SO KE' y Hy) as (k' & h' & Hin & ->). cbn [item_of i_name snd]. rewrite <- (KE k v (or_introl eq_refl)). exact (HL _ _ Hin).
    + injection E as _ E. exact (IH KE' a b c x y E).
  - intros i. change (Listed calls i) with (First (all_calls calls) i). rewrite <- MF. split.
    + intros Hin. apply in_map_iff in Hin. destruct Hin as (e & <- & Hin). apply filter_In in Hin. destruct Hin as [Hin Hb].
      split; [exists e; auto|]. apply eqb_prop in Hb. rewrite Hb. cbn [item_of i_name]. symmetry. apply generic_iff.
    + intros [(e & Hin & <-) Hg]. apply in_map_iff. exists e. split; [reflexivity|]. apply filter_In. split; [exact Hin|].
      cbn [item_of i_name] in Hg. rewrite <- generic_iff in Hg. destruct first, (is_generic (hp (snd e))); try reflexivity; exfalso; destruct Hg as [Ga Gb];
        [specialize (Gb eq_refl)|specialize (Ga eq_refl)]; discriminate.
Qed.

Lemma help_lines name calls : exists G O,
  ascending G /\ ascending O /\
  (forall i, In i G <-> Listed calls i /\ In (i_name i) generic_names) /\
  (forall i, In i O <-> Listed calls i /\ ~ In (i_name i) generic_names) /\
  lines (printHelp (registered_by name calls)) =
    lines (name ++ version_note (version_of calls)) ++ [[]] ++
    lines ($"Usage: " ++ name ++ $" [OPTIONS...]" ++
           concat (map (fun p => $" <" ++ pos_name p ++ $">") (positional false calls)) ++
           concat (map (fun p => $" [<" ++ pos_name p ++ $">]") (positional true calls))) ++ [[]] ++
    lines (description_of calls) ++ [[]] ++
    match positional false calls ++ positional true calls with
    | [] => []
    | l => $"Positional Parameters:" :: concat (map (fun p => block (pos_title p) (pos_help p)) l) ++ [[]]
    end ++
    $"Generic options:" :: concat (map (fun i => block (title i) (i_help i)) G) ++ [[]] ++
    $"Options:" :: concat (map (fun i => block (title i) (i_help i)) O) ++ [[]; []].
Proof.
  exists (chosen true (h_params (registered_by name calls))), (chosen false (h_params (registered_by name calls))).
  destruct (chosen_spec name calls true) as [A1 B1]. destruct (chosen_spec name calls false) as [A2 B2].
  split; [exact A1|]. split; [exact A2|]. split; [intros i; rewrite B1; intuition|]. split.
  { intros i. rewrite B2. split; intros [H1 H2]; (split; [exact H1|]); [intros H3; apply H2 in H3; discriminate|].
    split; [intros H3; contradiction|discriminate]. }
  clear A1 B1 A2 B2.
  destruct (do_calls calls (new_hreg name)) as (H1 & H2 & H3 & H4 & H5). cbn [h_required h_optional app] in H1, H2.
  change (h_name (new_hreg name)) with name in H3. change (h_version (new_hreg name)) with (@nil ascii) in H4.
  change (h_description (new_hreg name)) with (@nil ascii) in H5.
  fold (registered_by name calls) in H1, H2, H3, H4, H5. fold (version_of calls) in H4. fold (description_of calls) in H5.
  change (h_required (new_hreg name)) with (@nil pos) in H1. change (h_optional (new_hreg name)) with (@nil pos) in H2. cbn [app] in H1, H2.
  unfold printHelp. rewrite H1, H2, H3, H4, H5. set (m := h_params (registered_by name calls)). clearbody m. clear H1 H2 H3 H4 H5.
  set (R := positional false calls). set (Op := positional true calls). set (V := version_of calls). set (D := description_of calls). clearbody R Op V D.
  assert (EV : (if str_eqb V [] then [] else $" (version " ++ V ++ $")") = version_note V).
  { unfold str_eqb, version_note. destruct V; [reflexivity|]. destruct (list_eq_dec ascii_dec (a :: V) []); [discriminate|reflexivity]. }
  rewrite EV. clear EV. set (VV := version_note V). clearbody VV.
  rewrite !flat_map_concat_map.
  change (usage false) with (fun p : pos => $" <" ++ pos_name p ++ $">"). change (usage true) with (fun p : pos => $" [<" ++ pos_name p ++ $">]").
  set (CR := concat (map (fun p : pos => $" <" ++ pos_name p ++ $">") R)). set (CO := concat (map (fun p : pos => $" [<" ++ pos_name p ++ $">]") Op)).
  set (U := $"Usage: " ++ name ++ $" [OPTIONS...]" ++ CR ++ CO).
  set (Rest := (if 0 <? length (R ++ Op) then $"Positional Parameters:" ++ [nl] ++ concat (map pos_entry (R ++ Op)) ++ [nl] else []) ++ section true m ++ section false m).
  transitivity (lines ((name ++ VV) ++ newline :: [] ++ newline :: U ++ newline :: [] ++ newline :: D ++ newline :: [] ++ newline :: Rest)).
  { f_equal. unfold U. rewrite <- !app_assoc. reflexivity. }
  rewrite !lines_nl. change (lines []) with [@nil ascii]. unfold Rest. clear Rest.
  assert (T : lines (section true m ++ section false m) =
    $"Generic options:" :: concat (map (fun i => block (title i) (i_help i)) (chosen true m)) ++ [[]] ++
    $"Options:" :: concat (map (fun i => block (title i) (i_help i)) (chosen false m)) ++ [[]; []]).
  { rewrite lines_section. rewrite <- (app_nil_r (section false m)), lines_section. reflexivity. }
  do 6 f_equal. destruct (R ++ Op) as [|p l]; [exact T|].
  cbn [length Nat.ltb Nat.leb]. rewrite <- flat_map_concat_map. rewrite <- !app_assoc. change ([nl] ++ ?x) with (newline :: x) at 1. rewrite lines_nl, lines_positional.
  change ([nl] ++ ?x) with ([] ++ newline :: x). rewrite lines_nl, T. cbn [app]. rewrite <- app_assoc. reflexivity.
Qed.

Lemma plain_app a b : ~ In newline a -> ~ In newline b -> ~ In newline (a ++ b).
Proof. intros H1 H2 H. apply in_app_or in H. tauto. Qed.
Lemma title_plain i : ~ In newline (i_name i) -> ~ In newline (i_short i) -> ~ In newline (title i).
Proof.
  intros Hn Hs. assert (L : forall s, forallb (fun c => negb (Ascii.eqb c newline)) $s = true -> ~ In newline $s).
  { intros s F H. rewrite forallb_forall in F. specialize (F _ H). rewrite Ascii.eqb_refl in F. discriminate. }
  unfold title. destruct (i_short i) as [|c s]; destruct (i_value i); repeat apply plain_app; auto; try (apply L; reflexivity); intros [].
Qed.
Lemma filter_map_tab l : filter two_spaces (map (cons tabulator) l) = [].
Proof. induction l as [|a l IH]; [reflexivity|]. cbn [map filter]. rewrite IH. destruct a; reflexivity. Qed.
Lemma filter_blocks L : (forall i, In i L -> ~ In newline (i_name i) /\ ~ In newline (i_short i)) ->
  filter two_spaces (concat (map (fun i => block (title i) (i_help i)) L)) = map title L.
Proof.
  induction L as [|i L IH]; intros H; [reflexivity|]. cbn [map concat]. unfold block at 1. destruct (H i (or_introl eq_refl)) as [Hn Hs].
  rewrite (lines_plain _ (title_plain i Hn Hs)). rewrite !filter_app, filter_map_tab, app_nil_r. rewrite IH by (intros j Hj; apply H; right; exact Hj).
  cbn [filter app]. reflexivity.
Qed.

Lemma no_fake name calls :
  (forall o s h b, In (AddOption o s h b) calls -> ~ In newline o /\ ~ In newline s) ->
  exists front rest L, lines (printHelp (registered_by name calls)) = front ++ $"Generic options:" :: rest /\
    NoDup (map i_name L) /\ (forall i, In i L <-> Listed calls i) /\ filter two_spaces rest = map title L.
Proof.
  intros H. destruct (help_lines name calls) as (G & O & AG & AO & MG & MO & E).
  assert (LP : forall i, Listed calls i -> ~ In newline (i_name i) /\ ~ In newline (i_short i)).
  { intros i (pre & post & o & Ea & D & _). assert (Hin : In (AddOption o (i_short i) (i_help i) false) (all_calls calls)) by (rewrite Ea; apply in_elt).
    assert (P : ~ In newline o /\ ~ In newline (i_short i)).
    { destruct Hin as [Hin|Hin]; [|exact (H _ _ _ _ Hin)]. injection Hin as <- <- _.
      split; intros X; cbn in X; repeat (destruct X as [X|X]; [discriminate|]); destruct X. }
    split; [|apply P]. unfold Declares in D. destruct (i_value i); [|destruct D as [<- _]; apply P].
    intros X. apply (proj1 P). rewrite D. apply in_or_app. left. exact X. }
  eexists _, _, (G ++ O). split; [rewrite E, !app_assoc; reflexivity|]. split; [|split].
  - assert (ND : forall L, ascending L -> NoDup (map i_name L)).
    { induction L as [|i L IH]; intros A; [constructor|]. cbn [map]. constructor.
      - intros Hin. apply in_map_iff in Hin. destruct Hin as (j & Ej & Hj). apply in_split in Hj. destruct Hj as (l1 & l2 & ->).
        specialize (A [] l1 l2 i j eq_refl). rewrite Ej, str_lt_irrefl in A. discriminate.
      - apply IH. intros a b c x y El. apply (A (i :: a) b c x y). rewrite El. reflexivity. }
    rewrite map_app. specialize (ND G AG) as N1. specialize (ND O AO) as N2.
    assert (Dis : forall n, In n (map i_name G) -> ~ In n (map i_name O)).
    { intros n Hg Ho. apply in_map_iff in Hg. destruct Hg as (i & <- & Hi). apply in_map_iff in Ho. destruct Ho as (j & Ej & Hj).
      apply MG in Hi. apply MO in Hj. rewrite Ej in Hj. destruct Hi, Hj. contradiction. }
    clear - N1 N2 Dis. revert N1 Dis. generalize (map i_name G). intros g. induction g as [|x g IH]; intros N1 Dis; [exact N2|].
    inversion N1; subst. cbn [app]. constructor.
    + intros X. apply in_app_or in X. destruct X as [X|X]; [contradiction|]. exact (Dis x (or_introl eq_refl) X).
    + apply IH; [assumption|]. intros n Hn. apply Dis. right. exact Hn.
  - intros i. rewrite in_app_iff, MG, MO. split; [tauto|]. intros Hl.
    destruct (in_dec (list_eq_dec ascii_dec) (i_name i) generic_names); tauto.
  - rewrite !filter_app. cbn [filter two_spaces]. rewrite filter_app.
    assert (FG : filter two_spaces (concat (map (fun i => block (title i) (i_help i)) G)) = map title G) by (apply filter_blocks; intros i Hi; apply LP; apply MG; exact Hi).
    assert (FO : filter two_spaces (concat (map (fun i => block (title i) (i_help i)) O)) = map title O) by (apply filter_blocks; intros i Hi; apply LP; apply MO; exact Hi).
    rewrite FG, FO, map_app. cbn. rewrite ?app_nil_r. reflexivity.
Qed.

Definition same_help (g g' : hreg) : Prop :=
  h_params g = h_params g' /\ h_required g = h_required g' /\ h_optional g = h_optional g' /\
  h_name g = h_name g' /\ h_version g = h_version g' /\ h_description g = h_description g'.
Lemma same_calls cs : forall g g', same_help g g' -> same_help (fold_left do_call cs g) (fold_left do_call cs g').
Proof.
  induction cs as [|c cs IH]; intros g g' S; [exact S|]. cbn [fold_left]. apply IH. destruct S as (E1 & E2 & E3 & E4 & E5 & E6).
  destruct c as [o s h b|n h [|]|v|d]; cbn [do_call].
  - destruct (p_is_prefix (make_param o s b)); unfold same_help; cbn [h_params h_required h_optional h_name h_version h_description]; rewrite ?E1; auto 10.
  - unfold same_help; cbn [h_params h_required h_optional h_name h_version h_description]; rewrite ?E3; auto 10.
  - unfold same_help; cbn [h_params h_required h_optional h_name h_version h_description]; rewrite ?E2; auto 10.
  - unfold same_help; cbn [h_params h_required h_optional h_name h_version h_description]; auto 10.
  - unfold same_help; cbn [h_params h_required h_optional h_name h_version h_description]; auto 10.
Qed.
Lemma prefix_silent name c1 c2 o s h :
  printHelp (registered_by name (c1 ++ AddOption o s h true :: c2)) = printHelp (registered_by name (c1 ++ c2)).
Proof.
  unfold registered_by. rewrite !fold_left_app. cbn [fold_left].
  set (g := fold_left do_call c1 (new_hreg name)).
  assert (S0 : same_help (do_call g (AddOption o s h true)) g).
  { cbn [do_call]. assert (E : p_is_prefix (make_param o s true) = true) by (unfold make_param; destruct (_ && _); reflexivity).
    rewrite E. unfold same_help. cbn [h_params h_required h_optional h_name h_version h_description]. auto 10. }
  pose proof (same_calls c2 _ _ S0) as (E1 & E2 & E3 & E4 & E5 & E6). unfold printHelp. rewrite E1, E2, E3, E4, E5, E6. reflexivity.
Qed.
