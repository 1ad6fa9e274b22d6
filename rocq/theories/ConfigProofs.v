(* Proofs about ConfigModel.  Internal lemmas; the reader's theorems are in ConfigProps. *)
From Verif Require Import Base Text SMap KeyValueDirectoryModel GetoptModel GetoptSpec ConfigModel ConfigSpec.

Definition ok (m : manager) : Prop := sorted (items m) /\ sorted (observers m).
Definition puts (m : manager) (l : list entry) : manager := fold_left (fun m kv => put m (fst kv) (snd kv)) l m.

Lemma puts_app m a b : puts m (a ++ b) = puts (puts m a) b.
Proof. unfold puts. apply fold_left_app. Qed.
Lemma put_ok m k v : ok m -> ok (put m k v).
Proof. intros [H1 H2]. split; cbn; auto. apply map_put_sorted; auto. Qed.
Lemma puts_ok m l : ok m -> ok (puts m l).
Proof. revert m. induction l as [|[k v] l IH]; intros m H; cbn; auto. apply IH, put_ok; auto. Qed.
Lemma put_fields m k v : observers (put m k v) = observers m /\ parameter_list (put m k v) = parameter_list m /\
  positional_list (put m k v) = positional_list m /\ initialized (put m k v) = initialized m /\ 
  items (put m k v) = map_put (items m) k v /\ told (put m k v) = told m ++ map (fun o => (o, k)) (to_tell m k).
Proof. repeat split. Qed.
Lemma puts_fields m l : observers (puts m l) = observers m /\ parameter_list (puts m l) = parameter_list m /\
  positional_list (puts m l) = positional_list m /\ initialized (puts m l) = initialized m /\ told (puts m l) = told m ++ calls m l.
Proof.
  revert m. induction l as [|[k v] l IH]; intros m.
  - cbn. rewrite app_nil_r. auto.
  - change (puts m ((k, v) :: l)) with (puts (put m k v) l). specialize (IH (put m k v)). destruct IH as (H1 & H2 & H3 & H4 & H5).
    rewrite H1, H2, H3, H4, H5. repeat split; auto.
    destruct (put_fields m k v) as (F1 & _ & _ & _ & _ & F6). rewrite F6, <- app_assoc. f_equal.
Qed.
Lemma puts_value m l : ok m -> forall k, value_at (puts m l) k = match last_of k l with Some v => Some v | None => value_at m k end.
Proof.
  revert m. induction l as [|[k' v] l IH]; intros m O k; [reflexivity|].
  change (puts m ((k', v) :: l)) with (puts (put m k' v) l). rewrite IH by (apply put_ok; auto). unfold last_of. cbn [map last_value].
  destruct (last_value k (map Some l)); [reflexivity|]. unfold value_at. cbn [items put notify tell insert_item snd insert].
  rewrite map_get_put by apply O. destruct (list_eq_dec ascii_dec k k') as [->|N]; destruct (list_eq_dec ascii_dec k' _); congruence.
Qed.
Lemma puts_recorded m l : ok m -> recorded m l (puts m l).
Proof. intros O. destruct (puts_fields m l) as (H1 & H2 & H3 & _ & H5). repeat split; auto. apply puts_value; auto. Qed.

(* attribute trees *)
Lemma tree_rect' (P : tree -> Prop) : (forall d c a l, Forall P l -> P (Tree d c a l)) -> forall t, P t.
Proof.
  intros H. fix IH 1. intros [d c a l]. apply H. induction l as [|t l IHl]; constructor; auto.
Qed.
Definition go_tree (fq : str) := fix go (l : list tree) (m : manager) : manager :=
  match l with [] => m | c :: r => go r (readAttributeTree fq c true m) end.
Definition tname (t : tree) : str := match t with Tree (Some d) _ _ _ => d | Tree None _ _ _ => [] end.
Lemma read_tree t : forall prefix ext m, readAttributeTree prefix t ext m = puts m (tree_entries (if ext then prefix ++ $"/" ++ tname t else prefix) t).
Proof.
  induction t as [d c a l IH] using tree_rect'. intros prefix ext m. cbn [readAttributeTree tree_entries].
  assert (En : match d with Some x => x | None => [] end = tname (Tree d c a l)) by (destruct d; reflexivity).
  rewrite En. set (fq := if ext then _ else prefix). change ((fix go (l : list tree) (m : manager) : manager := _) l) with (go_tree fq l).
  rewrite puts_app.
  assert (E1 : match a with Some a => if c then m else put m fq a | None => m end =
    puts m (match a with Some a => if c then [] else [(fq, a)] | None => [] end)) by (destruct a, c; reflexivity).
  rewrite E1. set (m1 := puts m _). clearbody m1. revert m1. clear m E1 En.
  induction IH as [|t l Ht IH IH2]; intros m; [reflexivity|]. cbn [go_tree flat_map]. fold (go_tree fq). rewrite Ht, puts_app. apply IH2.
Qed.

(* XML documents *)
Lemma node_rect' (P : node -> Prop) : (forall n l, Forall P l -> P (Element n l)) -> (forall v, P (TextNode v)) -> P Other -> forall n, P n.
Proof. intros H1 H2 H3. fix IH 1. intros [n l|v|]; [|apply H2|apply H3]. apply H1. induction l as [|t l IHl]; constructor; auto. Qed.
Definition child (inc : str -> manager -> option (bool * manager)) (dir fq : str) (c : node) (m : manager) : option manager :=
  match c with
  | Element cname cc =>
    if str_eqb cname $"INCLUDE"
    then match get_text cc with
         | Some f => match inc (dir ++ f) m with Some (_, m') => Some m' | None => None end
         | None => Some m
         end
    else readXml inc dir fq c true m
  | TextNode v => Some (put m fq v)
  | Other => Some m
  end.
Fixpoint go_xml (inc : str -> manager -> option (bool * manager)) (dir fq : str) (l : list node) (m : manager) : option manager :=
  match l with
  | [] => Some m
  | c :: r => match child inc dir fq c m with Some m' => go_xml inc dir fq r m' | None => None end
  end.
Lemma readXml_go inc dir prefix name l ext m : readXml inc dir prefix (Element name l) ext m =
  go_xml inc dir (if ext then prefix ++ $"/" ++ name else prefix) l m.
Proof.
  cbn [readXml]. set (fq := if ext then _ else prefix). clearbody fq. revert m. induction l as [|c l IH]; intros m; [reflexivity|].
  cbn [go_xml]. unfold child at 1. destruct (match c with Element _ _ => _ | TextNode _ => _ | Other => _ end); auto.
Qed.
Lemma str_eqb_spec a b : str_eqb a b = true <-> a = b.
Proof. unfold str_eqb. destruct (list_eq_dec ascii_dec a b); split; congruence. Qed.
Lemma str_eqb_no a b : str_eqb a b = false <-> a <> b.
Proof. unfold str_eqb. destruct (list_eq_dec ascii_dec a b); split; congruence. Qed.

Section Sound.
  Context (fs : files) (inc : str -> manager -> option (bool * manager)).
  Hypothesis Hinc : forall f m b m', inc f m = Some (b, m') -> exists l, file_entries fs f l /\ m' = puts m l /\ b = readable fs f.
  Lemma go_sound n : match n with Element _ l => forall dir fq m m', go_xml inc dir fq l m = Some m' ->
     exists e, children_entries fs dir fq l e /\ m' = puts m e | _ => True end.
  Proof.
    induction n as [name l IH|v|] using node_rect'; auto. intros dir fq. induction IH as [|c l Hc Hl IH]; intros m m'; cbn [go_xml].
    - intros [= <-]. exists []. split; [constructor|reflexivity].
    - destruct (child inc dir fq c m) as [m1|] eqn:E; [|discriminate]. intros E2. destruct (IH m1 m' E2) as (e2 & C2 & ->).
      destruct c as [cname cc|v|]; cbn [child] in E.
      + destruct (str_eqb cname $"INCLUDE") eqn:EI.
        * apply str_eqb_spec in EI. subst cname. destruct (get_text cc) as [t|] eqn:ET.
          -- destruct (inc (dir ++ t) m) as [[b mx]|] eqn:EX; [|discriminate]. injection E as <-.
             apply Hinc in EX. destruct EX as (e1 & F1 & -> & _). exists (e1 ++ e2). split; [eapply ce_include; eauto|]. rewrite puts_app. reflexivity.
          -- injection E as <-. exists e2. split; [apply ce_include_nothing; auto|reflexivity].
        * rewrite readXml_go in E. apply str_eqb_no in EI. destruct (Hc dir _ m m1 E) as (e1 & C1 & ->).
          exists (e1 ++ e2). split; [apply ce_element; auto|]. rewrite puts_app. reflexivity.
      + injection E as <-. exists ((fq, v) :: e2). split; [constructor; auto|reflexivity].
      + injection E as <-. exists e2. split; [constructor; auto|reflexivity].
  Qed.
End Sound.

Lemma load_sound fs : documents fs -> forall fuel f m b m', load fuel fs f m = Some (b, m') ->
  exists l, file_entries fs f l /\ m' = puts m l /\ b = readable fs f.
Proof.
  intros D. induction fuel as [|fuel IH]; intros f m b m'; cbn [load]; [discriminate|].
  fold (is_tree_file fs f). destruct (is_tree_file fs f) eqn:ET.
  - destruct (tree_file fs f) as [[t|]|] eqn:EF; intros [= <- <-]; unfold readable; rewrite ET, EF.
    + exists (tree_entries [] t). split; [apply fe_tree; auto|]. rewrite read_tree. auto.
    + exists []. split; [apply fe_tree_empty; auto|]. auto.
    + exists []. split; [apply fe_none; unfold readable; rewrite ET, EF; auto|]. auto.
  - destruct (xml_file fs f) as [[root|]|] eqn:EF.
    + destruct (readXml _ _ _ _ _ _) as [m1|] eqn:ER; [|discriminate]. intros [= <- <-]. unfold readable; rewrite ET, EF.
      destruct (D f root EF) as (name & ch & ->). rewrite readXml_go in ER.
      destruct (go_sound fs (load fuel fs) IH (Element name ch) _ _ _ _ ER) as (e & C & ->). exists e. split; [eapply fe_xml; eauto|auto].
    + intros [= <- <-]. exists []. unfold readable; rewrite ET, EF. split; [apply fe_xml_empty; auto|auto].
    + intros [= <- <-]. exists []. split; [apply fe_none|]; unfold readable; rewrite ET, EF; auto.
Qed.

(* more fuel does no harm *)
Lemma go_mono (inc inc' : str -> manager -> option (bool * manager)) : (forall f m x, inc f m = Some x -> inc' f m = Some x) ->
  forall n, match n with Element _ l => forall dir fq m m', go_xml inc dir fq l m = Some m' -> go_xml inc' dir fq l m = Some m' | _ => True end.
Proof.
  intros H. induction n as [name l IH|v|] using node_rect'; auto. intros dir fq. induction IH as [|c l Hc Hl IH]; intros m m'; cbn [go_xml]; auto.
  destruct (child inc dir fq c m) as [m1|] eqn:E; [|discriminate].
  assert (E' : child inc' dir fq c m = Some m1).
  { destruct c as [cname cc|v|]; cbn [child] in *; auto. destruct (str_eqb cname $"INCLUDE").
    - destruct (get_text cc); auto. destruct (inc (dir ++ l0) m) as [[b mx]|] eqn:EX; [|discriminate]. rewrite (H _ _ _ EX). auto.
    - rewrite readXml_go in *. eauto. }
  rewrite E'. auto.
Qed.
Lemma load_mono fs : documents fs -> forall fuel f m x, load fuel fs f m = Some x -> load (S fuel) fs f m = Some x.
Proof.
  intros D. induction fuel as [|fuel IH]; intros f m x H; [discriminate|]. cbn [load] in H. 
  change (load (S (S fuel)) fs f m) with
    (if str_eqb (extension fs f) $".AttributeTree" || str_eqb (extension fs f) $".tree"
    then match tree_file fs f with
         | Some (Some t) => Some (true, readAttributeTree [] t false m)
         | Some None => Some (true, m)
         | None => Some (false, m)
         end
    else match xml_file fs f with
         | Some (Some root) =>
           match readXml (load (S fuel) fs) (directory_of fs f) [] root false m with Some m' => Some (true, m') | None => None end
         | Some None => Some (true, m)
         | None => Some (false, m)
         end).
  destruct (_ || _); auto. destruct (xml_file fs f) as [[root|]|] eqn:EF; auto.
  destruct (D f root EF) as (name & ch & ->). rewrite readXml_go in *.
  destruct (go_xml _ _ _ _ m) as [m1|] eqn:EG; [|discriminate].
  rewrite (go_mono (load fuel fs) (load (S fuel) fs) IH (Element name ch) _ _ _ _ EG). auto.
Qed.
Lemma load_mono_le fs : documents fs -> forall a b f m x, (a <= b)%nat -> load a fs f m = Some x -> load b fs f m = Some x.
Proof. intros D a b f m x H. induction H as [|b H IH]; auto. intros E. apply load_mono; auto. Qed.

Scheme file_entries_min := Minimality for file_entries Sort Prop
with children_entries_min := Minimality for children_entries Sort Prop.

Lemma load_complete fs : documents fs -> forall f l, file_entries fs f l -> exists fuel, forall m, load fuel fs f m = Some (readable fs f, puts m l).
Proof.
  intros D.
  apply (file_entries_min fs (fun f l => exists fuel, forall m, load fuel fs f m = Some (readable fs f, puts m l))
    (fun dir key ch l => exists fuel, forall m, go_xml (load fuel fs) dir key ch m = Some (puts m l))).
  - intros f H. exists 1%nat. intros m. cbn [load]. fold (is_tree_file fs f). rewrite H. unfold readable in H.
    destruct (is_tree_file fs f); [destruct (tree_file fs f); [discriminate|]|destruct (xml_file fs f); [discriminate|]]; reflexivity.
  - intros f H1 H2. exists 1%nat. intros m. cbn [load]. fold (is_tree_file fs f). unfold readable. rewrite H1, H2. reflexivity.
  - intros f t H1 H2. exists 1%nat. intros m. cbn [load]. fold (is_tree_file fs f). unfold readable. rewrite H1, H2, read_tree. reflexivity.
  - intros f H1 H2. exists 1%nat. intros m. cbn [load]. fold (is_tree_file fs f). unfold readable. rewrite H1, H2. reflexivity.
  - intros f name ch l H1 H2 _ (fuel & H3). exists (S fuel). intros m. cbn [load]. fold (is_tree_file fs f). unfold readable.
    rewrite H1, H2, readXml_go, H3. reflexivity.
  - intros dir key. exists 0%nat. reflexivity.
  - intros dir key v r l _ (fuel & H). exists fuel. intros m. cbn [go_xml child]. rewrite H. reflexivity.
  - intros dir key r l _ (fuel & H). exists fuel. intros m. cbn [go_xml child]. rewrite H. reflexivity.
  - intros dir key cc t r l1 l2 Ht _ (f1 & H1) _ (f2 & H2). exists (Nat.max f1 f2). intros m. cbn [go_xml child].
    change (str_eqb $"INCLUDE" $"INCLUDE") with true. cbv iota. rewrite Ht.
    rewrite (load_mono_le fs D f1 (Nat.max f1 f2) _ _ _ (Nat.le_max_l _ _) (H1 m)). rewrite puts_app.
    apply (go_mono (load f2 fs) (load (Nat.max f1 f2) fs)
      (fun f m x => load_mono_le fs D f2 _ f m x (Nat.le_max_r f1 f2)) (Element [] r)). auto.
  - intros dir key cc r l Ht _ (fuel & H). exists fuel. intros m. cbn [go_xml child].
    change (str_eqb $"INCLUDE" $"INCLUDE") with true. cbv iota. rewrite Ht. auto.
  - intros dir key name cc r l1 l2 Hn _ (f1 & H1) _ (f2 & H2). exists (Nat.max f1 f2). intros m. cbn [go_xml child].
    apply str_eqb_no in Hn. rewrite Hn, readXml_go.
    rewrite (go_mono (load f1 fs) (load (Nat.max f1 f2) fs)
      (fun f m x => load_mono_le fs D f1 _ f m x (Nat.le_max_l f1 f2)) (Element [] cc) _ _ _ _ (H1 m)).
    rewrite puts_app. apply (go_mono (load f2 fs) (load (Nat.max f1 f2) fs)
      (fun f m x => load_mono_le fs D f2 _ f m x (Nat.le_max_r f1 f2)) (Element [] r)). auto.
Qed.

(* termination when no file includes itself, directly or indirectly *)
Lemma load_terminates fs (rank : str -> nat) : documents fs -> (forall f g, includes fs f g -> (rank g < rank f)%nat) ->
  forall n f, (rank f < n)%nat -> forall m, load n fs f m <> None.
Proof.
  intros D R. induction n as [|n IH]; intros f Hf m; [lia|]. cbn [load]. fold (is_tree_file fs f). destruct (is_tree_file fs f) eqn:ET.
  - destruct (tree_file fs f) as [[t|]|]; discriminate.
  - destruct (xml_file fs f) as [[root|]|] eqn:EF; try discriminate.
    destruct (D f root EF) as (name & ch & ->). rewrite readXml_go.
    assert (Hin : forall t, In t (flat_map include_texts ch) -> (rank (directory_of fs f ++ t) < n)%nat).
    { intros t Ht. assert (includes fs f (directory_of fs f ++ t)) by (split; auto; eauto 8). apply R in H. lia. }
    assert (G : forall nd, match nd with Element _ l => (forall t, In t (flat_map include_texts l) -> (rank (directory_of fs f ++ t) < n)%nat) ->
       forall fq m, go_xml (load n fs) (directory_of fs f) fq l m <> None | _ => True end).
    { clear - IH. induction nd as [name l IHl|v|] using node_rect'; auto. intros Hin. induction IHl as [|c l Hc Hl IHl]; intros fq m; cbn [go_xml]; [discriminate|].
      assert (Hr : forall fq m, go_xml (load n fs) (directory_of fs f) fq l m <> None).
      { apply IHl. intros t Ht. apply Hin. cbn. apply in_or_app. auto. }
      destruct (child (load n fs) (directory_of fs f) fq c m) as [m1|] eqn:E; [auto|exfalso].
      destruct c as [cname cc|v|]; cbn [child] in E; try discriminate. destruct (str_eqb cname $"INCLUDE") eqn:EI.
      - destruct (get_text cc) as [t|] eqn:Et; [|discriminate].
        destruct (load n fs (directory_of fs f ++ t) m) as [[b mx]|] eqn:EL; [discriminate|]. revert EL. apply IH. apply Hin.
        cbn [flat_map include_texts]. rewrite EI, Et. apply in_or_app. left. left. auto.
      - rewrite readXml_go in E. revert E. apply Hc. intros t Ht. apply Hin. cbn [flat_map include_texts]. rewrite EI. apply in_or_app. auto. }
    pose proof (G (Element name ch) Hin [] m) as Q. cbn beta iota in Q.
    destruct (go_xml (load n fs) (directory_of fs f) [] ch m); [discriminate|congruence].
Qed.

(* initialize *)
Lemma some_pair {A B : Type} (a a' : A) (b b' : B) : Some (a, b) = Some (a', b') -> b' = b. Proof. congruence. Qed.
Lemma puts_cons m k v l : puts m ((k, v) :: l) = puts (put m k v) l. Proof. reflexivity. Qed.
Lemma has_value_spec m k : hasKey (items m) k = true <-> value_at m k <> None.
Proof. unfold hasKey, value_at. destruct (map_get (items m) k); split; congruence. Qed.
Lemma parameter_entries_ext p cs : forall (K K' : str -> Prop) l, (forall k, K k <-> K' k) -> parameter_entries p K cs l -> parameter_entries p K' cs l.
Proof.
  induction cs as [|c cs IH]; intros K K' l E; [auto|]. intros (l0 & l1 & -> & H & D). exists l0, l1. split; [auto|]. split.
  - eapply IH; [|exact H]. cbn. intros k. rewrite E. tauto.
  - rewrite (E (c_key c)) in D. auto.
Qed.
Lemma value_put m k v k' : ok m -> value_at (put m k v) k' = if list_eq_dec ascii_dec k' k then Some v else value_at m k'.
Proof. intros O. unfold value_at. cbn [items put notify tell insert_item snd insert]. apply map_get_put, O. Qed.

Lemma params_puts p cs : (forall c, In c cs -> c_key c <> []) -> forall m, ok m ->
  exists l, parameter_entries p (fun k => value_at m k <> None) cs l /\ fold_left (read_parameter p) cs m = puts m l.
Proof.
  induction cs as [|c cs IH]; intros Hk m O; [exists []; split; reflexivity|].
  assert (Hc : c_key c <> []) by (apply Hk; left; auto).
  assert (exists l0, read_parameter p m c = puts m l0 /\ 
      (paramOptPresent p (c_option c) = true /\ l0 = [(c_key c, paramOpt p (c_option c))] \/
       paramOptPresent p (c_option c) = false /\ ~ value_at m (c_key c) <> None /\ c_default c <> [] /\ l0 = [(c_key c, c_default c)] \/
       paramOptPresent p (c_option c) = false /\ (value_at m (c_key c) <> None \/ c_default c = []) /\ l0 = [])) as (l0 & E0 & D0).
  { unfold read_parameter. destruct (c_key c) as [|x y] eqn:Ec; [congruence|]. rewrite <- Ec in *. clear x y Ec.
    destruct (paramOptPresent p (c_option c)); [eexists [(_, _)]; split; [reflexivity|auto]|].
    destruct (hasKey (items m) (c_key c)) eqn:EK; cbn [negb andb].
    - exists []. split; [reflexivity|]. apply has_value_spec in EK. right; right. repeat split; auto.
    - assert (N : ~ value_at m (c_key c) <> None) by (intros H; apply has_value_spec in H; congruence).
      unfold hasDefaultValue. destruct (c_default c) as [|x y] eqn:Ed.
      + exists []. split; [reflexivity|]. right; right. repeat split; auto.
      + eexists [(_, _)]. split; [reflexivity|]. right; left. repeat split; auto. discriminate. }
  destruct (IH (fun c H => Hk c (or_intror H)) (read_parameter p m c)) as (l1 & H1 & E1).
  { rewrite E0. apply puts_ok; auto. }
  exists (l0 ++ l1). split.
  - exists l0, l1. split; [auto|]. split; [|auto]. eapply parameter_entries_ext; [|exact H1]. cbn. intros k. rewrite E0, puts_value by auto.
    assert (L : In k (map fst l0) <-> last_of k l0 <> None).
    { clear. unfold last_of. induction l0 as [|[k' v] l0 IH]; cbn [map fst In last_value]; [tauto|].
      destruct (last_value k (map Some l0)).
      - split; [discriminate|]. intros _. right. apply IH. discriminate.
      - destruct (list_eq_dec ascii_dec k' k) as [E|E]; [split; [discriminate|auto]|]. rewrite IH. split; [intros [H|H]|]; tauto. }
    rewrite L. destruct (last_of k l0) as [w|].
    + split; intros _; [right|]; discriminate.
    + split; [auto|]. intros [H|H]; [auto|congruence].
  - cbn [fold_left]. rewrite E1, E0, puts_app. auto.
Qed.

Lemma initialize_puts fs fuel p m m' : documents fs -> ok m -> (forall c, In c (parameter_list m ++ positional_list m) -> c_key c <> []) ->
  initialized m = false -> initialize_config fuel fs p m = Some (true, m') ->
  exists l l', configured fs p l /\ initial_entries p m l l' /\ m' = set_initialized (puts m l').
Proof.
  intros D O K I. unfold initialize_config. rewrite I. 
  destruct (paramOptPresent p $"configfile") eqn:EP.
  - cbv zeta. destruct (load fuel fs (paramOpt p $"configfile") m) as [[[|] m1]|] eqn:EL; try discriminate.
    destruct (load_sound fs D _ _ _ _ _ EL) as (l & FE & -> & Rd). intros E. apply some_pair in E. subst m'.
    set (l0 := l ++ [(configfile_key, paramOpt p $"configfile")]).
    assert (E0 : put (puts m l) configfile_key (paramOpt p $"configfile") = puts m l0) by (unfold l0; rewrite puts_app; reflexivity).
    rewrite E0. destruct (puts_fields m l0) as (_ & H2 & H3 & _ & _). rewrite H2, H3, <- fold_left_app.
    destruct (params_puts p (parameter_list m ++ positional_list m) K (puts m l0) (puts_ok _ _ O)) as (l1 & P1 & ->).
    exists l, (l0 ++ l1 ++ paramPrefixOpt p $"config-option"). split; [unfold configured; rewrite EP; auto|]. split.
    + unfold initial_entries. rewrite EP. exists l1. split; [|reflexivity]. eapply parameter_entries_ext; [|exact P1]. 
      intros k. cbn beta. rewrite puts_value by auto. unfold has_value. fold configfile_key. fold l0.
      assert (L : last_of k l0 <> None <-> In k (map fst l0)).
      { clear. unfold last_of. induction l0 as [|[k' v] l0 IH]; cbn [map fst last_value In]; [tauto|].
        rewrite <- IH. destruct (last_value k (map Some l0)); [split; [auto|discriminate]|].
        destruct (list_eq_dec ascii_dec _ _) as [E|E]; split; intros; try discriminate; auto; destruct H; congruence. }
      destruct (last_of k l0) as [v|]; split.
      * intros _. right. apply L. discriminate.
      * discriminate.
      * auto.
      * intros [H|H]; auto. apply L in H. congruence.
    + rewrite !puts_app. reflexivity.
  - intros E. apply some_pair in E. subst m'. rewrite <- fold_left_app.
    destruct (params_puts p (parameter_list m ++ positional_list m) K m O) as (l1 & P1 & ->).
    exists [], (l1 ++ paramPrefixOpt p $"config-option"). split; [unfold configured; rewrite EP; auto|]. split.
    + unfold initial_entries. rewrite EP. exists l1. split; [|reflexivity]. eapply parameter_entries_ext; [|exact P1]. 
      intros k. unfold has_value. cbn. tauto.
    + rewrite !puts_app. reflexivity.
Qed.

Lemma initialize_fails fs fuel p m m' : documents fs -> initialize_config fuel fs p m = Some (false, m') ->
  initialized m = false /\ paramOptPresent p $"configfile" = true /\ readable fs (paramOpt p $"configfile") = false /\ m' = m.
Proof.
  intros D. unfold initialize_config. destruct (initialized m); [discriminate|].
  destruct (paramOptPresent p $"configfile") eqn:EP; [|discriminate]. cbv zeta.
  destruct (load fuel fs (paramOpt p $"configfile") m) as [[[|] m1]|] eqn:EL; try discriminate. intros [= <-].
  destruct (load_sound fs D _ _ _ _ _ EL) as (l & FE & -> & Rd). repeat split; auto.
  inversion FE; subst; auto; unfold readable in Rd; rewrite H, H0 in Rd; discriminate.
Qed.
Lemma initialize_complete fs p m : documents fs -> ok m -> (forall c, In c (parameter_list m ++ positional_list m) -> c_key c <> []) ->
  initialized m = false -> forall l, configured fs p l -> exists fuel m', initialize_config fuel fs p m = Some (true, m').
Proof.
  intros D O K I l C. unfold configured in C. unfold initialize_config. rewrite I.
  destruct (paramOptPresent p $"configfile").
  - destruct C as [R C]. destruct (load_complete fs D _ _ C) as (fuel & H). exists fuel. cbv zeta. rewrite H, R. eauto.
  - exists 0%nat. eauto.
Qed.

(* values *)
Lemma last_of_app k a b : last_of k (a ++ b) = match last_of k b with Some v => Some v | None => last_of k a end.
Proof.
  unfold last_of. induction a as [|[k' v] a IH]; cbn [app map last_value]; [destruct (last_value _ _); auto|].
  rewrite IH. destruct (last_value k (map Some b)); auto.
Qed.
Lemma last_of_one k k' v : last_of k [(k', v)] = if list_eq_dec ascii_dec k' k then Some v else None.
Proof. unfold last_of. cbn [map last_value]. destruct (list_eq_dec ascii_dec _ _); reflexivity. Qed.
Lemma first_of_app k a b : first_of k (a ++ b) = match first_of k a with Some v => Some v | None => first_of k b end.
Proof. induction a as [|[k' v] a IH]; cbn [app first_of]; auto. destruct (list_eq_dec ascii_dec k' k); auto. Qed.
Definition default1 (c : cparam) : list entry := match c_default c with [] => [] | _ => [(c_key c, c_default c)] end.
Lemma defaults_cons c cs : defaults (c :: cs) = default1 c ++ defaults cs.
Proof. reflexivity. Qed.
Lemma command_line_cons p c cs : command_line p (c :: cs) =
  (if paramOptPresent p (c_option c) then [(c_key c, paramOpt p (c_option c))] else []) ++ command_line p cs.
Proof. reflexivity. Qed.
Lemma parameter_values p cs : forall (K : str -> Prop) l, (forall k, K k \/ ~ K k) -> parameter_entries p K cs l -> forall k,
  match last_of k (command_line p cs) with
  | Some v => last_of k l = Some v
  | None => (K k -> last_of k l = None) /\ (~ K k -> last_of k l = first_of k (defaults cs))
  end.
Proof.
  induction cs as [|c cs IH]; intros K l DK H k; [cbn in H; subst l; cbn; auto|]. destruct H as (l0 & l1 & -> & H & D).
  assert (DK' : forall k, (K k \/ In k (map fst l0)) \/ ~ (K k \/ In k (map fst l0))).
  { intros k'. destruct (DK k'); auto. destruct (in_dec (list_eq_dec ascii_dec) k' (map fst l0)); tauto. }
  specialize (IH _ l1 DK' H k). clear DK'.
  rewrite command_line_cons, defaults_cons, first_of_app, last_of_app, (last_of_app k l0 l1).
  destruct (last_of k (command_line p cs)) as [v|]; [rewrite IH; auto|]. destruct IH as [IH1 IH2].
  destruct D as [(P & ->)|[(P & N & Nd & ->)|(P & Q & ->)]]; rewrite P; cbn [map fst In] in IH1, IH2.
  - rewrite last_of_one. destruct (list_eq_dec ascii_dec (c_key c) k) as [E|E].
    + rewrite IH1 by auto. auto.
    + split; intros HK.
      * rewrite IH1 by auto. auto.
      * rewrite IH2 by tauto. assert (X : first_of k (default1 c) = None).
        { unfold default1. destruct (c_default c); cbn [first_of]; auto. destruct (list_eq_dec ascii_dec (c_key c) k); congruence. }
        rewrite X. destruct (first_of k (defaults cs)); auto.
  - rewrite last_of_one. cbn [last_of map last_value].
    assert (X : first_of k (default1 c) =
      if list_eq_dec ascii_dec (c_key c) k then Some (c_default c) else None) by (unfold default1; destruct (c_default c); [congruence|reflexivity]).
    rewrite X. destruct (list_eq_dec ascii_dec (c_key c) k) as [E|E].
    + rewrite IH1 by auto. split; [intros HK; subst k; tauto|auto].
    + split; intros HK; [rewrite IH1 by auto|rewrite IH2 by tauto; destruct (first_of k _)]; auto.
  - cbn [last_of map last_value]. split; intros HK; [rewrite IH1 by auto; auto|]. rewrite IH2 by tauto.
    assert (X : first_of k (default1 c) = None).
    { unfold default1. destruct (c_default c) eqn:Ed; cbn [first_of]; auto. destruct (list_eq_dec ascii_dec (c_key c) k); auto. subst k. destruct Q; [tauto|congruence]. }
    rewrite X. destruct (first_of k (defaults cs)); auto.
Qed.

(* reachable managers *)
Definition inv (m : manager) : Prop :=
  ok m /\ (forall c, In c (parameter_list m ++ positional_list m) -> c_key c <> []) /\
  In (mkC configfile_key $"configfile" []) (parameter_list m).
Lemma set_puts fs fuel k v m b m' : documents fs -> setValue fuel fs k v m = Some (b, m') ->
  exists l, m' = puts m (l ++ [(k, v)]) /\ (if list_eq_dec ascii_dec k $"/configfile" then file_entries fs v l else l = []) /\
    (b = true <-> value_at (puts m l) k = None).
Proof.
  intros D. unfold setValue. destruct (str_eqb k $"/configfile") eqn:EK.
  - destruct (load fuel fs v m) as [[b0 m1]|] eqn:EL; [|discriminate]. intros [= <- <-].
    destruct (load_sound fs D _ _ _ _ _ EL) as (l & F & -> & _). exists l. rewrite puts_app. split; [reflexivity|]. split.
    + destruct (list_eq_dec ascii_dec k $"/configfile"); auto. apply str_eqb_spec in EK. congruence.
    + unfold value_at. destruct (map_get (items (puts m l)) k); split; congruence.
  - intros [= <- <-]. exists []. split; [reflexivity|]. split.
    + destruct (list_eq_dec ascii_dec k $"/configfile"); auto. apply str_eqb_no in EK. congruence.
    + unfold value_at. cbn [puts fold_left]. destruct (map_get (items m) k); split; congruence.
Qed.
Lemma inv_puts m l : inv m -> inv (puts m l).
Proof.
  intros (O & K & C). destruct (puts_fields m l) as (_ & H2 & H3 & _). unfold inv. rewrite H2, H3. split; [apply puts_ok|]; auto.
Qed.
Lemma map_remove_sorted {T} (g : T -> T) (l : list (str * T)) : sorted l -> sorted (map (fun e => (fst e, g (snd e))) l).
Proof.
  induction 1 as [|k v r Hs IH Hlt]; cbn [map fst snd]; constructor; auto.
  intros k' v' Hin. apply in_map_iff in Hin. destruct Hin as ([k2 v2] & [= <- <-] & Hin). eauto.
Qed.
Lemma fold_tell {A} (h : A -> str) o (l : list A) : forall m, 
  let m' := fold_left (fun m a => tell m [o] (h a)) l m in
  items m' = items m /\ observers m' = observers m /\ parameter_list m' = parameter_list m /\ positional_list m' = positional_list m /\
  initialized m' = initialized m /\ told m' = told m ++ map (fun a => (o, h a)) l.
Proof.
  induction l as [|a l IH]; intros m; cbn [fold_left map]; [rewrite app_nil_r; repeat split|].
  destruct (IH (tell m [o] (h a))) as (H1 & H2 & H3 & H4 & H5 & H6). cbv zeta. rewrite H1, H2, H3, H4, H5, H6. repeat split.
  cbn [told tell]. rewrite <- app_assoc. reflexivity.
Qed.
Lemma register_fields fs m o k : let m' := registerObserver fs m o k in
  items m' = items m /\ observers m' = map_put (observers m) k (registered_for m k ++ [o]) /\
  parameter_list m' = parameter_list m /\ positional_list m' = positional_list m /\ initialized m' = initialized m /\
  told m' = told m ++ match k with
                      | [] => map (fun kv => (o, fst kv)) (filter (fun kv => matches fs $".*" (fst kv)) (items m))
                      | _ => if existsb (fun kv => matches fs k (fst kv)) (items m) then [(o, k)] else []
                      end.
Proof.
  cbv zeta. unfold registerObserver. set (m1 := mkM _ _ _ _ _ _).
  assert (EO : observers m1 = map_put (observers m) k (registered_for m k ++ [o])).
  { unfold m1, registered_for. cbn [observers]. destruct (map_get (observers m) k); reflexivity. }
  destruct k as [|x k].
  - destruct (fold_tell (fun kv : str * str => fst kv) o (filter (fun kv => matches fs $".*" (fst kv)) (items m1)) m1) as (H1 & H2 & H3 & H4 & H5 & H6).
    cbv zeta in *. rewrite H1, H2, H3, H4, H5, H6. repeat split; auto.
  - change (items m1) with (items m). destruct (existsb _ (items m)).
    + repeat split; auto.
    + rewrite app_nil_r. repeat split; auto.
Qed.
Lemma step_inv fs a m m' : documents fs -> step fs a m m' -> inv m -> inv m'.
Proof.
  intros D S I. destruct S.
  - destruct I as ((O1 & O2) & K & C). unfold addConfigParameter. destruct (c_key c) as [|x y] eqn:E; [repeat split; auto|].
    repeat split; auto; cbn [parameter_list positional_list].
    + intros c' Hin. rewrite <- app_assoc in Hin. apply in_app_or in Hin. destruct Hin as [Hin|[<-|Hin]]; [|congruence|]; apply K, in_or_app; auto.
    + apply in_or_app. auto.
  - destruct I as ((O1 & O2) & K & C). unfold addConfigPositional. destruct (c_key c) as [|x y] eqn:E; [repeat split; auto|].
    repeat split; auto; cbn [parameter_list positional_list].
    intros c' Hin. rewrite app_assoc in Hin. apply in_app_or in Hin. destruct Hin as [Hin|[<-|[]]]; [auto|congruence].
  - destruct I as ((O1 & O2) & K & C). destruct (register_fields fs m o k) as (H1 & H2 & H3 & H4 & _). cbv zeta in *. unfold inv, ok.
    rewrite H1, H2, H3, H4. repeat split; auto. apply map_put_sorted; auto.
  - destruct I as ((O1 & O2) & K & C). repeat split; auto. apply map_remove_sorted; auto.
  - destruct (set_puts _ _ _ _ _ _ _ D H) as (l & -> & _). apply inv_puts; auto.
  - destruct b.
    + destruct (initialized m) eqn:EI.
      * unfold initialize_config in H. rewrite EI in H. injection H as <-. auto.
      * destruct (initialize_puts _ _ _ _ _ D (proj1 I) (proj1 (proj2 I)) EI H) as (l & l' & _ & _ & ->). apply (inv_puts m l' I).
    + apply initialize_fails in H; auto. destruct H as (_ & _ & _ & ->). auto.
Qed.
Lemma history_inv fs l m m' : documents fs -> history fs l m m' -> inv m -> inv m'.
Proof. intros D H. induction H; auto. intros I. eapply step_inv in H; eauto. Qed.
Lemma new_inv : inv new_manager.
Proof.
  split; [split; apply sorted_nil|]. split; [|left; reflexivity]. intros c [<-|[]]. discriminate.
Qed.
Lemma reachable_inv fs m : documents fs -> reachable fs m -> inv m.
Proof. intros D [l H]. eapply history_inv; eauto using new_inv. Qed.

Lemma last_of_in k l : In k (map fst l) -> exists v, last_of k l = Some v.
Proof.
  unfold last_of. induction l as [|[k' v] l IH]; cbn [map fst In last_value]; [tauto|]. intros [E|H].
  - destruct (last_value k (map Some l)) as [w|]; [exists w; reflexivity|]. destruct (list_eq_dec ascii_dec k' k) as [Ek|Nk]; [exists v; reflexivity|]. exfalso. apply Nk. auto.
  - destruct (IH H) as [x ->]. eauto.
Qed.
Lemma last_of_in' k l : last_of k l <> None -> In k (map fst l).
Proof.
  unfold last_of. induction l as [|[k' v] l IH]; cbn [map fst In last_value]; [tauto|]. intros H.
  destruct (last_value k (map Some l)); [right; apply IH; discriminate|]. destruct (list_eq_dec ascii_dec _ _); auto.
Qed.
Lemma precedence fs p m l l' : inv m -> configured fs p l -> initial_entries p m l l' -> forall k,
  match last_of k l' with Some v => Some v | None => value_at m k end =
  first_some [last_of k (paramPrefixOpt p $"config-option");
              last_of k (command_line p (parameter_list m ++ positional_list m));
              last_of k l; value_at m k;
              first_of k (defaults (parameter_list m ++ positional_list m))].
Proof.
  intros (O & K & C) F (l1 & P & ->) k. set (l0 := l ++ _) in *. rewrite !last_of_app. cbn [first_some].
  destruct (last_of k (paramPrefixOpt p $"config-option")); [reflexivity|].
  assert (DK : forall k, has_value m l0 k \/ ~ has_value m l0 k).
  { intros k'. unfold has_value. destruct (value_at m k') eqn:E; [left; left; congruence|].
    destruct (in_dec (list_eq_dec ascii_dec) k' (map fst l0)); [auto|]. right. intros [H|H]; auto. }
  pose proof (parameter_values p _ _ l1 DK P k) as V.
  assert (L0 : last_of k (command_line p (parameter_list m ++ positional_list m)) = None -> last_of k l0 = last_of k l).
  { intros N. unfold l0. rewrite last_of_app. destruct (paramOptPresent p $"configfile") eqn:EP; [|reflexivity].
    rewrite last_of_one. destruct (list_eq_dec ascii_dec $"/configfile" k) as [<-|]; [|reflexivity]. exfalso.
    destruct (last_of_in $"/configfile" (command_line p (parameter_list m ++ positional_list m))) as [v E]; [|congruence].
    apply in_map_iff. exists ($"/configfile", paramOpt p $"configfile"). split; [reflexivity|]. apply in_flat_map.
    exists (mkC configfile_key $"configfile" []). split; [apply in_or_app; auto|]. cbn [c_option c_key]. rewrite EP. left. reflexivity. }
  destruct (last_of k (command_line p (parameter_list m ++ positional_list m))) as [v|]; [rewrite V; reflexivity|].
  specialize (L0 eq_refl). destruct V as [V1 V2]. destruct (last_of k l0) as [v|] eqn:E0.
  - rewrite V1; [rewrite <- L0; reflexivity|]. right. apply last_of_in'. congruence.
  - rewrite <- L0. destruct (value_at m k) as [v|] eqn:Ev.
    + rewrite V1; [reflexivity|]. left. congruence.
    + rewrite V2; [destruct (first_of k (defaults _)); reflexivity|]. intros [H|H]; [congruence|]. apply last_of_in in H. destruct H. congruence.
Qed.

(* observers *)
Lemma registered_put m l k : registered_for (puts m l) k = registered_for m k.
Proof. unfold registered_for. destruct (puts_fields m l) as (H & _). rewrite H. auto. Qed.
Lemma registered_unreg m o k : registered_for (unregisterObserver m o) k = remove Nat.eq_dec o (registered_for m k).
Proof.
  unfold registered_for, unregisterObserver. cbn [observers]. induction (observers m) as [|[k' l] r IH]; [reflexivity|].
  cbn [map fst snd map_get]. destruct (str_lt k k'); auto. destruct (str_lt k' k); auto.
Qed.
Lemma registered_reg fs m o k k' : inv m ->
  registered_for (registerObserver fs m o k) k' = if list_eq_dec ascii_dec k' k then registered_for m k ++ [o] else registered_for m k'.
Proof.
  intros ((_ & O) & _). unfold registered_for at 1. destruct (register_fields fs m o k) as (_ & H & _). cbv zeta in H. rewrite H, map_get_put by auto.
  destruct (list_eq_dec ascii_dec k' k); reflexivity.
Qed.
Lemma calls_in m l o k : In (o, k) (calls m l) -> In o (to_tell m k).
Proof.
  unfold calls. intros H. apply in_flat_map in H. destruct H as (e & _ & H). apply in_map_iff in H. destruct H as (o' & [= <- <-] & H). auto.
Qed.
Definition silent (m : manager) (o : nat) : Prop := forall k, ~ In o (registered_for m k).
Lemma silent_puts m l o : silent m o -> silent (puts m l) o /\ forall e, In e (told (puts m l)) -> fst e = o -> In e (told m).
Proof.
  intros S. split; [intros k; rewrite registered_put; apply S|]. intros [o' k] H E. cbn in E. subst o'.
  destruct (puts_fields m l) as (_ & _ & _ & _ & H5). rewrite H5 in H. apply in_app_or in H. destruct H as [H|H]; auto.
  apply calls_in in H. apply in_app_or in H. exfalso. destruct H as [H|H]; eapply S; eauto.
Qed.
Lemma step_silent fs a m m' o : documents fs -> inv m -> step fs a m m' -> (forall k, a <> Register o k) -> silent m o ->
  silent m' o /\ (forall e, In e (told m') -> fst e = o -> In e (told m)).
Proof.
  intros D I S N Q. destruct S.
  - unfold addConfigParameter. destruct (c_key c); split; auto.
  - unfold addConfigPositional. destruct (c_key c); split; auto.
  - assert (NE : o0 <> o) by (intros ->; apply (N k); auto). split.
    + intros k' H. rewrite registered_reg in H by auto. destruct (list_eq_dec ascii_dec k' k); [|apply (Q k'); auto].
      apply in_app_or in H. destruct H as [H|[H|[]]]; [apply (Q k); auto|congruence].
    + intros e H E. destruct (register_fields fs m o0 k) as (_ & _ & _ & _ & _ & T). cbv zeta in T. rewrite T in H.
      apply in_app_or in H. destruct H as [H|H]; auto. exfalso. destruct k as [|x k].
      * apply in_map_iff in H. destruct H as (kv & <- & _). cbn in E. congruence.
      * destruct (existsb _ _); [|destruct H]. destruct H as [<-|[]]. cbn in E. congruence.
  - split; [|auto]. intros k H. rewrite registered_unreg in H. apply in_remove in H. apply (Q k). tauto.
  - destruct (set_puts _ _ _ _ _ _ _ D H) as (l & -> & _). apply silent_puts; auto.
  - destruct b.
    + destruct (initialized m) eqn:EI.
      * unfold initialize_config in H. rewrite EI in H. injection H as <-. auto.
      * destruct (initialize_puts _ _ _ _ _ D (proj1 I) (proj1 (proj2 I)) EI H) as (l & l' & _ & _ & ->). apply (silent_puts m l' o Q).
    + apply initialize_fails in H; auto. destruct H as (_ & _ & _ & ->). auto.
Qed.
Lemma history_silent fs l m m' o : documents fs -> history fs l m m' -> inv m -> (forall k, ~ In (Register o k) l) -> silent m o ->
  forall e, In e (told m') -> fst e = o -> In e (told m).
Proof.
  intros D H. induction H as [|a l m m1 m2 S H IH]; auto. intros I N Q e.
  assert (Na : forall k, a <> Register o k) by (intros k ->; apply (N k); left; auto).
  destruct (step_silent fs a m m1 o D I S Na Q) as (Q1 & T1).
  intros H1 H2. apply T1; auto. apply IH; auto. { eapply step_inv; eauto. } intros k Hin. apply (N k). right; auto.
Qed.

(* load returns exactly if the includes below the file are well-founded *)
Lemma go_includes fs n dir : forall nd, match nd with Element _ ch => forall fq m m' t, go_xml (load n fs) dir fq ch m = Some m' ->
   In t (flat_map include_texts ch) -> exists m1 x, load n fs (dir ++ t) m1 = Some x | _ => True end.
Proof.
  induction nd as [name ch IH|v|] using node_rect'; auto. intros fq. induction IH as [|c ch Hc Hch IH]; intros m m' t; [cbn; tauto|].
  cbn [go_xml flat_map]. destruct (child (load n fs) dir fq c m) as [m1|] eqn:E; [|discriminate]. intros E2 Hin.
  apply in_app_or in Hin. destruct Hin as [Hin|Hin]; [|eauto]. destruct c as [cname cc|v|]; try destruct Hin. cbn [include_texts child] in *.
  destruct (str_eqb cname $"INCLUDE").
  - destruct (get_text cc) as [t'|]; [|destruct Hin]. destruct Hin as [<-|[]].
    destruct (load n fs (dir ++ t') m) eqn:EL; [eauto|discriminate].
  - rewrite readXml_go in E. eauto.
Qed.
Lemma load_includes fs n f g m x : load (S n) fs f m = Some x -> includes fs f g -> exists m1 y, load n fs g m1 = Some y.
Proof.
  intros E (T & name & ch & t & F & Hin & ->). cbn [load] in E. fold (is_tree_file fs f) in E. rewrite T, F, readXml_go in E.
  destruct (go_xml _ _ _ ch m) as [m1|] eqn:EG; [|discriminate]. eapply (go_includes fs n _ (Element name ch)); eauto.
Qed.
Lemma load_acc fs n : forall f m x, load n fs f m = Some x -> Acc (fun g f => includes fs f g) f.
Proof.
  induction n as [|n IH]; intros f m x E; [discriminate|]. constructor. intros g H. destruct (load_includes _ _ _ _ _ _ E H) as (m1 & y & E1). eauto.
Qed.
Lemma acc_entries fs f : documents fs -> Acc (fun g f => includes fs f g) f -> exists l, file_entries fs f l.
Proof.
  intros D A. induction A as [f _ IH]. destruct (readable fs f) eqn:R; [|exists []; apply fe_none; auto].
  unfold readable in R. destruct (is_tree_file fs f) eqn:T.
  - destruct (tree_file fs f) as [[t|]|] eqn:F; [eexists; eapply fe_tree; eauto|eexists; eapply fe_tree_empty; eauto|discriminate].
  - destruct (xml_file fs f) as [[root|]|] eqn:F; [|eexists; eapply fe_xml_empty; eauto|discriminate].
    destruct (D f root F) as (name & ch & ->).
    assert (Hin : forall t, In t (flat_map include_texts ch) -> exists l, file_entries fs (directory_of fs f ++ t) l).
    { intros t Ht. apply IH. split; auto. eauto 8. }
    assert (G : forall nd, match nd with Element _ ch => (forall t, In t (flat_map include_texts ch) -> exists l, file_entries fs (directory_of fs f ++ t) l) ->
      forall key, exists l, children_entries fs (directory_of fs f) key ch l | _ => True end).
    { clear. induction nd as [name ch IH|v|] using node_rect'; auto. intros Hin. induction IH as [|c ch Hc Hch IH]; intros key; [eexists; apply ce_nil|].
      destruct IH with (key := key) as (l2 & C2). { intros t Ht. apply Hin. cbn. apply in_or_app; auto. }
      destruct c as [cname cc|v|].
      - destruct (str_eqb cname $"INCLUDE") eqn:EI.
        + pose proof EI as EI'. apply str_eqb_spec in EI'. subst cname. destruct (get_text cc) as [t|] eqn:ET.
          * destruct (Hin t) as (l1 & C1). { cbn [flat_map include_texts]. rewrite EI, ET. apply in_or_app. left. left. auto. }
            eexists. eapply ce_include; eauto.
          * eexists. eapply ce_include_nothing; eauto.
        + destruct (Hc) with (key := key ++ $"/" ++ cname) as (l1 & C1).
          { intros t Ht. apply Hin. cbn [flat_map include_texts]. rewrite EI. apply in_or_app. auto. }
          apply str_eqb_no in EI. eexists. eapply ce_element; eauto.
      - eexists. eapply ce_text; eauto.
      - eexists. eapply ce_other; eauto. }
    destruct (G (Element name ch) Hin []) as (l & C). exists l. eapply fe_xml; eauto.
Qed.

(* numbers of calls *)
Lemma filter_none {A} (g : A -> bool) l : (forall x, In x l -> g x = false) -> filter g l = [].
Proof. induction l as [|x l IH]; intros H; cbn [filter]; auto. rewrite (H x) by (left; auto). apply IH. intros y Hy. apply H. right; auto. Qed.
Definition mine (o : nat) (m : manager) := filter (fun e : nat * str => fst e =? o)%nat (told m).
Lemma mine_puts m l o : silent m o -> mine o (puts m l) = mine o m.
Proof.
  intros S. unfold mine. destruct (puts_fields m l) as (_ & _ & _ & _ & H5). rewrite H5, filter_app.
  rewrite (filter_none _ (calls m l)); [apply app_nil_r|]. intros [o' k] H. cbn [fst]. apply Nat.eqb_neq. intros ->.
  apply calls_in in H. apply in_app_or in H. destruct H as [H|H]; eapply S; eauto.
Qed.
Lemma step_count fs a m m' o : documents fs -> inv m -> step fs a m m' -> (forall k, a <> Register o k) -> silent m o -> mine o m' = mine o m.
Proof.
  intros D I S N Q. destruct S.
  - unfold addConfigParameter. destruct (c_key c); auto.
  - unfold addConfigPositional. destruct (c_key c); auto.
  - assert (NE : o0 <> o) by (intros ->; apply (N k); auto).
    unfold mine. destruct (register_fields fs m o0 k) as (_ & _ & _ & _ & _ & T). cbv zeta in T. rewrite T, filter_app.
    rewrite (filter_none _ (match k with [] => _ | _ => _ end)); [apply app_nil_r|]. intros e H. apply Nat.eqb_neq. intros E. destruct k as [|x k].
    + apply in_map_iff in H. destruct H as (kv & <- & _). cbn in E. congruence.
    + destruct (existsb _ _); [|destruct H]. destruct H as [<-|[]]. cbn in E. congruence.
  - reflexivity.
  - destruct (set_puts _ _ _ _ _ _ _ D H) as (l & -> & _). apply mine_puts; auto.
  - destruct b.
    + destruct (initialized m) eqn:EI.
      * unfold initialize_config in H. rewrite EI in H. injection H as <-. auto.
      * destruct (initialize_puts _ _ _ _ _ D (proj1 I) (proj1 (proj2 I)) EI H) as (l & l' & _ & _ & ->). apply (mine_puts m l' o Q).
    + apply initialize_fails in H; auto. destruct H as (_ & _ & _ & ->). auto.
Qed.
Lemma history_count fs l m m' o : documents fs -> history fs l m m' -> inv m -> (forall k, ~ In (Register o k) l) -> silent m o ->
  mine o m' = mine o m.
Proof.
  intros D H. induction H as [|a l m m1 m2 S H IH]; auto. intros I N Q.
  assert (Na : forall k, a <> Register o k) by (intros k ->; apply (N k); left; auto).
  destruct (step_silent fs a m m1 o D I S Na Q) as (Q1 & T1). rewrite IH; auto.
  - eapply step_count; eauto.
  - eapply step_inv; eauto.
  - intros k Hin. apply (N k). right; auto.
Qed.

Lemma step_initialized fs a m m' : documents fs -> step fs a m m' -> initialized m = true -> initialized m' = true.
Proof.
  intros D S I. destruct S.
  - unfold addConfigParameter. destruct (c_key c); auto.
  - unfold addConfigPositional. destruct (c_key c); auto.
  - destruct (register_fields fs m o k) as (_ & _ & _ & _ & H & _). cbv zeta in H. congruence.
  - auto.
  - destruct (set_puts _ _ _ _ _ _ _ D H) as (l & -> & _). destruct (puts_fields m (l ++ [(k, v)])) as (_ & _ & _ & H4 & _). congruence.
  - unfold initialize_config in H. rewrite I in H. congruence.
Qed.
Lemma history_initialized fs l m m' : documents fs -> history fs l m m' -> initialized m = true -> initialized m' = true.
Proof. intros D H. induction H; auto. intros I. eauto using step_initialized. Qed.
