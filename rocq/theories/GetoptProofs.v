(* Proofs about GetoptModel.  Internal lemmas; the reader's theorems are in GetoptProps. *)
From Verif Require Import Base Text SMap GetoptModel GetoptSpec.

(* the two fixed expressions *)
Definition long_parse (s : str) : option (str * option str) :=
  match s with
  | a :: b :: c :: r =>
    if Ascii.eqb a "-"%char && Ascii.eqb b "-"%char && negb (Ascii.eqb c "-"%char)
    then let (n, v) := until_eq r in Some (c :: n, match v with [] => None | _ :: x => Some x end) else None
  | _ => None
  end.
Definition dflt (v : option str) : str := match v with Some x => x | None => [] end.
Lemma long_match_parse s : long_match s = match long_parse s with Some (n, v) => Some (n, dflt v) | None => None end.
Proof.
  unfold long_match, long_parse. destruct s as [|a [|b [|c r]]]; auto. destruct (_ && _); auto.
  destruct (until_eq r) as [n [|x v]]; reflexivity.
Qed.
Lemma until_eq_sound s : forall a b, until_eq s = (a, b) -> s = a ++ b /\ ~ In "="%char a /\ (b = [] \/ exists r, b = "="%char :: r).
Proof.
  induction s as [|c s IH]; intros a b; cbn.
  - intros [= <- <-]. auto.
  - destruct (Ascii.eqb_spec c "="%char) as [->|N].
    + intros [= <- <-]. split; auto. split; [intros []|]. eauto.
    + destruct (until_eq s) as [x y]. intros [= <- <-]. destruct (IH x y eq_refl) as (-> & H1 & H2).
      split; auto. split; auto. intros [->|H]; congruence || auto.
Qed.
Lemma until_eq_complete a b : ~ In "="%char a -> (b = [] \/ exists r, b = "="%char :: r) -> until_eq (a ++ b) = (a, b).
Proof.
  intros H Hb. induction a as [|c a IH]; cbn.
  - destruct Hb as [->|(r & ->)]; reflexivity.
  - destruct (Ascii.eqb_spec c "="%char) as [->|N]; [exfalso; apply H; left; auto|].
    rewrite IH; auto. intros Q. apply H. right; auto.
Qed.
Lemma eqb_ne a b : a <> b -> Ascii.eqb a b = false. Proof. apply Ascii.eqb_neq. Qed.
Lemma long_parse_text name v : long_name name -> long_parse (long_text name v) = Some (name, v).
Proof.
  intros (c & r & -> & Hc & Hr). unfold long_parse, long_text. cbn [list_ascii_of_string app].
  rewrite !Ascii.eqb_refl, (eqb_ne c "-"%char) by auto. cbn [andb negb].
  rewrite until_eq_complete; auto.
  - destruct v; reflexivity.
  - destruct v; [right; eexists; reflexivity|left; reflexivity].
Qed.
Lemma long_parse_sound a name v : long_parse a = Some (name, v) -> a = long_text name v /\ long_name name.
Proof.
  unfold long_parse. destruct a as [|x [|y [|c r]]]; try discriminate.
  destruct (Ascii.eqb_spec x "-"%char) as [->|]; [|discriminate]. destruct (Ascii.eqb_spec y "-"%char) as [->|]; [|discriminate].
  destruct (Ascii.eqb_spec c "-"%char) as [->|N]; [discriminate|]. cbn [andb negb].
  destruct (until_eq r) as [n w] eqn:E. apply until_eq_sound in E. destruct E as (-> & H1 & H2).
  intros [= <- <-]. split; [|exists c, n; auto]. unfold long_text. cbn.
  destruct H2 as [->|(q & ->)]; reflexivity.
Qed.
Lemma short_match_text n : short_name n -> short_match ($"-" ++ n) = Some n /\ long_parse ($"-" ++ n) = None.
Proof.
  intros (c & r & -> & Hc). unfold short_match, long_parse. cbn [list_ascii_of_string app].
  rewrite Ascii.eqb_refl, (eqb_ne c "-"%char) by auto. split; [reflexivity|]. destruct r; reflexivity.
Qed.
Lemma short_match_sound a n : short_match a = Some n -> a = $"-" ++ n /\ short_name n.
Proof.
  unfold short_match. destruct a as [|x [|c r]]; try discriminate.
  destruct (Ascii.eqb_spec x "-"%char) as [->|]; [|discriminate]. destruct (Ascii.eqb_spec c "-"%char) as [->|N]; [discriminate|].
  intros [= <-]. split; [reflexivity|]. exists c, r. auto.
Qed.
Lemma long_parse_any n : short_name n -> exists x, long_parse ($"--" ++ n) = Some x.
Proof.
  intros (c & r & -> & Hc). unfold long_parse. cbn [list_ascii_of_string app].
  rewrite !Ascii.eqb_refl, (eqb_ne c "-"%char) by auto. cbn [andb negb]. destruct (until_eq r). eauto.
Qed.
Lemma option_like_spec a : ~ option_like a <-> long_parse a = None /\ short_match a = None.
Proof.
  split.
  - intros H. split.
    + destruct (long_parse a) as [[n v]|] eqn:E; auto. exfalso. apply long_parse_sound in E. destruct E as [-> (c & r & -> & Hc & _)].
      apply H. exists ((c :: r) ++ match v with Some x => $"=" ++ x | None => [] end). right. split; [reflexivity|]. exists c. eexists. split; [reflexivity|auto].
    + destruct (short_match a) as [n|] eqn:E; auto. exfalso. apply short_match_sound in E. apply H. exists n. auto.
  - intros [H1 H2] (n & [[-> Hn]|[-> Hn]]).
    + destruct (short_match_text n Hn). congruence.
    + destruct (long_parse_any n Hn). congruence.
Qed.

(* prefixes *)
Lemma strip_spec p s r : strip p s = Some r <-> s = p ++ r.
Proof.
  revert s. induction p as [|a p IH]; intros s; cbn.
  - split; [intros [= ->]|intros ->]; auto.
  - destruct s as [|b s]; [split; discriminate|]. destruct (Ascii.eqb_spec a b) as [->|N].
    + rewrite IH. split; [intros ->|intros [= ->]]; auto.
    + split; [discriminate|]. intros [= -> _]. congruence.
Qed.
Lemma strip_none p s : strip p s = None <-> ~ is_prefix p s.
Proof.
  destruct (strip p s) as [r|] eqn:E.
  - apply strip_spec in E. split; [discriminate|]. intros H. exfalso. apply H. exists r. auto.
  - split; auto. intros _ (r & H). apply strip_spec in H. congruence.
Qed.
Lemma prefix_lt p q s : is_prefix p s -> is_prefix q s -> (length q < length p)%nat -> str_lt q p = true.
Proof.
  intros (r & ->) (r2 & E). revert q E. induction p as [|a p IH]; intros q E HL; [cbn in HL; lia|].
  destruct q as [|b q]; [reflexivity|]. cbn in E. injection E as <- E. cbn in *.
  rewrite Ascii.eqb_refl, IH; auto; [|lia]. apply orb_true_r.
Qed.
Lemma prefix_eq p q s : is_prefix p s -> is_prefix q s -> length q = length p -> q = p.
Proof.
  intros (r & ->) (r2 & E). revert q E. induction p as [|a p IH]; intros q E HL; destruct q as [|b q]; try discriminate; auto.
  cbn in E. injection E as <- E. f_equal. apply IH; auto.
Qed.
Lemma find_prefix_some rx m name k p rest : literal rx -> (forall x q, In (x, q) m -> plain x) -> sorted m ->
  (find_prefix rx m name = Some (k, p, rest) <-> name = k ++ rest /\ shortest m k name p).
Proof.
  intros L P S. split.
  - intros H. assert (K : name = k ++ rest /\ In (k, p) m /\ forall p' q', In (p', q') m -> is_prefix p' name -> (length k <= length p')%nat).
    { induction S as [|x q r S IH HL]; cbn in H; [discriminate|].
      rewrite L in H by (eapply P; left; reflexivity). destruct (strip x name) as [r'|] eqn:E.
      - injection H as <- <- <-. apply strip_spec in E. split; auto. split; [left; auto|].
        intros p' q' [[= <- <-]|Q] Hp; [lia|]. destruct (Nat.le_gt_cases (length x) (length p')); auto. exfalso.
        apply HL in Q. assert (str_lt p' x = true) by (eapply prefix_lt; [exists r'; exact E|exact Hp|lia]).
        rewrite (str_lt_asym _ _ Q) in *. discriminate.
      - apply IH in H; [|intros; eapply P; right; eauto]. destruct H as (H1 & H2 & H3). split; auto. split; [right; auto|].
        intros p' q' [[= <- <-]|Q] Hp; [|eauto]. apply strip_none in E. contradiction. }
    destruct K as (H1 & H2 & H3). split; auto. split; [apply map_get_in; auto|]. split; [exists rest; auto|].
    intros p' q' Hg. apply map_get_in in Hg; eauto.
  - intros (E & Hg & _ & Hs). apply map_get_in in Hg; auto.
    assert (Hs' : forall p' q', In (p', q') m -> is_prefix p' name -> (length k <= length p')%nat).
    { intros p' q' Q. apply Hs with q'. apply map_get_in; auto. }
    clear Hs. induction S as [|x q r S IH HL]; [destruct Hg|]. cbn. rewrite L by (eapply P; left; reflexivity).
    destruct Hg as [[= -> ->]|Hg].
    + assert (E2 : strip k name = Some rest) by (apply strip_spec; auto). rewrite E2. auto.
    + destruct (strip x name) as [r'|] eqn:E2.
      * apply strip_spec in E2. exfalso.
        assert (Hx : is_prefix x name) by (exists r'; auto). assert (Hk : is_prefix k name) by (exists rest; auto).
        pose proof (Hs' x q (or_introl eq_refl) Hx). pose proof (HL _ _ Hg) as Q.
        destruct (Nat.eq_dec (length x) (length k)) as [Q2|Q2].
        -- rewrite (prefix_eq _ _ _ Hk Hx Q2), str_lt_irrefl in Q. discriminate.
        -- assert (str_lt k x = true) by (eapply prefix_lt; eauto; lia). rewrite (str_lt_asym _ _ Q) in *. discriminate.
      * apply IH; auto; intros; [eapply P; right; eauto|eapply Hs'; [right; eauto|auto]].
Qed.
Lemma find_prefix_none rx m name : literal rx -> (forall x q, In (x, q) m -> plain x) -> sorted m ->
  (find_prefix rx m name = None <-> no_prefix m name).
Proof.
  intros L P S. transitivity (forall p q, In (p, q) m -> ~ is_prefix p name).
  - clear S. induction m as [|[x q] r IH]; cbn; [split; intros; [destruct H0|reflexivity]|].
    rewrite L by (eapply P; left; reflexivity). destruct (strip x name) as [r'|] eqn:E.
    + apply strip_spec in E. split; [discriminate|]. intros H. exfalso. eapply H; [left; reflexivity|exists r'; auto].
    + apply strip_none in E. rewrite IH by (intros; eapply P; right; eauto). split.
      * intros H p q' [[= <- <-]|Q]; eauto.
      * intros H p q' Q. eapply H; right; eauto.
  - unfold no_prefix. split; intros H p q Q; eapply H; apply map_get_in in Q; eauto.
Qed.

Lemma map_insert_sorted {T} (m : list (str * T)) k v : sorted m -> sorted (map_insert m k v).
Proof. intros S. unfold map_insert. destruct (map_get m k); auto. apply map_put_sorted; auto. Qed.
Lemma registered_well_formed g : registered g -> well_formed g.
Proof.
  induction 1 as [|g o s b R IH|g name b R IH|g d R IH].
  - repeat split; repeat constructor; intros k v [].
  - destruct IH as (H1 & H2 & H3 & H4). unfold addParameter. destruct (p_is_prefix _); repeat split; cbn; auto;
      try (destruct (p_short _)); auto using map_insert_sorted.
  - destruct IH as (H1 & H2 & H3 & H4). unfold addPositional. destruct b; repeat split; auto.
  - destruct IH as (H1 & H2 & H3 & H4). repeat split; auto.
Qed.

(* the items of a command line, computed *)
Fixpoint items_of (rx : regex) (g : registry) (strict : bool) (args : list str) (n : nat) : option (list item) :=
  match args with
  | [] => Some []
  | a :: rest =>
    match long_parse a with
    | Some (name, v) =>
      match map_get (params g) name with
      | Some p => option_map (cons (ILong name v)) (items_of rx g strict rest n)
      | None =>
        match find_prefix rx (prefixes g) name with
        | Some (k, p, suffix) => option_map (cons (ILongPrefix k suffix v)) (items_of rx g strict rest n)
        | None => if strict then None else option_map (cons (IUnknownLong name v)) (items_of rx g strict rest n)
        end
      end
    | None =>
      match short_match a with
      | Some name =>
        match map_get (shorts g) name with
        | Some p =>
          if p_has_value p
          then match rest with
               | [] => None
               | v :: rest' => option_map (cons (IShort name (Some v))) (items_of rx g strict rest' n)
               end
          else option_map (cons (IShort name None)) (items_of rx g strict rest n)
        | None =>
          match find_prefix rx (short_prefixes g) name with
          | Some (k, p, suffix) =>
            if p_has_value p
            then match rest with
                 | [] => None
                 | v :: rest' => option_map (cons (IShortPrefix k suffix (Some v))) (items_of rx g strict rest' n)
                 end
            else option_map (cons (IShortPrefix k suffix None)) (items_of rx g strict rest n)
          | None => if strict then None else option_map (cons (IUnknownShort name)) (items_of rx g strict rest n)
          end
        end
      | None =>
        if extra_activated g && (if list_eq_dec ascii_dec a (extra_delimiter g) then true else false)
        then Some (IDelimiter :: map IExtra rest)
        else match nth_error (required g ++ optionals g) n with
             | Some name => option_map (cons (IPositional name a)) (items_of rx g strict rest (S n))
             | None => option_map (cons (INon a)) (items_of rx g strict rest n)
             end
      end
    end
  end.

Definition effect (g : registry) (st : parsed) (i : item) : parsed :=
  let st1 := match assigns g i with Some (k, v) => set_opt st k v | None => st end in
  let st2 := match adds_prefix g i with Some (k, kv) => push_prefix st1 k kv | None => st1 end in
  let st3 := match non_option i with a :: _ => push_non_opt st2 a | [] => st2 end in
  match extra_of i with a :: _ => push_extra st3 a | [] => st3 end.

Lemma scan_reached rx g strict args : forall n st, scan rx g strict args n true st = Good (fold_left (effect g) (map IExtra args) st) n.
Proof. induction args as [|a args IH]; intros n st; cbn [scan map fold_left]; auto. Qed.

Definition goodb (s : scanned) : option (parsed * nat) := match s with Good st n => Some (st, n) | Bad _ => None end.
Lemma flat_extra g l : flat_map (texts g) (map IExtra l) = l.
Proof. induction l as [|a l IH]; cbn [map flat_map texts app]; [|rewrite IH]; reflexivity. Qed.
Lemma count_extra l : count_positionals (map IExtra l) = 0%nat.
Proof. unfold count_positionals. induction l; auto. Qed.

Lemma map_get_find rx m name k p rest : sorted m -> find_prefix rx m name = Some (k, p, rest) -> map_get m k = Some p.
Proof.
  intros S H. apply map_get_in; auto. clear S. induction m as [|[x q] r IH]; cbn in H; [discriminate|].
  destruct (rx x name); [injection H as <- <- <-; left; auto|right; auto].
Qed.

Lemma nth_error_req g n : nth_error (required g ++ optionals g) n =
  if n <? length (required g) then Some (nth n (required g) [])
  else if n <? length (required g) + length (optionals g) then Some (nth (n - length (required g)) (optionals g) [])
  else None.
Proof.
  destruct (Nat.ltb_spec n (length (required g))).
  - rewrite nth_error_app1 by auto. apply nth_error_nth'. auto.
  - destruct (Nat.ltb_spec n (length (required g) + length (optionals g))).
    + rewrite nth_error_app2 by auto. apply nth_error_nth'. lia.
    + apply nth_error_None. rewrite app_length. auto.
Qed.

Lemma scan_items rx g strict : well_formed g -> forall k args n st, (length args <= k)%nat ->
  goodb (scan rx g strict args n false st) =
  match items_of rx g strict args n with
  | Some l => Some (fold_left (effect g) l st, (n + count_positionals l)%nat)
  | None => None
  end.
Proof.
  intros (S1 & S2 & S3 & S4). induction k as [|k IH]; intros args n st HL.
  { destruct args; [|cbn in HL; lia]. cbn. rewrite Nat.add_0_r. auto. }
  destruct args as [|a rest]; [cbn; rewrite Nat.add_0_r; auto|].
  assert (HL' : (length rest <= k)%nat) by (cbn in HL; lia).
  assert (T : forall i st1 n1 rest' l', (length rest' <= k)%nat -> l' = option_map (cons i) (items_of rx g strict rest' n1) ->
     st1 = effect g st i -> n1 = (n + positionals i)%nat ->
     goodb (scan rx g strict rest' n1 false st1) = match l' with Some l => Some (fold_left (effect g) l st, (n + count_positionals l)%nat) | None => None end).
  { intros i st1 n1 rest' l' HL1 -> -> ->. rewrite IH by auto. destruct (items_of rx g strict rest' _); cbn [option_map]; auto.
    cbn [fold_left]. do 2 f_equal. change (count_positionals (i :: l)) with (positionals i + count_positionals l)%nat. lia. }
  cbn [scan items_of]. rewrite long_match_parse. destruct (long_parse a) as [[name v]|] eqn:E0.
  - destruct (map_get (params g) name) as [p|] eqn:E1.
    + eapply T; [auto|reflexivity| |cbn; lia]. unfold effect. cbn [assigns adds_prefix non_option extra_of]. rewrite E1. cbn [value_of].
      destruct v; reflexivity.
    + destruct (find_prefix rx (prefixes g) name) as [[[x p] suffix]|] eqn:E2.
      * eapply T; [auto|reflexivity| |cbn; lia]. unfold effect. cbn [assigns adds_prefix non_option extra_of].
        rewrite (map_get_find _ _ _ _ _ _ S2 E2). cbn [value_of]. destruct v; reflexivity.
      * destruct strict; [reflexivity|]. apply long_parse_sound in E0. destruct E0 as [-> _].
        eapply T; [auto|reflexivity|reflexivity|cbn; lia].
  - destruct (short_match a) as [name|] eqn:E1.
    + destruct (map_get (shorts g) name) as [p|] eqn:E2.
      * destruct (p_has_value p) eqn:E3.
        -- destruct rest as [|v rest']; [reflexivity|]. eapply T; [cbn in HL'; lia|reflexivity| |cbn; lia].
           unfold effect. cbn [assigns adds_prefix non_option extra_of]. rewrite E2. cbn [value_of]. rewrite E3. reflexivity.
        -- eapply T; [auto|reflexivity| |cbn; lia].
           unfold effect. cbn [assigns adds_prefix non_option extra_of]. rewrite E2. cbn [value_of]. rewrite E3. reflexivity.
      * destruct (find_prefix rx (short_prefixes g) name) as [[[x p] suffix]|] eqn:E3.
        -- pose proof (map_get_find _ _ _ _ _ _ S4 E3) as E4. destruct (p_has_value p) eqn:E5.
           ++ destruct rest as [|v rest']; [reflexivity|]. eapply T; [cbn in HL'; lia|reflexivity| |cbn; lia].
              unfold effect. cbn [assigns adds_prefix non_option extra_of]. rewrite E4. cbn [value_of]. rewrite E5. reflexivity.
           ++ eapply T; [auto|reflexivity| |cbn; lia].
              unfold effect. cbn [assigns adds_prefix non_option extra_of]. rewrite E4. cbn [value_of]. rewrite E5. reflexivity.
        -- destruct strict; [reflexivity|]. apply short_match_sound in E1. destruct E1 as [-> _].
           eapply T; [auto|reflexivity|reflexivity|cbn; lia].
    + destruct (extra_activated g && _).
      * rewrite scan_reached. cbn [goodb fold_left]. change (effect g st IDelimiter) with st.
        change (count_positionals (IDelimiter :: map IExtra rest)) with (0 + count_positionals (map IExtra rest))%nat.
        rewrite count_extra. do 2 f_equal. lia.
      * rewrite nth_error_req. destruct (n <? length (required g)).
        -- eapply T; [auto|reflexivity|reflexivity|cbn; lia].
        -- destruct (n <? length (required g) + length (optionals g)).
           ++ eapply T; [auto|reflexivity|reflexivity|cbn; lia].
           ++ eapply T; [auto|reflexivity|reflexivity|cbn; lia].
Qed.

Lemma items_sound rx g strict : literal rx -> plain_registry g -> well_formed g -> forall k args n l, (length args <= k)%nat ->
  items_of rx g strict args n = Some l -> accounts g strict n l /\ flat_map (texts g) l = args.
Proof.
  intros L [P1 P2] (S1 & S2 & S3 & S4). induction k as [|k IH]; intros args n l HL.
  { destruct args; [|cbn in HL; lia]. cbn. intros [= <-]. split; [constructor|reflexivity]. }
  destruct args as [|a rest]; [cbn; intros [= <-]; split; [constructor|reflexivity]|].
  assert (HL' : (length rest <= k)%nat) by (cbn in HL; lia).
  assert (T : forall i n1 rest', (length rest' <= k)%nat -> option_map (cons i) (items_of rx g strict rest' n1) = Some l ->
     item_ok g strict n i -> n1 = (n + positionals i)%nat -> texts g i ++ rest' = a :: rest ->
     accounts g strict n l /\ flat_map (texts g) l = a :: rest).
  { intros i n1 rest' HL1 H Hok -> Ht. destruct (items_of rx g strict rest' _) as [l'|] eqn:E; [|discriminate].
    injection H as <-. apply IH in E; auto. destruct E as [H1 H2]. split; [constructor; auto|]. cbn [flat_map]. rewrite H2. auto. }
  cbn [items_of]. destruct (long_parse a) as [[name v]|] eqn:E0.
  - apply long_parse_sound in E0. destruct E0 as [-> Hn].
    destruct (map_get (params g) name) as [p|] eqn:E1.
    + intros H. eapply T; [|exact H| | |]; auto. split; eauto.
    + destruct (find_prefix rx (prefixes g) name) as [[[x p] suffix]|] eqn:E2.
      * apply find_prefix_some in E2; auto. destruct E2 as [-> Hs].
        intros H. eapply T; [|exact H| | |]; auto. split; eauto.
      * apply find_prefix_none in E2; auto. destruct strict; [discriminate|]. intros H. eapply T; [|exact H| | |]; auto.
        split; auto.
  - destruct (short_match a) as [name|] eqn:E1.
    + apply short_match_sound in E1. destruct E1 as [-> Hn].
      destruct (map_get (shorts g) name) as [p|] eqn:E2.
      * destruct (p_has_value p) eqn:E3.
        -- destruct rest as [|v rest']; [discriminate|]. intros H. eapply T; [|exact H| | |]; auto; [cbn in HL'; lia|].
           split; auto. exists p. split; auto. rewrite E3. split; [discriminate|auto].
        -- intros H. eapply T; [|exact H| | |]; auto.
           split; auto. exists p. split; auto. rewrite E3. split; [discriminate|congruence].
      * destruct (find_prefix rx (short_prefixes g) name) as [[[x p] suffix]|] eqn:E3.
        -- apply find_prefix_some in E3; auto. destruct E3 as [-> Hs]. destruct (p_has_value p) eqn:E5.
           ++ destruct rest as [|v rest']; [discriminate|]. intros H. eapply T; [|exact H| | |]; auto; [cbn in HL'; lia|].
              split; auto. split; auto. exists p. split; auto. rewrite E5. split; [discriminate|auto].
           ++ intros H. eapply T; [|exact H| | |]; auto.
              split; auto. split; auto. exists p. split; auto. rewrite E5. split; [discriminate|congruence].
        -- apply find_prefix_none in E3; auto. destruct strict; [discriminate|]. intros H. eapply T; [|exact H| | |]; auto.
           split; auto.
    + assert (Hno : ~ option_like a) by (apply option_like_spec; auto).
      destruct (extra_activated g && _) eqn:E2.
      * intros [= <-]. apply andb_true_iff in E2. destruct E2 as [E2 E3]. destruct (list_eq_dec ascii_dec a (extra_delimiter g)) as [->|]; [|discriminate].
        split; [apply acc_delimiter; auto|]. cbn [flat_map texts app]. rewrite flat_extra. reflexivity.
      * assert (Ho : ordinary g a).
        { split; auto. intros Hx ->. rewrite Hx in E2. destruct (list_eq_dec ascii_dec _ _); [discriminate|congruence]. }
        destruct (nth_error (required g ++ optionals g) n) as [name|] eqn:E3.
        -- intros H. eapply T; [|exact H| | |]; auto; [|cbn; lia]. split; auto.
        -- apply nth_error_None in E3. rewrite app_length in E3. intros H. eapply T; [|exact H| | |]; auto. split; auto.
Qed.

Lemma items_complete rx g strict : literal rx -> plain_registry g -> well_formed g -> forall n l, accounts g strict n l ->
  items_of rx g strict (flat_map (texts g) l) n = Some l.
Proof.
  intros L [P1 P2] (S1 & S2 & S3 & S4) n l H. induction H as [n|n i l Hok H IH|n args Ha Hn].
  - reflexivity.
  - cbn [flat_map]. destruct i as [name v|p s v|name v|name v|p s v|name|name a|a| |a]; cbn [item_ok texts app positionals] in *; rewrite ?Nat.add_0_r in *.
    + destruct Hok as [Hn (q & Hq)]. cbn [items_of]. rewrite long_parse_text, Hq, IH by auto. reflexivity.
    + destruct Hok as (Hn & Hq & q & Hs). cbn [items_of]. rewrite long_parse_text, Hq by auto.
      assert (E : find_prefix rx (prefixes g) (p ++ s) = Some (p, q, s)) by (apply find_prefix_some; auto).
      rewrite E, IH. reflexivity.
    + destruct Hok as (Hn & Hq & Hp & ->). cbn [items_of]. rewrite long_parse_text, Hq by auto.
      assert (E : find_prefix rx (prefixes g) name = None) by (apply find_prefix_none; auto).
      rewrite E, IH. reflexivity.
    + destruct Hok as [Hn (q & Hq & Hv)]. destruct (short_match_text name Hn) as [E1 E2].
      cbn [items_of]. rewrite E2, E1, Hq. destruct (p_has_value q).
      * destruct v as [v|]; [|exfalso; apply Hv; auto]. cbn [opt_list app]. rewrite IH. reflexivity.
      * destruct v as [v|]; [exfalso; cut (false = true); [discriminate|apply Hv; discriminate]|]. cbn [opt_list app]. rewrite IH. reflexivity.
    + destruct Hok as (Hn & Hq & q & Hs & Hv). destruct (short_match_text (p ++ s) Hn) as [E1 E2].
      cbn [items_of]. rewrite E2, E1, Hq.
      assert (E : find_prefix rx (short_prefixes g) (p ++ s) = Some (p, q, s)) by (apply find_prefix_some; auto). rewrite E.
      destruct (p_has_value q).
      * destruct v as [v|]; [|exfalso; apply Hv; auto]. cbn [opt_list app]. rewrite IH. reflexivity.
      * destruct v as [v|]; [exfalso; cut (false = true); [discriminate|apply Hv; discriminate]|]. cbn [opt_list app]. rewrite IH. reflexivity.
    + destruct Hok as (Hn & Hq & Hp & ->). destruct (short_match_text name Hn) as [E1 E2]. cbn [items_of]. rewrite E2, E1, Hq.
      assert (E : find_prefix rx (short_prefixes g) name = None) by (apply find_prefix_none; auto).
      rewrite E, IH. reflexivity.
    + destruct Hok as [[Ho Hd] Hn]. apply option_like_spec in Ho. destruct Ho as [E1 E2]. cbn [items_of]. rewrite E1, E2.
      destruct (extra_activated g && _) eqn:E.
      { apply andb_true_iff in E. destruct E as [E3 E4]. destruct (list_eq_dec ascii_dec a (extra_delimiter g)); [|discriminate]. exfalso. eapply Hd; eauto. }
      rewrite Hn. replace (n + 1)%nat with (S n) in IH by lia. rewrite IH. reflexivity.
    + destruct Hok as [[Ho Hd] Hn]. apply option_like_spec in Ho. destruct Ho as [E1 E2]. cbn [items_of]. rewrite E1, E2.
      destruct (extra_activated g && _) eqn:E.
      { apply andb_true_iff in E. destruct E as [E3 E4]. destruct (list_eq_dec ascii_dec a (extra_delimiter g)); [|discriminate]. exfalso. eapply Hd; eauto. }
      assert (E3 : nth_error (required g ++ optionals g) n = None) by (apply nth_error_None; rewrite app_length; auto).
      rewrite E3, IH. reflexivity.
    + destruct Hok.
    + destruct Hok.
  - apply option_like_spec in Hn. destruct Hn as [E1 E2]. cbn [flat_map texts app items_of]. rewrite E1, E2, Ha.
    destruct (list_eq_dec ascii_dec (extra_delimiter g) (extra_delimiter g)); [|congruence]. cbn [andb].
    rewrite flat_extra. reflexivity.
Qed.

(* what the effects amount to *)
Lemma effects_opt g l k : forall st, sorted (param_opt st) -> map_get (param_opt (fold_left (effect g) l st)) k =
  match last_value k (map (assigns g) l) with Some v => Some v | None => map_get (param_opt st) k end.
Proof.
  induction l as [|i l IH]; intros st S; cbn [fold_left map last_value]; [reflexivity|].
  assert (E : param_opt (effect g st i) = match assigns g i with Some (k', v) => map_put (param_opt st) k' v | None => param_opt st end).
  { unfold effect. destruct (assigns g i) as [[? ?]|], (adds_prefix g i) as [[? ?]|], (non_option i), (extra_of i); reflexivity. }
  rewrite IH.
  - destruct (last_value k (map (assigns g) l)) as [v|]; [reflexivity|]. rewrite E. destruct (assigns g i) as [[k' v]|]; [|reflexivity].
    rewrite map_get_put by auto. destruct (list_eq_dec ascii_dec k k') as [->|N]; destruct (list_eq_dec ascii_dec k' _); congruence.
  - rewrite E. destruct (assigns g i) as [[k' v]|]; auto. apply map_put_sorted; auto.
Qed.
Lemma effects_prefix g l k : forall st, sorted (prefix_opt st) -> paramPrefixOpt (fold_left (effect g) l st) k =
  paramPrefixOpt st k ++ pairs_for k (map (adds_prefix g) l).
Proof.
  induction l as [|i l IH]; intros st S; cbn [fold_left map]; [rewrite app_nil_r; reflexivity|].
  assert (E : prefix_opt (effect g st i) = match adds_prefix g i with
    | Some (k', kv) => map_put (prefix_opt st) k' (match map_get (prefix_opt st) k' with Some l => l ++ [kv] | None => [kv] end)
    | None => prefix_opt st end).
  { unfold effect. destruct (assigns g i) as [[? ?]|], (adds_prefix g i) as [[? ?]|], (non_option i), (extra_of i); reflexivity. }
  rewrite IH.
  - unfold pairs_for. cbn [flat_map]. rewrite app_assoc. f_equal. unfold paramPrefixOpt. rewrite E.
    destruct (adds_prefix g i) as [[k' kv]|]; [|rewrite app_nil_r; reflexivity].
    rewrite map_get_put by auto. destruct (list_eq_dec ascii_dec k k') as [->|N]; destruct (list_eq_dec ascii_dec k' _); try congruence.
    + destruct (map_get (prefix_opt st) k'); reflexivity.
    + rewrite app_nil_r. reflexivity.
  - rewrite E. destruct (adds_prefix g i) as [[k' v]|]; auto. apply map_put_sorted; auto.
Qed.
Lemma effects_non g l : forall st, non_opt (fold_left (effect g) l st) = non_opt st ++ flat_map non_option l.
Proof.
  induction l as [|i l IH]; intros st; cbn [fold_left flat_map]; [rewrite app_nil_r; reflexivity|].
  rewrite IH, app_assoc. f_equal. unfold effect.
  assert (H : non_option i = [] \/ exists a, non_option i = [a]) by (destruct i; cbn; eauto).
  destruct H as [->|(a & ->)]; destruct (assigns g i) as [[? ?]|], (adds_prefix g i) as [[? ?]|], (extra_of i); cbn; rewrite ?app_nil_r; reflexivity.
Qed.
Lemma effects_extra g l : forall st, extra (fold_left (effect g) l st) = extra st ++ flat_map extra_of l.
Proof.
  induction l as [|i l IH]; intros st; cbn [fold_left flat_map]; [rewrite app_nil_r; reflexivity|].
  rewrite IH, app_assoc. f_equal. unfold effect.
  assert (H : extra_of i = [] \/ exists a, extra_of i = [a]) by (destruct i; cbn; eauto).
  destruct H as [->|(a & ->)]; destruct (assigns g i) as [[? ?]|], (adds_prefix g i) as [[? ?]|], (non_option i); cbn; rewrite ?app_nil_r; reflexivity.
Qed.

(* cleanup *)
Lemma list_set_app {A} (l : list A) x r y : list_set (l ++ x :: r) (length l) y = l ++ y :: r.
Proof. induction l as [|a l IH]; cbn; [|rewrite IH]; reflexivity. Qed.
Lemma last_cons {A} (l : list A) x y : last (x :: l) y = last l x.
Proof. revert x y. induction l as [|a l IH]; intros x y; [reflexivity|]. cbn [last]. change (last (a :: l) y = last (a :: l) x). rewrite !IH. reflexivity. Qed.
Lemma move_left_spec {A} (d : A) : forall B L x C,
  move_left d (length B) (S (length L)) (L ++ x :: B ++ C) = L ++ B ++ last B x :: C.
Proof.
  induction B as [|y B IH]; intros L x C; [reflexivity|].
  cbn [length move_left app].
  replace (S (length L) - 1)%nat with (length L) by lia. rewrite list_set_app.
  replace (nth (S (length L)) (L ++ x :: y :: B ++ C) d) with y.
  2: { rewrite app_nth2 by lia. replace (S (length L) - length L)%nat with 1%nat by lia. reflexivity. }
  replace (L ++ y :: y :: B ++ C) with ((L ++ [y]) ++ y :: B ++ C) by (rewrite <- app_assoc; reflexivity).
  replace (S (S (length L))) with (S (length (L ++ [y]))) by (rewrite app_length; cbn; lia).
  rewrite IH, last_cons, <- app_assoc. reflexivity.
Qed.
Lemma last_in {A} (l : list A) x : In (last l x) (x :: l).
Proof. revert x. induction l as [|a l IH]; intros x; [left; reflexivity|]. rewrite last_cons. right. apply IH. Qed.
Lemma clean_spec {A} (d : A) keep : forall fuel B L C, (length B <= fuel)%nat ->
  exists J, clean fuel d keep (length L) (length L + length B) (L ++ B ++ C) =
    ((length L + length (filter keep B))%nat, L ++ filter keep B ++ J ++ C) /\
    (length (filter keep B) + length J = length B)%nat /\ incl J B.
Proof.
  induction fuel as [|fuel IH]; intros B L C HL.
  { destruct B; [|cbn in HL; lia]. exists []. cbn. split; [reflexivity|]. split; [reflexivity|]. intros z Hz; exact Hz. }
  cbn [clean]. destruct B as [|b B].
  { cbn [length]. rewrite Nat.add_0_r, Nat.ltb_irrefl. exists []. cbn. rewrite Nat.add_0_r. split; [reflexivity|]. split; [reflexivity|]. intros z Hz; exact Hz. }
  cbn [length] in *. destruct (Nat.ltb_spec (length L) (length L + S (length B))); [|lia].
  replace (nth (length L) (L ++ (b :: B) ++ C) d) with b.
  2: { rewrite app_nth2 by lia. rewrite Nat.sub_diag. reflexivity. }
  cbn [filter]. destruct (keep b).
  - destruct (IH B (L ++ [b]) C) as (J & E & E2 & E3); [lia|]. exists J.
    replace (L ++ (b :: B) ++ C) with ((L ++ [b]) ++ B ++ C) by (rewrite <- app_assoc; reflexivity).
    replace (S (length L)) with (length (L ++ [b])) by (rewrite app_length; cbn; lia).
    replace (length L + S (length B))%nat with (length (L ++ [b]) + length B)%nat by (rewrite app_length; cbn; lia).
    rewrite E. rewrite app_length, <- !app_assoc. cbn [length app]. split; [f_equal; lia|]. split; [lia|].
    intros z Hz. right. auto.
  - replace (length L + S (length B) - (length L + 1))%nat with (length B) by lia.
    replace (length L + 1)%nat with (S (length L)) by lia. cbn [app]. rewrite move_left_spec.
    replace (length L + S (length B) - 1)%nat with (length L + length B)%nat by lia.
    destruct (IH B L (last B b :: C)) as (J & E & E2 & E3); [lia|]. exists (J ++ [last B b]).
    rewrite E. rewrite <- !app_assoc. split; [reflexivity|]. rewrite app_length. cbn [length]. split; [lia|].
    intros z Hz. apply in_app_or in Hz. destruct Hz as [Hz|[<-|[]]]; [right; auto|apply last_in].
Qed.

Lemma clean_argv non prog args : exists J, clean (S (length args)) None (keep_arg non) 1 (S (length args)) (argv_of (prog :: args)) =
  (S (length (filter (fun a => str_in a non) args)), map Some (prog :: filter (fun a => str_in a non) args) ++ map Some J ++ [None]) /\
  (length (filter (fun a => str_in a non) args) + length J = length args)%nat.
Proof.
  destruct (clean_spec None (keep_arg non) (S (length args)) (map Some args) [Some prog] [None]) as (J & E & E2 & E3).
  { rewrite map_length. lia. }
  assert (F : filter (keep_arg non) (map Some args) = map Some (filter (fun a => str_in a non) args)).
  { clear. induction args as [|a args IH]; [reflexivity|]. cbn [map filter keep_arg]. destruct (str_in a non); cbn [map]; rewrite IH; reflexivity. }
  assert (HJ : exists J', J = map Some J').
  { clear - E3. induction J as [|[x|] J IH].
    - exists []. reflexivity.
    - destruct IH as (J' & ->); [intros z Hz; apply E3; right; auto|]. exists (x :: J'). reflexivity.
    - specialize (E3 None (or_introl eq_refl)). apply in_map_iff in E3. destruct E3 as (y & Hy & _). discriminate. }
  destruct HJ as (J' & ->). exists J'. rewrite F, !map_length in *. cbn [length] in *. unfold argv_of. cbn [map app] in *.
  change (1 + length args)%nat with (S (length args)) in E. rewrite E. auto.
Qed.

(* initialize *)
Lemma accounted_items rx g strict args items : literal rx -> plain_registry g -> well_formed g ->
  (accounted g strict args items <-> items_of rx g strict args 0 = Some items).
Proof.
  intros L P W. split.
  - intros [H <-]. apply items_complete; auto.
  - intros H. eapply items_sound in H; eauto.
Qed.

Lemma init_spec rx g strict cleanup prog args st : well_formed g ->
  let r := initialize rx g strict cleanup (prog :: args) st in
  match items_of rx g strict args 0 with
  | None => how r = Returned false
  | Some l => state r = fold_left (effect g) l st /\
      how r = if ((count_positionals l <? length (required g))%nat || match map_get (param_opt (state r)) $"help" with Some _ => true | None => false end)%bool
              then Exited else Returned true
  end.
Proof.
  intros W r. pose proof (scan_items rx g strict W (length args) args 0 st (le_n _)) as H. subst r. cbn [initialize].
  destruct (items_of rx g strict args 0) as [l|].
  - destruct (scan rx g strict args 0 false st) as [s|s n]; [discriminate|]. cbn [goodb] in H. injection H as -> ->. cbn [Nat.add].
    destruct (count_positionals l <? length (required g))%nat.
    + cbn. auto.
    + destruct (map_get (param_opt (fold_left (effect g) l st)) $"help") eqn:E.
      * cbn [how state]. rewrite E. auto.
      * destruct cleanup; [destruct (clean _ _ _ _ _ _)|]; cbn [how state]; rewrite E; auto.
  - destruct (scan rx g strict args 0 false st) as [s|s n]; [reflexivity|discriminate].
Qed.

Section Init.
  Context (rx : regex) (g : registry) (strict cleanup : bool) (prog : str) (args : list str).
  Hypothesis L : literal rx.
  Hypothesis P : plain_registry g.
  Hypothesis R : registered g.
  Let W := registered_well_formed g R.
  Let r := initialize rx g strict cleanup (prog :: args) no_args.
  Lemma help_value items : map_get (param_opt (fold_left (effect g) items no_args)) $"help" = last_value $"help" (map (assigns g) items).
  Proof. rewrite effects_opt by constructor. destruct (last_value _ _); reflexivity. Qed.
  Lemma init_true : how r = Returned true <-> exists items, accounted g strict args items /\ complete g items.
  Proof.
    pose proof (init_spec rx g strict cleanup prog args no_args W) as H. fold r in H. cbv zeta in H. split.
    - intros E. destruct (items_of rx g strict args 0) as [l|] eqn:EI; [|congruence]. destruct H as [H1 H2]. exists l.
      split; [apply (accounted_items rx); auto|]. rewrite H2 in E. unfold complete. rewrite H1, help_value in E.
      destruct (Nat.ltb_spec (count_positionals l) (length (required g))); [discriminate|].
      destruct (last_value _ _); [discriminate|]. auto.
    - intros (l & Ha & H3 & H4). apply (accounted_items rx) in Ha; auto. rewrite Ha in H. destruct H as [H1 ->].
      rewrite H1, help_value, H4. destruct (Nat.ltb_spec (count_positionals l) (length (required g))); [lia|]. reflexivity.
  Qed.
  Lemma init_false : how r = Returned false <-> ~ exists items, accounted g strict args items.
  Proof.
    pose proof (init_spec rx g strict cleanup prog args no_args W) as H. fold r in H. cbv zeta in H.
    destruct (items_of rx g strict args 0) as [l|] eqn:EI.
    - destruct H as [H1 H2]. rewrite H2. split.
      + destruct (_ || _); discriminate.
      + intros Hn. exfalso. apply Hn. exists l. apply (accounted_items rx); auto.
    - split; auto. intros _ (l & Ha). apply (accounted_items rx) in Ha; auto. congruence.
  Qed.
  Lemma init_exit : how r = Exited <-> exists items, accounted g strict args items /\ ~ complete g items.
  Proof.
    pose proof (init_spec rx g strict cleanup prog args no_args W) as H. fold r in H. cbv zeta in H. split.
    - intros E. destruct (items_of rx g strict args 0) as [l|] eqn:EI; [|congruence]. destruct H as [H1 H2]. exists l.
      split; [apply (accounted_items rx); auto|]. rewrite H2 in E. rewrite H1, help_value in E.
      intros [H3 H4]. rewrite H4 in E. destruct (Nat.ltb_spec (count_positionals l) (length (required g))); [lia|discriminate].
    - intros (l & Ha & H3). apply (accounted_items rx) in Ha; auto. rewrite Ha in H. destruct H as [H1 ->].
      rewrite H1, help_value. unfold complete in H3. destruct (Nat.ltb_spec (count_positionals l) (length (required g))); [reflexivity|].
      destruct (last_value _ _); [reflexivity|]. exfalso. apply H3. auto.
  Qed.
  Lemma accounted_unique l1 l2 : accounted g strict args l1 -> accounted g strict args l2 -> l1 = l2.
  Proof. intros H1 H2. apply (accounted_items rx) in H1, H2; auto. congruence. Qed.
  Lemma init_results items : accounted g strict args items ->
    (forall k, map_get (param_opt (state r)) k = last_value k (map (assigns g) items)) /\
    (forall k, paramPrefixOpt (state r) k = pairs_for k (map (adds_prefix g) items)) /\
    non_opt (state r) = flat_map non_option items /\ extra (state r) = flat_map extra_of items.
  Proof.
    intros Ha. apply (accounted_items rx) in Ha; auto.
    pose proof (init_spec rx g strict cleanup prog args no_args W) as H. fold r in H. cbv zeta in H. rewrite Ha in H. destruct H as [-> _].
    repeat split.
    - intros k. rewrite effects_opt by constructor. destruct (last_value k _); reflexivity.
    - intros k. rewrite effects_prefix by constructor. reflexivity.
    - rewrite effects_non. reflexivity.
    - rewrite effects_extra. reflexivity.
  Qed.
End Init.

Lemma init_cleanup rx g strict prog args st : let r := initialize rx g strict true (prog :: args) st in
  how r = Returned true ->
  let kept := filter (fun a => str_in a (non_opt (state r))) args in
  exists junk, argc_after r = S (length kept) /\ argv_after r = map Some (prog :: kept) ++ map Some junk ++ [None] /\
    (length kept + length junk = length args)%nat.
Proof.
  cbn [initialize]. destruct (scan rx g strict args 0 false st) as [s|s n]; [discriminate|].
  destruct (n <? length (required g))%nat; [discriminate|]. destruct (map_get _ _); [discriminate|].
  destruct (clean_argv (non_opt s) prog args) as (J & E & EL). rewrite E. cbn [how state argc_after argv_after]. intros _.
  exists J. auto.
Qed.
Lemma init_no_cleanup rx g strict cleanup prog args st : let r := initialize rx g strict cleanup (prog :: args) st in
  cleanup = false \/ how r <> Returned true -> argc_after r = S (length args) /\ argv_after r = argv_of (prog :: args).
Proof.
  cbn [initialize]. destruct (scan rx g strict args 0 false st) as [s|s n]; [auto|].
  destruct (n <? length (required g))%nat; [auto|]. destruct (map_get _ _); [auto|].
  destruct cleanup; [|auto]. destruct (clean _ _ _ _ _ _). cbn. intros [H|H]; congruence.
Qed.

Lemma cleanup_exact g items (P := fun a => str_in a (flat_map non_option items)) :
  filter P (flat_map (texts g) items) = flat_map non_option items <->
  (forall a, In a (flat_map (consumed g) items) -> ~ In a (flat_map non_option items)).
Proof.
  assert (PT : forall a, P a = true <-> In a (flat_map non_option items)).
  { intros a. unfold P, str_in. destruct (in_dec _ _ _); split; auto; discriminate. }
  assert (E : forall l, (forall a, In a (flat_map non_option l) -> P a = true) ->
     filter P (flat_map (texts g) l) = flat_map (fun i => non_option i ++ filter P (consumed g i)) l).
  { induction l as [|i l IH]; intros Hl; [reflexivity|]. cbn [flat_map]. rewrite filter_app, IH.
    2: { intros a Ha. apply Hl. cbn. apply in_or_app. auto. }
    f_equal. unfold consumed. destruct i; cbn [non_option texts]; try reflexivity; cbn [filter app]; rewrite (Hl _ (or_introl eq_refl)); reflexivity. }
  rewrite E by (intros a; apply PT). split.
  - intros H. assert (HLn : length (flat_map (fun i => non_option i ++ filter P (consumed g i)) items) = length (flat_map non_option items)) by (rewrite H; auto).
    clear H E. intros a Ha Hn. apply PT in Hn. revert a Ha Hn HLn. clear PT. generalize P. clear P. intros P a Ha Hn.
    assert (LE : forall l, (length (flat_map non_option l) <= length (flat_map (fun i => non_option i ++ filter P (consumed g i)) l))%nat).
    { induction l as [|i l IH]; cbn [flat_map]; [auto|]. rewrite !app_length. lia. }
    induction items as [|i l IH]; cbn [flat_map] in *; [destruct Ha|]. apply in_app_or in Ha. rewrite !app_length.
    specialize (LE l). intros HLn. destruct Ha as [Ha|Ha]; [|apply IH; auto; lia].
    assert (In a (filter P (consumed g i))) by (apply filter_In; auto). destruct (filter P (consumed g i)); [destruct H|cbn in HLn; lia].
  - intros H.
    assert (Q : forall l, (forall a, In a (flat_map (consumed g) l) -> P a = false) -> flat_map (fun i => non_option i ++ filter P (consumed g i)) l = flat_map non_option l).
    { induction l as [|i l IH]; intros Hl; [reflexivity|]. cbn [flat_map]. rewrite IH.
      2: { intros a Ha. apply Hl. cbn. apply in_or_app. auto. }
      f_equal. replace (filter P (consumed g i)) with (@nil str); [apply app_nil_r|].
      assert (K : forall a, In a (consumed g i) -> P a = false) by (intros a Ha; apply Hl; cbn; apply in_or_app; auto).
      clear - K. induction (consumed g i) as [|x c IH]; [reflexivity|]. cbn. rewrite (K x (or_introl eq_refl)). apply IH. intros a Ha. apply K. right; auto. }
    apply Q. intros a Ha. destruct (P a) eqn:E2; auto. apply PT in E2. exfalso. eapply H; eauto.
Qed.

Lemma cleanup_terminator (prog : str) kept junk :
  nth_error (map Some (prog :: kept) ++ map Some junk ++ [None]) (S (length kept)) = Some None <-> junk = [].
Proof.
  rewrite nth_error_app2 by (rewrite map_length; cbn; lia). rewrite map_length. cbn [length]. rewrite Nat.sub_diag.
  destruct junk; cbn; split; congruence.
Qed.

(* ---- help ---- *)
Lemma help_known g : registered g -> map_get (params g) $"help" = Some (mkP $"help" $"h" false false) /\
  map_get (shorts g) $"h" = Some (mkP $"help" $"h" false false).
Proof.
  intros R. induction R as [|g o s b R IH|g name b R IH|g d R IH]; [split; reflexivity| |destruct b; exact IH|exact IH].
  destruct IH as (I1 & I2). destruct (registered_well_formed g R) as (S1 & S2 & S3 & S4).
  assert (K : forall (m : list (str * param)) k k' p q, sorted m -> map_get m k = Some q -> map_get (map_insert m k' p) k = Some q).
  { intros m k k' p q S E. unfold map_insert. destruct (map_get m k') eqn:E2; [exact E|]. rewrite map_get_put by auto.
    destruct (list_eq_dec ascii_dec k k') as [->|]; congruence. }
  unfold addParameter. destruct (p_is_prefix (make_param o s b)); cbn [params shorts]; [split; auto|].
  split; [apply K; auto|]. destruct (p_short (make_param o s b)); [exact I2|]. apply K; auto.
Qed.
Definition asked (st : parsed) : Prop := sorted (param_opt st) /\ map_get (param_opt st) $"help" <> None.
Lemma asked_put st k v : asked st -> asked (set_opt st k v).
Proof.
  intros (A & B). unfold asked, set_opt. cbn [param_opt]. split; [apply map_put_sorted; auto|].
  rewrite map_get_put by auto. destruct (list_eq_dec ascii_dec _ _); congruence.
Qed.
Lemma scan_asked rx g strict : forall n args k reached st st' m, length args <= n -> asked st -> scan rx g strict args k reached st = Good st' m -> asked st'.
Proof.
  induction n as [|n IH]; intros args k reached st st' m L A E; (destruct args as [|a rest]; cbn [scan] in E; [injection E as <- _; exact A|cbn [length] in L; try lia]).
  assert (G : forall k r s2, asked s2 -> scan rx g strict rest k r s2 = Good st' m -> asked st') by (intros; eapply IH; [| |eassumption]; [lia|assumption]).
  assert (G2 : forall k r s2 v rest', rest = v :: rest' -> asked s2 -> scan rx g strict rest' k r s2 = Good st' m -> asked st').
  { intros k0 r0 s2 v rest' -> A2 E2. cbn [length] in L. eapply IH; [| |exact E2]; [lia|exact A2]. }
  repeat match type of E with
  | context [match ?x with _ => _ end] => destruct x eqn:?; try discriminate E
  | context [if ?x then _ else _] => destruct x eqn:?; try discriminate E
  end; solve [eapply G; [|exact E]; first [exact A|apply asked_put; exact A] | eapply G2; [reflexivity| |exact E]; first [exact A|apply asked_put; exact A]].
Qed.
Lemma help_ends rx g strict cleanup prog a rest : registered g -> a = $"--help" \/ a = $"-h" ->
  how (initialize rx g strict cleanup (prog :: a :: rest) no_args) <> Returned true /\
  how (initialize rx g strict cleanup [prog; a] no_args) = Exited.
Proof.
  intros R H. destruct (help_known g R) as (H1 & H2).
  assert (S1 : forall rest, scan rx g strict (a :: rest) 0 false no_args = scan rx g strict rest 0 false (set_opt no_args $"help" $"yes")).
  { intros r. destruct H as [-> | ->]; cbn [scan].
    - change (long_match $"--help") with (Some ($"help", @nil ascii)). cbv beta iota. rewrite H1. reflexivity.
    - change (long_match $"-h") with (@None (str * str)). change (short_match $"-h") with (Some $"h"). cbv beta iota. rewrite H2. reflexivity. }
  unfold initialize. rewrite !S1. split.
  - destruct (scan rx g strict rest 0 false (set_opt no_args $"help" $"yes")) as [st'|st' m] eqn:E; [discriminate|].
    destruct (m <? length (required g)); [discriminate|].
    assert (A0 : asked (set_opt no_args $"help" $"yes")) by (split; [apply map_put_sorted; constructor|cbn; discriminate]).
    destruct (scan_asked rx g strict (length rest) rest 0 false _ st' m (le_n _) A0 E) as (_ & A).
    destruct (map_get (param_opt st') $"help"); [discriminate|congruence].
  - cbn [scan]. destruct (0 <? length (required g)); reflexivity.
Qed.
