From Verif Require Import Base Text StringHelperModel LogTextModel ATreeModel ATreeSpec ATreeProofs ATreeProofs2 ATreeProofs5 ATreeProofs6 ATreeProofs7 ATreeProofs8 ATreeProofs10 ATreeTextModel ATreeTextSpec ATreeTextProofs ATreeTextProofs2 ATreeTextProofs3 ATreeTextProofs4 ATreeTextProofs5 ATreeTextProofs6.
From Verif Require FilePathModel.

Lemma read_empty : readNextLine (open []) = ([], mkStream [] true true).
Proof. unfold readNextLine, getline, open. cbn [eof failed rest orb]. destruct (Z.to_nat (1998 - 1)); reflexivity. Qed.
Lemma get_run strict w fp inc comments xs cmds fuel h par t : Forall2 (means comments) xs cmds -> Forall good_line xs -> length xs < fuel -> forest h -> repr h par t ->
  exists h' t', get fuel strict w h (tid t) (open (lines xs)) inc comments fp = Done (h', snd (run cmds 1 (content_of t) [])) /\
    became h h' par t t' /\ content_of t' = fst (run cmds 1 (content_of t) []).
Proof.
  intros M G LF F R. assert (PL : placed h par t [] (tid t)) by (split; auto; [constructor|intros []]). unfold get. destruct xs as [|x xs].
  - inversion M; subst. cbn [lines flat_map]. rewrite read_empty. destruct fuel as [|fuel]; [cbn [length] in LF; lia|]. cbn [get_loop skip_space get_step cut negb andb eof obind].
    unfold readNextLine, getline. cbn [eof failed rest orb]. cbn [run fst snd]. exists h, t. split; [reflexivity|]. split; [now apply became_refl|reflexivity].
  - inversion M as [|? cmd ? cmds' Mx Mr]; subst. inversion G as [|? ? Gx Gr]; subst. rewrite read_lines by exact Gx. apply loop_run; auto. cbn [length] in LF. lia.
Qed.

(* ---- every line has one meaning ---- *)
Definition classify (comments : bool) (line : str) : option command :=
  if (match line with "#"%char :: _ => true | _ => false end) then Some Skip
  else match cut ":"%char line with
  | Some ([], a) => Some (Own a)
  | Some (d, a) => if str_eqb d include_str then None else if negb (occurs comment_str d) || comments then Some (Assign (trunc (split_dots d)) a) else Some Skip
  | None => match cut "{"%char line with
            | Some (d, _) => if str_eqb d comment_str then None else Some (Open (trunc (split_dots d)))
            | None => match cut "}"%char line with Some _ => Some Close | None => match line with [] => Some Skip | _ => Some Malformed end end
            end
  end.
Lemma path_in_eq d p : path_in d p <-> p = trunc (split_dots d).
Proof. split; [intros (l & CO & ->); apply components_split in CO; subst l; apply until_trunc|intros ->; exists (split_dots d); split; [now apply components_split|symmetry; apply until_trunc]]. Qed.
Lemma means_classify comments x cmd : means comments x cmd -> classify comments (skip_space x) = Some cmd.
Proof.
  intros M. unfold classify. destruct M.
  - assert (X : skip_space b = []) by (rewrite <- (app_nil_r b); apply skip_blanks; [assumption|exact I]). now rewrite X.
  - rewrite skip_blanks by (assumption || reflexivity). reflexivity.
  - rewrite skip_blanks by (assumption || reflexivity). reflexivity.
  - rewrite skip_blanks by (try assumption; apply starts_space; auto). rewrite starts_hash by (try assumption; contradiction).
    change ($":" ++ a) with (":"%char :: a); rewrite (cut_app ":" d a) by (apply (H2 ":"%char); now left). destruct d as [|x d]; [contradiction|].
    destruct (str_eqb (x :: d) include_str) eqn:Q; [apply str_eqb_spec in Q; contradiction|].
    assert (OC : negb (occurs comment_str (x :: d)) || comments = true).
    { destruct H4 as [->|H4]; [apply orb_true_r|]. destruct (occurs comment_str (x :: d)) eqn:O; [apply occurs_spec in O; contradiction|reflexivity]. }
    rewrite OC. apply path_in_eq in H5. now subst p.
  - rewrite skip_blanks by (try assumption; apply starts_space; auto). rewrite starts_hash by (try assumption; contradiction).
    change ($":" ++ a) with (":"%char :: a); rewrite (cut_app ":" d a) by (apply (H2 ":"%char); now left). destruct d as [|x d]; [contradiction|].
    destruct (str_eqb (x :: d) include_str) eqn:Q; [apply str_eqb_spec in Q; contradiction|]. apply occurs_spec in H5. now rewrite H5, H4.
  - rewrite skip_blanks by first [assumption|apply starts_space; [assumption|right; eexists _, _; split; reflexivity]]. rewrite starts_hash by (try assumption; intros; exact I).
    rewrite cut_none by (intros J; apply in_app_or in J; destruct J as [J|[J|J]]; [apply (H1 ":"%char) in J; [destruct J|now left]|discriminate|apply (H2 ":"%char) in J; [destruct J|now left]]).
    change ($"{" ++ r) with ("{"%char :: r); rewrite (cut_app "{" d r) by (apply (H1 "{"%char); now right; left).
    destruct (str_eqb d comment_str) eqn:Q; [apply str_eqb_spec in Q; contradiction|]. apply path_in_eq in H4. now subst p.
  - rewrite skip_blanks by first [assumption|apply starts_space; [assumption|right; eexists _, _; split; reflexivity]]. rewrite starts_hash by (try assumption; intros; exact I).
    rewrite (cut_none ":") by (intros J; apply in_app_or in J; destruct J as [J|[J|J]]; [apply (H1 ":"%char) in J; [destruct J|now left]|discriminate|apply (H2 ":"%char) in J; [destruct J|now left]]).
    rewrite (cut_none "{") by (intros J; apply in_app_or in J; destruct J as [J|[J|J]]; [apply (H1 "{"%char) in J; [destruct J|now right; left]|discriminate|apply (H2 "{"%char) in J; [destruct J|now right; left]]).
    change ($"}" ++ r) with ("}"%char :: r); rewrite (cut_app "}" d r) by (apply (H1 "}"%char); now right; right; left). reflexivity.
  - rewrite skip_blanks by (try assumption; rewrite <- (app_nil_r d); apply starts_space; auto). rewrite <- (app_nil_r d), starts_hash, app_nil_r by (try assumption; contradiction).
    rewrite !cut_none by (match goal with |- ~ In ?c d => apply (H2 c); cbn; tauto end). destruct d; [contradiction|reflexivity].
Qed.
Lemma cut_split c s : match cut c s with Some (a, b) => s = a ++ c :: b /\ ~ In c a | None => ~ In c s end.
Proof.
  induction s as [|x s IH]; cbn [cut]; [intros []|]. destruct (Ascii.eqb x c) eqn:E; [apply Ascii.eqb_eq in E; subst; split; [reflexivity|intros []]|]. apply Ascii.eqb_neq in E.
  destruct (cut c s) as [[a b]|]; [destruct IH as [-> N]; split; [reflexivity|]|]; intros [I|I]; auto.
Qed.
Lemma skip_split x : exists b, blanks b /\ x = b ++ skip_space x /\ match skip_space x with [] => True | y :: _ => is_space y = false end.
Proof.
  induction x as [|c x IH]; [exists []; repeat split; intros y []|]. cbn [skip_space]. destruct (is_space c) eqn:E.
  - destruct IH as (b & B & EQ & S). exists (c :: b). split; [intros y [<-|I]; auto|]. split; [cbn [app]; now rewrite <- EQ|exact S].
  - exists []. repeat split; auto. intros y [].
Qed.
Lemma meaning_exists comments x : (exists cmd, means comments x cmd) \/ (exists b r, blanks b /\ x = b ++ include_str ++ $":" ++ r) \/ (exists b r, blanks b /\ without $":" r /\ x = b ++ comment_str ++ $"{" ++ r).
Proof.
  destruct (skip_split x) as (b & B & E & S). set (y := skip_space x) in *. clearbody y. subst x.
  destruct y as [|c y]; [left; exists Skip; rewrite app_nil_r; now constructor|].
  destruct (ascii_dec c "#") as [->|NH]; [left; exists Skip; change ("#"%char :: y) with ($"#" ++ y); now constructor|].
  pose proof (cut_split ":" (c :: y)) as CU. destruct (cut ":" (c :: y)) as [[d a]|].
  - destruct CU as [EQ ND]. rewrite EQ. change (":"%char :: a) with ($":" ++ a). destruct d as [|e d]; [left; exists (Own a); now constructor|]. injection EQ as -> EQ.
    assert (ST : starts (e :: d)) by (split; assumption). assert (W : without $":" (e :: d)) by (intros k [<-|[]]; exact ND).
    destruct (list_eq_dec ascii_dec (e :: d) include_str) as [EI|NI]; [right; left; exists b, a; split; [exact B|now rewrite <- EI]|]. left.
    destruct (occurs comment_str (e :: d)) eqn:O; [apply occurs_spec in O; destruct comments eqn:Cm|].
    + exists (Assign (trunc (split_dots (e :: d))) a). apply m_assign; auto; [discriminate|now apply path_in_eq].
    + exists Skip. apply m_comment; auto. discriminate.
    + exists (Assign (trunc (split_dots (e :: d))) a). apply m_assign; auto; [discriminate|right; intros P; apply occurs_spec in P; congruence|now apply path_in_eq].
  - pose proof (cut_split "{" (c :: y)) as CU2. destruct (cut "{" (c :: y)) as [[d r]|].
    + destruct CU2 as [EQ ND]. rewrite EQ in *. change ("{"%char :: r) with ($"{" ++ r) in *.
      assert (W1 : ~ In ":"%char d) by (intros J; apply CU, in_or_app; now left). assert (W2 : without $":" r) by (intros k [<-|[]] J; apply CU, in_or_app; right; right; exact J).
      destruct (list_eq_dec ascii_dec d comment_str) as [->|NI]; [right; right; exists b, r; repeat split; auto|]. left. exists (Open (trunc (split_dots d))). apply m_open; auto; [|intros k [<-|[<-|[]]]; assumption|now apply path_in_eq].
      destruct d as [|e d]; [exact I|]. injection EQ as <- EQ. split; assumption.
    + pose proof (cut_split "}" (c :: y)) as CU3. left. destruct (cut "}" (c :: y)) as [[d r]|].
      * destruct CU3 as [EQ ND]. rewrite EQ in *. change ("}"%char :: r) with ($"}" ++ r) in *. exists Close.
        assert (W1 : ~ In ":"%char d) by (intros J; apply CU, in_or_app; now left). assert (W2 : ~ In "{"%char d) by (intros J; apply CU2, in_or_app; now left).
        apply m_close; auto; [|intros k [<-|[<-|[<-|[]]]]; assumption|intros k [<-|[<-|[]]] J; [apply CU|apply CU2]; apply in_or_app; right; right; exact J]. destruct d as [|e d]; [exact I|]. injection EQ as <- EQ. split; assumption.
      * exists Malformed. apply m_malformed; auto; [split; assumption|discriminate|]. intros k [<-|[<-|[<-|[]]]]; assumption.
Qed.

(* ---- printing a tree and reading it ---- *)
Lemma flat_map_filter {A B} (f : A -> list B) (g : A -> bool) l : (forall x, In x l -> g x = false -> f x = []) -> flat_map f l = flat_map f (filter g l).
Proof. induction l as [|x l IH]; intros H; [reflexivity|]. cbn [flat_map filter]. rewrite IH by (intros y I; apply H; now right). destruct (g x) eqn:E; [reflexivity|]. now rewrite (H x (or_introl eq_refl) E). Qed.
Lemma plines_file csd u c : about_file c = true -> plines csd u c = [].
Proof. destruct c. intros E. cbn [plines]. now rewrite E. Qed.
Lemma root_means csd comments a l : Forall (fun c => about_file c = true \/ printable csd comments c) l -> (forall v, a = Some v -> clean_value v) -> (csd <= Z.of_nat (attributes (C None a l)))%Z ->
  Forall2 (means comments) (plines csd [] (C None a l)) ([Open []] ++ (match a with Some (x :: v) => [Own (x :: v)] | _ => [] end) ++ flat_map (bcmds csd) (listed l) ++ [Close]).
Proof.
  intros P V LE. cbn [plines]. unfold about_file. cbn [name_of opt_is orb]. rewrite (proj2 (Z.leb_le _ _) LE). cbn [app].
  constructor; [|apply Forall2_app; [|apply Forall2_app]].
  - change $"{" with ([] ++ [] ++ $"{" ++ []). apply m_open; auto; try (intros c _ []; fail); [intros c []|exact I|discriminate|]. exists [[]]. split; [|reflexivity]. split; [discriminate|]. split; [intros x [<-|[]] []|reflexivity].
  - destruct a as [[|k v]|]; constructor; [|constructor]. change ($":" ++ k :: v) with ([] ++ $":" ++ k :: v). apply m_own. intros c [].
  - rewrite (flat_map_filter _ (fun x => negb (about_file x))) by (intros x _ E; apply plines_file; now apply negb_false_iff).
    apply (forall2_flat (printable csd comments)).
    + unfold listed. apply Forall_forall. intros x I. apply filter_In in I. destruct I as [I E]. rewrite Forall_forall in P. destruct (P x I) as [X|X]; [rewrite X in E; discriminate|exact X].
    + intros x I Px. apply b_means; auto; [intros c [<-|[]]; reflexivity|left; discriminate].
  - constructor; [|constructor]. change ($"}" ++ []) with ([] ++ [] ++ $"}" ++ []). apply m_close; try (intros c _ []; fail); [intros c []|exact I].
Qed.
Lemma rev_klist csd l : rev (klist csd l) = map reversed (rev (flat_map (fun x => if shown csd x then [kept csd x] else []) l)).
Proof. unfold klist. rewrite map_rev. f_equal. induction l as [|x l IH]; [reflexivity|]. cbn [flat_map]. rewrite map_app, IH. f_equal. destruct (shown csd x); reflexivity. Qed.
Lemma root_run csd comments a l c0 : Forall (fun c => about_file c = true \/ printable csd comments c) l -> all_different (listed l) -> fresh_in (listed l) c0 ->
  run ([Open []] ++ (match a with Some (x :: v) => [Own (x :: v)] | _ => [] end) ++ flat_map (bcmds csd) (listed l) ++ [Close]) 1 c0 [] =
  (match c0 with C d _ l0 => C d (nonempty a) (rev (klist csd (listed l)) ++ l0) end, (-1)%Z).
Proof.
  intros P ND FR. destruct c0 as [d b l0]. cbn [app run assign].
  assert (PL : Forall (separate csd) (listed l)).
  { unfold listed. apply Forall_forall. intros x I. apply filter_In in I. destruct I as [I E]. rewrite Forall_forall in P. destruct (P x I) as [X|X]; [rewrite X in E; discriminate|eapply printable_separate; eauto]. }
  assert (PB : Forall (fun c => forall x, csub (subs_of x) (text_of (name_of c)) = None -> builds (bcmds csd c) x (if shown csd c then add_all [rk csd c] x else x)) (listed l)).
  { rewrite Forall_forall in PL |- *. intros c I. apply b_builds. auto. }
  assert (LB : forall a', builds (flat_map (bcmds csd) (listed l)) (C d a' l0) (C d a' (rev (klist csd (listed l)) ++ l0))).
  { intros a'. exact (list_b_builds csd (listed l) PB PL ND (C d a' l0) FR). }
  assert (FIN : forall a' n, run (flat_map (bcmds csd) (listed l) ++ [Close]) n (C d a' l0) [] = (C d a' (rev (klist csd (listed l)) ++ l0), (-1)%Z)).
  { intros a' n. destruct (LB a' (C d a' l0) [] n [Close] eq_refl) as [m ->]. reflexivity. }
  destruct a as [[|k v]|]; cbn [app run assign nonempty]; apply FIN.
Qed.
