(* C38 Path normalisation and FilePath, C39 Environment substitution.  Vocabulary: FilePathSpec. *)
From Verif Require Import Base Text StringHelperModel FilePathModel FilePathSpec FilePathProofs.

(* C38: normalizePath terminates for every string, although one of its steps can make the string longer *)
Theorem C38_terminates s : exists fuel r, forall n, (fuel <= n)%nat -> normalizePath n s = Some r.
Proof. destruct (normalize_terminates s) as (f & r & E). exists f, r. intros n Hn. eapply normalize_mono; eauto. Qed.
Print Assumptions C38_terminates.
Example C38_grows_ex : normalizePath 2 $"/../a/b/c/d" = Some $"/../a/b/c/a/b/c/d".
Proof. reflexivity. Qed.

(* C38: the result denotes the same file, for paths that do not leave the directory they start in on the way *)
Theorem C38_same_file s f r : contained (with_slashes s) -> normalizePath f s = Some r -> denotes r = denotes (with_slashes s).
Proof. intros C H. apply (norm_good f s r H C). Qed.
Print Assumptions C38_same_file.
(* and such a result, if there is no ':', has no ./ in front and no /./ or /../ or backslash inside, and is not changed by a second call *)
Theorem C38_normal s f r : contained (with_slashes s) -> ~ In ":"%char s -> normalizePath f s = Some r ->
  normal r /\ forall n, normalizePath n r = Some r.
Proof. intros C N H. assert (X : normal r) by (apply (norm_good f s r H C); auto). split; auto. intros n. apply norm_id; auto. Qed.
Print Assumptions C38_normal.
Example C38_same_file_ex : contained (with_slashes $".\x/./y/../.z/..") /\ normalizePath 9 $".\x/./y/../.z/.." = Some $"x/.z/.." /\
  denotes $"x/.z/.." = (false, 0%nat, [$"x"]) /\
  contained $"../a/../b" /\ normalizePath 9 $"../a/../b" = Some $"../b" /\ contained $"/" /\ contained $"".
Proof.
  split; [|split; [reflexivity|split; [reflexivity|split; [|split; [reflexivity|split; [exact (or_introl eq_refl)|exact I]]]]]].
  - cbn. right; left. split; [reflexivity|]. right; right; right. do 3 (split; [discriminate|]). right; left. split; [reflexivity|].
    right; right; right. do 3 (split; [discriminate|]). right; right; left. split; [reflexivity|]. split; [lia|].
    right; right; right. do 3 (split; [discriminate|]). left. reflexivity.
  - cbn. right; right; right. do 3 (split; [discriminate|]). right; right; left. split; [reflexivity|]. split; [lia|]. left. reflexivity.
Qed.

(* C38: an absolute path stays absolute, and no backslash is left, for every string *)
Theorem C38_absolute s f r : normalizePath f s = Some r -> absolute (with_slashes s) = true -> absolute r = true.
Proof. apply norm_abs. Qed.
Print Assumptions C38_absolute.
Theorem C38_separators s f r : normalizePath f s = Some r -> ~ In "\"%char r.
Proof. intros H Hin. apply (norm_chars _ _ _ H) in Hin. exact (exchange_chars s Hin). Qed.
Print Assumptions C38_separators.
Example C38_absolute_ex : normalizePath 9 $"\..\a" = Some $"/../a" /\ absolute (with_slashes $"\..\a") = true.
Proof. split; reflexivity. Qed.

(* C38, refuted for other paths: a relative path that goes up two directories loses them, *)
Theorem C38_climbing_refuted : ~ (forall s f r, normalizePath f s = Some r -> denotes r = denotes (with_slashes s)).
Proof. intros H. specialize (H $"../../a" 9%nat $"a" eq_refl). discriminate H. Qed.
Print Assumptions C38_climbing_refuted.
(* also after going down first, *)
Theorem C38_climbing_down_refuted : ~ (forall s f r x, s = $"a/" ++ x -> normalizePath f s = Some r -> denotes r = denotes (with_slashes s)).
Proof. intros H. specialize (H $"a/../../b" 9%nat $"b" $"../../b" eq_refl eq_refl). discriminate H. Qed.
Print Assumptions C38_climbing_down_refuted.
(* in an absolute path that begins with /../ directories are duplicated, *)
Theorem C38_root_refuted : ~ (forall s f r, absolute s = true -> normalizePath f s = Some r -> denotes r = denotes (with_slashes s)).
Proof. intros H. specialize (H $"/../a/b" 9%nat $"/../a/a/b" eq_refl eq_refl). discriminate H. Qed.
Print Assumptions C38_root_refuted.
(* an empty component before /../ is taken for a directory, and ./ in front of a separator makes the path absolute *)
Theorem C38_empty_component_refuted : ~ (forall s f r, walk 0 [] (components s) = (0%nat, [$"b"]) -> normalizePath f s = Some r -> denotes r = denotes s).
Proof. intros H. specialize (H $"a//../b" 9%nat $"a/b" eq_refl eq_refl). discriminate H. Qed.
Print Assumptions C38_empty_component_refuted.
Theorem C38_dot_refuted : ~ (forall s f r, absolute s = false -> normalizePath f s = Some r -> absolute r = false).
Proof. intros H. specialize (H $".//x" 9%nat $"/x" eq_refl eq_refl). discriminate H. Qed.
Print Assumptions C38_dot_refuted.
(* C38: a name right behind ":/" (of a drive or a protocol) is not taken back by a following /../, and nothing behind it is
   changed any more *)
Theorem C38_colon f a x c b : let s := (a ++ $":/" ++ x :: c) ++ $"/../" ++ b in
  ~ begins $"./" s -> ~ occurs $"/./" s -> ~ In "\"%char s -> (forall p q, (a ++ $":/" ++ x :: c) ++ $"/../" = p ++ $"/../" ++ q -> q = []) ->
  ~ In "/"%char (x :: c) -> x <> "."%char -> normalizePath (S f) s = Some s.
Proof. apply colon_stays. Qed.
Print Assumptions C38_colon.
Example C38_colon_ex : normalizePath 9 $":/d/../e/../f" = Some $":/d/../e/../f" /\ normalizePath 9 $"c:/d/../e" = Some $"c:/d/../e" /\
  (forall p q, ($"" ++ $":/" ++ $"d") ++ $"/../" = p ++ $"/../" ++ q -> q = []).
Proof.
  split; [reflexivity|]. split; [reflexivity|]. intros p q E. do 3 (destruct p as [|? p]; [discriminate E|injection E as _ E]).
  destruct p as [|? p]; [injection E as E; destruct q; [reflexivity|discriminate E]|injection E as _ E].
  apply (f_equal (@length _)) in E. rewrite !app_length in E. cbn in E. lia.
Qed.
(* this does not hold of a name that begins with a dot, or of an empty one: the host of an address is removed *)
Theorem C38_colon_refuted : ~ (forall f a c b, ~ In "/"%char c -> normalizePath (S f) (a ++ $":/" ++ c ++ $"/../" ++ b) = Some (a ++ $":/" ++ c ++ $"/../" ++ b)).
Proof. intros H. specialize (H 8%nat $"c" $".d" $"e"). discriminate H. intros [E|[E|[]]]; discriminate E. Qed.
Print Assumptions C38_colon_refuted.
Theorem C38_protocol_refuted : ~ (forall f a b, normalizePath (S f) (a ++ $"://../" ++ b) = Some (a ++ $"://../" ++ b)).
Proof. intros H. specialize (H 8%nat $"http" $"x"). discriminate H. Qed.
Print Assumptions C38_protocol_refuted.
(* and normalising twice is not the same as normalising once *)
Theorem C38_idempotent_refuted : ~ (forall s f r, normalizePath f s = Some r -> exists n, normalizePath n r = Some r).
Proof.
  intros H. destruct (H $"/../a/b" 9%nat $"/../a/a/b" eq_refl) as [n E].
  assert (Q : normalizePath 9 $"/../a/a/b" = Some $"/../a/a/a/a/b") by reflexivity.
  destruct (Nat.le_ge_cases n 9) as [L|L].
  - rewrite (normalize_mono _ _ _ E 9 L) in Q. discriminate Q.
  - rewrite (normalize_mono _ _ _ Q n L) in E. discriminate E.
Qed.
Print Assumptions C38_idempotent_refuted.

(* C38: FilePath objects.  Construction terminates; path() and name() are the two parts of absoluteName(), the name having
   no separator and the path ending with one. *)
Theorem C38_filepath pwd s : (exists f F, init f pwd s = Some F) /\
  forall f F, init f pwd s = Some F ->
    path F ++ name F = m_file F /\ ~ In "/"%char (name F) /\ (path F = [] \/ exists p, path F = p ++ $"/").
Proof.
  split; [apply init_terminates|]. intros f F H. unfold init in H.
  destruct (normalizePath f match pwd with Some p => p | None => [] end) as [w|]; [|discriminate].
  destruct (absolutePath f w (exchangeSeparators s)) as [a|]; [|discriminate].
  destruct (normalizePath f a) as [file|]; [|discriminate]. injection H as <-. unfold path, name. cbn [m_file path_name_split].
  split; [apply firstn_skipn|]. unfold rfind. destruct (last_char "/"%char file) as [i|] eqn:E.
  - apply last_char_some in E. destruct E as (x & y & -> & <- & N).
    replace (length x <? length (x ++ "/"%char :: y)) with true by (symmetry; apply Nat.ltb_lt; rewrite app_length; cbn; lia).
    replace (x ++ "/"%char :: y) with ((x ++ $"/") ++ y) by (rewrite <- app_assoc; reflexivity).
    replace (length x + 1)%nat with (length (x ++ $"/")) by (rewrite app_length; cbn; lia).
    rewrite skipn_exact, firstn_exact. split; auto. right. eauto.
  - apply last_char_none in E. cbn [skipn firstn]. auto.
Qed.
Print Assumptions C38_filepath.
(* the name is absolute, and denotes the file with that name relative to the working directory *)
Theorem C38_filepath_absolute pwd s f F : init f pwd s = Some F -> (match pwd with Some (c :: w) => absolute (with_slashes (c :: w)) = true | _ => True end) ->
  absolute (m_file F) = true.
Proof.
  intros H A. unfold init in H.
  destruct (normalizePath f match pwd with Some p => p | None => [] end) as [w|] eqn:E1; [|discriminate].
  destruct (absolutePath f w (exchangeSeparators s)) as [a|] eqn:E2; [|discriminate].
  destruct (normalizePath f a) as [file|] eqn:E3; [|discriminate]. injection H as <-. cbn [m_file].
  assert (W : w = [] \/ absolute w = true).
  { assert (Z : normalizePath f [] = Some w -> w = []).
    { intros Ez. assert (Q : normalizePath 1 [] = Some []) by reflexivity.
      destruct (Nat.le_ge_cases f 1) as [L|L].
      - rewrite (normalize_mono _ _ _ Ez 1%nat L) in Q. congruence.
      - rewrite (normalize_mono _ _ _ Q f L) in Ez. congruence. }
    destruct pwd as [[|c p]|]; [left; auto| |left; auto]. right. eapply norm_abs; eauto. }
  assert (Aa : absolute a = true).
  { unfold absolutePath in E2. destruct (isRelativePath (exchangeSeparators s)) eqn:R.
    - eapply norm_abs; [exact E2|]. destruct W as [->|W]; [reflexivity|]. destruct w as [|c w]; [discriminate|]. cbn in W.
      apply Ascii.eqb_eq in W. subst c. reflexivity.
    - eapply norm_abs; [exact E2|]. destruct (exchangeSeparators s) as [|c t]; [discriminate|]. cbn in R. apply Bool.negb_false_iff in R.
      apply Ascii.eqb_eq in R. subst c. reflexivity. }
  eapply norm_abs; [exact E3|]. destruct a as [|c a]; [discriminate|]. cbn in Aa. apply Ascii.eqb_eq in Aa. subst c. reflexivity.
Qed.
Print Assumptions C38_filepath_absolute.
Lemma ws_id s : ~ In "\"%char s -> with_slashes s = s.
Proof. intros N. rewrite <- exchange_spec. apply exchange_id; auto. Qed.
Theorem C38_filepath_file pwd s f F : init f (Some pwd) s = Some F -> contained (with_slashes pwd) ->
  denotes (m_pwd F) = denotes (with_slashes pwd) /\
  (absolute (with_slashes s) = false -> contained (m_pwd F ++ $"/" ++ with_slashes s) ->
     denotes (m_file F) = denotes (m_pwd F ++ $"/" ++ with_slashes s)) /\
  (absolute (with_slashes s) = true -> contained (with_slashes s) -> denotes (m_file F) = denotes (with_slashes s)).
Proof.
  intros H C. unfold init in H.
  destruct (normalizePath f pwd) as [w|] eqn:E1; [|discriminate].
  destruct (absolutePath f w (exchangeSeparators s)) as [a|] eqn:E2; [|discriminate].
  destruct (normalizePath f a) as [file|] eqn:E3; [|discriminate]. injection H as <-. cbn [m_file m_pwd].
  destruct (norm_good _ _ _ E1 C) as (Cw & Dw & _). split; auto. rewrite exchange_spec in E2.
  assert (Ra : forall x, ~ In "\"%char x -> contained x -> normalizePath f x = Some a -> denotes file = denotes x).
  { intros x Nx Cx Ex. rewrite <- (ws_id x Nx) in Cx. destruct (norm_good _ _ _ Ex Cx) as (Ca & Da & _).
    assert (Na : ~ In "\"%char a) by (intros Hin; apply (norm_chars _ _ _ Ex) in Hin; exact (exchange_chars x Hin)).
    rewrite <- (ws_id a Na) in Ca. destruct (norm_good _ _ _ E3 Ca) as (_ & Df & _). rewrite Df, (ws_id a Na), Da, (ws_id x Nx). auto. }
  assert (Nw : ~ In "\"%char w) by (intros Hin; apply (norm_chars _ _ _ E1) in Hin; exact (exchange_chars pwd Hin)).
  unfold absolutePath in E2. split; intros As Cs.
  - replace (isRelativePath (with_slashes s)) with true in E2.
    + apply Ra; auto. intros Hin. apply in_app_or in Hin. destruct Hin as [Hin|[Hin|Hin]]; [auto|discriminate|exact (exchange_chars s Hin)].
    + destruct (with_slashes s) as [|c t]; [reflexivity|]. cbn in As. cbn. rewrite As. reflexivity.
  - replace (isRelativePath (with_slashes s)) with false in E2.
    + apply Ra; auto. exact (exchange_chars s).
    + destruct (with_slashes s) as [|c t]; [discriminate|]. cbn in As. cbn. rewrite As. reflexivity.
Qed.
Print Assumptions C38_filepath_file.
Example C38_filepath_ex : exists F, init 9 (Some $"/home/me") $"etc\..\conf/x.tree" = Some F /\ m_file F = $"/home/me/conf/x.tree" /\
  path F = $"/home/me/conf/" /\ name F = $"x.tree" /\ extension F = Some $".tree".
Proof. eexists. split; [vm_compute; reflexivity|]. repeat split. Qed.

(* C38: extension() is the text from the last dot of the whole path on; it throws if there is no dot *)
Theorem C38_extension pwd s f F : init f pwd s = Some F ->
  (extension F = None <-> ~ In "."%char (m_file F)) /\
  forall e, extension F = Some e -> exists p t, m_file F = p ++ e /\ e = "."%char :: t /\ ~ In "."%char t.
Proof.
  intros H. unfold init in H.
  destruct (normalizePath f match pwd with Some p => p | None => [] end) as [w|] eqn:E1; [|discriminate].
  destruct (absolutePath f w (exchangeSeparators s)) as [a|] eqn:E2; [|discriminate].
  destruct (normalizePath f a) as [file|] eqn:E3; [|discriminate]. injection H as <-. unfold extension. cbn [m_file name_extension_split].
  unfold rfind. destruct (last_char "."%char file) as [i|] eqn:E.
  - pose proof E as E'. apply last_char_some in E. destruct E as (x & y & -> & <- & N). rewrite skipn_exact. split.
    + split; [discriminate|]. intros H. exfalso. apply H. apply in_or_app. right. left. auto.
    + intros e [= <-]. exists x, y. auto.
  - apply last_char_none in E. split; [tauto|discriminate].
Qed.
Print Assumptions C38_extension.
(* so it is not always the extension of the file's name, and not always defined *)
Theorem C38_extension_refuted : ~ (forall pwd s f F e, init f pwd s = Some F -> extension F = Some e -> exists p, name F = p ++ e) /\
  ~ (forall pwd s f F, init f pwd s = Some F -> extension F <> None).
Proof.
  split; intros H.
  - specialize (H (Some $"/") $"/a.b/c" 9%nat (mkFP $"/" $"/a.b/c" 5 (Some 2%nat)) $".b/c" eq_refl eq_refl). destruct H as [p H].
    apply (f_equal (@length _)) in H. rewrite app_length in H. cbn in H. lia.
  - apply (H (Some $"/") $"/etc/config" 9%nat (mkFP $"/" $"/etc/config" 5 None)); reflexivity.
Qed.
Print Assumptions C38_extension_refuted.

(* C39: if no value in the environment contains '$' (or none contains '{', or none '}'), replaceEnvironment terminates *)
Theorem C39_terminates env c s : c = "$"%char \/ c = "{"%char \/ c = "}"%char -> (forall v x, env v = Some x -> ~ In c x) ->
  exists fuel r, forall n, (fuel <= n)%nat -> replaceEnvironment n env s = Some r.
Proof.
  intros M H. exists (S (count_occ ascii_dec s c)). unfold replaceEnvironment. destruct s as [|x s]; [eauto|]. set (t := x :: s).
  pose proof (env_terminates env c M H _ t (le_n _)) as T. fold var.
  destruct (env_loop (S (count_occ ascii_dec t c)) env t (find_from var t 0)) as [[r|]|] eqn:E; [| |congruence].
  - exists r. intros n Hn. rewrite (env_mono _ _ _ _ _ E n Hn). auto.
  - exists t. intros n Hn. rewrite (env_mono _ _ _ _ _ E n Hn). auto.
Qed.
Print Assumptions C39_terminates.
Theorem C39_diverges_refuted : ~ (forall env s, exists fuel, replaceEnvironment fuel env s <> None).
Proof.
  intros H. destruct (H (fun v => if list_eq_dec ascii_dec v $"A" then Some $"x${A}" else None) $"${A}") as [fuel E]. apply E. clear E H.
  set (env := fun v => _). unfold replaceEnvironment.
  assert (G : forall n x, ~ In "$"%char x -> env_loop n env (x ++ $"${A}") (Some (length x)) = None).
  { induction n as [|n IH]; intros x N; [reflexivity|]. cbn [env_loop].
    assert (F : find_from $"}" (x ++ $"${A}") (length x + 2) = Some (length x + 3)%nat).
    { unfold find_from. replace (skipn (length x + 2) (x ++ $"${A}")) with ($"A}"); [cbn; f_equal; lia|].
      replace (x ++ $"${A}") with ((x ++ $"${") ++ $"A}") by (rewrite <- app_assoc; reflexivity). symmetry. apply StringHelperProofs.skipn_app_exact.
      rewrite app_length. reflexivity. }
    rewrite F. replace (length x + 2 - 2)%nat with (length x) by lia. rewrite firstn_exact.
    replace (substr (x ++ $"${A}") (length x + 2) (length x + 3 - (length x + 2))) with ($"A").
    2: { unfold substr. replace (skipn (length x + 2) (x ++ $"${A}")) with ($"A}"); [replace (length x + 3 - (length x + 2))%nat with 1%nat by lia; reflexivity|].
      replace (x ++ $"${A}") with ((x ++ $"${") ++ $"A}") by (rewrite <- app_assoc; reflexivity). symmetry. apply StringHelperProofs.skipn_app_exact.
      rewrite app_length. reflexivity. }
    replace (skipn (length x + 3 + 1) (x ++ $"${A}")) with (@nil ascii).
    2: { symmetry. apply skipn_all2. rewrite app_length. cbn. lia. }
    change (getEnvironment env $"A") with ($"x${A}").
    replace (x ++ $"x${A}" ++ []) with ((x ++ $"x") ++ $"${A}") by (rewrite <- app_assoc; reflexivity).
    assert (N' : ~ In "$"%char (x ++ $"x")) by (intros Hin; apply in_app_or in Hin; destruct Hin as [Hin|[Hin|[]]]; [auto|discriminate]).
    assert (F2 : find_from $"${" ((x ++ $"x") ++ $"${A}") 0 = Some (length (x ++ $"x"))).
    { unfold find_from. cbn [skipn]. change ((x ++ $"x") ++ $"${A}") with ((x ++ $"x") ++ $"${" ++ $"A}"). rewrite StringHelperProofs.find_cut; [reflexivity|discriminate|].
      intros a b E. assert (La : length a = length (x ++ $"x")).
      { destruct (Nat.lt_trichotomy (length a) (length (x ++ $"x"))) as [L|[L|L]]; auto; exfalso.
        - apply N'. assert (Hnth : nth (length a) ((x ++ $"x") ++ $"${") "000"%char = "$"%char).
          { rewrite E, app_nth2 by lia. rewrite Nat.sub_diag. reflexivity. }
          rewrite app_nth1 in Hnth by lia. rewrite <- Hnth. apply nth_In. lia.
        - apply (f_equal (@length _)) in E. rewrite !app_length in E, L. cbn in E, L. rewrite !app_length in E. cbn in E. lia. }
      apply (f_equal (@length _)) in E. rewrite !app_length in E. rewrite !app_length in La. destruct b; [auto|cbn in E, La; lia]. }
    rewrite F2. apply IH. exact N'. }
  change (find_from $"${" $"${A}" 0) with (Some (length (@nil ascii))). pose proof (G fuel [] (fun x => x)) as G0. cbn [app] in G0.
  change (match env_loop fuel env $"${A}" (Some (length (@nil ascii))) with Some (Some r) => Some r | Some None => Some $"${A}" | None => None end = None).
  rewrite G0. reflexivity.
Qed.
Print Assumptions C39_diverges_refuted.

(* C39: for every text and environment, the result contains no beginning of a variable unless it is the text itself *)
Theorem C39_result env s fuel r : replaceEnvironment fuel env s = Some r -> ~ occurs $"${" r \/ r = s.
Proof.
  unfold replaceEnvironment. destruct s as [|x s]; [intros [= <-]; auto|]. fold var.
  destruct (env_loop fuel env (x :: s) (find_from var (x :: s) 0)) as [[t|]|] eqn:E; [| |discriminate]; intros [= <-]; auto.
  left. eapply env_result; eauto.
Qed.
Print Assumptions C39_result.
(* C39: each variable is replaced by its value, or by its name if it is not set *)
Theorem C39_expands env l n : Forall (piece_ok env) l -> (length l <= n)%nat -> replaceEnvironment n env (write l) = Some (expand env l).
Proof. apply replace_expand. Qed.
Print Assumptions C39_expands.
Definition ex_env (v : str) : option str := if list_eq_dec ascii_dec v $"HOME" then Some $"/home/me" else None.
Example C39_expands_ex : Forall (piece_ok ex_env) [Var $"HOME"; Lit $"/x/"; Var $"NONE"] /\
  write [Var $"HOME"; Lit $"/x/"; Var $"NONE"] = $"${HOME}/x/${NONE}" /\ expand ex_env [Var $"HOME"; Lit $"/x/"; Var $"NONE"] = $"/home/me/x/NONE" /\
  replaceEnvironment 9 ex_env $"${HOME}/x/${NONE" = Some $"${HOME}/x/${NONE".
Proof.
  split; [|repeat split]. repeat constructor; cbn; intuition discriminate.
Qed.
(* a text that has a $ elsewhere can change its meaning *)
Theorem C39_literal_dollar_refuted : ~ (forall env l n r, replaceEnvironment n env (write l) = Some r -> (forall v x, env v = Some x -> ~ In "$"%char x) ->
  (forall s, In (Lit s) l -> ~ occurs $"${" s) -> r = expand env l).
Proof.
  intros H. specialize (H (fun v => if list_eq_dec ascii_dec v $"A" then Some [] else None) [Lit $"$"; Var $"A"; Lit $"{x}"] 9%nat $"x" eq_refl).
  assert (X : $"x" = expand (fun v => if list_eq_dec ascii_dec v $"A" then Some [] else None) [Lit $"$"; Var $"A"; Lit $"{x}"]); [|discriminate X].
  apply H.
  - intros v x. destruct (list_eq_dec ascii_dec v $"A"); [intros [= <-] []|discriminate].
  - intros s [E|[E|[E|[]]]]; try discriminate; injection E as <-; intros (a & b & Q); destruct a as [|c a]; try discriminate;
      repeat (destruct a as [|? a]; try discriminate).
Qed.
Print Assumptions C39_literal_dollar_refuted.
