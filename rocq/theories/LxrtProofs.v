(* Proofs for C73 *)
From Verif Require Import Base BaseLemmas Text LxrtModel LxrtSpec.

Lemma begins_iff name : forall line, begins name line = true <-> starts name line.
Proof.
  unfold starts. induction name as [|a n IH]; intros line; cbn.
  - split; [exists line; reflexivity|reflexivity].
  - destruct line as [|b l]; [split; [discriminate|intros (r & E); discriminate E]|].
    rewrite andb_true_iff, IH. destruct (Ascii.eqb_spec a b) as [->|N]; split.
    + intros (_ & r & ->). exists r. reflexivity.
    + intros (r & E). injection E as E. split; [reflexivity|]. exists r. exact E.
    + intros (E & _). discriminate E.
    + intros (r & E). injection E as E _. congruence.
Qed.
Lemma begins_nil name : begins name [] = true <-> name = [].
Proof. destruct name; cbn; split; congruence. Qed.
(* a line that fits, followed by a newline *)
Lemma getline_line room l t : ~ In nl l -> length l <= room -> getline room (l ++ nl :: t) = (l, t, true).
Proof.
  revert room. induction l as [|c l IH]; intros room N L; cbn [app getline].
  - destruct (Ascii.eqb_spec nl nl); [reflexivity|congruence].
  - destruct (Ascii.eqb_spec c nl) as [->|_]; [exfalso; apply N; left; reflexivity|]. cbn [length] in L. destruct room as [|k]; [lia|].
    rewrite IH; [reflexivity|intros H; apply N; right; exact H|lia].
Qed.
Lemma getline_last room l : ~ In nl l -> length l <= room -> getline room l = (l, [], false).
Proof.
  revert room. induction l as [|c l IH]; intros room N L; cbn [getline]; [reflexivity|].
  destruct (Ascii.eqb_spec c nl) as [->|_]; [exfalso; apply N; left; reflexivity|]. cbn [length] in L. destruct room as [|k]; [lia|].
  rewrite IH; [reflexivity|intros H; apply N; right; exact H|lia].
Qed.
Lemma getline_long room l t : ~ In nl l -> room < length l -> (exists rest, getline room (l ++ t) = (firstn room l, rest, false)).
Proof.
  revert room. induction l as [|c l IH]; intros room N L; cbn [length] in L; [lia|]. cbn [app getline].
  destruct (Ascii.eqb_spec c nl) as [->|_]; [exfalso; apply N; left; reflexivity|]. destruct room as [|k]; [eexists; reflexivity|].
  destruct (IH k) as (rest & E); [intros H; apply N; right; exact H|lia|]. rewrite E. exists rest. reflexivity.
Qed.
(* the lines the loop looks at: up to the first one that does not fit, of which it sees 199 characters *)
Fixpoint seen (ls : list str) : list str :=
  match ls with [] => [] | l :: r => if length l <? 200 then l :: seen r else [firstn 199 l] end.
Lemma lines_nonempty t ls : lines t ls -> ls <> [].
Proof. intros H. destruct H; discriminate. Qed.
Lemma read_seen t ls : lines t ls -> forall fuel name, length t < fuel -> read_modules fuel t name = true <-> exists l, In l (seen ls) /\ starts name l.
Proof.
  induction 1 as [s N|s t l N H IH]; intros [|fuel] name L; try lia; cbn [read_modules seen].
  - destruct (Nat.ltb_spec (length s) 200) as [Q|Q].
    + rewrite (getline_last 199 s N) by lia. pose proof (begins_iff name s) as B. destruct (begins name s).
      * split; [|reflexivity]. intros _. exists s. split; [left; reflexivity|]. apply B. reflexivity.
      * split; [discriminate|]. intros (x & [<-|[]] & Hx). apply B in Hx. discriminate Hx.
    + destruct (getline_long 199 s [] N ltac:(lia)) as (rest & E). rewrite app_nil_r in E. rewrite E. pose proof (begins_iff name (firstn 199 s)) as B. destruct (begins name (firstn 199 s)).
      * split; [|reflexivity]. intros _. exists (firstn 199 s). split; [left; reflexivity|]. apply B. reflexivity.
      * split; [discriminate|]. intros (x & [<-|[]] & Hx). apply B in Hx. discriminate Hx.
  - destruct (Nat.ltb_spec (length s) 200) as [Q|Q].
    + change (ascii_of_nat 10) with nl in *. rewrite (getline_line 199 s t N) by lia. pose proof (begins_iff name s) as B. destruct (begins name s).
      * split; [|reflexivity]. intros _. exists s. split; [left; reflexivity|]. apply B. reflexivity.
      * rewrite app_length in L. cbn [length] in L. rewrite IH by lia. split.
        -- intros (x & Hi & Hx). exists x. split; [right; exact Hi|exact Hx].
        -- intros (x & [<-|Hi] & Hx); [apply B in Hx; discriminate Hx|]. exists x. auto.
    + change (ascii_of_nat 10) with nl in *. destruct (getline_long 199 s (nl :: t) N ltac:(lia)) as (rest & E). rewrite E. pose proof (begins_iff name (firstn 199 s)) as B. destruct (begins name (firstn 199 s)).
      * split; [|reflexivity]. intros _. exists (firstn 199 s). split; [left; reflexivity|]. apply B. reflexivity.
      * split; [discriminate|]. intros (x & [<-|[]] & Hx). apply B in Hx. discriminate Hx.
Qed.
Lemma check_seen t ls name : lines t ls -> checkKernelModule (Some t) name = true <-> exists l, In l (seen ls) /\ starts name l.
Proof. intros H. apply (read_seen t ls H). lia. Qed.
Lemma seen_short ls : Forall short ls -> seen ls = ls.
Proof.
  induction 1 as [|l r H _ IH]; cbn [seen]; [reflexivity|]. unfold short in H. destruct (Nat.ltb_spec (length l) 200); [|lia]. rewrite IH. reflexivity.
Qed.
Lemma seen_before l before after : Forall short before -> short l -> In l (seen (before ++ l :: after)).
Proof.
  intros B H. unfold short in *. induction B as [|x r Hx _ IH]; cbn [seen app].
  - destruct (Nat.ltb_spec (length l) 200); [left; reflexivity|lia].
  - destruct (Nat.ltb_spec (length x) 200); [right; exact IH|lia].
Qed.
Lemma seen_begin ls l : In l (seen ls) -> exists line, In line ls /\ starts l line.
Proof.
  induction ls as [|x r IH]; cbn [seen]; [intros []|]. destruct (length x <? 200).
  - intros [<-|H]; [exists x; split; [left; reflexivity|exists []; symmetry; apply app_nil_r]|]. destruct (IH H) as (y & Hy & Hs). exists y. split; [right; exact Hy|exact Hs].
  - intros [<-|[]]. exists x. split; [left; reflexivity|]. exists (skipn 199 x). symmetry. apply firstn_skipn.
Qed.
Lemma lines_exist t : exists ls, lines t ls.
Proof.
  induction t as [|c t (ls & H)]; [exists [[]]; constructor; intros []|]. destruct (Ascii.eqb_spec c nl) as [->|Ne].
  - exists ([] :: ls). apply (one_line [] t ls); [intros []|exact H].
  - inversion H as [s N Es|s u l N H1 Es].
    + exists [c :: t]. constructor. intros [E|E]; [apply Ne; exact E|auto].
    + exists ((c :: s) :: l). apply (one_line (c :: s) u l); [|exact H1]. intros [E|E]; [apply Ne; exact E|auto].
Qed.
Lemma all_loaded_iff v m : v <> NoLxrt -> all_loaded v m = true <-> forall n, In n (needed v) -> checkKernelModule m n = true.
Proof.
  destruct v; cbn [all_loaded needed]; [congruence| |]; intros _.
  - split; [intros H n [<-|[]]; exact H|]. intros H. apply H. left. reflexivity.
  - destruct (checkKernelModule m $"rtai_hal") eqn:E1, (checkKernelModule m $"rtai_lxrt") eqn:E2; split.
    1: intros H n [<-|[<-|[<-|[]]]]; assumption.
    1: intros H; apply H; right; right; left; reflexivity.
    all: try discriminate.
    + intros H. rewrite (H $"rtai_lxrt") in E2; [discriminate E2|right; left; reflexivity].
    + intros H. rewrite (H $"rtai_hal") in E1; [discriminate E1|left; reflexivity].
    + intros H. rewrite (H $"rtai_hal") in E1; [discriminate E1|left; reflexivity].
Qed.
(* ---- the calls ---- *)
Lemma make_available v a b d s z s' : makeThisAnLxrtTask v a b d s = Some (z, s') -> available s' = available s.
Proof.
  unfold makeThisAnLxrtTask. intros H. destruct v; [injection H as _ <-; reflexivity|..];
    destruct (available s) eqn:A; cbn [negb] in H; try (injection H as _ <-; exact A);
    destruct (isThisLxrtTask _ s); try (injection H as _ <-; exact A); destruct a; cbn [negb] in H; try (injection H as _ <-; exact A);
    destruct b; try discriminate H; destruct d; try discriminate H; injection H as _ <-; reflexivity.
Qed.
Lemma run1_available v s c s' : v <> NoLxrt -> run1 v s c = Some s' ->
  available s' = available s || match looks c with Some m => all_loaded v m | None => false end.
Proof.
  intros Nv H. destruct c as [m|m a b d| |a b d| | |]; cbn [run1 looks] in *.
  - injection H as <-. unfold checkForLxrt. destruct (all_loaded v m); cbn; rewrite ?orb_true_r, ?orb_false_r; reflexivity.
  - assert (H' : lift (makeThisAnLxrtTask v a b d (snd (checkForLxrt v m s))) = Some s') by (destruct v; [congruence|exact H|exact H]). clear H.
    destruct (makeThisAnLxrtTask v a b d (snd (checkForLxrt v m s))) as [[z u]|] eqn:E; [|discriminate H']. injection H' as <-. rewrite (make_available _ _ _ _ _ _ _ E).
    unfold checkForLxrt. destruct (all_loaded v m); cbn; rewrite ?orb_true_r, ?orb_false_r; reflexivity.
  - injection H as <-. unfold makeThisALinuxTask. rewrite orb_false_r. destruct (isThisLxrtTask v s); reflexivity.
  - destruct (makeThisAnLxrtTask v a b d s) as [[z u]|] eqn:E; [|discriminate H]. injection H as <-. rewrite (make_available _ _ _ _ _ _ _ E). rewrite orb_false_r. reflexivity.
  - injection H as <-. unfold makeThisALinuxTask. rewrite orb_false_r. destruct (isThisLxrtTask v s); reflexivity.
  - injection H as <-. unfold makeHRT. rewrite orb_false_r. destruct v; [reflexivity|..]; destruct (buddy s); reflexivity.
  - injection H as <-. unfold ensureNoHRT. rewrite orb_false_r. destruct (isThisHRT v s); reflexivity.
Qed.
Lemma runs_available v l : v <> NoLxrt -> forall s s', runs v s l = Some s' ->
  available s' = true <-> available s = true \/ exists c m, In c l /\ looks c = Some m /\ all_loaded v m = true.
Proof.
  intros Nv. induction l as [|c l IH]; intros s s' H; cbn [runs] in H.
  - injection H as <-. split; [auto|]. intros [X|(c & m & [] & _)]. exact X.
  - destruct (run1 v s c) as [u|] eqn:E; [|discriminate H]. rewrite (IH _ _ H), (run1_available v s c u Nv E), orb_true_iff. split.
    + intros [[X|X]|(c' & m & A & B)]; [left; exact X| |right; exists c', m; split; [right; exact A|exact B]].
      destruct (looks c) as [m|] eqn:L; [|discriminate X]. right. exists c, m. split; [left; reflexivity|auto].
    + intros [X|(c' & m & [<-|A] & L & B)]; [left; left; exact X| |right; exists c', m; auto].
      left. right. rewrite L. exact B.
Qed.
Definition sane (s : st) : Prop := (buddy s = true -> available s = true) /\ (hard s = true -> buddy s = true).
Lemma make_sane v a b d s z s' : sane s -> makeThisAnLxrtTask v a b d s = Some (z, s') -> sane s'.
Proof.
  unfold makeThisAnLxrtTask. intros Sn H. destruct v; [injection H as _ <-; exact Sn|..];
    destruct (available s) eqn:A; cbn [negb] in H; try (injection H as _ <-; exact Sn);
    destruct (isThisLxrtTask _ s); try (injection H as _ <-; exact Sn); destruct a; cbn [negb] in H; try (injection H as _ <-; exact Sn);
    destruct b; try discriminate H; destruct d; try discriminate H; injection H as _ <-; split; cbn; auto; discriminate.
Qed.
Lemma run1_sane v s c s' : sane s -> run1 v s c = Some s' -> sane s'.
Proof.
  intros Sn H. assert (Ck : forall m, sane (snd (checkForLxrt v m s))) by (intros m; unfold checkForLxrt; destruct (all_loaded v m); [split; cbn; [reflexivity|apply Sn]|exact Sn]).
  assert (Ml : sane (makeThisALinuxTask v s)) by (unfold makeThisALinuxTask; destruct (isThisLxrtTask v s); [split; cbn; discriminate|exact Sn]).
  destruct c as [m|m a b d| |a b d| | |]; cbn [run1] in *.
  - injection H as <-. apply Ck.
  - destruct v; [injection H as <-; exact Sn|..].
    all: match type of H with lift ?x = _ => destruct x as [[z u]|] eqn:E; [|discriminate H] end; injection H as <-; apply (make_sane _ _ _ _ _ _ _ (Ck m) E).
  - injection H as <-. exact Ml.
  - destruct (makeThisAnLxrtTask v a b d s) as [[z u]|] eqn:E; [|discriminate H]. injection H as <-. apply (make_sane _ _ _ _ _ _ _ Sn E).
  - injection H as <-. exact Ml.
  - injection H as <-. unfold makeHRT. destruct v; [exact Sn|..]; destruct (buddy s) eqn:B; try exact Sn; (split; cbn; [intros _; apply Sn, B|reflexivity]).
  - injection H as <-. unfold ensureNoHRT. destruct (isThisHRT v s); [split; cbn; [apply Sn|discriminate]|exact Sn].
Qed.
Lemma runs_sane v l : forall s s', sane s -> runs v s l = Some s' -> sane s'.
Proof.
  induction l as [|c l IH]; intros s s' Sn H; cbn [runs] in H; [injection H as <-; exact Sn|]. destruct (run1 v s c) as [u|] eqn:E; [|discriminate H].
  apply (IH u); [apply (run1_sane v s c u Sn E)|exact H].
Qed.
Lemma init_sane : sane init.
Proof. split; discriminate. Qed.
Lemma runs_none l : forall s, runs NoLxrt s l = Some s.
Proof.
  induction l as [|c l IH]; intros s; cbn [runs]; [reflexivity|]. assert (E : run1 NoLxrt s c = Some s) by (destruct c; reflexivity). rewrite E. apply IH.
Qed.
