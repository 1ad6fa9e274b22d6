(* Proofs about FilePathModel.  Internal lemmas; the reader's theorems are in FilePathProps. *)
From Verif Require Import Base Text StringHelperModel StringHelperSpec StringHelperProofs FilePathModel FilePathSpec.

Lemma skipn_exact {A} (a b : list A) : skipn (length a) (a ++ b) = b.
Proof. apply skipn_app_exact. auto. Qed.
Lemma firstn_exact {A} (a b : list A) : firstn (length a) (a ++ b) = a.
Proof. rewrite firstn_app, Nat.sub_diag, firstn_all. cbn [firstn]. apply app_nil_r. Qed.

(* find and rfind *)
Lemma find_some d s p i : find_from d s p = Some i -> (p <= length s)%nat ->
  (p <= i)%nat /\ exists a b, s = a ++ d ++ b /\ length a = i /\ forall a' b', s = a' ++ d ++ b' -> (p <= length a')%nat -> (i <= length a')%nat.
Proof.
  unfold find_from. intros H Hp. destruct (str_find d (skipn p s)) as [n|] eqn:E; [|discriminate]. injection H as <-.
  apply str_find_some in E. destruct E as (b & E1 & E2 & E3). split; [lia|].
  exists (firstn p s ++ firstn n (skipn p s)), b. split; [|split].
  - rewrite <- app_assoc, <- E1, firstn_skipn. auto.
  - rewrite app_length, E2, firstn_length_le; auto.
  - intros a' b' Es Hl. assert (Q : skipn p s = skipn p a' ++ d ++ b').
    { rewrite Es at 1. rewrite skipn_app. replace (p - length a')%nat with 0%nat by lia. auto. }
    apply E3 in Q. rewrite skipn_length in Q. lia.
Qed.
Lemma find_none d s p : find_from d s p = None -> forall a b, s = a ++ d ++ b -> (length a < p)%nat.
Proof.
  unfold find_from. destruct (str_find d (skipn p s)) as [n|] eqn:E; [discriminate|]. intros _ a b Es.
  apply str_find_none in E. destruct (Nat.lt_ge_cases (length a) p) as [|H]; auto. exfalso. apply E.
  exists (skipn p a), b. rewrite Es, skipn_app. replace (p - length a)%nat with 0%nat by lia. auto.
Qed.
Lemma last_char_none c s : last_char c s = None <-> ~ In c s.
Proof.
  induction s as [|x s IH]; cbn [last_char]; [split; auto; intros _ []|]. destruct (last_char c s).
  - split; [discriminate|]. intros N. exfalso. assert (X : Some n = None) by (apply IH; intros H; apply N; right; auto). discriminate.
  - destruct (Ascii.eqb_spec x c) as [->|Nx]; split; try discriminate.
    + intros N. exfalso. apply N. left; auto.
    + intros _ [H|H]; [congruence|]. apply IH in H; auto.
    + auto.
Qed.
Lemma last_char_some c s i : last_char c s = Some i -> exists a b, s = a ++ c :: b /\ length a = i /\ ~ In c b.
Proof.
  revert i. induction s as [|x s IH]; intros i; cbn [last_char]; [discriminate|]. destruct (last_char c s) as [j|] eqn:E.
  - intros [= <-]. destruct (IH j eq_refl) as (a & b & -> & <- & N). exists (x :: a), b. auto.
  - destruct (Ascii.eqb_spec x c) as [->|]; [|discriminate]. intros [= <-]. exists [], s. split; auto. split; auto. apply last_char_none; auto.
Qed.

(* what the double dot loop looks at: s = u ++ "/../" ++ w, d = length u *)
Definition dd : str := $"/../".
Lemma rfind_pred u w : u <> [] -> rfind "/"%char (u ++ dd ++ w) (pred_pos (length u)) = last_char "/"%char u.
Proof.
  intros N. unfold rfind, pred_pos. destruct (length u) as [|n] eqn:E; [destruct u; [congruence|discriminate]|]. rewrite <- E, firstn_exact. auto.
Qed.
Lemma rfind_zero w : rfind "/"%char (dd ++ w) (pred_pos 0) = last_char "/"%char (dd ++ w).
Proof. reflexivity. Qed.
Lemma skip3 u w : skipn (length u + 3) (u ++ dd ++ w) = "/"%char :: w.
Proof.
  replace (u ++ dd ++ w) with ((u ++ $"/..") ++ "/"%char :: w) by (rewrite <- app_assoc; reflexivity).
  apply skipn_app_exact. rewrite app_length. reflexivity.
Qed.
Lemma skip2 u w : skipn (length u + 2) (u ++ dd ++ w) = "."%char :: "/"%char :: w.
Proof.
  replace (u ++ dd ++ w) with ((u ++ $"/.") ++ "."%char :: "/"%char :: w) by (rewrite <- app_assoc; reflexivity).
  apply skipn_app_exact. rewrite app_length. reflexivity.
Qed.

(* one iteration of the loop *)
Inductive iteration : str -> nat -> str -> nat -> Prop :=   (* s, d, s', next position to search from *)
| it_slash a c w : ~ In "/"%char c -> may_shorten (a ++ "/"%char :: c ++ dd ++ w) (length a) = true ->
    iteration (a ++ "/"%char :: c ++ dd ++ w) (length a + S (length c)) (a ++ "/"%char :: w) (length a)
| it_first c w : c <> [] -> ~ In "/"%char c -> iteration (c ++ dd ++ w) (length c) ("."%char :: "/"%char :: w) 0
| it_root a b w : dd ++ w = a ++ "/"%char :: b -> ~ In "/"%char b -> iteration (dd ++ w) 0 (a ++ "/"%char :: w) (length a).
Definition find_dd (s : str) (p : nat) : option nat := find_from dd s p.
Lemma loop_step s p : (p <= length s)%nat -> 
  (forall f, double_dots (S f) s (find_dd s p) = Some s) /\ (find_dd s p = None \/ exists i, may_shorten s i = false) \/
  exists s' p', (forall f, double_dots (S f) s (find_dd s p) = double_dots f s' (find_dd s' p')) /\ (p' <= length s')%nat /\
    exists d, find_dd s p = Some d /\ iteration s d s' p'.
Proof.
  intros Hp. destruct (find_dd s p) as [d|] eqn:E; [|left; split; [reflexivity|auto]].
  unfold find_dd in E. apply find_some in E; auto. destruct E as (_ & u & w & Es & Hd & _).
  subst d s. destruct u as [|u0 u'].
  - cbn [length app]. destruct (last_char "/"%char (dd ++ w)) as [i|] eqn:EL.
    + destruct (may_shorten (dd ++ w) i) eqn:EM; [|left; split; [intros f; cbn [double_dots]; rewrite rfind_zero, EL, EM; reflexivity|eauto]]. right.
      pose proof EL as EL'. apply last_char_some in EL. destruct EL as (a & b & Ea & Hi & N). subst i.
      exists (a ++ "/"%char :: w), (length a). split; [intros f; cbn [double_dots]; rewrite rfind_zero, EL', EM|]. 1: {
      replace (firstn (length a) (dd ++ w) ++ skipn (0 + 3) (dd ++ w)) with (a ++ "/"%char :: w).
      2: { rewrite Ea at 1. rewrite firstn_exact. reflexivity. }
      reflexivity. }
      split; [rewrite app_length; lia|]. exists 0%nat. split; auto. eapply it_root; eauto.
    + apply last_char_none in EL. exfalso. apply EL. left; auto.
  - set (u := u0 :: u') in *. assert (Nu : u <> []) by (unfold u; discriminate).
    destruct (last_char "/"%char u) as [i|] eqn:EL.
    + destruct (may_shorten (u ++ dd ++ w) i) eqn:EM; [|left; split; [intros f; cbn [double_dots]; rewrite rfind_pred, EL, EM by auto; reflexivity|eauto]]. right.
      pose proof EL as EL'. apply last_char_some in EL. destruct EL as (a & c & Ea & Hi & N). subst i.
      exists (a ++ "/"%char :: w), (length a). split.
      { intros f. cbn [double_dots]. rewrite rfind_pred, EL', EM, skip3 by auto.
        replace (firstn (length a) (u ++ dd ++ w)) with a; [reflexivity|]. rewrite Ea, <- app_assoc, firstn_exact. auto. }
      split; [rewrite app_length; lia|]. exists (length u). split; auto.
      rewrite Ea in *. rewrite <- app_assoc in *. cbn [app] in *.
      replace (length (a ++ "/"%char :: c)) with (length a + S (length c))%nat by (rewrite app_length; reflexivity).
      apply it_slash; auto.
    + pose proof EL as EL'. apply last_char_none in EL. assert (LT : (0 <? length u) = true) by (apply Nat.ltb_lt; cbn; lia).
      right. eexists ("."%char :: "/"%char :: w), 0%nat. split; [intros f; cbn [double_dots]; rewrite rfind_pred, EL', LT, skip2 by auto; reflexivity|].
      split; [lia|]. exists (length u). split; auto. apply it_first; auto.
Qed.

(* termination *)
Definition slashes (s : str) : nat := count_occ ascii_dec s "/"%char.
Fixpoint occ (s : str) : nat := (if is_prefix dd s then 1 else 0) + match s with [] => 0 | _ :: r => occ r end.
Lemma slashes_app a b : slashes (a ++ b) = (slashes a + slashes b)%nat.
Proof. apply count_occ_app. Qed.
Lemma slashes_cons b : slashes ("/"%char :: b) = S (slashes b).
Proof. reflexivity. Qed.
Lemma slashes_none c : ~ In "/"%char c -> slashes c = 0%nat.
Proof. apply count_occ_not_In. Qed.
Lemma slashes_dd w : slashes (dd ++ w) = S (S (slashes w)).
Proof. reflexivity. Qed.
Lemma occ_app a b : (occ b <= occ (a ++ b))%nat.
Proof. induction a as [|x a IH]; cbn [app]; auto. cbn [occ]. lia. Qed.
Lemma occ_dd w : occ (dd ++ w) = S (occ ("/"%char :: w)).
Proof. reflexivity. Qed.
Lemma occ_slashes s : (slashes s = 0 /\ occ s = 0 \/ occ s < slashes s)%nat.
Proof.
  induction s as [|x s IH]; [auto|]. cbn [occ]. destruct (is_prefix dd (x :: s)) eqn:E.
  - apply is_prefix_spec in E. destruct E as [b E]. injection E as -> ->. right. rewrite slashes_cons.
    change ("."%char :: "."%char :: "/"%char :: b) with ($".." ++ "/"%char :: b) in *.
    rewrite slashes_app in *. rewrite slashes_cons in *. lia.
  - unfold slashes in *. cbn [count_occ]. destruct (ascii_dec x "/"%char); lia.
Qed.
Definition J (s : str) (p : nat) : Prop := (occ (skipn p s) < slashes (firstn p s))%nat.
Lemma skipn_le_app {A} p (s : list A) d : (p <= d)%nat -> exists l, skipn p s = l ++ skipn d s.
Proof.
  intros H. exists (firstn (d - p) (skipn p s)). rewrite <- (firstn_skipn (d - p) (skipn p s)) at 1. f_equal.
  replace d with ((d - p) + p)%nat at 2 by lia. generalize (d - p)%nat. clear. revert s. induction p as [|p IH]; intros s n.
  - rewrite Nat.add_0_r. reflexivity.
  - destruct s as [|x s]; [rewrite !skipn_nil; reflexivity|]. rewrite Nat.add_succ_r. cbn [skipn]. apply IH.
Qed.
Lemma firstn_le_app {A} p (s : list A) d : (p <= d)%nat -> exists l, firstn d s = firstn p s ++ l.
Proof.
  intros H. exists (skipn p (firstn d s)). rewrite <- (firstn_skipn p (firstn d s)) at 1. f_equal.
  rewrite firstn_firstn. f_equal. lia.
Qed.
Lemma J_le s p d : (p <= d)%nat -> J s p -> J s d.
Proof.
  unfold J. intros H. destruct (skipn_le_app p s d H) as [l1 E1]. destruct (firstn_le_app p s d H) as [l2 E2]. rewrite E1, E2, slashes_app.
  pose proof (occ_app l1 (skipn d s)). lia.
Qed.
Lemma split_at a c w : a ++ "/"%char :: c ++ dd ++ w = (a ++ "/"%char :: c) ++ dd ++ w.
Proof. rewrite <- app_assoc. reflexivity. Qed.
Lemma len_at (a c : str) : (length a + S (length c))%nat = length (a ++ "/"%char :: c).
Proof. rewrite app_length. reflexivity. Qed.
Lemma J_step s p d s' p' : (p <= d)%nat -> J s p -> iteration s d s' p' -> J s' p' /\ (length s' < length s)%nat.
Proof.
  intros H HJ It. apply (J_le s p d H) in HJ. destruct It as [a c w N _|c w Nc N|a b w E N]; unfold J in *.
  - rewrite len_at, split_at, skipn_exact, firstn_exact, occ_dd, slashes_app, slashes_cons, (slashes_none c N) in HJ.
    rewrite skipn_exact, firstn_exact. split; [lia|]. rewrite !app_length. cbn [length]. rewrite !app_length. change (length dd) with 4%nat. lia.
  - rewrite firstn_exact, (slashes_none c N) in HJ. lia.
  - cbn [firstn] in HJ. cbn in HJ. lia.
Qed.
Lemma find_le s p d : (p <= length s)%nat -> find_dd s p = Some d -> (p <= d)%nat.
Proof. intros Hp E. apply find_some in E; tauto. Qed.
Lemma dd_terminates_J n : forall s p, (length s <= n)%nat -> (p <= length s)%nat -> J s p -> exists r, double_dots (S n) s (find_dd s p) = Some r.
Proof.
  induction n as [|n IH]; intros s p Hl Hp HJ; destruct (loop_step s p Hp) as [[E _]|(s' & p' & E & Hp' & d & Ed & It)]; try (eexists; apply E).
  - destruct (J_step s p d s' p' (find_le _ _ _ Hp Ed) HJ It). lia.
  - rewrite E. destruct (J_step s p d s' p' (find_le _ _ _ Hp Ed) HJ It) as [HJ' HL]. apply IH; auto. lia.
Qed.
Lemma J_root a b w : dd ++ w = a ++ "/"%char :: b -> ~ In "/"%char b -> J (a ++ "/"%char :: w) (length a).
Proof.
  intros E N. unfold J. rewrite skipn_exact, firstn_exact. apply (f_equal slashes) in E.
  rewrite slashes_dd, slashes_app, slashes_cons, (slashes_none b N) in E. destruct (occ_slashes ("/"%char :: w)) as [[H _]|H].
  - discriminate.
  - rewrite slashes_cons in H. lia.
Qed.
Lemma dd_terminates n : forall s p, (length s <= n)%nat -> (p <= length s)%nat -> exists f r, double_dots f s (find_dd s p) = Some r.
Proof.
  induction n as [|n IH]; intros s p Hl Hp; destruct (loop_step s p Hp) as [[E _]|(s' & p' & E & Hp' & d & Ed & It)]; try (exists 1%nat; eexists; apply E).
  - destruct s; [|cbn in Hl; lia]. unfold find_dd, find_from in Ed. rewrite skipn_nil in Ed. discriminate.
  - assert (F : exists f r, double_dots f s' (find_dd s' p') = Some r).
    { destruct It as [a c w N M|c w Nc N|a b w E0 N].
      - apply IH; auto. revert Hl. rewrite !app_length. cbn [length]. rewrite !app_length. change (length dd) with 4%nat. lia.
      - apply IH; auto. revert Hl. rewrite !app_length. cbn [length]. change (length dd) with 4%nat. lia.
      - exists (S (length (a ++ "/"%char :: w))). apply dd_terminates_J; auto. eapply J_root; eauto. }
    destruct F as (f & r & F). exists (S f), r. rewrite E. auto.
Qed.
Lemma dd_mono f : forall s ds r, double_dots f s ds = Some r -> forall f', (f <= f')%nat -> double_dots f' s ds = Some r.
Proof.
  induction f as [|f IH]; intros s ds r H f' Hf.
  - destruct ds; [discriminate|]. destruct f'; exact H.
  - destruct f' as [|f']; [lia|]. destruct ds as [d|]; [|exact H]. cbn [double_dots] in *.
    destruct (rfind _ _ _) as [i|].
    + destruct (may_shorten s i); auto. eapply IH; eauto. lia.
    + destruct (0 <? d); auto. eapply IH; eauto. lia.
Qed.
Lemma sd_mono f : forall s ds r, single_dots f s ds = Some r -> forall f', (f <= f')%nat -> single_dots f' s ds = Some r.
Proof.
  induction f as [|f IH]; intros s ds r H f' Hf.
  - destruct ds; [discriminate|]. destruct f'; exact H.
  - destruct f' as [|f']; [lia|]. destruct ds as [d|]; [|exact H]. cbn [single_dots] in *. eapply IH; eauto. lia.
Qed.
(* the single dot loop *)
Definition sd : str := $"/./".
Lemma sd_step s p : (p <= length s)%nat -> (forall f, single_dots f s (find_from sd s p) = Some s) /\ find_from sd s p = None \/
  exists a b, s = a ++ sd ++ b /\ find_from sd s p = Some (length a) /\
   (forall f, single_dots (S f) s (find_from sd s p) = single_dots f (a ++ "/"%char :: b) (find_from sd (a ++ "/"%char :: b) (length a))).
Proof.
  intros Hp. destruct (find_from sd s p) as [d|] eqn:E; [|left; split; [destruct f; reflexivity|auto]]. right.
  pose proof E as E'. apply find_some in E; auto. destruct E as (_ & a & b & Es & Hd & _). exists a, b. split; auto. split; [congruence|].
  intros f. cbn [single_dots]. subst d. replace (firstn (length a) s) with a by (rewrite Es, firstn_exact; auto).
  replace (skipn (length a + 2) s) with ("/"%char :: b); [reflexivity|]. rewrite Es.
  replace (a ++ sd ++ b) with ((a ++ $"/.") ++ "/"%char :: b) by (rewrite <- app_assoc; reflexivity).
  symmetry. apply skipn_app_exact. rewrite app_length. reflexivity.
Qed.
Lemma sd_terminates n : forall s p, (length s <= n)%nat -> (p <= length s)%nat -> exists f r, single_dots f s (find_from sd s p) = Some r.
Proof.
  induction n as [|n IH]; intros s p Hl Hp; destruct (sd_step s p Hp) as [[E _]|(a & b & Es & E & Sf)]; try (exists 1%nat; eexists; apply E).
  - rewrite Es, app_length in Hl. cbn in Hl. lia.
  - destruct (IH (a ++ "/"%char :: b) (length a)) as (f & r & F).
    + rewrite Es in Hl. revert Hl. rewrite !app_length. cbn [length sd app]. cbn. lia.
    + rewrite app_length. lia.
    + exists (S f), r. rewrite Sf. auto.
Qed.
Lemma normalize_terminates s : exists f r, normalizePath f s = Some r.
Proof.
  unfold normalizePath. destruct s as [|x s]; [exists 0%nat; eauto|]. set (s1 := strip_dots _).
  destruct (sd_terminates (length s1) s1 0) as (f1 & s2 & E1); [lia|lia|].
  destruct (dd_terminates (length s2) s2 0) as (f2 & s3 & E2); [lia|lia|].
  exists (Nat.max f1 f2). rewrite (sd_mono _ _ _ _ E1) by lia. rewrite (dd_mono _ _ _ _ E2) by lia. eauto.
Qed.
Lemma normalize_mono f s r : normalizePath f s = Some r -> forall f', (f <= f')%nat -> normalizePath f' s = Some r.
Proof.
  unfold normalizePath. destruct s as [|x s]; auto. intros H f' Hf. destruct (single_dots f _ _) as [s2|] eqn:E; [|discriminate].
  rewrite (sd_mono _ _ _ _ E) by lia. destruct (double_dots f _ _) as [s3|] eqn:E2; [|discriminate]. rewrite (dd_mono _ _ _ _ E2) by lia. auto.
Qed.

(* components *)
Lemma components_ne s : components s <> [].
Proof. destruct s as [|c r]; cbn [components]; [discriminate|]. destruct (Ascii.eqb c "/"%char); [discriminate|]. destruct (components r); discriminate. Qed.
Lemma components_app a b : components (a ++ "/"%char :: b) = components a ++ components b.
Proof.
  induction a as [|c a IH]; [reflexivity|]. cbn [app components]. destruct (Ascii.eqb c "/"%char); [rewrite IH; reflexivity|].
  rewrite IH. pose proof (components_ne a). destruct (components a) as [|x l]; [congruence|]. reflexivity.
Qed.
Lemma components_single c : ~ In "/"%char c -> components c = [c].
Proof.
  induction c as [|x c IH]; intros N; [reflexivity|]. cbn [components]. destruct (Ascii.eqb_spec x "/"%char) as [->|]; [exfalso; apply N; left; auto|].
  rewrite IH; [reflexivity|]. intros H. apply N. right; auto.
Qed.
Lemma components_dd u w : components (u ++ dd ++ w) = components u ++ $".." :: components w.
Proof. change (dd ++ w) with ("/"%char :: $".." ++ "/"%char :: w). rewrite components_app, components_app. reflexivity. Qed.
Lemma components_sd u w : components (u ++ sd ++ w) = components u ++ $"." :: components w.
Proof. change (sd ++ w) with ("/"%char :: $"." ++ "/"%char :: w). rewrite components_app, components_app. reflexivity. Qed.
Lemma walk_app l1 l2 : forall u n, walk u n (l1 ++ l2) = let (u', n') := walk u n l1 in walk u' n' l2.
Proof.
  induction l1 as [|c l1 IH]; intros u n; [reflexivity|]. cbn [app walk].
  destruct (str_dec c []); [apply IH|]. destruct (str_dec c $"."); [apply IH|]. destruct (str_dec c $".."); [|apply IH]. destruct n; apply IH.
Qed.
Lemma absolute_app a b b' : absolute (a ++ "/"%char :: b) = absolute (a ++ "/"%char :: b').
Proof. destruct a; reflexivity. Qed.
Lemma denotes_walk s s' : absolute s = absolute s' -> walk 0 [] (components s) = walk 0 [] (components s') -> denotes s = denotes s'.
Proof. intros A W. unfold denotes. rewrite A, W. reflexivity. Qed.

Lemma descends_cut L W c : W <> [] -> c <> $"." -> c <> $".." -> forall d, descends d (L ++ c :: $".." :: W) -> c <> [] /\ descends d (L ++ W).
Proof.
  intros NW N1 N2. induction L as [|x L IH]; intros d H; cbn [app descends] in *.
  - destruct H as [H|[[H _]|[[H _]|(Nc & _ & _ & H)]]]; try congruence; try discriminate. split; auto.
    destruct H as [H|[[H _]|[(_ & _ & H)|(_ & _ & H & _)]]]; try congruence; try discriminate.
    replace d with (S d - 1)%nat by lia. exact H.
  - assert (NE : L ++ c :: $".." :: W <> []) by (destruct L; discriminate).
    destruct H as [H|[[H1 H]|[(H1 & H2 & H)|(H1 & H2 & H3 & H)]]]; [congruence| | |]; apply IH in H; destruct H as [Nc H]; (split; [exact Nc|]); auto 8.
Qed.
Lemma descends_dot L W : W <> [] -> forall d, descends d (L ++ $"." :: W) -> descends d (L ++ W).
Proof.
  intros NW. induction L as [|x L IH]; intros d H; cbn [app descends] in *.
  - destruct H as [H|[[_ H]|[[H _]|(_ & H & _)]]]; try congruence; try discriminate.
  - assert (NE : L ++ $"." :: W <> []) by (destruct L; discriminate).
    destruct H as [H|[[H1 H]|[(H1 & H2 & H)|(H1 & H2 & H3 & H)]]]; [congruence| | |]; apply IH in H; auto 8.
Qed.
Definition contained_l (l : list str) : Prop :=
  match l with c :: r => if str_dec c [] then descends 0 r else if str_dec c $".." then descends 0 r else descends 0 (c :: r) | [] => True end.
Lemma contained_cut A W c : A <> [] -> W <> [] -> c <> $"." -> c <> $".." -> contained_l (A ++ c :: $".." :: W) -> c <> [] /\ contained_l (A ++ W).
Proof.
  intros NA NW N1 N2. destruct A as [|c0 A]; [congruence|]. cbn [app contained_l].
  destruct (str_dec c0 []); [apply descends_cut; auto|]. destruct (str_dec c0 $".."); [apply descends_cut; auto|].
  apply (descends_cut (c0 :: A)); auto.
Qed.
Lemma contained_dot A W : A <> [] -> W <> [] -> contained_l (A ++ $"." :: W) -> contained_l (A ++ W).
Proof.
  intros NA NW. destruct A as [|c0 A]; [congruence|]. cbn [app contained_l].
  destruct (str_dec c0 []); [apply descends_dot; auto|]. destruct (str_dec c0 $".."); [apply descends_dot; auto|].
  apply (descends_dot (c0 :: A)); auto.
Qed.
Lemma descends_up W d : W <> [] -> descends d ($".." :: W) -> (0 < d)%nat /\ descends (d - 1) W.
Proof. intros NW. cbn [descends]. intros [H|[[H _]|[(_ & H)|(_ & _ & H & _)]]]; try congruence; try discriminate. Qed.
Lemma contained_first W c : W <> [] -> c <> [] -> contained_l (c :: $".." :: W) -> contained_l ($"." :: W) /\ c <> $"." /\ c <> $"..".
Proof.
  intros NW Nc. unfold contained_l. destruct (str_dec c []); [congruence|]. destruct (str_dec c $"..") as [|N2].
  - intros H. apply descends_up in H; auto. lia.
  - intros H. destruct (str_dec $"." []); [discriminate|]. destruct (str_dec $"." $".."); [discriminate|].
    cbn [descends] in H. destruct H as [H|[[_ H]|[[H _]|(_ & N1 & _ & H)]]]; try congruence; try discriminate.
    + apply (descends_up W) in H; auto. lia.
    + apply (descends_up W) in H; auto. cbn in H. split; [right; left; tauto|auto].
Qed.
Lemma contained_root W : W <> [] -> ~ contained_l ([] :: $".." :: W).
Proof. intros NW H. unfold contained_l in H. destruct (str_dec [] []); [|congruence]. apply descends_up in H; auto. lia. Qed.

(* occurrences of a pattern /./ or /../ across a separator *)
Definition pat (D : str) : Prop := D = sd \/ D = dd.
Lemma occurs_join D a w x y : pat D -> a ++ "/"%char :: w = x ++ D ++ y ->
  ((length x < length a)%nat /\ exists y', a ++ ["/"%char] = x ++ D ++ y') \/ exists x', "/"%char :: w = x' ++ D ++ y /\ x = a ++ x'.
Proof.
  intros HD. revert x. induction a as [|c a IH]; intros x E.
  - right. exists x. auto.
  - destruct x as [|c' x].
    + left. split; [cbn; lia|]. clear IH. cbn [app] in *. destruct HD as [-> | ->]; cbn in E; injection E as -> E.
      * destruct a as [|a1 a]; [discriminate|]. cbn in E. injection E as -> E. destruct a as [|a2 a]; cbn in E; injection E; intros; subst; cbn; eauto.
      * destruct a as [|a1 a]; [discriminate|]. cbn in E. injection E as -> E. destruct a as [|a2 a]; [discriminate|]. cbn in E. injection E as -> E.
        destruct a as [|a3 a]; cbn in E; injection E; intros; subst; cbn; eauto.
    + cbn [app] in E. injection E as <- E. apply IH in E. destruct E as [[H (y' & E)]|(x' & E & ->)].
      * left. split; [cbn; lia|]. exists y'. cbn [app]. congruence.
      * right. exists x'. auto.
Qed.
Definition no (D s : str) : Prop := ~ occurs D s.
Definition early (D s : str) (p : nat) : Prop := forall a b, s = a ++ D ++ b -> (p <= length a)%nat.
Lemma early_zero D s : early D s 0. Proof. intros a b _. lia. Qed.
Lemma early_find D s p d : D <> [] -> (p <= length s)%nat -> early D s p -> find_from D s p = Some d -> early D s d.
Proof. intros ND Hp E F a b Es. apply find_some in F; auto. destruct F as (_ & _ & _ & _ & _ & M). eapply M; eauto. Qed.
Lemma early_none D s p : early D s p -> find_from D s p = None -> no D s.
Proof. intros E F (a & b & Es). pose proof (find_none D s p F a b Es). pose proof (E a b Es). lia. Qed.
Lemma join_early D a t w : pat D -> early D (a ++ "/"%char :: t) (length a) -> early D (a ++ "/"%char :: w) (length a).
Proof.
  intros HD H x y E. apply occurs_join in E; auto. destruct E as [[L (y' & E)]|(x' & _ & ->)]; [|rewrite app_length; lia].
  exfalso. assert (Q : a ++ "/"%char :: t = x ++ D ++ (y' ++ t)).
  { replace (a ++ "/"%char :: t) with ((a ++ ["/"%char]) ++ t) by (rewrite <- app_assoc; auto). rewrite E, <- !app_assoc. auto. }
  apply H in Q. lia.
Qed.
Lemma join_no D a t w l : pat D -> no D (a ++ "/"%char :: t) -> no D (l ++ "/"%char :: w) -> no D (a ++ "/"%char :: w).
Proof.
  intros HD H1 H2 (x & y & E). apply occurs_join in E; auto. destruct E as [[_ (y' & E)]|(x' & E & _)].
  - apply H1. exists x, (y' ++ t). replace (a ++ "/"%char :: t) with ((a ++ ["/"%char]) ++ t) by (rewrite <- app_assoc; auto). rewrite E, <- !app_assoc. auto.
  - apply H2. exists (l ++ x'), y. rewrite E, <- app_assoc. auto.
Qed.

(* leading dots *)
Lemma strip_dots_eq s : strip_dots s = match s with
  | a :: ((b :: r) as t) => if Ascii.eqb a "."%char && Ascii.eqb b "/"%char then strip_dots r else s
  | _ => s end.
Proof. destruct s as [|a [|b r]]; reflexivity. Qed.
Lemma strip_ind (P : str -> Prop) : (forall r, P ("."%char :: "/"%char :: r) -> P r) -> forall s, P s -> P (strip_dots s).
Proof.
  intros H s. remember (length s) as n eqn:En. assert (Hn : (length s <= n)%nat) by lia. clear En. revert s Hn.
  induction n as [|n IH]; intros s Hn Ps; rewrite strip_dots_eq; destruct s as [|a [|b r]]; auto.
  - cbn in Hn. lia.
  - destruct (Ascii.eqb_spec a "."%char) as [->|]; auto. destruct (Ascii.eqb_spec b "/"%char) as [->|]; auto. cbn [andb].
    apply IH; [cbn in Hn; lia|auto].
Qed.
Lemma strip_begins s : ~ begins $"./" (strip_dots s).
Proof.
  remember (length s) as n eqn:En. assert (Hn : (length s <= n)%nat) by lia. clear En. revert s Hn.
  induction n as [|n IH]; intros s Hn; rewrite strip_dots_eq; destruct s as [|a [|b r]].
  - intros [x E]; discriminate.
  - intros [x E]; discriminate.
  - cbn in Hn; lia.
  - intros [x E]; discriminate.
  - intros [x E]; discriminate.
  - destruct (Ascii.eqb_spec a "."%char) as [->|Na].
    + destruct (Ascii.eqb_spec b "/"%char) as [->|Nb]; cbn [andb].
      * apply IH. cbn in Hn. lia.
      * intros [x E]. injection E as Eb _. congruence.
    + cbn [andb]. intros [x E]. injection E as Ea _. congruence.
Qed.
Lemma strip_suffix s : exists l, s = l ++ strip_dots s.
Proof.
  apply (strip_ind (fun t => exists l, s = l ++ t)); [|exists []; auto].
  intros r [l ->]. exists (l ++ $"./"). rewrite <- app_assoc. reflexivity.
Qed.
Lemma descends_contained l : descends 0 l -> contained_l l.
Proof.
  destruct l as [|c r]; [auto|]. intros H. unfold contained_l. destruct (str_dec c []) as [->|].
  - cbn [descends] in H. destruct H as [->|[[H _]|[[H _]|[H _]]]]; try congruence; try discriminate. exact I.
  - destruct (str_dec c $"..") as [->|]; auto. cbn [descends] in H. destruct H as [->|[[H _]|[(_ & H & _)|(_ & _ & H & _)]]]; try congruence; try discriminate; [exact I|lia].
Qed.
Definition good (D : bool * nat * list str) (s : str) : Prop := contained s /\ denotes s = D.
Lemma strip_good D s : good D s -> good D (strip_dots s).
Proof.
  apply (strip_ind (good D)). intros r [C W]. unfold good.
  assert (E : components ("."%char :: "/"%char :: r) = $"." :: components r) by reflexivity.
  assert (De : descends 0 (components r)).
  { unfold contained in C. rewrite E in C. destruct (str_dec $"." []); [discriminate|]. destruct (str_dec $"." $".."); [discriminate|].
    cbn [descends] in C. pose proof (components_ne r). destruct C as [H0|[[_ H0]|[[H0 _]|(_ & H0 & _)]]]; try congruence; try discriminate. }
  split; [apply descends_contained; auto|]. rewrite <- W. apply denotes_walk; [|rewrite E; reflexivity].
  cbn [absolute Ascii.eqb]. destruct r as [|c r]; [reflexivity|]. cbn [absolute]. destruct (Ascii.eqb_spec c "/"%char) as [->|]; [|reflexivity].
  exfalso. cbn [components] in De. cbn [Ascii.eqb Bool.eqb] in De. pose proof (components_ne r).
  cbn [descends] in De. destruct De as [H0|[[H0 _]|[[H0 _]|(H0 & _)]]]; try congruence; discriminate.
Qed.

(* the single dot loop *)
Lemma sd_ind (P : str -> nat -> Prop) :
  (forall s p a b, (p <= length s)%nat -> find_from sd s p = Some (length a) -> s = a ++ sd ++ b -> P s p -> P (a ++ "/"%char :: b) (length a)) ->
  forall f s p r, (p <= length s)%nat -> P s p -> single_dots f s (find_from sd s p) = Some r ->
  exists p', P r p' /\ find_from sd r p' = None.
Proof.
  intros St. induction f as [|f IH]; intros s p r Hp HP H; destruct (sd_step s p Hp) as [[E N]|(a & b & Es & E & Sf)].
  - rewrite E in H. injection H as <-. eauto.
  - rewrite E in H. discriminate.
  - rewrite E in H. injection H as <-. eauto.
  - rewrite Sf in H. apply (IH (a ++ "/"%char :: b) (length a) r); auto; [rewrite app_length; lia|]. eapply St; eauto.
Qed.
Lemma sd_no f s r : single_dots f s (find_from sd s 0) = Some r -> no sd r.
Proof.
  intros H. apply (sd_ind (early sd)) in H; [|clear; intros s p a b Hp F Es E|lia|apply early_zero].
  - destruct H as (p & E & N). eapply early_none; eauto.
  - eapply (join_early sd a ("."%char :: "/"%char :: b)); [left; auto|]. change (a ++ "/"%char :: "."%char :: "/"%char :: b) with (a ++ sd ++ b).
    rewrite <- Es. eapply early_find; eauto. discriminate.
Qed.
Lemma sd_good D f s r : single_dots f s (find_from sd s 0) = Some r -> good D s -> good D r.
Proof.
  intros H G. apply (sd_ind (fun s _ => good D s)) in H; [|clear; intros s p a b Hp F -> [C W]|lia|auto].
  - destruct H as (p & E & N). auto.
  - unfold good, contained in *. rewrite components_sd in C. rewrite components_app.
    split; [apply (contained_dot (components a) (components b)); auto using components_ne|]. rewrite <- W. apply denotes_walk.
    + change (sd ++ b) with ("/"%char :: "."%char :: "/"%char :: b). apply absolute_app.
    + rewrite components_sd, components_app, !walk_app. destruct (walk 0 [] (components a)). reflexivity.
Qed.
Lemma sd_chars f s r : single_dots f s (find_from sd s 0) = Some r -> forall x, In x r -> In x s.
Proof.
  intros H. apply (sd_ind (fun s' _ => forall x, In x s' -> In x s)) in H; [|clear; intros s0 p a b Hp F -> Hs x|lia|auto].
  - destruct H as (p & E & N). auto.
  - intros Hx. apply Hs. change (sd ++ b) with (["/"%char; "."%char] ++ "/"%char :: b). rewrite !in_app_iff in *. tauto.
Qed.
Lemma sd_abs f s r : single_dots f s (find_from sd s 0) = Some r -> absolute r = absolute s.
Proof.
  intros H. apply (sd_ind (fun s' _ => absolute s' = absolute s)) in H; [|clear; intros s0 p a b Hp F -> Hs|lia|auto].
  - destruct H as (p & E & N). auto.
  - rewrite <- Hs. change (sd ++ b) with ("/"%char :: "."%char :: "/"%char :: b). apply absolute_app.
Qed.

(* the double dot loop *)
Lemma dd_ind (P : str -> nat -> Prop) :
  (forall s p d s' p', (p <= length s)%nat -> find_dd s p = Some d -> iteration s d s' p' -> P s p -> P s' p') ->
  forall f s p r, (p <= length s)%nat -> P s p -> double_dots f s (find_dd s p) = Some r ->
  exists p', P r p' /\ (find_dd r p' = None \/ exists i, may_shorten r i = false).
Proof.
  intros St. induction f as [|f IH]; intros s p r Hp HP H; destruct (loop_step s p Hp) as [[E N]|(s' & p' & E & Hp' & d & Ed & It)].
  - destruct (find_dd s p) eqn:F; [discriminate|]. injection H as <-. exists p. auto.
  - rewrite Ed in H. discriminate.
  - rewrite E in H. injection H as <-. exists p. auto.
  - rewrite E in H. apply (IH s' p' r); [assumption| |assumption]. apply (St s p d); assumption.
Qed.
Lemma dd_chars f s r : double_dots f s (find_dd s 0) = Some r -> forall x, In x r -> In x s.
Proof.
  intros H. apply (dd_ind (fun s' _ => forall x, In x s' -> In x s)) in H; [|clear; intros s0 p d s' p' Hp F It Hs x Hx|lia|auto].
  - destruct H as (p & E & N). auto.
  - apply Hs. destruct It as [a c w _ _|c w _ _|a b w E _].
    + change (dd ++ w) with ($"/.." ++ "/"%char :: w). rewrite in_app_iff in *. cbn [In] in *. rewrite !in_app_iff. cbn [In]. tauto.
    + change (dd ++ w) with ($"/." ++ "."%char :: "/"%char :: w). rewrite !in_app_iff in *. tauto.
    + rewrite in_app_iff in Hx. destruct Hx as [Hx|Hx].
      * rewrite E. rewrite in_app_iff. auto.
      * change (dd ++ w) with ($"/.." ++ "/"%char :: w). rewrite in_app_iff. auto.
Qed.
Lemma dd_abs f s r : double_dots f s (find_dd s 0) = Some r -> absolute r = absolute s.
Proof.
  intros H. apply (dd_ind (fun s' _ => absolute s' = absolute s)) in H; [|clear; intros s0 p d s' p' Hp F It Hs|lia|auto].
  - destruct H as (p & E & N). auto.
  - rewrite <- Hs. destruct It as [a c w _ _|c w Nc N|a b w E _].
    + apply absolute_app.
    + destruct c as [|x c]; [congruence|]. cbn [app absolute]. destruct (Ascii.eqb_spec x "/"%char) as [->|]; [|reflexivity]. exfalso. apply N. left; auto.
    + destruct a; [reflexivity|]. cbn in E. injection E as <- _. reflexivity.
Qed.
Definition dinv (D : bool * nat * list str) (s : str) (p : nat) : Prop := early dd s p /\ no sd s /\ good D s.
Lemma dinv_step D s p d s' p' : (p <= length s)%nat -> find_dd s p = Some d -> iteration s d s' p' -> dinv D s p -> dinv D s' p'.
Proof.
  intros Hp F It (E & N & C & W). assert (Ed : early dd s d) by (eapply early_find; eauto; discriminate). clear F E Hp.
  destruct It as [a c w Nc _|c w Ne Nc|a b w E _].
  - assert (N1 : c <> $".").
    { intros ->. apply N. exists a, ($"../" ++ w). reflexivity. }
    assert (N2 : c <> $"..").
    { intros ->. specialize (Ed a ($"../" ++ w) eq_refl). cbn in Ed. lia. }
    unfold contained in C. pose proof W as W'. rewrite split_at, components_dd, components_app, (components_single c) in C by auto.
    rewrite <- app_assoc in C. cbn [app] in C.
    apply (contained_cut (components a) (components w) c) in C; auto using components_ne. destruct C as [N3 C].
    split; [|split; [|split]].
    + eapply join_early; [right; auto|]. intros x y Q. apply Ed in Q. lia.
    + eapply (join_no sd a _ w (a ++ "/"%char :: c ++ $"/..")); [left; auto|exact N|].
      replace ((a ++ "/"%char :: c ++ $"/..") ++ "/"%char :: w) with (a ++ "/"%char :: c ++ dd ++ w); [exact N|].
      rewrite <- !app_assoc. cbn [app]. rewrite <- !app_assoc. reflexivity.
    + unfold contained. rewrite components_app. exact C.
    + rewrite <- W. apply denotes_walk; [apply absolute_app|].
      rewrite split_at, components_dd, !components_app, (components_single c), <- app_assoc, !walk_app by auto.
      destruct (walk 0 [] (components a)) as [u n]. cbn [app walk].
      destruct (str_dec c []); [congruence|]. destruct (str_dec c $"."); [congruence|]. destruct (str_dec c $".."); [congruence|].
      destruct (str_dec $".." []); [discriminate|]. destruct (str_dec $".." $"."); [discriminate|]. destruct (str_dec $".." $".."); [|congruence]. reflexivity.
  - unfold contained in C. pose proof W as W'. rewrite components_dd, (components_single c) in C by auto. cbn [app] in C.
    apply (contained_first (components w) c) in C; auto using components_ne. destruct C as (C & N1 & N2).
    split; [apply early_zero|]. split; [|split].
    + apply (join_no sd ["."%char] [] w (c ++ $"/..")); [left; auto| |].
      * intros (x & y & Q). apply (f_equal (@length _)) in Q. rewrite !app_length in Q. cbn in Q. lia.
      * replace ((c ++ $"/..") ++ "/"%char :: w) with (c ++ dd ++ w); [exact N|]. rewrite <- app_assoc. reflexivity.
    + exact C.
    + rewrite <- W. apply denotes_walk.
      * destruct c as [|x c]; [congruence|]. cbn [app absolute]. destruct (Ascii.eqb_spec x "/"%char) as [->|]; [exfalso; apply Nc; left; auto|reflexivity].
      * rewrite components_dd, (components_single c) by auto. change (components ("."%char :: "/"%char :: w)) with ($"." :: components w). cbn [app walk].
        destruct (str_dec c []); [congruence|]. destruct (str_dec c $"."); [congruence|]. destruct (str_dec c $".."); [congruence|]. reflexivity.
  - exfalso. unfold contained in C. change (dd ++ w) with ([] ++ dd ++ w) in C. rewrite components_dd in C.
    exact (contained_root (components w) (components_ne w) C).
Qed.
Lemma dd_good D f s r : double_dots f s (find_dd s 0) = Some r -> no sd s -> good D s ->
  good D r /\ no sd r /\ (no dd r \/ exists i, may_shorten r i = false).
Proof.
  intros H N G. apply (dd_ind (dinv D)) in H; [|apply dinv_step|lia|split; [apply early_zero|auto]].
  destruct H as (p & (E & N' & G') & X). split; auto. split; auto. destruct X as [X|X]; auto. left. eapply early_none; eauto.
Qed.
Lemma shorten_colon s i : may_shorten s i = false -> In ":"%char s.
Proof.
  unfold may_shorten. destruct (_ && _); [|discriminate]. destruct (Ascii.eqb_spec (at_ s (i - 1)) ":"%char) as [E|]; [|discriminate]. intros _.
  rewrite <- E. unfold at_. apply nth_In. destruct (Nat.lt_ge_cases (i - 1) (length s)); auto. unfold at_ in E. rewrite nth_overflow in E by auto. discriminate.
Qed.

(* normalizePath *)
Lemma exchange_spec s : exchangeSeparators s = with_slashes s. Proof. reflexivity. Qed.
Lemma exchange_chars s : ~ In "\"%char (exchangeSeparators s).
Proof. unfold exchangeSeparators. intros H. apply in_map_iff in H. destruct H as (x & E & _). destruct (Ascii.eqb_spec x "\"%char); congruence. Qed.
Lemma exchange_colon s : ~ In ":"%char s -> ~ In ":"%char (exchangeSeparators s).
Proof.
  unfold exchangeSeparators. intros N H. apply in_map_iff in H. destruct H as (x & E & Hin). destruct (Ascii.eqb_spec x "\"%char); [discriminate|congruence].
Qed.
Lemma exchange_id s : ~ In "\"%char s -> exchangeSeparators s = s.
Proof.
  unfold exchangeSeparators. induction s as [|x s IH]; intros N; [reflexivity|]. cbn [map]. rewrite IH by (intros H; apply N; right; auto).
  destruct (Ascii.eqb_spec x "\"%char) as [->|]; [exfalso; apply N; left|]; auto.
Qed.
Lemma norm_cases f s r : normalizePath f s = Some r -> s = [] /\ r = [] \/ exists s2 s3,
  single_dots f (strip_dots (with_slashes s)) (find_from sd (strip_dots (with_slashes s)) 0) = Some s2 /\
  double_dots f s2 (find_dd s2 0) = Some s3 /\ r = strip_dots s3.
Proof.
  unfold normalizePath. destruct s as [|x s]; [intros [= <-]; auto|]. fold sd. fold dd. set (s1 := strip_dots _). 
  destruct (single_dots f s1 (find_from sd s1 0)) as [s2|] eqn:E1; [|discriminate]. fold (find_dd s2 0).
  destruct (double_dots f s2 (find_dd s2 0)) as [s3|] eqn:E2; [|discriminate]. intros [= <-]. right. exists s2, s3. auto.
Qed.
Lemma norm_chars f s r : normalizePath f s = Some r -> forall x, In x r -> In x (with_slashes s).
Proof.
  intros H x Hx. apply norm_cases in H. destruct H as [[_ ->]|(s2 & s3 & E1 & E2 & ->)]; [destruct Hx|].
  destruct (strip_suffix s3) as [l1 Q1]. assert (Hx3 : In x s3) by (rewrite Q1; apply in_or_app; auto).
  apply (dd_chars _ _ _ E2) in Hx3. apply (sd_chars _ _ _ E1) in Hx3. destruct (strip_suffix (with_slashes s)) as [l Q].
  rewrite Q. apply in_or_app. auto.
Qed.
Lemma suffix_no D l s : no D (l ++ s) -> no D s.
Proof. intros N (a & b & ->). apply N. exists (l ++ a), b. rewrite <- app_assoc. auto. Qed.
Lemma norm_good f s r : normalizePath f s = Some r -> contained (with_slashes s) ->
  contained r /\ denotes r = denotes (with_slashes s) /\ (~ In ":"%char s -> normal r).
Proof.
  intros H C. pose proof H as H0. apply norm_cases in H. destruct H as [[-> ->]|(s2 & s3 & E1 & E2 & ->)].
  - split; auto. split; auto. intros _. repeat split; try (intros (a & b & E); apply (f_equal (@length _)) in E; rewrite !app_length in E; cbn in E; lia); auto.
    intros [b E]. discriminate.
  - set (D := denotes (with_slashes s)). assert (G1 : good D (strip_dots (with_slashes s))) by (apply strip_good; split; auto).
    pose proof (sd_good D _ _ _ E1 G1) as G2. pose proof (sd_no _ _ _ E1) as N2.
    destruct (dd_good D _ _ _ E2 N2 G2) as (G3 & N3 & X). destruct (strip_good D s3 G3) as [C4 D4]. split; auto. split; auto.
    intros NC. destruct (strip_suffix s3) as [l Q]. assert (X' : no dd s3).
    { destruct X as [X|[i X]]; auto. exfalso. apply shorten_colon in X. apply (dd_chars _ _ _ E2) in X. apply (sd_chars _ _ _ E1) in X.
      apply (exchange_colon s NC). rewrite exchange_spec. destruct (strip_suffix (with_slashes s)) as [l0 Q0]. rewrite Q0. apply in_or_app. auto. }
    split; [apply strip_begins|]. split; [|split].
    + apply (suffix_no sd l). rewrite <- Q. auto.
    + apply (suffix_no dd l). rewrite <- Q. auto.
    + intros Hb. apply (norm_chars _ _ _ H0) in Hb. apply (exchange_chars s Hb).
Qed.
Lemma find_no D s : no D s -> find_from D s 0 = None.
Proof. intros N. unfold find_from. cbn [skipn]. rewrite find_none_conv; auto. Qed.
Lemma strip_id s : ~ begins $"./" s -> strip_dots s = s.
Proof.
  intros N. rewrite strip_dots_eq. destruct s as [|a [|b r]]; auto. destruct (Ascii.eqb_spec a "."%char) as [->|]; auto.
  destruct (Ascii.eqb_spec b "/"%char) as [->|]; auto. exfalso. apply N. exists r. reflexivity.
Qed.
Lemma norm_id f r : normal r -> normalizePath f r = Some r.
Proof.
  intros (N1 & N2 & N3 & N4). unfold normalizePath. destruct r as [|x r]; auto. set (s := x :: r) in *.
  rewrite exchange_id by auto. rewrite strip_id by auto. rewrite (find_no $"/./" s N2).
  assert (E : forall f, single_dots f s None = Some s) by (destruct f0; reflexivity). rewrite E.
  rewrite (find_no $"/../" s N3). assert (E' : forall f, double_dots f s None = Some s) by (destruct f0; reflexivity). rewrite E'.
  rewrite strip_id by auto. auto.
Qed.
Lemma absolute_strip s : absolute s = true -> strip_dots s = s.
Proof.
  intros A. apply strip_id. intros [b ->]. discriminate.
Qed.
Lemma norm_abs f s r : normalizePath f s = Some r -> absolute (with_slashes s) = true -> absolute r = true.
Proof.
  intros H A. apply norm_cases in H. destruct H as [[-> ->]|(s2 & s3 & E1 & E2 & ->)]; [discriminate|].
  rewrite absolute_strip in E1 by auto. apply sd_abs in E1. apply dd_abs in E2. rewrite absolute_strip; congruence.
Qed.

(* environment *)
Definition var : str := $"${".
Lemma find_char c s p i : find_from [c] s p = Some i -> (p <= length s)%nat -> exists v b, s = firstn p s ++ v ++ c :: b /\ i = (p + length v)%nat /\ ~ In c v.
Proof.
  unfold find_from. intros H Hp. destruct (str_find [c] (skipn p s)) as [n|] eqn:E; [|discriminate]. injection H as <-.
  apply str_find_some in E. destruct E as (b & E1 & E2 & E3). exists (firstn n (skipn p s)), b. split; [|split].
  - cbn [app] in E1. rewrite <- E1. symmetry. apply firstn_skipn.
  - lia.
  - intros Hin. apply in_split in Hin. destruct Hin as (l1 & l2 & Q). rewrite Q in E1. rewrite <- app_assoc in E1. cbn [app] in E1.
    apply E3 in E1. apply (f_equal (@length _)) in Q. rewrite app_length in Q. cbn in Q. lia.
Qed.
Lemma env_step env s : find_from var s 0 = None \/ (find_from var s 0 <> None /\ forall f, env_loop (S f) env s (find_from var s 0) = Some None) \/
  exists a v b, s = a ++ var ++ v ++ "}"%char :: b /\ ~ In "}"%char v /\ find_from var s 0 <> None /\
    let s' := a ++ getEnvironment env v ++ b in
    forall f, env_loop (S f) env s (find_from var s 0) = env_loop f env s' (find_from var s' 0).
Proof.
  destruct (find_from var s 0) as [d|] eqn:E; [|auto]. right. apply find_some in E; [|lia]. destruct E as (_ & a & t & Es & Hd & _).
  assert (Hl : (d + 2 <= length s)%nat) by (rewrite Es, app_length, <- Hd; cbn; lia).
  destruct (find_from $"}" s (d + 2)) as [e|] eqn:Ee.
  - right. pose proof Ee as Ee'. apply (find_char "}"%char) in Ee; auto. destruct Ee as (v & b & Es2 & Hev & Nv).
    assert (F2 : firstn (d + 2) s = a ++ var).
    { rewrite Es, app_assoc. replace (d + 2)%nat with (length (a ++ var)) by (rewrite app_length; cbn; lia). apply firstn_exact. }
    rewrite F2, <- app_assoc in Es2. exists a, v, b. split; auto. split; auto. split; [discriminate|]. cbv zeta. intros f. cbn [env_loop]. rewrite Ee'.
    assert (S1 : firstn (d + 2 - 2) s = a) by (replace (d + 2 - 2)%nat with (length a) by lia; rewrite Es, firstn_exact; auto).
    assert (S2 : substr s (d + 2) (e - (d + 2)) = v).
    { unfold substr. replace (skipn (d + 2) s) with (v ++ "}"%char :: b).
      - replace (e - (d + 2))%nat with (length v) by lia. apply firstn_exact.
      - rewrite Es2, app_assoc. symmetry. apply skipn_app_exact. rewrite app_length. cbn. lia. }
    assert (S3 : skipn (e + 1) s = b).
    { rewrite Es2. replace (a ++ var ++ v ++ "}"%char :: b) with ((a ++ var ++ v ++ ["}"%char]) ++ b) by (rewrite <- !app_assoc; auto).
      apply skipn_app_exact. rewrite !app_length. cbn. lia. }
    rewrite S1, S2, S3. reflexivity.
  - left. split; [discriminate|]. intros f. cbn [env_loop]. rewrite Ee. reflexivity.
Qed.
Lemma env_result env f : forall s r, env_loop f env s (find_from var s 0) = Some (Some r) -> no var r.
Proof.
  induction f as [|f IH]; intros s r H; destruct (env_step env s) as [E|[(E & Sf)|(a & v & b & Es & Nv & E & Sf)]].
  - rewrite E in H. injection H as <-. eapply early_none; [apply early_zero|exact E].
  - destruct (find_from var s 0); [discriminate|congruence].
  - destruct (find_from var s 0); [discriminate|congruence].
  - rewrite E in H. injection H as <-. eapply early_none; [apply early_zero|exact E].
  - rewrite Sf in H. discriminate.
  - cbv zeta in Sf. rewrite Sf in H. eapply IH; eauto.
Qed.
Definition marker (c : ascii) : Prop := c = "$"%char \/ c = "{"%char \/ c = "}"%char.
Lemma env_terminates env c : marker c -> (forall v x, env v = Some x -> ~ In c x) ->
  forall n s, (count_occ ascii_dec s c <= n)%nat -> env_loop (S n) env s (find_from var s 0) <> None.
Proof.
  intros M Hc. 
  assert (Step : forall a v b, (count_occ ascii_dec (a ++ getEnvironment env v ++ b) c < count_occ ascii_dec (a ++ var ++ v ++ "}"%char :: b) c)%nat).
  { intros a v b. assert (L : (count_occ ascii_dec (getEnvironment env v) c <= count_occ ascii_dec v c)%nat).
    { unfold getEnvironment. destruct (env v) as [x|] eqn:E; auto. apply Hc in E. apply (count_occ_not_In ascii_dec) in E. lia. }
    change ("}"%char :: b) with (["}"%char] ++ b). rewrite !count_occ_app.
    assert (0 < count_occ ascii_dec var c + count_occ ascii_dec ["}"%char] c)%nat by (destruct M as [-> |[-> | ->]]; cbn; lia). lia. }
  induction n as [|n IH]; intros s Hn; destruct (env_step env s) as [E|[(E & Sf)|(a & v & b & Es & Nv & E & Sf)]];
    try (rewrite E; discriminate); try (rewrite Sf; discriminate).
  - specialize (Step a v b). rewrite <- Es in Step. lia.
  - cbv zeta in Sf. rewrite Sf. apply IH. specialize (Step a v b). rewrite <- Es in Step. lia.
Qed.
Lemma env_mono env f : forall s ds r, env_loop f env s ds = Some r -> forall f', (f <= f')%nat -> env_loop f' env s ds = Some r.
Proof.
  induction f as [|f IH]; intros s ds r H f' Hf.
  - destruct ds; [discriminate|]. destruct f'; exact H.
  - destruct f' as [|f']; [lia|]. destruct ds as [d|]; [|exact H]. cbn [env_loop] in *.
    destruct (find_from $"}" s (d + 2)); auto. eapply IH; eauto. lia.
Qed.
Lemma env_expand env l : Forall (piece_ok env) l -> forall done n, ~ In "$"%char done -> (length l <= n)%nat ->
  env_loop n env (done ++ write l) (find_from var (done ++ write l) 0) = Some (Some (done ++ expand env l)).
Proof.
  induction 1 as [|p l Hp Hl IH]; intros done n Nd Hn.
  - cbn [write flat_map expand]. rewrite app_nil_r. rewrite find_no; [destruct n; reflexivity|].
    intros (a & b & E). apply Nd. rewrite E. apply in_or_app. right. left. auto.
  - destruct p as [s|v]; cbn [write flat_map expand]; fold (write l); fold (expand env l); cbn [length] in Hn.
    + rewrite !app_assoc. apply IH; [|lia]. intros H. apply in_app_or in H. destruct H; auto.
    + destruct Hp as [Nb Nv]. destruct n as [|n]; [lia|]. set (s := done ++ ($"${" ++ v ++ $"}") ++ write l).
      assert (Es : s = done ++ var ++ v ++ "}"%char :: write l) by (unfold s; rewrite <- !app_assoc; reflexivity).
      assert (F1 : find_from var s 0 = Some (length done)).
      { unfold find_from. cbn [skipn]. rewrite Es, find_cut; [reflexivity|discriminate|]. intros a b E.
        assert (La : length a = length done).
        { destruct (Nat.lt_trichotomy (length a) (length done)) as [H|[H|H]]; auto; exfalso.
          - apply Nd. assert (Hnth : nth (length a) (done ++ var) "000"%char = "$"%char).
            { rewrite E, app_nth2 by lia. rewrite Nat.sub_diag. reflexivity. }
            rewrite app_nth1 in Hnth by lia. rewrite <- Hnth. apply nth_In. lia.
          - apply (f_equal (@length _)) in E. rewrite !app_length in E. cbn in E. lia. }
        apply (f_equal (@length _)) in E. rewrite !app_length in E. destruct b; [auto|cbn in E; lia]. }
      assert (F2 : find_from $"}" s (length done + 2) = Some (length done + 2 + length v)%nat).
      { unfold find_from. replace (skipn (length done + 2) s) with (v ++ $"}" ++ write l).
        - rewrite find_cut; [reflexivity|discriminate|]. apply single_ends_at. auto.
        - rewrite Es, (app_assoc done var). symmetry. apply skipn_app_exact. rewrite app_length. cbn. lia. }
      rewrite F1. cbn [env_loop]. rewrite F2.
      assert (S1 : firstn (length done + 2 - 2) s = done) by (replace (length done + 2 - 2)%nat with (length done) by lia; rewrite Es, firstn_exact; auto).
      assert (S2 : substr s (length done + 2) (length done + 2 + length v - (length done + 2)) = v).
      { unfold substr. replace (skipn (length done + 2) s) with (v ++ "}"%char :: write l).
        - replace (length done + 2 + length v - (length done + 2))%nat with (length v) by lia. apply firstn_exact.
        - rewrite Es, (app_assoc done var). symmetry. apply skipn_app_exact. rewrite app_length. cbn. lia. }
      assert (S3 : skipn (length done + 2 + length v + 1) s = write l).
      { rewrite Es. replace (done ++ var ++ v ++ "}"%char :: write l) with ((done ++ var ++ v ++ ["}"%char]) ++ write l) by (rewrite <- !app_assoc; auto).
        apply skipn_app_exact. rewrite !app_length. cbn. lia. }
      rewrite S1, S2, S3. fold var. rewrite !app_assoc. unfold getEnvironment. apply IH; [|lia].
      intros H. apply in_app_or in H. destruct H; auto.
Qed.
Lemma replace_expand env l n : Forall (piece_ok env) l -> (length l <= n)%nat -> replaceEnvironment n env (write l) = Some (expand env l).
Proof.
  intros H Hn. pose proof (env_expand env l H [] n (fun x => x) Hn) as E. cbn [app] in E. unfold replaceEnvironment.
  destruct (write l) as [|x t] eqn:Ew.
  - cbn in E. destruct n; injection E as E; rewrite <- E; reflexivity.
  - fold var. rewrite E. reflexivity.
Qed.

(* init *)
Lemma init_terminates w s : exists f F, init f w s = Some F.
Proof.
  unfold init. destruct (normalize_terminates (match w with Some p => p | None => [] end)) as (f1 & pwd & E1).
  assert (exists f2 a, absolutePath f2 pwd (exchangeSeparators s) = Some a) as (f2 & a & E2).
  { unfold absolutePath. destruct (isRelativePath _); apply normalize_terminates. }
  destruct (normalize_terminates a) as (f3 & file & E3). exists (f1 + f2 + f3)%nat.
  rewrite (normalize_mono _ _ _ E1) by lia. assert (E2' : absolutePath (f1 + f2 + f3) pwd (exchangeSeparators s) = Some a).
  { unfold absolutePath in *. destruct (isRelativePath _); eapply normalize_mono; eauto; lia. }
  rewrite E2'. rewrite (normalize_mono _ _ _ E3) by lia. eauto.
Qed.

(* ---- a directory right behind a colon is not taken back ---- *)
Lemma last_char_at c a b : ~ In c b -> last_char c (a ++ c :: b) = Some (length a).
Proof.
  intros N. induction a as [|x a IH]; cbn [last_char app length].
  - apply last_char_none in N. rewrite N, Ascii.eqb_refl. reflexivity.
  - rewrite IH. reflexivity.
Qed.
Lemma colon_stays f a x c b : let s := (a ++ $":/" ++ x :: c) ++ $"/../" ++ b in
  ~ begins $"./" s -> ~ occurs $"/./" s -> ~ In "\"%char s -> ends_at (a ++ $":/" ++ x :: c) $"/../" ->
  ~ In "/"%char (x :: c) -> x <> "."%char -> normalizePath (S f) s = Some s.
Proof.
  intros s N1 N2 N3 EA Ns Nx. set (u := a ++ $":/" ++ x :: c) in *. assert (Es : s = u ++ $"/../" ++ b) by reflexivity. clearbody s.
  assert (Us : u = (a ++ $":") ++ "/"%char :: x :: c) by (unfold u; rewrite <- app_assoc; reflexivity).
  assert (NE : s <> []) by (rewrite Es, Us; destruct a; discriminate).
  unfold normalizePath. destruct s as [|y r]; [congruence|]. set (s := y :: r) in *. clear NE.
  rewrite exchange_id by auto. rewrite strip_id by auto. rewrite (find_no $"/./" s N2).
  change (single_dots (S f) s None) with (Some s). cbv iota beta.
  assert (F : find_from $"/../" s 0 = Some (length u)).
  { unfold find_from. cbn [skipn]. rewrite Es. rewrite find_cut; [reflexivity|discriminate|exact EA]. }
  rewrite F. cbn [double_dots].
  assert (R : rfind "/"%char s (pred_pos (length u)) = Some (length (a ++ $":"))).
  { rewrite Es. change $"/../" with dd. rewrite rfind_pred by (rewrite Us; destruct a; discriminate). rewrite Us. apply last_char_at. auto. }
  rewrite R.
  assert (A1 : at_ s (length (a ++ $":") + 1) = x).
  { unfold at_. rewrite Es, Us, <- app_assoc. rewrite app_nth2 by lia. replace (length (a ++ $":") + 1 - length (a ++ $":"))%nat with 1%nat by lia. reflexivity. }
  assert (A2 : at_ s (length (a ++ $":") - 1) = ":"%char).
  { unfold at_. rewrite Es, Us, <- app_assoc. rewrite app_length. cbn [length list_ascii_of_string]. rewrite <- app_assoc, app_nth2 by lia.
    replace (length a + 1 - 1 - length a)%nat with 0%nat by lia. reflexivity. }
  unfold may_shorten. rewrite A1, A2. destruct (Ascii.eqb_spec x "/"%char) as [->|_]; [exfalso; apply Ns; left; reflexivity|].
  destruct (Ascii.eqb_spec x "."%char) as [|_]; [congruence|]. rewrite app_length. cbn [length list_ascii_of_string].
  replace (1 <=? length a + 1)%nat with true by (symmetry; apply Nat.leb_le; lia). cbn [negb andb].
  change (Ascii.eqb ":" ":") with true. cbn [negb]. rewrite strip_id by auto. reflexivity.
Qed.
