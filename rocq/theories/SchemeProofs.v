(* Proofs about SchemeModel.  Internal lemmas; the reader's theorems are in SchemeProps. *)
From Verif Require Import Base Text SchemeModel SchemeSpec.
From Coq Require Import List Lia Bool.
Import ListNotations.

(* what follows does not continue a run of f *)
Definition stops (f : ascii -> bool) (r : str) : Prop := match r with [] => True | c :: _ => f c = false end.

Lemma chr_complete f st c r : f c = true -> chr f st (c :: r) = (st, Some ([c], r)).
Proof. intros E. cbn. rewrite E. reflexivity. Qed.
Lemma chr_no f st c r : f c = false -> chr f st (c :: r) = (st, None).
Proof. intros E. cbn. rewrite E. reflexivity. Qed.
Lemma all_cons f c w : all f (c :: w) -> f c = true /\ all f w.
Proof. intros H. inversion H; auto. Qed.
Lemma star_chr_complete f st w r : forall fuel, all f w -> stops f r ->
  (length (w ++ r) <= fuel)%nat -> star_ fuel (chr f) st (w ++ r) = (st, Some (w, r)).
Proof.
  induction w as [|c w IH]; intros fuel Ha Hs HL.
  - cbn [app]. destruct fuel as [|fuel]; [reflexivity|]. cbn [star_].
    destruct r as [|c r]; cbn [chr]; [reflexivity|]. cbn in Hs. unfold chr. rewrite Hs. reflexivity.
  - destruct fuel as [|fuel]; [cbn in HL; lia|]. destruct (all_cons _ _ _ Ha) as [H1 Ha']. cbn [app star_].
    rewrite chr_complete by auto. rewrite IH; auto; cbn in *; lia.
Qed.

Lemma plus_chr_complete f st w r : word f w -> stops f r -> plus (chr f) st (w ++ r) = (st, Some (w, r)).
Proof.
  intros [Hn Ha] Hs. destruct w as [|c w]; [congruence|]. destruct (all_cons _ _ _ Ha) as [H1 Ha'].
  unfold plus, cat. cbn [app]. rewrite chr_complete by auto. unfold star.
  rewrite star_chr_complete; auto.
Qed.

Lemma star_chr_sound f st : forall fuel s, exists m r, star_ fuel (chr f) st s = (st, Some (m, r)) /\ s = m ++ r /\ all f m.
Proof.
  induction fuel as [|fuel IH]; intros s; cbn [star_].
  - exists [], s. repeat split. constructor.
  - destruct s as [|c s].
    + exists [], []. repeat split. constructor.
    + destruct (f c) eqn:E; [rewrite chr_complete by auto|rewrite chr_no by auto].
      * destruct (IH s) as (m & r & E1 & E2 & E3). rewrite E1. exists (c :: m), r. cbn. subst. repeat split. constructor; auto.
      * exists [], (c :: s). repeat split. constructor.
Qed.

(* a parser that does not change the state and matches only texts of L *)
Definition psound (p : parser) (L : str -> Prop) : Prop := forall st s, exists o, p st s = (st, o) /\
  match o with Some (m, r) => s = m ++ r /\ L m | None => True end.

Lemma plus_chr_sound f : psound (plus (chr f)) (word f).
Proof.
  intros st s. unfold plus, cat. destruct s as [|c s].
  - exists None. auto.
  - destruct (f c) eqn:E; [rewrite chr_complete by auto|rewrite chr_no by auto; exists None; auto].
    destruct (star_chr_sound f st (length s) s) as (m & r & E1 & E2 & E3). unfold star. rewrite E1.
    exists (Some ([c] ++ m, r)). cbn. subst. repeat split; [discriminate|constructor; auto].
Qed.

Lemma chr_sound f : psound (chr f) (fun m => exists c, f c = true /\ m = [c]).
Proof. intros st [|c s]; cbn; [exists None; auto|]. destruct (f c) eqn:E; [|exists None; auto]. exists (Some ([c], s)). eauto. Qed.
Lemma is_char_refl c : is_char c c = true. Proof. apply Ascii.eqb_refl. Qed.
Lemma is_char_eq x c : is_char x c = true -> c = x. Proof. apply Ascii.eqb_eq. Qed.

Lemma cat_sound p q L M : psound p L -> psound q M -> psound (cat p q) (fun m => exists a b, L a /\ M b /\ m = a ++ b).
Proof.
  intros P Q st s. unfold cat. destruct (P st s) as ([[m r]|] & E & H); rewrite E; [|exists None; auto].
  destruct H as [-> H]. destruct (Q st r) as ([[m2 r2]|] & E2 & H2); rewrite E2; [|exists None; auto].
  destruct H2 as [-> H2]. exists (Some (m ++ m2, r2)). split; auto. rewrite <- app_assoc. eauto 6.
Qed.
Lemma opt_sound p L : psound p L -> psound (opt p) (fun m => m = [] \/ L m).
Proof.
  intros P st s. unfold opt. destruct (P st s) as ([[m r]|] & E & H); rewrite E.
  - exists (Some (m, r)). intuition.
  - exists (Some ([], s)). intuition.
Qed.
Lemma alt_sound p q L M : psound p L -> psound q M -> psound (alt p q) (fun m => L m \/ M m).
Proof.
  intros P Q st s. unfold alt. destruct (P st s) as ([[m r]|] & E & H); rewrite E.
  - exists (Some (m, r)). intuition.
  - destruct (Q st s) as ([[m r]|] & E2 & H2); rewrite E2.
    + exists (Some (m, r)). intuition.
    + exists None; auto.
Qed.
Inductive many (L : str -> Prop) : str -> Prop :=
| many_nil : many L []
| many_cons : forall a b, L a -> many L b -> many L (a ++ b).
Lemma star_sound p L : psound p L -> psound (star p) (many L).
Proof.
  intros P st s. unfold star. generalize (length s) as fuel. intros fuel. revert s.
  assert (H : forall s, exists m r, star_ fuel p st s = (st, Some (m, r)) /\ s = m ++ r /\ many L m).
  { induction fuel as [|fuel IH]; intros s; cbn [star_].
    - exists [], s. repeat split. constructor.
    - destruct (P st s) as ([[m r]|] & E & H); rewrite E.
      + destruct H as [-> H]. destruct (IH r) as (m2 & r2 & E2 & -> & H2). rewrite E2. exists (m ++ m2), r2.
        rewrite <- app_assoc. repeat split. constructor; auto.
      + exists [], s. repeat split. constructor. }
  intros s. destruct (H s) as (m & r & E & E2 & E3). exists (Some (m, r)). auto.
Qed.
Lemma strp_sound t : psound (strp t) (fun m => m = t).
Proof.
  induction t as [|c t IH]; cbn [strp].
  - intros st s. exists (Some ([], s)). auto.
  - intros st s. destruct (cat_sound _ _ _ _ (chr_sound (is_char c)) IH st s) as (o & E & H). exists o. split; auto.
    destruct o as [[m r]|]; auto. destruct H as (-> & a & b & (c' & Hc & ->) & -> & ->). apply is_char_eq in Hc. subst. auto.
Qed.
Lemma strp_complete t st r : strp t st (t ++ r) = (st, Some (t, r)).
Proof. induction t as [|c t IH]; [reflexivity|]. cbn [strp app]. unfold cat. rewrite chr_complete by apply is_char_refl. rewrite IH. reflexivity. Qed.
Lemma psound_weaken p (L M : str -> Prop) : psound p L -> (forall m, L m -> M m) -> psound p M.
Proof. intros P H st s. destruct (P st s) as ([[m r]|] & E & K); [exists (Some (m, r))|exists None]; intuition. Qed.

(* anchor_word *)
Lemma anchor_word_sound : psound anchor_word anchor_text.
Proof.
  eapply psound_weaken.
  - apply cat_sound; [apply plus_chr_sound|apply opt_sound, cat_sound; [apply chr_sound|apply plus_chr_sound]].
  - intros m (a & b & Ha & [->|(c & d & (x & Hx & ->) & Hd & ->)] & ->).
    + left. rewrite app_nil_r. auto.
    + apply is_char_eq in Hx. subst. right. exists a, d. auto.
Qed.
Lemma anchor_word_complete st w r : anchor_text w -> stops is_alnum r -> (forall x, r <> "-"%char :: x) ->
  anchor_word st (w ++ r) = (st, Some (w, r)).
Proof.
  intros [H|(a & b & Ha & Hb & ->)] Hs Hd; unfold anchor_word.
  - unfold cat at 1. rewrite plus_chr_complete; auto. unfold opt, cat.
    destruct r as [|c r].
    + cbn [chr]. rewrite app_nil_r. reflexivity.
    + destruct (is_char "-" c) eqn:E; [apply is_char_eq in E; subst; exfalso; eapply Hd; reflexivity|].
      rewrite chr_no by auto. rewrite app_nil_r. reflexivity.
  - unfold cat at 1. rewrite <- app_assoc, plus_chr_complete; auto; [|reflexivity].
    unfold opt, cat. change (($"-" ++ b) ++ r) with ("-"%char :: (b ++ r)). rewrite chr_complete by reflexivity.
    rewrite plus_chr_complete by auto. reflexivity.
Qed.

(* scheme_p *)
Lemma plus_many w m : word is_alpha w -> many (fun m => exists a b, (exists c, is_char "+" c = true /\ a = [c]) /\ word is_alpha b /\ m = a ++ b) m ->
  plus_words (w ++ m).
Proof.
  intros Hw H. revert w Hw. induction H as [|a b (x & y & (c & Hc & ->) & Hy & ->) Hm IH]; intros w Hw.
  - rewrite app_nil_r. constructor. auto.
  - apply is_char_eq in Hc. subst. rewrite <- app_assoc. apply pw_more; auto.
Qed.
Lemma scheme_p_sound : psound scheme_p scheme_text.
Proof.
  eapply psound_weaken.
  - apply cat_sound; [apply cat_sound; [apply plus_chr_sound|apply star_sound, cat_sound; [apply chr_sound|apply plus_chr_sound]]|apply strp_sound].
  - intros m (a & b & (c & d & Hc & Hd & ->) & -> & ->). exists (c ++ d). split; auto. apply plus_many; auto.
Qed.
Definition plus_word : parser := cat (chr (is_char "+")) (plus (chr is_alpha)).
Lemma star_plus_complete v : plus_words v -> forall st r fuel, (length (v ++ r) < fuel)%nat ->
  star_ fuel plus_word st ($"+" ++ v ++ ":"%char :: r) = (st, Some ($"+" ++ v, ":"%char :: r)).
Proof.
  induction 1 as [w Hw|w v Hw Hv IH]; intros st r fuel HL; (destruct fuel as [|fuel]; [lia|]); cbn [star_].
  - unfold plus_word at 1, cat. cbn [app list_ascii_of_string]. rewrite chr_complete by reflexivity.
    rewrite plus_chr_complete by (auto; reflexivity).
    destruct fuel as [|fuel]; cbn [star_].
    + destruct Hw as [Hw _]. destruct w; [congruence|cbn in HL; lia].
    + cbn. rewrite app_nil_r. reflexivity.
  - unfold plus_word at 1, cat. cbn [app list_ascii_of_string]. rewrite chr_complete by reflexivity.
    replace ((w ++ "+"%char :: v) ++ ":"%char :: r) with (w ++ ($"+" ++ v ++ ":"%char :: r)) by (rewrite <- app_assoc; reflexivity).
    rewrite plus_chr_complete by (auto; reflexivity). rewrite IH; auto.
    repeat (rewrite app_length in * || cbn [length] in * ). cbn in HL. lia.
Qed.
Lemma scheme_p_complete st a r : scheme_text a -> scheme_p st (a ++ r) = (st, Some (a, r)).
Proof.
  intros (w & Hw & ->). unfold scheme_p. unfold cat at 1.
  assert (E : cat (plus (chr is_alpha)) (star plus_word) st (w ++ $"://" ++ r) = (st, Some (w, $"://" ++ r))).
  { unfold cat. destruct Hw as [w Hw|w v Hw Hv].
    - rewrite plus_chr_complete by (auto; reflexivity). unfold star. cbn. rewrite app_nil_r. reflexivity.
    - rewrite <- app_assoc. rewrite plus_chr_complete by (auto; reflexivity). unfold star. rewrite <- app_assoc.
      change ($"://" ++ r) with (":"%char :: ($"//" ++ r)). rewrite star_plus_complete; auto.
      repeat (rewrite app_length || cbn [length]). cbn. lia. }
  rewrite <- app_assoc. unfold plus_word in E. rewrite E. rewrite strp_complete. reflexivity.
Qed.

(* query_key *)
Definition key_item : parser := alt (chr is_alnum) (cat (chr (is_char "_")) (chr is_alnum)).
Lemma key_many m : many (fun m => (exists c, is_alnum c = true /\ m = [c]) \/
  (exists a b, (exists c, is_char "_" c = true /\ a = [c]) /\ (exists c, is_alnum c = true /\ b = [c]) /\ m = a ++ b)) m -> key_rest m.
Proof.
  induction 1 as [|a b [(c & Hc & ->)|(x & y & (c & Hc & ->) & (d & Hd & ->) & ->)] Hm IH].
  - constructor.
  - cbn. constructor; auto.
  - apply is_char_eq in Hc. subst. cbn. apply kr_under; auto.
Qed.
Lemma key_rest_run w m : all is_alnum w -> key_rest m -> key_rest (w ++ m).
Proof. induction w as [|c w IH]; intros Ha Hm; cbn; auto. destruct (all_cons _ _ _ Ha). constructor; auto. Qed.
Lemma query_key_sound : psound query_key key_text.
Proof.
  eapply psound_weaken.
  - apply cat_sound; [apply plus_chr_sound|apply star_sound, alt_sound; [apply chr_sound|apply cat_sound; apply chr_sound]].
  - intros m (a & b & (Hn & Ha) & Hb & ->). destruct a as [|c a]; [congruence|]. destruct (all_cons _ _ _ Ha).
    exists c, (a ++ b). repeat split; auto. apply key_rest_run; auto. apply key_many; auto.
Qed.
Lemma star_key_complete v : key_rest v -> forall st r fuel, (length (v ++ r) <= fuel)%nat ->
  stops is_alnum r -> stops (is_char "_") r -> star_ fuel key_item st (v ++ r) = (st, Some (v, r)).
Proof.
  induction 1 as [|c w Hc Hw IH|c w Hc Hw IH]; intros st r fuel HL H1 H2.
  - destruct fuel as [|fuel]; [reflexivity|]. cbn [app star_]. unfold key_item, alt, cat.
    destruct r as [|c r]; cbn [chr]; [reflexivity|]. cbn in H1, H2. unfold chr. rewrite H1, H2. reflexivity.
  - destruct fuel as [|fuel]; [cbn in HL; lia|]. cbn [app star_]. unfold key_item at 1, alt.
    rewrite chr_complete by auto. rewrite IH; auto. cbn in HL. lia.
  - destruct fuel as [|fuel]; [cbn in HL; lia|]. cbn [app star_]. unfold key_item at 1, alt, cat.
    rewrite (chr_no is_alnum) by reflexivity.
    rewrite chr_complete by reflexivity. rewrite chr_complete by auto. rewrite IH; auto. cbn in HL. lia.
Qed.
Lemma key_rest_split v : key_rest v -> exists a b, v = a ++ b /\ all is_alnum a /\ key_rest b /\ (b = [] \/ exists x, b = "_"%char :: x).
Proof.
  induction 1 as [|c w Hc Hw IH|c w Hc Hw IH].
  - exists [], []. repeat split; auto; constructor.
  - destruct IH as (a & b & -> & Ha & Hb & H). exists (c :: a), b. repeat split; auto. constructor; auto.
  - exists [], ("_"%char :: c :: w). repeat split; auto. { constructor. } { apply kr_under; auto. } right. eauto.
Qed.
Lemma query_key_complete st k r : key_text k -> query_key st (k ++ "="%char :: r) = (st, Some (k, "="%char :: r)).
Proof.
  intros (c & v & Hc & Hv & ->). destruct (key_rest_split v Hv) as (a & b & -> & Ha & Hb & H).
  unfold query_key, cat. rewrite app_comm_cons, <- app_assoc.
  fold key_item. rewrite plus_chr_complete.
  - unfold star. change (alt _ _) with key_item. rewrite star_key_complete; auto; reflexivity.
  - split; [discriminate|]. constructor; auto.
  - destruct H as [->|(x & ->)]; reflexivity.
Qed.

(* query_value *)
Lemma query_value_eq st s : query_value st s = plus (chr value_char) st s.
Proof.
  assert (E : forall f g, (forall c, f c = g c) -> forall st s, plus (chr f) st s = plus (chr g) st s).
  { intros f g H. assert (C : forall st s, chr f st s = chr g st s) by (intros ? [|c ?]; cbn; [reflexivity|rewrite H; reflexivity]).
    assert (T : forall fuel st s, star_ fuel (chr f) st s = star_ fuel (chr g) st s).
    { induction fuel as [|fuel IH]; intros st0 s0; cbn [star_]; [reflexivity|]. rewrite C.
      destruct (chr g st0 s0) as [st1 [[m r]|]]; [|reflexivity]. rewrite IH. reflexivity. }
    intros st0 s0. unfold plus, cat. rewrite C. destruct (chr g st0 s0) as [st1 [[m r]|]]; [|reflexivity].
    unfold star. rewrite T. reflexivity. }
  apply E. intros c. unfold value_char. destruct (is_char "?" c), (is_char "&" c), (is_space c); reflexivity.
Qed.

Definition setq (st : scheme) (l : list query) : scheme := mkS (scheme_type st) (scheme_name st) (specifier st) (anchor st) l.
Definition pair_text (q : query) : str := q_name q ++ $"=" ++ q_value q.
Fixpoint amp_text (l : list query) : str := match l with [] => [] | q :: r => $"&" ++ pair_text q ++ amp_text r end.
Lemma query_text_cons q l : query_text (q :: l) = pair_text q ++ amp_text l.
Proof.
  revert q. induction l as [|p l IH]; intros q.
  - cbn [amp_text]. rewrite app_nil_r. reflexivity.
  - change (query_text (q :: p :: l)) with (q_name q ++ $"=" ++ q_value q ++ $"&" ++ query_text (p :: l)).
    rewrite IH. cbn [amp_text]. unfold pair_text. rewrite <- !app_assoc. reflexivity.
Qed.
Lemma addq st k v : addValue (addName st k) v = setq st (queries st ++ [mkQ k v]).
Proof.
  unfold addValue, addName, setq. cbn [queries scheme_type scheme_name specifier anchor].
  destruct (queries st ++ [mkQ k []]) eqn:E; [destruct (queries st); discriminate|]. rewrite <- E.
  rewrite removelast_last, last_last. reflexivity.
Qed.

Lemma query_pair_sound st s : exists st' o, query_pair st s = (st', o) /\ (exists l, st' = setq st l) /\
  match o with
  | Some (m, r) => exists q, query_ok q /\ m = pair_text q /\ s = m ++ r /\ st' = setq st (queries st ++ [q])
  | None => True
  end.
Proof.
  unfold query_pair, cat at 1, cat at 1, act at 1.
  destruct (query_key_sound st s) as ([[k r1]|] & E1 & H1); rewrite E1.
  2: { exists st, None. split; [reflexivity|split; [exists (queries st); destruct st; reflexivity|auto]]. }
  destruct H1 as [-> Hk].
  destruct (chr_sound (is_char "=") (addName st k) r1) as ([[m2 r2]|] & E2 & H2); rewrite E2.
  2: { eexists _, None. split; [reflexivity|split; [eexists; reflexivity|auto]]. }
  destruct H2 as (-> & c & Hc & ->). apply is_char_eq in Hc. subst c.
  unfold act. rewrite query_value_eq.
  destruct (plus_chr_sound value_char (addName st k) r2) as ([[v r3]|] & E3 & H3); rewrite E3.
  2: { eexists _, None. split; [reflexivity|split; [eexists; reflexivity|auto]]. }
  destruct H3 as [-> Hv]. eexists _, (Some _). split; [reflexivity|].
  rewrite addq. split; [eexists; reflexivity|]. exists (mkQ k v). split; [split; auto|].
  unfold pair_text. cbn [q_name q_value]. repeat split; rewrite <- ?app_assoc; reflexivity.
Qed.
Lemma query_pair_complete st q r : query_ok q -> stops value_char r ->
  query_pair st (pair_text q ++ r) = (setq st (queries st ++ [q]), Some (pair_text q, r)).
Proof.
  intros [Hk Hv] Hs. destruct q as [k v]. cbn [q_name q_value] in *. unfold pair_text. cbn [q_name q_value].
  unfold query_pair, cat at 1, cat at 1, act at 1. rewrite <- !app_assoc.
  change ($"=" ++ v ++ r) with ("="%char :: (v ++ r)). rewrite query_key_complete by auto.
  rewrite chr_complete by reflexivity. unfold act. rewrite query_value_eq, plus_chr_complete by auto.
  rewrite addq. rewrite <- app_assoc. reflexivity.
Qed.

Definition amp_pair : parser := cat (chr (is_char "&")) query_pair.
Lemma setq_setq st a b : setq (setq st a) b = setq st b. Proof. reflexivity. Qed.
Lemma setq_id st : setq st (queries st) = st. Proof. destruct st; reflexivity. Qed.
Lemma amp_sound : forall fuel st s, (length s <= fuel)%nat -> exists st' m r, star_ fuel amp_pair st s = (st', Some (m, r)) /\
  s = m ++ r /\ (exists l, st' = setq st l) /\
  (r = [] -> exists qs, Forall query_ok qs /\ m = amp_text qs /\ st' = setq st (queries st ++ qs)).
Proof.
  assert (Z : forall st, exists qs, Forall query_ok qs /\ [] = amp_text qs /\ st = setq st (queries st ++ qs)).
  { intros st. exists []. rewrite app_nil_r, setq_id. repeat split; constructor. }
  induction fuel as [|fuel IH]; intros st s HL; cbn [star_].
  - exists st, [], s. repeat split; auto. exists (queries st). rewrite setq_id; auto.
  - unfold amp_pair at 1, cat. destruct (chr_sound (is_char "&") st s) as ([[m1 r1]|] & E1 & H1); rewrite E1.
    2: { exists st, [], s. repeat split; auto. exists (queries st). rewrite setq_id; auto. }
    destruct H1 as (-> & c & Hc & ->). apply is_char_eq in Hc. subst c.
    destruct (query_pair_sound st r1) as (st1 & o & E2 & (l & Hl) & Ho). rewrite E2.
    destruct o as [[m2 r2]|].
    2: { exists st1, [], (["&"%char] ++ r1). repeat split; eauto. discriminate. }
    destruct Ho as (q & Hq & -> & -> & ->).
    destruct (IH (setq st (queries st ++ [q])) r2) as (st' & m & r & E3 & -> & (l3 & Hl3) & H3).
    { cbn in HL. rewrite !app_length in HL. lia. }
    rewrite E3. eexists st', _, r. split; [reflexivity|]. rewrite <- !app_assoc. split; [reflexivity|]. split.
    { rewrite setq_setq in Hl3. eauto. }
    intros Hr. destruct (H3 Hr) as (qs & Hqs & -> & ->). exists (q :: qs). split; [constructor; auto|].
    split; [reflexivity|]. cbn [queries setq]. rewrite setq_setq, <- app_assoc. reflexivity.
Qed.
Lemma amp_complete : forall qs fuel st, (length (amp_text qs) <= fuel)%nat -> Forall query_ok qs ->
  star_ fuel amp_pair st (amp_text qs) = (setq st (queries st ++ qs), Some (amp_text qs, [])).
Proof.
  induction qs as [|q qs IH]; intros fuel st HL HF.
  - rewrite app_nil_r, setq_id. destruct fuel; reflexivity.
  - destruct fuel as [|fuel]; [cbn in HL; lia|]. inversion HF as [|? ? Hq Hqs]; subst. cbn [amp_text star_].
    unfold amp_pair at 1, cat. cbn [list_ascii_of_string app]. rewrite chr_complete by reflexivity.
    rewrite query_pair_complete; auto; [|destruct qs; reflexivity]. rewrite IH; auto.
    + cbn [queries setq]. rewrite setq_setq, <- app_assoc. reflexivity.
    + cbn in HL. rewrite app_length in HL. lia.
Qed.

Lemma query_p_sound st s : exists st' o, query_p st s = (st', o) /\ (exists l, st' = setq st l) /\
  match o with
  | Some (m, r) => s = m ++ r /\ (r = [] -> exists q qs, Forall query_ok (q :: qs) /\ m = $"?" ++ query_text (q :: qs) /\ st' = setq st (queries st ++ q :: qs))
  | None => True
  end.
Proof.
  unfold query_p, cat at 1, cat at 1.
  destruct (chr_sound (is_char "?") st s) as ([[m1 r1]|] & E1 & H1); rewrite E1.
  2: { exists st, None. repeat split. exists (queries st). rewrite setq_id; auto. }
  destruct H1 as (-> & c & Hc & ->). apply is_char_eq in Hc. subst c.
  destruct (query_pair_sound st r1) as (st1 & o & E2 & (l & Hl) & Ho). rewrite E2.
  destruct o as [[m2 r2]|]; [|exists st1, None; repeat split; eauto].
  destruct Ho as (q & Hq & -> & -> & ->).
  destruct (amp_sound (length r2) (setq st (queries st ++ [q])) r2 (le_n _)) as (st' & m & r & E3 & -> & (l3 & Hl3) & H3).
  unfold star. change (cat (chr (is_char "&")) query_pair) with amp_pair. rewrite E3.
  eexists st', (Some _). split; [reflexivity|]. split; [rewrite setq_setq in Hl3; eauto|].
  split; [rewrite <- !app_assoc; reflexivity|]. intros Hr. destruct (H3 Hr) as (qs & Hqs & -> & ->).
  exists q, qs. split; [constructor; auto|]. rewrite query_text_cons. split; [rewrite <- !app_assoc; reflexivity|].
  cbn [queries setq]. rewrite setq_setq, <- app_assoc. reflexivity.
Qed.
Lemma query_p_complete st q qs : Forall query_ok (q :: qs) ->
  query_p st ($"?" ++ query_text (q :: qs)) = (setq st (queries st ++ q :: qs), Some ($"?" ++ query_text (q :: qs), [])).
Proof.
  intros HF. inversion HF as [|? ? Hq Hqs]; subst. unfold query_p, cat at 1, cat at 1. cbn [list_ascii_of_string app].
  rewrite chr_complete by reflexivity. rewrite query_text_cons.
  rewrite query_pair_complete; auto; [|destruct qs; reflexivity].
  unfold star. change (cat (chr (is_char "&")) query_pair) with amp_pair. rewrite amp_complete; auto.
  cbn [queries setq]. rewrite setq_setq, <- app_assoc. reflexivity.
Qed.

(* the whole rule *)
Definition spec_char (c : ascii) : bool := negb (is_char "?" c) && negb (is_char "#" c).
Lemma spec_word w : word spec_char w <-> specifier_text w.
Proof.
  split.
  - intros [Hn Ha]. split; [auto|]. unfold all in Ha. rewrite Forall_forall in Ha.
    split; intros H; apply Ha in H; discriminate H.
  - intros (Hn & H1 & H2). split; auto. apply Forall_forall. intros c Hc. unfold spec_char.
    destruct (is_char "?" c) eqn:E; [apply is_char_eq in E; subst; contradiction|].
    destruct (is_char "#" c) eqn:E2; [apply is_char_eq in E2; subst; contradiction|]. reflexivity.
Qed.
Lemma scheme_text_ne a : scheme_text a -> exists c r, a = c :: r.
Proof. intros (w & _ & ->). destruct w; cbn; eauto. Qed.
Lemma anchor_text_ne a : anchor_text a -> exists c r, a = c :: r.
Proof. intros [[H _]|(x & y & [H _] & _ & ->)]; [destruct a; [congruence|eauto]|destruct x; [congruence|cbn; eauto]]. Qed.

Lemma rule_complete h s sch spec anc qs : grammar s sch spec anc qs -> queries h = [] ->
  scheme_rule h s = (report_on h sch spec anc qs, Some (s, [])).
Proof.
  intros [Ht Hsch Hspec Hanc Hqs] Hq0. unfold scheme_rule.
  set (A := match anc with [] => [] | _ => $"#" ++ anc end) in *.
  set (Q := match qs with [] => [] | _ => $"?" ++ query_text qs end) in *.
  set (h1 := match sch with [] => h | _ => addScheme h sch end).
  assert (E1 : opt (act scheme_p addScheme) h s = (h1, Some (sch, spec ++ A ++ Q))).
  { unfold opt, act. destruct Hsch as [Hsch|[-> Hno]].
    - rewrite Ht, scheme_p_complete by auto. subst h1. destruct (scheme_text_ne _ Hsch) as (c & r & ->). reflexivity.
    - destruct (scheme_p_sound h s) as ([[a b]|] & E & H); rewrite E.
      + destruct H as [H1 H2]. exfalso. eapply Hno; eauto.
      + rewrite Ht. reflexivity. }
  assert (E2 : act specifier_p addSpecifier h1 (spec ++ A ++ Q) = (addSpecifier h1 spec, Some (spec, A ++ Q))).
  { unfold act, specifier_p. change (fun c => _) with spec_char. rewrite plus_chr_complete.
    - reflexivity.
    - apply spec_word; auto.
    - subst A Q. destruct anc as [|a anc]; [|reflexivity]. destruct qs; reflexivity. }
  set (h2 := addSpecifier h1 spec) in *.
  set (h3 := match anc with [] => h2 | _ => addAnchor h2 anc end).
  assert (E3 : opt anchor_p h2 (A ++ Q) = (h3, Some (A, Q))).
  { unfold opt, anchor_p, cat. subst A h3. destruct Hanc as [->|Ha].
    - cbn [app]. destruct (chr_sound (is_char "#") h2 Q) as ([[m r]|] & E & H); rewrite E; [|reflexivity].
      destruct H as (H & c & Hc & ->). apply is_char_eq in Hc. subst. subst Q. destruct qs; discriminate H.
    - destruct (anchor_text_ne _ Ha) as (c & r & ->). cbn [list_ascii_of_string app].
      rewrite chr_complete by reflexivity. unfold act. rewrite app_comm_cons. rewrite anchor_word_complete; auto.
      + subst Q. destruct qs; reflexivity.
      + intros x. subst Q. destruct qs; discriminate. }
  assert (E4 : opt query_p h3 Q = (setq h3 (queries h3 ++ qs), Some (Q, []))).
  { unfold opt. subst Q. destruct qs as [|q qs].
    - rewrite app_nil_r, setq_id. reflexivity.
    - rewrite query_p_complete; auto. }
  unfold cat at 1, cat at 1, cat at 1. rewrite E1, E2, E3, E4.
  f_equal.
  - subst h3 h2 h1. unfold report_on, addScheme, addSpecifier, addAnchor, setq, classify.
    destruct sch; destruct anc; cbn [queries scheme_type scheme_name specifier anchor]; rewrite Hq0; reflexivity.
  - rewrite Ht, <- !app_assoc. reflexivity.
Qed.

Lemma opt_scheme_sound h s : exists sch r, opt (act scheme_p addScheme) h s = (match sch with [] => h | _ => addScheme h sch end, Some (sch, r)) /\
  s = sch ++ r /\ (scheme_text sch \/ (sch = [] /\ forall a b, scheme_text a -> s <> a ++ b)).
Proof.
  unfold opt, act. destruct (scheme_p_sound h s) as ([[a b]|] & E & H).
  - rewrite E. destruct H as [-> H]. exists a, b. destruct (scheme_text_ne _ H) as (c & r & ->). auto.
  - exists [], s. rewrite E. repeat split. right. split; auto. intros a b Ha ->. rewrite scheme_p_complete in E by auto. discriminate.
Qed.
Lemma opt_anchor_sound h s : exists A anc r, opt anchor_p h s = (match anc with [] => h | _ => addAnchor h anc end, Some (A, r)) /\
  s = A ++ r /\ (anc = [] \/ anchor_text anc) /\ A = match anc with [] => [] | _ => $"#" ++ anc end.
Proof.
  unfold opt, anchor_p, cat. destruct (chr_sound (is_char "#") h s) as ([[m r]|] & E & H); rewrite E.
  2: { exists [], [], s. auto. }
  destruct H as (-> & c & Hc & ->). apply is_char_eq in Hc. subst c. unfold act.
  destruct (anchor_word_sound h r) as ([[a b]|] & E2 & H2); rewrite E2.
  2: { exists [], [], (["#"%char] ++ r). auto. }
  destruct H2 as [-> H2]. exists ($"#" ++ a), a, b. destruct (anchor_text_ne _ H2) as (c & x & ->). auto.
Qed.
Lemma opt_query_sound h s h' m : opt query_p h s = (h', Some (m, [])) ->
  exists qs, Forall query_ok qs /\ s = match qs with [] => [] | _ => $"?" ++ query_text qs end /\ h' = setq h (queries h ++ qs).
Proof.
  unfold opt. destruct (query_p_sound h s) as (st' & o & E & (l & Hl) & H). rewrite E. destruct o as [[m1 r1]|].
  - intros Eq. inversion Eq; subst. destruct H as [-> H]. destruct (H eq_refl) as (q & qs & HF & -> & H2).
    exists (q :: qs). rewrite app_nil_r. auto.
  - intros Eq. inversion Eq; subst. exists []. cbn in E. inversion E. rewrite app_nil_r, setq_id. auto.
Qed.

Lemma rule_sound h s h' m : queries h = [] -> scheme_rule h s = (h', Some (m, [])) ->
  exists sch spec anc qs, grammar s sch spec anc qs /\ h' = report_on h sch spec anc qs.
Proof.
  intros Hq0. unfold scheme_rule, cat at 1, cat at 1, cat at 1.
  destruct (opt_scheme_sound h s) as (sch & r1 & E1 & Hs & Hsch). rewrite E1.
  set (h1 := match sch with [] => h | _ => addScheme h sch end).
  unfold act at 1, specifier_p. change (fun c : ascii => negb (is_char "?" c) && negb (is_char "#" c)) with spec_char.
  destruct (plus_chr_sound spec_char h1 r1) as ([[spec r2]|] & E2 & H2); rewrite E2; [|discriminate].
  destruct H2 as [-> Hspec].
  destruct (opt_anchor_sound (addSpecifier h1 spec) r2) as (A & anc & r3 & E3 & -> & Hanc & HA). rewrite E3.
  set (h3 := match anc with [] => _ | _ => _ end).
  destruct (opt query_p h3 r3) as [h4 [[m4 r4]|]] eqn:E4; [|discriminate].
  intros Eq. inversion Eq; subst h4 r4. apply opt_query_sound in E4. destruct E4 as (qs & Hqs & Hr3 & ->).
  exists sch, spec, anc, qs. split.
  - constructor; auto.
    + rewrite Hs, HA, Hr3. reflexivity.
    + apply spec_word; auto.
  - subst h3 h1. unfold report_on, addScheme, addSpecifier, addAnchor, setq, classify.
    destruct sch; destruct anc; cbn [queries scheme_type scheme_name specifier anchor]; rewrite Hq0; reflexivity.
Qed.

(* c_str *)
Lemma cstr_no_nul s : no_nul (cstr s).
Proof.
  induction s as [|c s IH]; cbn [cstr]; [intros c []|]. destruct (code c =? 0)%nat eqn:E; [intros x []|].
  intros x [->|H]; [apply PeanoNat.Nat.eqb_neq; auto|apply IH; auto].
Qed.
Lemma cstr_id s : no_nul s -> cstr s = s.
Proof.
  induction s as [|c s IH]; intros H; cbn [cstr]; [reflexivity|].
  destruct (code c =? 0)%nat eqn:E; [apply PeanoNat.Nat.eqb_eq in E; exfalso; apply (H c); [left|]; auto|].
  rewrite IH; auto. intros x Hx. apply H. right; auto.
Qed.

Lemma parse_complete s h sch spec anc qs : no_nul s -> grammar s sch spec anc qs ->
  parseScheme s h = (true, report_on h sch spec anc qs).
Proof.
  intros Hn G. unfold parseScheme. rewrite cstr_id by auto. erewrite rule_complete by (eauto; reflexivity). reflexivity.
Qed.
Lemma parse_sound s h h' : no_nul s -> parseScheme s h = (true, h') ->
  exists sch spec anc qs, grammar s sch spec anc qs /\ h' = report_on h sch spec anc qs.
Proof.
  intros Hn. unfold parseScheme. rewrite cstr_id by auto.
  destruct (scheme_rule _ s) as [h1 [[m [|c r]]|]] eqn:E; try discriminate.
  intros Eq. inversion Eq; subst. apply rule_sound in E; [exact E|reflexivity].
Qed.
Lemma report_new sch spec anc qs : scheme_text sch \/ sch = [] -> report_on new_scheme sch spec anc qs = report sch spec anc qs.
Proof. intros [H| ->]; [destruct (scheme_text_ne _ H) as (c & r & ->)|]; destruct anc; reflexivity. Qed.
Lemma grammar_unique s sch1 spec1 anc1 qs1 sch2 spec2 anc2 qs2 : no_nul s ->
  grammar s sch1 spec1 anc1 qs1 -> grammar s sch2 spec2 anc2 qs2 -> sch1 = sch2 /\ spec1 = spec2 /\ anc1 = anc2 /\ qs1 = qs2.
Proof.
  intros Hn G1 G2. pose proof (parse_complete s new_scheme _ _ _ _ Hn G1) as P1.
  rewrite (parse_complete s new_scheme _ _ _ _ Hn G2) in P1. inversion P1 as [[H1 H2 H3 H4 H5]].
  assert (anc2 = anc1) by (destruct anc1, anc2; auto; discriminate). subst.
  repeat split; auto. destruct G1 as [T1 _ _ _ _], G2 as [T2 _ _ _ _]. rewrite T1 in T2. apply app_inv_tail in T2. auto.
Qed.

(* printing *)
Lemma print_queries_text q l : print_queries true (q :: l) = $"?" ++ query_text (q :: l).
Proof.
  rewrite query_text_cons. cbn [print_queries]. unfold pair_text. rewrite <- !app_assoc. repeat f_equal.
  induction l as [|p l IH]; [reflexivity|]. cbn [print_queries amp_text]. rewrite IH. unfold pair_text. rewrite <- !app_assoc. reflexivity.
Qed.
Lemma alpha_lower c : is_alpha c = true -> is_alpha (tolower c) = true.
Proof. destruct c as [[] [] [] [] [] [] [] []]; vm_compute; congruence. Qed.
Lemma lower_lower_c c : tolower (tolower c) = tolower c.
Proof. destruct c as [[] [] [] [] [] [] [] []]; vm_compute; reflexivity. Qed.
Lemma lower_nul c : code c <> 0%nat -> code (tolower c) <> 0%nat.
Proof. destruct c as [[] [] [] [] [] [] [] []]; vm_compute; congruence. Qed.
Lemma lower_lower s : lower (lower s) = lower s.
Proof. unfold lower. rewrite map_map. apply map_ext. apply lower_lower_c. Qed.
Lemma word_lower w : word is_alpha w -> word is_alpha (lower w).
Proof.
  intros [Hn Ha]. split; [destruct w; [congruence|discriminate]|]. unfold all, lower in *. rewrite Forall_map.
  eapply Forall_impl; [|exact Ha]. intros c; apply alpha_lower.
Qed.
Lemma scheme_text_lower a : scheme_text a -> scheme_text (lower a).
Proof.
  intros (w & Hw & ->). exists (lower w). unfold lower. rewrite map_app. split; [|reflexivity].
  induction Hw as [w Hw|w v Hw Hv IH]; [constructor; apply word_lower; auto|].
  rewrite !map_app. apply pw_more; auto. apply word_lower; auto.
Qed.
Lemma no_nul_app a b : no_nul (a ++ b) <-> no_nul a /\ no_nul b.
Proof.
  split.
  - intros H. split; intros c Hc; apply H; apply in_or_app; auto.
  - intros [H1 H2] c Hc. apply in_app_or in Hc. destruct Hc; auto.
Qed.
Lemma no_nul_lower a : no_nul a -> no_nul (lower a).
Proof. intros H c Hc. unfold lower in Hc. apply in_map_iff in Hc. destruct Hc as (d & <- & Hd). apply lower_nul. auto. Qed.

Lemma reparse sch spec anc qs s' : scheme_text sch \/ (sch = [] /\ forall a b, scheme_text a -> s' <> a ++ b) ->
  no_nul s' -> grammar s' (lower sch) spec anc qs -> parseScheme s' new_scheme = (true, report sch spec anc qs).
Proof.
  intros Hs Hn G. rewrite (parse_complete _ _ _ _ _ _ Hn G). rewrite report_new.
  - unfold report. rewrite lower_lower. reflexivity.
  - destruct Hs as [H|[-> _]]; [left; apply scheme_text_lower; auto|right; reflexivity].
Qed.

Lemma round_trip s h : no_nul s -> parseScheme s new_scheme = (true, h) -> anchor h = [] \/ queries h = [] ->
  parseScheme (print h) new_scheme = (true, h).
Proof.
  intros Hn P Hc. destruct (parse_sound _ _ _ Hn P) as (sch & spec & anc & qs & G & ->).
  assert (Hsch : scheme_text sch \/ sch = []) by (destruct G as [_ [?|[? _]] _ _ _]; auto).
  rewrite report_new in * by auto. cbn [anchor queries report] in Hc.
  assert (E : print (report sch spec anc qs) = lower sch ++ spec ++ (match anc with [] => [] | _ => $"#" ++ anc end)
                 ++ (match qs with [] => [] | _ => $"?" ++ query_text qs end)).
  { unfold print. cbn [scheme_name specifier anchor queries report].
    destruct Hc as [->| ->].
    - cbn [app]. destruct qs; [reflexivity|]. rewrite print_queries_text, app_nil_r. reflexivity.
    - cbn [print_queries app]. rewrite app_nil_r. destruct anc; reflexivity. }
  apply reparse.
  - destruct G as [Gt [?|[-> Gs]] G2 G3 G4]; [auto|]. right. split; auto. intros a b Ha. rewrite E. cbn [lower map app].
    cbn [app] in Gt. rewrite <- Gt. auto.
  - rewrite E. destruct G as [Gt _ _ _ _]. rewrite Gt in Hn. apply no_nul_app in Hn. destruct Hn as [H1 H2].
    apply no_nul_app. split; [apply no_nul_lower|]; auto.
  - destruct G as [Gt Gs G2 G3 G4]. constructor; auto. destruct Gs as [Gs|[-> Gs]]; [left; apply scheme_text_lower; auto|].
    right. split; auto. intros a b Ha. rewrite E. cbn [lower map app]. cbn [app] in Gt. rewrite <- Gt. auto.
Qed.

Lemma alnum_value c : is_alnum c = true -> value_char c = true.
Proof. destruct c as [[] [] [] [] [] [] [] []]; vm_compute; congruence. Qed.
Lemma anchor_value a : anchor_text a -> all value_char a.
Proof.
  assert (W : forall w, word is_alnum w -> all value_char w).
  { intros w [_ H]. eapply Forall_impl; [|exact H]. apply alnum_value. }
  intros [H|(x & y & Hx & Hy & ->)]; [auto|]. apply Forall_app. split; [apply W; auto|]. apply Forall_app.
  split; [repeat constructor|apply W; auto].
Qed.
Lemma query_text_last l q x : query_text (l ++ [q]) ++ x = query_text (l ++ [mkQ (q_name q) (q_value q ++ x)]).
Proof.
  destruct l as [|p l].
  - cbn. rewrite <- app_assoc. cbn. reflexivity.
  - cbn [app]. rewrite !query_text_cons, <- app_assoc. f_equal. induction l as [|r l IH]; cbn [app amp_text].
    + unfold pair_text. cbn [q_name q_value]. rewrite !app_nil_r, <- !app_assoc. reflexivity.
    + rewrite <- !app_assoc, IH. reflexivity.
Qed.

(* the suffix begins with '?' or '#' or is empty: adding one keeps "does not begin with a scheme" *)
Lemma scheme_text_prefix spec x y : (forall c, In c spec -> c <> "?"%char /\ c <> "#"%char) ->
  (x = [] \/ exists c r, x = c :: r /\ (c = "?"%char \/ c = "#"%char)) ->
  (y = [] \/ exists c r, y = c :: r /\ (c = "?"%char \/ c = "#"%char)) ->
  forall a b, scheme_text a -> spec ++ x = a ++ b -> exists b', spec ++ y = a ++ b'.
Proof.
  intros Hs Hx Hy a b Ha E.
  assert (Na : forall c, In c a -> c <> "?"%char /\ c <> "#"%char).
  { destruct Ha as (w & Hw & ->). intros c Hc. apply in_app_or in Hc. destruct Hc as [Hc|Hc].
    - assert (Hall : Forall (fun c => c <> "?"%char /\ c <> "#"%char) w).
      { assert (W : forall w, word is_alpha w -> Forall (fun c => c <> "?"%char /\ c <> "#"%char) w).
        { intros v [_ H]. eapply Forall_impl; [|exact H]. intros d Hd. split; intros ->; discriminate Hd. }
        induction Hw as [w Hw|w v Hw Hv IH]; [apply W; auto|]. apply Forall_app. split; [apply W; auto|].
        apply in_app_or in Hc. constructor; [split; discriminate|]. 
        clear - Hv W. induction Hv as [w Hw|w v Hw Hv IH]; [apply W; auto|]. apply Forall_app. split; [apply W; auto|].
        constructor; [split; discriminate|auto]. }
      rewrite Forall_forall in Hall. auto.
    - cbn in Hc. repeat (destruct Hc as [<-|Hc]; [split; discriminate|]). destruct Hc. }
  clear Ha Hs. revert a E Na. induction spec as [|c spec IH]; intros a E Na.
  - cbn [app] in *. destruct a as [|d a]; [exists y; auto|]. destruct Hx as [->|(c & r & -> & Hc)]; [discriminate|].
    cbn in E. inversion E; subst. destruct (Na d (or_introl eq_refl)). destruct Hc; contradiction.
  - destruct a as [|d a]; [exists ((c :: spec) ++ y); auto|]. cbn in E. inversion E; subst.
    destruct (IH a H1) as (b' & E').
    { intros z Hz. apply Na. right; auto. }
    exists b'. cbn. rewrite E'. reflexivity.
Qed.

Lemma round_trip_lost s h : no_nul s -> parseScheme s new_scheme = (true, h) -> anchor h <> [] -> queries h <> [] ->
  exists l q, queries h = l ++ [q] /\
  parseScheme (print h) new_scheme = (true, mkS (scheme_type h) (scheme_name h) (specifier h) []
                                              (l ++ [mkQ (q_name q) (q_value q ++ $"#" ++ anchor h)])).
Proof.
  intros Hn P Ha Hq. destruct (parse_sound _ _ _ Hn P) as (sch & spec & anc & qs & G & ->).
  assert (Hsch : scheme_text sch \/ sch = []) by (destruct G as [_ [?|[? _]] _ _ _]; auto).
  rewrite report_new in * by auto. cbn [anchor queries report] in *.
  destruct (exists_last Hq) as (l & q & ->). exists l, q. split; auto. cbn [report scheme_type scheme_name specifier anchor].
  set (q' := mkQ (q_name q) (q_value q ++ $"#" ++ anc)).
  assert (E : print (report sch spec anc (l ++ [q])) = lower sch ++ spec ++ $"?" ++ query_text (l ++ [q'])).
  { unfold print. cbn [scheme_name specifier anchor queries report].
    assert (E1 : print_queries true (l ++ [q]) = $"?" ++ query_text (l ++ [q])).
    { destruct l; cbn [app]; apply print_queries_text. }
    rewrite E1. replace (match anc with [] => [] | _ => $"#" ++ anc end) with ($"#" ++ anc) by (destruct anc; [congruence|reflexivity]).
    rewrite <- (app_assoc $"?"), query_text_last. reflexivity. }
  destruct G as [Gt Gs G2 G3 G4].
  assert (Hq' : Forall query_ok (l ++ [q'])).
  { apply Forall_app in G4. destruct G4 as [H1 H2]. apply Forall_app. split; auto. inversion H2 as [|? ? [K V] _]; subst.
    constructor; [|constructor]. split; [exact K|]. destruct V as [V1 V2]. split.
    - cbn. destruct (q_value q); [congruence|discriminate].
    - apply Forall_app. split; auto. apply Forall_app. split; [repeat constructor|].
      destruct G3 as [->|G3]; [congruence|]. apply anchor_value; auto. }
  set (s' := print (report sch spec anc (l ++ [q]))) in *.
  assert (Hs' : scheme_text sch \/ (sch = [] /\ forall a b, scheme_text a -> s' <> a ++ b)).
  { destruct Gs as [Gs|[-> Gs]]; [auto|]. right. split; auto. intros a b Ha' Es. rewrite E in Es. cbn [lower map app] in Es.
    cbn [app] in Gt.
    destruct (scheme_text_prefix spec ($"?" ++ query_text (l ++ [q'])) ((match anc with [] => [] | _ => $"#" ++ anc end) ++ (match l ++ [q] with [] => [] | _ => $"?" ++ query_text (l ++ [q]) end))) with (a := a) (b := b) as (b' & Eb); [ | | |exact Ha'|exact Es|].
    - intros c Hc. destruct G2 as (_ & N1 & N2). split; intros ->; contradiction.
    - right. exists "?"%char, (query_text (l ++ [q'])). split; [reflexivity|auto].
    - right.      destruct anc; [congruence|]. exists "#"%char. eexists. split; [reflexivity|auto].
    - eapply Gs; [exact Ha'|]. rewrite Gt. exact Eb. }
  rewrite reparse with (sch := sch) (spec := spec) (anc := []) (qs := l ++ [q']); [reflexivity|auto| |].
  - rewrite E. rewrite Gt in Hn. repeat (apply no_nul_app in Hn; destruct Hn as [? Hn]).
    apply no_nul_app; split; [apply no_nul_lower; auto|]. apply no_nul_app; split; auto.
    replace (match l ++ [q] with [] => [] | _ => $"?" ++ query_text (l ++ [q]) end) with ($"?" ++ query_text (l ++ [q])) in Hn by (destruct l; reflexivity).
    unfold q'. rewrite <- query_text_last. rewrite app_assoc. apply no_nul_app. split; [exact Hn|].
    destruct anc; [congruence|exact H1].
  - constructor; auto.
    + rewrite E. cbn [app]. destruct l; reflexivity.
    + destruct Hs' as [H|[-> H]]; [left; apply scheme_text_lower; auto|right; auto].
Qed.

Lemma round_trip_iff s h : no_nul s -> parseScheme s new_scheme = (true, h) ->
  (parseScheme (print h) new_scheme = (true, h) <-> anchor h = [] \/ queries h = []).
Proof.
  intros Hn P. split; [|apply (round_trip s); auto]. intros R.
  destruct (anchor h) as [|c a] eqn:Ea; [auto|]. destruct (queries h) as [|q l] eqn:Eq; [auto|]. exfalso.
  destruct (round_trip_lost s h) as (l' & q' & _ & E); auto; try congruence.
  rewrite E in R. inversion R as [H]. rewrite <- H in Ea. discriminate.
Qed.
