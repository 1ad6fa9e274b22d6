(* get() on the lines of a text *)
From Verif Require Import Base Text StringHelperModel StringHelperProofs LogTextModel ATreeModel ATreeSpec ATreeProofs ATreeProofs2 ATreeProofs6 ATreeProofs7 ATreeTextModel ATreeTextSpec ATreeTextProofs ATreeTextProofs2.
From Verif Require ATreeProofs10 FilePathModel.

(* ---- characters ---- *)
Lemma skip_blanks b d : blanks b -> match d with [] => True | x :: _ => is_space x = false end -> skip_space (b ++ d) = d.
Proof.
  intros B D. induction b as [|c b IH]; cbn [app].
  - destruct d as [|x d]; [reflexivity|]. cbn [skip_space]. now rewrite D.
  - cbn [skip_space]. rewrite (B c) by now left. apply IH. intros y I. apply B. now right.
Qed.
Lemma cut_app c d r : ~ In c d -> cut c (d ++ c :: r) = Some (d, r).
Proof.
  induction d as [|x d IH]; intros N; cbn [app cut]; [now rewrite Ascii.eqb_refl|]. destruct (Ascii.eqb x c) eqn:E; [apply Ascii.eqb_eq in E; exfalso; apply N; now left|].
  rewrite IH; [reflexivity|]. intros I. apply N. now right.
Qed.
Lemma cut_none c s : ~ In c s -> cut c s = None.
Proof.
  induction s as [|x s IH]; intros N; [reflexivity|]. cbn [cut]. destruct (Ascii.eqb x c) eqn:E; [apply Ascii.eqb_eq in E; exfalso; apply N; now left|].
  rewrite IH; [reflexivity|]. intros I. apply N. now right.
Qed.
Lemma occurs_spec t s : occurs t s = true <-> part_of t s.
Proof.
  unfold occurs, part_of. destruct (str_find t s) as [n|] eqn:E.
  - split; [|reflexivity]. intros _. apply str_find_some in E. destruct E as (b & E & _). eauto.
  - split; [discriminate|]. intros (a & b & X). exfalso. apply (str_find_none _ _ E). exists a, b. exact X.
Qed.
Lemma starts_space d r : starts d -> d <> [] \/ (exists x q, r = x :: q /\ is_space x = false) -> match d ++ r with [] => True | x :: _ => is_space x = false end.
Proof. intros S D. destruct d as [|x d]; [destruct D as [D|(x & q & -> & E)]; [contradiction|exact E]|]. exact (proj1 S). Qed.
Lemma starts_hash {A} d r (x y : A) : starts d -> (d = [] -> match r with "#"%char :: _ => False | _ => True end) ->
  (if (match d ++ r with "#"%char :: _ => true | _ => false end) then x else y) = y.
Proof.
  intros S D. assert (E : match d ++ r with "#"%char :: _ => true | _ => false end = false); [|now rewrite E].
  destruct d as [|c d]; cbn [app].
  - specialize (D eq_refl). destruct r as [|c r]; [reflexivity|]. destruct (ascii_dec c "#") as [->|N]; [destruct D|].
    destruct c as [[|] [|] [|] [|] [|] [|] [|] [|]]; try reflexivity. now contradiction N.
  - destruct S as [_ N]. destruct c as [[|] [|] [|] [|] [|] [|] [|] [|]]; try reflexivity. now contradiction N.
Qed.
Lemma until_trunc l : until_empty l = trunc l.
Proof. induction l as [|[|c d] l IH]; cbn; congruence. Qed.
Lemma trunc_is_proper l : proper (trunc l).
Proof. induction l as [|[|c d] l IH]; cbn; intros I; [destruct I|destruct I|]. destruct I as [E|I]; [discriminate|]. now apply IH. Qed.
Lemma set_path_trunc a l : forall h p, set_path h p l a = set_path h p (trunc l) a.
Proof.
  induction l as [|[|c d] l IH]; intros h p; cbn [trunc]; try reflexivity. cbn [set_path]. destruct (getSubTree h p (c :: d)) as [[x|]| |]; cbn [obind]; auto.
  destruct (new_tree h (Some (c :: d)) (Some p)) as [[h1 q]| |]; cbn [obind fst snd]; auto.
Qed.
Lemma path_in_set a d p h at_ : path_in d p -> proper p /\ setAttribute h at_ (Some d) a = set_path h at_ p a.
Proof. intros (l & CO & ->). apply ATreeProofs10.components_split in CO. subst l. rewrite until_trunc. split; [apply trunc_is_proper|]. apply set_path_trunc. Qed.

Lemma path_in_proper d p : path_in d p -> proper p.
Proof. intros H. exact (proj1 (path_in_set None d p empty_heap 0 H)). Qed.

(* ---- positions ---- *)
Lemma named_get h p d c : forest h -> sub_named h p d c -> getSubTree h p d = Done (Some c).
Proof.
  intros F SN. destruct (ATreeProofs10.named_live _ _ _ _ SN) as [L _]. apply live_ex in L. destruct L as [n E]. destruct (tree_at h p n F E) as (t & R & <-).
  rewrite (getSubTree_effect _ _ _ _ R). apply (child_named h _ t d F R) in SN. now rewrite SN.
Qed.
Lemma set_path_at a h pos : forall p x l, forest h -> path h p pos x -> proper pos -> set_path h p (pos ++ l) a = set_path h x l a.
Proof.
  induction pos as [|d pos IH]; intros p x l F P PR; inversion P as [|? ? c ? ? SN PE]; subst; [reflexivity|]. cbn [app].
  assert (Dn : d <> []) by (intros ->; apply PR; now left). destruct d as [|k d]; [contradiction|]. cbn [set_path]. rewrite (named_get _ _ _ _ F SN). cbn [obind].
  apply IH; auto. intros I. apply PR. now right.
Qed.
Lemma path_app h p l x m y : path h p l x -> path h x m y -> path h p (l ++ m) y.
Proof. induction 1; intros Q; [exact Q|]. cbn [app]. eapply path_sub; eauto. Qed.
Lemma path_app_inv h l m : forall p y, path h p (l ++ m) y -> exists x, path h p l x /\ path h x m y.
Proof. induction l as [|d l IH]; intros p y P; cbn [app] in P; [exists p; split; [constructor|exact P]|]. inversion P as [|? ? c ? ? SN PE]; subst. destruct (IH _ _ PE) as (x & X1 & X2). exists x. split; [eapply path_sub; eauto|exact X2]. Qed.
Lemma proper_app l m : proper l -> proper m -> proper (l ++ m).
Proof. intros L M I. apply in_app_or in I. destruct I; [now apply L|now apply M]. Qed.

Record placed (h : heap) (par : option nat) (t : tree) (pos : list str) (at_ : nat) : Prop := {
  pl_forest : forest h; pl_repr : repr h par t; pl_path : path h (tid t) pos at_; pl_proper : proper pos }.
Lemma became_refl h par t : forest h -> repr h par t -> became h h par t t.
Proof. intros F R. split; auto. Qed.
Lemma became_trans h1 h2 h3 par t1 t2 t3 : became h1 h2 par t1 t2 -> became h2 h3 par t2 t3 -> became h1 h3 par t1 t3.
Proof.
  intros [A1 A2 A3 A4 A5 A6] [B1 B2 B3 B4 B5 B6]. split; auto; [congruence|lia| |].
  - intros x L N. rewrite B5; [now apply A5|lia|]. intros I. destruct (A6 x I); [contradiction|lia].
  - intros x I. destruct (B6 x I) as [J|J]; [now apply A6|right; lia].
Qed.
Lemma placed_set a h par t pos at_ p : placed h par t pos at_ -> proper p ->
  exists h' c t', set_path h at_ p a = Done (h', c) /\ became h h' par t t' /\ content_of t' = assign (content_of t) (pos ++ p) a /\
    placed h' par t' pos at_ /\ placed h' par t' (pos ++ p) c.
Proof.
  intros [F R P PR] PP. rewrite <- (set_path_at a h pos (tid t) at_ p F P PR). destruct (set_content a (pos ++ p) h par t F R (proper_app _ _ PR PP)) as (h' & c & t' & SP & [W1 W2 W3 W4 W5 W6 W7 W8 W9]).
  exists h', c, t'. split; [exact SP|]. split; [split; auto|]. split; [exact W4|]. split; split; auto; try (rewrite W3; auto). now apply proper_app.
Qed.
Lemma placed_up h par t pos at_ : placed h par t pos at_ -> pos <> [] -> at_ <> tid t /\ exists n q, deref h at_ = Done n /\ parent n = Some q /\ placed h par t (removelast pos) q.
Proof.
  intros [F R P PR] NE. destruct (exists_last NE) as (l & d & ->). rewrite removelast_last. destruct (path_app_inv _ _ _ _ _ P) as (q & P1 & P2).
  inversion P2 as [|? ? c ? ? SN PE]; subst. inversion PE; subst.
  assert (PO : parent_of h at_ q). { destruct SN as (n & bf & af & E & S & _). apply (f_lists _ F q n E). rewrite S. apply in_elt. }
  split.
  - intros ->. assert (B : forall x l y, path h x l y -> below h x y).
    { clear - F. induction 1 as [|p d c l x SN PE IH]; [constructor|]. eapply below_trans; [|exact IH]. eapply below_child; [constructor|]. destruct SN as (n & bf & af & E & S & _). apply (f_lists _ F p n E). rewrite S. apply in_elt. }
    apply (ATreeProofs3.below_not_above h (tid t) q F PO). eauto.
  - destruct PO as (n & E & PQ). exists n, q. split; [unfold deref; now rewrite E|]. split; [exact PQ|]. split; auto. intros I. apply PR, in_or_app. now left.
Qed.

(* ---- the loop ---- *)
Section Loop.
Variables (strict : bool) (w : world) (fp : option FilePathModel.filepath) (inc comments : bool).
Lemma step_means load fuel this h at_ n line cmd s : means comments line cmd -> eof s = false ->
  get_step load fuel strict w this fp inc comments h at_ n (skip_space line) s =
  match cmd with
  | Skip => Done (Next h at_ n s)
  | Own a => let* h1 := setOwnAttribute h at_ (Some a) in Done (Next h1 at_ n s)
  | Assign p a => let* hp := set_path h at_ p (Some a) in Done (Next (fst hp) at_ n s)
  | Open p => let* hp := set_path h at_ p None in Done (Next (fst hp) (snd hp) n s)
  | Close => if at_ =? this then Done (Return h (-1)) else let* m := deref h at_ in match parent m with Some q => Done (Next h q n s) | None => Done (Return h n) end
  | Malformed => Done (Return h n)
  end.
Proof.
  intros M E. unfold get_step. destruct M.
  - assert (X : skip_space b = []) by (rewrite <- (app_nil_r b); apply skip_blanks; [assumption|exact I]). rewrite X. cbn [cut]. rewrite andb_false_r. reflexivity.
  - rewrite skip_blanks by (assumption || reflexivity). reflexivity.
  - rewrite skip_blanks by (assumption || reflexivity). reflexivity.
  - rewrite skip_blanks by (try assumption; apply starts_space; auto). rewrite starts_hash by (try assumption; contradiction).
    change ($":" ++ a) with (":"%char :: a); rewrite (cut_app ":" d a) by (apply (H2 ":"%char); now left). destruct d as [|x d]; [contradiction|].
    destruct (str_eqb (x :: d) include_str) eqn:Q; [apply str_eqb_spec in Q; contradiction|].
    assert (OC : negb (occurs comment_str (x :: d)) || comments = true).
    { destruct H4 as [->|H4]; [apply orb_true_r|]. destruct (occurs comment_str (x :: d)) eqn:O; [apply occurs_spec in O; contradiction|reflexivity]. }
    rewrite OC. now rewrite (proj2 (path_in_set (Some a) _ _ h at_ H5)).
  - rewrite skip_blanks by (try assumption; apply starts_space; auto). rewrite starts_hash by (try assumption; contradiction).
    change ($":" ++ a) with (":"%char :: a); rewrite (cut_app ":" d a) by (apply (H2 ":"%char); now left). destruct d as [|x d]; [contradiction|].
    destruct (str_eqb (x :: d) include_str) eqn:Q; [apply str_eqb_spec in Q; contradiction|]. apply occurs_spec in H5. rewrite H5, H4. reflexivity.
  - rewrite skip_blanks by first [assumption|apply starts_space; [assumption|right; eexists _, _; split; reflexivity]]. rewrite starts_hash by (try assumption; intros; exact I).
    rewrite cut_none by (intros J; apply in_app_or in J; destruct J as [J|[J|J]]; [apply (H1 ":"%char) in J; [destruct J|now left]|discriminate|apply (H2 ":"%char) in J; [destruct J|now left]]).
    change ($"{" ++ r) with ("{"%char :: r); rewrite (cut_app "{" d r) by (apply (H1 "{"%char); now right; left).
    destruct (str_eqb d comment_str) eqn:Q; [apply str_eqb_spec in Q; contradiction|]. now rewrite (proj2 (path_in_set None _ _ h at_ H4)).
  - rewrite skip_blanks by first [assumption|apply starts_space; [assumption|right; eexists _, _; split; reflexivity]]. rewrite starts_hash by (try assumption; intros; exact I).
    rewrite (cut_none ":") by (intros J; apply in_app_or in J; destruct J as [J|[J|J]]; [apply (H1 ":"%char) in J; [destruct J|now left]|discriminate|apply (H2 ":"%char) in J; [destruct J|now left]]).
    rewrite (cut_none "{") by (intros J; apply in_app_or in J; destruct J as [J|[J|J]]; [apply (H1 "{"%char) in J; [destruct J|now right; left]|discriminate|apply (H2 "{"%char) in J; [destruct J|now right; left]]).
    change ($"}" ++ r) with ("}"%char :: r); rewrite (cut_app "}" d r) by (apply (H1 "}"%char); now right; right; left). reflexivity.
  - rewrite skip_blanks by (try assumption; rewrite <- (app_nil_r d); apply starts_space; auto). rewrite <- (app_nil_r d), starts_hash, app_nil_r by (try assumption; contradiction).
    rewrite !cut_none by (match goal with |- ~ In ?c d => apply (H2 c); cbn; tauto end). rewrite E. destruct d; [contradiction|reflexivity].
Qed.

Lemma loop_run r : forall cmds x cmd fuel h par t pos at_ n, means comments x cmd -> Forall2 (means comments) r cmds -> Forall good_line r -> length r < fuel -> placed h par t pos at_ ->
  exists h' t', get_loop fuel strict w (tid t) fp inc comments h at_ n x (open (lines r)) = Done (h', snd (run (cmd :: cmds) n (content_of t) pos)) /\
    became h h' par t t' /\ content_of t' = fst (run (cmd :: cmds) n (content_of t) pos).
Proof.
  induction r as [|y r IH]; intros cmds x cmd fuel h par t pos at_ n M M2 G LF PL; (destruct fuel as [|fuel]; [cbn [length] in LF; lia|]).
  all: cbn [get_loop]; rewrite (step_means _ _ _ _ _ _ _ _ _ M) by reflexivity.
  all: match type of M2 with Forall2 _ ?r _ =>
    assert (GO : forall c1 pos1 h1 t1 at1, became h h1 par t t1 -> placed h1 par t1 pos1 at1 -> content_of t1 = c1 -> run (cmd :: cmds) n (content_of t) pos = run cmds (n + 1)%Z c1 pos1 ->
      exists h' t', (let (b1, s2) := readNextLine (open (lines r)) in if eof s2 then Done (h1, (-1)%Z) else get_loop fuel strict w (tid t) fp inc comments h1 at1 (n + 1)%Z b1 s2) =
        Done (h', snd (run (cmd :: cmds) n (content_of t) pos)) /\ became h h' par t t' /\ content_of t' = fst (run (cmd :: cmds) n (content_of t) pos)) end.
  1: { intros c1 pos1 h1 t1 at1 B PL1 EC RE. inversion M2; subst. destruct read_end as [b0 RD]. cbn [lines flat_map]. rewrite RD, RE. cbn [eof run fst snd]. exists h1, t1. auto. }
  2: { intros c1 pos1 h1 t1 at1 B PL1 EC RE. inversion M2 as [|? cmd2 ? cmds2 My Mr]; subst. inversion G as [|? ? Gy Gr]; subst. rewrite read_lines by exact Gy. cbn [open eof]. rewrite RE.
       destruct (IH cmds2 y cmd2 fuel h1 par t1 pos1 at1 (n + 1)%Z My Mr Gr) as (h' & t' & X1 & X2 & X3); [cbn [length] in LF; lia|exact PL1|]. rewrite (be_id _ _ _ _ _ B) in X1.
       exists h', t'. split; [exact X1|]. split; [eapply became_trans; eauto|exact X3]. }
  all: assert (RF : became h h par t t) by (apply became_refl; apply PL).
  all: destruct cmd as [|a|p a|p| |].
  all: try (exact (GO _ pos h t at_ RF PL eq_refl eq_refl)).
  all: try (exists h, t; cbn [run fst snd]; auto; fail).
  all: lazymatch type of M with
    | means _ _ (Own _) =>
      destruct (placed_set (Some a) h par t pos at_ [] PL) as (h1 & c1 & t1 & SP & B & EC & P1 & P2); [intros []|]; cbn [set_path] in SP; rewrite app_nil_r in *;
      destruct (setOwnAttribute h at_ (Some a)) as [h2| |]; try discriminate SP; cbn [obind] in SP |- *; injection SP as -> _; exact (GO _ pos h1 t1 at_ B P1 EC eq_refl)
    | means _ _ (Assign _ _) =>
      assert (PP : proper p) by (inversion M; subst; eapply path_in_proper; eassumption);
      destruct (placed_set (Some a) h par t pos at_ p PL PP) as (h1 & c1 & t1 & SP & B & EC & P1 & P2); rewrite SP; cbn [obind fst snd]; exact (GO _ pos h1 t1 at_ B P1 EC eq_refl)
    | means _ _ (Open _) =>
      assert (PP : proper p) by (inversion M; subst; eapply path_in_proper; eassumption);
      destruct (placed_set None h par t pos at_ p PL PP) as (h1 & c1 & t1 & SP & B & EC & P1 & P2); rewrite SP; cbn [obind fst snd]; exact (GO _ (pos ++ p) h1 t1 c1 B P2 EC eq_refl)
    | _ => idtac end.
  all: destruct pos as [|d0 pos0]; [destruct PL as [PF PR PP PQ]; inversion PP; subst; rewrite Nat.eqb_refl; cbn [obind run fst snd]; exists h, t; auto|].
  all: destruct (placed_up h par t (d0 :: pos0) at_ PL) as (NE & m & q & DM & PM & P2); [discriminate|]; destruct (Nat.eqb_spec at_ (tid t)) as [E|_]; [contradiction|].
  all: rewrite DM; cbn [obind]; rewrite PM; cbn [obind]; eapply GO; eauto.
Qed.
End Loop.
