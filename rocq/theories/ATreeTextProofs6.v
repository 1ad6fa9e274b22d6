(* the lines of a printed tree mean the commands *)
From Verif Require Import Base Text StringHelperModel LogTextModel ATreeModel ATreeSpec ATreeProofs ATreeProofs7 ATreeProofs10 ATreeTextModel ATreeTextSpec ATreeTextProofs ATreeTextProofs2 ATreeTextProofs3 ATreeTextProofs4 ATreeTextProofs5.

Lemma join_snoc pp t : pp <> [] -> join_dots (pp ++ [t]) = join_dots pp ++ $"." ++ t.
Proof.
  induction pp as [|x pp IH]; intros N; [contradiction|]. destruct pp as [|y pp]; [reflexivity|]. change ((x :: y :: pp) ++ [t]) with (x :: (y :: pp) ++ [t]).
  assert (E : join_dots (x :: (y :: pp) ++ [t]) = x ++ $"." ++ join_dots ((y :: pp) ++ [t])) by reflexivity. rewrite E, IH by discriminate.
  assert (E2 : join_dots (x :: y :: pp) = x ++ $"." ++ join_dots (y :: pp)) by reflexivity. rewrite E2. now rewrite <- !app_assoc.
Qed.
Lemma join_in l c : In c (join_dots l) -> c = "."%char \/ exists x, In x l /\ In c x.
Proof.
  induction l as [|x l IH]; [intros []|]. destruct l as [|y l]; [cbn [join_dots]; intros I; right; exists x; split; [now left|exact I]|].
  change (join_dots (x :: y :: l)) with (x ++ $"." ++ join_dots (y :: l)). intros I. apply in_app_or in I. destruct I as [I|I]; [right; exists x; split; [now left|exact I]|].
  apply in_app_or in I. destruct I as [[<-|[]]|I]; [now left|]. destruct (IH I) as [->|(z & Z1 & Z2)]; [now left|right; exists z; split; [now right|exact Z2]].
Qed.
(* a string without points occurs in a joined path only inside one component *)
Lemma part_in_join u l : ~ In "."%char u -> u <> [] -> part_of u (join_dots l) -> exists x, In x l /\ part_of u x.
Proof.
  intros NU NE. induction l as [|x l IH]; [intros (a & b & E); destruct a, u; try discriminate; contradiction|]. destruct l as [|y l]; [intros P; exists x; split; [now left|exact P]|].
  change (join_dots (x :: y :: l)) with (x ++ $"." ++ join_dots (y :: l)). intros (a & b & E).
  apply app_eq_app in E. destruct E as (k & [[E1 E2]|[E1 E2]]).
  - (* x = a ++ k, u ++ b = k ++ "." ++ ... *)
    symmetry in E2. apply app_eq_app in E2. destruct E2 as (m & [[E3 E4]|[E3 E4]]).
    + exists x. split; [now left|]. subst. exists a, m. reflexivity.
    + destruct m as [|c m]; [exists x; split; [now left|]; exists a, []; subst; now rewrite !app_nil_r|]. exfalso. apply NU. cbn in E4. injection E4 as <- _. subst u. apply in_elt.
  - destruct k as [|c k]; [|cbn in E2; injection E2 as <- E2; destruct IH as (z & Z1 & Z2); [exists k, b; exact E2|exists z; split; [now right|exact Z2]]].
    cbn [app] in E2. destruct u as [|c u]; [contradiction|]. cbn in E2. injection E2 as <- _. exfalso. apply NU. now left.
Qed.
Lemma until_proper l : proper l -> until_empty l = l.
Proof. intros P. rewrite until_trunc. now apply trunc_proper. Qed.
Lemma blank_space : is_space " "%char = true. Proof. reflexivity. Qed.
Definition spaces (s : str) : Prop := forall c, In c s -> c = " "%char.
Lemma spaces_blanks s : spaces s -> blanks s. Proof. intros S c I. rewrite (S c I). reflexivity. Qed.
Lemma ends_spaces s : spaces s -> s <> [] -> ends_in_blank s = true.
Proof. intros S N. unfold ends_in_blank. destruct (exists_last N) as (r & c & ->). rewrite rev_app_distr. cbn [rev app]. now rewrite (S c) by (apply in_or_app; right; now left). Qed.
Lemma ends_not s : (forall r, s <> r ++ $" ") -> ends_in_blank s = false.
Proof.
  intros N. unfold ends_in_blank. destruct (rev s) as [|c r] eqn:E; [reflexivity|]. apply (f_equal (@rev _)) in E. rewrite rev_involutive in E. cbn [rev] in E.
  destruct (ascii_dec c " ") as [->|NC]; [exfalso; apply (N (rev r)); exact E|]. destruct c as [[|] [|] [|] [|] [|] [|] [|] [|]]; try reflexivity. now contradiction NC.
Qed.
Lemma app_last {A} (a b : list A) x y : a ++ [x] = b ++ [y] -> a = b /\ x = y. Proof. apply app_inj_tail. Qed.

Section M.
Variables (csd : Z) (comments : bool).
Notation cl := (clean comments).
Lemma clean_ne d : cl d -> d <> []. Proof. intros [(x & r & -> & _) _ _ _ _]. discriminate. Qed.
Lemma clean_dot d : cl d -> ~ In "."%char d. Proof. intros H I. apply (c_chars _ _ H) in I. apply (proj1 I). now left. Qed.
Lemma clean_path pp : pp <> [] -> Forall cl pp -> path_in (join_dots pp) pp.
Proof.
  intros N F. rewrite Forall_forall in F. exists pp. split; [|symmetry; apply until_proper; intros I; apply F in I; now apply clean_ne in I].
  split; [exact N|]. split; [|reflexivity]. intros x I. now apply clean_dot, F.
Qed.
Lemma clean_starts pp : pp <> [] -> Forall cl pp -> starts (join_dots pp) /\ join_dots pp <> [].
Proof.
  intros N F. destruct pp as [|x pp]; [contradiction|]. inversion F as [|? ? Hx Hp]; subst. destruct (c_first _ _ Hx) as (k & r & -> & S1 & S2).
  destruct pp; cbn [join_dots app starts]; split; try discriminate; auto.
Qed.
Lemma clean_without pp c : Forall cl pp -> In c $":{}" -> ~ In c (join_dots pp).
Proof.
  intros F IC I. apply join_in in I. destruct I as [->|(x & I & J)]; [cbn in IC; destruct IC as [E|[E|[E|[]]]]; discriminate|]. rewrite Forall_forall in F. apply F in I. apply (c_chars _ _ I) in J. apply (proj1 J). now right.
Qed.
Lemma clean_last pp : pp <> [] -> Forall cl pp -> forall r, join_dots pp <> r ++ $" ".
Proof.
  intros N F r E. destruct (exists_last N) as (q & t & ->). apply Forall_app in F. destruct F as [_ F]. inversion F as [|? ? Ht _]; subst.
  assert (X : exists s, join_dots (q ++ [t]) = s ++ t) by (destruct q as [|y q]; [exists []; reflexivity|exists (join_dots (y :: q) ++ $"."); rewrite join_snoc by discriminate; now rewrite <- app_assoc]).
  destruct X as [s X]. rewrite X in E. destruct (exists_last (clean_ne _ Ht)) as (t0 & c & ->). rewrite app_assoc in E. change $" " with [" "%char] in E. apply app_last in E. destruct E as [_ ->]. now apply (c_last _ _ Ht t0).
Qed.
Lemma clean_include pp : pp <> [] -> Forall cl pp -> join_dots pp <> include_str.
Proof.
  intros N F E. destruct pp as [|x [|y pp]]; [contradiction| |].
  - inversion F as [|? ? Hx _]. destruct (c_names _ _ Hx) as [NI _]. apply NI. exact E.
  - assert (I : In "."%char include_str) by (rewrite <- E; change (join_dots (x :: y :: pp)) with (x ++ $"." ++ join_dots (y :: pp)); apply in_or_app; right; now left).
    revert I. clear. cbn. intuition discriminate.
Qed.
Lemma clean_comment pp : Forall cl pp -> comments = true \/ ~ part_of comment_str (join_dots pp).
Proof.
  intros F. destruct comments eqn:E; [now left|right]. intros P. apply part_in_join in P; [|cbn; intuition discriminate|discriminate]. destruct P as (x & I & P). rewrite Forall_forall in F. apply F in I. now apply (c_comment _ _ I).
Qed.
Lemma printable_eq d a l : printable csd comments (C d a l) <->
    (exists x, d = Some x /\ clean comments x /\ (x = comment_str -> a <> None)) /\
    (forall v, a = Some v -> clean_value v) /\
    ((csd <= Z.of_nat (attributes (C d a l)))%Z -> a <> Some [] /\ d <> Some comment_str) /\
    NoDup (map name_of l) /\ Forall (printable csd comments) l.
Proof.
  cbn [printable]. assert (X : forall k, (fix all l := match l with [] => True | x :: r => printable csd comments x /\ all r end) k <-> Forall (printable csd comments) k).
  { induction k as [|y k IH]; [split; auto|]. split; [intros [A B]; constructor; [exact A|now apply IH]|intros A; inversion A; split; [assumption|now apply IH]]. }
  rewrite X. tauto.
Qed.
Lemma printable_separate c : printable csd comments c -> separate csd c.
Proof.
  induction c as [d a l IH] using content_ind'. intros P. apply printable_eq in P. destruct P as ((x & -> & _) & _ & P3 & P4 & P5). apply separate_eq. split; [eauto|]. split; [intros L; now apply P3|]. split; [exact P4|].
  rewrite Forall_forall in *. auto.
Qed.
Lemma printable_simple c : printable csd comments c -> simple c.
Proof.
  induction c as [d a l IH] using content_ind'. intros P. apply printable_eq in P. destruct P as ((x & -> & _ & Cx) & P2 & P3 & P4 & P5). cbn [simple]. right. split; [intros [= ->]; auto|]. split; [intros v E; apply (P2 v E)|].
  clear P4 P3. induction l as [|y l IHl]; [exact I|]. inversion IH as [|y0 l0 Iy Il]; inversion P5 as [|y1 l1 Py Pl]; subst. split; [exact (Iy Py)|exact (IHl Il Pl)].
Qed.
Lemma printable_file c : printable csd comments c -> about_file c = false.
Proof.
  destruct c as [d a l]. intros P. apply printable_eq in P. destruct P as ((x & -> & Cx & _) & _). unfold about_file. cbn [name_of opt_is]. destruct (c_names _ _ Cx) as (_ & N1 & N2).
  rewrite (proj2 (str_eqb_false x file_path_str) N1), (proj2 (str_eqb_false x file_name_str) N2). reflexivity.
Qed.
Lemma forall2_flat {A} (P : A -> Prop) (Q : str -> command -> Prop) f g l : Forall P l -> (forall x, In x l -> P x -> Forall2 Q (f x) (g x)) -> Forall2 Q (flat_map f l) (flat_map g l).
Proof. induction 1 as [|x l Px Pl IH]; intros K; [constructor|]. cbn [flat_map]. apply Forall2_app; [apply K; [now left|exact Px]|]. apply IH. intros y I. apply K. now right. Qed.

Definition upper_ok (sp : str) (pp : list str) : Prop := spaces sp /\ sp <> [] /\ Forall cl pp.
Lemma upper_step sp pp t : upper_ok sp pp -> (if ends_in_blank (sp ++ join_dots pp) then (sp ++ join_dots pp) ++ t else (sp ++ join_dots pp) ++ $"." ++ t) = sp ++ join_dots (pp ++ [t]).
Proof.
  intros (S & N & F). destruct pp as [|x pp]; [cbn [join_dots app]; rewrite app_nil_r, (ends_spaces _ S N); reflexivity|].
  rewrite ends_not. { rewrite <- app_assoc. now rewrite join_snoc by discriminate. }
  intros r E. destruct (clean_starts (x :: pp) ltac:(discriminate) F) as [_ NE]. destruct (exists_last NE) as (j & c & Ej). rewrite Ej, app_assoc in E. change $" " with [" "%char] in E. apply app_last in E. destruct E as [_ ->]. now apply (clean_last (x :: pp) ltac:(discriminate) F j).
Qed.
Lemma d_means c : printable csd comments c -> (Z.of_nat (attributes c) < csd)%Z -> forall sp pp, upper_ok sp pp -> Forall2 (means comments) (plines csd (sp ++ join_dots pp) c) (dcmds pp c).
Proof.
  induction c as [d a l IH] using content_ind'. intros P LT sp pp U. pose proof (printable_file _ P) as AF. apply printable_eq in P. destruct P as ((x & -> & Cx & _) & P2 & P3 & P4 & P5).
  cbn [plines]. rewrite AF. destruct (Z.leb_spec csd (Z.of_nat (attributes (C (Some x) a l)))) as [LE|_]; [lia|]. cbn [dcmds text_of]. rewrite upper_step by exact U.
  assert (U' : upper_ok sp (pp ++ [x])) by (destruct U as (U1 & U2 & U3); repeat split; auto; apply Forall_app; auto).
  apply Forall2_app.
  - destruct a as [v|]; constructor; [|constructor]. rewrite <- app_assoc. destruct U' as (U1 & U2 & U3). assert (NE : pp ++ [x] <> []) by (destruct pp; discriminate).
    destruct (clean_starts _ NE U3). apply m_assign; auto; [now apply spaces_blanks|intros c [<-|[]]; apply clean_without; [exact U3|now left]|now apply clean_include|now apply clean_comment|now apply clean_path].
  - rewrite Forall_forall in IH. apply (forall2_flat _ _ _ _ _ P5). intros y I Py. apply IH; auto. rewrite attributes_eq in LT. pose proof (attributes_in y l I). lia.
Qed.
Lemma b_means c : printable csd comments c -> forall sp, spaces sp -> sp <> [] \/ (csd <= Z.of_nat (attributes c))%Z -> Forall2 (means comments) (plines csd sp c) (bcmds csd c).
Proof.
  induction c as [d a l IH] using content_ind'. intros P sp S D. pose proof (printable_file _ P) as AF. pose proof P as P0. apply printable_eq in P. destruct P as ((x & -> & Cx & _) & P2 & P3 & P4 & P5).
  destruct (Z.leb_spec csd (Z.of_nat (attributes (C (Some x) a l)))) as [LE|GT].
  - cbn [plines bcmds]. rewrite AF. rewrite (proj2 (Z.leb_le _ _) LE). cbn [text_of]. destruct (P3 LE) as [NA NC]. assert (FX : Forall cl [x]) by (constructor; [exact Cx|constructor]).
    destruct (clean_starts [x] ltac:(discriminate) FX) as [ST _]. cbn [join_dots] in ST. assert (W : forall c, In c $":{}" -> ~ In c x) by (intros c I; exact (clean_without [x] c FX I)).
    constructor; [|apply Forall2_app; [|apply Forall2_app]].
    + change $"{" with ($"{" ++ []). apply m_open; auto; [now apply spaces_blanks|intros c [<-|[<-|[]]]; apply W; cbn; tauto|intros c _ []|intros ->; now apply NC|exact (clean_path [x] ltac:(discriminate) FX)].
    + destruct a as [[|k v]|]; [contradiction| |]; constructor; [|constructor]. apply m_own. now apply spaces_blanks.
    + rewrite Forall_forall in IH. apply (forall2_flat _ _ _ _ _ P5). intros y I Py. apply IH; auto; [intros c J; apply in_app_or in J; destruct J as [J|[<-|[]]]; auto|left; destruct sp; discriminate].
    + constructor; [|constructor]. change (sp ++ $"}" ++ x) with (sp ++ [] ++ $"}" ++ x). apply m_close; auto; [now apply spaces_blanks|exact I|intros c _ []|intros c [<-|[<-|[]]]; apply W; cbn; tauto].
  - destruct D as [D|D]; [|lia]. pose proof (d_means _ P0 GT sp []) as X. cbn [join_dots] in X. rewrite app_nil_r in X. cbn [bcmds]. rewrite (proj2 (Z.leb_gt _ _) GT). apply X. repeat split; auto.
Qed.
(* ---- good lines ---- *)
Lemma fits_lines xs x : fits (lines xs) -> ~ In newline x -> In x xs -> (Z.of_nat (length x) <= 1997)%Z.
Proof.
  intros F N I. apply in_split in I. destruct I as (p & q & ->). apply (F (lines p) x ([newline] ++ lines q)); [|exact N]. unfold lines. rewrite flat_map_app. cbn [flat_map]. now rewrite <- app_assoc.
Qed.
Definition line_chars (x : str) : Prop := ~ In newline x /\ ~ In "000"%char x /\ forall b, x <> b ++ [creturn].
Lemma line_chars_app a b : ~ In newline a -> ~ In "000"%char a -> ~ In creturn a -> line_chars b -> line_chars (a ++ b).
Proof.
  intros A1 A2 A3 (B1 & B2 & B3). split; [intros I; apply in_app_or in I; tauto|]. split; [intros I; apply in_app_or in I; tauto|]. intros r E.
  destruct b as [|k b] using rev_ind; [rewrite app_nil_r in E; apply A3; rewrite E; apply in_elt|]. rewrite app_assoc in E. apply app_last in E. destruct E as [_ ->]. now apply (B3 b).
Qed.
Lemma clean_chars d : cl d -> ~ In newline d /\ ~ In "000"%char d /\ ~ In creturn d.
Proof. intros H. repeat split; intros I; apply (c_chars _ _ H) in I; tauto. Qed.
Lemma spaces_chars s : spaces s -> ~ In newline s /\ ~ In "000"%char s /\ ~ In creturn s.
Proof. intros H. repeat split; intros I; apply H in I; discriminate. Qed.
Definition ok_chars (s : str) : Prop := ~ In newline s /\ ~ In "000"%char s /\ ~ In creturn s.
Lemma ok_app a b : ok_chars a -> ok_chars b -> ok_chars (a ++ b).
Proof. intros (A1 & A2 & A3) (B1 & B2 & B3). repeat split; intros I; apply in_app_or in I; tauto. Qed.
Lemma ok_line a : ok_chars a -> line_chars a.
Proof. intros (A1 & A2 & A3). repeat split; auto. intros b ->. apply A3, in_elt. Qed.
Lemma plines_chars c : printable csd comments c -> forall u, ok_chars u -> Forall line_chars (plines csd u c).
Proof.
  induction c as [d a l IH] using content_ind'. intros P u U. pose proof (printable_file _ P) as AF. apply printable_eq in P. destruct P as ((x & -> & Cx & _) & P2 & P3 & P4 & P5).
  assert (X : ok_chars x) by exact (clean_chars _ Cx). assert (K : forall k, In k [" "%char; "."%char; ":"%char; "{"%char; "}"%char] -> ok_chars [k]).
  { intros k I. repeat split; intros [J|[]]; subst k; cbn in I; intuition discriminate. }
  assert (K1 : ok_chars $" ") by (apply K; cbn; tauto). assert (K2 : ok_chars $".") by (apply K; cbn; tauto). assert (K3 : ok_chars $":") by (apply K; cbn; tauto).
  assert (K4 : ok_chars $"{") by (apply K; cbn; tauto). assert (K5 : ok_chars $"}") by (apply K; cbn; tauto). clear K.
  assert (KL : forall u, ok_chars u -> Forall line_chars (flat_map (plines csd u) l)).
  { intros u0 U0. apply Forall_forall. intros y I. apply in_flat_map in I. destruct I as (z & Iz & Iy). rewrite Forall_forall in IH, P5. specialize (IH z Iz (P5 z Iz) u0 U0). rewrite Forall_forall in IH. auto. }
  assert (KV : forall p v, ok_chars p -> a = Some v -> line_chars (p ++ $":" ++ v)).
  { intros p v (Q1 & Q2 & Q3) E. rewrite app_assoc. pose proof (ok_app p $":" (conj Q1 (conj Q2 Q3)) K3) as (R1 & R2 & R3). apply line_chars_app; auto. apply P2, E. }
  cbn [plines]. rewrite AF. destruct (csd <=? _)%Z.
  - constructor; [apply ok_line, ok_app, ok_app; auto|]. apply Forall_app. split; [destruct a as [[|k v]|]; constructor; auto|]. apply Forall_app. split; [apply KL, ok_app; auto|]. constructor; [|constructor]. apply ok_line, ok_app, ok_app; auto.
  - assert (U2 : ok_chars (if ends_in_blank u then u ++ x else u ++ $"." ++ x)) by (destruct (ends_in_blank u); repeat apply ok_app; auto).
    apply Forall_app. split; [destruct a; constructor; auto|]. apply KL, U2.
Qed.
Lemma good_lines xs : Forall line_chars xs -> fits (lines xs) -> Forall good_line xs.
Proof. rewrite !Forall_forall. intros H F x I. destruct (H x I) as (A & B & D). split; auto. now apply (fits_lines xs). Qed.
End M.
