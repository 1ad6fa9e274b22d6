From Verif Require Import Base Text SMap KeyValueDirectoryModel StringHelperModel StringHelperSpec StringHelperProofs GetoptModel ConfigModel ConfigGetModel ConfigGetSpec.
From Verif Require LogTextModel LogTextSpec LogTextProofs ATreeModel.
Local Open Scope Z_scope.

(* ---- digits ---- *)
Lemma all_bytes (P : ascii -> Prop) : (forall n, (n < 256)%nat -> P (ascii_of_nat n)) -> forall c, P c.
Proof. intros H c. rewrite <- (ascii_nat_embedding c). apply H. apply nat_ascii_bounded. Qed.

Fixpoint find_digit (c : ascii) (l : str) (v : nat) : option nat :=
  match l with [] => None | d :: r => if Ascii.eqb c d then Some v else find_digit c r (S v) end.
Definition hexval_ok (c : ascii) : bool :=
  let look := match find_digit c $"0123456789abcdef" 0 with Some v => Some v | None => find_digit c $"0123456789ABCDEF" 0 end in
  match hexval c, look with
  | Some z, Some v => Z.eqb z (Z.of_nat v)
  | None, None => true
  | _, _ => false
  end.
Lemma hexval_all : forallb (fun n => hexval_ok (ascii_of_nat n)) (seq 0 256) = true.
Proof. vm_compute. reflexivity. Qed.
Lemma hexval_check c : hexval_ok c = true.
Proof.
  revert c. apply all_bytes. intros n Hn. pose proof hexval_all as A. rewrite forallb_forall in A. apply A. apply in_seq. lia.
Qed.
Lemma find_digit_some c l : forall v0 v, find_digit c l v0 = Some v -> (v0 <= v)%nat /\ nth_error l (v - v0) = Some c.
Proof.
  induction l as [|d l IH]; intros v0 v E; cbn in E; [discriminate|].
  destruct (Ascii.eqb_spec c d) as [->|N].
  - injection E as ->. split; [lia|]. rewrite Nat.sub_diag. reflexivity.
  - destruct (IH _ _ E) as (L & H). split; [lia|]. replace (v - v0)%nat with (S (v - S v0)) by lia. exact H.
Qed.
Lemma find_digit_none c l : forall v0, find_digit c l v0 = None -> ~ In c l.
Proof.
  induction l as [|d l IH]; intros v0 E; cbn in E; [auto|].
  destruct (Ascii.eqb_spec c d) as [->|N]; [discriminate|]. intros [Q|Q]; [congruence|]. exact (IH _ E Q).
Qed.
Lemma digit_table : forall v c, nth_error $"0123456789abcdef" v = Some c \/ nth_error $"0123456789ABCDEF" v = Some c -> hexval c = Some (Z.of_nat v).
Proof.
  intros v c H. do 16 (destruct v as [|v]; [cbn in H; destruct H as [H|H]; injection H as <-; reflexivity|]).
  cbn in H. destruct H as [H|H]; destruct v; discriminate H.
Qed.
Lemma digit_iff base c v : digit base c v <-> (v < base)%nat /\ hexval c = Some (Z.of_nat v).
Proof.
  unfold digit. split; intros (L & H); split; auto.
  - apply digit_table; auto.
  - pose proof (hexval_check c) as K. unfold hexval_ok in K. rewrite H in K.
    destruct (find_digit c $"0123456789abcdef" 0) as [w|] eqn:F1.
    + apply find_digit_some in F1. destruct F1 as (_ & F1). rewrite Nat.sub_0_r in F1. apply Z.eqb_eq in K. assert (w = v) by lia. subst w. auto.
    + destruct (find_digit c $"0123456789ABCDEF" 0) as [w|] eqn:F2; [|discriminate].
      apply find_digit_some in F2. destruct F2 as (_ & F2). rewrite Nat.sub_0_r in F2. apply Z.eqb_eq in K. assert (w = v) by lia. subst w. auto.
Qed.
Lemma hexval_range c v : hexval c = Some v -> 0 <= v < 16.
Proof.
  unfold hexval. intros H. destruct (48 <=? Z.of_nat (nat_of_ascii c)) eqn:E1, (Z.of_nat (nat_of_ascii c) <=? 57) eqn:E2; cbn [andb] in H;
  try (injection H as <-; lia);
  destruct (97 <=? Z.of_nat (nat_of_ascii c)) eqn:E3, (Z.of_nat (nat_of_ascii c) <=? 102) eqn:E4; cbn [andb] in H; try (injection H as <-; lia);
  destruct (65 <=? Z.of_nat (nat_of_ascii c)) eqn:E5, (Z.of_nat (nat_of_ascii c) <=? 70) eqn:E6; cbn [andb] in H; try (injection H as <-; lia); discriminate.
Qed.
Lemma digit_of_some base c v : digit_of (Z.of_nat base) c = Some (Z.of_nat v) <-> digit base c v.
Proof.
  rewrite digit_iff. unfold digit_of. destruct (hexval c) as [z|] eqn:E.
  - destruct (z <? Z.of_nat base) eqn:L; split; intros H.
    + injection H as ->. split; [lia|reflexivity].
    + destruct H as (_ & H). exact H.
    + discriminate.
    + destruct H as (K & H). injection H as ->. lia.
  - split; [discriminate|]. intros (_ & H). discriminate.
Qed.
Lemma digit_of_none base c : digit_of (Z.of_nat base) c = None <-> forall v, ~ digit base c v.
Proof.
  split.
  - intros H v D. apply digit_of_some in D. congruence.
  - intros H. destruct (digit_of (Z.of_nat base) c) as [z|] eqn:E; [exfalso|reflexivity].
    assert (0 <= z) by (unfold digit_of in E; destruct (hexval c) eqn:X; [|discriminate]; apply hexval_range in X; destruct (z0 <? Z.of_nat base); [injection E as <-; lia|discriminate]).
    apply (H (Z.to_nat z)). apply digit_of_some. rewrite Z2Nat.id by lia. exact E.
Qed.

(* ---- numerals ---- *)
Lemma scan_app base ds rest : forall acc, (forall c, In c ds -> exists v, digit base c v) ->
  scan_number (Z.of_nat base) (ds ++ rest) acc = scan_number (Z.of_nat base) rest (scan_number (Z.of_nat base) ds acc).
Proof.
  induction ds as [|c ds IH]; intros acc H; cbn [app scan_number]; [reflexivity|].
  destruct (H c (or_introl eq_refl)) as (v & D). apply digit_of_some in D. rewrite D. apply IH. intros; apply H; right; auto.
Qed.
Lemma written_digits base ds n : written base ds n -> forall c, In c ds -> exists v, digit base c v.
Proof.
  induction 1 as [|ds n c v W IH D]; intros x Hx; [destruct Hx|]. apply in_app_or in Hx. destruct Hx as [Hx|[<-|[]]]; eauto.
Qed.
Lemma written_scan base ds n : written base ds n -> scan_number (Z.of_nat base) ds 0 = n.
Proof.
  induction 1 as [|ds n c v W IH D]; [reflexivity|]. rewrite scan_app by (eapply written_digits; eauto). rewrite IH. cbn [scan_number].
  apply digit_of_some in D. rewrite D. reflexivity.
Qed.
Lemma written_nonneg base ds n : written base ds n -> 0 <= n.
Proof. induction 1; [lia|]. nia. Qed.
Lemma scan_stop base rest acc : no_digit_first base rest -> scan_number (Z.of_nat base) rest acc = acc.
Proof.
  intros H. destruct rest as [|c r]; [reflexivity|]. cbn [scan_number].
  destruct (digit_of (Z.of_nat base) c) eqn:E; [exfalso|reflexivity].
  assert (N : digit_of (Z.of_nat base) c = None) by (apply digit_of_none; intros v D; exact (H c r v eq_refl D)). congruence.
Qed.
Lemma scan_written base ds rest n : written base ds n -> no_digit_first base rest -> scan_number (Z.of_nat base) (ds ++ rest) 0 = n.
Proof.
  intros W N. rewrite scan_app by (eapply written_digits; eauto). rewrite (written_scan _ _ _ W). apply scan_stop. exact N.
Qed.
(* the longest run of digits *)
Lemma split_digits base s : exists ds rest n, s = ds ++ rest /\ written base ds n /\ no_digit_first base rest.
Proof.
  assert (G : forall s pre n, written base pre n -> exists ds rest n', s = ds ++ rest /\ written base (pre ++ ds) n' /\ no_digit_first base rest).
  { clear s. induction s as [|c s IH]; intros pre n W.
    - exists [], [], n. rewrite (app_nil_r pre). split; [reflexivity|]. split; [auto|]. intros c r v Q. discriminate.
    - destruct (digit_of (Z.of_nat base) c) as [z|] eqn:E.
      + assert (Hz : exists v, z = Z.of_nat v).
        { exists (Z.to_nat z). unfold digit_of in E. destruct (hexval c) eqn:X; [|discriminate]. apply hexval_range in X.
          destruct (z0 <? Z.of_nat base); [injection E as <-; lia|discriminate]. }
        destruct Hz as (v & ->). apply digit_of_some in E. destruct (IH _ _ (W_snoc _ _ _ _ _ W E)) as (ds & rest & n' & -> & W' & N).
        exists (c :: ds), rest, n'. split; [reflexivity|]. split; [|exact N]. rewrite <- app_assoc in W'. exact W'.
      + exists [], (c :: s), n. rewrite (app_nil_r pre). split; [reflexivity|]. split; [auto|]. intros c' r v Q. injection Q as <- <-.
        apply digit_of_none. exact E. }
  destruct (G s [] 0 (W_nil _)) as (ds & rest & n & E & W & N). exists ds, rest, n. auto.
Qed.
Lemma nodigit_nil base c r : (forall v, ~ digit base c v) -> no_digit_first base (c :: r).
Proof. intros H c' r' v Q. injection Q as <- <-. apply H. Qed.
Lemma zero_digit base : (0 < base)%nat -> digit base "0"%char 0.
Proof. intros H. split; [exact H|]. left. reflexivity. Qed.
Lemma digit_fun base c v w : digit base c v -> digit base c w -> v = w.
Proof. rewrite !digit_iff. intros (_ & A) (_ & B). rewrite A in B. injection B as B. lia. Qed.
Lemma written_cons base c v ds n : digit base c v -> written base (c :: ds) n -> scan_number (Z.of_nat base) ds (Z.of_nat v) = n.
Proof. intros D W. apply written_scan in W. cbn [scan_number] in W. apply digit_of_some in D. rewrite D in W. exact W. Qed.
Lemma written_zero base ds n : (0 < base)%nat -> written base ds n -> written base ("0"%char :: ds) n.
Proof.
  intros Hb. induction 1 as [|ds n c v W IH D].
  - exact (W_snoc base [] 0 _ 0 (W_nil _) (zero_digit base Hb)).
  - exact (W_snoc base ("0"%char :: ds) n c v IH D).
Qed.
Lemma x_hex r s : x_first s r -> exists x, s = x :: r /\ (x = "x"%char \/ x = "X"%char).
Proof. intros [->| ->]; eauto. Qed.
Lemma xs_test x : (x = "x"%char \/ x = "X"%char) <-> (Ascii.eqb x "x"%char || Ascii.eqb x "X"%char = true).
Proof.
  rewrite orb_true_iff, !Ascii.eqb_eq. reflexivity.
Qed.
Lemma x_not_oct x v : (x = "x"%char \/ x = "X"%char) -> ~ digit 8 x v.
Proof. intros [-> | ->] D; apply digit_iff in D; destruct D as (_ & D); vm_compute in D; discriminate. Qed.
Lemma unsigned_ok s n : unsigned_numeral s n -> unsigned_text s = n.
Proof.
  intros H. destruct H as [c v ds rest n D NZ W N|ds rest n W N X|x ds rest n X NE W N].
  - cbn [app unsigned_text]. destruct (Ascii.eqb_spec c "0"%char) as [->|_].
    + exfalso. apply NZ. eapply digit_fun; [exact D|]. apply zero_digit. lia.
    + change (c :: ds ++ rest) with ((c :: ds) ++ rest). exact (scan_written 10 _ _ _ W N).
  - cbn [app unsigned_text]. rewrite Ascii.eqb_refl.
    assert (G : scan_number 8 ("0"%char :: ds ++ rest) 0 = n).
    { change ("0"%char :: ds ++ rest) with (("0"%char :: ds) ++ rest). exact (scan_written 8 _ _ _ (written_zero 8 _ _ ltac:(lia) W) N). }
    destruct ds as [|d ds].
    + cbn [app] in G |- *. pose proof (written_scan _ _ _ W) as Q. cbn in Q. rewrite <- Q in G |- *. destruct rest as [|x r]; [reflexivity|].
      destruct (Ascii.eqb x "x"%char || Ascii.eqb x "X"%char) eqn:E; [|exact G]. apply xs_test in E.
      assert (XF : x_first (x :: r) r) by (unfold x_first; destruct E as [-> | ->]; auto).
      exact (scan_stop 16 r 0 (X eq_refl r XF)).
    + cbn [app] in *. destruct (Ascii.eqb d "x"%char || Ascii.eqb d "X"%char) eqn:E; [|exact G]. apply xs_test in E. exfalso.
      destruct (written_digits _ _ _ W d (or_introl eq_refl)) as (v & D). exact (x_not_oct d v E D).
  - destruct (x_hex _ _ X) as (x' & -> & E). cbn [app unsigned_text]. rewrite Ascii.eqb_refl. apply xs_test in E. rewrite E.
    exact (scan_written 16 _ _ _ W N).
Qed.
Definition decimal_digit_first (s : str) : Prop := exists c r v, s = c :: r /\ digit 10 c v.
Lemma unsigned_total s : decimal_digit_first s -> exists n, unsigned_numeral s n.
Proof.
  intros (c & r & v & -> & D). destruct (Nat.eq_dec v 0) as [->|NZ].
  - assert (Q : c = "0"%char). { destruct D as (_ & [D|D]); cbn in D; congruence. } subst c.
    assert (O : (forall r', x_first r r' -> no_digit_first 16 r') \/ exists x r', r = x :: r' /\ (x = "x"%char \/ x = "X"%char) /\ ~ no_digit_first 16 r').
    { destruct r as [|x r']; [left; intros r' [Q|Q]; discriminate|].
      destruct (Ascii.eqb x "x"%char || Ascii.eqb x "X"%char) eqn:E.
      - apply xs_test in E. destruct (split_digits 16 r') as (ds & rest & n & -> & W & N). destruct ds as [|d ds].
        + left. intros r'' X. cbn [app] in X. destruct X as [X|X]; injection X as _ <-; exact N.
        + right. exists x, ((d :: ds) ++ rest). split; [reflexivity|]. split; [exact E|]. intros K.
          destruct (written_digits _ _ _ W d (or_introl eq_refl)) as (v & Dv). exact (K d _ v eq_refl Dv).
      - left. intros r'' X. exfalso. assert (T : x = "x"%char \/ x = "X"%char) by (destruct X as [X|X]; injection X as -> _; auto).
        apply xs_test in T. congruence. }
    destruct O as [O|(x & r' & -> & E & ND)].
    + destruct (split_digits 8 r) as (ds & rest & n & -> & W & N). exists n. apply U_oct; auto. intros -> r' X. exact (O r' X).
    + destruct (split_digits 16 r') as (ds & rest & n & -> & W & N). exists n. 
      change ("0"%char :: x :: ds ++ rest) with ("0"%char :: [x] ++ ds ++ rest). apply U_hex; auto.
      * unfold x_first. destruct E as [-> | ->]; auto.
      * intros ->. exact (ND N).
  - destruct (split_digits 10 (c :: r)) as (ds & rest & n & E & W & N). destruct ds as [|d ds].
    + exfalso. cbn [app] in E. subst rest. exact (N c r v eq_refl D).
    + injection E as <- ->. exists n. change (c :: ds ++ rest) with ((c :: ds) ++ rest). eapply U_dec; eauto.
Qed.
Lemma unsigned_first s n : unsigned_numeral s n -> decimal_digit_first s.
Proof.
  intros H. destruct H as [c v ds rest n D NZ W N|ds rest n W N X|x ds rest n X NE W N].
  - exists c, (ds ++ rest), v. auto.
  - exists "0"%char, (ds ++ rest), 0%nat. split; [reflexivity|apply zero_digit; lia].
  - exists "0"%char, (x ++ ds ++ rest), 0%nat. split; [reflexivity|apply zero_digit; lia].
Qed.
Lemma unsigned_none s : ~ decimal_digit_first s -> unsigned_text s = 0.
Proof.
  intros H. destruct s as [|c r]; [reflexivity|]. cbn [unsigned_text]. destruct (Ascii.eqb_spec c "0"%char) as [->|N].
  - exfalso. apply H. exists "0"%char, r, 0%nat. split; [reflexivity|apply zero_digit; lia].
  - apply (scan_stop 10). intros c' r' v Q D. injection Q as <- <-. apply H. exists c, r, v. auto.
Qed.
Lemma unsigned_nonneg s n : unsigned_numeral s n -> 0 <= n.
Proof. intros H. destruct H as [c v ds rest n D NZ W N|ds rest n W N X|x ds rest n X NE W N]; eapply written_nonneg; eauto. Qed.
Lemma decimal_digit_dec s : decimal_digit_first s \/ ~ decimal_digit_first s.
Proof.
  destruct s as [|c r]; [right; intros (c & r & v & Q & _); discriminate|].
  destruct (digit_of (Z.of_nat 10) c) as [z|] eqn:E.
  - left. exists c, r, (Z.to_nat z). split; [reflexivity|]. apply digit_of_some. rewrite E. f_equal.
    unfold digit_of in E. destruct (hexval c) eqn:X; [|discriminate]. apply hexval_range in X. destruct (z0 <? Z.of_nat 10); [injection E as <-; lia|discriminate].
  - right. intros (c' & r' & v & Q & D). injection Q as <- <-. apply digit_of_some in D. congruence.
Qed.

(* ---- blanks, words ---- *)
Lemma skip_blank b s : blank b -> skip_space (b ++ s) = skip_space s.
Proof. unfold skip_space. induction 1 as [|c b Hc Hb IH]; [reflexivity|]. cbn. rewrite Hc. exact IH. Qed.
Lemma skip_split s : exists b, blank b /\ s = b ++ skip_space s /\ (forall c r, skip_space s = c :: r -> is_space c = false).
Proof.
  unfold skip_space. induction s as [|c s (b & B & E & N)]; cbn.
  - exists []. split; [constructor|]. split; [reflexivity|]. discriminate.
  - destruct (is_space c) eqn:Hc.
    + exists (c :: b). split; [constructor; auto|]. split; [cbn; congruence|exact N].
    + exists []. split; [constructor|]. split; [reflexivity|]. intros c' r' Q. injection Q as <- <-. exact Hc.
Qed.
Lemma skip_first c r : is_space c = false -> skip_space (c :: r) = c :: r.
Proof. intros H. unfold skip_space. cbn. rewrite H. reflexivity. Qed.
Lemma skip_nil s : skip_space s = [] <-> blank s.
Proof.
  split.
  - intros H. destruct (skip_split s) as (b & B & E & _). rewrite H, app_nil_r in E. subst s. exact B.
  - intros H. rewrite <- (app_nil_r s). rewrite skip_blank by exact H. reflexivity.
Qed.
Lemma word_split s : exists r, s = word s ++ r /\ (forall c, In c (word s) -> is_space c = false) /\ (forall c r', r = c :: r' -> is_space c = true).
Proof.
  induction s as [|c s (r & E & A & B)]; cbn.
  - exists []. split; [reflexivity|]. split; [intros c []|discriminate].
  - destruct (is_space c) eqn:Hc.
    + exists (c :: s). split; [reflexivity|]. split; [intros c' []|]. intros c' r' Q. injection Q as <- <-. exact Hc.
    + exists r. split; [cbn; congruence|]. split; [|exact B]. intros c' [<-|Q]; auto.
Qed.
Lemma word_app w r : (forall c, In c w -> is_space c = false) -> (forall c r', r = c :: r' -> is_space c = true) -> word (w ++ r) = w.
Proof.
  induction w as [|c w IH]; intros A B; cbn.
  - destruct r as [|c r]; [reflexivity|]. cbn. rewrite (B c r eq_refl). reflexivity.
  - rewrite (A c (or_introl eq_refl)). f_equal. apply IH; auto. intros; apply A; right; auto.
Qed.
Lemma word_first s w : first_word s w <-> word (skip_space s) = w.
Proof.
  split.
  - intros (b & r & -> & B & A & R & Z). rewrite skip_blank by exact B. destruct w as [|c w].
    + rewrite (Z eq_refl). reflexivity.
    + cbn [app]. rewrite skip_first by (apply A; left; reflexivity). change (c :: w ++ r) with ((c :: w) ++ r). apply word_app; auto.
  - intros <-. destruct (skip_split s) as (b & B & E & N). destruct (word_split (skip_space s)) as (r & E2 & A & R).
    exists b, r. split; [rewrite <- E2; exact E|]. split; [exact B|]. split; [exact A|]. split; [exact R|].
    intros Z. destruct (skip_space s) as [|c s'] eqn:Q; [cbn in E2; destruct r; [reflexivity|discriminate]|].
    exfalso. cbn in Z. rewrite (N c s' eq_refl) in Z. discriminate.
Qed.
Lemma first_word_exists s : exists w, first_word s w.
Proof. exists (word (skip_space s)). apply word_first. reflexivity. Qed.

(* ---- integers ---- *)
Lemma digit_no_space c v : digit 10 c v -> is_space c = false.
Proof.
  intros (_ & D). do 16 (destruct v as [|v]; [cbn in D; destruct D as [D|D]; injection D as <-; reflexivity|]).
  cbn in D. destruct D as [D|D]; destruct v; discriminate D.
Qed.
Lemma digit_no_sign c v : digit 10 c v -> Ascii.eqb c "-"%char = false /\ Ascii.eqb c "+"%char = false.
Proof.
  intros (_ & D). do 16 (destruct v as [|v]; [cbn in D; destruct D as [D|D]; injection D as <-; split; reflexivity|]).
  cbn in D. destruct D as [D|D]; destruct v; discriminate D.
Qed.
Lemma int_text_scan s neg n : int_text s neg n -> num_get (skip_space s) = (neg, n) /\ skip_space s <> [].
Proof.
  intros (b & sign & t & -> & B & U & Sg). rewrite skip_blank by exact B.
  pose proof (unsigned_first _ _ U) as (c & r & v & -> & D). pose proof (digit_no_space _ _ D) as NS. pose proof (digit_no_sign _ _ D) as (M & P).
  pose proof (unsigned_ok _ _ U) as V.
  destruct Sg as [([-> | ->] & ->)|(-> & ->)].
  - cbn [app]. rewrite skip_first by exact NS. split; [|discriminate]. cbn [num_get]. rewrite M, P, V. reflexivity.
  - change ($"+" ++ c :: r) with ("+"%char :: c :: r). rewrite skip_first by reflexivity. split; [|discriminate].
    cbn [num_get]. change (Ascii.eqb "+" "-") with false. change (Ascii.eqb "+" "+") with true. cbn match. rewrite V. reflexivity.
  - change ($"-" ++ c :: r) with ("-"%char :: c :: r). rewrite skip_first by reflexivity. split; [|discriminate].
    cbn [num_get]. change (Ascii.eqb "-" "-") with true. cbn match. rewrite V. reflexivity.
Qed.
Lemma int_text_nonneg s neg n : int_text s neg n -> 0 <= n.
Proof. intros (b & sign & t & -> & B & U & Sg). eapply unsigned_nonneg; eauto. Qed.
Lemma int_text_total s : ~ blank s -> (exists neg n, int_text s neg n) \/ ((forall neg n, ~ int_text s neg n) /\ snd (num_get (skip_space s)) = 0).
Proof.
  intros NB. destruct (skip_split s) as (b & B & E & N). destruct (skip_space s) as [|c r] eqn:Q.
  - exfalso. apply NB. rewrite E, app_nil_r. exact B.
  - set (sg := Ascii.eqb c "-"%char || Ascii.eqb c "+"%char).
    set (t := if sg then r else c :: r).
    assert (V : snd (num_get (c :: r)) = unsigned_text t).
    { unfold t, sg. cbn [num_get]. destruct (Ascii.eqb c "-"%char); [reflexivity|]. destruct (Ascii.eqb c "+"%char); reflexivity. }
    destruct (decimal_digit_dec t) as [D|D].
    + left. destruct (unsigned_total _ D) as (n & U). unfold t, sg in U. rewrite E.
      destruct (Ascii.eqb_spec c "-"%char) as [->|M]; [|destruct (Ascii.eqb_spec c "+"%char) as [->|P]]; cbn [orb] in U.
      * exists true, n, b, $"-", r. auto 10.
      * exists false, n, b, $"+", r. auto 10.
      * exists false, n, b, [], (c :: r). auto 10.
    + right. rewrite V. split; [|apply unsigned_none; exact D]. intros neg n T. apply D.
      destruct T as (b' & sign & t' & E' & B' & U & Sg).
      assert (SK : skip_space s = skip_space (sign ++ t')) by (rewrite E'; apply skip_blank; exact B').
      pose proof (unsigned_first _ _ U) as DD. destruct DD as (c' & r' & v & -> & D').
      pose proof (digit_no_space _ _ D') as NS. pose proof (digit_no_sign _ _ D') as (M & P). rewrite Q in SK.
      unfold t, sg. destruct Sg as [([-> | ->] & ->)|(-> & ->)].
      * cbn [app] in SK. rewrite skip_first in SK by exact NS. injection SK as -> ->. rewrite M, P. cbn. exists c', r', v. auto.
      * change ($"+" ++ c' :: r') with ("+"%char :: c' :: r') in SK. rewrite skip_first in SK by reflexivity. injection SK as -> ->. cbn. exists c', r', v. auto.
      * change ($"-" ++ c' :: r') with ("-"%char :: c' :: r') in SK. rewrite skip_first in SK by reflexivity. injection SK as -> ->. cbn. exists c', r', v. auto.
Qed.
Lemma int_text_fun s neg n neg' n' : int_text s neg n -> int_text s neg' n' -> neg = neg' /\ n = n'.
Proof. intros A B. apply int_text_scan in A. apply int_text_scan in B. destruct A as (A & _), B as (B & _). rewrite A in B. injection B as -> ->. auto. Qed.
Lemma int_text_nonblank s neg n : int_text s neg n -> ~ blank s.
Proof. intros A K. apply int_text_scan in A. destruct A as (_ & A). apply A. apply skip_nil. exact K. Qed.
Lemma cast_int i s neg n : int_text s neg n -> hexical_cast (TInt i) s = Ok (VZ (store_int i neg n)).
Proof.
  intros T. apply int_text_scan in T. destruct T as (E & NE). unfold hexical_cast. destruct (skip_space s) as [|c r]; [congruence|]. rewrite E. reflexivity.
Qed.
Lemma store_in_range i neg n : 0 <= n -> in_range i (signed_value neg n) -> store_int i neg n = signed_value neg n.
Proof.
  unfold in_range, signed_value, store_int. change lowest with imin in *; change highest with imax in *; change signed_type with isigned in *. intros H R. destruct i; cbn [isigned imin imax] in *; try (destruct neg; lia).
  all: destruct neg; [assert (n = 0) by lia; subst n; reflexivity|].
  all: match goal with |- (if ?b then _ else _) = _ => destruct b eqn:E; lia end.
Qed.
Lemma cast_none i s : ~ blank s -> (forall neg n, ~ int_text s neg n) -> hexical_cast (TInt i) s = Ok (VZ 0).
Proof.
  intros NB N. destruct (int_text_total s NB) as [(neg & n & T)|(_ & V)]; [exfalso; exact (N _ _ T)|].
  unfold hexical_cast. destruct (skip_space s) as [|c r] eqn:Q; [exfalso; apply NB; apply skip_nil; exact Q|].
  destruct (num_get (c :: r)) as (neg, m). cbn [snd] in V. subst m. unfold store_int.
  destruct i, neg; reflexivity.
Qed.
Lemma cast_blank t s : blank s -> t <> TString -> hexical_cast t s = UB.
Proof. intros B N. apply skip_nil in B. unfold hexical_cast. rewrite B. destruct t; congruence. Qed.

(* decimal text *)
Lemma is_digit_digit c : is_digit c = true -> digit 10 c (Z.to_nat (dvalue c)) /\ 0 <= dvalue c.
Proof.
  unfold is_digit, dvalue. intros H. apply andb_true_iff in H. destruct H as (H1 & H2). apply Nat.leb_le in H1, H2. split; [|lia].
  apply digit_iff. split; [lia|]. unfold hexval. replace (48 <=? Z.of_nat (nat_of_ascii c)) with true by lia. replace (Z.of_nat (nat_of_ascii c) <=? 57) with true by lia.
  cbn [andb]. f_equal. lia.
Qed.
Lemma number_written d : (forall c, In c d -> is_digit c = true) -> written 10 d (number d).
Proof.
  induction d as [|c d IH] using rev_ind; intros H; [constructor|].
  rewrite LogTextProofs.number_snoc. destruct (is_digit_digit c) as (D & P); [apply H; apply in_or_app; right; left; reflexivity|].
  pose proof (W_snoc 10 d (number d) c _ (IH (fun x Hx => H x (in_or_app _ _ _ (or_introl Hx)))) D) as W.
  rewrite Z2Nat.id in W by exact P. exact W.
Qed.
Lemma dec_text z : int_text (LogTextModel.dec z) (z <? 0) (Z.abs z).
Proof.
  destruct (LogTextProofs.dec_numeral z) as (d & E & NE & D & V & L). rewrite E.
  assert (U : unsigned_numeral d (Z.abs z)).
  { rewrite <- V. destruct d as [|c d]; [congruence|].
    destruct (Ascii.eqb_spec c "0"%char) as [->|N0].
    - rewrite (L d eq_refl). change ["0"%char] with ("0"%char :: [] ++ []). change (number ("0"%char :: [] ++ [])) with 0. apply U_oct; [constructor| |].
      + intros c r v Q. discriminate.
      + intros _ r [Q|Q]; discriminate.
    - destruct (is_digit_digit c (D c (or_introl eq_refl))) as (Dc & P).
      rewrite <- (app_nil_r (c :: d)) at 1. eapply U_dec.
      + exact Dc.
      + intros Q. apply N0. destruct Dc as (_ & Dc). rewrite Q in Dc. cbn in Dc. destruct Dc; congruence.
      + apply number_written. exact D.
      + intros c' r v Q. discriminate. }
  exists [], (if z <? 0 then $"-" else []), d. split; [reflexivity|]. split; [constructor|]. split; [exact U|]. destruct (z <? 0); auto.
Qed.
Lemma cast_dec i z : in_range i z -> hexical_cast (TInt i) (LogTextModel.dec z) = Ok (VZ z).
Proof.
  intros R. rewrite (cast_int _ _ _ _ (dec_text z)). f_equal. f_equal. 
  assert (E : signed_value (z <? 0) (Z.abs z) = z) by (unfold signed_value; destruct (z <? 0) eqn:Q; lia).
  rewrite store_in_range; [exact E|lia|rewrite E; exact R].
Qed.

(* ---- words for truth values ---- *)
Lemma lower_spec c d : lower_byte c = d -> ~ (65 <= nat_of_ascii d <= 90)%nat -> same_letter c d.
Proof.
  unfold lower_byte, same_letter. destruct (65 <=? nat_of_ascii c)%nat eqn:A, (nat_of_ascii c <=? 90)%nat eqn:B; cbn [andb]; intros <- N; auto.
  right. apply Nat.leb_le in A, B. exists (nat_of_ascii c - 65)%nat. split; [lia|]. split.
  - rewrite <- (ascii_nat_embedding c) at 1. f_equal. lia.
  - f_equal. lia.
Qed.
Lemma lower_of c d : same_letter c d -> ~ (65 <= nat_of_ascii d <= 90)%nat -> lower_byte c = d.
Proof.
  intros [-> |(k & K & -> & ->)] N.
  - unfold lower_byte. destruct (65 <=? nat_of_ascii d)%nat eqn:A, (nat_of_ascii d <=? 90)%nat eqn:B; cbn [andb]; auto. exfalso. apply Nat.leb_le in A, B. lia.
  - unfold lower_byte. rewrite nat_ascii_embedding by lia.
    replace (65 <=? 65 + k)%nat with true by (symmetry; apply Nat.leb_le; lia). replace (65 + k <=? 90)%nat with true by (symmetry; apply Nat.leb_le; lia).
    cbn [andb]. f_equal. lia.
Qed.
Lemma spells_lower s w : Forall (fun d => ~ (65 <= nat_of_ascii d <= 90)%nat) w -> (spells s w <-> map lower_byte s = w).
Proof.
  unfold spells. revert s. induction w as [|d w IH]; intros s H.
  - split; [intros A; inversion A; reflexivity|]. destruct s; [constructor|discriminate].
  - inversion H as [|? ? Hd Hw]; subst. split.
    + intros A. inversion A as [|c ? s' ? L A']; subst. cbn. f_equal; [apply lower_of; auto|]. apply IH; auto.
    + destruct s as [|c s]; [discriminate|]. cbn [map]. intros E. injection E as E1 E2. constructor; [apply lower_spec; auto|]. apply IH; auto.
Qed.
Ltac lowercase := repeat constructor; vm_compute; lia.
Lemma true_lower s : true_word s <-> one_of (map lower_byte s) [$"1"; $"yes"; $"true"] = true.
Proof.
  unfold true_word. rewrite !spells_lower by lowercase. unfold one_of. rewrite existsb_exists. split.
  - intros [H|[H|H]]; [exists $"1"|exists $"yes"|exists $"true"]; (split; [cbn [In]; auto|]); unfold str_is; rewrite H; destruct (list_eq_dec ascii_dec _ _); congruence.
  - intros (x & I & E). unfold str_is in E. destruct (list_eq_dec ascii_dec (map lower_byte s) x) as [Q|Q]; [|discriminate]. rewrite Q. destruct I as [<-|[<-|[<-|[]]]]; auto.
Qed.
Lemma false_lower s : false_word s <-> one_of (map lower_byte s) [$"0"; $"no"; $"false"] = true.
Proof.
  unfold false_word. rewrite !spells_lower by lowercase. unfold one_of. rewrite existsb_exists. split.
  - intros [H|[H|H]]; [exists $"0"|exists $"no"|exists $"false"]; (split; [cbn [In]; auto|]); unfold str_is; rewrite H; destruct (list_eq_dec ascii_dec _ _); congruence.
  - intros (x & I & E). unfold str_is in E. destruct (list_eq_dec ascii_dec (map lower_byte s) x) as [Q|Q]; [|discriminate]. rewrite Q. destruct I as [<-|[<-|[<-|[]]]]; auto.
Qed.
Lemma true_not_false s : true_word s -> ~ false_word s.
Proof.
  unfold true_word, false_word. rewrite !spells_lower by lowercase. intros [H|[H|H]] [K|[K|K]]; rewrite H in K; discriminate.
Qed.
Lemma toLower_ascii s : ascii_only s -> toLower s = Ok (map lower_byte s).
Proof.
  unfold toLower. induction 1 as [|c s Hc Hs IH]; [reflexivity|]. cbn [transform map]. unfold tolower at 1.
  replace (128 <=? nat_of_ascii c)%nat with false by (symmetry; apply Nat.leb_gt; exact Hc). cbn [bind]. rewrite IH. reflexivity.
Qed.
Lemma toLower_ub s : ~ ascii_only s -> toLower s = UB.
Proof.
  unfold toLower. induction s as [|c s IH]; intros N; [exfalso; apply N; constructor|]. cbn [transform]. unfold tolower at 1.
  destruct (128 <=? nat_of_ascii c)%nat eqn:E; [reflexivity|]. apply Nat.leb_gt in E. cbn [bind]. rewrite IH; [reflexivity|]. intros K. apply N. constructor; auto.
Qed.
(* ---- setValue ---- *)
Lemma map_get_put_same {T} (m : list (str * T)) k v : map_get (map_put m k v) k = Some v.
Proof.
  induction m as [|(k', v') m IH]; cbn [map_put map_get].
  - rewrite str_lt_irrefl. reflexivity.
  - destruct (str_lt k k') eqn:A; [cbn [map_get]; rewrite str_lt_irrefl; reflexivity|].
    destruct (str_lt k' k) eqn:B; cbn [map_get]; [rewrite A, B; exact IH|rewrite str_lt_irrefl; reflexivity].
Qed.
Lemma tell_items l : forall m k, items (tell m l k) = items m.
Proof. intros. unfold tell. destruct l; reflexivity. Qed.
Lemma put_get m k v : map_get (items (put m k v)) k = Some v.
Proof.
  assert (E : items (put m k v) = map_put (items m) k v).
  { unfold put, notify. destruct (map_get (observers (insert_item m k v)) k), (map_get (observers (insert_item m k v)) []); rewrite ?tell_items; reflexivity. }
  rewrite E. apply map_get_put_same.
Qed.
