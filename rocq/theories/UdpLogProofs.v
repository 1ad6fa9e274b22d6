(* Proofs about log messages by UDP (C62). *)
From Verif Require Import Base Text LogTextModel LogTextSpec LogTextProofs UdpLogModel UdpLogSpec.
Local Open Scope Z_scope.

Lemma escape_id s : escape s = s.
Proof.
  induction s as [|ch s IH]; [reflexivity|]. unfold escape in *. cbn [flat_map]. rewrite IH. destruct (Ascii.eqb_spec ch apostrophe) as [->|_]; reflexivity.
Qed.
Lemma code_in_spec ch a b : code_in ch a b = true <-> (a <= nat_of_ascii ch <= b)%nat.
Proof. unfold code_in. rewrite Bool.andb_true_iff, !Nat.leb_le. reflexivity. Qed.
Lemma plain_seven s : plain s -> seven_bit s.
Proof. intros P ch I0. exact (proj1 (P ch I0)). Qed.
Lemma plain_doubled s : plain s -> doubled s = s.
Proof.
  induction s as [|ch s IH]; intros P; [reflexivity|]. cbn [doubled]. destruct (Ascii.eqb_spec ch "'"%char) as [E|_].
  - destruct (P ch (or_introl eq_refl)) as [_ N]. destruct (N E).
  - rewrite IH; [reflexivity|]. intros x Hx. apply P. right; exact Hx.
Qed.

(* ---- tokens ---- *)
Definition prepend (ts : list token) (p : list token * rest) : list token * rest := (ts ++ fst p, snd p).
Lemma prepend_app a b p : prepend a (prepend b p) = prepend (a ++ b) p.
Proof. unfold prepend. cbn [fst snd]. rewrite app_assoc. reflexivity. Qed.
Lemma prepend_nil p : prepend [] p = p.
Proof. destruct p; reflexivity. Qed.
Lemma lex_some st ch r ts st' : step st ch = Some (ts, st') -> lex st (ch :: r) = prepend ts (lex st' r).
Proof. intros E. cbn [lex]. rewrite E. destruct (lex st' r). reflexivity. Qed.

Lemma lex_text s : forall t r, seven_bit s -> lex (Text t) (doubled s ++ "'"%char :: r) = lex (Quote (t ++ s)) r.
Proof.
  induction s as [|ch s IH]; intros t r P.
  - cbn [doubled app]. rewrite (lex_some (Text t) "'"%char r [] (Quote t) eq_refl), prepend_nil, app_nil_r. reflexivity.
  - assert (P' : seven_bit s) by (intros x Hx; apply P; right; exact Hx). cbn [doubled]. destruct (Ascii.eqb_spec ch "'"%char) as [->|N].
    + cbn [app]. rewrite (lex_some (Text t) "'"%char _ [] (Quote t) eq_refl), prepend_nil.
      rewrite (lex_some (Quote t) "'"%char _ [] (Text (t ++ ["'"%char])) eq_refl), prepend_nil, (IH _ _ P'), <- app_assoc. reflexivity.
    + cbn [app]. rewrite (lex_some (Text t) ch _ [] (Text (t ++ [ch]))), prepend_nil, (IH _ _ P'), <- app_assoc; [reflexivity|].
      cbn [step]. unfold apostrophe. destruct (Ascii.eqb_spec ch "'"%char) as [E|_]; [destruct (N E)|].
      rewrite (proj2 (code_in_spec ch 1 127) (P ch (or_introl eq_refl))). reflexivity.
Qed.
Lemma lex_quote t ch r : ch <> "'"%char -> lex (Quote t) (ch :: r) = prepend [TText t] (lex Between (ch :: r)).
Proof.
  intros N. cbn [lex step]. unfold apostrophe. destruct (Ascii.eqb_spec ch "'"%char) as [E|_]; [destruct (N E)|].
  destruct (begin ch) as [[ts st]|]; cbn [after complete]; [|reflexivity]. destruct (lex st r). reflexivity.
Qed.
Lemma lex_quoted s ch r : plain s -> ch <> "'"%char -> lex Between (quoted s ++ ch :: r) = prepend [TText s] (lex Between (ch :: r)).
Proof.
  intros P N. unfold quoted. rewrite <- !app_assoc. change ($"'" ++ s ++ $"'" ++ ch :: r) with ("'"%char :: s ++ "'"%char :: ch :: r).
  rewrite (lex_some Between "'"%char _ [] (Text []) eq_refl), prepend_nil. rewrite <- (plain_doubled s P) at 1.
  rewrite lex_text by (apply plain_seven; exact P). apply lex_quote. exact N.
Qed.
Lemma lex_comma r : lex Between ($"," ++ r) = prepend [TComma] (lex Between r).
Proof. exact (lex_some Between ","%char r [TComma] Between eq_refl). Qed.

Lemma digit_word ch : is_digit ch = true -> is_word ch = true /\ is_blank ch = false.
Proof.
  unfold is_digit, is_word, is_blank, code_in. rewrite Bool.andb_true_iff, !Nat.leb_le. intros [A B].
  rewrite !Bool.orb_true_iff, !Bool.orb_false_iff, !Bool.andb_true_iff, !Bool.andb_false_iff, !Nat.leb_le, !Nat.leb_gt. lia.
Qed.
Lemma lex_word w : forall w0 r, (forall ch, In ch w -> is_word ch = true) -> lex (Word w0) (w ++ r) = lex (Word (w0 ++ w)) r.
Proof.
  induction w as [|ch w IH]; intros w0 r P; [rewrite app_nil_r; reflexivity|]. cbn [app].
  rewrite (lex_some (Word w0) ch _ [] (Word (w0 ++ [ch]))), prepend_nil, IH, <- app_assoc; [reflexivity| |].
  - intros x Hx. apply P. right; exact Hx.
  - cbn [step]. rewrite (P ch (or_introl eq_refl)). reflexivity.
Qed.
Lemma begin_word ch : is_word ch = true -> begin ch = Some ([], Word [ch]).
Proof.
  intros H. unfold begin. rewrite H. replace (is_blank ch) with false; [reflexivity|]. symmetry. revert H. unfold is_word, is_blank, code_in.
  rewrite !Bool.orb_true_iff, !Bool.orb_false_iff, !Bool.andb_true_iff, !Bool.andb_false_iff, !Nat.leb_le, !Nat.leb_gt. lia.
Qed.
Lemma lex_begin_word w r : w <> [] -> (forall ch, In ch w -> is_word ch = true) -> lex Between (w ++ r) = lex (Word w) r.
Proof.
  intros N P. destruct w as [|ch w]; [destruct (N eq_refl)|]. cbn [app]. rewrite (lex_some Between ch _ [] (Word [ch])), prepend_nil.
  - rewrite lex_word; [reflexivity|]. intros x Hx. apply P. right; exact Hx.
  - cbn [step]. apply begin_word. apply P. left; reflexivity.
Qed.
Lemma lex_dec z r : 0 <= z < 2 ^ 63 -> lex Between (dec z ++ $"," ++ r) = prepend [TInt z] (lex Between ($"," ++ r)).
Proof.
  intros H. destruct (dec_numeral z) as (d & E & N & D0 & V & _). rewrite E. destruct (Z.ltb_spec z 0); [lia|]. cbn [app].
  rewrite lex_begin_word; [|exact N|intros ch I0; apply digit_word; apply D0; exact I0].
  change ($"," ++ r) with (","%char :: r). rewrite (lex_some (Word d) ","%char r [word_token d; TComma] Between eq_refl).
  rewrite (lex_some Between ","%char r [TComma] Between eq_refl), prepend_app. f_equal. cbn [app]. f_equal.
  unfold word_token. rewrite V, Z.abs_eq by lia. destruct (Z.ltb_spec z 9223372036854775808) as [_|X]; [|change (2 ^ 63) with 9223372036854775808 in H; lia].
  replace (forallb is_digit d) with true; [reflexivity|]. symmetry. apply forallb_forall. exact D0.
Qed.

(* everything before the text *)
Definition head (system : str) (m : record) : str :=
  quoted system ++ $"," ++
  quoted (r_stamp m) ++ $"," ++ dec (r_nsec m) ++ $"," ++
  quoted (logLevelDescription (r_level m)) ++ $"," ++
  quoted (r_stream m) ++ $"," ++
  quoted (r_file m) ++ $"," ++ dec (r_line m) ++ $"," ++
  quoted (r_class m) ++ $"," ++
  quoted (escape (r_object m)) ++ $"," ++
  quoted (r_function m) ++ $",".
Lemma datagram_head system m : datagram system m = head system m ++ quoted (escape (r_text m)).
Proof. unfold datagram, head. rewrite <- !app_assoc. reflexivity. Qed.
Lemma level_plain l : plain (logLevelDescription l).
Proof. assert (K : forall s, forallb (fun ch => (code_in ch 1 127 && negb (Ascii.eqb ch "'"%char))%bool) s = true -> plain s).
  { intros s H ch I0. rewrite forallb_forall in H. specialize (H ch I0). apply Bool.andb_true_iff in H. destruct H as [A B]. apply code_in_spec in A.
    split; [exact A|]. intros ->. discriminate B. }
  apply K. destruct l; reflexivity.
Qed.
Lemma level_ok l : logLevelDescription l = level_name l.
Proof. destruct l; reflexivity. Qed.
Definition head_literals (system : str) (m : record) : list literal :=
  [LText system; LText (r_stamp m); LInt (r_nsec m); LText (level_name (r_level m)); LText (r_stream m); LText (r_file m); LInt (r_line m);
   LText (r_class m); LText (r_object m); LText (r_function m)].
Definition head_tokens (system : str) (m : record) : list token :=
  [TText system; TComma; TText (r_stamp m); TComma; TInt (r_nsec m); TComma; TText (level_name (r_level m)); TComma; TText (r_stream m); TComma;
   TText (r_file m); TComma; TInt (r_line m); TComma; TText (r_class m); TComma; TText (r_object m); TComma; TText (r_function m); TComma].
Lemma lex_quoted_comma s r : plain s -> lex Between (quoted s ++ $"," ++ r) = prepend [TText s; TComma] (lex Between r).
Proof. intros P. change ($"," ++ r) with (","%char :: r). rewrite lex_quoted; [|exact P|discriminate]. change (","%char :: r) with ($"," ++ r). rewrite lex_comma, prepend_app. reflexivity. Qed.
Lemma lex_dec_comma z r : 0 <= z < 2 ^ 63 -> lex Between (dec z ++ $"," ++ r) = prepend [TInt z; TComma] (lex Between r).
Proof. intros H. rewrite lex_dec by exact H. rewrite lex_comma, prepend_app. reflexivity. Qed.
Lemma lex_head system m r : plain system -> plain_head m -> lex Between (head system m ++ r) = prepend (head_tokens system m) (lex Between r).
Proof.
  intros P (P1 & P2 & P3 & P4 & P5 & P6 & Q1 & Q2). unfold head. rewrite !escape_id. rewrite <- !app_assoc.
  rewrite (lex_quoted_comma system) by exact P. rewrite (lex_quoted_comma (r_stamp m)) by exact P1. rewrite (lex_dec_comma (r_nsec m)) by exact Q1.
  rewrite (lex_quoted_comma (logLevelDescription (r_level m))) by apply level_plain. rewrite (lex_quoted_comma (r_stream m)) by exact P2.
  rewrite (lex_quoted_comma (r_file m)) by exact P3. rewrite (lex_dec_comma (r_line m)) by exact Q2. rewrite (lex_quoted_comma (r_class m)) by exact P4.
  rewrite (lex_quoted_comma (r_object m)) by exact P5. rewrite (lex_quoted_comma (r_function m)) by exact P6.
  rewrite !prepend_app, level_ok. reflexivity.
Qed.
Lemma parse_head system m ts e : parse (NeedValue []) (head_tokens system m ++ ts) e = parse (NeedValue (head_literals system m)) ts e.
Proof. reflexivity. Qed.
Lemma lex_open r : lex Between ($"(" ++ r) = prepend [TOpen] (lex Between r).
Proof. exact (lex_some Between "("%char r [TOpen] Between eq_refl). Qed.
Lemma lex_close r : lex Between ($")" ++ r) = prepend [TClose] (lex Between r).
Proof. exact (lex_some Between ")"%char r [TClose] Between eq_refl). Qed.

(* ---- NUL ---- *)
Definition no_nul (s : str) : Prop := forall ch, In ch s -> ch <> nul.
Lemma c_string_app a b : no_nul a -> c_string (a ++ b) = a ++ c_string b.
Proof.
  induction a as [|ch a IH]; intros P; [reflexivity|]. cbn [app c_string]. destruct (Ascii.eqb_spec ch nul) as [E|_]; [destruct (P ch (or_introl eq_refl) E)|].
  rewrite IH; [reflexivity|]. intros x Hx. apply P. right; exact Hx.
Qed.
Lemma c_string_id a : no_nul a -> c_string a = a.
Proof. intros P. rewrite <- (app_nil_r a) at 1. rewrite c_string_app by exact P. rewrite app_nil_r. reflexivity. Qed.
Lemma no_nul_app a b : no_nul a -> no_nul b -> no_nul (a ++ b).
Proof. intros A B ch I0. apply in_app_or in I0. destruct I0; [exact (A ch H)|exact (B ch H)]. Qed.
Lemma seven_no_nul s : seven_bit s -> no_nul s.
Proof. intros P ch I0 E. specialize (P ch I0). rewrite E in P. cbn in P. lia. Qed.
Lemma no_nul_quoted s : no_nul s -> no_nul (quoted s).
Proof. intros P. unfold quoted. apply no_nul_app; [|apply no_nul_app; [exact P|]]; intros ch [<-|[]]; discriminate. Qed.
Lemma head_no_nul system m : plain system -> plain_head m -> no_nul (head system m).
Proof.
  intros P (P1 & P2 & P3 & P4 & P5 & P6 & _). unfold head. rewrite escape_id.
  assert (Cm : no_nul ($",")) by (intros ch [<-|[]]; discriminate).
  assert (Q : forall s, plain s -> no_nul (quoted s)) by (intros s X; apply no_nul_quoted, seven_no_nul, plain_seven; exact X).
  assert (D0 : forall z, no_nul (dec z)) by (intros z ch I0 ->; exact (dec_no_nul z I0)).
  repeat (apply no_nul_app; [first [exact Cm|apply D0|apply Q; first [assumption|apply level_plain]]|]). exact Cm.
Qed.

(* ---- what is stored ---- *)
Lemma row_fits system m : fits 0 (row_of system m) = true.
Proof. reflexivity. Qed.
(* a text with doubled apostrophes *)
Lemma received_doubled system m t : plain system -> plain_head m -> seven_bit t ->
  received (datagram system (with_text m (doubled t))) = Stored [row_of system (with_text m t)].
Proof.
  intros P H T0. unfold received. rewrite c_string_id.
  2:{ rewrite datagram_head. apply no_nul_app; [exact (head_no_nul system m P H)|]. rewrite escape_id. apply no_nul_quoted.
      intros ch I0. cbn [with_text r_text] in I0. assert (K : ch = "'"%char \/ In ch t).
      { clear -I0. induction t as [|x t IH]; [destruct I0|]. cbn [doubled] in I0. destruct (Ascii.eqb_spec x "'"%char) as [->|_].
        - destruct I0 as [<-|[<-|I0]]; auto. destruct (IH I0); [left|right; right]; assumption.
        - destruct I0 as [<-|I0]; [right; left; reflexivity|]. destruct (IH I0); [left|right; right]; assumption. }
      destruct K as [->|K]; [discriminate|exact (seven_no_nul t T0 ch K)]. }
  rewrite datagram_head, escape_id. unfold insert_into.
  change (head system (with_text m (doubled t))) with (head system m). cbn [with_text r_text]. rewrite <- app_assoc.
  rewrite lex_open, lex_head by assumption. unfold quoted. rewrite <- !app_assoc.
  change ($"'" ++ doubled t ++ $"'" ++ $")") with ("'"%char :: doubled t ++ "'"%char :: $")").
  rewrite (lex_some Between "'"%char _ [] (Text []) eq_refl), prepend_nil, lex_text by exact T0. reflexivity.
Qed.
Lemma received_plain system m : plain system -> plain_record m -> received (datagram system m) = Stored [row_of system m].
Proof.
  intros P [H T0]. pose proof (received_doubled system m (r_text m) P H (plain_seven _ T0)) as R. rewrite plain_doubled in R by exact T0.
  destruct m. exact R.
Qed.

(* a forged row *)
Definition forging (t : str) (system : str) (m : record) : str := t ++ $"'),(" ++ head system m ++ $"'" ++ r_text m.
Lemma received_forged system m t system' m' : plain system -> plain_head m -> plain t -> plain system' -> plain_record m' ->
  received (datagram system (with_text m (forging t system' m'))) = Stored [row_of system (with_text m t); row_of system' m'].
Proof.
  intros P H T0 P' [H' T']. unfold received.
  assert (E : datagram system (with_text m (forging t system' m')) = head system m ++ quoted t ++ $")" ++ $"," ++ $"(" ++ head system' m' ++ quoted (r_text m')).
  { rewrite datagram_head, escape_id. change (head system (with_text m (forging t system' m'))) with (head system m). cbn [with_text r_text].
    unfold forging, quoted. rewrite <- !app_assoc. reflexivity. }
  rewrite E. clear E. rewrite c_string_id.
  2:{ assert (Q : forall s, plain s -> no_nul (quoted s)) by (intros s X; apply no_nul_quoted, seven_no_nul, plain_seven; exact X).
      assert (K : no_nul ($")" ++ $"," ++ $"(")) by (intros ch [<-|[<-|[<-|[]]]]; discriminate).
      apply no_nul_app; [apply head_no_nul; assumption|]. apply no_nul_app; [apply Q; exact T0|]. change ($")" ++ $"," ++ $"(" ++ head system' m' ++ quoted (r_text m')) with (($")" ++ $"," ++ $"(") ++ head system' m' ++ quoted (r_text m')).
      apply no_nul_app; [exact K|]. apply no_nul_app; [apply head_no_nul; assumption|apply Q; exact T']. }
  unfold insert_into. rewrite <- !app_assoc. rewrite lex_open, lex_head by assumption. change ($")" ++ $"," ++ $"(" ++ head system' m' ++ quoted (r_text m') ++ $")") with (")"%char :: $"," ++ $"(" ++ head system' m' ++ quoted (r_text m') ++ $")").
  rewrite lex_quoted; [|exact T0|discriminate].
  change (")"%char :: $"," ++ $"(" ++ head system' m' ++ quoted (r_text m') ++ $")") with ($")" ++ $"," ++ $"(" ++ head system' m' ++ quoted (r_text m') ++ $")").
  rewrite lex_close, lex_comma, lex_open, lex_head by assumption. change ($")") with (")"%char :: []). rewrite lex_quoted; [|exact T'|discriminate]. reflexivity.
Qed.

(* ---- what is refused ---- *)
Lemma letter_word ch : letter ch -> is_word ch = true.
Proof. unfold letter, is_word, code_in. rewrite !Bool.orb_true_iff, !Bool.andb_true_iff, !Nat.leb_le. lia. Qed.
Lemma letter_not_digit ch : letter ch -> is_digit ch = false.
Proof. unfold letter, is_digit. rewrite Bool.andb_false_iff, !Nat.leb_gt. lia. Qed.
Lemma upper_same w : (forall ch, In ch w -> letter ch) -> map upper w = upper_case w.
Proof.
  intros H. unfold upper_case. apply map_ext_in. intros ch I0. specialize (H ch I0). unfold upper, code_in, letter in *.
  destruct (Nat.leb_spec 97 (nat_of_ascii ch)); [|reflexivity]. destruct (Nat.leb_spec (nat_of_ascii ch) 122); [reflexivity|lia].
Qed.
Lemma str_eqb_eq a b : str_eqb a b = true -> a = b.
Proof. unfold str_eqb. destruct (list_eq_dec ascii_dec a b); [auto|discriminate]. Qed.
Lemma english_token w : english w -> word_token w = TWord w /\ is_keyword w = false /\ w <> $"x" /\ w <> $"X".
Proof.
  intros (N & L & K). split; [|split; [|split]].
  - unfold word_token. destruct w as [|ch w]; [destruct (N eq_refl)|]. cbn [forallb]. rewrite (letter_not_digit ch); [reflexivity|]. apply L. left; reflexivity.
  - destruct (is_keyword w) eqn:E; [|reflexivity]. unfold is_keyword in E. rewrite upper_same in E by exact L. apply existsb_exists in E. destruct E as (k & I0 & E).
    apply str_eqb_eq in E. destruct K. rewrite E. unfold sql_words, keywords in *. cbn [map] in *. cbn [In] in I0 |- *. tauto.
  - intros ->. apply K. vm_compute. tauto.
  - intros ->. apply K. vm_compute. tauto.
Qed.
(* after the word *)
Lemma lex_word_ends w b : english w -> match b with [] => False | ch :: _ => is_word ch = false /\ code_in ch 1 127 = true /\ ch <> "$"%char end ->
  exists ts e, lex (Word w) b = (TWord w :: ts, e).
Proof.
  intros E B. destruct (english_token w E) as (T0 & _ & X1 & X2). destruct b as [|ch b]; [destruct B|]. destruct B as (B1 & B2 & B3). cbn [lex step]. rewrite B1.
  assert (Xw : (str_eqb w ($"x") || str_eqb w ($"X"))%bool = false).
  { apply Bool.orb_false_iff. unfold str_eqb. split; (destruct (list_eq_dec ascii_dec w _) as [Q|_]; [|reflexivity]); [destruct (X1 Q)|destruct (X2 Q)]. }
  rewrite Xw, Bool.andb_false_r, T0. destruct (begin ch) as [[ts st]|]; cbn [after].
  - destruct (lex st b) as [ts' e]. exists (ts ++ ts'), e. reflexivity.
  - cbn [complete]. rewrite B2, T0. destruct (Ascii.eqb_spec ch "$"%char) as [Q|_]; [destruct (B3 Q)|]. exists [], Unsure. reflexivity.
Qed.
Lemma lex_spaces sp r : spaces sp -> lex Between (sp ++ r) = lex Between r.
Proof.
  induction sp as [|ch sp IH]; intros H; [reflexivity|]. cbn [app]. rewrite (H ch (or_introl eq_refl)).
  rewrite (lex_some Between " "%char _ [] Between eq_refl), prepend_nil. apply IH. intros x Hx. apply H. right; exact Hx.
Qed.
Lemma not_apostrophe w sp r : english w -> spaces sp -> match sp ++ w ++ r with [] => False | ch :: _ => ch <> "'"%char end.
Proof.
  intros (N & L & _) S0. destruct sp as [|ch sp]; cbn [app].
  - destruct w as [|ch w]; [destruct (N eq_refl)|]. cbn [app]. intros ->. specialize (L "'"%char (or_introl eq_refl)). unfold letter in L. cbn in L. lia.
  - rewrite (S0 ch (or_introl eq_refl)). discriminate.
Qed.
Lemma word_ends_facts b : word_ends b -> match b ++ $"'" with [] => False | ch :: _ => is_word ch = false /\ code_in ch 1 127 = true /\ ch <> "$"%char end.
Proof.
  destruct b as [|ch b]; cbn [word_ends app]; [intros _; split; [reflexivity|split; [reflexivity|discriminate]]|].
  intros (A & B & C0 & D0 & E). split; [|split; [apply code_in_spec; exact E|exact C0]]. unfold is_word, letter, code_in, is_digit in *.
  destruct (Nat.eq_dec (nat_of_ascii ch) 95) as [Q|Q].
  { destruct B. rewrite <- (ascii_nat_embedding ch), Q. reflexivity. }
  rewrite Bool.andb_false_iff, !Nat.leb_gt in D0. rewrite !Bool.orb_false_iff, !Bool.andb_false_iff, !Nat.leb_gt. lia.
Qed.
Lemma received_word system m a sp w b : plain system -> plain_head m -> plain a -> spaces sp -> english w -> word_ends b ->
  received (datagram system (with_text m (a ++ $"'" ++ sp ++ w ++ b))) = Refused.
Proof.
  intros P H A S0 W B. unfold received. rewrite datagram_head, escape_id. change (head system (with_text m (a ++ $"'" ++ sp ++ w ++ b))) with (head system m). cbn [with_text r_text].
  assert (Ew : no_nul w). { destruct W as (_ & L & _). intros ch I0 ->. specialize (L _ I0). unfold letter in L. cbn in L. lia. }
  assert (Es : no_nul sp). { intros ch I0 ->. specialize (S0 _ I0). discriminate S0. }
  assert (Q1 : no_nul ($"'")) by (intros ch [<-|[]]; discriminate).
  set (b' := c_string (b ++ $"'")).
  assert (E : c_string (head system m ++ quoted (a ++ $"'" ++ sp ++ w ++ b)) = head system m ++ quoted a ++ sp ++ w ++ b').
  { unfold quoted. rewrite <- !app_assoc. rewrite c_string_app by (apply head_no_nul; assumption). f_equal. rewrite c_string_app by exact Q1. f_equal.
    rewrite c_string_app by (apply seven_no_nul, plain_seven; exact A). f_equal. rewrite c_string_app by exact Q1. f_equal. rewrite c_string_app by exact Es. f_equal.
    rewrite c_string_app by exact Ew. reflexivity. }
  rewrite E. clear E. unfold insert_into. rewrite <- !app_assoc. rewrite lex_open, lex_head by assumption.
  set (r := b' ++ $")"). pose proof (not_apostrophe w sp r W S0) as Na.
  assert (Lq : lex Between (quoted a ++ sp ++ w ++ r) = prepend [TText a] (lex Between (sp ++ w ++ r))).
  { destruct (sp ++ w ++ r) as [|ch z]; [destruct Na|]. apply lex_quoted; assumption. }
  rewrite Lq, lex_spaces by exact S0. clear Lq Na.
  assert (Bf : match r with [] => False | ch :: _ => is_word ch = false /\ code_in ch 1 127 = true /\ ch <> "$"%char end).
  { pose proof (word_ends_facts b B) as F. unfold r, b'. destruct (b ++ $"'") as [|ch z]; [destruct F|]. destruct F as (F1 & F2 & F3). cbn [c_string].
    destruct (Ascii.eqb_spec ch nul) as [->|_]; [discriminate F2|]. cbn [app]. auto. }
  rewrite lex_begin_word; [|exact (proj1 W)|intros ch I0; apply letter_word; apply W; exact I0].
  destruct (lex_word_ends w r W Bf) as (ts & e & El). rewrite El. destruct (english_token w W) as (_ & Kw & _).
  cbn [prepend fst snd app head_tokens]. cbn [parse app]. rewrite Kw. reflexivity.
Qed.

(* ---- the table ---- *)
Lemma serve_plain l : forall table, Forall (fun sm => plain (fst sm) /\ plain_record (snd sm)) l ->
  serve table (map (fun sm => datagram (fst sm) (snd sm)) l) = Some (table ++ map (fun sm => row_of (fst sm) (snd sm)) l).
Proof.
  induction l as [|[s m] l IH]; intros table H; cbn [map serve]; [rewrite app_nil_r; reflexivity|]. inversion H as [|? ? [H1 H2] H3]; subst. cbn [fst snd] in *.
  rewrite received_plain by assumption. rewrite IH by exact H3. rewrite <- app_assoc. reflexivity.
Qed.
