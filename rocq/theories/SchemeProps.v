(* C32, C33 *)
From Verif Require Import Base Text SchemeModel SchemeSpec SchemeProofs.

(* C32: every text of the grammar is accepted and its parts are reported *)
Theorem C32_parse_complete :
  forall s sch spec anc qs, no_nul s -> grammar s sch spec anc qs ->
  parseScheme s new_scheme = (true, report sch spec anc qs).
Proof.
  intros s sch spec anc qs Hn G. rewrite (parse_complete s new_scheme sch spec anc qs Hn G). rewrite report_new; [reflexivity|].
  destruct G as [_ [?|[? _]] _ _ _]; auto.
Qed.
Print Assumptions C32_parse_complete.

(* nothing else is accepted *)
Theorem C32_parse_sound :
  forall s h, no_nul s -> parseScheme s new_scheme = (true, h) ->
  exists sch spec anc qs, grammar s sch spec anc qs /\ h = report sch spec anc qs.
Proof.
  intros s h Hn P. destruct (parse_sound s new_scheme h Hn P) as (sch & spec & anc & qs & G & ->).
  exists sch, spec, anc, qs. split; auto. apply report_new. destruct G as [_ [?|[? _]] _ _ _]; auto.
Qed.
Print Assumptions C32_parse_sound.

(* the grammar is unambiguous *)
Theorem C32_unique_decomposition :
  forall s sch1 spec1 anc1 qs1 sch2 spec2 anc2 qs2, no_nul s ->
  grammar s sch1 spec1 anc1 qs1 -> grammar s sch2 spec2 anc2 qs2 ->
  sch1 = sch2 /\ spec1 = spec2 /\ anc1 = anc2 /\ qs1 = qs2.
Proof. exact grammar_unique. Qed.
Print Assumptions C32_unique_decomposition.

(* a string is read up to its first NUL *)
Theorem C32_nul_terminates :
  forall a b h, no_nul a -> parseScheme (a ++ ascii_of_nat 0 :: b) h = parseScheme a h.
Proof.
  intros a b h Hn. unfold parseScheme. replace (cstr (a ++ ascii_of_nat 0 :: b)) with (cstr a); [reflexivity|].
  rewrite (cstr_id a Hn). symmetry. induction a as [|c a IH]; [reflexivity|]. cbn [app cstr].
  destruct (code c =? 0)%nat eqn:E; [apply PeanoNat.Nat.eqb_eq in E; exfalso; apply (Hn c); [left; auto|exact E]|].
  f_equal. apply IH. intros x Hx. apply Hn. right. auto.
Qed.
Print Assumptions C32_nul_terminates.

(* a parser object that is used again: on success scheme and anchor are those of an earlier parse when the text has
   none; only the queries are always those of the text *)
Theorem C32_reuse_keeps_stale_parts :
  forall s h sch spec anc qs, no_nul s -> grammar s sch spec anc qs ->
  parseScheme s h = (true, report_on h sch spec anc qs).
Proof. exact parse_complete. Qed.
Print Assumptions C32_reuse_keeps_stale_parts.

Theorem C32_reuse_refuted :
  exists s t h, fst (parseScheme s new_scheme) = true /\ h = snd (parseScheme s new_scheme) /\
    fst (parseScheme t new_scheme) = true /\ parseScheme t h <> parseScheme t new_scheme.
Proof. exists $"http://a#b", $"c", (mkS HttpScheme $"http://" $"a" $"b" []). vm_compute. repeat split; discriminate. Qed.
Print Assumptions C32_reuse_refuted.

Example C32_instance :
  no_nul $"HTTP+x://host/a.b#sec-1?k_1=v#w&z=2" /\
  grammar $"HTTP+x://host/a.b#sec-1?k_1=v#w&z=2" $"HTTP+x://" $"host/a.b" $"sec-1" [mkQ $"k_1" $"v#w"; mkQ $"z" $"2"] /\
  parseScheme $"HTTP+x://host/a.b#sec-1?k_1=v#w&z=2" new_scheme =
    (true, mkS OtherScheme $"http+x://" $"host/a.b" $"sec-1" [mkQ $"k_1" $"v#w"; mkQ $"z" $"2"]).
Proof.
  assert (N : no_nul $"HTTP+x://host/a.b#sec-1?k_1=v#w&z=2").
  { intros c H. cbn in H. repeat (destruct H as [<-|H]; [discriminate|]). destruct H. }
  assert (P : parseScheme $"HTTP+x://host/a.b#sec-1?k_1=v#w&z=2" new_scheme =
    (true, mkS OtherScheme $"http+x://" $"host/a.b" $"sec-1" [mkQ $"k_1" $"v#w"; mkQ $"z" $"2"])) by reflexivity.
  split; [exact N|]. split; [|exact P].
  constructor.
  - reflexivity.
  - left. exists $"HTTP+x". split; [|reflexivity]. apply (pw_more $"HTTP" $"x").
    + split; [discriminate|repeat constructor].
    + constructor. split; [discriminate|repeat constructor].
  - split; [discriminate|]. split; intros H; cbn in H; repeat (destruct H as [H|H]; [discriminate H|]); destruct H.
  - right. right. exists $"sec", $"1". repeat split; try discriminate; repeat constructor.
  - constructor; [|constructor; [|constructor]]; (split; [|split; [discriminate|repeat constructor]]); cbn.
    + exists "k"%char, $"_1". repeat split. apply (kr_under "1"); [reflexivity|constructor].
    + exists "z"%char, []. repeat split. constructor.
Qed.
(* rejected: a scheme without a specifier, a query without a value, an anchor after the queries' start is a value *)
Example C32_rejects :
  fst (parseScheme $"http://" new_scheme) = false /\ fst (parseScheme $"a?k=" new_scheme) = false /\
  fst (parseScheme $"a?k_=1" new_scheme) = false /\ fst (parseScheme $"" new_scheme) = false /\
  fst (parseScheme $"a#b_c" new_scheme) = false.
Proof. vm_compute. auto. Qed.

(* the characters that the statements are about *)
Theorem C32_characters :
  forall c, (is_alpha c = true <-> In c (lower_letters ++ upper_letters)) /\ (is_alnum c = true <-> In c (lower_letters ++ upper_letters ++ digits)) /\
  (is_space c = true <-> In c white_space) /\
  tolower c = match position c upper_letters with Some i => nth i lower_letters c | None => c end.
Proof.
  intros c. assert (G : forall l, In c l <-> existsb (Ascii.eqb c) l = true).
  { intros l. rewrite existsb_exists. split; [intros H; exists c; split; [exact H|apply Ascii.eqb_refl]|intros (x & H & E); apply Ascii.eqb_eq in E; subst x; exact H]. }
  split; [|split; [|split]].
  - rewrite G. destruct c as [[] [] [] [] [] [] [] []]; vm_compute; split; intros H; exact H.
  - rewrite G. destruct c as [[] [] [] [] [] [] [] []]; vm_compute; split; intros H; exact H.
  - rewrite G. destruct c as [[] [] [] [] [] [] [] []]; vm_compute; split; intros H; exact H.
  - destruct c as [[] [] [] [] [] [] [] []]; vm_compute; reflexivity.
Qed.
Print Assumptions C32_characters.

(* C33: printing a parsed scheme and parsing the text gives the same scheme exactly if the scheme does not have both
   an anchor and queries *)
Theorem C33_round_trip_iff :
  forall s h, no_nul s -> parseScheme s new_scheme = (true, h) ->
  (parseScheme (print h) new_scheme = (true, h) <-> anchor h = [] \/ queries h = []).
Proof. exact round_trip_iff. Qed.
Print Assumptions C33_round_trip_iff.

(* with both, the anchor ends up in the value of the last query *)
Theorem C33_anchor_becomes_value :
  forall s h, no_nul s -> parseScheme s new_scheme = (true, h) -> anchor h <> [] -> queries h <> [] ->
  exists l q, queries h = l ++ [q] /\
  parseScheme (print h) new_scheme = (true, mkS (scheme_type h) (scheme_name h) (specifier h) []
                                              (l ++ [mkQ (q_name q) (q_value q ++ $"#" ++ anchor h)])).
Proof. exact round_trip_lost. Qed.
Print Assumptions C33_anchor_becomes_value.

Theorem C33_round_trip_refuted :
  exists s h, no_nul s /\ parseScheme s new_scheme = (true, h) /\ parseScheme (print h) new_scheme <> (true, h).
Proof.
  exists $"file:///p#x?k=v", (mkS FileScheme $"file://" $"/p" $"x" [mkQ $"k" $"v"]). split; [|split].
  - intros c H. cbn in H. repeat (destruct H as [<-|H]; [discriminate|]). destruct H.
  - reflexivity.
  - vm_compute. discriminate.
Qed.
Print Assumptions C33_round_trip_refuted.

Example C33_instance :
  print (snd (parseScheme $"Camera://front?w=640&h=480" new_scheme)) = $"camera://front?w=640&h=480" /\
  fst (parseScheme $"Camera://front?w=640&h=480" new_scheme) = true /\
  parseScheme $"camera://front?w=640&h=480" new_scheme = parseScheme $"Camera://front?w=640&h=480" new_scheme.
Proof. vm_compute. auto. Qed.
