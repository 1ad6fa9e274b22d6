(* C47 What a log statement hands to the outputs, C48 Log formats.  Vocabulary: LogTextSpec. *)
From Verif Require Import Base BaseLemmas Text CInt LogTextModel LogTextSpec LogTextProofs.
Local Open Scope Z_scope.

(* C47: no log statement, whatever is streamed, writes outside its buffers, and the message handed to an output says exactly
   what was logged: the pieces in order, cut to SIZE - 2 characters (and at a NUL), with a newline.  It is handed over if and
   only if the stream is active and neither the stream's nor the output's level is above the statement's. *)
Theorem C47_message SIZE t p active slv name lv fi li cl ob fu l out : 2 <= SIZE < 2^62 -> holds SIZE t p ->
  fits name 256 -> fits fi (Z.min 1024 (SIZE - 1)) -> fits cl (Z.min 256 (SIZE - 1)) -> fits ob (Z.min 1024 (SIZE - 1)) -> fits fu (Z.min 256 (SIZE - 1)) ->
  Forall piece_ok l ->
  exists r t', log_statement SIZE t active slv name lv fi li cl ob fu l out = Ok (r, t') /\
    (if active && (rank slv <=? rank lv) then holds SIZE t' [] else t' = t) /\
    (if active && (rank slv <=? rank lv) && (rank out <=? rank lv)
     then exists m, r = Some m /\ says m lv name fi li cl ob fu (until_nul (firstn (Z.to_nat (SIZE - 2)) (p ++ flat_map text_of l) ++ newline))
     else r = None).
Proof.
  intros HS H Hn Hf Hc Ho Hu F. assert (W : forall s n, fits s (Z.min n (SIZE - 1)) -> fits s n /\ fits s (SIZE - 1)) by (intros s n [A B]; split; split; auto; lia).
  unfold log_statement. destruct active; [|exists None, t; cbn [andb]; auto]. cbn [andb]. destruct (rank slv <=? rank lv) eqn:E; [|exists None, t; cbn [andb]; auto].
  destruct (W _ _ Hf) as [Hf1 Hf2]. destruct (W _ _ Hc) as [Hc1 [Hc2 Hc3]]. destruct (W _ _ Ho) as [Ho1 Ho2]. destruct (W _ _ Hu) as [Hu1 [Hu2 Hu3]].
  destruct (set_names_ok SIZE ltac:(lia) t p lv fi li cl ob fu H Hf2 Hc3 Ho2 Hu3) as (t1 & E1 & H1 & L1 & L2 & C1 & C2 & C3 & C4).
  rewrite E1. cbn [bind]. rewrite firstn_all2 in C2, C4 by lia.
  destruct (puts_holds SIZE ltac:(lia) ltac:(lia) l t1 p H1 F) as (t2 & E2 & H2 & (S1 & S2 & S3 & S4 & S5 & S6)). rewrite E2. cbn [bind].
  destruct (endl_write SIZE ltac:(lia) ltac:(lia) t2 _ H2) as (t3 & E3 & H3 & (R1 & R2 & R3 & R4 & R5 & R6)). unfold endl. fold newline. rewrite E3. cbn [bind].
  destruct (flush_ok SIZE ltac:(lia) t3 _ name out fi cl ob fu H3 Hn Hf1 Hc1 Ho1 Hu1) as (r & t4 & E4 & H4 & _ & M); try congruence.
  exists r, t4. split; [exact E4|]. split; [exact H4|]. rewrite R1, S1, L1 in M. rewrite R3, S3, L2 in M. exact M.
Qed.
Print Assumptions C47_message.
(* so a message without NUL characters always ends with its newline, also when it is cut *)
Theorem C47_newline SIZE p l : 2 <= SIZE -> ~ In nul (p ++ flat_map text_of l) ->
  until_nul (firstn (Z.to_nat (SIZE - 2)) (p ++ flat_map text_of l) ++ newline) = firstn (Z.to_nat (SIZE - 2)) (p ++ flat_map text_of l) ++ newline.
Proof.
  intros HS N. apply until_id. intros H. apply in_app_or in H. destruct H as [H|[H|[]]]; [|discriminate].
  apply N. rewrite <- (firstn_skipn (Z.to_nat (SIZE - 2)) (p ++ flat_map text_of l)). apply in_or_app. auto.
Qed.
Print Assumptions C47_newline.
(* streams are created in such a state *)
Theorem C47_new_stream SIZE lv : 2 <= SIZE -> holds SIZE (new_stream SIZE lv) [].
Proof.
  intros H. unfold holds, new_stream. cbn [write_index data filename classname objectname function map app length]. unfold zeros, uninit. rewrite !repeat_length.
  assert (R : repeat (Some nul) (Z.to_nat (SIZE + 1)) = repeat (Some nul) (Z.to_nat SIZE) ++ [Some nul]).
  { replace (Z.to_nat (SIZE + 1)) with (Z.to_nat SIZE + 1)%nat by lia. rewrite repeat_app. reflexivity. }
  split; [lia|]. split; [reflexivity|]. split; [eauto|]. repeat split; eauto.
Qed.
Print Assumptions C47_new_stream.
Example C47_message_ex : exists m t', log_statement 2048 (new_stream 2048 Info) true Info $"Default" Warning $"a.cpp" 7 $"Robot" $"" $"move"
    [PText $"x = "; PI32 (-42); PText $", "; PBool true; PU8 7] Info = Ok (Some m, t') /\ c_str (m_text m) = Ok ($"x = -42, True7" ++ newline).
Proof.
  assert (M : 2 <= 2048 < 2^62) by lia.
  destruct (C47_message 2048 (new_stream 2048 Info) [] true Info $"Default" Warning $"a.cpp" 7 $"Robot" $"" $"move"
    [PText $"x = "; PI32 (-42); PText $", "; PBool true; PU8 7] Info M (C47_new_stream 2048 Info ltac:(lia))) as (r & t' & E & _ & m & -> & S).
  1-5: (split; [cbn; lia|cbn; intuition discriminate]).
  { repeat constructor; cbn; try lia; intuition discriminate. }
  exists m, t'. split; [exact E|]. destruct S as (_ & _ & _ & _ & _ & _ & _ & S). rewrite S. reflexivity.
Qed.

(* C47: printf hands over the formatted text, cut likewise, without a newline of its own *)
Theorem C47_printf SIZE t p text name out fi cl ob fu : 2 <= SIZE < 2^62 -> holds SIZE t p -> fits name 256 -> fits fi 1024 -> fits cl 256 -> fits ob 1024 ->
  fits fu 256 -> c_str (filename t) = Ok fi -> c_str (classname t) = Ok cl -> c_str (objectname t) = Ok ob -> c_str (function t) = Ok fu ->
  Z.of_nat (length text) < 2^31 ->
  exists r t', printf SIZE t text name out = Ok (r, t') /\ holds SIZE t' [] /\
    if rank out <=? rank (line_level t)
    then exists m, r = Some m /\ says m (line_level t) name fi (line t) cl ob fu (until_nul (firstn (Z.to_nat (SIZE - 2)) (p ++ text)))
    else r = None.
Proof.
  intros HS H Hn Hf Hc Ho Hu Cf Cc Co Cu HT. pose proof H as (H1 & H2 & [d H3] & H4 & H5). unfold printf. rewrite H2.
  rewrite (to_u64_id (SIZE - _)) by lia. rewrite to_u64_id by lia. set (w := SIZE - Z.of_nat (length p) - 1).
  replace (w =? 0) with false by (symmetry; apply Z.eqb_neq; unfold w; lia).
  unfold printed. set (x := firstn (Z.to_nat (w - 1)) text).
  assert (Lx : length x = Nat.min (Z.to_nat (w - 1)) (length text)) by apply firstn_length.
  rewrite Nat2Z.id, store_spec by (rewrite map_length, app_length, H4; cbn; unfold w in *; lia). cbn [bind].
  set (i := if _ <? _ then _ else _). set (d' := firstn _ _ ++ _).
  assert (D : exists r, d' = map Some (p ++ x) ++ Some nul :: r).
  { exists (skipn (length p + length (map Some (x ++ [nul]))) (data t)). unfold d'. rewrite map_app, map_app, <- !app_assoc. cbn [map app].
    f_equal. rewrite H3, firstn_app, firstn_all2, map_length, Nat.sub_diag by (rewrite map_length; lia). apply app_nil_r. }
  destruct D as [r D].
  assert (Ld : length d' = Z.to_nat (SIZE + 1)).
  { unfold d'. rewrite !app_length, firstn_length, skipn_length, map_length, app_length. cbn [length]. unfold w in *. lia. }
  (* the text in the buffer ends at i, or with a NUL before i *)
  assert (Q : exists q, holds1 SIZE (with_data t d' i) q /\ until_nul q = until_nul (p ++ x)).
  { assert (Hi : i = Z.of_nat (length p) + Z.min w (Z.of_nat (length text))).
    { unfold i. destruct (w <? Z.of_nat (length text)) eqn:E; [apply Z.ltb_lt in E|apply Z.ltb_ge in E]; lia. }
    assert (G : exists q, map Some q = firstn (Z.to_nat i) d' /\ length q = Z.to_nat i /\ until_nul q = until_nul (p ++ x)).
    { destruct (Z.le_gt_cases (Z.of_nat (length text)) (w - 1)) as [Hw|Hw].
      - exists (p ++ x). assert (Lq : length (p ++ x) = Z.to_nat i) by (rewrite app_length; lia). split; [|auto].
        rewrite D, firstn_app, firstn_all2 by (rewrite map_length; lia). rewrite map_length, Lq, Nat.sub_diag. cbn [firstn]. rewrite app_nil_r. reflexivity.
      - exists (p ++ x ++ [nul]). assert (Lq : length (p ++ x ++ [nul]) = Z.to_nat i) by (rewrite !app_length; cbn [length]; unfold w in *; lia).
        split; [|split; auto].
        + rewrite D. replace (map Some (p ++ x) ++ Some nul :: r) with (map Some (p ++ x ++ [nul]) ++ r) by (rewrite !map_app, <- !app_assoc; reflexivity).
          rewrite firstn_app, firstn_all2 by (rewrite map_length; lia). rewrite map_length, Lq, Nat.sub_diag. cbn [firstn]. rewrite app_nil_r. reflexivity.
        + rewrite app_assoc. generalize (p ++ x). clear. induction l as [|c l IH]; cbn; [reflexivity|]. rewrite IH. reflexivity. }
    destruct G as (q & Q1 & Q2 & Q3). exists q. split; [|exact Q3]. unfold holds1. cbn [with_data write_index data filename classname objectname function].
    split; [unfold w in *; lia|]. split; [lia|]. split; [exists (skipn (Z.to_nat i) d'); rewrite Q1, firstn_skipn; reflexivity|]. split; [exact Ld|exact H5]. }
  destruct Q as (q & Hq & Uq).
  destruct (flush_ok SIZE ltac:(lia) (with_data t d' i) q name out fi cl ob fu Hq Hn Hf Hc Ho Hu Cf Cc Co Cu) as (rr & t' & E & Ht' & _ & M).
  exists rr, t'. split; [exact E|]. split; [exact Ht'|]. cbn [with_data line_level line] in M. rewrite Uq in M.
  replace (firstn (Z.to_nat (SIZE - 2)) (p ++ text)) with (p ++ x); [exact M|].
  rewrite firstn_app_clip by lia. unfold x. f_equal. f_equal. unfold w. lia.
Qed.
Print Assumptions C47_printf.

(* C47: integers are written as decimal numerals *)
Theorem C47_decimal z : numeral z (dec z).
Proof. apply dec_numeral. Qed.
Print Assumptions C47_decimal.
(* C47: level names *)
Theorem C47_level_names t l : stringToLogLevel t = Some l <-> t = logLevelDescription l.
Proof.
  split.
  - intros H. apply find_some in H. destruct H as [_ H]. unfold str_eqb in H. destruct (list_eq_dec ascii_dec t (logLevelDescription l)); congruence.
  - intros ->. destruct l; reflexivity.
Qed.
Print Assumptions C47_level_names.

(* C47, refuted: a double of 10^93 or more is read past the end of the 100 byte buffer it is printed to *)
Theorem C47_double_refuted : ~ (forall SIZE t p x, 2048 <= SIZE < 2^62 -> holds SIZE t p -> put SIZE t (PDouble (dec x ++ $".000000")) <> UB).
Proof.
  intros H. apply (H 2048 (new_stream 2048 Info) [] (2^310) ltac:(lia) (C47_new_stream 2048 Info ltac:(lia))). vm_compute. reflexivity.
Qed.
Print Assumptions C47_double_refuted.
(* C47, refuted: an object name of more than 1024 characters is not terminated in the message, *)
Theorem C47_long_object_refuted : forall lv st fi li cl ob fu tx m, ~ In nul ob -> (1025 <= length ob)%nat ->
  LogMessage 2048 lv st fi li cl ob fu tx = Ok m -> c_str (m_object m) = UB.
Proof.
  intros lv st fi li cl ob fu tx m N L H. unfold LogMessage in H.
  destruct (strncpy _ st _); try discriminate. destruct (strncpy _ fi _); try discriminate. destruct (strncpy _ cl _); try discriminate.
  destruct (strncpy _ ob _) as [o| |] eqn:E; try discriminate. destruct (strncpy _ fu _); try discriminate. destruct (strncpy _ tx _); try discriminate.
  cbn [bind] in H. injection H as <-. cbn [m_object].
  rewrite strncpy_long in E; [|unfold MAX_DESCRIPTION; lia|unfold MAX_DESCRIPTION; lia|unfold uninit; rewrite repeat_length; lia].
  assert (Q : forall a b : mem, Ok a = Ok b -> a = b) by congruence. apply Q in E. subst o. rewrite skipn_all2 by (unfold uninit; rewrite repeat_length; lia). rewrite app_nil_r. apply cstr_all_ub.
  intros Hin. apply N. rewrite <- (firstn_skipn (Z.to_nat (MAX_DESCRIPTION + 1)) ob). apply in_or_app. auto.
Qed.
Print Assumptions C47_long_object_refuted.
Example C47_long_object_ex : exists m, LogMessage 2048 Info $"s" $"f" 1 $"c" (repeat "x"%char 1025) $"g" $"t" = Ok m.
Proof. eexists. vm_compute. reflexivity. Qed.
(* and a file name of SIZE or more characters is not terminated in a new stream *)
Theorem C47_long_filename_refuted : forall SIZE lv t name out fi li cl ob fu, 2 <= SIZE -> ~ In nul fi -> (Z.to_nat SIZE <= length fi)%nat ->
  set_names SIZE (new_stream SIZE lv) lv fi li cl ob fu = Ok t -> rank out <= rank lv -> flush SIZE t name out = UB.
Proof.
  intros SIZE lv t name out fi li cl ob fu HS N L H R. unfold set_names in H.
  destruct (strncpy _ fi _) as [f| |] eqn:E; try discriminate. destruct (strncpy _ cl _); try discriminate. destruct (strncpy _ ob _); try discriminate.
  destruct (strncpy _ fu _); try discriminate. cbn [bind] in H. injection H as <-. unfold flush. cbn [data write_index line_level filename].
  unfold vec_set. cbn [new_stream data write_index]. unfold zeros. rewrite repeat_length.
  replace (Z.to_nat 0 <? Z.to_nat (SIZE + 1))%nat with true by (symmetry; apply Nat.ltb_lt; lia). cbn [bind].
  apply Z.leb_le in R. rewrite R. rewrite strncpy_long in E by (try (cbn [new_stream filename]; unfold uninit; rewrite repeat_length); lia).
  injection E as <-. cbn [new_stream filename]. unfold uninit. rewrite skipn_repeat. replace (Z.to_nat (SIZE + 1) - Z.to_nat SIZE)%nat with 1%nat by lia.
  rewrite cstr_app; [reflexivity|]. intros Hin. apply N. rewrite <- (firstn_skipn (Z.to_nat SIZE) fi). apply in_or_app. auto.
Qed.
Print Assumptions C47_long_filename_refuted.
Example C47_long_filename_ex : exists t, set_names 8 (new_stream 8 Info) Info $"/a/very/long/name.cpp" 1 $"c" $"o" $"f" = Ok t /\ flush 8 t $"s" Info = UB.
Proof. eexists. split; reflexivity. Qed.

(* C48: a format is a sequence of texts and directives; every message is printed accordingly *)
Theorem C48_line old l tail m lv st fi li cl ob fu tx time nsec : Forall (segment_ok 99) l -> Forall (fun s => (length (width s) <= 19)%nat) l -> tail_ok 99 tail ->
  write_format l tail <> [] -> says m lv st fi li cl ob fu tx -> 0 <= nsec < 1000000000 ->
  exists es, changeLogFormat old (write_format l tail) = Ok es /\
    render es m time nsec = Ok (flat_map (fun s => expand s lv st fi li cl ob fu tx time nsec) l ++ tail).
Proof.
  intros F W T N S H. exists (all_entries l tail). split; [|apply render_all; auto].
  unfold changeLogFormat. destruct (write_format l tail) as [|c r] eqn:E; [congruence|]. rewrite <- E. apply parse_write; [| |apply le_n|congruence].
  - eapply Forall_impl; [|exact F]. intros s. apply seg_mono. lia.
  - destruct T as (T1 & T2 & T3). split; [exact T1|]. split; [lia|exact T3].
Qed.
Print Assumptions C48_line.
Definition default_format := [Seg $"<" [] [] "T"%char; Seg $"." $"3" [] "M"%char; Seg $"> " [] [] "S"%char; Seg $"(" [] [] "L"%char; Seg $")" [] $" " "C"%char;
  Seg [] [] $"(" "O"%char; Seg [] [] $"::" "D"%char; Seg $": " [] [] "E"%char].
Example C48_line_ex : write_format default_format [] = $"<~T.~3M> ~S(~L)~ C~(O~::D: ~E" /\ Forall (segment_ok 99) default_format /\ tail_ok 99 [] /\
  flat_map (fun s => expand s Warning $"Default" $"a.cpp" 7 $"Robot" $"arm" $"move" $"hello" $"12:00:00" 7000000) default_format
  = $"<12:00:00.007> Default(Warning) Robot(arm)::move: hello".
Proof.
  split; [reflexivity|]. split; [|split; [split; [auto|split; [cbn; lia|auto]]|reflexivity]].
  assert (G : forall s, forallb (fun c => negb (Ascii.eqb c "~"%char) && negb (Ascii.eqb c nul)) (literal s) = true -> (length (literal s) <= 99)%nat ->
    forallb is_digit (width s) = true -> match prefix s with c :: _ => is_digit c = false | [] => True end ->
    forallb (fun c => negb (existsb (Ascii.eqb c) letters) && negb (Ascii.eqb c nul)) (prefix s) = true -> (length (prefix s) <= 99)%nat ->
    existsb (Ascii.eqb (letter s)) letters = true -> segment_ok 99 s).
  { intros s A1 A2 A3 A4 A5 A6 A7. rewrite forallb_forall in A1, A3, A5. unfold segment_ok.
    split; [intros H; apply A1 in H; discriminate|]. split; [auto|]. split; [intros H; apply A1 in H; discriminate|]. split; [auto|].
    split; [intros c r E; rewrite E in A4; auto|]. split.
    { intros c Hc Hl. apply A5 in Hc. apply andb_prop in Hc. destruct Hc as [Hc _]. apply negb_true_iff in Hc.
      assert (existsb (Ascii.eqb c) letters = true) by (apply existsb_exists; exists c; split; [auto|apply Ascii.eqb_refl]). congruence. }
    split; [intros H; apply A5 in H; cbn in H; discriminate|]. split; [auto|]. apply existsb_exists in A7. destruct A7 as (x & Hx & E).
    apply Ascii.eqb_eq in E. subst. auto. }
  unfold default_format. repeat (apply Forall_cons; [apply G; [reflexivity|cbn; lia|reflexivity|cbn; auto|reflexivity|cbn; lia|reflexivity]|]). apply Forall_nil.
Qed.
(* C48: exactly the strings of this form (with texts and prefixes of at most 100 characters) can be set as formats; any other
   non-empty string is undefined behaviour: a directive without its letter at the end, or a longer text *)
Theorem C48_accepts old f : f <> [] -> ~ In nul f ->
  ((exists es, changeLogFormat old f = Ok es) <-> exists l tail, f = write_format l tail /\ Forall (segment_ok 100) l /\ tail_ok 100 tail) /\
  ((forall es, changeLogFormat old f <> Ok es) -> changeLogFormat old f = UB).
Proof.
  intros N Nn. assert (E : changeLogFormat old f = parse (length f) f) by (destruct f; [congruence|reflexivity]). rewrite E. split; [split|].
  - intros [es H]. eapply parse_inv; eauto.
  - intros (l & tail & -> & F & T). exists (all_entries l tail). apply parse_write; auto.
  - intros H. pose proof (parse_no_throw (length f) f (le_n _) N) as P. destruct (parse (length f) f) as [es| |]; [exfalso; apply (H es); auto|congruence|auto].
Qed.
Print Assumptions C48_accepts.
Example C48_accepts_ex : changeLogFormat [] $"~S: 100~" = UB /\ changeLogFormat [] $"~T ~-)" = UB.
Proof. split; reflexivity. Qed.
Theorem C48_incomplete_refuted : ~ (forall old f, exists es, changeLogFormat old f = Ok es).
Proof. intros H. destruct (H [] $"abc~") as [es E]. discriminate E. Qed.
Print Assumptions C48_incomplete_refuted.
(* C48, refuted: a text of 100 characters is accepted but has no terminator, so that printing reads past it *)
Theorem C48_hundred_refuted : ~ (forall f es m time nsec, changeLogFormat [] f = Ok es -> render es m time nsec <> UB).
Proof.
  intros H. apply (H (repeat "x"%char 100) [mkEntry KText 0 (text100 (repeat "x"%char 100)) (zeros 100)] (mkMsg Info [] [] 0 [] [] [] []) [] 0); vm_compute; reflexivity.
Qed.
Print Assumptions C48_hundred_refuted.
(* C48: an empty string leaves the format as it is *)
Theorem C48_empty old : changeLogFormat old [] = Ok old.
Proof. reflexivity. Qed.
Print Assumptions C48_empty.

(* the names of the levels and their order: a level admits itself and the more severe ones *)
Theorem C47_levels :
  map logLevelDescription [Trace; Debug; Info; Warning; Error; Mute] = [$"Trace"; $"Debug"; $"Info"; $"Warning"; $"Error"; $"Mute"] /\
  rank Trace < rank Debug < rank Info /\ rank Info < rank Warning < rank Error /\ rank Error < rank Mute.
Proof. repeat split. Qed.
Print Assumptions C47_levels.
