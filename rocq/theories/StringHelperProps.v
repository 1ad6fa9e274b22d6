(* C20, C21, C22, C23, C42 *)
From Verif Require Import Base Text StringHelperModel StringHelperSpec StringHelperProofs.

(* C20: for a non-empty delimiter split terminates; cutting s from the left at the delimiters is possible in exactly
   one way, and split returns those pieces, plus the remainder unless it is empty ("" gives [""]). *)
Theorem C20_split_cuts_at_delimiters :
  forall s d, d <> [] -> exists ps r, cut d s ps r /\
  (forall ps' r', cut d s ps' r' -> ps' = ps /\ r' = r) /\
  split s d = Some (match s, r with [], _ => [[]] | _, [] => ps | _, _ => ps ++ [r] end).
Proof. exact C20_cut_lemma. Qed.
Print Assumptions C20_split_cuts_at_delimiters.

(* C20: joining the pieces gives s back, except that one final delimiter is lost
   (exactly if the last delimiter found ends the string). *)
Theorem C20_join_of_split :
  forall s d, d <> [] -> exists l, split s d = Some l /\
  ((join l d = s /\ (s = [] \/ forall ps, ~ cut d s ps [])) \/
   (join l d ++ d = s /\ exists ps, cut d s ps [])).
Proof. exact C20_join_split_lemma. Qed.
Print Assumptions C20_join_of_split.

Theorem C20_no_piece_contains_delimiter :
  forall s d l, d <> [] -> split s d = Some l -> forall p, In p l -> ~ contains p d.
Proof. exact C20_no_delim_lemma. Qed.
Print Assumptions C20_no_piece_contains_delimiter.

Theorem C20_split_of_join :
  forall d xs x, d <> [] -> (forall p, In p xs -> ends_at p d) -> ~ contains x d -> x <> [] ->
  split (join (xs ++ [x]) d) d = Some (xs ++ [x]).
Proof. exact C20_split_join_lemma. Qed.
Print Assumptions C20_split_of_join.

(* the same for a one-character delimiter *)
Theorem C20_split_of_join_char :
  forall c xs, xs <> [] -> (forall p, In p xs -> ~ In c p) -> last xs [] <> [] -> split (join xs [c]) [c] = Some xs.
Proof. exact C20_single_lemma. Qed.
Print Assumptions C20_split_of_join_char.

(* join puts the delimiter between neighbours *)
Theorem C20_join_is_glue : forall l d, join l d = glue l d.
Proof. exact join_glue. Qed.
Print Assumptions C20_join_is_glue.

(* an empty delimiter: the loop never ends (pushing "" for ever) *)
Theorem C20_split_empty_delimiter_diverges :
  forall s fuel, s <> [] -> split_fuel fuel s [] = None.
Proof. exact C20_diverges_lemma. Qed.
Print Assumptions C20_split_empty_delimiter_diverges.

Example C20_nonvacuous :
  split ($"a,,b,") ($",") = Some [$"a"; $""; $"b"] /\ join [$"a"; $""; $"b"] ($",") = $"a,,b" /\
  split ($"aaa") ($"aa") = Some [$""; $"a"] /\ split ($",") ($",") = Some [$""].
Proof. vm_compute. auto. Qed.

(* C21 for every non-empty string (whose length fits in size_t): the result is the unique [trimmed] part. *)
Theorem C21_trim_partial :
  forall s, s <> [] -> (Z.of_nat (length s) < 2 ^ 64)%Z ->
  exists t, trim s = Ok t /\ trimmed s t /\ (forall t', trimmed s t' -> t' = t) /\ (t <> [] -> trim t = Ok t).
Proof.
  exact (fun s Hne HF => match C21_lemma s Hne HF with
    ex_intro _ t (conj E HT) => ex_intro _ t (conj E (conj HT (conj
      (fun t' HT' => trimmed_unique s t' t HT' HT) (C21_idem_lemma s t Hne HF E)))) end).
Qed.
Print Assumptions C21_trim_partial.

(* white space is the tabulators, line feed, form feed, carriage return and the space *)
Theorem C21_white_space : forall c, is_space c = true <-> In (nat_of_ascii c) [9; 10; 11; 12; 13; 32]%nat.
Proof.
  intros c. unfold is_space. cbn [In]. split.
  - intros H. apply orb_true_iff in H. destruct H as [H|H]; [apply andb_true_iff in H; destruct H as [A B]; apply Nat.leb_le in A, B|apply Nat.eqb_eq in H]; lia.
  - intros H. apply orb_true_iff. destruct (Nat.eq_dec (nat_of_ascii c) 32) as [E|E]; [right; apply Nat.eqb_eq; exact E|left; apply andb_true_iff; split; apply Nat.leb_le; lia].
Qed.
Print Assumptions C21_white_space.

(* C21 fails for the empty string: trim_end starts at npos and str[npos] is read. *)
Theorem C21_trim_empty_refuted : trim [] = UB.
Proof. reflexivity. Qed.
Print Assumptions C21_trim_empty_refuted.

Example C21_nonvacuous :
  trim ($"  a b ") = Ok ($"a b") /\ trim ($"   ") = Ok [] /\ trim ($"x") = Ok ($"x") /\ trim ($" x") = Ok ($"x").
Proof. vm_compute. auto. Qed.

(* C22 *)
Theorem C22_pad :
  forall s w c,
  (exists k, padLeft s w c = repeat c k ++ s /\ length (padLeft s w c) = Nat.max (length s) w) /\
  (exists k, padRight s w c = s ++ repeat c k /\ length (padRight s w c) = Nat.max (length s) w).
Proof.
  intros s w c. unfold padLeft, padRight. destruct (Nat.ltb_spec (length s) w); split.
  - exists (w - length s). rewrite app_length, repeat_length. split; [reflexivity|lia].
  - exists (w - length s). rewrite app_length, repeat_length. split; [reflexivity|lia].
  - exists 0. split; [reflexivity|lia].
  - exists 0. cbn. rewrite app_nil_r. split; [reflexivity|lia].
Qed.
Print Assumptions C22_pad.

(* C23: the vector overloads *)
Theorem C23_string2Enum_vector :
  forall s value l,
  (~ In s l /\ string2Enum_vector s value l = (false, value)) \/
  (exists i, last_index s l i /\ string2Enum_vector s value l = (true, Z.of_nat i)).
Proof. exact C23_vec_lemma. Qed.
Print Assumptions C23_string2Enum_vector.

(* C23: the C array overload, for an array that is terminated by NULL (end_marker NULL) or by the end marker;
   the string is compared up to its first NUL character. *)
Theorem C23_string2Enum_array :
  forall s value l em rest, (Z.of_nat (length l) < 2 ^ 31)%Z -> (forall m, em = Some m -> ~ In m l) ->
  (~ In (c_str s) l /\ string2Enum_array s value (map Some l ++ em :: rest) em = Ok (false, value)) \/
  (exists i, last_index (c_str s) l i /\ string2Enum_array s value (map Some l ++ em :: rest) em = Ok (true, Z.of_nat i)).
Proof. exact C23_arr_lemma. Qed.
Print Assumptions C23_string2Enum_array.

Example C23_nonvacuous :
  string2Enum_array ($"b") 7 [Some ($"a"); Some ($"b"); Some ($"b"); None] None = Ok (true, 2%Z) /\
  string2Enum_array ($"c") 7 [Some ($"a"); Some ($"END")] (Some ($"END")) = Ok (false, 7%Z).
Proof. vm_compute. auto. Qed.

(* C42: for 7-bit strings toLower/toUpper change exactly the letters; other bytes are undefined behaviour. *)
Definition letters_lower : str := $"abcdefghijklmnopqrstuvwxyz".
Definition letters_upper : str := $"ABCDEFGHIJKLMNOPQRSTUVWXYZ".
Definition seven_bit (s : str) : Prop := forall c, In c s -> nat_of_ascii c < 128.
(* t is s with every character that occurs in [from] replaced by the one at the same place in [to] *)
Definition replaced (from to s t : str) : Prop :=
  length t = length s /\ forall i c c', nth_error s i = Some c -> nth_error t i = Some c' ->
  (~ In c from /\ c' = c) \/ exists j, nth_error from j = Some c /\ nth_error to j = Some c'.

Lemma tolower_ok c : nat_of_ascii c < 128 -> exists c', tolower c = Ok c' /\
  ((~ In c letters_upper /\ c' = c) \/ exists j, nth_error letters_upper j = Some c /\ nth_error letters_lower j = Some c').
Proof.
  intros H. unfold tolower. destruct (Nat.leb_spec 128 (nat_of_ascii c)); [lia|]. eexists; split; [reflexivity|].
  destruct ((65 <=? nat_of_ascii c) && (nat_of_ascii c <=? 90)) eqn:E.
  - right. exists (nat_of_ascii c - 65). rewrite <- (ascii_nat_embedding c) at 2. 
    assert (65 <= nat_of_ascii c <= 90) as B by lia. remember (nat_of_ascii c) as n. clear -B.
    do 91 (destruct n as [|n]; [first [lia | split; reflexivity]|]). lia.
  - left. split; auto. intros Q. assert (65 <= nat_of_ascii c <= 90); [|lia]. clear -Q.
    repeat (destruct Q as [<-|Q]; [cbn; lia|]). destruct Q.
Qed.
Lemma toupper_ok c : nat_of_ascii c < 128 -> exists c', toupper c = Ok c' /\
  ((~ In c letters_lower /\ c' = c) \/ exists j, nth_error letters_lower j = Some c /\ nth_error letters_upper j = Some c').
Proof.
  intros H. unfold toupper. destruct (Nat.leb_spec 128 (nat_of_ascii c)); [lia|]. eexists; split; [reflexivity|].
  destruct ((97 <=? nat_of_ascii c) && (nat_of_ascii c <=? 122)) eqn:E.
  - right. exists (nat_of_ascii c - 97). rewrite <- (ascii_nat_embedding c) at 2. 
    assert (97 <= nat_of_ascii c <= 122) as B by lia. remember (nat_of_ascii c) as n. clear -B.
    do 123 (destruct n as [|n]; [first [lia | split; reflexivity]|]). lia.
  - left. split; auto. intros Q. assert (97 <= nat_of_ascii c <= 122); [|lia]. clear -Q.
    repeat (destruct Q as [<-|Q]; [cbn; lia|]). destruct Q.
Qed.
Lemma transform_replaced f from to s :
  (forall c, nat_of_ascii c < 128 -> exists c', f c = Ok c' /\
    ((~ In c from /\ c' = c) \/ exists j, nth_error from j = Some c /\ nth_error to j = Some c')) ->
  seven_bit s -> exists t, transform f s = Ok t /\ replaced from to s t.
Proof.
  intros Hf. induction s as [|c s IH]; intros HS.
  - exists []. split; auto. split; auto. intros [|i]; discriminate.
  - destruct (Hf c (HS c (or_introl eq_refl))) as (c' & E & HC).
    destruct IH as (t & Et & HL & HT); [intros x Hx; apply HS; right; auto|].
    exists (c' :: t). cbn [transform]. rewrite E. cbn [bind]. rewrite Et. split; auto. split; [cbn; lia|].
    intros [|i] x x'; cbn; [intros [= <-] [= <-]; auto|apply HT].
Qed.

Theorem C42_case_conversion_partial :
  forall s, seven_bit s ->
  (exists t, toLower s = Ok t /\ replaced letters_upper letters_lower s t) /\
  (exists t, toUpper s = Ok t /\ replaced letters_lower letters_upper s t).
Proof. exact (fun s H => conj (transform_replaced _ _ _ s tolower_ok H) (transform_replaced _ _ _ s toupper_ok H)). Qed.
Print Assumptions C42_case_conversion_partial.

Theorem C42_high_bytes_refuted :
  forall s, (exists c, In c s /\ 128 <= nat_of_ascii c) -> toLower s = UB /\ toUpper s = UB.
Proof.
  intros s (c & Hc & H). split; apply transform_ub.
  - exists c. split; auto. unfold tolower. destruct (Nat.leb_spec 128 (nat_of_ascii c)); [auto|lia].
  - intros x. unfold tolower. destruct (_ <=? _); discriminate.
  - exists c. split; auto. unfold toupper. destruct (Nat.leb_spec 128 (nat_of_ascii c)); [auto|lia].
  - intros x. unfold toupper. destruct (_ <=? _); discriminate.
Qed.
Print Assumptions C42_high_bytes_refuted.

Example C42_nonvacuous : toLower ($"AbC-9") = Ok ($"abc-9") /\ toUpper ($"AbC-9") = Ok ($"ABC-9").
Proof. vm_compute. auto. Qed.
