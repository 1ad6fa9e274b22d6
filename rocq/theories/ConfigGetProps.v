(* C55: typed values of the configuration and of the command line. *)
From Verif Require Import Base Text SMap KeyValueDirectoryModel StringHelperModel StringHelperSpec StringHelperProofs GetoptModel ConfigModel ConfigGetModel ConfigGetSpec ConfigGetProofs.
Local Open Scope Z_scope.

(* ---- integers ---- *)
(* A key whose text begins (after blanks) with an integer in decimal, octal (0...) or hexadecimal (0x...) notation is read
   as that integer, if the type has it. *)
Theorem C55_integer : forall d i key s neg n old, map_get d key = Some s -> int_text s neg n -> in_range i (signed_value neg n) ->
  get d (TInt i) key old = Ok (true, VZ (signed_value neg n)).
Proof.
  intros d i key s neg n old K T R. unfold get. rewrite K, (cast_int i s neg n T). cbn [tried].
  rewrite store_in_range; [reflexivity|exact (int_text_nonneg _ _ _ T)|exact R].
Qed.
Print Assumptions C55_integer.

(* a text denotes at most one integer *)
Theorem C55_one_integer : forall s neg n neg' n', int_text s neg n -> int_text s neg' n' -> neg = neg' /\ n = n'.
Proof. exact int_text_fun. Qed.
Print Assumptions C55_one_integer.

(* every text is blank, or denotes an integer, or is read as 0 *)
Theorem C55_every_text : forall d i key s old, map_get d key = Some s ->
  (blank s /\ get d (TInt i) key old = UB) \/
  (exists neg n z, int_text s neg n /\ in_range i z /\ get d (TInt i) key old = Ok (true, VZ z)) \/
  (~ blank s /\ (forall neg n, ~ int_text s neg n) /\ get d (TInt i) key old = Ok (true, VZ 0)).
Proof.
  intros d i key s old K. unfold get. rewrite K. destruct (skip_space s) as [|c r] eqn:Q.
  - left. apply skip_nil in Q. split; [exact Q|]. rewrite cast_blank by (auto; discriminate). reflexivity.
  - right. assert (NB : ~ blank s) by (intros B; apply skip_nil in B; congruence).
    destruct (int_text_total s NB) as [(neg & n & T)|(N & _)].
    + left. exists neg, n, (store_int i neg n). split; [exact T|]. split; [|rewrite (cast_int i s neg n T); reflexivity].
      pose proof (int_text_nonneg _ _ _ T) as P. unfold in_range, store_int. change lowest with imin in *; change highest with imax in *; change signed_type with isigned in *. destruct i; cbn [isigned imin imax].
      all: try lia.
      all: match goal with |- context [if ?b then _ else _] => destruct b eqn:E end; [lia|].
      all: destruct neg; [|lia].
      all: match goal with |- context [?a mod ?b] => pose proof (Z.mod_pos_bound a b ltac:(lia)); lia end.
    + right. split; [exact NB|]. split; [exact N|]. rewrite cast_none by auto. reflexivity.
Qed.
Print Assumptions C55_every_text.

(* an integer the signed type does not have: the nearest one it has, and success is reported *)
Theorem C55_saturates : forall d i key s neg n old, map_get d key = Some s -> int_text s neg n -> signed_type i = true ->
  (signed_value neg n < lowest i -> get d (TInt i) key old = Ok (true, VZ (lowest i))) /\
  (highest i < signed_value neg n -> get d (TInt i) key old = Ok (true, VZ (highest i))).
Proof.
  intros d i key s neg n old K T Sg. change lowest with imin in *; change highest with imax in *; change signed_type with isigned in *. unfold get. rewrite K, (cast_int i s neg n T). cbn [tried]. unfold store_int, signed_value. rewrite Sg.
  destruct i; try discriminate; cbn [imin imax]; split; intros H; do 3 f_equal; lia.
Qed.
Print Assumptions C55_saturates.

(* unsigned types: too large is the largest value; a minus sign counts from the top *)
Theorem C55_unsigned : forall d i key s neg n old, map_get d key = Some s -> int_text s neg n -> signed_type i = false ->
  (highest i < n -> get d (TInt i) key old = Ok (true, VZ (highest i))) /\
  (neg = true -> 0 < n <= highest i -> get d (TInt i) key old = Ok (true, VZ (highest i + 1 - n))).
Proof.
  intros d i key s neg n old K T Sg. change lowest with imin in *; change highest with imax in *; change signed_type with isigned in *. unfold get. rewrite K, (cast_int i s neg n T). cbn [tried]. unfold store_int. rewrite Sg. split.
  - intros H. replace (imax i <? n) with true by lia. reflexivity.
  - intros -> H. replace (imax i <? n) with false by lia. do 3 f_equal. symmetry. apply (Z.mod_unique _ _ (-1)); lia.
Qed.
Print Assumptions C55_unsigned.

Example C55_integer_nonvacuous :
  int_text ($"  -0x1Fh") true 31 /\ int_text ($"017 kg") false 15 /\ int_text ($"42") false 42 /\
  (forall neg n, ~ int_text ($"twelve") neg n) /\
  map_get [($"/a", $"  -0x1Fh")] ($"/a") = Some ($"  -0x1Fh") /\ in_range I16 (-31) /\
  get [($"/a", $"  -0x1Fh")] (TInt I16) ($"/a") (VZ 7) = Ok (true, VZ (-31)) /\
  get [($"/a", $"99999999999")] (TInt I32) ($"/a") (VZ 7) = Ok (true, VZ 2147483647) /\
  get [($"/a", $"-1")] (TInt U16) ($"/a") (VZ 7) = Ok (true, VZ 65535).
Proof.
  split.
  { exists ($"  "), ($"-"), ($"0x1Fh"). split; [reflexivity|]. split; [repeat constructor|]. split; [|right; auto].
    change ($"0x1Fh") with ("0"%char :: ["x"%char] ++ ["1"%char; "F"%char] ++ ["h"%char]). apply U_hex; [left; reflexivity|discriminate| |].
    - apply (W_snoc 16 ["1"%char] 1 "F"%char 15); [apply (W_snoc 16 [] 0 "1"%char 1); [constructor|]|]; (split; [lia|]); cbn; auto.
    - intros c r v Q D. injection Q as <- <-. apply digit_iff in D. destruct D as (_ & D). vm_compute in D. discriminate. }
  split.
  { exists [], [], ($"017 kg"). split; [reflexivity|]. split; [constructor|]. split; [|left; auto].
    change ($"017 kg") with ("0"%char :: ["1"%char; "7"%char] ++ $" kg"). apply U_oct; [| |discriminate].
    - apply (W_snoc 8 ["1"%char] 1 "7"%char 7); [apply (W_snoc 8 [] 0 "1"%char 1); [constructor|]|]; (split; [lia|]); cbn; auto.
    - intros c r v Q D. injection Q as <- <-. apply digit_iff in D. destruct D as (_ & D). vm_compute in D. discriminate. }
  split.
  { exact (dec_text 42). }
  split.
  { intros neg n (b & sign & t & E & B & U & Sg). destruct (unsigned_first _ _ U) as (c & r & v & -> & D).
    destruct b as [|x b]; [|injection E as <- _; inversion B as [|? ? H _]; discriminate H].
    destruct Sg as [([-> | ->] & _)|(-> & _)]; try discriminate E. injection E as <- _. apply digit_iff in D. destruct D as (_ & D). vm_compute in D. discriminate. }
  split; [reflexivity|]. split; [unfold in_range; cbn; lia|]. vm_compute. auto.
Qed.

(* What one would expect, and what does not hold: a text that is not a number is not reported (it is 0), the end of the
   range is not reported, a blank text leaves the value indeterminate. *)
Theorem C55_invalid_rejected_refuted :
  ~ (forall d i key s old, map_get d key = Some s -> ~ blank s -> (forall neg n, ~ int_text s neg n) -> get d (TInt i) key old = Ok (false, old)).
Proof.
  intros H. destruct C55_integer_nonvacuous as (_ & _ & _ & N & _).
  specialize (H [($"/a", $"twelve")] I32 ($"/a") ($"twelve") (VZ 7) eq_refl).
  assert (NB : ~ blank ($"twelve")) by (intros B; inversion B as [|? ? Q _]; discriminate Q).
  specialize (H NB N). vm_compute in H. discriminate.
Qed.
Print Assumptions C55_invalid_rejected_refuted.

Theorem C55_overflow_rejected_refuted :
  ~ (forall d i key s neg n old, map_get d key = Some s -> int_text s neg n -> ~ in_range i (signed_value neg n) ->
     get d (TInt i) key old = Ok (false, old)).
Proof.
  intros H. specialize (H [($"/a", LogTextModel.dec (2^40))] I32 ($"/a") _ _ _ (VZ 7) eq_refl (dec_text (2^40))).
  assert (NR : ~ in_range I32 (signed_value (2 ^ 40 <? 0) (Z.abs (2 ^ 40)))) by (unfold in_range; cbn; lia).
  specialize (H NR). vm_compute in H. discriminate.
Qed.
Print Assumptions C55_overflow_rejected_refuted.

Theorem C55_blank_defined_refuted :
  ~ (forall d t key s old, map_get d key = Some s -> get d t key old <> UB).
Proof. intros H. apply (H [($"/a", [])] (TInt I32) ($"/a") [] (VZ 7) eq_refl). reflexivity. Qed.
Print Assumptions C55_blank_defined_refuted.

(* ---- the other types ---- *)
Theorem C55_missing : forall d t key old, map_get d key = None ->
  get d t key old = Ok (false, old) /\ getDefault d t key old = Ok old /\
  (forall descs em, get_enum d key old descs em = Ok (false, old)).
Proof.
  intros d t key old K. unfold getDefault, get, get_enum. rewrite K. auto.
Qed.
Print Assumptions C55_missing.

Theorem C55_string : forall d key s old, map_get d key = Some s ->
  get d TString key old = Ok (true, VS s) /\ getDefault d TString key old = Ok (VS s).
Proof. intros d key s old K. unfold getDefault, get. rewrite K. auto. Qed.
Print Assumptions C55_string.

(* bool: the whole text, in any case; anything else is an error and leaves the value *)
Theorem C55_bool : forall d key s old, map_get d key = Some s -> ascii_only s ->
  (true_word s -> get d TBool key old = Ok (true, VB true)) /\
  (false_word s -> get d TBool key old = Ok (true, VB false)) /\
  (~ true_word s -> ~ false_word s -> get d TBool key old = Ok (false, old) /\ getDefault d TBool key old = Ok old).
Proof.
  intros d key s old K A. unfold getDefault, get. rewrite K, (toLower_ascii s A). cbn [bind].
  split; [|split].
  - intros T. pose proof (true_not_false s T) as F. rewrite true_lower in T. rewrite false_lower in F.
    destruct (one_of (map lower_byte s) [$"0"; $"no"; $"false"]); [congruence|]. rewrite T. reflexivity.
  - intros F. rewrite false_lower in F. rewrite F. reflexivity.
  - intros T F. rewrite true_lower in T. rewrite false_lower in F.
    destruct (one_of (map lower_byte s) [$"0"; $"no"; $"false"]); [congruence|].
    destruct (one_of (map lower_byte s) [$"1"; $"yes"; $"true"]); [congruence|]. auto.
Qed.
Print Assumptions C55_bool.

Example C55_bool_nonvacuous :
  true_word ($"YeS") /\ false_word ($"FALSE") /\ ascii_only ($"YeS") /\ ~ true_word ($"maybe") /\ ~ false_word ($"maybe") /\
  get [($"/a", $"YeS")] TBool ($"/a") (VB false) = Ok (true, VB true) /\ get [($"/a", $"maybe")] TBool ($"/a") (VB true) = Ok (false, VB true).
Proof.
  split; [rewrite true_lower; reflexivity|]. split; [rewrite false_lower; reflexivity|]. split; [repeat constructor; vm_compute; lia|].
  split; [rewrite true_lower; discriminate|]. split; [rewrite false_lower; discriminate|]. vm_compute. auto.
Qed.

(* the casts to bool themselves: the first word decides; the lenient one takes everything that does not mean true as false *)
Theorem C55_bool_casts : forall s w, first_word s w ->
  (bool_cast s = true <-> true_word w) /\
  (strict_bool_cast s = Ok true <-> true_word w) /\ (strict_bool_cast s = Ok false <-> false_word w) /\
  (strict_bool_cast s = Throw <-> ~ true_word w /\ ~ false_word w).
Proof.
  intros s w W. apply word_first in W. unfold bool_cast, strict_bool_cast. rewrite W. pose proof (true_not_false w) as TF.
  rewrite true_lower, false_lower in *.
  destruct (one_of (map lower_byte w) [$"1"; $"yes"; $"true"]), (one_of (map lower_byte w) [$"0"; $"no"; $"false"]); intuition congruence.
Qed.
Print Assumptions C55_bool_casts.

Example C55_bool_casts_nonvacuous :
  first_word ($"  Yes please") ($"Yes") /\ true_word ($"Yes") /\ bool_cast ($"  Yes please") = true /\ strict_bool_cast ($"  Yes please") = Ok true /\
  bool_cast ($"maybe") = false /\ strict_bool_cast ($"maybe") = Throw /\ strict_bool_cast ($"no") = Ok false.
Proof.
  split.
  { exists ($"  "), ($" please"). split; [reflexivity|]. split; [repeat constructor|]. split; [|split; [|discriminate]].
    - intros c [<-|[<-|[<-|[]]]]; reflexivity.
    - intros c r' E. injection E as <- _. reflexivity. }
  split; [rewrite true_lower; reflexivity|]. vm_compute. auto 10.
Qed.

(* a byte outside ASCII in a truth value *)
Theorem C55_bool_defined_refuted : ~ (forall d key s old, map_get d key = Some s -> get d TBool key old <> UB).
Proof. intros H. apply (H [($"/a", [ascii_of_nat 228])] ($"/a") [ascii_of_nat 228] (VB true) eq_refl). reflexivity. Qed.
Print Assumptions C55_bool_defined_refuted.

(* a char (also the 8 bit integers) is the first non-blank character, not a number *)
Theorem C55_char : forall d key b c r old, map_get d key = Some (b ++ c :: r) -> blank b -> is_space c = false ->
  get d TChar key old = Ok (true, VC c).
Proof.
  intros d key b c r old K B N. unfold get. rewrite K. unfold hexical_cast. rewrite skip_blank, skip_first by auto. reflexivity.
Qed.
Print Assumptions C55_char.

Example C55_char_nonvacuous : get [($"/a", $" 65")] TChar ($"/a") (VC "x"%char) = Ok (true, VC "6"%char).
Proof. reflexivity. Qed.

(* an enumeration: the position of the description (the last one, if it is listed more than once) *)
Theorem C55_enum : forall d key s old l em rest, map_get d key = Some s ->
  Z.of_nat (length l) < 2 ^ 31 -> (forall m, em = Some m -> ~ In m l) ->
  (~ In (c_str s) l /\ get_enum d key old (map Some l ++ em :: rest) em = Ok (false, old)) \/
  (exists i, last_index (c_str s) l i /\ get_enum d key old (map Some l ++ em :: rest) em = Ok (true, VZ (Z.of_nat i))).
Proof.
  intros d key s old l em rest K L M. unfold get_enum, enum_value. rewrite K.
  destruct (C23_arr_lemma s 0 l em rest L M) as [(N & E)|(i & I & E)]; rewrite E; cbn [bind fst snd]; [left|right]; eauto.
Qed.
Print Assumptions C55_enum.

Example C55_enum_nonvacuous :
  get_enum [($"/mode", $"slow")] ($"/mode") (VZ 9) [Some ($"fast"); Some ($"slow"); None] None = Ok (true, VZ 1) /\
  get_enum [($"/mode", $"no")] ($"/mode") (VZ 9) [Some ($"fast"); Some ($"slow"); None] None = Ok (false, VZ 9).
Proof. vm_compute. auto. Qed.

(* ---- setValue, then get ---- *)
Theorem C55_round_trip : forall fuel fs k t v m b m' old,
  has_type t v -> (forall c, v = VC c -> is_space c = false) ->
  setValue_of fuel fs k v m = Some (b, m') ->
  get (items m') t k old = Ok (true, v) /\ getDefault (items m') t k old = Ok v.
Proof.
  intros fuel fs k t v m b m' old Ty NS E.
  assert (G : get (items m') t k old = Ok (true, v)); [|unfold getDefault; rewrite G; auto].
  assert (K : map_get (items m') k = Some (to_text v)).
  { unfold setValue_of, setValue in E. destruct (if ConfigModel.str_eqb k $"/configfile" then load fuel fs (to_text v) m else Some (true, m)) as [(b1, m1)|]; [|discriminate].
    injection E as _ <-. apply put_get. }
  unfold get. rewrite K. destruct t as [i| | |], v as [z|bv|s|c]; try contradiction; cbn [to_text].
  - cbn in Ty. rewrite cast_dec by exact Ty. reflexivity.
  - destruct bv; reflexivity.
  - reflexivity.
  - unfold hexical_cast. rewrite skip_first by (apply NS; reflexivity). reflexivity.
Qed.
Print Assumptions C55_round_trip.

Example C55_round_trip_nonvacuous :
  has_type (TInt I16) (VZ (-32768)) /\
  exists m', setValue_of 0 (mkF (fun _ => None) (fun _ => None) (fun s => s) (fun s => s) (fun _ _ => false)) ($"/a/b") (VZ (-32768)) new_manager = Some (true, m') /\
  map_get (items m') ($"/a/b") = Some ($"-32768").
Proof. split; [unfold has_type, in_range; cbn; lia|]. eexists. split; vm_compute; reflexivity. Qed.

(* a blank character cannot be read back *)
Theorem C55_round_trip_char_refuted :
  ~ (forall fuel fs k c m b m' old, setValue_of fuel fs k (VC c) m = Some (b, m') -> get (items m') TChar k old = Ok (true, VC c)).
Proof.
  intros H. specialize (H O (mkF (fun _ => None) (fun _ => None) (fun s => s) (fun s => s) (fun _ _ => false)) ($"/a") " "%char new_manager _ _ (VC "x"%char) eq_refl).
  vm_compute in H. discriminate.
Qed.
Print Assumptions C55_round_trip_char_refuted.

(* getDefault does not fall back to the default for a number that cannot be read *)
Theorem C55_default_on_invalid_refuted :
  ~ (forall d i key s def, map_get d key = Some s -> ~ blank s -> (forall neg n, ~ int_text s neg n) -> getDefault d (TInt i) key def = Ok def).
Proof.
  intros H. destruct C55_integer_nonvacuous as (_ & _ & _ & N & _).
  specialize (H [($"/a", $"twelve")] I32 ($"/a") ($"twelve") (VZ 7) eq_refl).
  assert (NB : ~ blank ($"twelve")) by (intros B; inversion B as [|? ? Q _]; discriminate Q).
  specialize (H NB N). vm_compute in H. discriminate.
Qed.
Print Assumptions C55_default_on_invalid_refuted.

(* ---- the command line ---- *)
Theorem C55_option_integer : forall p i name s neg n old, map_get (param_opt p) name = Some s -> int_text s neg n -> in_range i (signed_value neg n) ->
  paramOpt_as p (TInt i) name old = Ok (true, VZ (signed_value neg n)) /\ paramOptDefault p (TInt i) name old = Ok (VZ (signed_value neg n)).
Proof.
  intros p i name s neg n old K T R. unfold paramOpt_as, paramOptDefault, paramOptPresent, paramOpt. rewrite K, (cast_int i s neg n T).
  rewrite store_in_range; [split; reflexivity|exact (int_text_nonneg _ _ _ T)|exact R].
Qed.
Print Assumptions C55_option_integer.
Theorem C55_option_missing : forall p t name old, map_get (param_opt p) name = None ->
  paramOpt_as p t name old = Ok (false, old) /\ paramOptDefault p t name old = Ok old /\
  (forall descs em, paramOpt_enum p name old descs em = Ok (false, old)).
Proof. intros p t name old K. unfold paramOpt_as, paramOptDefault, paramOpt_enum, paramOptPresent. rewrite K. auto. Qed.
Print Assumptions C55_option_missing.
Theorem C55_option_enum : forall p name s old l em rest, map_get (param_opt p) name = Some s ->
  Z.of_nat (length l) < 2 ^ 31 -> (forall m, em = Some m -> ~ In m l) ->
  (~ In (c_str s) l /\ paramOpt_enum p name old (map Some l ++ em :: rest) em = Ok (false, old)) \/
  (exists i, last_index (c_str s) l i /\ paramOpt_enum p name old (map Some l ++ em :: rest) em = Ok (true, VZ (Z.of_nat i))).
Proof.
  intros p name s old l em rest K L M. unfold paramOpt_enum, paramOptPresent, paramOpt, enum_value. rewrite K.
  destruct (C23_arr_lemma s 0 l em rest L M) as [(N & E)|(i & I & E)]; rewrite E; cbn [bind fst snd]; [left|right]; eauto.
Qed.
Print Assumptions C55_option_enum.
(* a string option is cut at the first blank *)
Theorem C55_option_string : forall p name s w old, map_get (param_opt p) name = Some s -> first_word s w ->
  paramOpt_as p TString name old = Ok (true, VS w) /\ paramOptDefault p TString name old = Ok (VS w).
Proof.
  intros p name s w old K W. apply word_first in W. unfold paramOpt_as, paramOptDefault, paramOptPresent, paramOpt. rewrite K. unfold hexical_cast.
  destruct (skip_space s) as [|c r]; cbn [word] in W; [subst w; auto|]. rewrite <- W. auto.
Qed.
Print Assumptions C55_option_string.
Theorem C55_option_string_whole_refuted :
  ~ (forall p name s old, map_get (param_opt p) name = Some s -> paramOpt_as p TString name old = Ok (true, VS s)).
Proof. intros H. specialize (H (mkR [($"n", $"two words")] [] [] []) ($"n") _ (VS []) eq_refl). vm_compute in H. discriminate. Qed.
Print Assumptions C55_option_string_whole_refuted.
(* a truth value of the command line must be a number: "true" is read as false *)
Theorem C55_option_bool_word_refuted :
  ~ (forall p name s old, map_get (param_opt p) name = Some s -> true_word s -> paramOpt_as p TBool name old = Ok (true, VB true)).
Proof.
  intros H. specialize (H (mkR [($"n", $"true")] [] [] []) ($"n") ($"true") (VB true) eq_refl).
  assert (T : true_word ($"true")) by (rewrite true_lower; reflexivity). specialize (H T). vm_compute in H. discriminate.
Qed.
Print Assumptions C55_option_bool_word_refuted.
Theorem C55_option_bool : forall p name s neg n old, map_get (param_opt p) name = Some s -> int_text s neg n ->
  paramOpt_as p TBool name old = Ok (true, VB (negb (n =? 0))).
Proof.
  intros p name s neg n old K T. unfold paramOpt_as, paramOptPresent, paramOpt. rewrite K. apply int_text_scan in T. destruct T as (E & NE).
  unfold hexical_cast. destruct (skip_space s) as [|c r]; [congruence|]. rewrite E. reflexivity.
Qed.
Print Assumptions C55_option_bool.

(* positional arguments *)
Theorem C55_positional : forall p index s old,
  nth_error (non_opt p) index = Some s ->
  (forall i neg n, int_text s neg n -> in_range i (signed_value neg n) -> paramNonOpt_as p (TInt i) index old = Ok (true, VZ (signed_value neg n))) /\
  (forall w, first_word s w -> paramNonOpt_as p TString index old = Ok (true, VS w)) /\
  (forall l em rest, Z.of_nat (length l) < 2 ^ 31 -> (forall m, em = Some m -> ~ In m l) ->
    (~ In (c_str s) l /\ paramNonOpt_enum p index old (map Some l ++ em :: rest) em = Ok (false, old)) \/
    (exists i, last_index (c_str s) l i /\ paramNonOpt_enum p index old (map Some l ++ em :: rest) em = Ok (true, VZ (Z.of_nat i)))).
Proof.
  intros p index s old K. assert (L : (index < length (non_opt p))%nat) by (apply nth_error_Some; congruence).
  unfold paramNonOpt_as, paramNonOpt_enum, paramNonOptCount, paramNonOpt.
  apply Nat.ltb_lt in L. rewrite !L. assert (E : nth index (non_opt p) [] = s) by (apply nth_error_nth; exact K). rewrite !E.
  split; [|split].
  - intros i neg n T R. rewrite (cast_int i s neg n T). rewrite store_in_range; [reflexivity|exact (int_text_nonneg _ _ _ T)|exact R].
  - intros w W. apply word_first in W. unfold hexical_cast. destruct (skip_space s) as [|c r]; cbn [word] in W; [subst w; auto|]. rewrite <- W. auto.
  - intros l em rest Ll M. unfold enum_value. destruct (C23_arr_lemma s 0 l em rest Ll M) as [(N & Q)|(i & I & Q)]; rewrite Q; cbn [bind fst snd]; [left|right]; eauto.
Qed.
Print Assumptions C55_positional.
Theorem C55_positional_missing : forall p index t old, (length (non_opt p) <= index)%nat ->
  paramNonOpt_as p t index old = Ok (false, old) /\ (forall descs em, paramNonOpt_enum p index old descs em = Ok (false, old)).
Proof.
  intros p index t old L. unfold paramNonOpt_as, paramNonOpt_enum, paramNonOptCount. replace (index <? length (non_opt p))%nat with false by (symmetry; apply Nat.ltb_ge; exact L). auto.
Qed.
Print Assumptions C55_positional_missing.

Example C55_command_line_nonvacuous :
  let p := mkR [($"n", $"0x20"); ($"s", $"a b")] [] [$"7"; $"x"] [] in
  paramOpt_as p (TInt U32) ($"n") (VZ 1) = Ok (true, VZ 32) /\ paramOpt_as p TString ($"s") (VS []) = Ok (true, VS ($"a")) /\
  paramNonOpt_as p (TInt I64) 0 (VZ 1) = Ok (true, VZ 7) /\ paramNonOpt_as p (TInt I64) 2 (VZ 1) = Ok (false, VZ 1) /\
  paramNonOpt_enum p 1 (VZ 9) [Some ($"w"); Some ($"x"); None] None = Ok (true, VZ 1).
Proof. vm_compute. auto 10. Qed.
