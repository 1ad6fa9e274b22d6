From Verif Require Import Base BaseLemmas CInt TimeModel TimeSpec TimeProofs Text IsoModel IsoSpec.
Local Open Scope Z_scope.
Ltac Zify.zify_post_hook ::= Z.to_euclidean_division_equations.

Lemma digit_cases z : 0 <= z < 10 -> z = 0 \/ z = 1 \/ z = 2 \/ z = 3 \/ z = 4 \/ z = 5 \/ z = 6 \/ z = 7 \/ z = 8 \/ z = 9.
Proof. lia. Qed.
Lemma dvalue_dchar z : 0 <= z < 10 -> dvalue (dchar z) = z.
Proof. intros H. destruct (digit_cases _ H) as [->|[->|[->|[->|[->|[->|[->|[->|[->| ->]]]]]]]]]; reflexivity. Qed.
Lemma is_digit_dchar z : 0 <= z < 10 -> is_digit (dchar z) = true.
Proof. intros H. destruct (digit_cases _ H) as [->|[->|[->|[->|[->|[->|[->|[->|[->| ->]]]]]]]]]; reflexivity. Qed.

Lemma digits_length k z : length (digits k z) = k.
Proof. revert z; induction k as [|k IH]; intros z; cbn; auto. rewrite app_length, IH. cbn. lia. Qed.
Lemma digits_all k z : 0 <= z -> all_digits (digits k z) = true.
Proof.
  unfold all_digits. revert z; induction k as [|k IH]; intros z Hz; cbn [digits]; auto.
  rewrite forallb_app, IH by lia. cbn [forallb]. rewrite is_digit_dchar by lia. reflexivity.
Qed.
Lemma number_snoc l c : number (l ++ [c]) = number l * 10 + dvalue c.
Proof. unfold number. rewrite fold_left_app. reflexivity. Qed.
Lemma number_digits k z : 0 <= z < 10 ^ Z.of_nat k -> number (digits k z) = z.
Proof.
  revert z; induction k as [|k IH]; intros z Hz.
  - cbn in *. unfold number; cbn. lia.
  - cbn [digits]. rewrite number_snoc, dvalue_dchar by lia. rewrite IH; [lia|].
    rewrite Nat2Z.inj_succ, Z.pow_succ_r in Hz by lia. lia.
Qed.

Lemma lexical_digits_gen l : l <> [] -> all_digits l = true -> in_i32 (number l) = true -> lexical_cast_i32 l = Ok (number l).
Proof.
  intros Hne Ha Hr. destruct l as [|c l]; [congruence|]. unfold lexical_cast_i32.
  assert (Hc : is_digit c = true) by (cbn in Ha; apply andb_prop in Ha; tauto).
  destruct (Ascii.eqb_spec c "-") as [->|_]; [discriminate|].
  destruct (Ascii.eqb_spec c "+") as [->|_]; [discriminate|].
  unfold lexical_unsigned. rewrite Ha. cbn [bind]. rewrite Hr. reflexivity.
Qed.
Lemma lexical_digits k z : (0 < k <= 9)%nat -> 0 <= z < 10 ^ Z.of_nat k -> lexical_cast_i32 (digits k z) = Ok z.
Proof.
  intros Hk Hz. pose proof (number_digits k z Hz) as HN. rewrite <- HN at 2. apply lexical_digits_gen.
  - intros E. pose proof (digits_length k z) as HL. rewrite E in HL. cbn in HL. lia.
  - apply digits_all. lia.
  - rewrite HN. rng. assert (10 ^ Z.of_nat k <= 10 ^ 9) by (apply Z.pow_le_mono_r; lia). 
    change (10 ^ 9) with 1000000000 in *. lia.
Qed.

(* ---- calendar ---- *)
Lemma leap_agree y : leap_year y = is_leap y.
Proof. unfold leap_year, is_leap. lia. Qed.

Definition ylen (y : Z) : Z := if is_leap y then 366 else 365.
Fixpoint ysum (k : nat) : Z := match k with O => 0 | S j => ysum j + ylen (1970 + Z.of_nat j) end.
Fixpoint msum (y : Z) (k : nat) : Z := match k with O => 0 | S j => msum y j + month_len y (Z.of_nat j + 1) end.
Definition dnum (d : date) : Z := ysum (Z.to_nat (year d - 1970)) + msum (year d) (Z.to_nat (month d - 1)) + (day d - 1).

Lemma month_len_bounds y m : 28 <= month_len y m <= 31.
Proof. unfold month_len. destruct (m =? 2); [destruct (is_leap y)|destruct (_ || _)]; lia. Qed.
Lemma ylen_bounds y : 365 <= ylen y <= 366.
Proof. unfold ylen. destruct (is_leap y); lia. Qed.
Lemma msum_12 y : msum y 12 = ylen y.
Proof. unfold ylen. cbn. unfold month_len. cbn. destruct (is_leap y); reflexivity. Qed.

Definition vdate (d : date) : Prop :=
  1970 <= year d /\ 1 <= month d <= 12 /\ 1 <= day d <= month_len (year d) (month d).

Lemma next_day_valid d : vdate d -> vdate (next_day d) /\ dnum (next_day d) = dnum d + 1.
Proof.
  destruct d as [y m d]. unfold vdate, next_day, dnum; cbn [year month day]. intros (Hy & Hm & Hd).
  destruct (Z.ltb_spec d (month_len y m)); cbn [year month day]; [split; [|lia]; repeat split; lia|].
  destruct (Z.ltb_spec m 12); cbn [year month day].
  - pose proof (month_len_bounds y (m + 1)). split; [repeat split; lia|].
    replace (Z.to_nat (m + 1 - 1)) with (S (Z.to_nat (m - 1))) by lia. cbn [msum].
    replace (Z.of_nat (Z.to_nat (m - 1)) + 1) with m by lia. lia.
  - pose proof (month_len_bounds (y + 1) 1). split; [repeat split; lia|].
    replace (Z.to_nat (y + 1 - 1970)) with (S (Z.to_nat (y - 1970))) by lia. cbn [ysum].
    replace (1970 + Z.of_nat (Z.to_nat (y - 1970))) with y by lia.
    change (Z.to_nat (1 - 1)) with O. cbn [msum].
    assert (m = 12) by lia. subst m. rewrite <- msum_12.
    change (Z.to_nat (12 - 1)) with 11%nat.
    assert (E : msum y 12 = msum y 11 + month_len y 12) by reflexivity.
    rewrite E. assert (d = month_len y 12) by lia. lia.
Qed.

Lemma iter_next n : vdate (Nat.iter n next_day (D 1970 1 1)) /\ dnum (Nat.iter n next_day (D 1970 1 1)) = Z.of_nat n.
Proof.
  induction n as [|n [IH1 IH2]].
  - cbn [Nat.iter]. split; [unfold vdate; cbn; repeat split; lia|reflexivity].
  - change (Nat.iter (S n) next_day (D 1970 1 1)) with (next_day (Nat.iter n next_day (D 1970 1 1))).
    destruct (next_day_valid _ IH1) as [V E]. split; auto. lia.
Qed.

Lemma day_number_dnum d n : day_number d n -> vdate d /\ dnum d = Z.of_nat n.
Proof. intros <-. apply iter_next. Qed.

Lemma msum_mono y j k : (j <= k)%nat -> msum y j <= msum y k.
Proof. induction 1 as [|k H IH]; cbn [msum]; [lia|]. pose proof (month_len_bounds y (Z.of_nat k + 1)). lia. Qed.
Lemma ysum_mono j k : (j <= k)%nat -> ysum j <= ysum k.
Proof. induction 1 as [|k H IH]; cbn [ysum]; [lia|]. pose proof (ylen_bounds (1970 + Z.of_nat k)). lia. Qed.
Lemma ysum_bound k : 0 <= ysum k <= 366 * Z.of_nat k.
Proof. induction k as [|k IH]; cbn [ysum]; [lia|]. pose proof (ylen_bounds (1970 + Z.of_nat k)). lia. Qed.
Lemma msum_nonneg y k : 0 <= msum y k.
Proof. apply (msum_mono y 0 k). lia. Qed.
Lemma msum_bound y k : msum y k <= 31 * Z.of_nat k.
Proof. induction k as [|k IH]; cbn [msum]; [lia|]. pose proof (month_len_bounds y (Z.of_nat k + 1)). lia. Qed.

(* every valid date has a day number *)
Lemma dnum_inj_iter d : vdate d -> day_number d (Z.to_nat (dnum d)).
Proof.
  (* dates are ordered by dnum; show iter reaches d by injectivity of dnum on valid dates *)
  assert (Hinj : forall a b, vdate a -> vdate b -> dnum a = dnum b -> a = b).
  { assert (Hlt : forall a b, vdate a -> vdate b -> year a < year b -> dnum a < dnum b).
    { intros [y m d0] [y' m' d'] (Hy & Hm & Hd) (Hy' & Hm' & Hd') HL. unfold dnum; cbn [year month day] in *.
      pose proof (ysum_mono (S (Z.to_nat (y - 1970))) (Z.to_nat (y' - 1970)) ltac:(lia)) as H1. cbn [ysum] in H1.
      replace (1970 + Z.of_nat (Z.to_nat (y - 1970))) with y in H1 by lia.
      pose proof (msum_mono y (S (Z.to_nat (m - 1))) 12 ltac:(lia)) as H2. rewrite msum_12 in H2. cbn [msum] in H2.
      replace (Z.of_nat (Z.to_nat (m - 1)) + 1) with m in H2 by lia.
      pose proof (msum_nonneg y' (Z.to_nat (m' - 1))). lia. }
    assert (Hlm : forall a b, vdate a -> vdate b -> year a = year b -> month a < month b -> dnum a < dnum b).
    { intros [y m d0] [y' m' d'] (Hy & Hm & Hd) (Hy' & Hm' & Hd') E HL. unfold dnum; cbn [year month day] in *. subst y'.
      pose proof (msum_mono y (S (Z.to_nat (m - 1))) (Z.to_nat (m' - 1)) ltac:(lia)) as H2. cbn [msum] in H2.
      replace (Z.of_nat (Z.to_nat (m - 1)) + 1) with m in H2 by lia. lia. }
    intros a b Va Vb E.
    destruct (Z.lt_trichotomy (year a) (year b)) as [C|[C|C]]; [pose proof (Hlt a b Va Vb C); lia| |pose proof (Hlt b a Vb Va C); lia].
    destruct (Z.lt_trichotomy (month a) (month b)) as [C'|[C'|C']]; [pose proof (Hlm a b Va Vb C C'); lia| |pose proof (Hlm b a Vb Va (eq_sym C) C'); lia].
    destruct a as [y m d0], b as [y' m' d']; unfold dnum in E; cbn [year month day] in *. subst. f_equal. lia. }
  intros V. unfold day_number. destruct (iter_next (Z.to_nat (dnum d))) as [V' E]. apply Hinj; auto. rewrite E.
  destruct V as (Hy & Hm & Hd). unfold dnum. 
  pose proof (ysum_bound (Z.to_nat (year d - 1970))). pose proof (msum_nonneg (year d) (Z.to_nat (month d - 1))). lia.
Qed.

Lemma year_loop_ok k : forall j acc, acc = ysum j -> Z.of_nat (k + j) <= 100000 -> year_loop k (1970 + Z.of_nat j) acc = ysum (k + j).
Proof.
  induction k as [|k IH]; intros j acc Ha Hb; cbn [year_loop]; [auto|].
  replace (1970 + Z.of_nat j + 1) with (1970 + Z.of_nat (S j)) by lia. rewrite IH.
  - f_equal. lia.
  - rewrite leap_agree. subst acc. cbn [ysum]. fold (ylen (1970 + Z.of_nat j)).
    unfold to_u64. pw. rewrite Z.mod_small; auto. pose proof (ysum_bound j). pose proof (ylen_bounds (1970 + Z.of_nat j)).
    assert (Z.of_nat j <= 100000) by lia. lia.
  - lia.
Qed.

Lemma dpm_nth y i : (i < 12)%nat -> vec_get (days_per_month (leap_year y)) i = Ok (month_len y (Z.of_nat i + 1)).
Proof.
  intros H. rewrite leap_agree. unfold month_len.
  do 12 (destruct i as [|i]; [cbn; destruct (is_leap y); reflexivity|]). lia.
Qed.

Lemma month_loop_ok y k : forall j acc, (k + j <= 12)%nat -> 0 <= acc <= 20000000000 + 31 * Z.of_nat j ->
  month_loop k j (days_per_month (leap_year y)) acc = Ok (acc + msum y (k + j) - msum y j).
Proof.
  induction k as [|k IH]; intros j a Hk Ha.
  - cbn [month_loop Nat.add]. f_equal. lia.
  - cbn [month_loop]. rewrite dpm_nth by lia. cbn [bind]. pose proof (month_len_bounds y (Z.of_nat j + 1)) as HB.
    assert (E : to_u64 (a + month_len y (Z.of_nat j + 1)) = a + month_len y (Z.of_nat j + 1)).
    { unfold to_u64. pw. apply Z.mod_small. lia. }
    rewrite E. clear E. rewrite IH; [|lia|rewrite Nat2Z.inj_add; lia].
    f_equal. replace (k + (j + 1))%nat with (S k + j)%nat by lia.
    replace (j + 1)%nat with (S j) by lia. change (msum y (S j)) with (msum y j + month_len y (Z.of_nat j + 1)).
    lia.
Qed.

Definition nanos (f : str) : Z := number f * 10 ^ 9 / 10 ^ Z.of_nat (length f).

(* the arithmetic tail of the parser *)
Definition tail (y m d h mi s nsecs : Z) : result time :=
  let days0 := year_loop (Z.to_nat (y - 1970)) 1970 0 in
  bind (month_loop (Z.to_nat (m - 1)) 0 (days_per_month (leap_year y)) days0) (fun days1 =>
  let days := to_u64 (days1 + (d - 1)) in
  let secs := to_u64 (86400 * days + 3600 * h + 60 * mi + s) in
  make_stamp secs (to_u32 nsecs)).

Lemma tail_ok dt h mi s ns : valid_date dt -> 0 <= h < 24 -> 0 <= mi < 60 -> 0 <= s < 60 -> 0 <= ns < 1000000000 ->
  tail (year dt) (month dt) (day dt) h mi s ns = Ok (T (86400 * dnum dt + 3600 * h + 60 * mi + s) ns).
Proof.
  destruct dt as [y m d]. intros (Hy & Hm & Hd) Hh Hmi Hs Hn. unfold tail, dnum; cbn [year month day] in *.
  change 1970 with (1970 + Z.of_nat 0) at 2. rewrite (year_loop_ok _ 0 0) by (try reflexivity; lia).
  rewrite Nat.add_0_r. set (ys := ysum (Z.to_nat (y - 1970))).
  assert (Hys : 0 <= ys <= 3000000).
  { pose proof (ysum_bound (Z.to_nat (y - 1970))). unfold ys. lia. }
  rewrite month_loop_ok by lia. cbn [bind]. rewrite Nat.add_0_r. change (msum y 0) with 0.
  pose proof (msum_nonneg y (Z.to_nat (m - 1))). pose proof (msum_bound y (Z.to_nat (m - 1))).
  pose proof (month_len_bounds y m).
  set (ms := msum y (Z.to_nat (m - 1))) in *.
  assert (E1 : to_u64 (ys + ms - 0 + (d - 1)) = ys + ms + (d - 1)).
  { unfold to_u64; pw. rewrite Z.mod_small; lia. }
  rewrite E1.
  assert (E2 : forall z, 0 <= z < 2^63 -> to_u64 z = z) by (intros z Hz; unfold to_u64; pw; rewrite Z.mod_small; lia).
  rewrite E2 by (pw; lia).
  assert (E3 : to_u32 ns = ns) by (unfold to_u32; pw; rewrite Z.mod_small; lia).
  rewrite E3. unfold make_stamp. rewrite to_i64_id, to_i32_id by (rng; lia).
  exact (normalize_id (T (86400 * (ys + ms + (d - 1)) + 3600 * h + 60 * mi + s) ns) ltac:(unfold canonical; cbn [secs nsecs]; rng; lia)).
Qed.

Lemma list4 (l : str) : length l = 4%nat -> exists a b c d, l = [a; b; c; d].
Proof. destruct l as [|a [|b [|c [|d [|]]]]]; try discriminate. eauto. Qed.
Lemma list2 (l : str) : length l = 2%nat -> exists a b, l = [a; b].
Proof. destruct l as [|a [|b [|]]]; try discriminate. eauto. Qed.

Lemma field_hit s min pos len dflt x y r v : s = x ++ y ++ r -> length x = pos -> length y = len ->
  (min <= length s)%nat -> lexical_cast_i32 y = Ok v -> field s min pos len dflt = Ok v.
Proof.
  intros -> Hx Hy Hm HL. unfold field. apply Nat.leb_le in Hm. rewrite Hm. unfold substr.
  rewrite skipn_app, <- Hx, skipn_all, Nat.sub_diag. cbn [skipn app].
  rewrite firstn_app, <- Hy, firstn_all, Nat.sub_diag. cbn [firstn]. rewrite app_nil_r. exact HL.
Qed.
Lemma field_miss s min pos len dflt : (length s < min)%nat -> field s min pos len dflt = Ok dflt.
Proof. intros H. unfold field. apply Nat.leb_gt in H. rewrite H. auto. Qed.

Lemma parse_tail s y m d h mi se ns : field s 4 0 4 1970 = Ok y -> field s 6 4 2 1 = Ok m -> field s 8 6 2 1 = Ok d ->
  field s 11 9 2 0 = Ok h -> field s 13 11 2 0 = Ok mi -> field s 15 13 2 0 = Ok se ->
  (if (16 <? length s)%nat then lexical_cast_i32 (substr (substr s 16 9 ++ $"000000000") 0 9) else Ok 0) = Ok ns ->
  fromIso8601BasicUTC s = tail y m d h mi se ns.
Proof.
  intros H1 H2 H3 H4 H5 H6 H7. unfold fromIso8601BasicUTC.
  rewrite H1, H2, H3, H4, H5, H6. cbn [bind]. rewrite H7. reflexivity.
Qed.


Lemma full_len dt t h mi s : length (full_text dt t h mi s) = 15%nat.
Proof. unfold full_text, basic_date. rewrite !app_length, !digits_length. reflexivity. Qed.

Lemma vdate_of_valid dt : valid_date dt -> vdate dt.
Proof. unfold valid_date, vdate. lia. Qed.

(* fraction digits *)
Lemma number_app_zeros f k : number (f ++ repeat "0"%char k) = number f * 10 ^ Z.of_nat k.
Proof.
  induction k as [|k IH]; [cbn [repeat]; rewrite app_nil_r; change (Z.of_nat 0) with 0; rewrite Z.pow_0_r; lia|].
  replace (repeat "0"%char (S k)) with (repeat "0"%char k ++ ["0"%char]).
  2:{ clear. induction k; cbn in *; auto. f_equal; auto. }
  rewrite app_assoc, number_snoc, IH. rewrite Nat2Z.inj_succ, Z.pow_succ_r by lia.
  change (dvalue "0") with 0. ring.
Qed.

Lemma dvalue_bounds c : is_digit c = true -> 0 <= dvalue c < 10.
Proof. unfold is_digit, dvalue. lia. Qed.

Lemma number_bounds f : all_digits f = true -> 0 <= number f < 10 ^ Z.of_nat (length f).
Proof.
  induction f as [|c f IH] using rev_ind; intros H.
  - cbn. unfold number; cbn. lia.
  - unfold all_digits in H. rewrite forallb_app in H. apply andb_prop in H. destruct H as [H1 H2].
    cbn [forallb] in H2. rewrite andb_true_r in H2. specialize (IH H1). pose proof (dvalue_bounds _ H2).
    rewrite number_snoc, app_length. cbn [length]. rewrite Nat2Z.inj_add, Z.pow_add_r by lia. change (10 ^ Z.of_nat 1) with 10. lia.
Qed.

Lemma number_app f g : number (f ++ g) = number f * 10 ^ Z.of_nat (length g) + number g.
Proof.
  induction g as [|c g IH] using rev_ind.
  - rewrite app_nil_r. unfold number at 3; cbn. lia.
  - rewrite app_assoc, !number_snoc, IH, app_length. cbn [length]. rewrite Nat2Z.inj_add, Z.pow_add_r by lia.
    change (10 ^ Z.of_nat 1) with 10. ring.
Qed.

Lemma fraction_ok f : f <> [] -> all_digits f = true ->
  lexical_cast_i32 (substr (firstn 9 f ++ $"000000000") 0 9) = Ok (nanos f) /\ 0 <= nanos f < 1000000000.
Proof.
  intros Hne Ha.
  assert (HZ : $"000000000" = repeat "0"%char 9) by reflexivity. rewrite HZ. unfold substr. cbn [skipn].
  set (g := firstn 9 (firstn 9 f ++ repeat "0"%char 9)).
  assert (Hgl : length g = 9%nat).
  { unfold g. rewrite firstn_length, app_length, repeat_length. lia. }
  assert (Hnum : number g = nanos f).
  { unfold g, nanos. destruct (Nat.le_gt_cases (length f) 9) as [C|C].
    - rewrite (firstn_all2 f) by lia. rewrite firstn_app. rewrite firstn_all2 by lia.
      assert (E : firstn (9 - length f) (repeat "0"%char 9) = repeat "0"%char (9 - length f)).
      { remember (9 - length f)%nat as k. assert (k <= 9)%nat by lia. clear -H.
        do 10 (destruct k as [|k]; [reflexivity|]). lia. }
      rewrite E, number_app_zeros.
      replace (10 ^ 9) with (10 ^ Z.of_nat (9 - length f) * 10 ^ Z.of_nat (length f)).
      2:{ rewrite <- Z.pow_add_r by lia. f_equal. lia. }
      rewrite Z.mul_assoc, Z.div_mul; auto. apply Z.pow_nonzero; lia.
    - rewrite firstn_app. rewrite (firstn_firstn f 9 9). change (Nat.min 9 9) with 9%nat.
      assert (length (firstn 9 f) = 9%nat) as E by (rewrite firstn_length; lia). rewrite E. cbn [Nat.sub firstn]. rewrite app_nil_r.
      rewrite <- (firstn_skipn 9 f) at 2. rewrite number_app.
      assert (Hb : 0 <= number (skipn 9 f) < 10 ^ Z.of_nat (length (skipn 9 f))).
      { apply number_bounds. rewrite <- (firstn_skipn 9 f) in Ha. unfold all_digits in *. rewrite forallb_app in Ha. apply andb_prop in Ha. tauto. }
      set (r := length (skipn 9 f)) in *. assert (Hl : length f = (9 + r)%nat) by (unfold r; rewrite skipn_length; lia).
      rewrite Hl, Nat2Z.inj_add, Z.pow_add_r by lia. change (10 ^ Z.of_nat 9) with (10 ^ 9).
      assert (0 < 10 ^ Z.of_nat r) by (apply Z.pow_pos_nonneg; lia).
      rewrite (Z.mul_comm (10 ^ 9) (10 ^ Z.of_nat r)). rewrite Z.div_mul_cancel_r by lia.
      rewrite Z.div_add_l by lia. rewrite Z.div_small by exact Hb. symmetry; apply Z.add_0_r. }
  assert (Hga : all_digits g = true).
  { unfold all_digits. apply forallb_forall. intros c Hc. unfold g in Hc.
    assert (In c (firstn 9 f ++ repeat "0"%char 9)) as Hi.
    { rewrite <- (firstn_skipn 9 (firstn 9 f ++ repeat "0"%char 9)). apply in_or_app; auto. }
    apply in_app_or in Hi. destruct Hi as [Hi|Hi].
    - unfold all_digits in Ha. rewrite forallb_forall in Ha. apply Ha.
      rewrite <- (firstn_skipn 9 f). apply in_or_app; auto.
    - apply repeat_spec in Hi. subst c. reflexivity. }
  pose proof (number_bounds g Hga) as Hb. rewrite Hgl in Hb. change (10 ^ Z.of_nat 9) with 1000000000 in Hb.
  split; [|lia]. rewrite lexical_digits_gen; auto.
  - congruence.
  - intros E. rewrite E in Hgl. discriminate.
  - rng. lia.
Qed.

Ltac fld x y := eapply (field_hit _ _ _ _ _ x y); [unfold full_text, basic_date; rewrite <- ?app_assoc; reflexivity
  | rewrite ?app_length, ?digits_length; reflexivity | apply digits_length | unfold full_text, basic_date; rewrite ?app_length, ?digits_length; cbn [length]; lia
  | apply lexical_digits; [lia | cbn; lia] ].

Lemma parse_full dt t h mi s rest ns : valid_date dt -> 0 <= h < 24 -> 0 <= mi < 60 -> 0 <= s < 60 ->
  0 <= ns < 1000000000 ->
  (if (16 <? length (full_text dt t h mi s ++ rest))%nat
   then lexical_cast_i32 (substr (substr (full_text dt t h mi s ++ rest) 16 9 ++ $"000000000") 0 9) else Ok 0) = Ok ns ->
  fromIso8601BasicUTC (full_text dt t h mi s ++ rest) = Ok (T (86400 * dnum dt + 3600 * h + 60 * mi + s) ns).
Proof.
  intros V Hh Hmi Hs Hn Hf. rewrite <- tail_ok by auto. destruct V as (Hy & Hm & Hd).
  pose proof (month_len_bounds (year dt) (month dt)).
  eapply parse_tail; [| | | | | |exact Hf].
  - fld (@nil ascii) (digits 4 (year dt)).
  - fld (digits 4 (year dt)) (digits 2 (month dt)).
  - eapply (field_hit _ _ _ _ _ (digits 4 (year dt) ++ digits 2 (month dt)) (digits 2 (day dt)));
      [unfold full_text, basic_date; rewrite <- ?app_assoc; reflexivity
      | rewrite ?app_length, ?digits_length; reflexivity | apply digits_length | rewrite ?app_length, ?full_len, ?digits_length; cbn [length]; lia
      | apply lexical_digits; [lia | cbn; lia] ].
  - fld (digits 4 (year dt) ++ digits 2 (month dt) ++ digits 2 (day dt) ++ [t]) (digits 2 h).
  - fld (digits 4 (year dt) ++ digits 2 (month dt) ++ digits 2 (day dt) ++ [t] ++ digits 2 h) (digits 2 mi).
  - fld (digits 4 (year dt) ++ digits 2 (month dt) ++ digits 2 (day dt) ++ [t] ++ digits 2 h ++ digits 2 mi) (digits 2 s).
Qed.

Lemma substr_frac dt t h mi s c f : substr (full_text dt t h mi s ++ c :: f) 16 9 = firstn 9 f.
Proof.
  unfold substr. replace (full_text dt t h mi s ++ c :: f) with ((full_text dt t h mi s ++ [c]) ++ f).
  2:{ rewrite <- app_assoc. reflexivity. }
  rewrite skipn_app. replace (length (full_text dt t h mi s ++ [c])) with 16%nat by (rewrite app_length, full_len; reflexivity).
  rewrite (skipn_all2 (n:=16)) by (rewrite app_length, full_len; cbn; lia). cbn [Nat.sub skipn app]. reflexivity.
Qed.

Lemma C13_full_lemma dt n h mi s t c f : valid_date dt -> day_number dt n ->
  0 <= h < 24 -> 0 <= mi < 60 -> 0 <= s < 60 -> f <> [] -> all_digits f = true ->
  fromIso8601BasicUTC (full_text dt t h mi s ++ c :: f) =
    Ok (T (86400 * Z.of_nat n + 3600 * h + 60 * mi + s) (nanos f)).
Proof.
  intros V Dn Hh Hmi Hs Hne Ha. destruct (day_number_dnum _ _ Dn) as [_ <-].
  destruct (fraction_ok f Hne Ha) as [Hf Hb]. apply parse_full; auto.
  destruct (Nat.ltb_spec 16 (length (full_text dt t h mi s ++ c :: f))) as [C|C].
  - rewrite substr_frac. exact Hf.
  - rewrite app_length, full_len in C. destruct f; [congruence|]. cbn [length] in C. lia.
Qed.

Lemma C13_nofrac_lemma dt n h mi s t rest : valid_date dt -> day_number dt n ->
  0 <= h < 24 -> 0 <= mi < 60 -> 0 <= s < 60 -> (length rest <= 1)%nat ->
  fromIso8601BasicUTC (full_text dt t h mi s ++ rest) = Ok (T (86400 * Z.of_nat n + 3600 * h + 60 * mi + s) 0).
Proof.
  intros V Dn Hh Hmi Hs Hr. destruct (day_number_dnum _ _ Dn) as [_ <-]. apply parse_full; auto; [lia|].
  destruct (Nat.ltb_spec 16 (length (full_text dt t h mi s ++ rest))) as [C|C]; auto.
  rewrite app_length, full_len in C. lia.
Qed.

Lemma C13_short_lemma dt n t h mi : valid_date dt -> day_number dt n -> 0 <= h < 24 -> 0 <= mi < 60 ->
  fromIso8601BasicUTC (basic_date dt ++ [t] ++ digits 2 h ++ digits 2 mi) = Ok (T (86400 * Z.of_nat n + 3600 * h + 60 * mi) 0) /\
  fromIso8601BasicUTC (basic_date dt ++ [t] ++ digits 2 h) = Ok (T (86400 * Z.of_nat n + 3600 * h) 0) /\
  fromIso8601BasicUTC (basic_date dt) = Ok (T (86400 * Z.of_nat n) 0) /\
  (day dt = 1 -> fromIso8601BasicUTC (digits 4 (year dt) ++ digits 2 (month dt)) = Ok (T (86400 * Z.of_nat n) 0)) /\
  (day dt = 1 -> month dt = 1 -> fromIso8601BasicUTC (digits 4 (year dt)) = Ok (T (86400 * Z.of_nat n) 0)).
Proof.
  intros V Dn Hh Hmi. destruct (day_number_dnum _ _ Dn) as [_ <-].
  pose proof V as (Hy & Hm & Hd). pose proof (month_len_bounds (year dt) (month dt)).
  assert (HT : forall h mi, 0 <= h < 24 -> 0 <= mi < 60 -> tail (year dt) (month dt) (day dt) h mi 0 0 = Ok (T (86400 * dnum dt + 3600 * h + 60 * mi) 0)).
  { intros h' mi' Hh' Hmi'. rewrite tail_ok by (auto; lia). f_equal. f_equal. lia. }
  split; [|split; [|split; [|split]]].
  - rewrite <- HT by auto. eapply parse_tail.
    + fld (@nil ascii) (digits 4 (year dt)).
    + fld (digits 4 (year dt)) (digits 2 (month dt)).
    + fld (digits 4 (year dt) ++ digits 2 (month dt)) (digits 2 (day dt)).
    + fld (digits 4 (year dt) ++ digits 2 (month dt) ++ digits 2 (day dt) ++ [t]) (digits 2 h).
    + eapply (field_hit _ _ _ _ _ (digits 4 (year dt) ++ digits 2 (month dt) ++ digits 2 (day dt) ++ [t] ++ digits 2 h) (digits 2 mi) []);
      [unfold full_text, basic_date; rewrite ?app_nil_r, <- ?app_assoc; reflexivity
      | rewrite ?app_length, ?digits_length; reflexivity | apply digits_length | unfold basic_date; rewrite ?app_length, ?digits_length; cbn [length]; lia
      | apply lexical_digits; [lia | cbn; lia] ].
    + apply field_miss. unfold basic_date. rewrite ?app_length, ?digits_length. cbn [length]; lia.
    + unfold basic_date. rewrite ?app_length, ?digits_length. reflexivity.
  - replace (86400 * dnum dt + 3600 * h) with (86400 * dnum dt + 3600 * h + 60 * 0) by lia. rewrite <- HT by (auto; lia). eapply parse_tail.
    + fld (@nil ascii) (digits 4 (year dt)).
    + fld (digits 4 (year dt)) (digits 2 (month dt)).
    + fld (digits 4 (year dt) ++ digits 2 (month dt)) (digits 2 (day dt)).
    + eapply (field_hit _ _ _ _ _ (digits 4 (year dt) ++ digits 2 (month dt) ++ digits 2 (day dt) ++ [t]) (digits 2 h) []);
      [unfold full_text, basic_date; rewrite ?app_nil_r, <- ?app_assoc; reflexivity
      | rewrite ?app_length, ?digits_length; reflexivity | apply digits_length | unfold basic_date; rewrite ?app_length, ?digits_length; cbn [length]; lia
      | apply lexical_digits; [lia | cbn; lia] ].
    + apply field_miss. unfold basic_date. rewrite ?app_length, ?digits_length. cbn [length]; lia.
    + apply field_miss. unfold basic_date. rewrite ?app_length, ?digits_length. cbn [length]; lia.
    + unfold basic_date. rewrite ?app_length, ?digits_length. reflexivity.
  - replace (86400 * dnum dt) with (86400 * dnum dt + 3600 * 0 + 60 * 0) by lia. rewrite <- HT by (auto; lia). eapply parse_tail.
    + fld (@nil ascii) (digits 4 (year dt)).
    + fld (digits 4 (year dt)) (digits 2 (month dt)).
    + eapply (field_hit _ _ _ _ _ (digits 4 (year dt) ++ digits 2 (month dt)) (digits 2 (day dt)) []);
      [unfold full_text, basic_date; rewrite ?app_nil_r, <- ?app_assoc; reflexivity
      | rewrite ?app_length, ?digits_length; reflexivity | apply digits_length | unfold basic_date; rewrite ?app_length, ?digits_length; cbn [length]; lia
      | apply lexical_digits; [lia | cbn; lia] ].
    + apply field_miss. unfold basic_date. rewrite ?app_length, ?digits_length. cbn [length]; lia.
    + apply field_miss. unfold basic_date. rewrite ?app_length, ?digits_length. cbn [length]; lia.
    + apply field_miss. unfold basic_date. rewrite ?app_length, ?digits_length. cbn [length]; lia.
    + unfold basic_date. rewrite ?app_length, ?digits_length. reflexivity.
  - intros E. replace (86400 * dnum dt) with (86400 * dnum dt + 3600 * 0 + 60 * 0) by lia. rewrite <- HT by lia. rewrite E. eapply parse_tail.
    + fld (@nil ascii) (digits 4 (year dt)).
    + eapply (field_hit _ _ _ _ _ (digits 4 (year dt)) (digits 2 (month dt)) []);
      [rewrite ?app_nil_r; reflexivity
      | rewrite ?app_length, ?digits_length; reflexivity | apply digits_length | rewrite ?app_length, ?digits_length; cbn [length]; lia
      | apply lexical_digits; [lia | cbn; lia] ].
    + apply field_miss. rewrite ?app_length, ?digits_length. cbn [length]; lia.
    + apply field_miss. rewrite ?app_length, ?digits_length. cbn [length]; lia.
    + apply field_miss. rewrite ?app_length, ?digits_length. cbn [length]; lia.
    + apply field_miss. rewrite ?app_length, ?digits_length. cbn [length]; lia.
    + rewrite ?app_length, ?digits_length. reflexivity.
  - intros E E'. replace (86400 * dnum dt) with (86400 * dnum dt + 3600 * 0 + 60 * 0) by lia. rewrite <- HT by lia. rewrite E, E'. eapply parse_tail.
    + eapply (field_hit _ _ _ _ _ [] (digits 4 (year dt)) []);
      [rewrite ?app_nil_r; reflexivity
      | rewrite ?app_length, ?digits_length; reflexivity | apply digits_length | rewrite ?app_length, ?digits_length; cbn [length]; lia
      | apply lexical_digits; [lia | cbn; lia] ].
    + apply field_miss. rewrite ?app_length, ?digits_length. cbn [length]; lia.
    + apply field_miss. rewrite ?app_length, ?digits_length. cbn [length]; lia.
    + apply field_miss. rewrite ?app_length, ?digits_length. cbn [length]; lia.
    + apply field_miss. rewrite ?app_length, ?digits_length. cbn [length]; lia.
    + apply field_miss. rewrite ?app_length, ?digits_length. cbn [length]; lia.
    + rewrite ?app_length, ?digits_length. reflexivity.
Qed.

(* ---- formatting ---- *)
Lemma year_text_4 y : 1000 <= y <= 9999 -> year_text y = digits 4 y.
Proof.
  intros H. unfold year_text. destruct (Z.ltb_spec y 0); [lia|].
  change 20%nat with (S (S (S (S 16)))).
  cbn [decimal]. destruct (Z.ltb_spec y 10); [lia|]. destruct (Z.ltb_spec (y / 10) 10); [lia|].
  destruct (Z.ltb_spec (y / 10 / 10) 10); [lia|]. destruct (Z.ltb_spec (y / 10 / 10 / 10) 10); [|lia].
  cbn [digits]. rewrite (Z.mod_small (y / 10 / 10 / 10) 10) by lia. reflexivity.
Qed.

Definition ysum_fast (k : Z) : Z := (* days of years 1970 .. 1970+k-1 *)
  let y := 1970 + k - 1 in 365 * k + (y / 4 - y / 100 + y / 400) - 477.

Lemma ysum_closed k : ysum k = ysum_fast (Z.of_nat k).
Proof.
  unfold ysum_fast. induction k as [|k IH]; [reflexivity|]. cbn [ysum]. rewrite IH. unfold ylen, is_leap.
  rewrite Nat2Z.inj_succ. set (z := Z.of_nat k). assert (0 <= z) by lia. clearbody z. clear IH k.
  destruct ((_ =? 0) && _) eqn:E; lia.
Qed.

Lemma year_bound n : (Z.of_nat n < 2932897) -> year (Nat.iter n next_day (D 1970 1 1)) <= 9999.
Proof.
  intros H. destruct (iter_next n) as [(Hy & Hm & Hd) E]. set (d := Nat.iter n next_day (D 1970 1 1)) in *.
  destruct (Z.le_gt_cases (year d) 9999) as [C|C]; auto. exfalso.
  unfold dnum in E. pose proof (msum_nonneg (year d) (Z.to_nat (month d - 1))).
  pose proof (ysum_mono (Z.to_nat 8030) (Z.to_nat (year d - 1970)) ltac:(lia)) as M.
  rewrite ysum_closed in M. rewrite Z2Nat.id in M by lia. change (ysum_fast 8030) with 2932897 in M. lia.
Qed.

Lemma format_ok t : canonical t -> 0 <= total t -> secs t < 253402300800 ->
  exists dt n, valid_date dt /\ day_number dt n /\ Z.of_nat n = secs t / 86400 /\
    formatIso8601BasicUTC t = Ok (full_text dt "T" (secs t mod 86400 / 3600) (secs t mod 86400 mod 3600 / 60) (secs t mod 86400 mod 60)
      ++ "," %char :: digits 9 (nsecs t)) /\
    formatIso8601UTC t = Ok (digits 4 (year dt) ++ $"-" ++ digits 2 (month dt) ++ $"-" ++ digits 2 (day dt) ++ $" " ++
       digits 2 (secs t mod 86400 / 3600) ++ $":" ++ digits 2 (secs t mod 86400 mod 3600 / 60) ++ $":" ++ digits 2 (secs t mod 86400 mod 60)).
Proof.
  intros (Hi & Hn & Hp & Hm) Ht Hlt. assert (Hs : 0 <= secs t) by (unfold total in Ht; lia).
  assert (Hn0 : 0 <= nsecs t) by (unfold total in Ht; lia).
  set (n := Z.to_nat (secs t / 86400)). assert (En : Z.of_nat n = secs t / 86400) by (unfold n; lia).
  set (dt := Nat.iter n next_day (D 1970 1 1)).
  assert (Hdt : date_of_day (secs t / 86400) = dt).
  { unfold date_of_day. destruct (Z.leb_spec 0 (secs t / 86400)); [reflexivity|lia]. }
  assert (HV : valid_date dt).
  { destruct (iter_next n) as [(Hy & Hmo & Hd) _]. fold dt in Hy, Hmo, Hd.
    pose proof (year_bound n ltac:(lia)) as HB. fold dt in HB. unfold valid_date. lia. }
  exists dt, n. split; auto. split; [reflexivity|]. split; auto.
  assert (Hyt : year_text (year dt) = digits 4 (year dt)) by (apply year_text_4; destruct HV; lia).
  split.
  - unfold formatIso8601BasicUTC. destruct (Z.ltb_spec (nsecs t) 0); [lia|]. cbn [bind]. unfold strf_basic. rewrite Hdt, Hyt.
    rewrite !app_length, !digits_length. cbn [length list_ascii_of_string Nat.add Nat.ltb Nat.leb bind].
    unfold full_text, basic_date. rewrite <- !app_assoc. reflexivity.
  - unfold formatIso8601UTC, strf_extended. rewrite Hdt, Hyt.
    rewrite !app_length, !digits_length. cbn [length list_ascii_of_string Nat.add Nat.ltb Nat.leb]. reflexivity.
Qed.

Lemma nanos_digits9 z : 0 <= z < 1000000000 -> nanos (digits 9 z) = z.
Proof.
  intros H. unfold nanos. rewrite number_digits by (cbn; lia). rewrite digits_length.
  change (10 ^ Z.of_nat 9) with 1000000000. change (10 ^ 9) with 1000000000. apply Z.div_mul. lia.
Qed.

Lemma C14_lemma t : canonical t -> 0 <= total t -> secs t < 253402300800 ->
  exists s, formatIso8601BasicUTC t = Ok s /\ fromIso8601BasicUTC s = Ok t.
Proof.
  intros HC Ht Hlt. destruct (format_ok t HC Ht Hlt) as (dt & n & HV & HD & En & EF & _).
  eexists; split; [exact EF|]. destruct HC as (Hi & Hn & Hp & Hm).
  assert (Hn0 : 0 <= nsecs t) by (unfold total in Ht; lia). assert (Hs0 : 0 <= secs t) by (unfold total in Ht; lia).
  rewrite (C13_full_lemma dt n); auto; try lia.
  - rewrite nanos_digits9 by lia. rewrite En. destruct t as [s ns]. cbn [secs nsecs] in *. f_equal. f_equal. lia.
  - intros E. pose proof (digits_length 9 (nsecs t)) as HL. rewrite E in HL. discriminate.
  - apply digits_all. lia.
Qed.
