From Verif Require Import Base SequenceNumberModel SequenceNumberSpec.
Local Open Scope Z_scope.
Ltac Zify.zify_post_hook ::= Z.to_euclidean_division_equations.

Lemma next_ok p v : sensible p -> proper p v ->
  next p v = Ok (if v + 1 =? max_value p then min_value p else v + 1) .
Proof.
  intros (Hw & Hmin & Hmax & Hlt) (Hv1 & Hv2). unfold next, incr.
  assert (R : representable (tbase p) (v + 1) = true) by (unfold representable in *; lia).
  rewrite R. cbn [bind]. f_equal. destruct (Z.eqb_spec (v + 1) (max_value p)), (Z.leb_spec (max_value p) (v + 1)); lia.
Qed.

Lemma C16_lemma p v k : sensible p -> proper p v ->
  exists v', nexts p k v = Ok v' /\ proper p v' /\
    v' = min_value p + (v - min_value p + Z.of_nat k) mod (max_value p - min_value p).
Proof.
  intros HS HV. pose proof HS as (Hw & Hmin & Hmax & Hlt). set (n := max_value p - min_value p). assert (Hn : 0 < n) by (unfold n; lia).
  induction k as [|k IH].
  - exists v. split; [reflexivity|]. split; auto. rewrite Z.add_0_r. rewrite Z.mod_small; unfold proper in HV; unfold n; lia.
  - destruct IH as (w & E & HW & Ew). cbn [nexts]. rewrite E. cbn [bind]. rewrite next_ok by auto.
    set (r := (v - min_value p + Z.of_nat k) mod n) in *.
    assert (Hr : 0 <= r < n) by (apply Z.mod_pos_bound; lia).
    assert (Es : (v - min_value p + Z.of_nat (S k)) mod n = (r + 1) mod n).
    { unfold r. rewrite Zplus_mod_idemp_l. f_equal. lia. }
    rewrite Es. eexists; split; [reflexivity|]. destruct (Z.eqb_spec (w + 1) (max_value p)) as [C|C].
    + assert (r + 1 = n) as -> by (unfold n; lia). rewrite Z.mod_same by lia. split; [unfold proper|]; lia.
    + rewrite Z.mod_small by (unfold n in *; lia). unfold proper in *. split; lia.
Qed.

Lemma C16_cycle p v : sensible p -> proper p v -> nexts p (Z.to_nat (max_value p - min_value p)) v = Ok v.
Proof.
  intros HS HV. destruct (C16_lemma p v (Z.to_nat (max_value p - min_value p)) HS HV) as (w & E & _ & Ew).
  rewrite E. f_equal. destruct HS as (_ & _ & _ & Hlt). rewrite Z2Nat.id in Ew by lia.
  replace (v - min_value p + (max_value p - min_value p)) with (v - min_value p + 1 * (max_value p - min_value p)) in Ew by lia.
  rewrite Z.mod_add in Ew by lia. rewrite Z.mod_small in Ew; unfold proper in HV; lia.
Qed.

Lemma C16_nonmin p v k : sensible p -> proper p v -> (0 < k)%nat -> nexts p k v = Ok v -> max_value p - min_value p <= Z.of_nat k.
Proof.
  intros HS HV Hk E. destruct (C16_lemma p v k HS HV) as (w & E' & _ & Ew). rewrite E in E'. injection E' as <-.
  destruct (Z.le_gt_cases (max_value p - min_value p) (Z.of_nat k)) as [C|C]; auto. exfalso.
  set (n := max_value p - min_value p) in *. unfold proper in HV. set (a := v - min_value p) in *.
  assert (0 <= a < n) by (unfold a, n; lia). assert (Ea : (a + Z.of_nat k) mod n = a) by (unfold a in *; lia).
  destruct (Z.lt_ge_cases (a + Z.of_nat k) n) as [C'|C'].
  - rewrite Z.mod_small in Ea by lia. lia.
  - replace (a + Z.of_nat k) with (a + Z.of_nat k - n + 1 * n) in Ea by lia. rewrite Z.mod_add in Ea by lia.
    rewrite Z.mod_small in Ea by lia. lia.
Qed.

(* ---- comparison ---- *)
Lemma minus_ok p a b : sensible p -> min_value p = 0 -> proper p a -> proper p b -> b <= a ->
  minus (tbase p) a b = Ok (a - b).
Proof.
  intros (Hw & Hmin & Hmax & Hlt) H0 Ha Hb Hab. unfold proper in *. unfold minus, promoted.
  assert (HM : max_value p <= highest (tbase p)) by (unfold representable in Hmax; lia).
  destruct (Z.ltb_spec (width (tbase p)) 32) as [C|C].
  - change (signed (B true 32)) with true. cbv iota. unfold representable, lowest, highest; cbn [signed width].
    assert (highest (tbase p) < 2 ^ 31).
    { unfold highest. destruct (signed (tbase p)).
      - assert (2 ^ (width (tbase p) - 1) <= 2 ^ 31) by (apply Z.pow_le_mono_r; lia). lia.
      - assert (2 ^ (width (tbase p)) <= 2 ^ 31) by (apply Z.pow_le_mono_r; lia). lia. }
    change (2 ^ (32 - 1)) with 2147483648. change (2 ^ 31) with 2147483648 in *.
    destruct (_ && _) eqn:E; [auto|lia].
  - destruct (signed (tbase p)) eqn:S.
    + assert (R : representable (tbase p) (a - b) = true); [|rewrite R; auto].
      unfold representable, lowest, highest in *. rewrite S in *.
      assert (0 < 2 ^ (width (tbase p) - 1)) by (apply Z.pow_pos_nonneg; lia). lia.
    + rewrite Z.mod_small; auto. unfold highest in HM. rewrite S in HM. lia.
Qed.

(* how far b is ahead of a *)
Definition ahead (p : params) (a b : Z) : Z := (b - a) mod max_value p.

Lemma lt_ok p a b : sensible p -> min_value p = 0 -> proper p a -> proper p b ->
  lt p a b = Ok (if a <? b then b - a <? max_value p / 2 else max_value p / 2 <? a - b).
Proof.
  intros HS H0 Ha Hb. unfold lt. pose proof HS as (_ & _ & _ & Hlt).
  rewrite Z.quot_div_nonneg by lia.
  destruct (Z.ltb_spec a b).
  - rewrite minus_ok by (auto; lia). reflexivity.
  - rewrite minus_ok by (auto; lia). reflexivity.
Qed.

Lemma reach_ahead p a b k : sensible p -> min_value p = 0 -> proper p a -> 0 <= Z.of_nat k < max_value p ->
  proper p b -> (nexts p k a = Ok b <-> Z.of_nat k = if a <=? b then b - a else b - a + max_value p).
Proof.
  intros HS H0 Ha Hk Hb. destruct (C16_lemma p a k HS Ha) as (w & E & Hw & Ew). rewrite H0 in Ew.
  rewrite !Z.sub_0_r, Z.add_0_l in Ew. rewrite E. unfold proper in *.
  assert (HE : w = if a + Z.of_nat k <? max_value p then a + Z.of_nat k else a + Z.of_nat k - max_value p).
  { rewrite Ew. destruct (Z.ltb_spec (a + Z.of_nat k) (max_value p)).
    - apply Z.mod_small. lia.
    - replace (a + Z.of_nat k) with (a + Z.of_nat k - max_value p + 1 * max_value p) at 1 by lia.
      rewrite Z.mod_add by lia. apply Z.mod_small. lia. }
  clear Ew E. destruct (Z.leb_spec a b), (Z.ltb_spec (a + Z.of_nat k) (max_value p)); split; intros Q;
    try (injection Q as Q); try f_equal; lia.
Qed.

Lemma C17_even p a b : sensible p -> min_value p = 0 -> Z.even (max_value p) = true -> proper p a -> proper p b ->
  exists r, lt p a b = Ok r /\
  (r = true <-> exists k, 1 <= Z.of_nat k < max_value p / 2 /\ nexts p k a = Ok b).
Proof.
  intros HS H0 He Ha Hb. rewrite lt_ok by auto. eexists; split; [reflexivity|].
  rewrite Z.even_spec in He. destruct He as [h Eh]. assert (Hd : max_value p / 2 = h) by (rewrite Eh, Z.mul_comm; apply Z.div_mul; lia).
  rewrite Hd. unfold proper in *. split.
  - intros Q. exists (Z.to_nat (if a <=? b then b - a else b - a + max_value p)).
    assert (B : 1 <= (if a <=? b then b - a else b - a + max_value p) < h).
    { destruct (Z.ltb_spec a b), (Z.leb_spec a b); lia. }
    rewrite Z2Nat.id by lia. split; auto. apply reach_ahead; auto; unfold proper; try lia.
  - intros (k & Hk & E). apply reach_ahead in E; auto; unfold proper; try lia.
    destruct (Z.leb_spec a b), (Z.ltb_spec a b); lia.
Qed.

Lemma C17_odd p a b : sensible p -> min_value p = 0 -> Z.odd (max_value p) = true -> proper p a -> proper p b ->
  exists r, lt p a b = Ok r /\
  (r = true <-> exists k, 1 <= Z.of_nat k < max_value p / 2 + (if a <? b then 0 else 1) /\ nexts p k a = Ok b).
Proof.
  intros HS H0 He Ha Hb. rewrite lt_ok by auto. eexists; split; [reflexivity|].
  rewrite Z.odd_spec in He. destruct He as [h Eh]. assert (Hd : max_value p / 2 = h) by lia.
  rewrite Hd. unfold proper in *. split.
  - intros Q. exists (Z.to_nat (if a <=? b then b - a else b - a + max_value p)).
    assert (B : 1 <= (if a <=? b then b - a else b - a + max_value p) < h + (if a <? b then 0 else 1)).
    { destruct (Z.ltb_spec a b), (Z.leb_spec a b); lia. }
    rewrite Z2Nat.id by (destruct (a <=? b); lia). split; auto. apply reach_ahead; auto; unfold proper; try lia.
    rewrite Z2Nat.id by (destruct (a <=? b); lia). destruct (a <? b); lia.
  - intros (k & Hk & E). apply reach_ahead in E; auto; unfold proper; try (destruct (a <? b); lia).
    destruct (Z.leb_spec a b), (Z.ltb_spec a b); lia.
Qed.

Lemma C17_ops_lemma p a b : sensible p -> min_value p = 0 -> Z.even (max_value p) = true -> proper p a -> proper p b ->
  let half := (a - b) mod max_value p = max_value p / 2 in
  exists l l', lt p a b = Ok l /\ lt p b a = Ok l' /\
    gt p a b = Ok (ne a b && negb l) /\ le p a b = Ok (l || eq a b) /\ ge p a b = Ok (negb l) /\
    (a = b -> l = false) /\ (l = true -> l' = false) /\
    (a <> b -> l = false -> l' = false -> half) /\
    (half -> gt p a b = Ok true /\ gt p b a = Ok true) /\
    (a <> b -> ~ half -> l = negb l' /\ gt p b a = Ok l).
Proof.
  intros HS H0 He Ha Hb half.
  rewrite Z.even_spec in He. destruct He as [h Eh].
  assert (Hlt : 0 < max_value p) by (destruct HS as (_ & _ & _ & ?); lia).
  assert (Hd : max_value p / 2 = h) by (rewrite Eh, Z.mul_comm; apply Z.div_mul; lia).
  assert (Hhalf : half <-> (a - b = h \/ b - a = h)).
  { unfold half. rewrite Hd. unfold proper in *. destruct (Z.le_gt_cases b a) as [C|C].
    - rewrite Z.mod_small by lia. lia.
    - replace (a - b) with (a - b + max_value p + (-1) * max_value p) at 1 by lia. rewrite Z.mod_add by lia.
      rewrite Z.mod_small by lia. lia. }
  clearbody half. unfold gt, le, ge, ne, eq. rewrite (lt_ok p a b), (lt_ok p b a) by auto. rewrite Hd. unfold proper in *.
  assert (Esym : (b =? a) = (a =? b)) by (destruct (Z.eqb_spec a b), (Z.eqb_spec b a); congruence || lia). rewrite Esym.
  cbn [bind].
  set (l := if a <? b then b - a <? h else h <? a - b).
  set (l' := if b <? a then a - b <? h else h <? b - a).
  exists l, l'.
  assert (L : l = true <-> (a < b /\ b - a < h) \/ (b <= a /\ h < a - b)) by (unfold l; destruct (Z.ltb_spec a b); lia).
  assert (L' : l' = true <-> (b < a /\ a - b < h) \/ (a <= b /\ h < b - a)) by (unfold l'; destruct (Z.ltb_spec b a); lia).
  clearbody l l'. destruct (Z.eqb_spec a b) as [C|C]; cbn [negb andb].
  - assert (Lf : l = false) by (destruct l; auto; exfalso; lia). assert (Lf' : l' = false) by (destruct l'; auto; exfalso; lia).
    subst l l'. repeat (split; [first [reflexivity | congruence | lia | intros; congruence
      | let Q := fresh in intros Q; apply Hhalf in Q; exfalso; lia]|]). intros. congruence.
  - assert (LL : ~ (l = true /\ l' = true)) by (intros [Q1 Q2]; apply L in Q1; apply L' in Q2; lia).
    assert (LH : l = false -> l' = false -> half) by (intros Q1 Q2; apply Hhalf; rewrite Q1 in L; rewrite Q2 in L'; lia).
    assert (HL : half -> l = false /\ l' = false) by (intros Q; apply Hhalf in Q; split; [destruct l; [exfalso|reflexivity]|destruct l'; [exfalso|reflexivity]]; [destruct L as [L _]; specialize (L eq_refl)|destruct L' as [L' _]; specialize (L' eq_refl)]; lia).
    clear L L'. destruct l, l'; cbn [negb andb orb]; intuition congruence.
Qed.

(* a proper successor is greater, across the wrap, as soon as max >= 4 *)
Lemma C17_succ_lemma p a k b : sensible p -> min_value p = 0 -> Z.even (max_value p) = true -> proper p a ->
  1 <= Z.of_nat k < max_value p / 2 -> nexts p k a = Ok b -> lt p a b = Ok true /\ lt p b a = Ok false /\ gt p b a = Ok true.
Proof.
  intros HS H0 He Ha Hk E.
  assert (Hb : proper p b). { destruct (C16_lemma p a k HS Ha) as (w & E' & Hw & _). congruence. }
  destruct (C17_even p a b HS H0 He Ha Hb) as (r & Er & Hr).
  assert (r = true) as -> by (apply Hr; eauto).
  destruct (C17_ops_lemma p a b HS H0 He Ha Hb) as (l & l' & El & El' & _ & _ & _ & N & A & _).
  rewrite El in Er. injection Er as ->. rewrite (A eq_refl) in El'.
  split; auto. split; auto. unfold gt. rewrite El'. unfold ne, eq. destruct (Z.eqb_spec b a); [exfalso|reflexivity].
  subst. specialize (N eq_refl). discriminate.
Qed.

Lemma beyond_range p v : sensible p -> max_value p <= v + 1 ->
  let top := if signed (tbase p) then 2 ^ (width (tbase p) - 1) - 1 else 2 ^ width (tbase p) - 1 in
  (v < top -> next p v = Ok (min_value p)) /\
  (v = top -> signed (tbase p) = true -> width (tbase p) < 32 -> next p v = Ok (- (2 ^ (width (tbase p) - 1)))) /\
  (v = top -> signed (tbase p) = true -> 32 <= width (tbase p) -> next p v = UB) /\
  (v = top -> signed (tbase p) = false -> next p v = Ok 0).
Proof.
  destruct p as [[sg w] mx mn]. unfold sensible, representable, lowest, highest, next, incr, representable, lowest, highest.
  cbn [tbase signed width min_value max_value]. intros (W & A & B & C) M. apply andb_true_iff in A, B. destruct A as (A1 & A2), B as (B1 & B2).
  apply Z.leb_le in A1, A2, B1, B2.
  assert (E : 2 ^ w = 2 * 2 ^ (w - 1)) by (replace w with (Z.succ (w - 1)) at 1 by lia; rewrite Z.pow_succ_r; lia).
  assert (0 < 2 ^ (w - 1)) by (apply Z.pow_pos_nonneg; lia).
  destruct sg; (split; [|split; [|split]]); try discriminate.
  - intros L. replace (- 2 ^ (w - 1) <=? v + 1) with true by lia. replace (v + 1 <=? 2 ^ (w - 1) - 1) with true by lia. cbn [andb bind].
    replace (mx <=? v + 1) with true by lia. reflexivity.
  - intros -> _ L. replace (2 ^ (w - 1) - 1 + 1 <=? 2 ^ (w - 1) - 1) with false by lia. rewrite andb_false_r.
    replace (w <? 32) with true by lia. cbn [bind]. replace (2 ^ (w - 1) - 1 + 1 - 2 ^ w) with (- 2 ^ (w - 1)) by lia.
    destruct (mx <=? - 2 ^ (w - 1)) eqn:Q; [|reflexivity]. exfalso. lia.
  - intros -> _ L. replace (2 ^ (w - 1) - 1 + 1 <=? 2 ^ (w - 1) - 1) with false by lia. rewrite andb_false_r.
    replace (w <? 32) with false by lia. reflexivity.
  - intros L. replace (0 <=? v + 1) with true by lia. replace (v + 1 <=? 2 ^ w - 1) with true by lia. cbn [andb bind].
    replace (mx <=? v + 1) with true by lia. reflexivity.
  - intros -> _. replace (2 ^ w - 1 + 1 <=? 2 ^ w - 1) with false by lia. rewrite andb_false_r. cbn [bind].
    destruct (mx <=? 0) eqn:Q; [|reflexivity]. exfalso. lia.
Qed.
