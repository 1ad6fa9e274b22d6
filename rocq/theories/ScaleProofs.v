(* Proofs about the scaling of time spans: rounding of doubles below 2^52 stays between the neighbouring integers. *)
From Coq Require Import QArith Qround Lqa Floats.SpecFloat.
From Verif Require Import Base CInt TimeModel TimeSpec TimeProofs ScaleModel ScaleSpec.
Local Open Scope Z_scope.

(* ---- shifting ---- *)
Fixpoint itern {A} (n : nat) (f : A -> A) (x : A) : A := match n with O => x | S m => f (itern m f x) end.
Lemma iter_shift {A} (f : A -> A) n x : itern n f (f x) = f (itern n f x).
Proof. induction n as [|n IH]; [reflexivity|]. cbn [itern]. rewrite IH. reflexivity. Qed.
Lemma iter_plus {A} (f : A -> A) n m x : itern (n + m) f x = itern n f (itern m f x).
Proof. induction n as [|n IH]; [reflexivity|]. cbn [itern Nat.add]. rewrite IH. reflexivity. Qed.
Lemma iter_pos_nat {A} (f : A -> A) p x : SpecFloat.iter_pos f p x = itern (Pos.to_nat p) f x.
Proof.
  revert x. induction p as [p IH|p IH|]; intros x; cbn [SpecFloat.iter_pos].
  - rewrite !IH, Pos2Nat.inj_xI. cbn [itern]. replace (2 * Pos.to_nat p)%nat with (Pos.to_nat p + Pos.to_nat p)%nat by lia.
    rewrite iter_plus, !iter_shift. reflexivity.
  - rewrite !IH, Pos2Nat.inj_xO. replace (2 * Pos.to_nat p)%nat with (Pos.to_nat p + Pos.to_nat p)%nat by lia. rewrite iter_plus. reflexivity.
  - reflexivity.
Qed.
Definition inexact (x : shr_record) : bool := shr_r x || shr_s x.
Lemma shr_1_ok x : 0 <= shr_m x -> shr_m (shr_1 x) = shr_m x / 2 /\ (inexact (shr_1 x) = true -> inexact x = true \/ shr_m x / 2 * 2 < shr_m x).
Proof.
  destruct x as [m r s]. cbn [shr_m]. intros H. assert (E : m / 2 = Z.div2 m) by (symmetry; apply Z.div2_div). rewrite E.
  destruct m as [|[p|p|]|p]; cbn [shr_1 shr_m Z.div2 Pos.div2]; try lia; unfold inexact; cbn [shr_r shr_s]; (split; [reflexivity|]); intros I0; try (left; exact I0); right; lia.
Qed.
Lemma shr_n_ok n x : 0 <= shr_m x ->
  shr_m (itern n shr_1 x) = shr_m x / 2 ^ Z.of_nat n /\
  (inexact (itern n shr_1 x) = true -> inexact x = true \/ shr_m x / 2 ^ Z.of_nat n * 2 ^ Z.of_nat n < shr_m x).
Proof.
  intros H. induction n as [|n [IH1 IH2]].
  - cbn [itern]. change (2 ^ Z.of_nat 0) with 1. rewrite Z.div_1_r. split; [reflexivity|]. intros I0; left; exact I0.
  - cbn [itern]. assert (K : 0 < 2 ^ Z.of_nat n) by (apply Z.pow_pos_nonneg; lia).
    assert (P : 0 <= shr_m (itern n shr_1 x)) by (rewrite IH1; apply Z.div_pos; lia).
    destruct (shr_1_ok _ P) as [A B]. rewrite A, IH1.
    assert (Q2 : 2 ^ Z.of_nat (S n) = 2 ^ Z.of_nat n * 2) by (rewrite Nat2Z.inj_succ, Z.pow_succ_r by lia; lia).
    rewrite Q2, Z.div_div by lia. split; [reflexivity|]. intros I0. apply B in I0.
    assert (L : shr_m x / (2 ^ Z.of_nat n * 2) * (2 ^ Z.of_nat n * 2) <= shr_m x / 2 ^ Z.of_nat n * 2 ^ Z.of_nat n).
    { rewrite <- Z.div_div by lia. pose proof (Z.mul_div_le (shr_m x / 2 ^ Z.of_nat n) 2 ltac:(lia)). nia. }
    pose proof (Z.mul_div_le (shr_m x) (2 ^ Z.of_nat n) K) as L2.
    destruct I0 as [I0|I0].
    + destruct (IH2 I0) as [I1|I1]; [left; exact I1|right; lia].
    + right. rewrite IH1 in I0. rewrite Z.div_div in I0 by lia. nia.
Qed.
Lemma shr_ok x e n : 0 <= shr_m x ->
  let k := Z.max n 0 in
  exists y, shr x e n = (y, e + k) /\ shr_m y = shr_m x / 2 ^ k /\ (inexact y = true -> inexact x = true \/ shr_m x / 2 ^ k * 2 ^ k < shr_m x).
Proof.
  intros H k. subst k. destruct n as [|p|p]; cbn [shr].
  - exists x. change (Z.max 0 0) with 0. rewrite Z.add_0_r. change (2 ^ 0) with 1. rewrite Z.div_1_r. split; [reflexivity|]. split; [reflexivity|]. intros I0; left; exact I0.
  - replace (Z.max (Z.pos p) 0) with (Z.pos p) by lia. eexists. split; [reflexivity|]. rewrite iter_pos_nat.
    pose proof (shr_n_ok (Pos.to_nat p) x H) as G. rewrite positive_nat_Z in G. exact G.
  - exists x. replace (Z.max (Z.neg p) 0) with 0 by lia. rewrite Z.add_0_r. change (2 ^ 0) with 1. rewrite Z.div_1_r. split; [reflexivity|]. split; [reflexivity|]. intros I0; left; exact I0.
Qed.

(* ---- digits ---- *)
Lemma digits_size p : digits2_pos p = Pos.size p.
Proof. induction p; cbn; congruence. Qed.
Lemma digits_bounds m : 0 < m -> 0 < Zdigits2 m /\ 2 ^ (Zdigits2 m - 1) <= m < 2 ^ Zdigits2 m.
Proof.
  intros H. destruct m as [|p|p]; try lia. cbn [Zdigits2]. rewrite digits_size. pose proof (Pos.size_gt p) as A. pose proof (Pos.size_le p) as B.
  split; [lia|]. change (Z.pos p) with (Z.pos p) in *.
  assert (E : Z.pos (2 ^ Pos.size p) = 2 ^ Z.pos (Pos.size p)) by apply Pos2Z.inj_pow.
  split; [|rewrite <- E; lia].
  assert (E2 : 2 ^ Z.pos (Pos.size p) = 2 * 2 ^ (Z.pos (Pos.size p) - 1)) by (rewrite <- Z.pow_succ_r by lia; f_equal; lia). lia.
Qed.
Lemma digits_below m k : 0 <= m -> 0 <= k -> m < 2 ^ k -> Zdigits2 m <= k.
Proof.
  intros H K L. destruct (Z.eq_dec m 0) as [->|N]; [cbn; lia|]. destruct (digits_bounds m ltac:(lia)) as (A & B & _).
  destruct (Z_le_gt_dec (Zdigits2 m) k) as [|G]; [assumption|]. exfalso.
  pose proof (Z.pow_le_mono_r 2 k (Zdigits2 m - 1) ltac:(lia) ltac:(lia)). lia.
Qed.
Lemma fexp_eq e : fexp 53 1024 e = Z.max (e - 53) (-1074).
Proof. reflexivity. Qed.

(* ---- rounding ---- *)
Lemma round_step y : let m' := round_nearest_even (shr_m y) (loc_of_shr_record y) in m' = shr_m y \/ (m' = shr_m y + 1 /\ inexact y = true).
Proof. destruct y as [m [] []]; cbn [loc_of_shr_record round_nearest_even shr_m inexact shr_r shr_s orb]; auto. destruct (Z.even m); auto. Qed.
Lemma record_m m l : shr_m (shr_record_of_loc m l) = m.
Proof. destruct l as [|[]]; reflexivity. Qed.

Lemma shift_down a e e1 : e <= e1 -> e1 <= 0 -> forall j, 0 <= a ->
  (j * 2 ^ (- e) <= a <-> j * 2 ^ (- e1) <= a / 2 ^ (e1 - e)) /\ (a <= j * 2 ^ (- e) -> a / 2 ^ (e1 - e) <= j * 2 ^ (- e1)).
Proof.
  intros A B j H. assert (K : 0 < 2 ^ (e1 - e)) by (apply Z.pow_pos_nonneg; lia).
  assert (E : 2 ^ (- e) = 2 ^ (- e1) * 2 ^ (e1 - e)) by (rewrite <- Z.pow_add_r by lia; f_equal; lia). rewrite E, Z.mul_assoc. split; [split|]; intros L.
  - apply Z.div_le_lower_bound; lia.
  - pose proof (Z.mul_div_le a _ K). nia.
  - rewrite <- (Z.div_mul (j * 2 ^ (- e1)) (2 ^ (e1 - e))) by lia. apply Z.div_le_mono; lia.
Qed.

Lemma core sx m b r e lx : e < 0 -> 0 <= m -> 0 < b -> 0 <= r < b -> (inexact (shr_record_of_loc m lx) = true -> 0 < r) ->
  m * b + r < 2 ^ 52 * (b * 2 ^ (- e)) ->
  exists k, truncate (binary_round_aux 53 1024 sx m e lx) = Some (if sx then - k else k) /\
  forall j, (j * (b * 2 ^ (- e)) <= m * b + r -> j <= k) /\ (m * b + r <= j * (b * 2 ^ (- e)) -> k <= j).
Proof.
  intros He Hm Hb Hr Hl L. unfold binary_round_aux, shr_fexp. rewrite fexp_eq.
  assert (B0 : 0 < 2 ^ (- e)) by (apply Z.pow_pos_nonneg; lia).
  assert (M0 : m < 2 ^ (52 - e)).
  { replace (52 - e) with (52 + - e) by lia. rewrite Z.pow_add_r by lia. nia. }
  assert (D0 : Zdigits2 m + e <= 52) by (pose proof (digits_below m (52 - e) Hm ltac:(lia) M0); lia).
  set (n := Z.max (Zdigits2 m + e - 53) (-1074) - e).
  destruct (shr_ok (shr_record_of_loc m lx) e n ltac:(rewrite record_m; exact Hm)) as (y & -> & Y1 & Y2). rewrite record_m in Y1, Y2.
  set (e1 := e + Z.max n 0). assert (E1 : e1 <= -1) by (unfold e1, n; lia). assert (G1 : -1074 <= e1) by (unfold e1, n; lia).
  assert (N1 : Z.max n 0 = e1 - e) by (unfold e1; lia). rewrite N1 in Y1, Y2. assert (E01 : e <= e1) by lia.
  set (m1 := round_nearest_even (shr_m y) (loc_of_shr_record y)).
  assert (P1 : 0 <= shr_m y) by (rewrite Y1; apply Z.div_pos; [lia|apply Z.pow_pos_nonneg; lia]).
  pose proof (round_step y) as RS. cbv zeta in RS. fold m1 in RS. assert (P2 : 0 <= m1) by lia.
  assert (K1 : 0 < 2 ^ (- e1)) by (apply Z.pow_pos_nonneg; lia). assert (K2 : 0 < 2 ^ (e1 - e)) by (apply Z.pow_pos_nonneg; lia).
  assert (KE : 2 ^ (- e) = 2 ^ (- e1) * 2 ^ (e1 - e)) by (rewrite <- Z.pow_add_r by lia; f_equal; lia).
  assert (S1 : forall j, (j * (b * 2 ^ (- e)) <= m * b + r -> j * 2 ^ (- e1) <= m1) /\ (m * b + r <= j * (b * 2 ^ (- e)) -> m1 <= j * 2 ^ (- e1))).
  { intros j. destruct (shift_down m e e1 E01 ltac:(lia) j Hm) as [A B]. rewrite <- Y1 in A, B. split; intros H.
    - assert (X : j * 2 ^ (- e) <= m) by nia. apply A in X. lia.
    - assert (X : m <= j * 2 ^ (- e)) by nia. destruct RS as [-> |[-> I0]]; [exact (B X)|].
      destruct (Z_lt_le_dec (shr_m y) (j * 2 ^ (- e1))) as [|Q]; [lia|]. exfalso.
      apply A in Q. assert (X2 : m = j * 2 ^ (- e)) by lia. apply Y2 in I0. destruct I0 as [I0|I0].
      + apply Hl in I0. nia.
      + rewrite <- Y1 in I0. assert (Q2 : j * 2 ^ (- e1) <= shr_m y) by (apply A; lia). nia. }
  assert (D1 : Zdigits2 m1 + e1 - 53 <= 0).
  { destruct (S1 (2 ^ 52)) as [_ B]. specialize (B ltac:(lia)).
    assert (X : m1 < 2 ^ (53 - e1)). { replace (53 - e1) with (1 + (52 + - e1)) by lia. rewrite (Z.pow_add_r 2 1), (Z.pow_add_r 2 52) by lia. lia. }
    pose proof (digits_below m1 (53 - e1) P2 ltac:(lia) X). lia. }
  rewrite fexp_eq. set (n2 := Z.max (Zdigits2 m1 + e1 - 53) (-1074) - e1).
  destruct (shr_ok (shr_record_of_loc m1 loc_Exact) e1 n2 ltac:(rewrite record_m; exact P2)) as (y2 & -> & Z1 & _). rewrite record_m in Z1.
  set (e2 := e1 + Z.max n2 0). assert (E2 : e2 <= 0) by (unfold e2, n2; lia). assert (E12 : e1 <= e2) by (unfold e2; lia).
  assert (N2 : Z.max n2 0 = e2 - e1) by (unfold e2; lia). rewrite N2 in Z1.
  assert (P3 : 0 <= shr_m y2) by (rewrite Z1; apply Z.div_pos; [lia|apply Z.pow_pos_nonneg; lia]).
  assert (K3 : 0 < 2 ^ (- e2)) by (apply Z.pow_pos_nonneg; lia).
  assert (S2 : forall j, (j * (b * 2 ^ (- e)) <= m * b + r -> j <= shr_m y2 / 2 ^ (- e2)) /\ (m * b + r <= j * (b * 2 ^ (- e)) -> shr_m y2 / 2 ^ (- e2) <= j)).
  { intros j. destruct (S1 j) as [A1 A2]. destruct (shift_down m1 e1 e2 E12 E2 j P2) as [B1 B2]. rewrite <- Z1 in B1, B2. split; intros H.
    - apply A1, B1 in H. apply Z.div_le_lower_bound; lia.
    - apply A2, B2 in H. rewrite <- (Z.div_mul j (2 ^ (- e2))) by lia. apply Z.div_le_mono; lia. }
  exists (shr_m y2 / 2 ^ (- e2)). split; [|exact S2].
  destruct (shr_m y2) as [|p|p] eqn:Q; [destruct sx; reflexivity| |lia].
  destruct (Z.leb_spec e2 (1024 - 53)); [|lia]. cbn [truncate]. destruct (Z.leb_spec 0 e2); [|reflexivity].
  assert (e2 = 0) as -> by lia. change (2 ^ - 0) with 1. change (2 ^ 0) with 1. rewrite Z.mul_1_r, Z.div_1_r. reflexivity.
Qed.

(* numbers that need no rounding *)
Lemma core_exact sx m e : 0 <= e -> 0 < m -> m * 2 ^ e < 2 ^ 52 ->
  truncate (binary_round_aux 53 1024 sx m e loc_Exact) = Some (if sx then - (m * 2 ^ e) else m * 2 ^ e).
Proof.
  intros He Hm L. assert (B0 : 0 < 2 ^ e) by (apply Z.pow_pos_nonneg; lia).
  assert (X : e <= 52). { destruct (Z_le_gt_dec e 52); [assumption|]. pose proof (Z.pow_lt_mono_r 2 52 e ltac:(lia) ltac:(lia) ltac:(lia)). nia. }
  assert (D0 : Zdigits2 m <= 52 - e).
  { apply digits_below; [lia|lia|]. assert (E : 2 ^ 52 = 2 ^ (52 - e) * 2 ^ e) by (rewrite <- Z.pow_add_r by lia; f_equal; lia). nia. }
  unfold binary_round_aux, shr_fexp. rewrite fexp_eq. cbn [shr_record_of_loc].
  assert (N : shr {| shr_m := m; shr_r := false; shr_s := false |} e (Z.max (Zdigits2 m + e - 53) (-1074) - e) = ({| shr_m := m; shr_r := false; shr_s := false |}, e)).
  { unfold shr. destruct (Z.max (Zdigits2 m + e - 53) (-1074) - e) eqn:Q; try reflexivity. lia. }
  rewrite N. cbn [shr_m loc_of_shr_record round_nearest_even]. rewrite fexp_eq, N. cbn [shr_m].
  destruct m as [|p|p]; try lia. destruct (Z.leb_spec e (1024 - 53)); [|lia]. cbn [truncate]. destruct (Z.leb_spec 0 e); [|lia]. reflexivity.
Qed.
(* integers as doubles *)
Lemma of_int_ok z : Z.abs z < 2 ^ 52 -> z <> 0 ->
  exists p e, of_int z = S754_finite (z <? 0) p e /\ e <= 0 /\ Zpos p = Z.abs z * 2 ^ (- e).
Proof.
  intros L N. assert (G : forall s q, Zpos q < 2 ^ 52 -> exists p e, binary_round 53 1024 s q 0 = S754_finite s p e /\ e <= 0 /\ Zpos p = Zpos q * 2 ^ (- e)).
  { intros s q H. unfold binary_round. rewrite fexp_eq. change (Z.pos (digits2_pos q)) with (Zdigits2 (Zpos q)).
    destruct (digits_bounds (Zpos q) ltac:(lia)) as (D0 & D1 & D2). pose proof (digits_below (Zpos q) 52 ltac:(lia) ltac:(lia) H) as D3.
    set (d := Zdigits2 (Zpos q)) in *. set (ez := d - 53).
    assert (A : shl_align q 0 (Z.max (d + 0 - 53) (-1074)) = (shift_pos (Z.to_pos (- ez)) q, ez)).
    { unfold shl_align. replace (Z.max (d + 0 - 53) (-1074)) with ez by (unfold ez; lia). destruct (ez - 0) eqn:Q; try (unfold ez in Q; lia). f_equal. f_equal. lia. }
    rewrite A. set (p := shift_pos (Z.to_pos (- ez)) q).
    assert (P : Zpos p = Zpos q * 2 ^ (- ez)).
    { unfold p. rewrite shift_pos_correct, Z.mul_comm. f_equal. change (Z.pow_pos 2 (Z.to_pos (- ez))) with (2 ^ Zpos (Z.to_pos (- ez))).
      rewrite Z2Pos.id by (unfold ez; lia). reflexivity. }
    assert (DP : Zdigits2 (Zpos p) = 53).
    { assert (K : 0 < 2 ^ (- ez)) by (apply Z.pow_pos_nonneg; unfold ez; lia).
      assert (U : Zpos p < 2 ^ 53). { rewrite P. replace 53 with (d + - ez) by (unfold ez; lia). rewrite Z.pow_add_r by (unfold ez; lia). nia. }
      assert (V : 2 ^ 52 <= Zpos p). { rewrite P. replace 52 with ((d - 1) + - ez) by (unfold ez; lia). rewrite Z.pow_add_r by (unfold ez; lia). nia. }
      pose proof (digits_below (Zpos p) 53 ltac:(lia) ltac:(lia) U) as X. destruct (digits_bounds (Zpos p) ltac:(lia)) as (_ & _ & Y).
      destruct (Z_le_gt_dec 53 (Zdigits2 (Zpos p))); [lia|]. pose proof (Z.pow_le_mono_r 2 (Zdigits2 (Zpos p)) 52 ltac:(lia) ltac:(lia)). lia. }
    unfold binary_round_aux, shr_fexp. rewrite fexp_eq, DP. cbn [shr_record_of_loc]. replace (Z.max (53 + ez - 53) (-1074) - ez) with 0 by (unfold ez; lia).
    cbn [shr shr_m loc_of_shr_record round_nearest_even]. rewrite fexp_eq, DP. replace (Z.max (53 + ez - 53) (-1074) - ez) with 0 by (unfold ez; lia).
    cbn [shr shr_m]. destruct (Z.leb_spec ez (1024 - 53)); [|unfold ez in *; lia]. exists p, ez. split; [reflexivity|]. split; [unfold ez; lia|exact P]. }
  destruct z as [|q|q]; [congruence| |]; unfold of_int, binary_normalize; cbn [Z.abs Z.ltb Z.compare] in *; apply G; assumption.
Qed.

(* ---- products and quotients ---- *)
Lemma rearr1 a b c d : (a * b * c * 1 + 0) * d = a * c * (b * d). Proof. ring. Qed.
Lemma rearr2 a b c d : a * b * c * d = a * c * (b * d). Proof. ring. Qed.
Lemma rearr3 a b c d : a * b * (c * d) = a * c * (b * d). Proof. ring. Qed.
Lemma rearr5 a b c : a * b * c = a * c * b. Proof. ring. Qed.
Lemma rearr4 a b c d e : a * b * c * (d * e) = a * d * (b * c * e). Proof. ring. Qed.
Definition up (e : Z) : Z := 2 ^ Z.max e 0.
Lemma up_pos e : 0 < up e. Proof. apply Z.pow_pos_nonneg; lia. Qed.
Definition near (k n d : Z) : Prop := forall j, (j * d <= n -> j <= k) /\ (n <= j * d -> k <= j).
Lemma near_scale k n d n' d' : 0 < d -> 0 < d' -> n * d' = n' * d -> near k n d -> near k n' d'.
Proof.
  intros H H' E A j. destruct (A j) as [A1 A2]. split; intros L.
  - apply A1. assert (X : j * d * d' <= n * d') by nia. nia.
  - apply A2. assert (X : n * d' <= j * d * d') by nia. nia.
Qed.
Lemma lt_scale c n d n' d' : 0 < d -> 0 < d' -> n * d' = n' * d -> n < c * d -> n' < c * d'.
Proof. intros H H' E L. assert (X : n * d' < c * d * d') by nia. nia. Qed.

Lemma mul_abs a s m e : Z.abs a < 2 ^ 52 -> a <> 0 -> Z.abs a * Zpos m * up e < 2 ^ 52 * up (- e) ->
  exists k, truncate (dmul (of_int a) (S754_finite s m e)) = Some (if xorb (a <? 0) s then - k else k) /\ near k (Z.abs a * Zpos m * up e) (up (- e)).
Proof.
  intros A N L. destruct (of_int_ok a A N) as (p & ea & -> & Ea & P). cbn [dmul SFmul]. unfold dmul, SFmul. rewrite Pos2Z.inj_mul, P.
  pose proof (up_pos e) as U1. pose proof (up_pos (- e)) as U2. destruct (Z_lt_ge_dec (ea + e) 0) as [X|X].
  - set (D := 2 ^ (- (ea + e))). assert (HD : 0 < D) by (apply Z.pow_pos_nonneg; lia).
    assert (EQ : Z.abs a * Z.pos m * up e * D = (Z.abs a * 2 ^ (- ea) * Z.pos m * 1 + 0) * up (- e)).
    { unfold D, up. rewrite <- (Z.mul_assoc (Z.abs a * Z.pos m)).
      rewrite rearr1.
      rewrite <- !Z.pow_add_r by lia. f_equal. f_equal. lia. }
    assert (K0 : 0 < 2 ^ (- ea)) by (apply Z.pow_pos_nonneg; lia).
    destruct (core (xorb (a <? 0) s) (Z.abs a * 2 ^ (- ea) * Z.pos m) 1 0 (ea + e) loc_Exact) as (k & E & H); try lia.
    + intros I0. discriminate.
    + fold D. rewrite Z.mul_1_l. exact (lt_scale _ _ _ _ _ U2 HD EQ L).
    + exists k. split; [exact E|]. fold D in H. rewrite Z.mul_1_l in H. exact (near_scale k _ D _ _ HD U2 (eq_sym EQ) H).
  - assert (EQ : Z.abs a * 2 ^ (- ea) * Z.pos m * 2 ^ (ea + e) = Z.abs a * Z.pos m * up e).
    { unfold up. replace (Z.max e 0) with e by lia. rewrite rearr2.
      rewrite <- Z.pow_add_r by lia. f_equal. f_equal. lia. }
    assert (U : up (- e) = 1) by (unfold up; replace (Z.max (- e) 0) with 0 by lia; reflexivity). rewrite U in *. rewrite Z.mul_1_r in L.
    assert (K0 : 0 < 2 ^ (- ea)) by (apply Z.pow_pos_nonneg; lia).
    rewrite core_exact; [|lia|repeat apply Z.mul_pos_pos; lia|rewrite EQ; exact L]. rewrite EQ. eexists. split; [reflexivity|]. intros j. lia.
Qed.

Lemma loc_of_rest q b r : 0 <= r -> inexact (shr_record_of_loc q (new_location b r)) = true -> 0 < r.
Proof.
  intros H I0. destruct (Z.eq_dec r 0) as [->|]; [|lia]. unfold new_location, new_location_even, new_location_odd in I0.
  change (Zeq_bool 0 0) with true in I0. cbv iota in I0. destruct (Z.even b); discriminate.
Qed.
Lemma div_abs a s m e : Z.abs a < 2 ^ 52 -> a <> 0 -> Z.abs a * up (- e) < 2 ^ 52 * (Zpos m * up e) ->
  exists k, truncate (ddiv (of_int a) (S754_finite s m e)) = Some (if xorb (a <? 0) s then - k else k) /\ near k (Z.abs a * up (- e)) (Zpos m * up e).
Proof.
  intros A N L. destruct (of_int_ok a A N) as (p & ea & -> & Ea & P). unfold ddiv, SFdiv, SFdiv_core_binary. rewrite fexp_eq.
  pose proof (up_pos e) as U1. pose proof (up_pos (- e)) as U2. assert (K0 : 0 < 2 ^ (- ea)) by (apply Z.pow_pos_nonneg; lia).
  destruct (digits_bounds (Zpos p) ltac:(lia)) as (D1 & D2 & _). destruct (digits_bounds (Zpos m) ltac:(lia)) as (D3 & _ & D4).
  set (d1 := Zdigits2 (Zpos p)) in *. set (d2 := Zdigits2 (Zpos m)) in *.
  assert (X : d1 + ea - (d2 + e) <= 52).
  { assert (B : Zpos p * up (- e) < 2 ^ 52 * (Zpos m * up e) * 2 ^ (- ea)) by (rewrite P, rearr5; apply Z.mul_lt_mono_pos_r; assumption).
    assert (B1 : 2 ^ (d1 - 1 + Z.max (- e) 0) < 2 ^ (52 + (d2 + Z.max e 0) + - ea)).
    { rewrite !Z.pow_add_r by lia. fold (up e) (up (- e)). apply Z.le_lt_trans with (Zpos p * up (- e)); [apply Z.mul_le_mono_nonneg_r; lia|].
      apply Z.lt_le_trans with (1 := B). apply Z.mul_le_mono_nonneg_r; [lia|]. apply Z.mul_le_mono_nonneg_l; [lia|]. apply Z.mul_le_mono_nonneg_r; lia. }
    apply Z.pow_lt_mono_r_iff in B1; lia. }
  set (e' := Z.min (Z.max (d1 + ea - (d2 + e) - 53) (-1074)) (ea - e)).
  assert (S0 : 0 <= ea - e - e') by (unfold e'; lia). assert (E' : e' < 0) by (unfold e'; lia).
  assert (M' : match ea - e - e' with Z.pos _ => Z.shiftl (Z.pos p) (ea - e - e') | Z0 => Z.pos p | Z.neg _ => 0 end = Z.pos p * 2 ^ (ea - e - e')).
  { destruct (ea - e - e') eqn:Q; [|rewrite Z.shiftl_mul_pow2 by lia; reflexivity|lia]. change (2 ^ 0) with 1. lia. }
  rewrite M'. pose proof (Z_div_mod (Z.pos p * 2 ^ (ea - e - e')) (Z.pos m) ltac:(lia)) as DM.
  destruct (Z.div_eucl (Z.pos p * 2 ^ (ea - e - e')) (Z.pos m)) as [q r]. destruct DM as [Q1 Q2].
  set (D := Z.pos m * 2 ^ (- e')). assert (K1 : 0 < 2 ^ (- e')) by (apply Z.pow_pos_nonneg; lia). assert (HD : 0 < D) by (unfold D; nia).
  assert (K2 : 0 < 2 ^ (ea - e - e')) by (apply Z.pow_pos_nonneg; lia).
  assert (EQ : Z.abs a * up (- e) * D = (q * Z.pos m + r) * (Z.pos m * up e)).
  { rewrite (Z.mul_comm q), <- Q1, P. unfold D, up.
    rewrite rearr3.
    rewrite rearr4.
    rewrite <- !Z.pow_add_r by lia. f_equal. f_equal. lia. }
  assert (U3 : 0 < Z.pos m * up e) by nia.
  destruct (core (xorb (a <? 0) s) q (Z.pos m) r e' (new_location (Z.pos m) r)) as (k & E & H); try lia.
  - nia.
  - apply loc_of_rest. lia.
  - fold D. exact (lt_scale _ _ _ _ _ U3 HD EQ L).
  - exists k. split; [exact E|]. fold D in H. exact (near_scale k _ D _ _ HD U3 (eq_sym EQ) H).
Qed.

(* ---- the same with rational numbers ---- *)
Lemma number_ok s m e : (number (S754_finite s m e) == ((if s then - (Zpos m * up e) else Zpos m * up e) # Z.to_pos (up (- e))))%Q.
Proof.
  unfold number, up. destruct (Z.leb_spec 0 e) as [L|L].
  - replace (Z.max e 0) with e by lia. replace (Z.max (- e) 0) with 0 by lia. change (Z.to_pos (2 ^ 0)) with 1%positive. destruct s; unfold Qeq, inject_Z; cbn [Qnum Qden]; lia.
  - replace (Z.max e 0) with 0 by lia. replace (Z.max (- e) 0) with (- e) by lia. change (2 ^ 0) with 1. unfold Qeq. cbn [Qnum Qden].
    assert (Z.pos (2 ^ Z.to_pos (- e)) = Z.pos (Z.to_pos (2 ^ (- e)))) as ->; [|destruct s; lia].
    rewrite Pos2Z.inj_pow, !Z2Pos.id; lia.
Qed.
Lemma near_floor (s : bool) k n d x : 0 < d -> near k n d -> (x == (if s then - n else n) # Z.to_pos d)%Q -> Qfloor x <= (if s then - k else k) <= Qceiling x.
Proof.
  intros D H E. unfold Qceiling. rewrite (Qfloor_comp _ _ E), (Qfloor_comp _ _ (Qopp_comp _ _ E)). cbn [Qfloor Qopp Qnum Qden]. rewrite Z2Pos.id by exact D.
  pose proof (Z.mul_div_le n d D) as A. pose proof (Z.mul_div_le (- n) d D) as B. destruct (H (n / d)) as [H1 _]. destruct (H (- (- n / d))) as [_ H2].
  specialize (H1 ltac:(lia)). specialize (H2 ltac:(lia)). destruct s; rewrite ?Z.opp_involutive; lia.
Qed.
Lemma within_frac (s : bool) n d x c : 0 < d -> 0 <= n -> (x == (if s then - n else n) # Z.to_pos d)%Q -> within x c -> n < c * d.
Proof.
  intros D N E [A B]. rewrite E in A, B. unfold Qlt, inject_Z, Qopp in A, B. cbn [Qnum Qden] in A, B. rewrite Z2Pos.id in A, B by exact D. destruct s; lia.
Qed.
Lemma mul_ok a d : Z.abs a < 2 ^ 52 -> finite d -> within (inject_Z a * number d) (2 ^ 52) ->
  exists k, truncate (dmul (of_int a) d) = Some k /\ Qfloor (inject_Z a * number d) <= k <= Qceiling (inject_Z a * number d).
Proof.
  intros A Fd W. destruct (Z.eq_dec a 0) as [->|N].
  { exists 0. assert (E : (inject_Z 0 * number d == 0)%Q) by (unfold inject_Z; ring). unfold Qceiling.
    rewrite (Qfloor_comp _ _ E), (Qfloor_comp _ _ (Qopp_comp _ _ E)). change (of_int 0) with (S754_zero false). destruct d; try contradiction; (split; [reflexivity|vm_compute; split; discriminate]). }
  destruct d as [z| | |s m e]; try contradiction.
  - exists 0. assert (E : (inject_Z a * number (S754_zero z) == 0)%Q) by (cbn [number]; ring). unfold Qceiling.
    rewrite (Qfloor_comp _ _ E), (Qfloor_comp _ _ (Qopp_comp _ _ E)). destruct (of_int_ok a A N) as (p & ea & -> & _). split; [reflexivity|vm_compute; split; discriminate].
  - pose proof (up_pos e) as U1. pose proof (up_pos (- e)) as U2.
    assert (E : (inject_Z a * number (S754_finite s m e) == (if xorb (a <? 0) s then - (Z.abs a * Zpos m * up e) else Z.abs a * Zpos m * up e) # Z.to_pos (up (- e)))%Q).
    { rewrite number_ok. unfold Qeq, Qmult, inject_Z. cbn [Qnum Qden]. rewrite Pos.mul_1_l. f_equal. destruct (Z.ltb_spec a 0); destruct s; cbn [xorb]; [| | |]; ((rewrite Z.abs_neq by lia) || (rewrite Z.abs_eq by lia)); ring. }
    destruct (mul_abs a s m e A N) as (k & K & H); [refine (within_frac _ _ _ _ _ U2 _ E W); repeat apply Z.mul_nonneg_nonneg; lia|]. eexists. split; [exact K|]. exact (near_floor _ _ _ _ _ U2 H E).
Qed.
Lemma div_ok a d : Z.abs a < 2 ^ 52 -> finite d -> ~ (number d == 0)%Q -> within (inject_Z a / number d) (2 ^ 52) ->
  exists k, truncate (ddiv (of_int a) d) = Some k /\ Qfloor (inject_Z a / number d) <= k <= Qceiling (inject_Z a / number d).
Proof.
  intros A Fd Nz W. destruct d as [z| | |s m e]; try contradiction; [destruct (Nz ltac:(reflexivity))|].
  destruct (Z.eq_dec a 0) as [->|N].
  { exists 0. assert (E : (inject_Z 0 / number (S754_finite s m e) == 0)%Q) by (unfold Qdiv, inject_Z; ring). unfold Qceiling.
    rewrite (Qfloor_comp _ _ E), (Qfloor_comp _ _ (Qopp_comp _ _ E)). change (of_int 0) with (S754_zero false). split; [reflexivity|vm_compute; split; discriminate]. }
  pose proof (up_pos e) as U1. pose proof (up_pos (- e)) as U2. assert (U3 : 0 < Zpos m * up e) by nia.
  assert (E : (inject_Z a / number (S754_finite s m e) == (if xorb (a <? 0) s then - (Z.abs a * up (- e)) else Z.abs a * up (- e)) # Z.to_pos (Zpos m * up e))%Q).
  { rewrite number_ok. unfold Qdiv. assert (V : (/ ((if s then - (Z.pos m * up e) else Z.pos m * up e) # Z.to_pos (up (- e))) == (if s then - up (- e) else up (- e)) # Z.to_pos (Z.pos m * up e))%Q).
    { unfold Qeq, Qinv. cbn [Qnum]. destruct (Z.pos m * up e) as [|q|q] eqn:Q; try lia. destruct s; cbn [Z.opp Qnum Qden Z.to_pos]; destruct (up (- e)) as [|u|u]; try lia; reflexivity. }
    rewrite V. unfold Qeq, Qmult, inject_Z. cbn [Qnum Qden]. rewrite Pos.mul_1_l. f_equal. destruct (Z.ltb_spec a 0); destruct s; cbn [xorb]; ((rewrite Z.abs_neq by lia) || (rewrite Z.abs_eq by lia)); ring. }
  destruct (div_abs a s m e A N) as (k & K & H); [refine (within_frac _ _ _ _ _ U3 _ E W); repeat apply Z.mul_nonneg_nonneg; lia|]. eexists. split; [exact K|]. exact (near_floor _ _ _ _ _ U3 H E).
Qed.

(* ---- spans ---- *)
Lemma floor_near x k : Qfloor x <= k <= Qceiling x -> within (inject_Z k - x) 1.
Proof.
  intros [A B]. pose proof (Qlt_floor x) as C0. pose proof (Qceiling_lt x) as D0.
  rewrite Zle_Qle in A, B. rewrite inject_Z_plus in C0. unfold Z.sub in D0. rewrite inject_Z_plus in D0. split.
  - change (- inject_Z 1)%Q with (- (1))%Q. change (inject_Z (-(1))) with (-1 # 1)%Q in D0. change (inject_Z 1) with 1%Q in C0. lra.
  - change (inject_Z 1) with 1%Q in *. change (inject_Z (-(1))) with (-1 # 1)%Q in D0. lra.
Qed.
Lemma floor_integer x k : Qfloor x <= k <= Qceiling x -> integer x -> (inject_Z k == x)%Q.
Proof.
  intros [A B] (z & E). unfold Qceiling in B. rewrite (Qfloor_comp _ _ E) in A. rewrite (Qfloor_comp _ _ (Qopp_comp _ _ E)) in B.
  rewrite Qfloor_Z in A. change (- inject_Z z)%Q with (inject_Z (- z)) in B. rewrite Qfloor_Z in B. rewrite E. assert (k = z) as -> by lia. reflexivity.
Qed.
Lemma within_floor x k c : Qfloor x <= k <= Qceiling x -> within x c -> Z.abs k <= c.
Proof.
  intros [A B] [C0 D0]. assert (X : Qfloor x < c). { apply Z.lt_nge. intros L. pose proof (Qfloor_le x) as F0. rewrite Zle_Qle in L. lra. }
  assert (Y : - c < Qceiling x). { apply Z.lt_nge. intros L. pose proof (Qle_ceiling x) as F0. rewrite Zle_Qle, inject_Z_opp in L. lra. }
  assert (X2 : - c <= Qfloor x). { change (- c) with (Z.opp c). rewrite <- (Qfloor_Z (- c)). apply Qfloor_resp_le. rewrite inject_Z_opp. lra. }
  assert (Y2 : Qceiling x <= c). { rewrite <- (Qceiling_Z c). apply Qceiling_resp_le. lra. }
  lia.
Qed.
Lemma span_of_parts (x1 x2 : Q) s n : Qfloor x1 <= s <= Qceiling x1 -> Qfloor x2 <= n <= Qceiling x2 -> within x1 (2 ^ 52) -> within x2 (2 ^ 31 - 1) ->
  bind (chk64 s) (fun s => bind (chk32 n) (fun n => make_span s n)) = make_span s n /\
  exists r, make_span s n = Ok r /\ canonical r /\ within (inject_Z (total r) - (x1 * inject_Z 1000000000 + x2)) 1000000001 /\
  (integer x1 -> integer x2 -> (inject_Z (total r) == x1 * inject_Z 1000000000 + x2)%Q).
Proof.
  intros A B W1 W2. pose proof (within_floor _ _ _ A W1) as L1. pose proof (within_floor _ _ _ B W2) as L2.
  assert (I1 : in_i64 s = true) by (apply in_i64_iff; lia). assert (I2 : in_i32 n = true) by (unfold in_i32; apply andb_true_iff; split; [apply Z.leb_le|apply Z.ltb_lt]; lia).
  split; [unfold chk64, chk32; rewrite I1, I2; reflexivity|].
  destruct (normalize_ok s n I1 I2) as (r & E & C0 & T0); [unfold representable; lia|]. exists r. split; [exact E|]. split; [exact C0|].
  rewrite T0, inject_Z_plus, inject_Z_mult. destruct (floor_near _ _ A) as [A1 A2]. destruct (floor_near _ _ B) as [B1 B2].
  change (inject_Z 1) with 1%Q in *. change (inject_Z 1000000000) with (1000000000 # 1)%Q. unfold within. change (inject_Z 1000000001) with (1000000001 # 1)%Q. split; [lra|].
  intros Z1 Z2. rewrite (floor_integer _ _ A Z1), (floor_integer _ _ B Z2). reflexivity.
Qed.
Lemma total_q t : (inject_Z (total t) == inject_Z (secs t) * inject_Z 1000000000 + inject_Z (nsecs t))%Q.
Proof. unfold total. rewrite inject_Z_plus, inject_Z_mult. reflexivity. Qed.
