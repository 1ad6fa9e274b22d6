(* Proofs of C70. *)
From Verif Require Import Base BaseLemmas CInt Text TimeModel TimeSpec TimeProofs IsoModel IsoSpec IsoProofs CalendarSpec.
From Verif Require LogTextModel LogTextSpec LogTextProofs.
Local Open Scope Z_scope.

(* ---- the calendar ---- *)
Definition Y (y : Z) : Z := 365 * (y - 1970) + (y - 1) / 4 - (y - 1) / 100 + (y - 1) / 400 - 477.
Lemma Y_next y : Y (y + 1) = Y y + ylen y.
Proof. unfold Y, ylen, is_leap. replace (y + 1 - 1) with y by lia. destruct ((_ =? 0) && _) eqn:E; lia. Qed.
Lemma leap_iff y : leap y <-> is_leap y = true.
Proof.
  unfold leap, is_leap. rewrite andb_true_iff, orb_true_iff, negb_true_iff, !Z.eqb_eq, Z.eqb_neq.
  rewrite !Z.mod_divide by lia. reflexivity.
Qed.
Lemma days_in_iff y m k : 1 <= m <= 12 -> (days_in y m k <-> k = month_len y m).
Proof.
  intros M. unfold days_in. pose proof (leap_iff y) as L.
  assert (C : m = 1 \/ m = 2 \/ m = 3 \/ m = 4 \/ m = 5 \/ m = 6 \/ m = 7 \/ m = 8 \/ m = 9 \/ m = 10 \/ m = 11 \/ m = 12) by lia.
  unfold month_len. destruct (is_leap y).
  - assert (LL : leap y) by (apply L; reflexivity). split.
    + intros [(A & ->)|[(A & ->)|(-> & [(_ & ->)|(N & _)])]]; [| |reflexivity|tauto]; cbn [In] in A;
        repeat (destruct A as [<-|A]; [reflexivity|]); destruct A.
    + intros ->. repeat (destruct C as [->|C]); try subst m; cbn; auto 20.
  - assert (LL : ~ leap y) by (intros Q; apply L in Q; discriminate). split.
    + intros [(A & ->)|[(A & ->)|(-> & [(N & _)|(_ & ->)])]]; [| |tauto|reflexivity]; cbn [In] in A;
        repeat (destruct A as [<-|A]; [reflexivity|]); destruct A.
    + intros ->. repeat (destruct C as [->|C]); try subst m; cbn; auto 20.
Qed.
Lemma days_in_month y m k : days_in y m k -> 1 <= m <= 12.
Proof. intros [(A & _)|[(A & _)|(-> & _)]]; [| |lia]; cbn [In] in A; repeat (destruct A as [<-|A]; [lia|]); destruct A. Qed.

Definition tup (d : date) : Z * Z * Z := (year d, month d, day d).
Definition vd (d : date) : Prop := 1 <= month d <= 12 /\ 1 <= day d <= month_len (year d) (month d).
Definition dn (d : date) : Z := Y (year d) + msum (year d) (Z.to_nat (month d - 1)) + (day d - 1).

Lemma next_vd d : vd d -> vd (next_day d) /\ dn (next_day d) = dn d + 1 /\ follows (tup d) (tup (next_day d)).
Proof.
  destruct d as [y m d]. unfold vd, next_day, dn, tup; cbn [year month day]. intros (Hm & Hd).
  pose proof (proj2 (days_in_iff y m _ Hm) eq_refl) as DI.
  destruct (Z.ltb_spec d (month_len y m)); cbn [year month day].
  - split; [repeat split; lia|]. split; [lia|]. eapply in_month; [exact DI|lia].
  - assert (d = month_len y m) by lia. subst d. destruct (Z.ltb_spec m 12); cbn [year month day].
    + pose proof (month_len_bounds y (m + 1)). split; [repeat split; lia|]. split.
      * replace (Z.to_nat (m + 1 - 1)) with (S (Z.to_nat (m - 1))) by lia. cbn [msum].
        replace (Z.of_nat (Z.to_nat (m - 1)) + 1) with m by lia. lia.
      * apply next_month; [exact DI|lia].
    + assert (m = 12) by lia. subst m. pose proof (month_len_bounds (y + 1) 1). split; [repeat split; lia|]. split.
      * rewrite Y_next, <- msum_12. change (Z.to_nat (1 - 1)) with O. change (Z.to_nat (12 - 1)) with 11%nat.
        assert (E : msum y 12 = msum y 11 + month_len y 12) by reflexivity. rewrite E. cbn [msum]. lia.
      * apply next_year.
Qed.
Lemma prev_next d : vd d -> vd (prev_day d) /\ next_day (prev_day d) = d.
Proof.
  destruct d as [y m d]. unfold vd, prev_day; cbn [year month day]. intros (Hm & Hd).
  destruct (Z.ltb_spec 1 d); cbn [year month day].
  - split; [repeat split; lia|]. unfold next_day. cbn [year month day]. destruct (Z.ltb_spec (d - 1) (month_len y m)); [f_equal; lia|lia].
  - assert (d = 1) by lia. subst d. destruct (Z.ltb_spec 1 m); cbn [year month day].
    + pose proof (month_len_bounds y (m - 1)). split; [repeat split; lia|]. unfold next_day. cbn [year month day].
      rewrite Z.ltb_irrefl. destruct (Z.ltb_spec (m - 1) 12); [f_equal; lia|lia].
    + assert (m = 1) by lia. subst m. split; [split; [lia|]; change (month_len (y - 1) 12) with 31; lia|].
      unfold next_day. cbn [year month day]. change (month_len (y - 1) 12) with 31. cbn. f_equal; lia.
Qed.
Lemma follows_next x y : follows x y -> exists d, x = tup d /\ vd d /\ y = tup (next_day d).
Proof.
  intros H. destruct H as [y m d k DI Hd|y m k DI Hm|y].
  - pose proof (days_in_month _ _ _ DI) as Hm. apply (days_in_iff _ _ _ Hm) in DI. subst k. exists (D y m d).
    split; [reflexivity|]. split; [unfold vd; cbn [year month day]; lia|]. unfold next_day, tup. cbn [year month day].
    destruct (Z.ltb_spec d (month_len y m)); [reflexivity|lia].
  - pose proof (days_in_month _ _ _ DI) as Hm'. apply (days_in_iff _ _ _ Hm') in DI. subst k. exists (D y m (month_len y m)).
    pose proof (month_len_bounds y m). split; [reflexivity|]. split; [unfold vd; cbn [year month day]; lia|].
    unfold next_day, tup. cbn [year month day]. rewrite Z.ltb_irrefl. destruct (Z.ltb_spec m 12); [reflexivity|lia].
  - exists (D y 12 31). split; [reflexivity|]. split; [unfold vd; cbn [year month day]; change (month_len y 12) with 31; lia|].
    unfold next_day, tup. cbn [year month day]. change (month_len y 12) with 31. reflexivity.
Qed.
(* dn is injective on dates *)
Lemma Y_mono y z : y <= z -> Y y + 365 * (z - y) <= Y z.
Proof. intros L. unfold Y. lia. Qed.
Lemma msum_step y k : msum y k + 28 <= msum y (S k).
Proof. cbn [msum]. pose proof (month_len_bounds y (Z.of_nat k + 1)). lia. Qed.
Lemma msum_len y m m' : 1 <= m < m' -> msum y (Z.to_nat (m - 1)) + month_len y m <= msum y (Z.to_nat (m' - 1)).
Proof.
  intros H. pose proof (msum_mono y (S (Z.to_nat (m - 1))) (Z.to_nat (m' - 1)) ltac:(lia)) as Q. cbn [msum] in Q.
  replace (Z.of_nat (Z.to_nat (m - 1)) + 1) with m in Q by lia. exact Q.
Qed.
Lemma dn_year d : vd d -> Y (year d) <= dn d < Y (year d + 1).
Proof.
  intros (Hm & Hd). unfold dn. pose proof (msum_nonneg (year d) (Z.to_nat (month d - 1))) as P. rewrite Y_next, <- msum_12.
  assert (Q : msum (year d) (Z.to_nat (month d - 1)) + month_len (year d) (month d) <= msum (year d) 12).
  { pose proof (msum_len (year d) (month d) 13 ltac:(lia)) as Q. change (Z.to_nat (13 - 1)) with 12%nat in Q. exact Q. }
  lia.
Qed.
Lemma dn_inj d e : vd d -> vd e -> dn d = dn e -> d = e.
Proof.
  intros Vd Ve E. pose proof (dn_year d Vd) as A. pose proof (dn_year e Ve) as B.
  assert (Ey : year d = year e).
  { destruct (Z.lt_trichotomy (year d) (year e)) as [L|[L|L]]; [|exact L|].
    - pose proof (Y_mono (year d + 1) (year e) ltac:(lia)). lia.
    - pose proof (Y_mono (year e + 1) (year d) ltac:(lia)). lia. }
  destruct Vd as (M1 & D1), Ve as (M2 & D2). unfold dn in E. destruct d as [y m d], e as [y' m' d']. cbn [year month day] in *. subst y'.
  assert (Em : m = m').
  { destruct (Z.lt_trichotomy m m') as [L|[L|L]]; [|exact L|].
    - pose proof (msum_len y m m' ltac:(lia)). lia.
    - pose proof (msum_len y m' m ltac:(lia)). lia. }
  subst m'. f_equal. lia.
Qed.
Lemma vd_epoch : vd (D 1970 1 1). Proof. unfold vd. cbn. lia. Qed.
Lemma date_on_dn n x : date_on n x -> exists d, x = tup d /\ vd d /\ dn d = n.
Proof.
  intros H. induction H as [|n x y H (d & -> & V & E) F|n x y H (d & -> & V & E) F].
  - exists (D 1970 1 1). split; [reflexivity|]. split; [exact vd_epoch|reflexivity].
  - apply follows_next in F. destruct F as (e & Ee & Ve & ->). assert (d = e) by (destruct d, e; unfold tup in Ee; cbn in Ee; congruence). subst e.
    destruct (next_vd d V) as (V' & E' & _). exists (next_day d). split; [reflexivity|]. split; [exact V'|lia].
  - apply follows_next in F. destruct F as (e & -> & Ve & Ee). destruct (next_vd e Ve) as (V' & E' & _).
    assert (d = next_day e) by (destruct d, (next_day e); unfold tup in Ee; cbn in Ee; congruence). subst d.
    exists e. split; [reflexivity|]. split; [exact Ve|lia].
Qed.
Lemma iter_on n : vd (Nat.iter n next_day (D 1970 1 1)) /\ date_on (Z.of_nat n) (tup (Nat.iter n next_day (D 1970 1 1))).
Proof.
  induction n as [|n (V & H)]; [split; [exact vd_epoch|apply epoch]|].
  change (Nat.iter (S n) next_day (D 1970 1 1)) with (next_day (Nat.iter n next_day (D 1970 1 1))). destruct (next_vd _ V) as (V' & _ & F).
  split; [exact V'|]. rewrite Nat2Z.inj_succ. exact (later _ _ _ H F).
Qed.
Lemma iter_before n : vd (Nat.iter n prev_day (D 1970 1 1)) /\ date_on (- Z.of_nat n) (tup (Nat.iter n prev_day (D 1970 1 1))).
Proof.
  induction n as [|n (V & H)]; [split; [exact vd_epoch|apply epoch]|].
  change (Nat.iter (S n) prev_day (D 1970 1 1)) with (prev_day (Nat.iter n prev_day (D 1970 1 1))). destruct (prev_next _ V) as (V' & E).
  destruct (next_vd _ V') as (_ & _ & F). rewrite E in F.
  split; [exact V'|]. replace (- Z.of_nat (S n)) with (- Z.of_nat n - 1) by lia. exact (earlier _ _ _ H F).
Qed.
Lemma date_of_day_on n : vd (date_of_day n) /\ date_on n (tup (date_of_day n)).
Proof.
  unfold date_of_day. destruct (Z.leb_spec 0 n) as [L|L].
  - pose proof (iter_on (Z.to_nat n)) as H. rewrite Z2Nat.id in H by lia. exact H.
  - pose proof (iter_before (Z.to_nat (- n))) as H. rewrite Z2Nat.id in H by lia. rewrite Z.opp_involutive in H. exact H.
Qed.
Lemma date_on_fun n x y : date_on n x -> date_on n y -> x = y.
Proof.
  intros A B. destruct (date_on_dn _ _ A) as (d & -> & Vd & Ed), (date_on_dn _ _ B) as (e & -> & Ve & Ee). f_equal. apply dn_inj; auto. lia.
Qed.
Lemma date_on_inj n m x : date_on n x -> date_on m x -> n = m.
Proof.
  intros A B. destruct (date_on_dn _ _ A) as (d & Ed & Vd & <-), (date_on_dn _ _ B) as (e & Ee & Ve & <-).
  assert (d = e) by (destruct d, e; unfold tup in *; cbn in *; congruence). congruence.
Qed.
Lemma clock_fun sec y m d hh mm ss y' m' d' hh' mm' ss' : clock sec y m d hh mm ss -> clock sec y' m' d' hh' mm' ss' ->
  y = y' /\ m = m' /\ d = d' /\ hh = hh' /\ mm = mm' /\ ss = ss'.
Proof.
  intros H H'. destruct H as [n y m d hh mm ss A B C0 D0 E], H' as [n' y' m' d' hh' mm' ss' A' B' C' D' E'].
  assert (n = n') by lia. subst n'. pose proof (date_on_fun _ _ _ A A') as Q. injection Q as -> -> ->. repeat split; lia.
Qed.
Lemma clock_day sec : clock sec (year (date_of_day (sec / 86400))) (month (date_of_day (sec / 86400))) (IsoModel.day (date_of_day (sec / 86400)))
  (sec mod 86400 / 3600) (sec mod 86400 mod 3600 / 60) (sec mod 86400 mod 60).
Proof.
  destruct (date_of_day_on (sec / 86400)) as (_ & H). eapply clock_intro; [exact H| | | |]; lia.
Qed.

(* ---- digits ---- *)
Lemma number_cons c s : number (c :: s) = dvalue c * 10 ^ Z.of_nat (length s) + number s.
Proof. change (c :: s) with ([c] ++ s). rewrite number_app. reflexivity. Qed.
Lemma dvalue_inj c c' : is_digit c = true -> is_digit c' = true -> dvalue c = dvalue c' -> c = c'.
Proof.
  unfold is_digit, dvalue. intros A B E. rewrite <- (ascii_nat_embedding c), <- (ascii_nat_embedding c'). f_equal.
  apply andb_true_iff in A, B. destruct A as (A & _), B as (B & _). apply Nat.leb_le in A, B. lia.
Qed.
Lemma number_inj s : forall s', length s = length s' -> all_digits s = true -> all_digits s' = true -> number s = number s' -> s = s'.
Proof.
  induction s as [|c s IH]; intros [|c' s'] L A B E; try discriminate L; auto. injection L as L.
  unfold all_digits in A, B. cbn [forallb] in A, B. apply andb_true_iff in A, B. destruct A as (A1 & A2), B as (B1 & B2).
  rewrite !number_cons, L in E. pose proof (number_bounds s A2) as N1. pose proof (number_bounds s' B2) as N2. rewrite L in N1.
  pose proof (dvalue_bounds c A1). pose proof (dvalue_bounds c' B1). set (p := 10 ^ Z.of_nat (length s')) in *.
  assert (dvalue c = dvalue c') by nia. assert (number s = number s') by nia.
  rewrite (dvalue_inj c c'); auto. f_equal. apply IH; auto.
Qed.
Lemma two_fun z s s' : two z s -> two z s' -> s = s'.
Proof. intros (A & B & C0) (A' & B' & C'). apply number_inj; [congruence|exact B|exact B'|congruence]. Qed.
Lemma nine_fun z s s' : nine z s -> nine z s' -> s = s'.
Proof. intros (A & B & C0) (A' & B' & C'). apply number_inj; [congruence|exact B|exact B'|congruence]. Qed.
Lemma lead_pos c s : is_digit c = true -> all_digits s = true -> (forall r, c :: s = "0"%char :: r -> r = []) -> s <> [] ->
  10 ^ Z.of_nat (length s) <= number (c :: s).
Proof.
  intros Hc Hs NZ NE. rewrite number_cons. pose proof (number_bounds s Hs). pose proof (dvalue_bounds c Hc).
  assert (dvalue c <> 0). { intros Q. apply NE. apply (NZ s). f_equal. apply dvalue_inj; auto. }
  assert (0 < 10 ^ Z.of_nat (length s)) by (apply Z.pow_pos_nonneg; lia). nia.
Qed.
Lemma numeral_length d d' : d <> [] -> d' <> [] -> all_digits d = true -> all_digits d' = true ->
  (forall r, d' = "0"%char :: r -> r = []) -> number d = number d' -> (length d' <= length d)%nat.
Proof.
  intros N N' A A' Z' E. destruct (Nat.le_gt_cases (length d') (length d)) as [|L]; [assumption|exfalso].
  destruct d' as [|c s]; [congruence|]. cbn [length] in L. unfold all_digits in A'. cbn [forallb] in A'. apply andb_true_iff in A'. destruct A' as (A1 & A2).
  assert (NE : s <> []) by (destruct s; [destruct d; [congruence|cbn in L; lia]|discriminate]).
  pose proof (lead_pos c s A1 A2 Z' NE) as P. pose proof (number_bounds d A) as Q.
  assert (10 ^ Z.of_nat (length d) <= 10 ^ Z.of_nat (length s)) by (apply Z.pow_le_mono_r; lia). lia.
Qed.
Lemma numeral_fun z s s' : LogTextSpec.numeral z s -> LogTextSpec.numeral z s' -> s = s'.
Proof.
  intros (d & -> & N & A & V & L) (d' & -> & N' & A' & V' & L'). f_equal.
  assert (B : all_digits d = true) by (apply forallb_forall; exact A). assert (B' : all_digits d' = true) by (apply forallb_forall; exact A').
  apply number_inj; auto; [|congruence].
  pose proof (numeral_length d d' N N' B B' L' ltac:(congruence)). pose proof (numeral_length d' d N' N B' B L ltac:(congruence)). lia.
Qed.
Lemma two_digits z : 0 <= z < 100 -> two z (digits 2 z).
Proof. intros H. split; [apply digits_length|]. split; [apply digits_all; lia|]. apply number_digits. cbn. lia. Qed.
Lemma nine_digits z : 0 <= z < 1000000000 -> nine z (digits 9 z).
Proof. intros H. split; [apply digits_length|]. split; [apply digits_all; lia|]. apply number_digits. cbn. lia. Qed.
Lemma decimal_udec f : forall z, decimal f z = LogTextModel.udec f z.
Proof. induction f as [|f IH]; intros z; [reflexivity|]. cbn [decimal LogTextModel.udec]. destruct (z <? 10); [reflexivity|]. rewrite IH. reflexivity. Qed.
Lemma year_numeral y : Z.abs y < 2 ^ 20 -> LogTextSpec.numeral y (year_text y).
Proof.
  intros H. unfold year_text, LogTextSpec.numeral. rewrite !decimal_udec.
  destruct (LogTextProofs.udec_numeral 20 (Z.abs y) ltac:(change (2 ^ Z.of_nat 20) with (2 ^ 20); lia) ltac:(lia)) as (N & A & V & L & _).
  exists (LogTextModel.udec 20 (Z.abs y)). split; [|auto]. destruct (Z.ltb_spec y 0) as [Q|Q].
  - rewrite (Z.abs_neq y) by lia. reflexivity.
  - rewrite (Z.abs_eq y) by lia. reflexivity.
Qed.
Lemma decimal_short k : forall f z, 0 <= z < 10 ^ Z.of_nat k -> (0 < k)%nat -> (length (decimal f z) <= k)%nat.
Proof.
  induction k as [|k IH]; intros f z H K; [lia|]. destruct f as [|f]; [cbn; lia|]. cbn [decimal]. destruct (Z.ltb_spec z 10) as [L|L]; [cbn; lia|].
  rewrite app_length. cbn [length]. destruct k as [|k]; [cbn in H; lia|].
  assert (Q : 0 <= z / 10 < 10 ^ Z.of_nat (S k)).
  { rewrite (Nat2Z.inj_succ (S k)), Z.pow_succ_r in H by lia. split; [apply Z.div_pos; lia|]. apply Z.div_lt_upper_bound; lia. }
  pose proof (IH f (z / 10) Q ltac:(lia)). lia.
Qed.
Lemma decimal_long k : forall f z, 10 ^ Z.of_nat k <= z -> (k < f)%nat -> (k < length (decimal f z))%nat.
Proof.
  induction k as [|k IH]; intros f z H K; (destruct f as [|f]; [lia|]); cbn [decimal].
  - destruct (z <? 10); [cbn; lia|]. rewrite app_length. cbn. lia.
  - rewrite Nat2Z.inj_succ, Z.pow_succ_r in H by lia. assert (0 < 10 ^ Z.of_nat k) by (apply Z.pow_pos_nonneg; lia).
    destruct (Z.ltb_spec z 10) as [L|L]; [lia|]. rewrite app_length. cbn [length].
    assert (Q : 10 ^ Z.of_nat k <= z / 10) by (apply Z.div_le_lower_bound; lia).
    pose proof (IH f (z / 10) Q ltac:(lia)). lia.
Qed.
Lemma year_short y : -999 <= y <= 9999 -> (length (year_text y) <= 4)%nat.
Proof.
  intros H. unfold year_text. destruct (Z.ltb_spec y 0).
  - rewrite app_length. pose proof (decimal_short 3 20 (- y) ltac:(cbn; lia) ltac:(lia)). cbn [length list_ascii_of_string]. lia.
  - apply decimal_short; cbn; lia.
Qed.
Lemma year_long y : y < -999 \/ 9999 < y -> (4 < length (year_text y))%nat.
Proof.
  intros H. unfold year_text. destruct (Z.ltb_spec y 0).
  - rewrite app_length. pose proof (decimal_long 3 20 (- y) ltac:(cbn; lia) ltac:(lia)). cbn [length list_ascii_of_string]. lia.
  - apply decimal_long; cbn; lia.
Qed.

(* ---- the texts ---- *)
Lemma month_day_bounds n : 1 <= month (date_of_day n) <= 12 /\ 1 <= IsoModel.day (date_of_day n) <= 31.
Proof. destruct (date_of_day_on n) as ((A & B) & _). pose proof (month_len_bounds (year (date_of_day n)) (month (date_of_day n))). lia. Qed.
Lemma strf_basic_ok sec y m d hh mm ss : clock sec y m d hh mm ss ->
  (-999 <= y <= 9999 -> exists a, strf_basic 16 sec = Ok a /\ basic_text sec a) /\ (y < -999 \/ 9999 < y -> strf_basic 16 sec = UB).
Proof.
  intros K. destruct (clock_fun _ _ _ _ _ _ _ _ _ _ _ _ _ (clock_day sec) K) as (<- & _).
  pose proof (month_day_bounds (sec / 86400)) as (Bm & Bd).
  unfold strf_basic. set (x := date_of_day (sec / 86400)) in *. rewrite !app_length, !digits_length. cbn [length list_ascii_of_string].
  split; intros H.
  - pose proof (year_short _ H). destruct (Nat.ltb_spec (length (year_text (year x)) + (2 + (2 + (1 + (2 + (2 + 2)))))) 16); [|lia].
    eexists. split; [reflexivity|]. do 12 eexists. split; [apply clock_day|]. split; [apply year_numeral; fold x; lia|].
    split; [apply two_digits; fold x; lia|]. split; [apply two_digits; fold x; lia|].
    split; [apply two_digits; lia|]. split; [apply two_digits; lia|]. split; [apply two_digits; lia|].
    fold x. replace (sec mod 86400 mod 3600 / 60) with (sec mod 86400 mod 3600 / 60) by reflexivity. reflexivity.
  - pose proof (year_long _ H). destruct (Nat.ltb_spec (length (year_text (year x)) + (2 + (2 + (1 + (2 + (2 + 2)))))) 16); [lia|reflexivity].
Qed.
Lemma strf_extended_ok sec y m d hh mm ss : clock sec y m d hh mm ss ->
  (-999 <= y <= 9999 -> exists a, strf_extended 20 sec = Ok a /\ extended_text sec a) /\ (y < -999 \/ 9999 < y -> strf_extended 20 sec = UB).
Proof.
  intros K. destruct (clock_fun _ _ _ _ _ _ _ _ _ _ _ _ _ (clock_day sec) K) as (<- & _).
  pose proof (month_day_bounds (sec / 86400)) as (Bm & Bd).
  unfold strf_extended. set (x := date_of_day (sec / 86400)) in *. rewrite !app_length, !digits_length. cbn [length list_ascii_of_string].
  split; intros H.
  - pose proof (year_short _ H). match goal with |- context [Nat.ltb ?a ?b] => destruct (Nat.ltb_spec a b); [|lia] end.
    eexists. split; [reflexivity|]. do 12 eexists. split; [apply clock_day|]. split; [apply year_numeral; fold x; lia|].
    split; [apply two_digits; fold x; lia|]. split; [apply two_digits; fold x; lia|].
    split; [apply two_digits; lia|]. split; [apply two_digits; lia|]. split; [apply two_digits; lia|]. reflexivity.
  - pose proof (year_long _ H). match goal with |- context [Nat.ltb ?a ?b] => destruct (Nat.ltb_spec a b); [lia|reflexivity] end.
Qed.
Lemma basic_text_fun sec a b : basic_text sec a -> basic_text sec b -> a = b.
Proof.
  intros (y & m & d & hh & mm & ss & ty & tm & td & th & ti & ts & K & Hy & Hm & Hd & Hh & Hi & Hs & ->)
    (y' & m' & d' & hh' & mm' & ss' & ty' & tm' & td' & th' & ti' & ts' & K' & Hy' & Hm' & Hd' & Hh' & Hi' & Hs' & ->).
  destruct (clock_fun _ _ _ _ _ _ _ _ _ _ _ _ _ K K') as (<- & <- & <- & <- & <- & <-).
  rewrite (numeral_fun _ _ _ Hy Hy'), (two_fun _ _ _ Hm Hm'), (two_fun _ _ _ Hd Hd'), (two_fun _ _ _ Hh Hh'), (two_fun _ _ _ Hi Hi'), (two_fun _ _ _ Hs Hs').
  reflexivity.
Qed.
Lemma extended_text_fun sec a b : extended_text sec a -> extended_text sec b -> a = b.
Proof.
  intros (y & m & d & hh & mm & ss & ty & tm & td & th & ti & ts & K & Hy & Hm & Hd & Hh & Hi & Hs & ->)
    (y' & m' & d' & hh' & mm' & ss' & ty' & tm' & td' & th' & ti' & ts' & K' & Hy' & Hm' & Hd' & Hh' & Hi' & Hs' & ->).
  destruct (clock_fun _ _ _ _ _ _ _ _ _ _ _ _ _ K K') as (<- & <- & <- & <- & <- & <-).
  rewrite (numeral_fun _ _ _ Hy Hy'), (two_fun _ _ _ Hm Hm'), (two_fun _ _ _ Hd Hd'), (two_fun _ _ _ Hh Hh'), (two_fun _ _ _ Hi Hi'), (two_fun _ _ _ Hs Hs').
  reflexivity.
Qed.
(* the adjustment of a negative fraction *)
Definition adjusted (t : time) : result time :=
  if nsecs t <? 0 then bind (chk64 (secs t - 1)) (fun s => Ok (T s (nsecs t + 1000000000))) else Ok t.
Lemma adjusted_ok t : canonical t ->
  (- 2 ^ 63 <= total t / 1000000000 -> adjusted t = Ok (T (total t / 1000000000) (total t mod 1000000000))) /\
  (total t / 1000000000 < - 2 ^ 63 -> adjusted t = UB).
Proof.
  intros (Hi & Hn & Hp & Hm). unfold adjusted, total. unfold chk64, in_i64 in *.
  assert (Q : (secs t * 1000000000 + nsecs t) / 1000000000 = if nsecs t <? 0 then secs t - 1 else secs t).
  { destruct (Z.ltb_spec (nsecs t) 0); lia. }
  assert (Q2 : (secs t * 1000000000 + nsecs t) mod 1000000000 = if nsecs t <? 0 then nsecs t + 1000000000 else nsecs t).
  { destruct (Z.ltb_spec (nsecs t) 0); lia. }
  rewrite Q, Q2. destruct (Z.ltb_spec (nsecs t) 0) as [L|L].
  - split; intros H.
    + match goal with |- context [if ?b then _ else _] => destruct b eqn:E end; [reflexivity|]. exfalso. clear - E H Hi. lia.
    + match goal with |- context [if ?b then _ else _] => destruct b eqn:E end; [exfalso; clear - E H; lia|reflexivity].
  - split; intros H; [destruct t; reflexivity|]. exfalso. lia.
Qed.
Lemma clock_low sec y m d hh mm ss : clock sec y m d hh mm ss -> -999 <= y -> - 2 ^ 63 <= sec.
Proof.
  intros K Hy. destruct K as [n y m d hh mm ss A B C0 D0 E]. apply date_on_dn in A. destruct A as (x & Ex & V & Ed).
  injection Ex as -> _ _. pose proof (dn_year x V) as (L & _). pose proof (Y_mono (-999) (year x) Hy) as Q. change (Y (-999)) with (-1084405) in Q. lia.
Qed.
Lemma utc_basic t y m d hh mm ss : canonical t -> clock (total t / 1000000000) y m d hh mm ss ->
  (-999 <= y <= 9999 -> exists a f, formatIso8601BasicUTC t = Ok (a ++ $"," ++ f) /\ basic_text (total t / 1000000000) a /\ nine (total t mod 1000000000) f) /\
  (y < -999 \/ 9999 < y -> formatIso8601BasicUTC t = UB).
Proof.
  intros Cn K. destruct (strf_basic_ok _ _ _ _ _ _ _ K) as (A & B). destruct (adjusted_ok t Cn) as (G1 & G2).
  unfold formatIso8601BasicUTC. fold (adjusted t). split; intros H.
  - destruct (A H) as (a & Ea & Ba). rewrite G1 by (apply (clock_low _ _ _ _ _ _ _ K); lia). cbn [bind secs nsecs]. rewrite Ea. cbn [bind].
    eexists. eexists. split; [reflexivity|]. split; [exact Ba|]. apply nine_digits. apply Z.mod_pos_bound. lia.
  - destruct (Z.le_gt_cases (- 2 ^ 63) (total t / 1000000000)) as [L|L].
    + rewrite (G1 L). cbn [bind secs nsecs]. rewrite (B H). reflexivity.
    + rewrite (G2 L). reflexivity.
Qed.
Lemma local_basic zone t off y m d hh mm ss : canonical t -> zone (total t / 1000000000) = Some off -> - 2 ^ 63 <= total t / 1000000000 ->
  clock (total t / 1000000000 + off) y m d hh mm ss ->
  (-999 <= y <= 9999 -> exists a f, formatIso8601Basic zone t = Ok (a ++ $"," ++ f) /\ basic_text (total t / 1000000000 + off) a /\ nine (total t mod 1000000000) f) /\
  (y < -999 \/ 9999 < y -> formatIso8601Basic zone t = UB).
Proof.
  intros Cn Zo L K. destruct (strf_basic_ok _ _ _ _ _ _ _ K) as (A & B). destruct (adjusted_ok t Cn) as (G1 & _).
  unfold formatIso8601Basic, strfLocaltime. fold (adjusted t). rewrite (G1 L). cbn [bind secs nsecs]. rewrite Zo. split; intros H.
  - destruct (A H) as (a & Ea & Ba). rewrite Ea. cbn [bind].
    eexists. eexists. split; [reflexivity|]. split; [exact Ba|]. apply nine_digits. apply Z.mod_pos_bound. lia.
  - rewrite (B H). reflexivity.
Qed.
Lemma day_number_on d n : day_number d n <-> date_on (Z.of_nat n) (year d, month d, IsoModel.day d).
Proof.
  unfold day_number. destruct (iter_on n) as (V & H). split.
  - intros <-. exact H.
  - intros H'. pose proof (date_on_fun _ _ _ H H') as E. unfold tup in E. destruct (Nat.iter n next_day (D 1970 1 1)), d. cbn in E. congruence.
Qed.
Lemma valid_on d : (exists n, date_on n (year d, month d, IsoModel.day d)) <-> 1 <= month d <= 12 /\ 1 <= IsoModel.day d <= month_len (year d) (month d).
Proof.
  split.
  - intros (n & H). apply date_on_dn in H. destruct H as (x & Ex & V & _). assert (x = d) by (destruct x, d; unfold tup in Ex; cbn in Ex; congruence). subst x. exact V.
  - intros V. exists (dn d). destruct (date_of_day_on (dn d)) as (V' & H). destruct (date_on_dn _ _ H) as (x & Ex & Vx & Edn).
    assert (x = d) by (apply dn_inj; auto). subst x. rewrite Ex in H. exact H.
Qed.
