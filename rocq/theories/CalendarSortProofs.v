(* C70: the texts of later stamps are greater, for years of four digits. *)
From Verif Require Import Base BaseLemmas CInt Text SMap TimeModel TimeSpec TimeProofs IsoModel IsoSpec IsoProofs CalendarSpec CalendarProofs.
From Verif Require LogTextModel LogTextSpec.
Local Open Scope Z_scope.

Lemma number_bounds s : all_digits s = true -> 0 <= number s < 10 ^ Z.of_nat (length s).
Proof.
  induction s as [|c s IH]; intros A; [cbn; lia|]. unfold all_digits in *. cbn [forallb] in A. apply andb_prop in A. destruct A as (A & B).
  rewrite number_cons. specialize (IH B). cbn [length]. rewrite Nat2Z.inj_succ, Z.pow_succ_r by lia.
  assert (0 <= dvalue c <= 9) as D. { unfold is_digit in A. unfold dvalue. lia. } nia.
Qed.
Lemma digits_lt a : forall b x y, length a = length b -> all_digits a = true -> all_digits b = true -> number a < number b ->
  str_lt (a ++ x) (b ++ y) = true.
Proof.
  induction a as [|c a IH]; intros [|c' b] x y L A B N; try discriminate L; [cbn in N; lia|].
  cbn [length] in L. injection L as L. unfold all_digits in *. cbn [forallb] in A, B. apply andb_prop in A, B. destruct A as (A1 & A2), B as (B1 & B2).
  rewrite !number_cons, L in N. cbn [app str_lt].
  pose proof (number_bounds a A2) as Na. pose proof (number_bounds b B2) as Nb. rewrite L in Na.
  destruct (Z.lt_trichotomy (dvalue c) (dvalue c')) as [Q|[Q|Q]].
  - apply orb_true_iff. left. apply Nat.ltb_lt. unfold dvalue in Q. lia.
  - pose proof (dvalue_inj _ _ A1 B1 Q) as ->. rewrite Ascii.eqb_refl. rewrite (IH b x y L A2 B2) by lia. apply orb_true_r.
  - exfalso. nia.
Qed.
Lemma same_head a x y : str_lt (a ++ x) (a ++ y) = str_lt x y.
Proof. induction a as [|c a IH]; [reflexivity|]. cbn [app str_lt]. rewrite Ascii.eqb_refl, Nat.ltb_irrefl, IH. reflexivity. Qed.

(* three numbers, the first that differs is less *)
Lemma dn_lt d e : vd d -> vd e -> dn d < dn e ->
  year d < year e \/ year d = year e /\ (month d < month e \/ month d = month e /\ IsoModel.day d < IsoModel.day e).
Proof.
  intros Vd Ve E. pose proof (dn_year d Vd) as A. pose proof (dn_year e Ve) as B.
  destruct (Z.lt_trichotomy (year d) (year e)) as [L|[L|L]]; [left; exact L| |].
  2: { pose proof (Y_mono (year e + 1) (year d) ltac:(lia)). lia. }
  right. split; [exact L|]. destruct Vd as (M1 & D1), Ve as (M2 & D2). unfold dn in E. destruct d as [y m d], e as [y' m' d']. cbn [year month IsoModel.day] in *. subst y'.
  destruct (Z.lt_trichotomy m m') as [Q|[Q|Q]]; [left; exact Q| |].
  - right. split; [exact Q|]. subst m'. lia.
  - pose proof (msum_len y m' m ltac:(lia)). lia.
Qed.
Lemma clock_mono sec sec' y m d hh mm ss y' m' d' hh' mm' ss' : clock sec y m d hh mm ss -> clock sec' y' m' d' hh' mm' ss' -> sec < sec' ->
  y < y' \/ y = y' /\ (m < m' \/ m = m' /\ (d < d' \/ d = d' /\ (hh < hh' \/ hh = hh' /\ (mm < mm' \/ mm = mm' /\ ss < ss')))).
Proof.
  intros H H'. destruct H as [n y m d hh mm ss A B C0 D0 E], H' as [n' y' m' d' hh' mm' ss' A' B' C' D' E']. intros L.
  destruct (Z.lt_trichotomy n n') as [Q|[Q|Q]]; [| |lia].
  - destruct (date_on_dn _ _ A) as (x & Ex & Vx & Nx), (date_on_dn _ _ A') as (z & Ez & Vz & Nz). subst n n'.
    injection Ex as -> -> ->. injection Ez as -> -> ->. destruct (dn_lt _ _ Vx Vz Q) as [K|(K & [J|(J & I0)])]; tauto.
  - subst n'. pose proof (date_on_fun _ _ _ A A') as K. injection K as -> -> ->. right. split; [reflexivity|]. right. split; [reflexivity|]. right. split; [reflexivity|].
    clear - B C0 D0 B' C' D' E E' L. lia.
Qed.

Lemma year4 y s : 1000 <= y <= 9999 -> LogTextSpec.numeral y s -> length s = 4%nat /\ all_digits s = true /\ number s = y.
Proof.
  intros H K. pose proof (numeral_fun _ _ _ K (year_numeral y ltac:(lia))) as ->.
  assert (L : length (year_text y) = 4%nat).
  { pose proof (year_short y ltac:(lia)). unfold year_text in *. destruct (Z.ltb_spec y 0); [lia|].
    pose proof (decimal_long 3 20 y ltac:(cbn; lia) ltac:(lia)). lia. }
  split; [exact L|]. destruct K as (x & E & _ & Dg & N & _). destruct (Z.ltb_spec y 0); [lia|]. cbn [app] in E. rewrite E.
  split; [apply forallb_forall; exact Dg|lia].
Qed.
Lemma step_lt a b x y za zb : length a = length b -> all_digits a = true -> all_digits b = true -> number a = za -> number b = zb ->
  za < zb -> str_lt (a ++ x) (b ++ y) = true.
Proof. intros L A B <- <- N. exact (digits_lt a b x y L A B N). Qed.
Lemma step_eq a b x y za : length a = length b -> all_digits a = true -> all_digits b = true -> number a = za -> number b = za ->
  str_lt x y = true -> str_lt (a ++ x) (b ++ y) = true.
Proof. intros L A B N M Q. rewrite (number_inj a b L A B ltac:(congruence)), same_head. exact Q. Qed.

Lemma basic_lt sec sec' s s' x x' y m d hh mm ss y' m' d' hh' mm' ss' : basic_text sec s -> basic_text sec' s' ->
  clock sec y m d hh mm ss -> clock sec' y' m' d' hh' mm' ss' -> 1000 <= y <= 9999 -> 1000 <= y' <= 9999 -> sec < sec' ->
  str_lt (s ++ x) (s' ++ x') = true.
Proof.
  intros (y0 & m0 & d0 & hh0 & mm0 & ss0 & ty & tm & td & th & ti & ts & K & Hy & (Hm1 & Hm2 & Hm3) & (Hd1 & Hd2 & Hd3) & (Hh1 & Hh2 & Hh3) & (Hi1 & Hi2 & Hi3) & (Hs1 & Hs2 & Hs3) & ->)
    (y0' & m0' & d0' & hh0' & mm0' & ss0' & ty' & tm' & td' & th' & ti' & ts' & K' & Hy' & (Hm1' & Hm2' & Hm3') & (Hd1' & Hd2' & Hd3') & (Hh1' & Hh2' & Hh3') & (Hi1' & Hi2' & Hi3') & (Hs1' & Hs2' & Hs3') & ->) C0 C1 B B' L.
  destruct (clock_fun _ _ _ _ _ _ _ _ _ _ _ _ _ K C0) as (-> & -> & -> & -> & -> & ->).
  destruct (clock_fun _ _ _ _ _ _ _ _ _ _ _ _ _ K' C1) as (-> & -> & -> & -> & -> & ->).
  destruct (year4 _ _ B Hy) as (Y1 & Y2 & Y3), (year4 _ _ B' Hy') as (Y1' & Y2' & Y3').
  rewrite <- !app_assoc.
  destruct (clock_mono _ _ _ _ _ _ _ _ _ _ _ _ _ _ C0 C1 L) as [Q|(-> & [Q|(-> & [Q|(-> & [Q|(-> & [Q|(-> & Q)])])])])].
  - exact (step_lt _ _ _ _ _ _ (eq_trans Y1 (eq_sym Y1')) Y2 Y2' Y3 Y3' Q).
  - apply (step_eq _ _ _ _ _ (eq_trans Y1 (eq_sym Y1')) Y2 Y2' Y3 Y3').
    exact (step_lt _ _ _ _ _ _ (eq_trans Hm1 (eq_sym Hm1')) Hm2 Hm2' Hm3 Hm3' Q).
  - apply (step_eq _ _ _ _ _ (eq_trans Y1 (eq_sym Y1')) Y2 Y2' Y3 Y3').
    apply (step_eq _ _ _ _ _ (eq_trans Hm1 (eq_sym Hm1')) Hm2 Hm2' Hm3 Hm3').
    exact (step_lt _ _ _ _ _ _ (eq_trans Hd1 (eq_sym Hd1')) Hd2 Hd2' Hd3 Hd3' Q).
  - apply (step_eq _ _ _ _ _ (eq_trans Y1 (eq_sym Y1')) Y2 Y2' Y3 Y3').
    apply (step_eq _ _ _ _ _ (eq_trans Hm1 (eq_sym Hm1')) Hm2 Hm2' Hm3 Hm3').
    apply (step_eq _ _ _ _ _ (eq_trans Hd1 (eq_sym Hd1')) Hd2 Hd2' Hd3 Hd3'). rewrite same_head.
    exact (step_lt _ _ _ _ _ _ (eq_trans Hh1 (eq_sym Hh1')) Hh2 Hh2' Hh3 Hh3' Q).
  - apply (step_eq _ _ _ _ _ (eq_trans Y1 (eq_sym Y1')) Y2 Y2' Y3 Y3').
    apply (step_eq _ _ _ _ _ (eq_trans Hm1 (eq_sym Hm1')) Hm2 Hm2' Hm3 Hm3').
    apply (step_eq _ _ _ _ _ (eq_trans Hd1 (eq_sym Hd1')) Hd2 Hd2' Hd3 Hd3'). rewrite same_head.
    apply (step_eq _ _ _ _ _ (eq_trans Hh1 (eq_sym Hh1')) Hh2 Hh2' Hh3 Hh3').
    exact (step_lt _ _ _ _ _ _ (eq_trans Hi1 (eq_sym Hi1')) Hi2 Hi2' Hi3 Hi3' Q).
  - apply (step_eq _ _ _ _ _ (eq_trans Y1 (eq_sym Y1')) Y2 Y2' Y3 Y3').
    apply (step_eq _ _ _ _ _ (eq_trans Hm1 (eq_sym Hm1')) Hm2 Hm2' Hm3 Hm3').
    apply (step_eq _ _ _ _ _ (eq_trans Hd1 (eq_sym Hd1')) Hd2 Hd2' Hd3 Hd3'). rewrite same_head.
    apply (step_eq _ _ _ _ _ (eq_trans Hh1 (eq_sym Hh1')) Hh2 Hh2' Hh3 Hh3').
    apply (step_eq _ _ _ _ _ (eq_trans Hi1 (eq_sym Hi1')) Hi2 Hi2' Hi3 Hi3').
    exact (step_lt _ _ _ _ _ _ (eq_trans Hs1 (eq_sym Hs1')) Hs2 Hs2' Hs3 Hs3' Q).
Qed.
Lemma extended_lt sec sec' s s' y m d hh mm ss y' m' d' hh' mm' ss' : extended_text sec s -> extended_text sec' s' ->
  clock sec y m d hh mm ss -> clock sec' y' m' d' hh' mm' ss' -> 1000 <= y <= 9999 -> 1000 <= y' <= 9999 -> sec < sec' ->
  str_lt s s' = true.
Proof.
  intros (y0 & m0 & d0 & hh0 & mm0 & ss0 & ty & tm & td & th & ti & ts & K & Hy & (Hm1 & Hm2 & Hm3) & (Hd1 & Hd2 & Hd3) & (Hh1 & Hh2 & Hh3) & (Hi1 & Hi2 & Hi3) & (Hs1 & Hs2 & Hs3) & ->)
    (y0' & m0' & d0' & hh0' & mm0' & ss0' & ty' & tm' & td' & th' & ti' & ts' & K' & Hy' & (Hm1' & Hm2' & Hm3') & (Hd1' & Hd2' & Hd3') & (Hh1' & Hh2' & Hh3') & (Hi1' & Hi2' & Hi3') & (Hs1' & Hs2' & Hs3') & ->) C0 C1 B B' L.
  destruct (clock_fun _ _ _ _ _ _ _ _ _ _ _ _ _ K C0) as (-> & -> & -> & -> & -> & ->).
  destruct (clock_fun _ _ _ _ _ _ _ _ _ _ _ _ _ K' C1) as (-> & -> & -> & -> & -> & ->).
  destruct (year4 _ _ B Hy) as (Y1 & Y2 & Y3), (year4 _ _ B' Hy') as (Y1' & Y2' & Y3').
  destruct (clock_mono _ _ _ _ _ _ _ _ _ _ _ _ _ _ C0 C1 L) as [Q|(-> & [Q|(-> & [Q|(-> & [Q|(-> & [Q|(-> & Q)])])])])].
  - exact (step_lt _ _ _ _ _ _ (eq_trans Y1 (eq_sym Y1')) Y2 Y2' Y3 Y3' Q).
  - apply (step_eq _ _ _ _ _ (eq_trans Y1 (eq_sym Y1')) Y2 Y2' Y3 Y3'). rewrite same_head.
    exact (step_lt _ _ _ _ _ _ (eq_trans Hm1 (eq_sym Hm1')) Hm2 Hm2' Hm3 Hm3' Q).
  - apply (step_eq _ _ _ _ _ (eq_trans Y1 (eq_sym Y1')) Y2 Y2' Y3 Y3'). rewrite same_head.
    apply (step_eq _ _ _ _ _ (eq_trans Hm1 (eq_sym Hm1')) Hm2 Hm2' Hm3 Hm3'). rewrite same_head.
    exact (step_lt _ _ _ _ _ _ (eq_trans Hd1 (eq_sym Hd1')) Hd2 Hd2' Hd3 Hd3' Q).
  - apply (step_eq _ _ _ _ _ (eq_trans Y1 (eq_sym Y1')) Y2 Y2' Y3 Y3'). rewrite same_head.
    apply (step_eq _ _ _ _ _ (eq_trans Hm1 (eq_sym Hm1')) Hm2 Hm2' Hm3 Hm3'). rewrite same_head.
    apply (step_eq _ _ _ _ _ (eq_trans Hd1 (eq_sym Hd1')) Hd2 Hd2' Hd3 Hd3'). rewrite same_head.
    exact (step_lt _ _ _ _ _ _ (eq_trans Hh1 (eq_sym Hh1')) Hh2 Hh2' Hh3 Hh3' Q).
  - apply (step_eq _ _ _ _ _ (eq_trans Y1 (eq_sym Y1')) Y2 Y2' Y3 Y3'). rewrite same_head.
    apply (step_eq _ _ _ _ _ (eq_trans Hm1 (eq_sym Hm1')) Hm2 Hm2' Hm3 Hm3'). rewrite same_head.
    apply (step_eq _ _ _ _ _ (eq_trans Hd1 (eq_sym Hd1')) Hd2 Hd2' Hd3 Hd3'). rewrite same_head.
    apply (step_eq _ _ _ _ _ (eq_trans Hh1 (eq_sym Hh1')) Hh2 Hh2' Hh3 Hh3'). rewrite same_head.
    exact (step_lt _ _ _ _ _ _ (eq_trans Hi1 (eq_sym Hi1')) Hi2 Hi2' Hi3 Hi3' Q).
  - apply (step_eq _ _ _ _ _ (eq_trans Y1 (eq_sym Y1')) Y2 Y2' Y3 Y3'). rewrite same_head.
    apply (step_eq _ _ _ _ _ (eq_trans Hm1 (eq_sym Hm1')) Hm2 Hm2' Hm3 Hm3'). rewrite same_head.
    apply (step_eq _ _ _ _ _ (eq_trans Hd1 (eq_sym Hd1')) Hd2 Hd2' Hd3 Hd3'). rewrite same_head.
    apply (step_eq _ _ _ _ _ (eq_trans Hh1 (eq_sym Hh1')) Hh2 Hh2' Hh3 Hh3'). rewrite same_head.
    apply (step_eq _ _ _ _ _ (eq_trans Hi1 (eq_sym Hi1')) Hi2 Hi2' Hi3 Hi3'). rewrite same_head.
    rewrite <- (app_nil_r ts), <- (app_nil_r ts'). exact (step_lt _ _ _ _ _ _ (eq_trans Hs1 (eq_sym Hs1')) Hs2 Hs2' Hs3 Hs3' Q).
Qed.

(* the texts of stamps *)
Lemma utc_lt t t' s s' y m d hh mm ss y' m' d' hh' mm' ss' : canonical t -> canonical t' ->
  clock (total t / 1000000000) y m d hh mm ss -> clock (total t' / 1000000000) y' m' d' hh' mm' ss' ->
  1000 <= y <= 9999 -> 1000 <= y' <= 9999 -> formatIso8601BasicUTC t = Ok s -> formatIso8601BasicUTC t' = Ok s' ->
  total t < total t' -> str_lt s s' = true.
Proof.
  intros Cn Cn' K K' B B' E E' L.
  destruct (utc_basic _ _ _ _ _ _ _ Cn K) as (A & _). destruct (A ltac:(lia)) as (a & f & Ea & Ba & (F1 & F2 & F3)).
  destruct (utc_basic _ _ _ _ _ _ _ Cn' K') as (A' & _). destruct (A' ltac:(lia)) as (a' & f' & Ea' & Ba' & (F1' & F2' & F3')).
  rewrite Ea in E. rewrite Ea' in E'. injection E as <-. injection E' as <-.
  destruct (Z.lt_trichotomy (total t / 1000000000) (total t' / 1000000000)) as [Q|[Q|Q]].
  - exact (basic_lt _ _ _ _ _ _ _ _ _ _ _ _ _ _ _ _ _ _ Ba Ba' K K' B B' Q).
  - rewrite Q in Ba. rewrite (basic_text_fun _ _ _ Ba Ba'), !same_head. rewrite <- (app_nil_r f), <- (app_nil_r f').
    refine (step_lt _ _ _ _ _ _ (eq_trans F1 (eq_sym F1')) F2 F2' F3 F3' _).
    clear - L Q. lia.
  - exfalso. clear - L Q. lia.
Qed.
Lemma utc_sorts t t' s s' y m d hh mm ss y' m' d' hh' mm' ss' : canonical t -> canonical t' ->
  clock (total t / 1000000000) y m d hh mm ss -> clock (total t' / 1000000000) y' m' d' hh' mm' ss' ->
  1000 <= y <= 9999 -> 1000 <= y' <= 9999 -> formatIso8601BasicUTC t = Ok s -> formatIso8601BasicUTC t' = Ok s' ->
  (total t < total t' <-> str_lt s s' = true) /\ (total t = total t' <-> s = s').
Proof.
  intros Cn Cn' K K' B B' E E'.
  pose proof (utc_lt _ _ _ _ _ _ _ _ _ _ _ _ _ _ _ _ Cn Cn' K K' B B' E E') as A.
  pose proof (utc_lt _ _ _ _ _ _ _ _ _ _ _ _ _ _ _ _ Cn' Cn K' K B' B E' E) as A'.
  destruct (Z.lt_trichotomy (total t) (total t')) as [Q|[Q|Q]].
  - specialize (A Q). split; split; intros H; auto; try lia. subst s'. rewrite str_lt_irrefl in A. discriminate.
  - assert (s = s') as ->.
    { destruct (utc_basic _ _ _ _ _ _ _ Cn K) as (G & _). destruct (G ltac:(lia)) as (a & f & Ea & Ba & (F1 & F2 & F3)).
      destruct (utc_basic _ _ _ _ _ _ _ Cn' K') as (G' & _). destruct (G' ltac:(lia)) as (a' & f' & Ea' & Ba' & (F1' & F2' & F3')).
      rewrite Ea in E. rewrite Ea' in E'. injection E as <-. injection E' as <-. rewrite Q in Ba, F3.
      rewrite (basic_text_fun _ _ _ Ba Ba'), (number_inj f f' (eq_trans F1 (eq_sym F1')) F2 F2' (eq_trans F3 (eq_sym F3'))). reflexivity. }
    rewrite str_lt_irrefl. split; split; intros H; auto; try lia.
  - specialize (A' Q). split; split; intros H; try lia.
    + rewrite (str_lt_asym _ _ H) in A'. discriminate.
    + subst s'. rewrite str_lt_irrefl in A'. discriminate.
Qed.
