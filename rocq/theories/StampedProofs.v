(* Proofs for C72 *)
From Verif Require Import Base BaseLemmas Text CInt LogTextModel LogTextProofs StampedModel StampedSpec.
From Verif Require LogTextSpec CalendarSpec CalendarProofs FileLogProofs IsoProofs.
Local Open Scope Z_scope.

Section Made.
Context {D : Type}.
Implicit Types (s : stamped D) (l : list (write D)).
Lemma parts l : forall s,
  data (fold_left written l s) = last_said says_data l (data s) /\ frame (head (fold_left written l s)) = last_said says_frame l (frame (head s)) /\
  time (head (fold_left written l s)) = last_said says_time l (time (head s)) /\ seq (head (fold_left written l s)) = last_said says_seq l (seq (head s)) /\
  dsin (head (fold_left written l s)) = last_said says_dsin l (dsin (head s)).
Proof.
  induction l as [|w l IH]; intros s; cbn [fold_left last_said]; [auto|]. destruct (IH (written s w)) as (A & B & C0 & E & G). rewrite A, B, C0, E, G.
  destruct w; cbn; auto.
Qed.
End Made.

(* ---- the text of a time ---- *)
Lemma month_short m : 1 <= m <= 12 -> short_month m (month_name m).
Proof.
  intros H. assert (E : m = 1 \/ m = 2 \/ m = 3 \/ m = 4 \/ m = 5 \/ m = 6 \/ m = 7 \/ m = 8 \/ m = 9 \/ m = 10 \/ m = 11 \/ m = 12) by lia.
  unfold short_month. repeat (destruct E as [->|E]; [cbn; tauto|]). subst m. cbn. tauto.
Qed.
Lemma time_texts t : proper t -> time_text t (to_simple_string t).
Proof.
  destruct t as [| | |y m d us]; cbn [proper to_simple_string]; [constructor..|]. intros (Hy & Hm & Hd & Hu).
  apply (text_at y m d us (us / 3600000000) (us / 60000000 mod 60) (us / 1000000 mod 60) (us mod 1000000)); try lia.
  - apply dec_numeral.
  - apply month_short, Hm.
  - apply CalendarProofs.two_digits. lia.
  - apply CalendarProofs.two_digits. lia.
  - apply CalendarProofs.two_digits. lia.
  - apply CalendarProofs.two_digits. lia.
  - destruct (Z.eqb_spec (us mod 1000000) 0) as [E|E]; [left; auto|right]. split; [exact E|]. eexists. split; [reflexivity|].
    split; [apply IsoProofs.digits_length|]. split; [apply IsoProofs.digits_all; lia|]. apply IsoProofs.number_digits. lia.
Qed.

(* ---- reading back ---- *)
Lemma cut_at {A} (c : A) (a a' b b' : list A) : ~ In c a -> ~ In c a' -> a ++ c :: b = a' ++ c :: b' -> a = a' /\ b = b'.
Proof.
  revert a'. induction a as [|x a IH]; intros [|x' a'] N N' E; cbn in *.
  - injection E as E. auto.
  - injection E as E1 E2. exfalso. apply N'. left. congruence.
  - injection E as E1 E2. exfalso. apply N. left. congruence.
  - injection E as E1 E2. subst x'. destruct (IH a') as (-> & ->); auto.
Qed.
Lemma numeral_inj z z' s : LogTextSpec.numeral z s -> LogTextSpec.numeral z' s -> z = z'.
Proof.
  intros (d & E & N & A & V & _) (d' & E' & N' & A' & V' & _). rewrite E in E'.
  assert (M : forall c r, c :: r = d \/ c :: r = d' -> c <> "-"%char). { intros c r [H|H] X; subst c; [specialize (A "-"%char)|specialize (A' "-"%char)]; subst; cbn in *; [discriminate (A (or_introl eq_refl))|discriminate (A' (or_introl eq_refl))]. }
  destruct (Z.ltb_spec z 0) as [Q|Q], (Z.ltb_spec z' 0) as [Q'|Q']; cbn in E'.
  - injection E' as E'. subst d'. lia.
  - exfalso. apply (M "-"%char d); auto.
  - exfalso. apply (M "-"%char d'); auto.
  - subst d'. lia.
Qed.
Lemma numeral_not c z s : LogTextSpec.numeral z s -> is_digit c = false -> c <> "-"%char -> ~ In c s.
Proof.
  intros (d & -> & _ & A & _) Dc Nc H. apply in_app_or in H. destruct H as [H|H]; [|apply A in H; congruence].
  destruct (z <? 0); [destruct H as [H|[]]; congruence|destruct H].
Qed.
Lemma positive_not c z s : LogTextSpec.numeral z s -> 0 <= z -> is_digit c = false -> ~ In c s.
Proof.
  intros (d & -> & _ & A & _) P Dc H. apply in_app_or in H. destruct H as [H|H]; [|apply A in H; congruence].
  destruct (Z.ltb_spec z 0); [lia|destruct H].
Qed.
Lemma two_not c z s : CalendarSpec.two z s -> is_digit c = false -> ~ In c s.
Proof. intros (_ & A & _) Dc H. rewrite forallb_forall in A. apply A in H. congruence. Qed.
Lemma month_not m s : short_month m s -> ~ In ","%char s /\ ~ In ";"%char s /\ length s = 3%nat.
Proof.
  unfold short_month. cbn [In]. intros H. repeat (destruct H as [H|H]; [injection H as H1 H2; subst s; cbn; repeat split; intros K; repeat (destruct K as [K|K]; [discriminate K|]); exact K|]). destruct H.
Qed.
Lemma month_inj m m' s : short_month m s -> short_month m' s -> m = m'.
Proof.
  unfold short_month. cbn [In]. intros H H'.
  repeat (destruct H as [H|H]; [injection H as H1 H2; subst s m; repeat (destruct H' as [H'|H']; [injection H' as H3; try discriminate; congruence|]); destruct H'|]). destruct H.
Qed.
Lemma time_not t s : proper t -> time_text t s -> ~ In ","%char s.
Proof.
  intros P H. destruct H as [| | |y m d us hh mi ss ff ty tm td th ti ts tf Hh Hi Hs Hf Eu Ny Nm Nd Nh Ni Ns Tf]; [cbn; intros K; repeat (destruct K as [K|K]; [discriminate K|]); exact K..|].
  rewrite !in_app_iff. pose proof (numeral_not ","%char _ _ Ny eq_refl ltac:(discriminate)). pose proof (proj1 (month_not _ _ Nm)).
  pose proof (two_not ","%char _ _ Nd eq_refl). pose proof (two_not ","%char _ _ Nh eq_refl). pose proof (two_not ","%char _ _ Ni eq_refl). pose proof (two_not ","%char _ _ Ns eq_refl).
  assert (~ In ","%char tf).
  { destruct Tf as [(_ & ->)|(_ & f & -> & _ & A & _)]; [intros []|]. rewrite forallb_forall in A. intros [K|K]; [discriminate K|]. apply A in K. discriminate K. }
  cbn [In list_ascii_of_string]. intros K. repeat (destruct K as [K|K]; try tauto); discriminate K.
Qed.
Lemma two_inj z z' s : CalendarSpec.two z s -> CalendarSpec.two z' s -> z = z'.
Proof. intros (_ & _ & <-) (_ & _ & <-). reflexivity. Qed.
Lemma digit_first y m d us s : proper (At y m d us) -> time_text (At y m d us) s -> exists c r, s = c :: r /\ is_digit c = true.
Proof.
  intros (Hy & _) H. inversion H as [| | |? ? ? ? hh mi ss ff ty tm td th ti ts tf Hh Hi Hs Hf Eu Ny Nm Nd Nh Ni Ns Tf]; subst.
  destruct Ny as (x & -> & N & A & _). destruct (Z.ltb_spec y 0); [lia|]. destruct x as [|c r]; [congruence|]. eexists. eexists. split; [reflexivity|]. apply A. left. reflexivity.
Qed.
Lemma time_inj t t' s : proper t -> proper t' -> time_text t s -> time_text t' s -> t = t'.
Proof.
  intros P P' H H'.
  assert (Sp : forall y m d us u s, proper (At y m d us) -> time_text (At y m d us) s -> time_text u s -> match u with At _ _ _ _ => True | _ => False end).
  { intros y m d us u x Pr T U. destruct (digit_first _ _ _ _ _ Pr T) as (c & r & -> & Dc).
    destruct u; auto; inversion U as [E1 E|E1 E|E1 E|]; subst c r; discriminate Dc. }
  destruct t as [| | |y m d us].
  1-3: destruct t' as [| | |y' m' d' us']; auto; try (exfalso; apply (Sp _ _ _ _ _ _ P' H' H)); inversion H; subst; inversion H'.
  pose proof (Sp _ _ _ _ _ _ P H H') as Q. destruct t' as [| | |y' m' d' us']; try contradiction. clear Sp Q.
  inversion H as [| | |? ? ? ? hh mi ss ff ty tm td th ti ts tf Hh Hi Hs Hf Eu Ny Nm Nd Nh Ni Ns Tf]. subst y0 m0 d0 us0.
  inversion H' as [| | |? ? ? ? hh' mi' ss' ff' ty' tm' td' th' ti' ts' tf' Hh' Hi' Hs' Hf' Eu' Ny' Nm' Nd' Nh' Ni' Ns' Tf' E']. subst y0 m0 d0 us0.
  clear H H'. subst s. match goal with X : _ ++ _ = _ ++ _ |- _ => rename X into E' end. symmetry in E'. destruct P as (Py & _), P' as (Py' & _).
  cbn [app list_ascii_of_string] in E'.
  apply cut_at in E'; [|apply (positive_not _ _ _ Ny); [lia|reflexivity]|apply (positive_not _ _ _ Ny'); [lia|reflexivity]]. destruct E' as (Ey & E'). subst ty'.
  apply FileLogProofs.app_inj_l in E'; [|rewrite (proj2 (proj2 (month_not _ _ Nm))), (proj2 (proj2 (month_not _ _ Nm'))); reflexivity]. destruct E' as (Em & E'). subst tm'.
  injection E' as E'.
  assert (L : forall a b u v, CalendarSpec.two a u -> CalendarSpec.two b v -> length u = length v) by (intros a b u v (X & _) (X' & _); congruence).
  apply FileLogProofs.app_inj_l in E'; [|apply (L _ _ _ _ Nd Nd')]. destruct E' as (Ed & E'). subst td'. injection E' as E'.
  apply FileLogProofs.app_inj_l in E'; [|apply (L _ _ _ _ Nh Nh')]. destruct E' as (Eh & E'). subst th'. injection E' as E'.
  apply FileLogProofs.app_inj_l in E'; [|apply (L _ _ _ _ Ni Ni')]. destruct E' as (Ei & E'). subst ti'. injection E' as E'.
  apply FileLogProofs.app_inj_l in E'; [|apply (L _ _ _ _ Ns Ns')]. destruct E' as (Es & Ef). subst ts' tf'.
  rewrite (numeral_inj _ _ _ Ny Ny'), (month_inj _ _ _ Nm Nm'), (two_inj _ _ _ Nd Nd').
  pose proof (two_inj _ _ _ Nh Nh'). pose proof (two_inj _ _ _ Ni Ni'). pose proof (two_inj _ _ _ Ns Ns').
  assert (ff = ff').
  { destruct Tf as [(F0 & F1)|(F0 & f & F1 & F2 & F3 & F4)], Tf' as [(G0 & G1)|(G0 & g & G1 & G2 & G3 & G4)]; subst tf; try discriminate; try congruence.
    injection G1 as G1. congruence. }
  f_equal. lia.
Qed.
Lemma line_inj n t d f x n' t' d' f' x' s : proper t -> proper t' -> line_text n t d f x s -> line_text n' t' d' f' x' s ->
  n = n' /\ t = t' /\ d = d' /\ f ++ $"; " ++ x = f' ++ $"; " ++ x'.
Proof.
  intros P P' (tn & tt & td & Nn & Nt & Nd & ->) (tn' & tt' & td' & Nn' & Nt' & Nd' & E).
  assert (E1 : tn ++ ","%char :: ($" timestamp: " ++ tt ++ ","%char :: ($" DSIN: " ++ td ++ ","%char :: ($" Frame: " ++ f ++ $"; " ++ x ++ $"]"))) =
               tn' ++ ","%char :: ($" timestamp: " ++ tt' ++ ","%char :: ($" DSIN: " ++ td' ++ ","%char :: ($" Frame: " ++ f' ++ $"; " ++ x' ++ $"]")))).
  { cbn [app list_ascii_of_string] in E |- *. injection E as E. exact E. }
  clear E. apply cut_at in E1; [|apply (numeral_not _ _ _ Nn); [reflexivity|discriminate]|apply (numeral_not _ _ _ Nn'); [reflexivity|discriminate]]. destruct E1 as (-> & E1).
  apply app_inv_head in E1. apply cut_at in E1; [|apply (time_not _ _ P Nt)|apply (time_not _ _ P' Nt')]. destruct E1 as (-> & E1).
  apply app_inv_head in E1. apply cut_at in E1; [|apply (numeral_not _ _ _ Nd); [reflexivity|discriminate]|apply (numeral_not _ _ _ Nd'); [reflexivity|discriminate]]. destruct E1 as (-> & E1).
  apply app_inv_head in E1. rewrite (numeral_inj _ _ _ Nn Nn'), (time_inj _ _ _ P P' Nt Nt'), (numeral_inj _ _ _ Nd Nd').
  repeat (split; [reflexivity|]). rewrite !app_assoc in E1. apply app_inv_tail in E1. rewrite <- !app_assoc in E1. exact E1.
Qed.
Lemma frame_cut f x f' x' : ~ In ";"%char f -> ~ In ";"%char f' -> f ++ $"; " ++ x = f' ++ $"; " ++ x' -> f = f' /\ x = x'.
Proof. intros N N' E. cbn [app list_ascii_of_string] in E. apply cut_at in E; auto. destruct E as (-> & E). injection E as ->. auto. Qed.
