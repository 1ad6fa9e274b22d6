From Verif Require Import Base CInt TimeModel TimeSpec TimeProofs PeriodModel PeriodSpec.
Local Open Scope Z_scope.

Lemma p61 : 2^61 = 2305843009213693952. Proof. reflexivity. Qed.
Ltac bnds := unfold moderate, canonical, representable, total in *; rewrite ?p61, ?p63, ?in_i64_iff in *.

Lemma lt_total a b : canonical a -> canonical b -> lt a b = (total a <? total b).
Proof. intros A B. apply C10_lemma; auto. Qed.
Lemma gt_total a b : canonical a -> canonical b -> gt a b = (total b <? total a).
Proof. intros A B. apply C10_lemma; auto. Qed.
Lemma zero_canonical : canonical (T 0 0).
Proof. bnds. cbn. lia. Qed.

Lemma diff_moderate a b : canonical a -> - 2^62 < secs a < 2^62 -> moderate b ->
  exists d, stamp_diff a b = Ok d /\ canonical d /\ total d = total a - total b.
Proof.
  intros A RA (B & RB). apply stamp_diff_ok; auto; change (2^62) with 4611686018427387904 in *; bnds; lia.
Qed.
Lemma add_moderate a b : moderate a -> moderate b ->
  exists d, add a b = Ok d /\ canonical d /\ total d = total a + total b /\ - 2^62 < secs d < 2^62.
Proof.
  intros (A & RA) (B & RB). destruct (add_ok a b A B) as (d & E & C & Tt); try (bnds; lia).
  exists d. repeat split; auto; change (2^62) with 4611686018427387904; bnds; lia.
Qed.

Lemma relative_ok now t : moderate now -> moderate t ->
  exists d, getRelativeTimeout now t = Ok d /\ canonical d /\ total d = Z.max 0 (total t - total now).
Proof.
  intros N M. unfold getRelativeTimeout. rewrite lt_total; [|apply M|apply N].
  destruct (Z.ltb_spec (total t) (total now)).
  - exists (T 0 0). split; auto. split; [apply zero_canonical|]. cbn. lia.
  - destruct (diff_moderate t now) as (d & E & C & Td); auto; [apply M|change (2^62) with 4611686018427387904; bnds; lia|].
    exists d. rewrite Td. repeat split; auto; try apply C. lia.
Qed.
Lemma absolute_ok now d : moderate now -> moderate d ->
  exists t, getAbsoluteTimeout now d = Ok t /\ canonical t /\
    total t = if total d <? 0 then total now + 365 * 86400 * 1000000000 else total now + total d.
Proof.
  intros N M. unfold getAbsoluteTimeout. rewrite lt_total; [|apply M|apply zero_canonical].
  change (total (T 0 0)) with 0. destruct (Z.ltb_spec (total d) 0).
  - change (make_span (365 * 86400) 0) with (Ok (T 31536000 0)). cbn [bind].
    destruct (add_moderate now (T 31536000 0)) as (t & E & C & Tt & _); auto.
    { split; [|rewrite p61; cbn; lia]. bnds; cbn; lia. }
    exists t. rewrite Tt. auto.
  - destruct (add_moderate now d) as (t & E & C & Tt & _); auto. exists t. auto.
Qed.
Lemma roundtrip now d t : moderate now -> moderate d -> 0 <= total d -> getAbsoluteTimeout now d = Ok t -> moderate t ->
  getRelativeTimeout now t = Ok d.
Proof.
  intros N M P E Mt. destruct (absolute_ok now d N M) as (t' & E' & C' & T'). rewrite E in E'. injection E' as <-.
  destruct (relative_ok now t N Mt) as (d' & E' & C2 & T2). rewrite E'. f_equal.
  destruct M. apply canonical_unique; auto. rewrite T2, T'. destruct (Z.ltb_spec (total d) 0); lia.
Qed.

Lemma sleep_loop_sound clock next fuel : moderate_clock clock -> canonical next -> - 2^62 < secs next < 2^62 ->
  forall i rem slept r, canonical rem -> total rem = total next - total (clock (i - 1)%nat) -> (1 <= i)%nat ->
  sleep_loop fuel clock i next rem slept = Some r ->
  exists i' more, r = Ok (i', slept ++ more) /\ (i <= i')%nat /\ total next <= total (clock (i' - 1)%nat) /\
    (monotone clock -> Forall (fun x => 0 < total x <= total rem) more).
Proof.
  intros MC CN RN. induction fuel as [|f IH]; intros i rem slept r CR TR Pi E; cbn in E;
    rewrite gt_total in E by (auto; apply zero_canonical); change (total (T 0 0)) with 0 in E;
    destruct (Z.ltb_spec 0 (total rem)) as [L|L]; try discriminate E.
  - injection E as <-. exists i, []. rewrite app_nil_r. repeat split; auto. lia.
  - destruct (diff_moderate next (clock i) CN RN (MC i)) as (d & Ed & Cd & Td). rewrite Ed in E.
    apply IH in E; auto; [|replace (S i - 1)%nat with i by lia; auto].
    destruct E as (i' & more & -> & Li & Tn & Fm). exists i', (rem :: more). rewrite <- app_assoc. repeat split; auto; [lia|].
    intros Mo. constructor; [lia|]. eapply Forall_impl; [|apply Fm; auto]. cbn. intros a.
    specialize (Mo (i - 1)%nat i ltac:(lia)). lia.
  - injection E as <-. exists i, []. rewrite app_nil_r. repeat split; auto. lia.
Qed.

Lemma wait_sound fuel clock i last period r : moderate_clock clock -> moderate last -> moderate period -> 0 <= total period ->
  waitPeriod fuel clock i last period = Some r ->
  exists last' i' slept, r = Ok (last', i', slept) /\ (i < i')%nat /\ last' = clock (i' - 1)%nat /\
    (monotone clock -> target (total (clock i)) (total last) (total period) <= total last' /\
       Forall (fun x => 0 < total x <= total period) slept).
Proof.
  intros MC ML MP PP E. unfold waitPeriod in E.
  destruct (add_moderate last period ML MP) as (next & En & Cn & Tn & Rn). rewrite En in E. cbn [bind] in E.
  destruct (diff_moderate next (clock i) Cn Rn (MC i)) as (d & Ed & Cd & Td). rewrite Ed in E. cbn [bind] in E.
  rewrite gt_total in E by (auto; apply MP).
  destruct (Z.ltb_spec (total period) (total d)) as [L|L].
  - destruct (add_moderate (clock i) period (MC i) MP) as (n2 & En2 & Cn2 & Tn2 & Rn2). rewrite En2 in E. cbn [bind] in E.
    destruct (sleep_loop fuel clock (S i) n2 period []) as [r0|] eqn:Es; [|discriminate].
    destruct (sleep_loop_sound clock n2 fuel MC Cn2 Rn2 (S i) period [] r0) as (i' & more & -> & Li & Tl & Fm); auto; [apply MP| |lia|].
    { cbn. rewrite Nat.sub_0_r. lia. }
    injection E as <-. exists (clock i'), (S i'), more. split; [reflexivity|]. split; [lia|]. split; [f_equal; lia|].
    intros Mo. specialize (Mo (i' - 1)%nat i' ltac:(lia)) as Mo1. split; [|apply Fm; auto].
    unfold target. destruct (Z.leb_spec (total last) (total (clock i))); lia.
  - destruct (sleep_loop fuel clock (S i) next d []) as [r0|] eqn:Es; [|discriminate].
    destruct (sleep_loop_sound clock next fuel MC Cn Rn (S i) d [] r0) as (i' & more & -> & Li & Tl & Fm); auto; [|lia|].
    { cbn. rewrite Nat.sub_0_r. lia. }
    injection E as <-. exists (clock i'), (S i'), more. split; [reflexivity|]. split; [lia|]. split; [f_equal; lia|].
    intros Mo. specialize (Mo (i' - 1)%nat i' ltac:(lia)) as Mo1. split.
    + unfold target. destruct (Z.leb_spec (total last) (total (clock i))); lia.
    + eapply Forall_impl; [|apply Fm; auto]. cbn. lia.
Qed.

(* it ends when the clock has passed the target *)
Lemma sleep_loop_ends clock next k : moderate_clock clock -> canonical next -> - 2^62 < secs next < 2^62 ->
  (forall j, (k <= j)%nat -> total next <= total (clock j)) ->
  forall n i rem slept, (k <= i + n)%nat -> exists r, sleep_loop (S n) clock i next rem slept = Some (Ok r).
Proof.
  intros MC CN RN H. induction n as [|n IH]; intros i rem slept Hk.
  - cbn. destruct (gt rem (T 0 0)); [|eauto].
    destruct (diff_moderate next (clock i) CN RN (MC i)) as (d & Ed & Cd & Td). rewrite Ed.
    rewrite gt_total by (auto; apply zero_canonical). change (total (T 0 0)) with 0.
    specialize (H i ltac:(lia)). destruct (Z.ltb_spec 0 (total d)); [lia|eauto].
  - cbn [sleep_loop]. destruct (gt rem (T 0 0)); [|eauto].
    destruct (diff_moderate next (clock i) CN RN (MC i)) as (d & Ed & Cd & Td). rewrite Ed.
    apply IH. lia.
Qed.
Lemma wait_ends clock i last period k : moderate_clock clock -> moderate last -> moderate period -> 0 <= total period ->
  (forall j, (k <= j)%nat -> target (total (clock i)) (total last) (total period) <= total (clock j)) ->
  exists fuel r, waitPeriod fuel clock i last period = Some (Ok r).
Proof.
  intros MC ML MP PP H. exists (S k). unfold waitPeriod.
  destruct (add_moderate last period ML MP) as (next & En & Cn & Tn & Rn). rewrite En. cbn [bind].
  destruct (diff_moderate next (clock i) Cn Rn (MC i)) as (d & Ed & Cd & Td). rewrite Ed. cbn [bind].
  rewrite gt_total by (auto; apply MP). unfold target in H.
  destruct (Z.ltb_spec (total period) (total d)) as [L|L].
  - destruct (add_moderate (clock i) period (MC i) MP) as (n2 & En2 & Cn2 & Tn2 & Rn2). rewrite En2. cbn [bind].
    destruct (sleep_loop_ends clock n2 k MC Cn2 Rn2) with (n := k) (i := S i) (rem := period) (slept := @nil time) as ([i' sl] & E).
    { intros j Hj. specialize (H j Hj). destruct (Z.leb_spec (total last) (total (clock i))); lia. }
    { lia. }
    rewrite E. eauto.
  - destruct (sleep_loop_ends clock next k MC Cn Rn) with (n := k) (i := S i) (rem := d) (slept := @nil time) as ([i' sl] & E).
    { intros j Hj. specialize (H j Hj). destruct (Z.leb_spec (total last) (total (clock i))); lia. }
    { lia. }
    rewrite E. eauto.
Qed.

Lemma periods_spaced clock period fuel : moderate_clock clock -> monotone clock -> moderate period -> 0 <= total period ->
  forall n i last r, moderate last -> total last <= total (clock i) ->
  periods n fuel clock i last period = Some r -> exists l, r = Ok l /\ length l = n /\ spaced (total period) (total last) l.
Proof.
  intros MC Mo MP PP. induction n as [|n IH]; intros i last r ML Hl E; cbn in E.
  - injection E as <-. exists []. cbn. auto.
  - destruct (waitPeriod fuel clock i last period) as [r0|] eqn:Ew; [|discriminate].
    apply wait_sound in Ew; auto. destruct Ew as (last' & i' & sl & -> & Li & -> & Hw). destruct (Hw Mo) as (Ht & _).
    unfold target in Ht. destruct (Z.leb_spec (total last) (total (clock i))); [|lia].
    destruct (periods n fuel clock i' (clock (i' - 1)%nat) period) as [r1|] eqn:Ep; [|discriminate].
    apply IH in Ep; auto; [|apply Mo; lia]. destruct Ep as (l & -> & Ll & Sl). injection E as <-.
    exists (clock (i' - 1)%nat :: l). cbn. auto.
Qed.

Definition ex_clock (i : nat) : time := T (Z.min (Z.of_nat i) 1000) 0.
Lemma ex_clock_ok : moderate_clock ex_clock /\ monotone ex_clock.
Proof.
  split.
  - intros i. unfold ex_clock. bnds; cbn. lia.
  - intros i j L. unfold ex_clock, total. cbn. lia.
Qed.
