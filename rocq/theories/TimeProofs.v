From Verif Require Import Base BaseLemmas CInt TimeModel TimeSpec.
Local Open Scope Z_scope.
Ltac Zify.zify_post_hook ::= Z.to_euclidean_division_equations.

Lemma p63 : 2^63 = 9223372036854775808. Proof. reflexivity. Qed.
Lemma p64 : 2^64 = 18446744073709551616. Proof. reflexivity. Qed.
Lemma p31 : 2^31 = 2147483648. Proof. reflexivity. Qed.
Lemma p32 : 2^32 = 4294967296. Proof. reflexivity. Qed.
Ltac pw := rewrite ?p63, ?p64, ?p31, ?p32 in *.

Lemma chk64_Ok z : in_i64 z = true -> chk64 z = Ok z.
Proof. unfold chk64; intros ->; auto. Qed.
Lemma chk32_Ok z : in_i32 z = true -> chk32 z = Ok z.
Proof. unfold chk32; intros ->; auto. Qed.
Lemma in_i64_iff z : in_i64 z = true <-> -9223372036854775808 <= z < 9223372036854775808.
Proof. unfold in_i64; pw. lia. Qed.
Lemma in_i32_iff z : in_i32 z = true <-> -2147483648 <= z < 2147483648.
Proof. unfold in_i32; pw. lia. Qed.
Lemma in_i64_false z : in_i64 z = false <-> (z < -9223372036854775808 \/ 9223372036854775808 <= z).
Proof. unfold in_i64; pw. lia. Qed.

Ltac rng := rewrite ?in_i64_iff, ?in_i32_iff in *; pw.

Lemma to_i64_id z : in_i64 z = true -> to_i64 z = z.
Proof. rng. intros H. unfold to_i64; pw. rewrite Z.mod_small by lia. lia. Qed.
Lemma to_i32_id z : in_i32 z = true -> to_i32 z = z.
Proof. rng. intros H. unfold to_i32; pw. rewrite Z.mod_small by lia. lia. Qed.

(* characterisation of one pass *)
Lemma norm_body_None s n : norm_body s n = None <->
  Z.abs n < 1000000000 /\ (0 < s -> 0 <= n) /\ (s < 0 -> n <= 0).
Proof.
  unfold norm_body.
  destruct ((0 <=? s) && (1000000000 <=? n)) eqn:E1; [split; [discriminate|lia]|].
  destruct ((s <=? 0) && (n <=? -1000000000)) eqn:E2; [split; [discriminate|lia]|].
  destruct ((0 <? s) && (n <? 0)) eqn:E3; [split; [discriminate|lia]|].
  destruct ((s <? 0) && (0 <? n)) eqn:E4; [split; [discriminate|lia]|].
  split; [|auto]. intros _. lia.
Qed.

(* what the loop does, as a relation on pairs *)
Lemma norm_body_Some s n : in_i64 s = true -> in_i32 n = true ->
  ~ (Z.abs n < 1000000000 /\ (0 < s -> 0 <= n) /\ (s < 0 -> n <= 0)) ->
  exists d, (d = 1 \/ d = -1) /\
    norm_body s n = Some (if in_i64 (s + d) then Ok (s + d, n - d * 1000000000) else UB) /\
    in_i32 (n - d * 1000000000) = true /\
    (d = 1 -> 0 < n /\ (s < 0 \/ 1000000000 <= n)) /\ (d = -1 -> n < 0 /\ (0 < s \/ n <= -1000000000)).
Proof.
  intros Hs Hn HC. unfold norm_body, chk32, chk64.
  destruct ((0 <=? s) && (1000000000 <=? n)) eqn:E1;
  [|destruct ((s <=? 0) && (n <=? -1000000000)) eqn:E2;
  [|destruct ((0 <? s) && (n <? 0)) eqn:E3;
  [|destruct ((s <? 0) && (0 <? n)) eqn:E4; [|exfalso; lia]]]].
  1,4: exists 1; replace (n + -1000000000) with (n - 1 * 1000000000) by lia.
  3,4: exists (-1); replace (n + 1000000000) with (n - -1 * 1000000000) by lia.
  all: (assert (HI : in_i32 (n - 1 * 1000000000) = true \/ True) by auto);
  match goal with |- context [in_i32 ?z] => assert (Hz : in_i32 z = true) by (rng; lia) end;
  rewrite Hz; cbn [bind]; (split; [lia|]); (split; [|split; [auto|lia]]);
  match goal with |- context [in_i64 ?z] => destruct (in_i64 z) end; reflexivity.
Qed.

Lemma norm_loop_ok k : forall s n, in_i64 s = true -> in_i32 n = true ->
  representable (s * 1000000000 + n) ->
  (Z.abs n < Z.of_nat k * 1000000000 + (if (0 <? s) && (n <? 0) || (s <? 0) && (0 <? n) then 0 else 1000000000)) ->
  exists t, norm_loop k s n = Some (Ok t) /\ canonical t /\ total t = s * 1000000000 + n.
Proof.
  unfold representable. induction k as [|k IH]; intros s n Hs Hn HR Hk.
  - assert (HC : Z.abs n < 1000000000 /\ (0 < s -> 0 <= n) /\ (s < 0 -> n <= 0)).
    { destruct (_ || _) eqn:E in Hk; lia. }
    cbn [norm_loop]. rewrite (proj2 (norm_body_None s n) HC). exists (T s n). unfold canonical, total; cbn; tauto.
  - cbn [norm_loop]. destruct (norm_body s n) as [r|] eqn:E.
    + assert (HC : ~ (Z.abs n < 1000000000 /\ (0 < s -> 0 <= n) /\ (s < 0 -> n <= 0))).
      { intros HC. apply norm_body_None in HC. congruence. }
      destruct (norm_body_Some s n Hs Hn HC) as (d & Hd & EB & Hn' & Hp & Hm).
      rewrite EB in E. injection E as <-.
      assert (Hs' : in_i64 (s + d) = true). { clear HC EB Hk IH. pw; rng. destruct Hd as [-> | ->]; [specialize (Hp eq_refl)|specialize (Hm eq_refl)]; lia. }
      rewrite Hs'. destruct (IH (s + d) (n - d * 1000000000) Hs' Hn') as (t & Et & Ct & Tt).
      * pw. lia.
      * clear IH HR EB. revert Hk. destruct Hd as [-> | ->]; [specialize (Hp eq_refl)|specialize (Hm eq_refl)];
        repeat match goal with |- context [if ?b then 0 else 1000000000] => destruct b eqn:? end; lia.
      * exists t. split; auto. split; auto. lia.
    + apply norm_body_None in E. exists (T s n). unfold canonical, total; cbn; tauto.
Qed.

Lemma normalize_ok s n : in_i64 s = true -> in_i32 n = true -> representable (s * 1000000000 + n) ->
  exists t, normalize s n = Ok t /\ canonical t /\ total t = s * 1000000000 + n.
Proof.
  intros Hs Hn HR. destruct (norm_loop_ok 3 s n Hs Hn HR) as (t & E & H).
  { destruct (_ || _); rng; lia. }
  exists t. unfold normalize. rewrite E. auto.
Qed.

Lemma normalize_UB s n : in_i64 s = true -> in_i32 n = true -> ~ representable (s * 1000000000 + n) -> normalize s n = UB.
Proof.
  unfold representable. intros Hs Hn HR.
  assert (HC : ~ (Z.abs n < 1000000000 /\ (0 < s -> 0 <= n) /\ (s < 0 -> n <= 0))).
  { pw. rng. lia. }
  destruct (norm_body_Some s n Hs Hn HC) as (d & Hd & EB & Hn' & Hp & Hm).
  unfold normalize. cbn [norm_loop]. rewrite EB.
  destruct (in_i64 (s + d)) eqn:Hs'; [|reflexivity].
  assert (HC' : ~ (Z.abs (n - d * 1000000000) < 1000000000 /\ (0 < s + d -> 0 <= n - d * 1000000000) /\ (s + d < 0 -> n - d * 1000000000 <= 0))).
  { pw. rng. lia. }
  destruct (norm_body_Some _ _ Hs' Hn' HC') as (d' & Hd' & EB' & Hn'' & Hp' & Hm').
  rewrite EB'. destruct (in_i64 (s + d + d')) eqn:Hs''; [|reflexivity].
  exfalso. rng. lia.
Qed.

Lemma canonical_unique a b : canonical a -> canonical b -> total a = total b -> a = b.
Proof.
  destruct a as [s n], b as [s' n']. unfold canonical, total; cbn. intros (_ & H1 & H2 & H3) (_ & H1' & H2' & H3') E.
  assert (s = s') by lia. subst. f_equal; lia.
Qed.

Lemma canonical_repr t : canonical t -> representable (total t).
Proof. destruct t as [s n]. unfold canonical, representable, total; cbn. rng. lia. Qed.

Lemma canonical_i32 t : canonical t -> in_i32 (nsecs t) = true.
Proof. unfold canonical. rng. lia. Qed.

Lemma normalize_id t : canonical t -> normalize (secs t) (nsecs t) = Ok t.
Proof.
  intros H. pose proof H as (_ & H'). unfold normalize. cbn [norm_loop].
  rewrite (proj2 (norm_body_None _ _) H'). destruct t; auto.
Qed.

Lemma normalize_Ok_inv s n t : in_i64 s = true -> in_i32 n = true -> normalize s n = Ok t ->
  canonical t /\ total t = s * 1000000000 + n.
Proof.
  intros Hs Hn E. assert (HD : representable (s * 1000000000 + n) \/ ~ representable (s * 1000000000 + n)).
  { unfold representable. lia. }
  destruct HD as [HR|HR].
  - destruct (normalize_ok s n Hs Hn HR) as (t' & E' & H). rewrite E' in E. injection E as <-. auto.
  - rewrite (normalize_UB s n Hs Hn HR) in E. discriminate.
Qed.

Lemma C08_lemma s n : in_i64 s = true -> in_i32 n = true ->
  (representable (s * 1000000000 + n) ->
     exists t, norm_loop 3 s n = Some (Ok t) /\ make_span s n = Ok t /\ canonical t /\ total t = s * 1000000000 + n) /\
  (~ representable (s * 1000000000 + n) -> make_span s n = UB).
Proof.
  intros Hs Hn. split.
  - intros HR. destruct (norm_loop_ok 3 s n Hs Hn HR) as (t & E & H).
    { destruct (_ || _); rng; lia. }
    exists t. split; auto. split; auto. unfold make_span, normalize. rewrite E. auto.
  - apply normalize_UB; auto.
Qed.

Lemma add_ok a b : canonical a -> canonical b -> in_i64 (secs a + secs b) = true ->
  representable (total a + total b) -> exists t, add a b = Ok t /\ canonical t /\ total t = total a + total b.
Proof.
  intros Ha Hb Hs HR. unfold add. rewrite chk64_Ok by auto. cbn [bind].
  rewrite chk32_Ok. 2:{ destruct Ha as (_ & ? & _), Hb as (_ & ? & _). rng. lia. } cbn [bind].
  destruct (normalize_ok (secs a + secs b) (nsecs a + nsecs b)) as (t & E & C & HT); auto.
  { destruct Ha as (_ & ? & _), Hb as (_ & ? & _). rng. lia. }
  { revert HR. unfold total. replace ((secs a + secs b) * 1000000000 + (nsecs a + nsecs b)) with (secs a * 1000000000 + nsecs a + (secs b * 1000000000 + nsecs b)) by lia. auto. }
  exists t. split; auto. split; auto. rewrite HT. unfold total. lia.
Qed.

Lemma sub_ok a b : canonical a -> canonical b -> in_i64 (secs a - secs b) = true ->
  representable (total a - total b) -> exists t, sub a b = Ok t /\ canonical t /\ total t = total a - total b.
Proof.
  intros Ha Hb Hs HR. unfold sub. rewrite chk64_Ok by auto. cbn [bind].
  rewrite chk32_Ok. 2:{ destruct Ha as (_ & ? & _), Hb as (_ & ? & _). rng. lia. } cbn [bind].
  destruct (normalize_ok (secs a - secs b) (nsecs a - nsecs b)) as (t & E & C & HT); auto.
  { destruct Ha as (_ & ? & _), Hb as (_ & ? & _). rng. lia. }
  { revert HR. unfold total. replace ((secs a - secs b) * 1000000000 + (nsecs a - nsecs b)) with (secs a * 1000000000 + nsecs a - (secs b * 1000000000 + nsecs b)) by lia. auto. }
  exists t. split; auto. split; auto. rewrite HT. unfold total. lia.
Qed.

Lemma wrap64_sub a b : in_i64 (a - b) = true -> to_i64 (to_u64 (to_u64 a - to_u64 b)) = a - b.
Proof.
  intros H. unfold to_u64. rewrite <- Zminus_mod. rng.
  unfold to_i64; pw. rewrite Zplus_mod_idemp_l. rewrite Z.mod_small by lia. lia.
Qed.
Lemma wrap32_sub a b : in_i32 (a - b) = true -> to_i32 (to_u32 (to_u32 a - to_u32 b)) = a - b.
Proof.
  intros H. unfold to_u32. rewrite <- Zminus_mod. rng.
  unfold to_i32; pw. rewrite Zplus_mod_idemp_l. rewrite Z.mod_small by lia. lia.
Qed.

Lemma stamp_diff_sub a b : canonical a -> canonical b -> in_i64 (secs a - secs b) = true ->
  stamp_diff a b = sub a b.
Proof.
  intros Ha Hb Hs. unfold stamp_diff, sub, make_span.
  assert (Hn : in_i32 (nsecs a - nsecs b) = true) by (destruct Ha as (_ & ? & _), Hb as (_ & ? & _); rng; lia).
  rewrite wrap64_sub, wrap32_sub by auto. rewrite chk64_Ok, chk32_Ok by auto. reflexivity.
Qed.

Lemma stamp_diff_ok a b : canonical a -> canonical b -> in_i64 (secs a - secs b) = true ->
  representable (total a - total b) -> exists t, stamp_diff a b = Ok t /\ canonical t /\ total t = total a - total b.
Proof. intros Ha Hb Hs HR. rewrite stamp_diff_sub by auto. apply sub_ok; auto. Qed.

Lemma add_inv a b t : canonical a -> canonical b -> add a b = Ok t -> canonical t /\ total t = total a + total b.
Proof.
  intros Ha Hb E. unfold add in E. destruct (in_i64 (secs a + secs b)) eqn:Hs.
  2:{ unfold chk64 in E. rewrite Hs in E. discriminate. }
  rewrite chk64_Ok in E by auto. cbn [bind] in E.
  assert (Hn : in_i32 (nsecs a + nsecs b) = true) by (destruct Ha as (_ & ? & _), Hb as (_ & ? & _); rng; lia).
  rewrite chk32_Ok in E by auto. cbn [bind] in E.
  destruct (normalize_Ok_inv _ _ _ Hs Hn E) as [C HT]. split; auto. rewrite HT. unfold total. lia.
Qed.
Lemma sub_inv a b t : canonical a -> canonical b -> sub a b = Ok t -> canonical t /\ total t = total a - total b.
Proof.
  intros Ha Hb E. unfold sub in E. destruct (in_i64 (secs a - secs b)) eqn:Hs.
  2:{ unfold chk64 in E. rewrite Hs in E. discriminate. }
  rewrite chk64_Ok in E by auto. cbn [bind] in E.
  assert (Hn : in_i32 (nsecs a - nsecs b) = true) by (destruct Ha as (_ & ? & _), Hb as (_ & ? & _); rng; lia).
  rewrite chk32_Ok in E by auto. cbn [bind] in E.
  destruct (normalize_Ok_inv _ _ _ Hs Hn E) as [C HT]. split; auto. rewrite HT. unfold total. lia.
Qed.

Lemma add_sub_cancel t d u : canonical t -> canonical d -> - 2^63 < secs d -> add t d = Ok u -> sub u d = Ok t.
Proof.
  intros Ht Hd Hmin E. destruct (add_inv _ _ _ Ht Hd E) as [Cu Tu].
  destruct (sub_ok u d Cu Hd) as (v & Ev & Cv & Tv).
  - destruct u as [us un], d as [ds dn], t as [s n]; unfold canonical, total in *; cbn in *; rng. lia.
  - rewrite Tu. replace (total t + total d - total d) with (total t) by lia. apply canonical_repr; auto.
  - rewrite Ev. f_equal. apply canonical_unique; auto. lia.
Qed.

Lemma add_diff_cancel t1 t2 d : canonical t1 -> canonical t2 -> in_i64 (secs t1 - secs t2) = true ->
  stamp_diff t1 t2 = Ok d -> add t2 d = Ok t1.
Proof.
  intros H1 H2 Hs E. rewrite stamp_diff_sub in E by auto. destruct (sub_inv _ _ _ H1 H2 E) as [Cd Td].
  destruct (add_ok t2 d H2 Cd) as (v & Ev & Cv & Tv).
  - destruct t1 as [s1 n1], t2 as [s2 n2], d as [ds dn]; unfold canonical, total in *; cbn in *; rng. lia.
  - rewrite Td. replace (total t2 + (total t1 - total t2)) with (total t1) by lia. apply canonical_repr; auto.
  - rewrite Ev. f_equal. apply canonical_unique; auto. lia.
Qed.

Lemma add_comm a b : add a b = add b a.
Proof. unfold add. rewrite (Z.add_comm (secs a)), (Z.add_comm (nsecs a)). reflexivity. Qed.

Lemma add_assoc a b c ab bc x y : canonical a -> canonical b -> canonical c ->
  add a b = Ok ab -> add ab c = Ok x -> add b c = Ok bc -> add a bc = Ok y -> x = y.
Proof.
  intros Ha Hb Hc E1 E2 E3 E4.
  destruct (add_inv _ _ _ Ha Hb E1) as [C1 T1]. destruct (add_inv _ _ _ C1 Hc E2) as [C2 T2].
  destruct (add_inv _ _ _ Hb Hc E3) as [C3 T3]. destruct (add_inv _ _ _ Ha C3 E4) as [C4 T4].
  apply canonical_unique; auto. lia.
Qed.

Lemma C09_lemma a b : canonical a -> canonical b ->
  (in_i64 (secs a + secs b) = true -> representable (total a + total b) ->
     exists t, add a b = Ok t /\ canonical t /\ total t = total a + total b) /\
  (in_i64 (secs a - secs b) = true -> representable (total a - total b) ->
     (exists t, sub a b = Ok t /\ canonical t /\ total t = total a - total b) /\
     stamp_diff a b = sub a b).
Proof.
  intros Ha Hb. split; intros.
  - apply add_ok; auto.
  - split; [apply sub_ok; auto|apply stamp_diff_sub; auto].
Qed.

Lemma C09_laws a b c :
  canonical a -> canonical b -> canonical c ->
  add a b = add b a /\
  (forall ab bc x y, add a b = Ok ab -> add ab c = Ok x -> add b c = Ok bc -> add a bc = Ok y -> x = y) /\
  (forall u, - 2^63 < secs b -> add a b = Ok u -> sub u b = Ok a) /\
  (forall d, in_i64 (secs a - secs b) = true -> stamp_diff a b = Ok d -> add b d = Ok a) /\
  (forall r, abs_span a = Ok r -> total r = Z.abs (total a)).
Proof.
  intros Ha Hb Hc. split; [apply add_comm|]. split; [intros; eapply add_assoc with (a:=a) (b:=b) (c:=c); eauto|].
  split; [intros; eapply add_sub_cancel; eauto|]. split; [intros; eapply add_diff_cancel; eauto|].
  intros r E. unfold abs_span in E. destruct (lt a (T 0 0)) eqn:L.
  - assert (C0 : canonical (T 0 0)) by (unfold canonical; cbn; rng; lia).
    destruct (sub_inv _ _ _ C0 Ha E) as [_ ->]. unfold lt in L. unfold canonical, total in *; cbn [secs nsecs] in *.
    destruct (Z.eqb_spec (secs a) 0); lia.
  - injection E as <-. unfold lt in L. unfold canonical, total in *; cbn [secs nsecs] in *.
    destruct (Z.eqb_spec (secs a) 0); lia.
Qed.

Lemma C10_lemma a b : canonical a -> canonical b ->
  lt a b = (total a <? total b) /\ gt a b = (total b <? total a) /\
  le a b = (total a <=? total b) /\ ge a b = (total b <=? total a) /\
  eq a b = (total a =? total b) /\ ne a b = negb (total a =? total b).
Proof.
  intros (_ & Ha) (_ & Hb). unfold lt, gt, le, ge, eq, ne, total.
  destruct a as [s n], b as [s' n']; cbn [secs nsecs] in *.
  destruct (Z.eqb_spec s s'); subst; repeat split; lia.
Qed.

Lemma quot_rem_i64 m k : in_i64 m = true -> 1 < k -> in_i64 (Z.quot m k) = true.
Proof.
  intros H Hk. rng.
  pose proof (Z.quot_rem' m k). assert (Z.abs (Z.rem m k) < k) by (pose proof (Z.rem_bound_abs m k ltac:(lia)); lia).
  assert (0 <= m -> 0 <= Z.quot m k <= m).
  { intros. split; [apply Z.quot_pos; lia|]. rewrite Z.quot_div_nonneg by lia. apply Z.div_le_upper_bound; nia. }
  assert (m <= 0 -> m <= Z.quot m k <= 0).
  { intros. replace m with (- (- m)) by lia. rewrite Z.quot_opp_l by lia.
    assert (0 <= Z.quot (- m) k <= - m).
    { split; [apply Z.quot_pos; lia|]. rewrite Z.quot_div_nonneg by lia. apply Z.div_le_upper_bound; nia. }
    lia. }
  lia.
Qed.

Lemma from_unit m k q : (k = 1000 /\ q = 1000000 \/ k = 1000000 /\ q = 1000) -> in_i64 m = true ->
  exists t, normalize (Z.quot m k) (to_i32 (Z.rem m k * q)) = Ok t /\ canonical t /\ total t = m * q.
Proof.
  intros Hkq Hm. assert (in_i64 (Z.quot m k) = true) by (apply quot_rem_i64; auto; lia).
  assert (Hr : in_i32 (Z.rem m k * q) = true) by (destruct Hkq as [[-> ->]|[-> ->]]; rng; lia).
  rewrite to_i32_id by auto.
  assert (Et : Z.quot m k * 1000000000 + Z.rem m k * q = m * q).
  { destruct Hkq as [[-> ->]|[-> ->]]; lia. }
  destruct (normalize_ok (Z.quot m k) (Z.rem m k * q)) as (t & E & C & HT); auto.
  - rewrite Et. unfold representable. destruct Hkq as [[-> ->]|[-> ->]]; rng; lia.
  - exists t. split; auto. split; auto. lia.
Qed.

Lemma C11_lemma :
  (forall m, in_i64 m = true ->
     (exists t, from_sec m = Ok t /\ canonical t /\ total t = m * 1000000000) /\
     (exists t, from_msec m = Ok t /\ canonical t /\ total t = m * 1000000 /\ to_msec t = Ok m) /\
     (exists t, from_usec m = Ok t /\ canonical t /\ total t = m * 1000 /\ to_usec t = Ok m)) /\
  (forall t, canonical t ->
     (in_i64 (secs t * 1000) = true -> in_i64 (Z.quot (total t) 1000000) = true -> to_msec t = Ok (Z.quot (total t) 1000000)) /\
     (in_i64 (secs t * 1000000) = true -> in_i64 (Z.quot (total t) 1000) = true -> to_usec t = Ok (Z.quot (total t) 1000)) /\
     (in_i64 (secs t * 1000000000) = true -> in_i64 (total t) = true -> to_nsec t = Ok (total t))).
Proof.
  assert (HM : forall t, canonical t ->
     (in_i64 (secs t * 1000) = true -> in_i64 (Z.quot (total t) 1000000) = true -> to_msec t = Ok (Z.quot (total t) 1000000)) /\
     (in_i64 (secs t * 1000000) = true -> in_i64 (Z.quot (total t) 1000) = true -> to_usec t = Ok (Z.quot (total t) 1000)) /\
     (in_i64 (secs t * 1000000000) = true -> in_i64 (total t) = true -> to_nsec t = Ok (total t))).
  { intros [s n] (Hs & Hn & Hp & Hm). unfold total, to_msec, to_usec, to_nsec; cbn [secs nsecs] in *.
    assert (E1 : Z.quot (s * 1000000000 + n) 1000000 = s * 1000 + Z.quot n 1000000) by lia.
    assert (E2 : Z.quot (s * 1000000000 + n) 1000 = s * 1000000 + Z.quot n 1000) by lia.
    split; [|split]; intros H1 H2.
    - rewrite chk64_Ok by auto. cbn [bind]. rewrite E1 in *. apply chk64_Ok; auto.
    - rewrite chk64_Ok by auto. cbn [bind]. rewrite E2 in *. apply chk64_Ok; auto.
    - rewrite (Z.mul_comm 1000000000). rewrite chk64_Ok by auto. cbn [bind]. apply chk64_Ok; auto. }
  split; [|exact HM].
  intros m Hm. split; [|split].
  - unfold from_sec. destruct (normalize_ok m 0) as (t & E & C & HT); auto.
    { unfold representable. rng. lia. } exists t. split; auto. split; auto. lia.
  - destruct (from_unit m 1000 1000000) as (t & E & C & HT); auto. exists t. split; [exact E|]. split; [exact C|]. split; auto.
    destruct (HM t C) as (H1 & _ & _). rewrite H1; rewrite ?HT, ?Z.quot_mul by lia; auto.
    destruct t as [s n]; unfold canonical, total in *; cbn in *; rng. lia.
  - destruct (from_unit m 1000000 1000) as (t & E & C & HT); auto. exists t. split; [exact E|]. split; [exact C|]. split; auto.
    destruct (HM t C) as (_ & H2 & _). rewrite H2; rewrite ?HT, ?Z.quot_mul by lia; auto.
    destruct t as [s n]; unfold canonical, total in *; cbn in *; rng. lia.
Qed.

Lemma C12_lemma t : canonical t ->
  days t * 86400 + hours t * 3600 + minutes t * 60 + seconds t = secs t /\
  Z.abs (hours t) < 24 /\ Z.abs (minutes t) < 60 /\ Z.abs (seconds t) < 60 /\
  (0 <= secs t -> 0 <= days t /\ 0 <= hours t /\ 0 <= minutes t /\ 0 <= seconds t) /\
  (secs t <= 0 -> days t <= 0 /\ hours t <= 0 /\ minutes t <= 0 /\ seconds t <= 0) /\
  microSeconds t * 1000 + nanoSeconds t = nsecs t /\
  milliSeconds t = Z.quot (nsecs t) 1000000 /\ Z.abs (milliSeconds t) < 1000 /\ Z.abs (microSeconds t) < 1000000 /\
  Z.abs (nanoSeconds t) < 1000.
Proof.
  intros (_ & Hn & Hp & Hm). destruct t as [s n]. unfold days, hours, minutes, seconds, milliSeconds, microSeconds, nanoSeconds.
  cbn [secs nsecs] in *. clear Hp Hm. 
  assert (E : Z.quot s 86400 = Z.quot (Z.quot s 3600) 24) by (rewrite Z.quot_quot by lia; reflexivity).
  rewrite E. repeat split; lia.
Qed.

Lemma print_denote t : canonical t -> - 2^63 < secs t -> exists l, print t = Ok l /\
  (denote l = total t <-> ((0 <= secs t \/ nsecs t = 0) /\ (Z.rem (nsecs t) 1000000 = 0 \/ Z.rem (nsecs t) 1000 <> 0))).
Proof.
  intros (Hs & Hn & Hp & Hm) Hmin. destruct t as [s n]; unfold print; cbn [secs nsecs] in *.
  set (a := if s <? 0 then - s else s).
  replace (if s <? 0 then chk64 (- s) else Ok s) with (@Ok Z a).
  2:{ unfold a. destruct (Z.ltb_spec s 0); auto. rewrite chk64_Ok; auto. rng. lia. }
  cbn [bind]. eexists; split; [reflexivity|].
  set (h := if 3600 <? a then [Num (Z.quot a 3600) H] else []).
  set (a1 := if 3600 <? a then Z.rem a 3600 else a).
  set (m := if 60 <? a1 then [Num (Z.quot a1 60) M] else []).
  set (a2 := if 60 <? a1 then Z.rem a1 60 else a1).
  set (sec := if 0 <? a2 then [Num a2 S_] else []).
  set (f := if _ =? n then _ else _).
  assert (HA : 0 <= a) by (unfold a; destruct (Z.ltb_spec s 0); lia).
  assert (HS : item_sum (h ++ m ++ sec ++ [f]) = a * 1000000000 + item_sum [f]).
  { assert (Happ : forall l1 l2, item_sum (l1 ++ l2) = item_sum l1 + item_sum l2).
    { induction l1 as [|[|z u] l1 IH]; intros l2; cbn; try rewrite IH; lia. }
    rewrite !Happ. clearbody f.
    assert (0 <= a1) by (unfold a1; destruct (Z.ltb_spec 3600 a); lia).
    assert (0 <= a2) by (unfold a2; destruct (Z.ltb_spec 60 a1); lia).
    assert (item_sum h = (a - a1) * 1000000000).
    { unfold h, a1. destruct (Z.ltb_spec 3600 a); cbn; lia. }
    assert (item_sum m = (a1 - a2) * 1000000000).
    { unfold m, a2. destruct (Z.ltb_spec 60 a1); cbn; lia. }
    assert (item_sum sec = a2 * 1000000000).
    { unfold sec. destruct (Z.ltb_spec 0 a2); cbn; lia. }
    lia. }
  assert (HF : item_sum [f] = if (Z.rem n 1000000 =? 0) then n else if Z.rem n 1000 =? 0 then n * 1000 else n).
  { unfold f. destruct (Z.eqb_spec (Z.quot n 1000000 * 1000000) n), (Z.eqb_spec (Z.rem n 1000000) 0); try lia.
    - cbn; lia.
    - destruct (Z.eqb_spec (Z.quot n 1000 * 1000) n), (Z.eqb_spec (Z.rem n 1000) 0); cbn; lia. }
  assert (HD : denote ((if s <? 0 then [Minus] else []) ++ h ++ m ++ sec ++ [f]) =
    (if s <? 0 then - (a * 1000000000 + item_sum [f]) else a * 1000000000 + item_sum [f])).
  { rewrite <- HS. destruct (Z.ltb_spec s 0); cbn [app].
    - reflexivity.
    - assert (Hh : forall l, (exists z u r, l = Num z u :: r) -> denote l = item_sum l) by (intros ? (z & u & r & ->); reflexivity).
      apply Hh. unfold h, m, sec, f. destruct (3600 <? a); cbn [app]; eauto. destruct (60 <? a1); cbn [app]; eauto.
      destruct (0 <? a2); cbn [app]; eauto. destruct (_ =? _); eauto. destruct (_ =? _); eauto. }
  rewrite HD, HF. unfold total, a; cbn [secs nsecs].
  clear HD HF HS h m sec f. 
  destruct (Z.ltb_spec s 0), (Z.eqb_spec (Z.rem n 1000000) 0) as [e6|e6]; [| |lia|];
  try destruct (Z.eqb_spec (Z.rem n 1000) 0) as [e3|e3]; try lia.
Qed.

Lemma stamp_ctor_ok s n : 0 <= s < 2^63 -> 0 <= n < 2^31 -> representable (s * 1000000000 + n) ->
  exists t, make_stamp s n = Ok t /\ canonical t /\ total t = s * 1000000000 + n.
Proof.
  intros Hs Hn HR. unfold make_stamp. rewrite to_i64_id, to_i32_id by (rng; lia). apply normalize_ok; auto; rng; lia.
Qed.
