From Verif Require Import Text BaseLemmas Sha2Model Sha2Spec.
Local Open Scope Z_scope.
Local Ltac Zify.zify_post_hook ::= idtac.

Definition word (n x : Z) : Prop := 0 <= x < 2 ^ n.

(* ---- bit level lemmas ------------------------------------------------------------------------- *)

Lemma word_mod n x : 0 <= n -> word n (x mod 2 ^ n).
Proof. intros. apply Z.mod_pos_bound. apply Z.pow_pos_nonneg; lia. Qed.

Lemma word_testbit n x : 0 <= n -> word n x -> forall i, n <= i -> Z.testbit x i = false.
Proof.
  intros Hn [H1 H2] i Hi.
  destruct (Z.eq_dec x 0) as [->|]; [apply Z.bits_0|].
  apply Z.bits_above_log2; [lia|]. apply Z.log2_lt_pow2; [lia|].
  eapply Z.lt_le_trans; [exact H2|]. apply Z.pow_le_mono_r; lia.
Qed.

Lemma word_of_bits n x : 0 <= n -> 0 <= x -> (forall i, n <= i -> Z.testbit x i = false) -> word n x.
Proof.
  intros Hn Hx H. split; [auto|].
  destruct (Z.lt_ge_cases x (2 ^ n)) as [?|C]; [auto|exfalso].
  assert (0 < 2 ^ n) by (apply Z.pow_pos_nonneg; lia).
  assert (n <= Z.log2 x) by (apply Z.log2_le_pow2; lia).
  specialize (H (Z.log2 x) H1). rewrite Z.bit_log2 in H; [discriminate|lia].
Qed.

Lemma word_lxor n x y : 0 <= n -> word n x -> word n y -> word n (Z.lxor x y).
Proof.
  intros Hn Hx Hy. apply word_of_bits; [auto| |].
  - apply Z.lxor_nonneg. destruct Hx, Hy; lia.
  - intros i Hi. rewrite Z.lxor_spec, (word_testbit n x), (word_testbit n y); auto.
Qed.

Lemma Ch_ch x y z : Ch x y z = ch x y z.
Proof.
  unfold Ch, ch. apply Z.bits_inj'. intros i Hi.
  repeat rewrite ?Z.lxor_spec, ?Z.land_spec. rewrite Z.lnot_spec by auto.
  destruct (Z.testbit x i), (Z.testbit y i), (Z.testbit z i); reflexivity.
Qed.

Lemma Maj_maj x y z : Maj x y z = maj x y z.
Proof.
  unfold Maj, maj. apply Z.bits_inj'. intros i Hi.
  repeat rewrite ?Z.lor_spec, ?Z.lxor_spec, ?Z.land_spec.
  destruct (Z.testbit x i), (Z.testbit y i), (Z.testbit z i); reflexivity.
Qed.

(* disjoint bits add up *)
Lemma lor_add x y n : 0 <= n -> 0 <= x < 2 ^ n -> Z.lor x (y * 2 ^ n) = x + y * 2 ^ n.
Proof.
  intros Hn Hx. rewrite Z.add_nocarry_lxor.
  - apply Z.bits_inj'. intros i Hi. rewrite Z.lxor_spec, Z.lor_spec.
    rewrite <- (Z.shiftl_mul_pow2 y n) by lia.
    destruct (Z.lt_ge_cases i n) as [C|C].
    + rewrite (Z.shiftl_spec_low y n i) by lia. rewrite orb_false_r, xorb_false_r. reflexivity.
    + rewrite (word_testbit n x) by (auto; exact Hx). destruct (Z.testbit _ i); reflexivity.
  - apply Z.bits_inj'. intros i Hi. rewrite Z.land_spec, Z.bits_0.
    rewrite <- (Z.shiftl_mul_pow2 y n) by lia.
    destruct (Z.lt_ge_cases i n) as [C|C].
    + rewrite (Z.shiftl_spec_low y n i) by lia. apply andb_false_r.
    + rewrite (word_testbit n x) by (auto; exact Hx). reflexivity.
Qed.

Lemma Rotr_rotr p f x n : wbits p = w f -> 0 <= n <= w f -> word (w f) x -> Rotr p x n = rotr f n x.
Proof.
  intros E Hn Hx. unfold Rotr, rotr. rewrite E.
  rewrite Z.shiftr_div_pow2, Z.shiftl_mul_pow2 by lia.
  assert (P : 2 ^ w f = 2 ^ n * 2 ^ (w f - n)) by (rewrite <- Z.pow_add_r by lia; f_equal; lia).
  assert (0 < 2 ^ n) by (apply Z.pow_pos_nonneg; lia).
  assert (0 < 2 ^ (w f - n)) by (apply Z.pow_pos_nonneg; lia).
  assert (M : (x * 2 ^ (w f - n)) mod 2 ^ w f = (x mod 2 ^ n) * 2 ^ (w f - n)).
  { rewrite P, Z.mul_comm, (Z.mul_comm (2 ^ n)). rewrite Z.mul_mod_distr_l by lia. apply Z.mul_comm. }
  rewrite M. apply lor_add; [lia|]. split; [apply Z.div_pos; [destruct Hx|]; lia|].
  apply Z.div_lt_upper_bound; [lia|]. rewrite <- P. apply Hx.
Qed.

Lemma rotr_word f n x : 0 <= n <= w f -> word (w f) x -> word (w f) (rotr f n x).
Proof.
  intros Hn Hx. unfold rotr, word.
  assert (P : 2 ^ w f = 2 ^ n * 2 ^ (w f - n)) by (rewrite <- Z.pow_add_r by lia; f_equal; lia).
  assert (0 < 2 ^ n) by (apply Z.pow_pos_nonneg; lia).
  assert (0 < 2 ^ (w f - n)) by (apply Z.pow_pos_nonneg; lia).
  assert (0 <= x / 2 ^ n) by (apply Z.div_pos; [destruct Hx|]; lia).
  assert (x / 2 ^ n < 2 ^ (w f - n)).
  { apply Z.div_lt_upper_bound; [lia|]. rewrite <- P. apply Hx. }
  pose proof (Z.mod_pos_bound x (2 ^ n) ltac:(lia)).
  rewrite P. nia.
Qed.

Lemma shr_word f n x : 0 <= n -> 0 <= w f -> word (w f) x -> word (w f) (shr n x).
Proof.
  intros Hn Hw Hx. unfold shr.
  assert (0 < 2 ^ n) by (apply Z.pow_pos_nonneg; lia). destruct Hx.
  split; [apply Z.div_pos; lia|]. apply Z.le_lt_trans with x; [|auto].
  apply Z.div_le_upper_bound; [lia|]. nia.
Qed.

(* ---- what links a template instance to the standard -------------------------------------------- *)

Definition roles (k : nat) : list nat := map (fun i => (i + 8 - k) mod 8)%nat (seq 0 8).
Definition mcall (t : nat) : bool * list nat * nat := ((16 <=? t)%nat, roles (t mod 8), t).

Definition amounts (n : Z) (s : Z * Z * Z) : Prop :=
  let '(a, b, c) := s in 0 <= a <= n /\ 0 <= b <= n /\ 0 <= c <= n.

Record linked (p : impl) (f : fips) : Prop := {
  lk_w : wbits p = w f;
  lk_wb : w f = 8 * Z.of_nat (wbytes f);
  lk_wb4 : (4 <= wbytes f <= 8)%nat;
  lk_blk : blk p = block f;
  lk_pad : padpos p = (block f - 2 * wbytes f)%nat;
  lk_hex : hexw p = (2 * wbytes f)%nat;
  lk_k : ktab p = K f;
  lk_S0 : bS0 p = Sig0 f; lk_S1 : bS1 p = Sig1 f; lk_s0 : ss0 p = sig0 f; lk_s1 : ss1 p = sig1 f;
  lk_aS0 : amounts (w f) (Sig0 f); lk_aS1 : amounts (w f) (Sig1 f);
  lk_as0 : amounts (w f) (sig0 f); lk_as1 : amounts (w f) (sig1 f);
  lk_n : (16 <= nrounds f)%nat; lk_n8 : (nrounds f mod 8 = 0)%nat;
  lk_rounds : rounds p = map mcall (seq 0 (nrounds f))
}.

Section Linked.
Variables (p : impl) (f : fips) (L : linked p f).

Let Hw : 0 <= w f. Proof. pose proof (lk_wb p f L). lia. Qed.

Lemma Sigma_big s x : (forall a b c, s = (a, b, c) -> True) -> amounts (w f) s -> word (w f) x ->
  (let '(a, b, c) := s in Z.lxor (Z.lxor (Rotr p x a) (Rotr p x b)) (Rotr p x c)) = bigS f s x.
Proof.
  intros _. destruct s as [[a b] c]; cbn [amounts bigS]. intros (Ha & Hb & Hc) Hx.
  rewrite !(Rotr_rotr p f) by (auto using lk_w). reflexivity.
Qed.

Lemma Sigma_small s x : amounts (w f) s -> word (w f) x ->
  (let '(a, b, c) := s in Z.lxor (Z.lxor (Rotr p x a) (Rotr p x b)) (Shr x c)) = smallS f s x.
Proof.
  destruct s as [[a b] c]; cbn [amounts smallS]. intros (Ha & Hb & Hc) Hx.
  rewrite !(Rotr_rotr p f) by (auto using lk_w). unfold Shr, shr. rewrite Z.shiftr_div_pow2 by lia. reflexivity.
Qed.

Lemma Sigma0_eq x : word (w f) x -> Sigma0 p x = bigS f (Sig0 f) x.
Proof. intros. unfold Sigma0. rewrite (lk_S0 p f L). apply Sigma_big; auto. apply (lk_aS0 p f L). Qed.
Lemma Sigma1_eq x : word (w f) x -> Sigma1 p x = bigS f (Sig1 f) x.
Proof. intros. unfold Sigma1. rewrite (lk_S1 p f L). apply Sigma_big; auto. apply (lk_aS1 p f L). Qed.
Lemma sigma0_eq x : word (w f) x -> sigma0 p x = smallS f (sig0 f) x.
Proof. intros. unfold sigma0. rewrite (lk_s0 p f L). apply Sigma_small; auto. apply (lk_as0 p f L). Qed.
Lemma sigma1_eq x : word (w f) x -> sigma1 p x = smallS f (sig1 f) x.
Proof. intros. unfold sigma1. rewrite (lk_s1 p f L). apply Sigma_small; auto. apply (lk_as1 p f L). Qed.

Lemma addw_eq x y : addw p x y = (x + y) mod 2 ^ w f.
Proof. unfold addw. rewrite (lk_w p f L). reflexivity. Qed.

(* ---- the rounds ------------------------------------------------------------------------------ *)

Definition view (k : nat) (v : list Z) : working :=
  let r i := get v (nth i (roles k) 0%nat) in
  (r 0%nat, r 1%nat, r 2%nat, r 3%nat, r 4%nat, r 5%nat, r 6%nat, r 7%nat).

Definition words (s : working) : Prop :=
  let '(a, b, c, d, e, f', g, h) := s in
  word (w f) a /\ word (w f) b /\ word (w f) c /\ word (w f) d /\
  word (w f) e /\ word (w f) f' /\ word (w f) g /\ word (w f) h.

Lemma step_words W s t : words s -> words (step f W s t).
Proof.
  destruct s as [[[[[[[a b] c] d] e] f'] g] h]. unfold step, words.
  intros (? & ? & ? & ? & ? & ? & ? & ?). repeat match goal with |- _ /\ _ => split end; auto using word_mod.
Qed.

Lemma sum5 a b c d e n : 0 < n ->
  ((((a + b) mod n + c) mod n + d) mod n + e) mod n = (a + b + c + d + e) mod n.
Proof.
  intros. rewrite Z.add_mod_idemp_l by lia. rewrite <- (Z.add_assoc _ d e), Z.add_mod_idemp_l by lia.
  rewrite <- (Z.add_assoc _ c (d + e)), Z.add_mod_idemp_l by lia. f_equal. lia.
Qed.

Lemma land15 t : Nat.land t 15 = (t mod 16)%nat.
Proof. exact (Nat.land_ones t 4). Qed.

Lemma round_core_step k t v w0 W :
  (k < 8)%nat -> length v = 8%nat -> words (view k v) -> get w0 (Nat.land t 15) = nth t W 0 ->
  view (S k mod 8) (round_core p (roles k) t v w0) = step f W (view k v) t
  /\ length (round_core p (roles k) t v w0) = 8%nat.
Proof.
  intros Hk Hv HW Ht.
  assert (Hm : 0 < 2 ^ w f) by (apply Z.pow_pos_nonneg; lia).
  split; [|unfold round_core; rewrite !list_set_length; exact Hv].
  assert (E : forall a b c d e ff g h,
     (a, b, c, d, e, ff, g, h) = view k v ->
     step f W (view k v) t =
     let T1 := addw p (addw p (addw p (addw p h (Sigma1 p e)) (Ch e ff g)) (get (ktab p) t)) (get w0 (Nat.land t 15)) in
     let T2 := addw p (Sigma0 p a) (Maj a b c) in
     (addw p T1 T2, a, b, c, addw p d T1, e, ff, g)).
  { intros a b c d e ff g h Ev. rewrite <- Ev in HW |- *. cbn [words] in HW.
    destruct HW as (? & ? & ? & ? & ? & ? & ? & ?).
    cbn [step]. rewrite Ht, (lk_k p f L), Ch_ch, Maj_maj, Sigma1_eq, Sigma0_eq, !addw_eq by auto.
    rewrite (sum5 h (bigS f (Sig1 f) e) (ch e ff g) (get (K f) t) (nth t W 0)) by lia. reflexivity. }
  unfold view in E at 1. rewrite (E _ _ _ _ _ _ _ _ eq_refl). clear E HW.
  destruct v as [|v0 [|v1 [|v2 [|v3 [|v4 [|v5 [|v6 [|v7 [|]]]]]]]]]; try discriminate Hv.
  unfold round_core, view, get. generalize (addw p) (Ch) (Maj) (Sigma0 p) (Sigma1 p). intros A C M S0 S1.
  assert (k = 0 \/ k = 1 \/ k = 2 \/ k = 3 \/ k = 4 \/ k = 5 \/ k = 6 \/ k = 7)%nat as D by lia.
  repeat destruct D as [->|D]; try subst k; cbv -[Nat.land nth ktab] in *; cbn [nth]; reflexivity.
Qed.

(* the message schedule list *)
Definition sched_ok (W : list Z) : Prop :=
  length W = nrounds f /\ Forall (word (w f)) W /\
  forall t, (16 <= t < nrounds f)%nat ->
    nth t W 0 = (smallS f (sig1 f) (nth (t - 2) W 0) + nth (t - 7) W 0
               + smallS f (sig0 f) (nth (t - 15) W 0) + nth (t - 16) W 0) mod 2 ^ w f.

Lemma extend_ok n : forall W, (16 <= length W)%nat -> Forall (word (w f)) W ->
  (forall t, (16 <= t < length W)%nat ->
    nth t W 0 = (smallS f (sig1 f) (nth (t - 2) W 0) + nth (t - 7) W 0
               + smallS f (sig0 f) (nth (t - 15) W 0) + nth (t - 16) W 0) mod 2 ^ w f) ->
  let W' := extend f n W in
  length W' = (length W + n)%nat /\ Forall (word (w f)) W' /\
  (forall t, (t < length W)%nat -> nth t W' 0 = nth t W 0) /\
  (forall t, (16 <= t < length W')%nat ->
    nth t W' 0 = (smallS f (sig1 f) (nth (t - 2) W' 0) + nth (t - 7) W' 0
               + smallS f (sig0 f) (nth (t - 15) W' 0) + nth (t - 16) W' 0) mod 2 ^ w f).
Proof.
  induction n as [|n IH]; intros W HL HF HE; cbn [extend].
  - split; [lia|]. auto.
  - set (x := _ mod _).
    destruct (IH (W ++ [x])) as (A & B & C & D).
    + rewrite app_length; lia.
    + apply Forall_app; split; [auto|]. constructor; [|constructor]. apply word_mod; auto.
    + intros t Ht. rewrite app_length in Ht; cbn [length] in Ht.
      rewrite !(app_nth1 W [x] 0) with (n := (t - 2)%nat) by lia.
      rewrite !(app_nth1 W [x] 0) with (n := (t - 7)%nat) by lia.
      rewrite !(app_nth1 W [x] 0) with (n := (t - 15)%nat) by lia.
      rewrite !(app_nth1 W [x] 0) with (n := (t - 16)%nat) by lia.
      destruct (Nat.eq_dec t (length W)) as [->|].
      * rewrite app_nth2 by lia. rewrite Nat.sub_diag. reflexivity.
      * rewrite app_nth1 by lia. apply HE. lia.
    + rewrite app_length in A, C; cbn [length] in A, C.
      split; [lia|]. split; [auto|]. split; [|auto].
      intros t Ht. rewrite C by lia. apply app_nth1; lia.
Qed.

(* the circular 16 word buffer w holds the last 16 schedule words before t *)
Definition circ (t : nat) (W w0 : list Z) : Prop :=
  length w0 = 16%nat /\
  forall s, (s < Nat.max t 16)%nat -> (Nat.max t 16 <= s + 16)%nat -> get w0 (s mod 16) = nth s W 0.

Lemma get_list_set l i j x : get (list_set l i x) j = if ((j =? i) && (i <? length l))%nat then x else get l j.
Proof.
  unfold get. revert i j; induction l as [|y l IH]; intros i j.
  - cbn [length]. destruct (Nat.ltb_spec i 0); [lia|]. rewrite andb_false_r. destruct i, j; reflexivity.
  - destruct i as [|i], j as [|j]; cbn [list_set nth length]; auto. rewrite IH. reflexivity.
Qed.

Lemma nth_word W t : Forall (word (w f)) W -> word (w f) (nth t W 0).
Proof.
  intros H. destruct (Nat.lt_ge_cases t (length W)) as [C|C].
  - rewrite Forall_nth in H. apply H; auto.
  - rewrite nth_overflow by auto. split; [lia|]. apply Z.pow_pos_nonneg; lia.
Qed.

Lemma round_ok t v w0 W :
  (t < nrounds f)%nat -> sched_ok W -> circ t W w0 -> length v = 8%nat -> words (view (t mod 8) v) ->
  let r := round p (v, w0) (mcall t) in
  circ (S t) W (snd r) /\ length (fst r) = 8%nat /\
  view (S t mod 8) (fst r) = step f W (view (t mod 8) v) t.
Proof.
  intros Ht (SL & SF & SE) (CL & CE) Hv HW. unfold mcall, round. cbn [fst snd].
  set (w1 := if (16 <=? t)%nat then schedule p t w0 else w0).
  assert (Hm : 0 < 2 ^ w f) by (apply Z.pow_pos_nonneg; lia).
  assert (C1 : circ (S t) W w1).
  { unfold w1. destruct (Nat.leb_spec 16 t) as [G|G].
    - unfold schedule. split; [rewrite list_set_length; exact CL|].
      intros s Hs1 Hs2. rewrite get_list_set, CL, !land15.
      replace (Nat.max (S t) 16) with (S t) in * by lia.
      replace (Nat.max t 16) with t in * by lia.
      destruct (Nat.eqb_spec (s mod 16) (t mod 16)) as [Em|Em].
      + assert (s = t).
        { pose proof (Nat.div_mod s 16 ltac:(lia)). pose proof (Nat.div_mod t 16 ltac:(lia)). lia. }
        subst s.
        destruct (Nat.ltb_spec (t mod 16) 16); [|pose proof (Nat.mod_upper_bound t 16); lia].
        cbn [andb].
        assert (A : forall d k, (0 < d <= 16)%nat -> ((t + k) mod 16 = (t - d) mod 16)%nat ->
                 get w0 ((t + k) mod 16) = nth (t - d) W 0).
        { intros d k Hd Hk. rewrite Hk. apply CE; lia. }
        assert (M : forall d k, (d + k = 16)%nat -> ((t + k) mod 16 = (t - d) mod 16)%nat).
        { intros d k Hdk. replace (t + k)%nat with (t - d + 1 * 16)%nat by lia. apply Nat.mod_add; lia. }
        rewrite (A 2%nat 14%nat), (A 7%nat 9%nat), (A 15%nat 1%nat) by (try apply M; lia).
        assert (A0 : get w0 (t mod 16) = nth (t - 16) W 0).
        { rewrite <- (Nat.add_0_r t). replace (t + 0 - 16)%nat with (t - 16)%nat by lia. apply A; [lia|apply M; lia]. }
        rewrite A0, sigma1_eq, sigma0_eq by (apply nth_word; auto).
        rewrite !addw_eq, (SE t) by lia.
        rewrite Z.add_mod_idemp_l, Z.add_mod_idemp_r by lia. f_equal. lia.
      + cbn [andb]. apply CE; [|lia].
        assert (s <> t) by (intros ->; apply Em; reflexivity). lia.
    - split; [exact CL|]. intros s Hs1 Hs2. apply CE; lia. }
  split; [exact C1|].
  assert (G : get w1 (Nat.land t 15) = nth t W 0).
  { rewrite land15. apply C1; lia. }
  destruct (round_core_step (t mod 8) t v w1 W) as (E1 & E2); auto.
  { apply Nat.mod_upper_bound; lia. }
  split; [exact E2|]. rewrite <- E1. f_equal.
  rewrite <- (Nat.add_1_r t), <- (Nat.add_1_r (t mod 8)), Nat.add_mod_idemp_l by lia. reflexivity.
Qed.

Lemma rounds_ok W : sched_ok W -> forall k s v w0, (s + k = nrounds f)%nat -> circ s W w0 ->
  length v = 8%nat -> words (view (s mod 8) v) ->
  let r := fold_left (round p) (map mcall (seq s k)) (v, w0) in
  length (fst r) = 8%nat /\
  view (nrounds f mod 8) (fst r) = fold_left (step f W) (seq s k) (view (s mod 8) v).
Proof.
  intros HS. induction k as [|k IH]; intros s v w0 Hs HC Hv HW; cbn [seq map fold_left].
  - cbn [fst]. rewrite Nat.add_0_r in Hs. subst s. auto.
  - destruct (round_ok s v w0 W) as (A & B & C); auto; [lia|].
    destruct (round p (v, w0) (mcall s)) as [v1 w1]. cbn [fst snd] in A, B, C.
    destruct (IH (S s) v1 w1) as (D & E); auto; [lia|rewrite C; apply step_words; auto|].
    split; [exact D|]. rewrite E, C. reflexivity.
Qed.

(* ---- words from bytes ------------------------------------------------------------------------- *)

Lemma of_be_app l x : of_be (l ++ [x]) = of_be l * 256 + x.
Proof. unfold of_be. rewrite fold_left_app. reflexivity. Qed.

Lemma of_be_bound l : byte_list l -> 0 <= of_be l < 256 ^ Z.of_nat (length l).
Proof.
  induction l as [|x l IH] using rev_ind; intros H.
  - cbn. lia.
  - apply Forall_app in H as [H1 H2]. inversion H2; subst. specialize (IH H1).
    rewrite of_be_app, app_length. cbn [length].
    replace (Z.of_nat (length l + 1)) with (Z.of_nat (length l) + 1) by lia.
    rewrite Z.pow_add_r by lia. change (256 ^ 1) with 256. nia.
Qed.

Lemma bswaparr_eq buf i : byte_list buf -> (i < 16)%nat -> length buf = block f ->
  bswaparr p buf i = of_be (firstn (wbytes f) (skipn (i * wbytes f) buf)).
Proof.
  intros HB Hi HL. unfold bswaparr.
  assert (En : Z.to_nat (wbits p / 8) = wbytes f) by (rewrite (lk_w p f L); reflexivity).
  rewrite En, (lk_w p f L). pose proof (lk_wb p f L) as W8. pose proof (lk_wb4 p f L) as W4.
  set (l := firstn (wbytes f) (skipn (i * wbytes f) buf)).
  unfold block in HL.
  assert (Ll : length l = wbytes f).
  { unfold l. rewrite firstn_length, skipn_length. nia. }
  assert (Hl : byte_list l).
  { apply Forall_forall. intros x Hx. apply (proj1 (Forall_forall _ _) HB).
    unfold l in Hx. apply In_nth_error in Hx as [j Hj].
    rewrite nth_error_firstn in Hj. destruct (_ <? _)%nat; [|discriminate].
    rewrite nth_error_skipn in Hj. eapply nth_error_In; eauto. }
  assert (G : forall k, (k <= wbytes f)%nat ->
     fold_left (fun acc j => Z.lor acc (Z.shiftl (nth (i * wbytes f + j) buf 0) (w f - 8 - 8 * Z.of_nat j) mod 2 ^ w f))
       (seq 0 k) 0 = of_be (firstn k l) * 2 ^ (w f - 8 * Z.of_nat k)).
  { induction k as [|k IH]; intros Hk.
    - reflexivity.
    - rewrite seq_S, fold_left_app, IH by lia. cbn [fold_left Nat.add].
      assert (N : nth_error l k = Some (nth (i * wbytes f + k) buf 0)).
      { unfold l. rewrite nth_error_firstn. destruct (Nat.ltb_spec k (wbytes f)); [|lia].
        rewrite nth_error_skipn. apply nth_error_nth'. nia. }
      assert (F : firstn (S k) l = firstn k l ++ [nth (i * wbytes f + k) buf 0]).
      { rewrite <- (firstn_skipn k l) at 1.
        apply nth_error_ext. intros j. rewrite firstn_skipn.
        rewrite nth_error_firstn, nth_error_app, nth_error_firstn, firstn_length.
        replace (Nat.min k (length l)) with k by lia.
        destruct (Nat.ltb_spec j (S k)), (Nat.ltb_spec j k); try lia; auto.
        - assert (j = k) by lia. subst j. rewrite Nat.sub_diag. exact N.
        - symmetry. apply nth_error_None. cbn [length]. lia. }
      rewrite F, of_be_app. set (x := nth (i * wbytes f + k) buf 0) in *.
      assert (Hx : 0 <= x < 256).
      { apply (proj1 (Forall_forall _ _) Hl). eapply nth_error_In; eauto. }
      set (s := w f - 8 * Z.of_nat (S k)).
      replace (w f - 8 - 8 * Z.of_nat k) with s by (unfold s; lia).
      replace (w f - 8 * Z.of_nat k) with (s + 8) by (unfold s; lia).
      assert (Hs : 0 <= s) by (unfold s; lia).
      rewrite Z.shiftl_mul_pow2 by auto.
      rewrite Z.pow_add_r by lia. change (2 ^ 8) with 256.
      assert (0 < 2 ^ s) by (apply Z.pow_pos_nonneg; lia).
      rewrite Z.mod_small.
      2:{ split; [nia|]. apply Z.lt_le_trans with (2 ^ (s + 8)).
          - rewrite Z.pow_add_r by lia. change (2 ^ 8) with 256. nia.
          - apply Z.pow_le_mono_r; unfold s; lia. }
      rewrite Z.lor_comm.
      replace (of_be (firstn k l) * (2 ^ s * 256)) with (of_be (firstn k l) * 2 ^ (s + 8))
        by (rewrite Z.pow_add_r by lia; reflexivity).
      rewrite lor_add; [|lia|].
      + rewrite Z.pow_add_r by lia. change (2 ^ 8) with 256. lia.
      + rewrite Z.pow_add_r by lia. change (2 ^ 8) with 256. nia. }
  rewrite G by lia. replace (w f - 8 * Z.of_nat (wbytes f)) with 0 by lia.
  rewrite <- Ll, firstn_all. cbn [Z.pow]. lia.
Qed.

Lemma Forall_firstn' {A} (P : A -> Prop) n l : Forall P l -> Forall P (firstn n l).
Proof. intros H. rewrite <- (firstn_skipn n l) in H. apply Forall_app in H. apply H. Qed.
Lemma Forall_skipn' {A} (P : A -> Prop) n l : Forall P l -> Forall P (skipn n l).
Proof. intros H. rewrite <- (firstn_skipn n l) in H. apply Forall_app in H. apply H. Qed.

Lemma buffer_words buf : byte_list buf -> length buf = block f ->
  map (bswaparr p buf) (seq 0 16) = map of_be (cut (wbytes f) buf)
  /\ Forall (word (w f)) (map of_be (cut (wbytes f) buf))
  /\ length (map of_be (cut (wbytes f) buf)) = 16%nat.
Proof.
  intros HB HL. pose proof (lk_wb p f L) as W8. pose proof (lk_wb4 p f L) as W4. unfold cut.
  assert (E : (length buf / wbytes f = 16)%nat) by (rewrite HL; unfold block; apply Nat.div_mul; lia).
  rewrite E. rewrite map_map. split; [|split].
  - apply map_ext_in. intros i Hi. apply in_seq in Hi. apply bswaparr_eq; auto; lia.
  - apply Forall_forall. intros x Hx. apply in_map_iff in Hx as (i & <- & Hi). apply in_seq in Hi.
    assert (B : byte_list (firstn (wbytes f) (skipn (i * wbytes f) buf)))
      by (apply Forall_firstn', Forall_skipn'; auto).
    apply of_be_bound in B. rewrite firstn_length, skipn_length, HL in B. unfold block in B.
    replace (Nat.min (wbytes f) (16 * wbytes f - i * wbytes f)) with (wbytes f) in B by nia.
    unfold word. rewrite W8. change 256 with (2 ^ 8) in B. rewrite <- Z.pow_mul_r in B by lia. exact B.
  - rewrite map_length, seq_length. reflexivity.
Qed.

(* ---- processBuffer --------------------------------------------------------------------------- *)

Definition digest_ok (H : list Z) : Prop := length H = 8%nat /\ Forall (word (w f)) H.

Lemma compress_ok H b : digest_ok H -> digest_ok (compress f H b).
Proof.
  intros [HL HF]. unfold compress.
  destruct H as [|h0 [|h1 [|h2 [|h3 [|h4 [|h5 [|h6 [|h7 [|]]]]]]]]]; try discriminate HL.
  destruct (fold_left _ _ _) as [[[[[[[a b'] c] d] e] f'] g] h].
  split; [reflexivity|]. cbn [map]. repeat constructor; apply word_mod; auto.
Qed.

Lemma processBuffer_digest o : digest_ok (m_digest o) -> byte_list (m_buffer o) -> length (m_buffer o) = block f ->
  processBuffer p o = mkObj (compress f (m_digest o) (m_buffer o)) (m_message_size o) (m_buffer o) (m_buffer_fill o).
Proof.
  intros [HL HF] HB Hlen. unfold processBuffer.
  destruct (buffer_words (m_buffer o) HB Hlen) as (E1 & E2 & E3).
  rewrite E1, (lk_rounds p f L).
  pose proof (lk_n p f L) as Hn.
  destruct (extend_ok (nrounds f - 16) (map of_be (cut (wbytes f) (m_buffer o)))) as (A & B & C & D); auto.
  { lia. } { intros t Ht. lia. }
  set (W0 := map of_be (cut (wbytes f) (m_buffer o))) in *.
  assert (SO : sched_ok (extend f (nrounds f - 16) W0)).
  { split; [lia|]. split; [auto|]. intros t Ht. apply D. lia. }
  destruct (rounds_ok _ SO (nrounds f) 0 (m_digest o) W0) as (F & G); auto.
  { split; [exact E3|]. intros s Hs1 Hs2. rewrite C by lia. rewrite Nat.mod_small by lia. reflexivity. }
  { destruct (m_digest o) as [|h0 [|h1 [|h2 [|h3 [|h4 [|h5 [|h6 [|h7 [|]]]]]]]]]; try discriminate HL.
    repeat match goal with H : Forall _ (_ :: _) |- _ => inversion H; subst; clear H end.
    cbv [view words get]. cbn. repeat match goal with |- _ /\ _ => split end; auto. }
  rewrite (lk_n8 p f L) in G.
  destruct (fold_left (round p) (map mcall (seq 0 (nrounds f))) (m_digest o, W0)) as [v w1]. cbn [fst] in F, G.
  f_equal. unfold compress, message_schedule. fold W0.
  destruct (m_digest o) as [|h0 [|h1 [|h2 [|h3 [|h4 [|h5 [|h6 [|h7 [|]]]]]]]]]; try discriminate HL.
  change (view (0 mod 8) [h0; h1; h2; h3; h4; h5; h6; h7]) with (h0, h1, h2, h3, h4, h5, h6, h7) in G.
  rewrite <- G.
  destruct v as [|v0 [|v1 [|v2 [|v3 [|v4 [|v5 [|v6 [|v7 [|]]]]]]]]]; try discriminate F.
  unfold view. cbn [roles map seq nth get Nat.add Nat.sub Nat.modulo Nat.divmod fst snd].
  rewrite !addw_eq. repeat (f_equal; try (f_equal; lia)).
Qed.

End Linked.
