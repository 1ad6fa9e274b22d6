From Verif Require Import Base BaseLemmas UnionFindModel UnionFindSpec.
Ltac Zify.zify_post_hook ::= Z.div_mod_to_equations.

Inductive Root (p : list nat) : nat -> nat -> Prop :=
| Root_self x : nth_error p x = Some x -> Root p x x
| Root_step x y r : nth_error p x = Some y -> y <> x -> Root p y r -> Root p x r.

Lemma Root_det p x r1 r2 : Root p x r1 -> Root p x r2 -> r1 = r2.
Proof.
  intros H1; revert r2; induction H1 as [x H|x y r H Hne Hr IH]; intros r2 H2; inversion H2; subst; try congruence.
  apply IH. congruence.
Qed.

Lemma Root_root p x r : Root p x r -> nth_error p r = Some r.
Proof. induction 1; auto. Qed.

Definition rk_of (rk : list nat) x := nth x rk 0.

(* ranks rise strictly towards the root; K bounds all ranks *)
Record Inv (p rk : list nat) : Prop := {
  I_len : length p = length rk;
  I_par : forall x y, nth_error p x = Some y -> y < length p;
  I_rank : forall x y, nth_error p x = Some y -> y <> x -> rk_of rk x < rk_of rk y }.

(* ghost weights: roots carry all the elements *)
Definition is_root (p : list nat) (x : nat) : bool := match nth_error p x with Some y => y =? x | None => false end.
Fixpoint wsum (p : list nat) (w : nat -> nat) (k : nat) : nat :=
  match k with O => 0 | S j => wsum p w j + (if is_root p j then w j else 0) end.
Definition Weights (p rk : list nat) : Prop :=
  exists w, (forall x, is_root p x = true -> 2 ^ rk_of rk x <= w x) /\ wsum p w (length p) <= length p.

Lemma wsum_ge p w k x : x < k -> is_root p x = true -> w x <= wsum p w k.
Proof.
  induction k as [|k IH]; intros H E; [lia|]. cbn [wsum].
  destruct (Nat.eq_dec x k) as [->|]; [rewrite E; lia|]. specialize (IH ltac:(lia) E). lia.
Qed.

Lemma wsum_ext p w p' w' k : (forall x, x < k -> is_root p x = is_root p' x) ->
  (forall x, x < k -> is_root p x = true -> w x = w' x) -> wsum p w k = wsum p' w' k.
Proof.
  induction k as [|k IH]; intros H1 H2; auto. cbn [wsum]. rewrite IH by auto. rewrite <- H1 by lia.
  destruct (is_root p k) eqn:E; auto.
Qed.

Lemma is_root_lt p x : is_root p x = true -> x < length p.
Proof. unfold is_root. destruct (nth_error p x) eqn:E; [|discriminate]. intros _. eapply nth_error_lt; eauto. Qed.

Lemma root_rank_log p rk x : Weights p rk -> is_root p x = true -> rk_of rk x <= Nat.log2 (length p).
Proof.
  intros (w & Hw & Hs) Hx. pose proof (is_root_lt _ _ Hx) as Hl. specialize (Hw _ Hx).
  pose proof (wsum_ge p w (length p) x Hl Hx).
  apply Nat.log2_le_pow2; lia.
Qed.

Lemma Root_is_root p x r : Root p x r -> is_root p r = true.
Proof. intros H. unfold is_root. rewrite (Root_root _ _ _ H). apply Nat.eqb_refl. Qed.

(* every element has a root when ranks are bounded; find reaches it within K - rank calls *)
Lemma rank_le_sum rk x : rk_of rk x <= list_sum rk.
Proof.
  unfold rk_of. revert x; induction rk as [|a rk IH]; intros [|x]; cbn [nth]; try lia;
  change (list_sum (a :: rk)) with (a + list_sum rk); [lia|]. specialize (IH x). lia.
Qed.

Lemma Root_total p rk : Inv p rk -> forall x, x < length p -> exists r, Root p x r /\ rk_of rk x <= rk_of rk r.
Proof.
  intros HI.
  assert (forall k x, x < length p -> list_sum rk - rk_of rk x <= k -> exists r, Root p x r /\ rk_of rk x <= rk_of rk r) as H.
  { induction k as [|k IH]; intros x Hx Hk; destruct (nth_error_Some_lt p x Hx) as [y Hy];
    (destruct (Nat.eq_dec y x) as [->|Hne]; [exists x; split; [constructor; auto|lia]|]).
    - pose proof (I_rank _ _ HI _ _ Hy Hne). pose proof (rank_le_sum rk y). lia.
    - pose proof (I_rank _ _ HI _ _ Hy Hne). pose proof (rank_le_sum rk y).
      destruct (IH y) as (r & Hr & Hle). { eapply I_par; eauto. } { lia. }
      exists r; split; [eapply Root_step; eauto|lia]. }
  intros x Hx. eapply H; eauto.
Qed.

Lemma ranks_bounded p rk : Inv p rk -> Weights p rk -> forall x, x < length p -> rk_of rk x <= Nat.log2 (length p).
Proof.
  intros HI HW x Hx. destruct (Root_total _ _ HI x Hx) as (r & Hr & Hle).
  pose proof (root_rank_log _ _ _ HW (Root_is_root _ _ _ Hr)). lia.
Qed.

Lemma nonroot_rank p rk x r : Inv p rk -> Root p x r -> r <> x -> rk_of rk x < rk_of rk r.
Proof.
  intros HI H; induction H as [x H|x y r H Hne Hr IH]; intros Hn; [congruence|].
  pose proof (I_rank _ _ HI _ _ H Hne). destruct (Nat.eq_dec r y) as [->|]; [auto|].
  specialize (IH n). lia.
Qed.

(* path compression of one node *)
Section Compress.
Variables (p rk : list nat) (x r : nat).
Hypothesis HI : Inv p rk.
Hypothesis HR : Root p x r.
Hypothesis Hne : r <> x.
Let p' := list_set p x r.

Lemma cx_lt : x < length p.
Proof. inversion HR; subst; eapply nth_error_lt; eauto. Qed.

Lemma compress_Inv : Inv p' rk.
Proof.
  unfold p'. constructor.
  - rewrite list_set_length. apply HI.
  - intros a b H. rewrite list_set_length. rewrite nth_error_list_set in H.
    destruct (_ && _); [|eapply I_par; eauto]. injection H as <-. eapply nth_error_lt. eapply Root_root; eauto.
  - intros a b H Hab. rewrite nth_error_list_set in H. destruct (_ && _) eqn:E.
    + injection H as <-. apply andb_prop in E. destruct E as [E _]. apply Nat.eqb_eq in E. subst a.
      eapply nonroot_rank; eauto.
    + eapply I_rank; eauto.
Qed.

Lemma compress_Root_fwd z r0 : Root p z r0 -> Root p' z r0.
Proof.
  unfold p'. intros H.
  assert (Hroot : nth_error (list_set p x r) r = Some r).
  { rewrite nth_error_list_set_ne by auto. eapply Root_root; eauto. }
  induction H as [z H|z y r0 H Hn Hr IH].
  - constructor. destruct (Nat.eq_dec z x) as [->|].
    + exfalso. apply Hne. eapply Root_det; [exact HR|constructor; auto].
    + rewrite nth_error_list_set_ne; auto.
  - destruct (Nat.eq_dec z x) as [->|].
    + assert (r0 = r) by (apply (Root_det p x); [eapply Root_step; eauto|exact HR]). subst r0.
      eapply Root_step; [apply nth_error_list_set_eq; apply cx_lt|auto|]. constructor; auto.
    + eapply Root_step; eauto. rewrite nth_error_list_set_ne; auto.
Qed.

Lemma compress_Root z r0 : Root p' z r0 <-> Root p z r0.
Proof.
  split; [|apply compress_Root_fwd]. intros H.
  assert (Hz : z < length p).
  { unfold p' in H. inversion H; subst; rewrite <- (list_set_length p x r); eapply nth_error_lt; eauto. }
  destruct (Root_total _ _ HI z Hz) as (r1 & Hr1 & _).
  rewrite (Root_det _ _ _ _ H (compress_Root_fwd _ _ Hr1)). auto.
Qed.
End Compress.

Lemma is_root_iff p x : is_root p x = true <-> Root p x x.
Proof.
  unfold is_root. split.
  - destruct (nth_error p x) eqn:E; [|discriminate]. intros H; apply Nat.eqb_eq in H; subst. constructor; auto.
  - intros H. rewrite (Root_root _ _ _ H). apply Nat.eqb_refl.
Qed.

Lemma same_roots_is_root p p' : (forall z r, Root p' z r <-> Root p z r) -> forall x, is_root p' x = is_root p x.
Proof.
  intros H x. destruct (is_root p x) eqn:E.
  - apply is_root_iff. apply H. apply is_root_iff; auto.
  - destruct (is_root p' x) eqn:E'; auto. apply is_root_iff in E'. apply H in E'. apply is_root_iff in E'. congruence.
Qed.

Lemma Weights_same p p' rk : length p' = length p -> (forall z r, Root p' z r <-> Root p z r) -> Weights p rk -> Weights p' rk.
Proof.
  intros HL H (w & H1 & H2). pose proof (same_roots_is_root _ _ H) as HR. exists w. split.
  - intros x Hx. apply H1. rewrite <- HR; auto.
  - rewrite HL. rewrite (wsum_ext p' w p w); auto.
Qed.

Lemma find_rec_ok rk K : forall fuel p x, Inv p rk -> (forall z, z < length p -> rk_of rk z <= K) ->
  x < length p -> K - rk_of rk x <= fuel ->
  exists p' r, find_rec fuel p x = Found p' r /\ Root p x r /\ Inv p' rk /\ length p' = length p /\
    (forall z q, Root p' z q <-> Root p z q).
Proof.
  induction fuel as [|fuel IH]; intros p x HI HK Hx Hf; cbn [find_rec];
  destruct (nth_error_Some_lt p x Hx) as [y Hy]; rewrite Hy; destruct (Nat.eqb_spec y x) as [->|Hne].
  1,3: exists p, x; split; [auto|]; split; [constructor; auto|]; split; [auto|]; split; [auto|]; tauto.
  - pose proof (I_rank _ _ HI _ _ Hy Hne). pose proof (HK y ltac:(eapply I_par; eauto)). lia.
  - pose proof (I_rank _ _ HI _ _ Hy Hne).
    destruct (IH p y HI HK) as (p' & r & HE & HR & HI' & HL & HQ). { eapply I_par; eauto. } { lia. }
    rewrite HE. exists (list_set p' x r), r. split; [auto|].
    assert (HRx : Root p x r) by (eapply Root_step; eauto).
    assert (HRx' : Root p' x r) by (apply HQ; auto).
    assert (Hrx : r <> x).
    { intros ->. pose proof (Root_root _ _ _ HRx). congruence. }
    split; auto. split; [eapply compress_Inv; eauto|]. split; [rewrite list_set_length; auto|].
    intros z q. rewrite <- HQ. eapply compress_Root; eauto.
Qed.

Lemma find_rec_throw fuel p x : length p <= x -> find_rec fuel p x = FThrow.
Proof. intros H. apply nth_error_None in H. destruct fuel; cbn; rewrite H; auto. Qed.

Definition Good (u : uf) : Prop := Inv (m_parent u) (m_rank u) /\ Weights (m_parent u) (m_rank u).

Lemma find_log u x fuel : Good u -> x < size u -> Nat.log2 (size u) <= fuel ->
  exists p' r, find_rec fuel (m_parent u) x = Found p' r /\ Root (m_parent u) x r /\ Good (UF p' (m_rank u)) /\
    length p' = length (m_parent u) /\ (forall z q, Root p' z q <-> Root (m_parent u) z q).
Proof.
  intros [HI HW] Hx Hf. 
  destruct (find_rec_ok (m_rank u) (Nat.log2 (size u)) fuel (m_parent u) x) as (p' & r & HE & HR & HI' & HL & HQ); auto.
  { apply ranks_bounded; auto. } { lia. }
  exists p', r. repeat split; auto; cbn; try apply HI'; try apply HQ. eapply Weights_same; eauto.
Qed.

Lemma find_ok u x : Good u -> x < size u ->
  exists p' r, find u x = Found p' r /\ Root (m_parent u) x r /\ Good (UF p' (m_rank u)) /\
    length p' = length (m_parent u) /\ (forall z q, Root p' z q <-> Root (m_parent u) z q).
Proof.
  intros HG Hx. apply find_log; auto. unfold size in *. pose proof (Nat.log2_lt_lin (length (m_parent u)) ltac:(lia)). lia.
Qed.

(* linking root y below root x *)
Section Link.
Variables (p : list nat) (rk : list nat) (x y : nat).
Hypothesis HI : Inv p rk.
Hypothesis Hx : Root p x x.
Hypothesis Hy : Root p y y.
Hypothesis Hxy : x <> y.
Let p' := list_set p y x.

Lemma ly_lt : y < length p. Proof. eapply nth_error_lt. eapply Root_root; eauto. Qed.
Lemma lx_lt : x < length p. Proof. eapply nth_error_lt. eapply Root_root; eauto. Qed.

Lemma link_Root_fwd z r : Root p z r -> Root p' z (if r =? y then x else r).
Proof.
  pose proof ly_lt. unfold p'.
  assert (HX : nth_error (list_set p y x) x = Some x).
  { rewrite nth_error_list_set_ne by auto. eapply Root_root; eauto. }
  induction 1 as [z H'|z w r H' Hn Hr IH].
  - destruct (Nat.eqb_spec z y) as [->|].
    + eapply Root_step; [apply nth_error_list_set_eq; auto|auto|constructor; auto].
    + constructor. rewrite nth_error_list_set_ne; auto.
  - destruct (Nat.eq_dec z y) as [->|].
    + pose proof (Root_root _ _ _ Hy). congruence.
    + eapply Root_step; eauto. rewrite nth_error_list_set_ne; auto.
Qed.

Lemma link_Root z r' : Root p' z r' <-> exists r, Root p z r /\ r' = (if r =? y then x else r).
Proof.
  split.
  - intros H. assert (Hz : z < length p).
    { unfold p' in H. inversion H; subst; rewrite <- (list_set_length p y x); eapply nth_error_lt; eauto. }
    destruct (Root_total _ _ HI z Hz) as (r & Hr & _). exists r; split; auto.
    eapply Root_det; [exact H|]. apply link_Root_fwd; auto.
  - intros (r & Hr & ->). apply link_Root_fwd; auto.
Qed.

Lemma link_is_root z : is_root p' z = is_root p z && negb (z =? y).
Proof.
  unfold is_root, p'. pose proof ly_lt. destruct (Nat.eqb_spec z y) as [->|Hne]; cbn [negb].
  - rewrite nth_error_list_set_eq by auto. rewrite andb_false_r. apply Nat.eqb_neq; auto.
  - rewrite nth_error_list_set_ne by auto. rewrite andb_true_r. auto.
Qed.

Lemma link_wsum w k : wsum p' (fun z => if z =? x then w x + w y else w z) k
  + (if (y <? k) then w y else 0) = wsum p w k + (if x <? k then w y else 0).
Proof.
  pose proof (proj2 (is_root_iff p x) Hx) as Rx. pose proof (proj2 (is_root_iff p y) Hy) as Ry.
  induction k as [|k IH]; [cbn; lia|]. cbn [wsum]. rewrite link_is_root.
  destruct (Nat.eqb_spec k y) as [->|Ny].
  - rewrite andb_false_r, Ry. destruct (Nat.ltb_spec y (S y)); [|lia]. destruct (Nat.ltb_spec y y); [lia|].
    destruct (Nat.ltb_spec x y), (Nat.ltb_spec x (S y)); lia.
  - rewrite andb_true_r. destruct (Nat.eqb_spec k x) as [->|Nx].
    + rewrite Rx. destruct (Nat.ltb_spec x (S x)); [|lia]. destruct (Nat.ltb_spec x x); [lia|].
      destruct (Nat.ltb_spec y x), (Nat.ltb_spec y (S x)); lia.
    + destruct (is_root p k);
      destruct (Nat.ltb_spec x k), (Nat.ltb_spec x (S k)), (Nat.ltb_spec y k), (Nat.ltb_spec y (S k)); lia.
Qed.

Lemma link_Good rk' : Weights p rk -> length rk' = length rk -> rk_of rk y < rk_of rk' x ->
  rk_of rk x <= rk_of rk' x ->
  (forall z, z <> x -> rk_of rk' z = rk_of rk z) -> 
  (2 ^ rk_of rk' x <= 2 ^ rk_of rk x + 2 ^ rk_of rk y) ->
  Good (UF p' rk').
Proof.
  intros (w & Hw & Hs) HL Hlt Hge Hsame Hpow. split; cbn [UnionFindModel.m_parent UnionFindModel.m_rank].
  - unfold p'. constructor.
    + rewrite list_set_length, HL. apply HI.
    + intros a b H. rewrite list_set_length. rewrite nth_error_list_set in H.
      destruct (_ && _); [|eapply I_par; eauto]. injection H as <-. apply lx_lt.
    + intros a b H Hab. rewrite nth_error_list_set in H. destruct (_ && _) eqn:E.
      * injection H as <-. apply andb_prop in E. destruct E as [E _]. apply Nat.eqb_eq in E. subst a.
        rewrite Hsame; auto.
      * pose proof (I_rank _ _ HI _ _ H Hab). assert (a <> x).
        { intros ->. pose proof (Root_root _ _ _ Hx). congruence. }
        rewrite (Hsame a) by auto. destruct (Nat.eq_dec b x) as [->|]; [lia|]. rewrite Hsame; auto.
  - exists (fun z => if z =? x then w x + w y else w z). split.
    + intros z Hz. rewrite link_is_root in Hz. apply andb_prop in Hz. destruct Hz as [Hz Hzy].
      destruct (Nat.eqb_spec z x) as [->|Hne].
      * pose proof (Hw _ Hz). pose proof (Hw y (proj2 (is_root_iff p y) Hy)). lia.
      * rewrite Hsame by auto. auto.
    + unfold p'. rewrite list_set_length. fold p'. pose proof (link_wsum w (length p)) as H.
      pose proof ly_lt. pose proof lx_lt.
      destruct (Nat.ltb_spec x (length p)), (Nat.ltb_spec y (length p)); lia.
Qed.
End Link.

Definition same (p : list nat) x y := exists r, Root p x r /\ Root p y r.

Lemma nth_list_set (l : list nat) i v j : i < length l -> nth j (list_set l i v) 0 = if j =? i then v else nth j l 0.
Proof.
  intros H. destruct (nth_error (list_set l i v) j) as [a|] eqn:E.
  - rewrite (nth_error_nth _ _ _ E). rewrite nth_error_list_set in E. apply Nat.ltb_lt in H. rewrite H, andb_true_r in E.
    destruct (j =? i); [congruence|]. symmetry. apply nth_error_nth. auto.
  - rewrite nth_error_None, list_set_length in E. rewrite !nth_overflow by (rewrite ?list_set_length; auto).
    destruct (Nat.eqb_spec j i); auto; lia.
Qed.

Lemma merge_ok u x y : Good u -> x < size u -> y < size u ->
  exists u', merge u x y = Merged u' /\ Good u' /\ size u' = size u /\
    forall a b, a < size u -> b < size u -> (same (m_parent u') a b <->
      same (m_parent u) a b \/ (same (m_parent u) a x /\ same (m_parent u) y b) \/ (same (m_parent u) a y /\ same (m_parent u) x b)).
Proof.
  intros HG Hx Hy. unfold merge.
  destruct (Nat.leb_spec (length (m_parent u)) x); [unfold size in *; lia|].
  destruct (Nat.leb_spec (length (m_parent u)) y); [unfold size in *; lia|]. cbn [orb].
  destruct (find_ok u x HG Hx) as (p1 & rx & E1 & HR1 & HG1 & HL1 & HQ1). rewrite E1.
  destruct (find_ok (UF p1 (m_rank u)) y HG1) as (p2 & ry & E2 & HR2 & HG2 & HL2 & HQ2).
  { unfold size in *; cbn; lia. }
  rewrite E2. cbn [m_parent m_rank] in *.
  assert (HQ : forall z q, Root p2 z q <-> Root (m_parent u) z q) by (intros; rewrite HQ2; apply HQ1).
  assert (HRx : Root p2 x rx) by (apply HQ; auto).
  assert (HRy : Root p2 y ry) by (apply HQ2; auto).
  assert (Hrx : Root p2 rx rx) by (constructor; eapply Root_root; eauto).
  assert (Hry : Root p2 ry ry) by (constructor; eapply Root_root; eauto).
  assert (HS : forall a b, same p2 a b <-> same (m_parent u) a b).
  { intros a b. split; intros (r & Ha & Hb); exists r; split; apply HQ; auto. }
  assert (HT : forall a, a < size u -> exists r, Root p2 a r).
  { intros a Ha. destruct (Root_total _ _ (proj1 HG2) a) as (r & Hr & _); eauto. unfold size in *; cbn in *; lia. }
  assert (HSx : forall a r, Root p2 a r -> (same p2 a x <-> r = rx)).
  { intros a r Ha. split; [intros (q & H1 & H2)|intros ->; exists rx; auto].
    rewrite (Root_det _ _ _ _ Ha H1). eapply Root_det; eauto. }
  assert (HSy : forall a r, Root p2 a r -> (same p2 a y <-> r = ry)).
  { intros a r Ha. split; [intros (q & H1 & H2)|intros ->; exists ry; auto].
    rewrite (Root_det _ _ _ _ Ha H1). eapply Root_det; eauto. }
  assert (HSab : forall a b r q, Root p2 a r -> Root p2 b q -> (same p2 a b <-> r = q)).
  { intros a b r q Ha Hb. split; [intros (t & H1 & H2)|intros ->; exists q; auto].
    rewrite (Root_det _ _ _ _ Ha H1). eapply Root_det; eauto. }
  assert (Hsym : forall a b, same p2 a b <-> same p2 b a) by (intros a b; split; intros (t & ? & ?); exists t; auto).
  assert (Hlink : forall A B, (A = rx /\ B = ry \/ A = ry /\ B = rx) -> A <> B -> Root p2 A A -> Root p2 B B ->
     forall a b, a < size u -> b < size u -> (same (list_set p2 B A) a b <->
      same p2 a b \/ (same p2 a x /\ same p2 y b) \/ (same p2 a y /\ same p2 x b))).
  { intros A B HAB Hne HA HB a b Ha Hb. destruct (HT a Ha) as (r & Hr). destruct (HT b Hb) as (q & Hq).
    rewrite (HSab _ _ _ _ Hr Hq), (HSx _ _ Hr), (HSy _ _ Hr).
    rewrite (Hsym y b), (Hsym x b), (HSx _ _ Hq), (HSy _ _ Hq).
    assert (HLa : Root (list_set p2 B A) a (if r =? B then A else r)) by (eapply link_Root_fwd; eauto).
    assert (HLb : Root (list_set p2 B A) b (if q =? B then A else q)) by (eapply link_Root_fwd; eauto).
    transitivity ((if r =? B then A else r) = (if q =? B then A else q)).
    - split; [intros (t & H1 & H2)|].
      + rewrite (Root_det _ _ _ _ HLa H1). eapply Root_det; eauto.
      + intros E. exists (if r =? B then A else r). split; auto. rewrite E; auto.
    - destruct (Nat.eqb_spec r B), (Nat.eqb_spec q B); subst; split; intros; try lia. }
  assert (Hlen : length (m_rank u) = length p2) by (symmetry; apply HG2).
  assert (Hrxl : rx < length p2) by (eapply nth_error_lt; eapply Root_root; eauto).
  assert (Hryl : ry < length p2) by (eapply nth_error_lt; eapply Root_root; eauto).
  assert (HSfin : forall p', (forall a b, a < size u -> b < size u -> (same p' a b <->
      same p2 a b \/ (same p2 a x /\ same p2 y b) \/ (same p2 a y /\ same p2 x b))) ->
      forall a b, a < size u -> b < size u -> (same p' a b <->
      same (m_parent u) a b \/ (same (m_parent u) a x /\ same (m_parent u) y b) \/ (same (m_parent u) a y /\ same (m_parent u) x b))).
  { intros p' H' a b Ha Hb. rewrite H', !HS by auto. reflexivity. }
  destruct HG2 as [HI2 HW2]; cbn [m_parent m_rank] in *.
  destruct (Nat.eqb_spec rx ry) as [Eq|Ne].
  - eexists; split; [reflexivity|]. split; [split; auto|]. split; [unfold size; cbn; lia|]. cbn [m_parent].
    apply HSfin. intros a b Ha Hb. split; [auto|]. intros [H'|[[H1 H2]|[H1 H2]]]; auto.
    + destruct (HT a Ha) as (r & Hr). destruct (HT b Hb) as (q & Hq). rewrite (HSab _ _ _ _ Hr Hq).
      apply (HSx _ _ Hr) in H1. apply Hsym in H2. apply (HSy _ _ Hq) in H2. congruence.
    + destruct (HT a Ha) as (r & Hr). destruct (HT b Hb) as (q & Hq). rewrite (HSab _ _ _ _ Hr Hq).
      apply (HSy _ _ Hr) in H1. apply Hsym in H2. apply (HSx _ _ Hq) in H2. congruence.
  - destruct (Nat.ltb_spec (nth rx (m_rank u) 0) (nth ry (m_rank u) 0)) as [Clt|Cge];
    [|destruct (Nat.ltb_spec (nth ry (m_rank u) 0) (nth rx (m_rank u) 0)) as [Cgt|Ceq]].
    + eexists; split; [reflexivity|]. split; [|split; [unfold size; cbn; rewrite list_set_length; lia|]].
      * apply (link_Good p2 (m_rank u) ry rx); auto. unfold rk_of. lia.
      * cbn [m_parent]. apply HSfin. apply Hlink; auto.
    + eexists; split; [reflexivity|]. split; [|split; [unfold size; cbn; rewrite list_set_length; lia|]].
      * apply (link_Good p2 (m_rank u) rx ry); auto. unfold rk_of. lia.
      * cbn [m_parent]. apply HSfin. apply Hlink; auto.
    + eexists; split; [reflexivity|]. split; [|split; [unfold size; cbn; rewrite list_set_length; lia|]].
      * assert (HNL : forall z, rk_of (list_set (m_rank u) rx (nth rx (m_rank u) 0 + 1)) z = if z =? rx then nth rx (m_rank u) 0 + 1 else rk_of (m_rank u) z).
        { intros z. unfold rk_of. rewrite nth_list_set by lia. auto. }
        apply (link_Good p2 (m_rank u) rx ry); auto.
        -- apply list_set_length.
        -- rewrite HNL, Nat.eqb_refl. unfold rk_of. lia.
        -- rewrite HNL, Nat.eqb_refl. unfold rk_of. lia.
        -- intros z Hz. rewrite HNL. destruct (Nat.eqb_spec z rx); [lia|auto].
        -- rewrite HNL, Nat.eqb_refl. unfold rk_of. replace (nth ry (m_rank u) 0) with (nth rx (m_rank u) 0) by lia.
           rewrite Nat.pow_add_r. cbn. lia.
      * cbn [m_parent]. apply HSfin. apply Hlink; auto.
Qed.

Lemma grow_nth u n x : nth_error (m_parent (grow u n)) x =
  if x <? size u then nth_error (m_parent u) x else if x <? size u + n then Some x else None.
Proof.
  unfold grow, size; cbn [m_parent]. rewrite nth_error_app. destruct (Nat.ltb_spec x (length (m_parent u))); auto.
  destruct (Nat.ltb_spec x (length (m_parent u) + n)).
  - rewrite (nth_error_nth' _ 0) by (rewrite seq_length; lia). rewrite seq_nth by lia. f_equal. lia.
  - apply nth_error_None. rewrite seq_length. lia.
Qed.

Lemma grow_Root u n : Good u -> forall z r, Root (m_parent (grow u n)) z r <->
  (z < size u /\ Root (m_parent u) z r) \/ (size u <= z < size u + n /\ r = z).
Proof.
  intros [HI _] z r. split.
  - induction 1 as [z H|z y r H Hne Hr IH]; rewrite grow_nth in H.
    + destruct (Nat.ltb_spec z (size u)); [left; split; auto; constructor; auto|].
      destruct (Nat.ltb_spec z (size u + n)); [right; auto|discriminate].
    + destruct (Nat.ltb_spec z (size u)).
      * left. split; auto. pose proof (I_par _ _ HI _ _ H). fold (size u) in *.
        destruct IH as [[_ IH]|]; [|lia]. eapply Root_step; eauto.
      * destruct (Nat.ltb_spec z (size u + n)); congruence.
  - intros [[Hz H]|[Hz ->]].
    + induction H as [z H|z y r H Hne Hr IH].
      * constructor. rewrite grow_nth. destruct (Nat.ltb_spec z (size u)); auto; lia.
      * eapply Root_step; eauto. rewrite grow_nth. destruct (Nat.ltb_spec z (size u)); auto; lia.
        apply IH. eapply I_par; eauto.
    + constructor. rewrite grow_nth. destruct (Nat.ltb_spec z (size u)); [lia|]. destruct (Nat.ltb_spec z (size u + n)); auto; lia.
Qed.

Lemma grow_rank u n z : rk_of (m_rank (grow u n)) z = rk_of (m_rank u) z.
Proof.
  unfold grow, rk_of; cbn [m_rank]. destruct (Nat.lt_ge_cases z (length (m_rank u))).
  - rewrite app_nth1; auto.
  - rewrite app_nth2 by auto. rewrite (nth_overflow (m_rank u)) by auto.
    generalize (z - length (m_rank u)). clear. induction n as [|n IH]; intros [|m]; cbn; auto.
Qed.

Lemma wsum_le p w k : (forall z, z < k -> w z = 1) -> wsum p w k <= k.
Proof. induction k as [|k IH]; intros H; cbn [wsum]; [lia|]. specialize (IH ltac:(auto)). rewrite H by lia. destruct (is_root p k); lia. Qed.

Lemma grow_Good u n : Good u -> Good (grow u n).
Proof.
  intros HG. pose proof HG as [HI (w & Hw & Hs)].
  assert (HSZ : length (m_parent (grow u n)) = size u + n).
  { unfold grow, size; cbn. rewrite app_length, seq_length. auto. }
  split.
  - constructor.
    + unfold grow; cbn. rewrite !app_length, seq_length, repeat_length, (I_len _ _ HI). auto.
    + intros x y H. rewrite HSZ. rewrite grow_nth in H. destruct (Nat.ltb_spec x (size u)).
      * pose proof (I_par _ _ HI _ _ H). fold (size u) in *; lia.
      * destruct (Nat.ltb_spec x (size u + n)); [|discriminate]. injection H as <-. lia.
    + intros x y H Hne. rewrite !grow_rank. rewrite grow_nth in H. destruct (Nat.ltb_spec x (size u)).
      * eapply I_rank; eauto.
      * destruct (Nat.ltb_spec x (size u + n)); congruence.
  - set (w' := fun z => if z <? size u then w z else 1). exists w'.
    assert (HR : forall z, z < size u -> is_root (m_parent (grow u n)) z = is_root (m_parent u) z).
    { intros z Hz. unfold is_root. rewrite grow_nth. destruct (Nat.ltb_spec z (size u)); auto; lia. }
    split.
    + intros x Hx. rewrite grow_rank. unfold w'. destruct (Nat.ltb_spec x (size u)) as [C|C].
      * apply Hw. rewrite <- HR; auto.
      * unfold rk_of. rewrite nth_overflow; [cbn; lia|]. rewrite <- (I_len _ _ HI). auto.
    + rewrite HSZ. clear HSZ.
      assert (HW0 : wsum (m_parent (grow u n)) w' (size u) <= size u).
      { rewrite (wsum_ext _ _ (m_parent u) w); auto. intros z Hz _. unfold w'. destruct (Nat.ltb_spec z (size u)); auto; lia. }
      assert (forall m, wsum (m_parent (grow u n)) w' (size u + m) <= size u + m) as H.
      { induction m as [|m IH]; [rewrite Nat.add_0_r; auto|]. rewrite Nat.add_succ_r. cbn [wsum].
        unfold w' at 2. destruct (Nat.ltb_spec (size u + m) (size u)); [lia|]. destruct (is_root _ _); lia. }
      apply H.
Qed.

Lemma construct_nth n x : nth_error (m_parent (construct n)) x = if x <? n then Some x else None.
Proof.
  unfold construct; cbn [m_parent]. destruct (Nat.ltb_spec x n).
  - rewrite (nth_error_nth' _ 0) by (rewrite seq_length; lia). rewrite seq_nth by lia. auto.
  - apply nth_error_None. rewrite seq_length. lia.
Qed.

Lemma construct_Good n : Good (construct n).
Proof.
  assert (HR : forall z, rk_of (m_rank (construct n)) z = 0).
  { cbn. unfold rk_of. intros z. revert n; induction z as [|z IH]; intros [|n]; cbn; auto. }
  split.
  - constructor.
    + cbn. rewrite seq_length, repeat_length; auto.
    + intros x y H. replace (length (m_parent (construct n))) with n by (cbn; rewrite seq_length; auto).
      rewrite construct_nth in H. destruct (Nat.ltb_spec x n); [|discriminate]. injection H as <-; auto.
    + intros x y H Hne. rewrite construct_nth in H. destruct (Nat.ltb_spec x n); congruence.
  - exists (fun _ => 1). split.
    + intros x _. rewrite HR. cbn. lia.
    + apply wsum_le. auto.
Qed.

Lemma construct_Root n z r : Root (m_parent (construct n)) z r <-> z < n /\ r = z.
Proof.
  split.
  - intros H. inversion H as [a Ha|a y b Ha Hne]; subst; rewrite construct_nth in Ha;
    match type of Ha with context [?z <? n] => destruct (Nat.ltb_spec z n) end; try discriminate; auto. congruence.
  - intros [Hz ->]. constructor. rewrite construct_nth. destruct (Nat.ltb_spec z n); auto; lia.
Qed.

(* ---- closure facts ---- *)
Lemma eqcl_mono (E F : nat -> nat -> Prop) x y : (forall a b, E a b -> F a b) -> eqcl E x y -> eqcl F x y.
Proof. intros H; induction 1; [apply eq_base; auto|apply eq_refl'|apply eq_sym'; auto|eapply eq_trans'; eauto]. Qed.

Lemma eqcl_add (E : nat -> nat -> Prop) a b x y :
  eqcl (fun s t => E s t \/ (s = a /\ t = b)) x y <->
  eqcl E x y \/ (eqcl E x a /\ eqcl E b y) \/ (eqcl E x b /\ eqcl E a y).
Proof.
  split.
  - induction 1 as [x y [H|[-> ->]]|x|x y H IH|x y z H1 IH1 H2 IH2].
    + left; apply eq_base; auto.
    + right; left; split; apply eq_refl'.
    + left; apply eq_refl'.
    + destruct IH as [IH|[[I1 I2]|[I1 I2]]]; [left; apply eq_sym'; auto|right; right|right; left]; split; apply eq_sym'; auto.
    + destruct IH1 as [I1|[[I1 I2]|[I1 I2]]], IH2 as [J1|[[J1 J2]|[J1 J2]]].
      * left; eapply eq_trans'; eauto.
      * right; left; split; auto; eapply eq_trans'; eauto.
      * right; right; split; auto; eapply eq_trans'; eauto.
      * right; left; split; auto; eapply eq_trans'; eauto.
      * right; left; auto.
      * left; eapply eq_trans'; eauto.
      * right; right; split; auto; eapply eq_trans'; eauto.
      * left; eapply eq_trans'; eauto.
      * right; right; auto.
  - assert (HM : forall s t, eqcl E s t -> eqcl (fun s t => E s t \/ s = a /\ t = b) s t)
      by (intros s t; apply eqcl_mono; auto).
    assert (HAB : eqcl (fun s t => E s t \/ s = a /\ t = b) a b) by (apply eq_base; auto).
    intros [H|[[H1 H2]|[H1 H2]]]; auto.
    + eapply eq_trans'; [apply HM; eauto|]. eapply eq_trans'; [exact HAB|]. auto.
    + eapply eq_trans'; [apply HM; eauto|]. eapply eq_trans'; [apply eq_sym'; exact HAB|]. auto.
Qed.

Lemma eqcl_range (E : nat -> nat -> Prop) n x y : (forall a b, E a b -> a < n /\ b < n) ->
  eqcl E x y -> x = y \/ (x < n /\ y < n).
Proof. intros H; induction 1 as [x y HE|x|x y H1 IH|x y z H1 IH1 H2 IH2]; auto; try lia. Qed.

(* ---- main invariant over histories ---- *)
Definition Holds (u : uf) (n : nat) (E : nat -> nat -> Prop) : Prop :=
  Good u /\ size u = n /\ (forall a b, E a b -> a < n /\ b < n) /\
  forall x y, x < n -> y < n -> (same (m_parent u) x y <-> eqcl E x y).

Lemma Holds_ext u n E F : (forall a b, E a b <-> F a b) -> Holds u n E -> Holds u n F.
Proof.
  intros H (HG & HS & HE & HQ). split; [auto|]. split; [auto|]. split; [intros a b HF; apply HE, H; auto|].
  intros x y Hx Hy. rewrite HQ by auto. split; apply eqcl_mono; intros; apply H; auto.
Qed.

Lemma Holds_construct n : Holds (construct n) n (fun _ _ => False).
Proof.
  split; [apply construct_Good|]. split; [unfold size; cbn; apply seq_length|]. split; [tauto|].
  intros x y Hx Hy. split.
  - intros (r & H1 & H2). apply construct_Root in H1, H2. destruct H1, H2. subst. subst. apply eq_refl'.
  - intros H. assert (x = y) as ->.
    { clear Hx Hy. induction H; auto; try tauto. congruence. }
    exists y. split; apply construct_Root; auto.
Qed.

Definition step_pairs (n : nat) (o : op) (E : nat -> nat -> Prop) : nat -> nat -> Prop :=
  match o with
  | Merge x y => fun s t => E s t \/ (x < n /\ y < n /\ s = x /\ t = y)
  | _ => E
  end.
Definition step_n (n : nat) (o : op) : nat := match o with Grow g => n + g | _ => n end.

Lemma Holds_step u n E o : Holds u n E -> Holds (step u o) (step_n n o) (step_pairs n o E).
Proof.
  intros (HG & HS & HE & HQ). destruct o as [g|x y|x]; cbn [step step_n step_pairs].
  - split; [apply grow_Good; auto|]. split; [unfold size, grow in *; cbn; rewrite app_length, seq_length; lia|].
    split; [intros a b H; apply HE in H; lia|].
    intros x y Hx Hy. split.
    + intros (r & H1 & H2). apply (grow_Root u g HG) in H1, H2. rewrite HS in *.
      destruct H1 as [[H1 H1']|[H1 ->]], H2 as [[H2 H2']|[H2 H2']]; try lia.
      * apply HQ; auto. exists r; auto.
      * subst r. exfalso. pose proof (Root_root _ _ _ H1') as HR. apply nth_error_lt in HR. fold (size u) in HR. lia.
      * exfalso. pose proof (Root_root _ _ _ H2') as HR. apply nth_error_lt in HR. fold (size u) in HR. lia.
      * subst. apply eq_refl'.
    + intros H. destruct (eqcl_range _ _ _ _ HE H) as [->|[Hx' Hy']].
      * destruct (Nat.lt_ge_cases y n).
        -- destruct (proj2 (HQ y y H0 H0) (eq_refl' _ _)) as (r & Hr & _). exists r; split; apply grow_Root; auto; left; rewrite HS; auto.
        -- exists y; split; apply grow_Root; auto; right; rewrite HS; auto.
      * apply HQ in H; auto. destruct H as (r & H1 & H2). exists r; split; apply grow_Root; auto; left; rewrite HS; auto.
  - destruct (Nat.lt_ge_cases x n) as [Hx|Hx]; [destruct (Nat.lt_ge_cases y n) as [Hy|Hy]|].
    + destruct (merge_ok u x y HG) as (u' & EM & HG' & HS' & HM); [lia|lia|].
      rewrite EM. split; auto. split; [lia|]. split.
      { intros a b [H|(_ & _ & -> & ->)]; auto. }
      intros a b Ha Hb. rewrite HM by lia.
      rewrite !HQ by auto.
      rewrite <- eqcl_add. split; apply eqcl_mono; intros s t; intuition.
    + unfold merge. destruct (Nat.leb_spec (length (m_parent u)) y); [|unfold size in *; lia]. rewrite orb_true_r.
      eapply Holds_ext; [|split; eauto]. intros a b; split; [auto|]. intros [|]; auto; lia.
    + unfold merge. destruct (Nat.leb_spec (length (m_parent u)) x); [|unfold size in *; lia]. cbn [orb].
      eapply Holds_ext; [|split; eauto]. intros a b; split; [auto|]. intros [|]; auto; lia.
  - destruct (Nat.lt_ge_cases x n) as [Hx|Hx].
    + destruct (find_ok u x HG) as (p' & r & EF & HR & HG' & HL & HQ'); [lia|]. rewrite EF.
      split; auto. split; [unfold size in *; cbn; lia|]. split; auto. intros a b Ha Hb. rewrite <- HQ by auto. cbn.
      split; intros (t & H1 & H2); exists t; split; apply HQ'; auto.
    + unfold find. rewrite find_rec_throw by (unfold size in *; lia). split; auto.
Qed.

Lemma elements_app n a b : elements n (a ++ b) = elements (elements n a) b.
Proof. unfold elements. apply fold_left_app. Qed.

Lemma merged_snoc n ops o a b : merged n (ops ++ [o]) a b <-> step_pairs (elements n ops) o (merged n ops) a b.
Proof.
  split.
  - intros (bf & af & E & Ha & Hb). destruct af as [|z af] using rev_ind.
    + apply app_inj_tail in E. destruct E as [-> ->]. cbn. right; auto.
    + rewrite app_comm_cons, app_assoc in E. apply app_inj_tail in E. destruct E as [-> ->].
      assert (merged n (bf ++ Merge a b :: af) a b) as H by (exists bf, af; auto).
      destruct z; cbn [step_pairs]; auto.
  - assert (HM : merged n ops a b -> merged n (ops ++ [o]) a b).
    { intros (bf & af & -> & Ha & Hb). exists bf, (af ++ [o]). rewrite <- app_assoc. auto. }
    destruct o; cbn [step_pairs]; auto. intros [H|(H1 & H2 & -> & ->)]; auto.
    exists ops, []; auto.
Qed.

Lemma after_Holds n ops : Holds (after n ops) (elements n ops) (merged n ops).
Proof.
  induction ops as [|o ops IH] using rev_ind.
  - cbn. eapply Holds_ext; [|apply Holds_construct]. intros a b. split; [tauto|].
    intros (bf & af & E & _). destruct bf; discriminate.
  - unfold after. rewrite fold_left_app. cbn [fold_left]. fold (after n ops).
    rewrite elements_app. cbn. 
    eapply Holds_ext; [intros a b; symmetry; apply merged_snoc|].
    apply (Holds_step _ _ _ o) in IH. destruct o; exact IH.
Qed.

Lemma C06_lemma n ops x y : x < elements n ops -> y < elements n ops ->
  exists p1 rx p2 ry,
    find (after n ops) x = Found p1 rx /\
    find (UF p1 (m_rank (after n ops))) y = Found p2 ry /\
    (rx = ry <-> eqcl (merged n ops) x y) /\
    rx < elements n ops /\ eqcl (merged n ops) x rx.
Proof.
  intros Hx Hy. destruct (after_Holds n ops) as (HG & HS & HE & HQ). set (u := after n ops) in *.
  destruct (find_ok u x HG ltac:(lia)) as (p1 & rx & E1 & R1 & G1 & L1 & Q1).
  destruct (find_ok (UF p1 (m_rank u)) y G1) as (p2 & ry & E2 & R2 & G2 & L2 & Q2). { unfold size in *; cbn; lia. }
  cbn [m_parent m_rank] in *.
  exists p1, rx, p2, ry. split; auto. split; auto.
  apply Q1 in R2. assert (Hrx : rx < elements n ops).
  { pose proof (Root_root _ _ _ R1) as H. apply nth_error_lt in H. unfold size in HS. lia. }
  split; [|split; auto].
  - rewrite <- HQ by auto. split.
    + intros ->. exists ry; auto.
    + intros (r & H1 & H2). rewrite (Root_det _ _ _ _ R1 H1). eapply Root_det; eauto.
  - apply HQ; auto. exists rx. split; auto. constructor. eapply Root_root; eauto.
Qed.

Lemma C06_size n ops : size (after n ops) = elements n ops.
Proof. apply after_Holds. Qed.

Lemma C06_throw n ops x y : elements n ops <= x \/ elements n ops <= y ->
  (elements n ops <= x -> find (after n ops) x = FThrow) /\
  merge (after n ops) x y = MThrow /\
  step (after n ops) (Merge x y) = after n ops.
Proof.
  intros H. pose proof (C06_size n ops) as HS. unfold size in HS. 
  assert (HM : merge (after n ops) x y = MThrow).
  { unfold merge. destruct (Nat.leb_spec (length (m_parent (after n ops))) x); auto.
    destruct (Nat.leb_spec (length (m_parent (after n ops))) y); auto. lia. }
  split; [|split; auto].
  - intros Hx. apply find_rec_throw. lia.
  - cbn. rewrite HM. auto.
Qed.

Lemma C07_lemma n ops x : x < elements n ops ->
  exists p r, find_rec (Nat.log2 (elements n ops)) (m_parent (after n ops)) x = Found p r /\ find (after n ops) x = Found p r.
Proof.
  intros Hx. destruct (after_Holds n ops) as (HG & HS & _ & _). set (u := after n ops) in *.
  destruct (find_log u x (Nat.log2 (size u)) HG ltac:(lia) ltac:(lia)) as (p & r & E & _).
  rewrite HS in E. exists p, r. split; auto.
  unfold find. clear -E HS Hx.
  assert (forall f p0 x p r, find_rec f p0 x = Found p r -> forall f', f <= f' -> find_rec f' p0 x = Found p r) as M.
  { induction f as [|f IH]; intros p0 x0 p1 r1 H f' Hf; destruct f' as [|f']; try lia; cbn [find_rec] in *;
    destruct (nth_error p0 x0) as [y|]; auto; destruct (y =? x0); auto; try discriminate.
    destruct (find_rec f p0 y) as [p2 r2| |] eqn:E2; try discriminate.
    rewrite (IH _ _ _ _ E2 f' ltac:(lia)). auto. }
  eapply M; eauto. unfold size in HS. rewrite <- HS. pose proof (Nat.log2_lt_lin (length (m_parent u)) ltac:(lia)). lia.
Qed.
