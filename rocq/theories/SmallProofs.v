From Verif Require Import Base BaseLemmas CInt SmallModel SmallSpec.
Local Open Scope Z_scope.

Lemma written_snoc {T} (h : list (nat * T)) q v p : written (h ++ [(q, v)]) p = written h p ++ (if Nat.eqb q p then [v] else []).
Proof. unfold written. rewrite filter_app, map_app. cbn. destruct (Nat.eqb q p); reflexivity. Qed.
Lemma updates_snoc {T} cmp (h : list (nat * T)) q v : forall b, updates cmp b (h ++ [(q, v)]) =
  bind (updates cmp b h) (fun b' => bind (update cmp b' q v) (fun x => Ok (snd x))).
Proof.
  induction h as [|[p w] h IH]; intros b; cbn [updates app bind].
  - destruct (update cmp b q v); reflexivity.
  - destruct (update cmp b p w) as [[]| |]; cbn [bind snd]; auto.
Qed.

Lemma zbuffer_inv {T} (cmp : T -> T -> bool) size h : strict_weak cmp -> Forall (fun x => (fst x < size)%nat) h ->
  exists b, updates cmp (zbuffer size) h = Ok b /\ length b = size /\
  forall p c, nth_error b p = Some c -> zcell cmp (written h p) c.
Proof.
  intros (Hi & Ht & Hn) HB. induction h as [|[q v] h IH] using rev_ind.
  - exists (zbuffer size). split; auto. unfold zbuffer. rewrite repeat_length. split; auto.
    intros p c E. apply nth_error_In, repeat_spec in E. subst. reflexivity.
  - apply Forall_app in HB. destruct HB as [HB HQ]. inversion HQ as [|? ? HQ' _]; subst. cbn in HQ'.
    destruct (IH HB) as (b & E & HL & HC). rewrite updates_snoc, E. cbn [bind].
    destruct (nth_error_Some_lt b q) as (c & Ec); [lia|]. unfold update. rewrite (vec_get_Ok _ _ _ Ec). cbn [bind].
    specialize (HC q) as HCq. specialize (HCq c Ec).
    destruct (match c with None => true | Some v0 => cmp v v0 end) eqn:B; cbn [bind snd]; eexists; (split; [reflexivity|]).
    + rewrite list_set_length. split; auto. intros p c' Ep. rewrite nth_error_list_set in Ep.
      rewrite written_snoc. destruct (Nat.eqb_spec q p) as [->|N].
      * destruct (Nat.eqb_spec p p) as [_|]; [|congruence]. rewrite (proj2 (Nat.ltb_lt _ _)) in Ep by lia. cbn in Ep. injection Ep as <-.
        cbn. exists (written h p), []. split; auto. destruct c as [w|]; cbn in HCq.
        -- destruct HCq as (a & b' & E1 & E2 & E3). split.
           ++ intros x Hx. apply in_app_or in Hx. destruct Hx as [Hx|[<-|[]]]; auto.
              destruct (cmp x v) eqn:Q; auto. specialize (E2 x Hx). rewrite (Ht x v w Q B) in E2. discriminate.
           ++ intros x Hx. specialize (E2 x Hx). destruct (cmp v x) eqn:Q; auto. rewrite (Hn v x w Q E2) in B. discriminate.
        -- rewrite HCq. split; [intros x [<-|[]]; auto|intros x []].
      * destruct (Nat.eqb_spec p q); [congruence|]. cbn in Ep. rewrite app_nil_r. apply (HC p); auto.
    + split; auto. intros p c' Ep. rewrite written_snoc. destruct (Nat.eqb_spec q p) as [->|N].
      * rewrite Ec in Ep. injection Ep as <-. destruct c as [w|]; [|discriminate]. cbn in *.
        destruct HCq as (a & b' & E1 & E2 & E3). exists a, (b' ++ [v]). rewrite E1, <- app_assoc. split; auto. split; auto.
        intros x Hx. rewrite app_assoc in Hx. change (a ++ w :: b') with (a ++ w :: b') in Hx. apply in_app_or in Hx.
        destruct Hx as [Hx|[<-|[]]]; auto. apply E2. rewrite E1. auto.
      * rewrite app_nil_r. apply (HC p); auto.
Qed.

Lemma C27_cells_hold_the_least_value_proof :
  forall T (cmp : T -> T -> bool) size h, strict_weak cmp -> Forall (fun x => (fst x < size)%nat) h ->
  exists b, updates cmp (zbuffer size) h = Ok b /\
  forall p, (p < size)%nat -> exists c, zat b p = Ok c /\
    match c with None => written h p = [] | Some v => first_least cmp (written h p) v end.
Proof.
  intros T cmp size h HS HB. destruct (zbuffer_inv cmp size h HS HB) as (b & E & HL & HC). exists b. split; auto.
  intros p Hp. destruct (nth_error_Some_lt b p) as (c & Ec); [lia|]. exists c. split; [apply vec_get_Ok; auto|]. apply HC; auto.
Qed.

Lemma C27_update_reports_and_is_local_proof :
  forall T (cmp : T -> T -> bool) b p (v : T), (p < length b)%nat ->
  exists s b', update cmp b p v = Ok (s, b') /\ length b' = length b /\
  (s = true -> nth_error b' p = Some (Some v)) /\ (s = false -> b' = b) /\
  (s = true <-> forall w, nth_error b p = Some (Some w) -> cmp v w = true) /\
  (forall q, q <> p -> nth_error b' q = nth_error b q).
Proof.
  intros T cmp b p v Hp. destruct (nth_error_Some_lt b p Hp) as (c & Ec). unfold update. rewrite (vec_get_Ok _ _ _ Ec). cbn [bind].
  destruct (match c with None => true | Some v0 => cmp v v0 end) eqn:B; do 2 eexists; (split; [reflexivity|]).
  - rewrite list_set_length. split; auto. split; [intros _; apply nth_error_list_set_eq; auto|]. split; [discriminate|].
    split; [|intros; apply nth_error_list_set_ne; auto]. split; auto. intros _ w Q. rewrite Ec in Q. injection Q as ->. auto.
  - split; auto. split; [discriminate|]. split; auto. split; auto. split; [discriminate|].
    intros H. destruct c as [w|]; [|discriminate]. rewrite (H w Ec) in B. discriminate.
Qed.

Lemma index1D_ok {T} (a : array T) c r : sized a -> cell a c r -> index1D a c r = r * m_width a + c /\ 0 <= r * m_width a + c < asize a.
Proof.
  intros (Hw & Hh & Hs & Hl) (Hc & Hr). unfold index1D, to_u64.
  assert (r * m_width a + c < m_width a * m_height a) by nia. assert (0 <= r * m_width a) by nia.
  rewrite (Z.mod_small (r * m_width a)) by lia. rewrite Z.mod_small by lia. lia.
Qed.

Lemma C28_index_is_a_bijection_proof :
  forall T (a : array T), sized a ->
  (forall c r, cell a c r -> 0 <= index1D a c r < asize a /\ indexTo2D a (index1D a c r) = Ok (c, r)) /\
  (forall i, 0 <= i < asize a -> exists c r, indexTo2D a i = Ok (c, r) /\ cell a c r /\ index1D a c r = i).
Proof.
  intros T a HS. split.
  - intros c r HC. destruct (index1D_ok a c r HS HC) as [-> HB]. split; auto. destruct HC as [Hc Hr]. unfold indexTo2D.
    destruct (Z.eqb_spec (m_width a) 0); [lia|]. f_equal. f_equal.
    + rewrite Z.add_comm, Z.mod_add by lia. apply Z.mod_small. lia.
    + rewrite Z.div_add_l by lia. rewrite Z.div_small by lia. lia.
  - intros i Hi. pose proof HS as (Hw & Hh & Hs & Hl). unfold indexTo2D.
    destruct (Z.eqb_spec (m_width a) 0) as [E|E]; [rewrite Hl, E in Hi; lia|].
    assert (HC : cell a (i mod m_width a) (i / m_width a)).
    { split; [apply Z.mod_pos_bound; lia|]. split; [apply Z.div_pos; lia|]. apply Z.div_lt_upper_bound; lia. }
    do 2 eexists. split; [reflexivity|]. split; auto. destruct (index1D_ok a _ _ HS HC) as [-> _].
    rewrite Z.mul_comm. symmetry. apply Z.div_mod. lia.
Qed.

Lemma C28_write_changes_one_cell_proof :
  forall T (a : array T) c r v, sized a -> cell a c r ->
  exists a', write2 a c r v = Ok a' /\ sized a' /\ m_width a' = m_width a /\ m_height a' = m_height a /\
  forall c' r', cell a c' r' -> exists w, at2 a c' r' = Ok w /\ at2 a' c' r' = Ok (if (c' =? c) && (r' =? r) then v else w).
Proof.
  intros T a c r v HS HC. unfold write2. destruct (index1D_ok a c r HS HC) as [Ei Bi]. rewrite Ei. unfold asize in *.
  rewrite vec_set_Ok by lia. cbn [bind]. eexists; split; [reflexivity|].
  destruct HS as (Hw & Hh & Hs & Hl). unfold asize in Hl.
  split; [unfold sized, asize; cbn [m_container m_width m_height]; rewrite list_set_length; auto|]. split; auto. split; auto.
  intros c' r' HC'. destruct (index1D_ok a c' r' ltac:(unfold sized; auto) HC') as [Ei' Bi']. unfold asize in Bi'.
  destruct (nth_error_Some_lt (m_container a) (Z.to_nat (r' * m_width a + c'))) as (w & Ew); [lia|].
  exists w. unfold at2, at1. rewrite Ei'. split; [apply vec_get_Ok; auto|].
  assert (E' : index1D (A2 (list_set (m_container a) (Z.to_nat (r * m_width a + c)) v) (m_width a) (m_height a)) c' r' = r' * m_width a + c').
  { unfold index1D in *. cbn [m_width]. exact Ei'. }
  rewrite E'. apply vec_get_Ok. cbn [m_container]. rewrite nth_error_list_set. destruct HC as [Hc Hr], HC' as [Hc' Hr'].
  destruct (Z.eqb_spec c' c) as [->|Nc]; [destruct (Z.eqb_spec r' r) as [->|Nr]|]; cbn [andb].
  - rewrite Nat.eqb_refl, (proj2 (Nat.ltb_lt _ _)) by lia. reflexivity.
  - destruct (Nat.eqb_spec (Z.to_nat (r' * m_width a + c)) (Z.to_nat (r * m_width a + c))) as [E|E]; [exfalso; nia|exact Ew].
  - destruct (Nat.eqb_spec (Z.to_nat (r' * m_width a + c')) (Z.to_nat (r * m_width a + c))) as [E|E]; [exfalso|exact Ew].
    assert (Q : r' * m_width a + c' = r * m_width a + c) by lia.
    assert (r' = r) by nia. subst. lia.
Qed.

Lemma C28_fill_proof :
  forall T (a : array T) w h v, 0 <= w < 2 ^ 64 -> 0 <= h < 2 ^ 64 -> w * h < 2 ^ 64 ->
  (forall b, b = construct w h v \/ b = assign a w h v ->
     sized b /\ m_width b = w /\ m_height b = h /\ forall c r, cell b c r -> at2 b c r = Ok v) /\
  (sized a -> sized (set a v) /\ m_width (set a v) = m_width a /\ m_height (set a v) = m_height a /\
     forall c r, cell (set a v) c r -> at2 (set a v) c r = Ok v) /\
  sized (resize a w h v).
Proof.
  assert (H : forall T (w h : Z) (v : T), 0 <= w < 2 ^ 64 -> 0 <= h < 2 ^ 64 -> w * h < 2 ^ 64 ->
     let b := A2 (repeat v (Z.to_nat (to_u64 (w * h)))) w h in sized b /\ forall c r, cell b c r -> at2 b c r = Ok v).
  { intros T w h v Hw Hh Hs b. assert (HS : sized b).
    { unfold sized, b, asize; cbn [m_container m_width m_height]. rewrite repeat_length. unfold to_u64.
      rewrite Z.mod_small by nia. rewrite Z2Nat.id by nia. auto. }
    split; auto. intros c r HC. unfold at2, at1. destruct (index1D_ok b c r HS HC) as [-> B]. unfold asize in B.
    destruct (nth_error_Some_lt (m_container b) (Z.to_nat (r * m_width b + c))) as (x & E); [lia|].
    apply vec_get_Ok. rewrite E. f_equal. apply nth_error_In in E. unfold b in E. cbn [m_container] in E. apply repeat_spec in E. auto. }
  intros T a w h v Hw Hh Hs. split; [|split].
  - intros b [->| ->]; destruct (H T w h v Hw Hh Hs) as [H1 H2]; auto.
  - intros (Hw' & Hh' & Hs' & _). destruct (H T _ _ v Hw' Hh' Hs') as [H1 H2]; auto.
  - unfold sized, resize, asize, vresize; cbn [m_container m_width m_height]. rewrite app_length, firstn_length, repeat_length.
    unfold to_u64. rewrite Z.mod_small by nia. repeat split; try lia; nia.
Qed.

Lemma C28_resize_does_not_keep_cells_proof :
  exists (a : array nat), sized a /\ at2 a 0 1 = Ok 3%nat /\ at2 (resize a 3 2 0%nat) 0 1 = Ok 4%nat.
Proof. exists (A2 [1;2;3;4]%nat 2 2). vm_compute. intuition congruence. Qed.

(* ---- C29 ---- *)
Lemma convert_testbit t z n : 0 < iwidth t -> 0 <= n < iwidth t -> Z.testbit (convert t z) n = Z.testbit z n.
Proof.
  intros Hw Hn. unfold convert. destruct (isigned t); [|apply Z.mod_pow2_bits_low; lia].
  set (w := iwidth t) in *. set (h := 2 ^ (w - 1)).
  assert (E : ((z + h) mod 2 ^ w - h) mod 2 ^ w = z mod 2 ^ w).
  { rewrite Zminus_mod_idemp_l. f_equal. lia. }
  rewrite <- (Z.mod_pow2_bits_low _ w n) by lia. rewrite E. apply Z.mod_pow2_bits_low. lia.
Qed.
Lemma convert_high t z n : 0 < iwidth t -> iwidth t <= n -> Z.testbit (convert t z) n = if isigned t then Z.testbit (convert t z) (iwidth t - 1) else false.
Proof.
  intros Hw Hn. unfold convert. destruct (isigned t) eqn:S; [|apply Z.mod_pow2_bits_high; lia].
  set (w := iwidth t) in *. set (h := 2 ^ (w - 1)). set (x := (z + h) mod 2 ^ w).
  assert (Hx : 0 <= x < 2 ^ w) by (apply Z.mod_pos_bound, Z.pow_pos_nonneg; lia).
  assert (H2 : 2 ^ w = 2 * h) by (unfold h; rewrite <- Z.pow_succ_r by lia; f_equal; lia).
  assert (0 < h) by (unfold h; apply Z.pow_pos_nonneg; lia).
  assert (Hpos : forall y m, 0 <= y < h -> w - 1 <= m -> Z.testbit y m = false).
  { intros y m Hy Hm. rewrite <- (Z.mod_small y h) by lia. unfold h. apply Z.mod_pow2_bits_high. lia. }
  destruct (Z.le_gt_cases h x) as [C|C].
  - rewrite !Hpos; auto; lia.
  - assert (Hneg : forall m, w - 1 <= m -> Z.testbit (x - h) m = true).
    { intros m Hm. rewrite <- (Z.lnot_involutive (x - h)), Z.lnot_spec by lia. rewrite Hpos; auto. unfold Z.lnot. lia. }
    rewrite !Hneg; auto; lia.
Qed.

Lemma C29_bits_proof :
  forall t bits x n, 0 < iwidth t <= 32 -> 0 <= n < iwidth t ->
  Z.testbit (setBits t bits x) n = Z.testbit x n || Z.testbit bits n /\
  Z.testbit (clearBits t bits x) n = Z.testbit x n && negb (Z.testbit bits n) /\
  convert t (setBits t bits x) = setBits t bits x /\ convert t (clearBits t bits x) = clearBits t bits x.
Proof.
  assert (Hidem : forall t z, 0 < iwidth t -> convert t (convert t z) = convert t z).
  { intros t z Hw. apply Z.bits_inj'. intros n Hn. destruct (Z.lt_ge_cases n (iwidth t)) as [C|C].
    - rewrite convert_testbit by lia. reflexivity.
    - rewrite !(convert_high t _ n) by lia. destruct (isigned t); auto. rewrite convert_testbit by lia. reflexivity. }
  intros t bits x n Hw Hn. unfold setBits, clearBits. rewrite !convert_testbit by lia. rewrite Z.lor_spec, Z.land_spec, Z.lnot_spec by lia.
  rewrite convert_testbit by (cbn; lia). split; auto. split; auto. split; apply Hidem; lia.
Qed.

Lemma C29_isBitSet_proof :
  forall t bit x, 0 < iwidth t <= 32 -> in_range t x ->
  (isBitSet t bit x = true <-> exists n, 0 <= n < iwidth t /\ Z.testbit x n = true /\ Z.testbit bit n = true).
Proof.
  intros t bit x Hw Hx. unfold isBitSet. rewrite negb_true_iff, Z.eqb_neq. split.
  - intros H.
    assert (D : {n | 0 <= n < iwidth t /\ Z.testbit x n && Z.testbit bit n = true} + {forall n, 0 <= n < iwidth t -> Z.testbit x n && Z.testbit bit n = false}).
    { clear H Hx. assert (0 <= iwidth t) as Hw' by lia. clear Hw. revert Hw'. generalize (iwidth t). intros w Hw.
      assert (G : forall k : nat, {n | 0 <= n < Z.of_nat k /\ Z.testbit x n && Z.testbit bit n = true} + {forall n, 0 <= n < Z.of_nat k -> Z.testbit x n && Z.testbit bit n = false}).
      { induction k as [|k [(n & Hn & E)|IH]].
        - right. intros; lia.
        - left. exists n. split; auto. lia.
        - destruct (Z.testbit x (Z.of_nat k) && Z.testbit bit (Z.of_nat k)) eqn:E.
          + left. exists (Z.of_nat k). split; auto. lia.
          + right. intros n Hn. destruct (Z.eq_dec n (Z.of_nat k)) as [->|N]; auto. apply IH. lia. }
      destruct (G (Z.to_nat w)) as [(n & Hn & E)|F]; [left; exists n; split; auto; lia|right; intros n Hn; apply F; lia]. }
    destruct D as [(n & Hn & E)|F].
    + exists n. apply andb_prop in E. tauto.
    + exfalso. apply H. apply Z.bits_inj'. intros n Hn. rewrite Z.bits_0, Z.land_spec.
      destruct (Z.lt_ge_cases n (iwidth t)) as [C|C].
      * rewrite convert_testbit by lia. apply F. lia.
      * unfold in_range in Hx. rewrite <- Hx. rewrite !(convert_high t _ n) by lia. destruct (isigned t); auto.
        rewrite !convert_testbit by lia. apply F. lia.
  - intros (n & Hn & E1 & E2) E0. apply (f_equal (fun z => Z.testbit z n)) in E0. rewrite Z.bits_0, Z.land_spec, convert_testbit, E1, E2 in E0 by lia. discriminate.
Qed.

(* ---- C30 ---- *)
Lemma frun_final {T} (l : list (fop T)) : forall x, m_final x = true -> frun x l = x.
Proof.
  induction l as [|o l IH]; intros x Hx; auto. cbn [frun fold_left]. unfold frun in IH.
  assert (E : fst (fstep x o) = x).
  { destruct x as [v f]; cbn in Hx; subst f. destruct o; reflexivity. }
  rewrite E. auto.
Qed.

Lemma C30_final_is_for_ever_proof :
  forall T (x : finalizable T) before after,
  let y := ffinalize (frun x before) in
  frun y after = y /\ m_value y = m_value (frun x before) /\ m_final y = true /\
  (forall v, fassign (frun y after) v = (y, Throw)) /\ (forall o, fassign_obj (frun y after) o = (y, Throw)) /\
  fcopy (frun y after) = y.
Proof.
  intros T x before after y. assert (E : frun y after = y) by (apply frun_final; reflexivity).
  rewrite E. repeat split; intros; unfold fassign, fassign_obj; cbn; auto.
Qed.

Lemma C30_assignable_until_final_proof :
  forall T (v0 : T) (ops : list (fop T)), ~ In FFinalize ops ->
  let x := frun (fconstruct v0) ops in
  m_final x = false /\
  (forall v, fassign x v = (Fin v false, Ok tt)) /\ (forall o, fassign_obj x o = (Fin (m_value o) false, Ok tt)).
Proof.
  intros T v0 ops H. assert (G : forall x, m_final x = false -> m_final (frun x ops) = false).
  { induction ops as [|o ops IH]; intros x Hx; auto. cbn [frun fold_left]. apply IH; [intros Q; apply H; right; auto|].
    destruct o; cbn [fstep fst]; unfold fassign, fassign_obj; try rewrite Hx; auto. exfalso. apply H. left. auto. }
  cbv zeta. specialize (G (fconstruct v0) eq_refl). split; auto. unfold fassign, fassign_obj. rewrite G. auto.
Qed.

Lemma C43_stack_is_lifo_proof :
  forall T (s : list T) t, pop (push s t) = Ok s /\ top (push s t) = Ok t /\ length (push s t) = S (length s) /\
  (s <> [] -> exists s' u, pop s = Ok s' /\ top s = Ok u /\ push s' u = s).
Proof.
  intros T s t. unfold push, pop, top. split; [|split; [|split]].
  - destruct (s ++ [t]) eqn:E; [destruct s; discriminate|]. rewrite <- E. rewrite removelast_last. auto.
  - rewrite rev_app_distr. reflexivity.
  - rewrite app_length. cbn. lia.
  - intros Hs. destruct (exists_last Hs) as (s' & u & ->). exists s', u. rewrite removelast_last, rev_app_distr.
    destruct (s' ++ [u]) eqn:E; [destruct s'; discriminate|]. auto.
Qed.

Lemma C43_find_is_the_lowest_match_proof :
  forall T (comp : T -> T -> bool) s t, let i := sfind comp s t in
  (i <= length s)%nat /\ (forall j x, (j < i)%nat -> nth_error s j = Some x -> comp x t = false) /\
  (forall x, nth_error s i = Some x -> comp x t = true) /\
  (i = length s <-> forall x, In x s -> comp x t = false).
Proof.
  intros T comp s t. cbv zeta. induction s as [|x s (IH1 & IH2 & IH3 & IH4)]; cbn [sfind].
  - cbn. repeat split; auto; try discriminate; try lia; intros; try contradiction; destruct j; discriminate.
  - destruct (comp x t) eqn:E; cbn [length].
    + split; [lia|]. split; [intros; lia|]. split; [intros y [= <-]; auto|]. split; [lia|].
      intros H. rewrite (H x) in E; [discriminate|left; auto].
    + split; [lia|]. split; [|split; [exact IH3|]].
      * intros [|j] y Hj; cbn; [intros [= <-]; auto|apply IH2; lia].
      * split.
        -- intros H y [<-|Hy]; auto. apply IH4; auto.
        -- intros H. f_equal. apply IH4. intros y Hy. apply H. right. auto.
Qed.

