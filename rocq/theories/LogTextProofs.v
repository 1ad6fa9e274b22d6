From Verif Require Import Base BaseLemmas Text CInt LogTextModel LogTextSpec.
Local Open Scope Z_scope.

(* memory *)
Lemma list_set_mid {A} (a : list A) b x c : list_set (a ++ b :: c) (length a) x = a ++ x :: c.
Proof. induction a as [|y a IH]; cbn; [reflexivity|]. rewrite IH. reflexivity. Qed.
Lemma store_app l : forall a b c, length b = length l -> store (a ++ b ++ c) (length a) l = Ok (a ++ l ++ c).
Proof.
  induction l as [|x l IH]; intros a b c E; destruct b as [|y b]; try discriminate; [reflexivity|].
  cbn [store app]. unfold vec_set. replace (length a <? length (a ++ y :: b ++ c))%nat with true.
  2: { symmetry. apply Nat.ltb_lt. rewrite app_length. cbn. lia. }
  rewrite list_set_mid. specialize (IH (a ++ [x]) b c). rewrite <- !app_assoc in IH. cbn [app] in IH.
  rewrite app_length in IH. cbn [length] in IH. replace (length a + 1)%nat with (S (length a)) in IH by lia. apply IH. cbn in E. lia.
Qed.
Lemma store_spec d i l : (i + length l <= length d)%nat -> store d i l = Ok (firstn i d ++ l ++ skipn (i + length l) d).
Proof.
  intros H. assert (E : d = firstn i d ++ firstn (length l) (skipn i d) ++ skipn (i + length l) d).
  { rewrite <- (firstn_skipn i d) at 1. f_equal. rewrite <- (firstn_skipn (length l) (skipn i d)) at 1. f_equal.
    clear. revert i. induction d as [|x d IH]; intros [|i]; cbn; auto; destruct (length l); auto. }
  assert (L : length (firstn i d) = i) by (rewrite firstn_length; lia).
  pose proof (store_app l (firstn i d) (firstn (length l) (skipn i d)) (skipn (i + length l) d)) as S.
  rewrite L in S. rewrite <- E in S. apply S. rewrite firstn_length, skipn_length. lia.
Qed.
Lemma store_ub l : forall d i, (length d < i + length l)%nat -> l <> [] -> store d i l = UB.
Proof.
  induction l as [|x l IH]; intros d i H N; [congruence|]. cbn [store]. unfold vec_set.
  destruct (i <? length d)%nat eqn:E; [|reflexivity]. apply Nat.ltb_lt in E. destruct l as [|y l]; [cbn in H; lia|].
  apply IH; [|discriminate]. assert (X : length (list_set d i x) = length d) by (clear; revert i; induction d; destruct i; cbn; auto).
  rewrite X. cbn in *. lia.
Qed.
Lemma cstr_app s d : ~ In nul s -> c_str (map Some s ++ d) = match c_str d with Ok r => Ok (s ++ r) | Throw => Throw | UB => UB end.
Proof.
  induction s as [|c s IH]; intros N; cbn [map app c_str]; [destruct (c_str d); reflexivity|].
  destruct (Ascii.eqb_spec c nul) as [->|]; [exfalso; apply N; left; auto|]. rewrite IH by (intros H; apply N; right; auto).
  destruct (c_str d); reflexivity.
Qed.
Lemma cstr_nul s d : c_str (map Some s ++ Some nul :: d) = Ok (until_nul s).
Proof.
  induction s as [|c s IH]; cbn [map app c_str until_nul]; [rewrite Ascii.eqb_refl; reflexivity|].
  destruct (Ascii.eqb c nul); [reflexivity|]. rewrite IH. reflexivity.
Qed.
Lemma until_id s : ~ In nul s -> until_nul s = s.
Proof.
  induction s as [|c s IH]; intros N; cbn; [reflexivity|]. destruct (Ascii.eqb_spec c nul) as [->|]; [exfalso; apply N; left; auto|].
  rewrite IH; auto. intros H. apply N. right. auto.
Qed.
Lemma until_not s : ~ In nul (until_nul s).
Proof. induction s as [|c s IH]; cbn; [auto|]. destruct (Ascii.eqb_spec c nul) as [->|E]; cbn; [auto|]. intros [->|H]; auto. Qed.
Lemma until_length s : (length (until_nul s) <= length s)%nat.
Proof. induction s as [|c s IH]; cbn; [lia|]. destruct (Ascii.eqb c nul); cbn; lia. Qed.
Lemma cstr_all_ub s : ~ In nul s -> c_str (map Some s) = UB.
Proof. intros N. rewrite <- (app_nil_r (map Some s)), cstr_app by auto. reflexivity. Qed.
Lemma firstn_all_le {A} (s : list A) n : (length s <= n)%nat -> firstn n s = s.
Proof. intros H. apply firstn_all2. auto. Qed.
Lemma strncpy_fits d s n : 0 <= n -> Z.of_nat (length s) <= n -> (Z.to_nat n <= length d)%nat ->
  strncpy d s n = Ok (map Some s ++ repeat (Some nul) (Z.to_nat n - length s) ++ skipn (Z.to_nat n) d).
Proof.
  intros H0 H1 H2. unfold strncpy. rewrite (firstn_all_le s) by lia. rewrite store_spec.
  2: { rewrite app_length, map_length, repeat_length. lia. }
  cbn [firstn app]. rewrite app_length, map_length, repeat_length.
  replace (0 + (length s + (Z.to_nat n - length s)))%nat with (Z.to_nat n) by lia. rewrite <- app_assoc. reflexivity.
Qed.
Lemma strncpy_long d s n : 0 <= n -> n <= Z.of_nat (length s) -> (Z.to_nat n <= length d)%nat ->
  strncpy d s n = Ok (map Some (firstn (Z.to_nat n) s) ++ skipn (Z.to_nat n) d).
Proof.
  intros H0 H1 H2. unfold strncpy. replace (Z.to_nat n - length s)%nat with 0%nat by lia. cbn [repeat]. rewrite app_nil_r, store_spec.
  2: { rewrite map_length, firstn_length. lia. }
  rewrite map_length, firstn_length. replace (0 + Nat.min (Z.to_nat n) (length s))%nat with (Z.to_nat n) by lia. reflexivity.
Qed.
Lemma strncpy_length d s n r : strncpy d s n = Ok r -> length r = length d.
Proof.
  unfold strncpy. set (l := _ ++ _). generalize 0%nat. revert d r. induction l as [|x l IH]; intros d r i H; [injection H as <-; auto|].
  cbn [store] in H. unfold vec_set in H. destruct (i <? length d)%nat; [|discriminate]. rewrite (IH _ _ _ H).
  clear. revert i. induction d; destruct i; cbn; auto.
Qed.
Lemma skipn_repeat {A} (x : A) n m : skipn n (repeat x m) = repeat x (m - n).
Proof. revert m. induction n as [|n IH]; intros [|m]; cbn; auto. Qed.
Lemma cstr_strncpy d s n r : 0 < n -> fits s (n - 1) -> (Z.to_nat n <= length d)%nat -> strncpy d s n = Ok r -> c_str r = Ok s.
Proof.
  intros H0 [H1 N] H2 E. rewrite strncpy_fits in E by lia. injection E as <-. rewrite cstr_app by auto.
  replace (Z.to_nat n - length s)%nat with (S (Z.to_nat n - length s - 1)) by lia. cbn [repeat app c_str]. rewrite Ascii.eqb_refl.
  rewrite app_nil_r. reflexivity.
Qed.
Lemma strncpy_ok d s n : 0 <= n -> (Z.to_nat n <= length d)%nat -> exists r, strncpy d s n = Ok r.
Proof. intros H0 H. destruct (Z.le_ge_cases (Z.of_nat (length s)) n); [rewrite strncpy_fits by auto|rewrite strncpy_long by auto]; eauto. Qed.

(* decimal numerals *)
Lemma dchar_digit z : 0 <= z < 10 -> is_digit (dchar z) = true /\ dvalue (dchar z) = z.
Proof.
  intros H. unfold dchar, is_digit, dvalue. rewrite nat_ascii_embedding by lia. split; [|lia].
  apply andb_true_intro; split; apply Nat.leb_le; lia.
Qed.
Lemma number_snoc l c : number (l ++ [c]) = number l * 10 + dvalue c.
Proof. unfold number. rewrite fold_left_app. reflexivity. Qed.
Lemma udec_numeral f : forall z, 0 <= z < 2 ^ Z.of_nat f -> (0 < f)%nat ->
  udec f z <> [] /\ (forall c, In c (udec f z) -> is_digit c = true) /\ number (udec f z) = z /\ (forall r, udec f z = "0"%char :: r -> r = []) /\
  (0 < z -> forall r, udec f z <> "0"%char :: r).
Proof.
  induction f as [|f IH]; intros z H F; [lia|]. cbn [udec]. destruct (z <? 10) eqn:E.
  - apply Z.ltb_lt in E. pose proof (dchar_digit z ltac:(lia)) as [D V]. split; [discriminate|]. split; [intros c [<-|[]]; auto|].
    split; [change (0 * 10 + dvalue (dchar z) = z); lia|]. split; [intros r [= _ <-]; auto|].
    intros P r [= Q _]. assert (X : dvalue (dchar z) = 0) by (rewrite Q; reflexivity). lia.
  - apply Z.ltb_ge in E. assert (P : 2 ^ Z.of_nat (S f) = 2 * 2 ^ Z.of_nat f) by (rewrite Nat2Z.inj_succ, Z.pow_succ_r by lia; reflexivity).
    assert (Hf : (0 < f)%nat) by (destruct f; [cbn in P; lia|lia]).
    assert (Hq : 0 < z / 10 < 2 ^ Z.of_nat f).
    { split; [apply Z.div_str_pos; lia|]. apply Z.div_lt_upper_bound; lia. }
    destruct (IH (z / 10) ltac:(lia) Hf) as (N & A & V & _ & L). pose proof (dchar_digit (z mod 10) ltac:(apply Z.mod_pos_bound; lia)) as [D Vd].
    assert (G : forall r, udec f (z / 10) ++ [dchar (z mod 10)] <> "0"%char :: r).
    { intros r Q. destruct (udec f (z / 10)) as [|c l] eqn:U; [congruence|]. cbn [app] in Q. assert (Q1 : c = "0"%char) by (apply (f_equal (hd c)) in Q; exact Q). subst c. exact (L ltac:(lia) l eq_refl). }
    split; [destruct (udec f (z / 10)); discriminate|]. split.
    { intros c Hc. apply in_app_or in Hc. destruct Hc as [Hc|[<-|[]]]; auto. }
    split; [rewrite number_snoc, V, Vd; pose proof (Z.div_mod z 10 ltac:(lia)); lia|]. split.
    + intros r Q. exfalso. exact (G r Q).
    + intros _ r Q. exact (G r Q).
Qed.
Lemma dec_numeral z : numeral z (dec z).
Proof.
  unfold dec, numeral. set (f := S (Z.to_nat (Z.log2 (Z.abs z)))).
  assert (H : 0 <= Z.abs z < 2 ^ Z.of_nat f).
  { split; [lia|]. unfold f. destruct (Z.eq_dec z 0) as [->|N]; [cbn; lia|]. pose proof (Z.log2_spec (Z.abs z) ltac:(lia)) as [_ L].
    rewrite Nat2Z.inj_succ, Z2Nat.id by apply Z.log2_nonneg. exact L. }
  destruct (udec_numeral f _ H ltac:(unfold f; lia)) as (N & A & V & L & _).
  exists (udec f (Z.abs z)). split; [destruct (z <? 0); reflexivity|]. auto.
Qed.
Lemma udec_length f : forall z k, 0 <= z < 10 ^ Z.of_nat k -> (0 < k)%nat -> (length (udec f z) <= k)%nat.
Proof.
  induction f as [|f IH]; intros z k H K; cbn [udec]; [cbn; lia|]. destruct (z <? 10) eqn:E; [cbn; lia|]. apply Z.ltb_ge in E.
  rewrite app_length. cbn [length]. destruct k as [|k]; [lia|].
  assert (P : 10 ^ Z.of_nat (S k) = 10 * 10 ^ Z.of_nat k) by (rewrite Nat2Z.inj_succ, Z.pow_succ_r by lia; reflexivity).
  assert (Hk : (0 < k)%nat) by (destruct k; [cbn in P; lia|lia]).
  assert (Q : (length (udec f (z / 10)) <= k)%nat).
  { apply IH; auto. split; [apply Z.div_pos; lia|]. apply Z.div_lt_upper_bound; lia. }
  lia.
Qed.
Lemma dec_length z k : Z.abs z < 10 ^ Z.of_nat k -> (0 < k)%nat -> (length (dec z) <= (if (z <? 0)%Z then S k else k))%nat.
Proof.
  intros H K. unfold dec. pose proof (udec_length (S (Z.to_nat (Z.log2 (Z.abs z)))) (Z.abs z) k ltac:(lia) K).
  destruct (z <? 0); [cbn [length app list_ascii_of_string]; lia|lia].
Qed.
Lemma dec_no_nul z : ~ In nul (dec z).
Proof.
  destruct (dec_numeral z) as (d & E & _ & A & _). rewrite E. intros H. apply in_app_or in H. destruct H as [H|H].
  - destruct (z <? 0); [destruct H as [H|[]]; discriminate|destruct H].
  - apply A in H. discriminate.
Qed.

(* texts in the buffer *)
Lemma until_app s t : ~ In nul s -> until_nul (s ++ t) = s ++ until_nul t.
Proof.
  induction s as [|c s IH]; intros N; cbn; [reflexivity|]. destruct (Ascii.eqb_spec c nul) as [->|]; [exfalso; apply N; left; auto|].
  rewrite IH; auto. intros H. apply N. right. auto.
Qed.
Lemma firstn_app_clip {A} (p x : list A) n : (length p <= n)%nat -> firstn n (p ++ x) = p ++ firstn (n - length p) x.
Proof. intros H. rewrite firstn_app, firstn_all2 by auto. reflexivity. Qed.
Lemma load_ok s n : n <= Z.of_nat (length s) -> load s n = Ok (map Some (firstn (Z.to_nat n) s)).
Proof. intros H. unfold load. apply Z.leb_le in H. rewrite H. reflexivity. Qed.
Lemma to_u64_id z : 0 <= z < 2^64 -> to_u64 z = z. Proof. intros H. unfold to_u64. apply Z.mod_small. lia. Qed.

Section S.
  Context (SIZE : Z) (HS : 2 <= SIZE) (HS2 : SIZE < 2^62).

  Lemma holds_put_bytes t p d i x : holds SIZE t p -> data t = map Some p ++ d -> i = length p ->
    Z.of_nat (length p + length x) <= SIZE - 2 -> exists d', store (data t) i (map Some x) = Ok d' /\
    holds SIZE (with_data t d' (Z.of_nat (length p + length x))) (p ++ x).
  Proof.
    intros (H1 & H2 & _ & H4 & H5 & H6 & H7 & H8 & H9 & H10) Hd -> HL.
    rewrite store_spec by (rewrite map_length, H4; lia). eexists. split; [reflexivity|].
    unfold holds. cbn [with_data write_index data filename classname objectname function]. rewrite app_length.
    split; [lia|]. split; [lia|]. split.
    { exists (skipn (length p + length (map Some x)) (data t)). rewrite map_app, <- app_assoc. f_equal.
      rewrite Hd, firstn_app, firstn_all2, map_length, Nat.sub_diag by (rewrite map_length; lia). cbn [firstn]. apply app_nil_r. }
    split; [|auto 10]. rewrite !app_length, firstn_length, skipn_length, map_length. lia.
  Qed.

  (* write with one protected byte takes as much as fits *)
  Lemma write_holds t p src n : holds SIZE t p -> 0 <= n < 2^63 -> Z.min n (SIZE - 2 - Z.of_nat (length p)) <= Z.of_nat (length src) ->
    exists t', write SIZE t src n 1 = Ok t' /\ holds SIZE t' (firstn (Z.to_nat (SIZE - 2)) (p ++ firstn (Z.to_nat n) src)) /\
      line_level t' = line_level t /\ filename t' = filename t /\ line t' = line t /\ classname t' = classname t /\ objectname t' = objectname t /\
      function t' = function t.
  Proof.
    intros H Hn Hsrc. pose proof H as (H1 & H2 & [d Hd] & _). unfold write. rewrite H2.
    rewrite (to_u64_id (SIZE - _)) by lia. rewrite to_u64_id by lia. rewrite to_u64_id by lia.
    set (q := if _ <? _ then _ else _). assert (Q : q = Z.min n (SIZE - 2 - Z.of_nat (length p))).
    { unfold q. destruct (SIZE - Z.of_nat (length p) - 1 <? n + 1) eqn:E; [|apply Z.ltb_ge in E; lia]. apply Z.ltb_lt in E.
      destruct (1 <? SIZE - Z.of_nat (length p) - 1) eqn:E2; [apply Z.ltb_lt in E2; lia|apply Z.ltb_ge in E2; lia]. }
    clearbody q. rewrite load_ok by lia. cbn [bind]. rewrite Nat2Z.id.
    assert (LX : length (firstn (Z.to_nat q) src) = Z.to_nat q) by (rewrite firstn_length; lia).
    destruct (holds_put_bytes t p d (length p) (firstn (Z.to_nat q) src) H Hd eq_refl) as (d' & E & HH); [rewrite LX; lia|].
    rewrite E. cbn [bind]. eexists. split; [reflexivity|]. rewrite LX in HH.
    replace (Z.of_nat (length p + Z.to_nat q)) with (Z.of_nat (length p) + q) in HH by lia.
    split; [|repeat split]. rewrite firstn_app_clip by lia. rewrite firstn_firstn.
    replace (Nat.min (Z.to_nat (SIZE - 2) - length p) (Z.to_nat n)) with (Z.to_nat q) by lia. exact HH.
  Qed.

  Definition same_names (t t' : tstream) : Prop :=
    line_level t' = line_level t /\ filename t' = filename t /\ line t' = line t /\ classname t' = classname t /\ objectname t' = objectname t /\
    function t' = function t.
  Lemma same_trans a b c : same_names a b -> same_names b c -> same_names a c.
  Proof. unfold same_names. intuition congruence. Qed.

  Lemma write_text t p s : holds SIZE t p -> Z.of_nat (length s) < 2^63 -> exists t', write SIZE t (s ++ [nul]) (Z.of_nat (length s)) 1 = Ok t' /\
    holds SIZE t' (firstn (Z.to_nat (SIZE - 2)) (p ++ s)) /\ same_names t t'.
  Proof.
    intros H L. destruct (write_holds t p (s ++ [nul]) (Z.of_nat (length s)) H) as (t' & E & H' & N); [lia|rewrite app_length; cbn; lia|].
    exists t'. split; [exact E|]. split; [|exact N]. 
    replace (firstn (Z.to_nat (Z.of_nat (length s))) (s ++ [nul])) with s in H'; [exact H'|].
    rewrite Nat2Z.id, firstn_app, firstn_all, Nat.sub_diag. cbn [firstn]. rewrite app_nil_r. reflexivity.
  Qed.
  Lemma write_number t p n s : holds SIZE t p -> 0 < n < 1000 -> Z.of_nat (length s) < n -> exists t', print_number SIZE t n s = Ok t' /\
    holds SIZE t' (firstn (Z.to_nat (SIZE - 2)) (p ++ s)) /\ same_names t t'.
  Proof.
    intros H Hn L. unfold print_number, printed. rewrite firstn_all2 by lia. apply write_text; auto. lia.
  Qed.
  Lemma put_holds t p x : holds SIZE t p -> piece_ok x -> exists t', put SIZE t x = Ok t' /\
    holds SIZE t' (firstn (Z.to_nat (SIZE - 2)) (p ++ text_of x)) /\ same_names t t'.
  Proof.
    intros H K.
    assert (N : forall z n k, Z.abs z < 10 ^ Z.of_nat k -> (0 < k)%nat -> Z.of_nat (S k) < n -> n < 1000 -> exists t', print_number SIZE t n (dec z) = Ok t' /\
      holds SIZE t' (firstn (Z.to_nat (SIZE - 2)) (p ++ dec z)) /\ same_names t t').
    { intros z n k Hz Hk Hn Hn2. apply write_number; auto; [lia|]. pose proof (dec_length z k Hz Hk). destruct (z <? 0); lia. }
    destruct x as [s|s|b|z|z|z|z|z|z|z|z|s|s]; cbn [put text_of piece_ok] in *.
    - apply write_text; tauto.
    - apply write_text; tauto.
    - destruct b; [apply (write_text t p $"True" H)|apply (write_text t p $"False" H)]; cbn; lia.
    - apply (N z 8 5%nat); lia.
    - apply (N z 8 5%nat); lia.
    - apply (N z 13 10%nat); lia.
    - apply (N z 23 20%nat); lia.
    - apply (N z 8 5%nat); lia.
    - apply (N z 8 5%nat); lia.
    - apply (N z 13 10%nat); lia.
    - apply (N z 23 20%nat); lia.
    - apply write_number; auto; lia.
    - apply write_number; auto; lia.
  Qed.
  Lemma firstn_app_firstn {A} n (a b : list A) : firstn n (firstn n a ++ b) = firstn n (a ++ b).
  Proof.
    rewrite !firstn_app, firstn_firstn, Nat.min_id. f_equal. rewrite firstn_length.
    destruct (Nat.le_ge_cases n (length a)); [rewrite Nat.min_l by auto; replace (n - n)%nat with 0%nat by lia; replace (n - length a)%nat with 0%nat by lia; reflexivity|].
    rewrite Nat.min_r by auto. reflexivity.
  Qed.
  Lemma puts_holds l : forall t p, holds SIZE t p -> Forall piece_ok l -> exists t', puts SIZE t l = Ok t' /\
    holds SIZE t' (firstn (Z.to_nat (SIZE - 2)) (p ++ flat_map text_of l)) /\ same_names t t'.
  Proof.
    induction l as [|x l IH]; intros t p H F; cbn [puts flat_map].
    - exists t. split; [reflexivity|]. rewrite app_nil_r, firstn_all2 by (destruct H; lia). split; [exact H|repeat split].
    - inversion F as [|? ? F1 F2]; subst. destruct (put_holds t p x H F1) as (t1 & E1 & H1 & S1). rewrite E1. cbn [bind].
      destruct (IH t1 _ H1 F2) as (t2 & E2 & H2 & S2). exists t2. split; [exact E2|]. rewrite firstn_app_firstn, <- app_assoc in H2.
      split; [exact H2|]. eapply same_trans; eauto.
  Qed.

  (* the names *)
  Lemma set_names_ok t p lv fi li cl ob fu : holds SIZE t p -> fits fi (SIZE - 1) -> ~ In nul cl -> fits ob (SIZE - 1) -> ~ In nul fu ->
    exists t', set_names SIZE t lv fi li cl ob fu = Ok t' /\ holds SIZE t' p /\ line_level t' = lv /\ line t' = li /\
      c_str (filename t') = Ok fi /\ c_str (classname t') = Ok (firstn (Z.to_nat SIZE) cl) /\ c_str (objectname t') = Ok ob /\
      c_str (function t') = Ok (firstn (Z.to_nat SIZE) fu).
  Proof.
    intros (H1 & H2 & H3 & H4 & H5 & H6 & H7 & H8 & [rc H9] & [ru H10]) [Lf Nf] Nc [Lo No] Nu. unfold set_names.
    destruct (strncpy_ok (filename t) fi SIZE) as [f Ef]; [lia|lia|].
    destruct (strncpy_ok (classname t) cl SIZE) as [c Ec]; [lia|lia|].
    destruct (strncpy_ok (objectname t) ob SIZE) as [o Eo]; [lia|lia|].
    destruct (strncpy_ok (function t) fu SIZE) as [u Eu]; [lia|lia|].
    rewrite Ef, Ec, Eo, Eu. cbn [bind]. eexists. split; [reflexivity|]. cbn [filename classname objectname function line line_level].
    assert (Z : forall (d r : mem) s x, length d = Z.to_nat (SIZE + 1) -> d = r ++ [Some nul] -> strncpy d s SIZE = Ok x -> ~ In nul s ->
      c_str x = Ok (firstn (Z.to_nat SIZE) s) /\ exists r', x = r' ++ [Some nul]).
    { intros d r s x L E X N. assert (SK : skipn (Z.to_nat SIZE) d = [Some nul]).
      { rewrite E, skipn_app. assert (Lr : length r = Z.to_nat SIZE) by (rewrite E, app_length in L; cbn in L; lia).
        rewrite skipn_all2 by lia. rewrite Lr, Nat.sub_diag. reflexivity. }
      destruct (Z.le_ge_cases (Z.of_nat (length s)) SIZE) as [Hs|Hs].
      - rewrite strncpy_fits, SK in X by lia. injection X as <-. rewrite firstn_all2 by lia. split.
        + rewrite cstr_app by auto. destruct (Z.to_nat SIZE - length s)%nat; cbn [repeat app c_str]; rewrite Ascii.eqb_refl, app_nil_r; reflexivity.
        + exists (map Some s ++ repeat (Some nul) (Z.to_nat SIZE - length s)). rewrite app_assoc. reflexivity.
      - rewrite strncpy_long, SK in X by lia. injection X as <-. split; [|eauto].
        rewrite cstr_app. { cbn [c_str]. rewrite Ascii.eqb_refl, app_nil_r. reflexivity. }
        intros Hin. apply N. rewrite <- (firstn_skipn (Z.to_nat SIZE) s). apply in_or_app. auto. }
    destruct (Z _ _ _ _ H6 H9 Ec Nc) as [Cc [rc' Rc]]. destruct (Z _ _ _ _ H8 H10 Eu Nu) as [Cu [ru' Ru]].
    split.
    { unfold holds. cbn [write_index data filename classname objectname function].
      rewrite (strncpy_length _ _ _ _ Ef), (strncpy_length _ _ _ _ Ec), (strncpy_length _ _ _ _ Eo), (strncpy_length _ _ _ _ Eu). eauto 20. }
    repeat split; auto.
    - eapply cstr_strncpy; [| |  |exact Ef]; [lia|split; auto; lia|lia].
    - eapply cstr_strncpy; [| |  |exact Eo]; [lia|split; auto; lia|lia].
  Qed.

  (* the finished message *)
  Lemma LogMessage_ok lv st fi li cl ob fu tx : fits st 256 -> fits fi 1024 -> fits cl 256 -> fits ob 1024 -> fits fu 256 -> fits tx SIZE ->
    exists m, LogMessage SIZE lv st fi li cl ob fu tx = Ok m /\ says m lv st fi li cl ob fu tx.
  Proof.
    intros Hst Hfi Hcl Hob Hfu Htx. unfold LogMessage, MAX_IDENTIFIER, MAX_DESCRIPTION.
    assert (G : forall s n, 0 < n -> fits s (n - 1) -> exists r, strncpy (uninit n) s n = Ok r /\ c_str r = Ok s).
    { intros s n Hn F. assert (L : length (uninit n) = Z.to_nat n) by apply repeat_length.
      destruct (strncpy_ok (uninit n) s n) as [r E]; [lia|lia|]. exists r. split; auto. eapply cstr_strncpy; [| | |exact E]; auto. lia. }
    destruct (G st (256 + 1) ltac:(lia) Hst) as (s & Es & Cs). destruct (G fi (1024 + 1) ltac:(lia) Hfi) as (f & Ef & Cf).
    destruct (G cl (256 + 1) ltac:(lia) Hcl) as (c & Ec & Cc). destruct (G ob (1024 + 1) ltac:(lia) Hob) as (o & Eo & Co).
    destruct (G fu (256 + 1) ltac:(lia) Hfu) as (u & Eu & Cu).
    destruct (G tx (SIZE + 1) ltac:(lia)) as (x & Ex & Cx); [replace (SIZE + 1 - 1) with SIZE by lia; exact Htx|].
    rewrite Es, Ef, Ec, Eo, Eu, Ex. cbn [bind]. eexists. split; [reflexivity|]. unfold says. cbn. auto 10.
  Qed.

  (* flush of a stream with p in its buffer, where p may take SIZE - 1 bytes *)
  Definition holds1 (t : tstream) (p : str) : Prop :=
    Z.of_nat (length p) <= SIZE - 1 /\ write_index t = Z.of_nat (length p) /\
    (exists r, data t = map Some p ++ r) /\ length (data t) = Z.to_nat (SIZE + 1) /\
    length (filename t) = Z.to_nat (SIZE + 1) /\ length (classname t) = Z.to_nat (SIZE + 1) /\
    length (objectname t) = Z.to_nat (SIZE + 1) /\ length (function t) = Z.to_nat (SIZE + 1) /\
    (exists r, classname t = r ++ [Some nul]) /\ (exists r, function t = r ++ [Some nul]).
  Lemma list_set_length {A} (l : list A) i x : length (list_set l i x) = length l.
  Proof. revert i. induction l; destruct i; cbn; auto. Qed.
  Lemma flush_ok t p name out fi cl ob fu : holds1 t p -> fits name 256 -> fits fi 1024 -> fits cl 256 -> fits ob 1024 -> fits fu 256 ->
    c_str (filename t) = Ok fi -> c_str (classname t) = Ok cl -> c_str (objectname t) = Ok ob -> c_str (function t) = Ok fu ->
    exists r t', flush SIZE t name out = Ok (r, t') /\ holds SIZE t' [] /\ same_names t t' /\
      if rank out <=? rank (line_level t)
      then exists m, r = Some m /\ says m (line_level t) name fi (line t) cl ob fu (until_nul p)
      else r = None.
  Proof.
    intros (H1 & H2 & [d H3] & H4 & H5 & H6 & H7 & H8 & H9 & H10) Hn Hf Hc Ho Hu Cf Cc Co Cu. unfold flush. rewrite H2, Nat2Z.id.
    unfold vec_set. replace (length p <? length (data t))%nat with true by (symmetry; apply Nat.ltb_lt; lia). cbn [bind].
    assert (Ed : exists d', list_set (data t) (length p) (Some nul) = map Some p ++ Some nul :: d').
    { rewrite H3. destruct d as [|x d]; [exfalso; rewrite H3, app_nil_r, map_length in H4; lia|].
      exists d. rewrite <- (map_length Some p). apply list_set_mid. }
    destruct Ed as [d' Ed]. set (t' := with_data t _ 0).
    assert (Ht' : holds SIZE t' []).
    { unfold holds, t'. cbn [with_data write_index data filename classname objectname function length map app]. rewrite list_set_length.
      split; [lia|]. split; [reflexivity|]. split; [eauto|]. auto 10. }
    destruct (rank out <=? rank (line_level t)).
    - rewrite Cf, Cc, Co, Cu, Ed, cstr_nul. cbn [bind].
      destruct (LogMessage_ok (line_level t) name fi (line t) cl ob fu (until_nul p)) as (m & Em & Sm); auto.
      { split; [pose proof (until_length p); lia|apply until_not]. }
      rewrite Em. cbn [bind]. exists (Some m), t'. split; [reflexivity|]. split; [exact Ht'|]. split; [repeat split|]. eauto.
    - exists None, t'. split; [reflexivity|]. split; [exact Ht'|]. split; [repeat split|reflexivity].
  Qed.
  Lemma endl_write t p : holds SIZE t p -> exists t', write SIZE t (newline ++ [nul]) 1 0 = Ok t' /\ holds1 t' (p ++ newline) /\ same_names t t'.
  Proof.
    intros (H1 & H2 & [d H3] & H4 & H). unfold write. rewrite H2. rewrite (to_u64_id (SIZE - _)) by lia. rewrite to_u64_id by lia.
    rewrite to_u64_id by lia. replace (SIZE - Z.of_nat (length p) - 1 <? 1 + 0) with false by (symmetry; apply Z.ltb_ge; lia).
    change (load (newline ++ [nul]) 1) with (Ok (map Some newline)). cbn [bind]. rewrite Nat2Z.id, store_spec by (rewrite map_length, H4; cbn; lia).
    cbn [bind]. eexists. split; [reflexivity|]. split; [|repeat split].
    unfold holds1. cbn [with_data write_index data filename classname objectname function]. rewrite app_length. cbn [length newline list_ascii_of_string].
    split; [lia|]. split; [lia|]. split.
    { exists (skipn (length p + length (map Some newline)) (data t)). rewrite map_app, <- app_assoc. f_equal.
      rewrite H3, firstn_app, firstn_all2, map_length, Nat.sub_diag by (rewrite map_length; lia). cbn [firstn]. apply app_nil_r. }
    split; [|exact H]. rewrite !app_length, firstn_length, skipn_length, map_length. cbn [length newline list_ascii_of_string]. lia.
  Qed.
End S.

(* formats *)
Lemma key_letters c : key c <> None <-> In c letters.
Proof.
  unfold key, letters. cbn [list_ascii_of_string In].
  repeat match goal with |- context [Ascii.eqb c ?x] => destruct (Ascii.eqb_spec c x) as [->|?]; [split; [auto 20|discriminate]|] end.
  split; [congruence|]. intros H. repeat (destruct H as [H|H]; [congruence|]). destruct H.
Qed.
Lemma key_none c : ~ In c letters -> key c = None.
Proof. intros H. destruct (key c) eqn:E; auto. exfalso. apply H. apply key_letters. congruence. Qed.
Lemma span_app p a b : (forall c, In c a -> p c = true) -> (forall c r, b = c :: r -> p c = false) -> span p (a ++ b) = (a, b).
Proof.
  induction a as [|c a IH]; intros A B; cbn [app span].
  - destruct b as [|c b]; [reflexivity|]. cbn. rewrite (B c b eq_refl). reflexivity.
  - rewrite (A c) by (left; auto). rewrite IH; auto. intros x H. apply A. right. auto.
Qed.
Lemma span_inv p s a b : span p s = (a, b) -> s = a ++ b /\ (forall c, In c a -> p c = true) /\ (forall c r, b = c :: r -> p c = false).
Proof.
  revert a b. induction s as [|c s IH]; intros a b H; cbn in H.
  - injection H as <- <-. split; auto. split; [intros c []|discriminate].
  - destruct (p c) eqn:E.
    + destruct (span p s) as [a' b'] eqn:F. injection H as <- <-. destruct (IH _ _ eq_refl) as (-> & A & B). split; auto. split; auto.
      intros x [<-|Hx]; auto.
    + injection H as <- <-. split; auto. split; [intros x []|]. intros x r [= <- _]. auto.
Qed.
Definition text100 (s : str) : mem := map Some s ++ repeat (Some nul) (100 - length s).
Lemma store100 s : (length s <= 100)%nat -> store (zeros 100) 0 (map Some s) = Ok (text100 s).
Proof.
  intros H. rewrite store_spec by (rewrite map_length; unfold zeros; rewrite repeat_length; lia).
  cbn [firstn app Nat.add]. unfold text100, zeros. rewrite map_length, skipn_repeat. reflexivity.
Qed.
Lemma store100_ub s : (100 < length s)%nat -> store (zeros 100) 0 (map Some s) = UB.
Proof.
  intros H. apply store_ub; [rewrite map_length; unfold zeros; rewrite repeat_length; cbn; lia|]. destruct s; [cbn in H; lia|discriminate].
Qed.
Lemma cstr100 s : (length s <= 99)%nat -> ~ In nul s -> c_str (text100 s) = Ok s.
Proof.
  intros H N. unfold text100. rewrite cstr_app by auto. replace (100 - length s)%nat with (S (99 - length s)) by lia. cbn [repeat c_str].
  rewrite Ascii.eqb_refl, app_nil_r. reflexivity.
Qed.
Definition lit_entries (s : str) : list entry := match s with [] => [] | _ => [mkEntry KText 0 (text100 s) (zeros 100)] end.
Definition width_of (w : str) : Z := fold_left (fun w d => to_u64 (10 * w + dvalue d)) w 0.
Definition suffix_of (p : str) : mem := text100 (closing p).
Definition dir_entry (s : segment) : entry :=
  match key (letter s) with
  | Some KObject => mkEntry KObject (width_of (width s)) (text100 (prefix s)) (suffix_of (prefix s))
  | Some k => mkEntry k (width_of (width s)) (text100 (prefix s)) (zeros 100)
  | None => mkEntry KText 0 [] []
  end.
Definition seg_entries (s : segment) : list entry := lit_entries (literal s) ++ [dir_entry s].
Definition all_entries (l : list segment) (tail : str) : list entry := flat_map seg_entries l ++ lit_entries tail.

Lemma suffix_for_ok p : (length p <= 100)%nat -> ~ In nul p -> suffix_for (text100 p) = Ok (suffix_of p).
Proof.
  intros L N. unfold suffix_for, suffix_of, closing. destruct p as [|c p]; [reflexivity|].
  change (text100 (c :: p)) with (Some c :: (map Some p ++ repeat (Some nul) (100 - length (c :: p)))). cbv iota beta.
  destruct (Ascii.eqb c "("%char); [reflexivity|]. destruct (Ascii.eqb c "["%char); [reflexivity|].
  destruct (Ascii.eqb c "{"%char); [reflexivity|]. reflexivity.
Qed.
Definition rest_parse (f : nat) (e : list entry) (rest : str) : result (list entry) :=
  match rest with [] => Ok e | _ => bind (parse f rest) (fun r => Ok (e ++ r)) end.
Lemma parse_dir f s rest : segment_ok 100 s ->
  parse (S f) ($"~" ++ width s ++ prefix s ++ [letter s] ++ rest) = rest_parse f [dir_entry s] rest.
Proof.
  intros (_ & _ & _ & W & P & Q & N & L & K). cbn [app list_ascii_of_string parse Ascii.eqb].
  change (Ascii.eqb "~" "~") with true. cbv iota.
  rewrite (span_app is_digit (width s)).
  2: exact W.
  2: { intros c r E. destruct (prefix s) as [|x p] eqn:Ep; cbn in E; injection E as <- _; [|eapply P; eauto].
    unfold letters in K. cbn in K. repeat (destruct K as [K|K]; [rewrite <- K; reflexivity|]). destruct K. }
  rewrite (span_app _ (prefix s)).
  2: { intros c Hc. rewrite (key_none c) by (apply Q; auto). reflexivity. }
  2: { intros c r E. cbn in E. injection E as <- _. apply key_letters in K. destruct (key (letter s)); congruence. }
  rewrite store100 by auto. cbn [bind app]. unfold dir_entry, width_of. apply key_letters in K.
  destruct (key (letter s)) as [k|] eqn:Ek; [|congruence]. destruct k; try reflexivity.
  rewrite suffix_for_ok by auto. reflexivity.
Qed.
Lemma parse_lit f s rest : s <> [] -> ~ In "~"%char s -> (length s <= 100)%nat -> rest = [] \/ (exists r, rest = $"~" ++ r) ->
  parse (S f) (s ++ rest) = rest_parse f (lit_entries s) rest.
Proof.
  intros N T L R. destruct s as [|c s]; [congruence|]. set (w := c :: s) in *. cbn [parse].
  change (w ++ rest) with (c :: (s ++ rest)) at 1. cbv iota.
  destruct (Ascii.eqb_spec c "~"%char) as [E|_]; [exfalso; apply T; left; auto|].
  rewrite (span_app _ w).
  2: { intros x Hx. destruct (Ascii.eqb_spec x "~"%char) as [->|]; auto. }
  2: { intros x r E. destruct R as [->|[r' ->]]; [discriminate|]. cbn in E. injection E as <- _. reflexivity. }
  rewrite store100 by auto. reflexivity.
Qed.
Lemma parse_write l : forall tail f, Forall (segment_ok 100) l -> tail_ok 100 tail -> (length (write_format l tail) <= f)%nat ->
  write_format l tail <> [] -> parse f (write_format l tail) = Ok (all_entries l tail).
Proof.
  induction l as [|s l IH]; intros tail f F T L N.
  - unfold write_format, all_entries in *. cbn [flat_map app] in *. destruct f as [|f]; [destruct tail; [congruence|cbn in L; lia]|].
    destruct T as (T1 & T2 & T3). rewrite <- (app_nil_r tail) at 1. rewrite parse_lit; auto.
  - inversion F as [|? ? F1 F2]; subst. set (rest := write_format l tail) in *.
    assert (E : write_format (s :: l) tail = literal s ++ $"~" ++ width s ++ prefix s ++ [letter s] ++ rest).
    { unfold rest, write_format. cbn [flat_map]. rewrite <- !app_assoc. reflexivity. }
    rewrite E in *. clear E.
    assert (D : forall g, (length rest <= g)%nat -> parse (S g) ($"~" ++ width s ++ prefix s ++ [letter s] ++ rest) = Ok (dir_entry s :: all_entries l tail)).
    { intros g Hg. rewrite parse_dir by auto. unfold rest_parse. destruct rest as [|c r] eqn:Er.
      - assert (all_entries l tail = []) as ->; [|reflexivity]. unfold rest, write_format in Er. apply app_eq_nil in Er. destruct Er as [Ef ->].
        destruct l as [|x l]; [reflexivity|]. cbn in Ef. destruct (literal x); discriminate.
      - rewrite <- Er in *. unfold rest in *. rewrite IH; auto. congruence. }
    rewrite !app_length in L. cbn [length list_ascii_of_string] in L. unfold all_entries, seg_entries. cbn [flat_map]. rewrite <- app_assoc. fold (all_entries l tail).
    destruct (literal s) as [|c lit] eqn:El.
    + cbn [app lit_entries]. destruct f as [|f]; [cbn in L; lia|]. apply D. cbn in L. lia.
    + rewrite <- El in *. pose proof F1 as (A & B & _). destruct f as [|f]; [lia|]. rewrite parse_lit; eauto; [|congruence].
      destruct f as [|f]; [rewrite El in L; cbn in L; lia|].
      cbn [rest_parse app list_ascii_of_string]. rewrite D by (rewrite El in L; cbn in L; lia). cbn [bind].
      rewrite <- app_assoc. reflexivity.
Qed.

Lemma parse_inv f : forall s es, parse f s = Ok es -> ~ In nul s -> (length s <= f)%nat ->
  exists l tail, s = write_format l tail /\ Forall (segment_ok 100) l /\ tail_ok 100 tail.
Proof.
  assert (Nil : exists l tail, [] = write_format l tail /\ Forall (segment_ok 100) l /\ tail_ok 100 tail).
  { exists [], []. split; [reflexivity|]. split; [constructor|]. split; [auto|]. split; [cbn; lia|auto]. }
  induction f as [|f IH]; intros s es H N L; [discriminate|]. destruct s as [|c s]; [exact Nil|]. cbn [parse] in H.
  assert (Next : forall e rest es, match rest with [] => Ok e | _ => bind (parse f rest) (fun r => Ok (e ++ r)) end = Ok es -> ~ In nul rest -> (length rest <= f)%nat ->
    exists l tail, rest = write_format l tail /\ Forall (segment_ok 100) l /\ tail_ok 100 tail).
  { intros e rest es' Hr Nr Lr. destruct rest as [|x r]; [exact Nil|]. destruct (parse f (x :: r)) eqn:Ep; try discriminate. eapply IH; eauto. }
  destruct (Ascii.eqb_spec c "~"%char) as [->|Nc].
  - destruct (span is_digit s) as [w s2] eqn:E1. destruct (span _ s2) as [p s3] eqn:E2.
    apply span_inv in E1. destruct E1 as (-> & W1 & W2). apply span_inv in E2. destruct E2 as (-> & P1 & P2).
    destruct (Nat.le_gt_cases (length p) 100) as [Lp|Lp]; [|rewrite store100_ub in H by lia; discriminate].
    rewrite store100 in H by lia. cbn [bind] in H. destruct s3 as [|k s4]; [discriminate|].
    specialize (P2 k s4 eq_refl). destruct (key k) as [kd|] eqn:Ek; [|discriminate].
    assert (R : exists l tail, s4 = write_format l tail /\ Forall (segment_ok 100) l /\ tail_ok 100 tail).
    { assert (N4 : ~ In nul s4) by (intros X; apply N; right; apply in_or_app; right; apply in_or_app; right; right; auto).
      assert (L4 : (length s4 <= f)%nat) by (cbn in L; rewrite !app_length in L; cbn in L; lia).
      destruct kd; try (eapply Next; eauto; fail).
      destruct (suffix_for (text100 p)); try discriminate. cbn [bind] in H. eapply Next; eauto. }
    destruct R as (l & tail & -> & Fl & Tl). exists (Seg [] w p k :: l), tail. split.
    { unfold write_format. cbn [flat_map literal width prefix letter app list_ascii_of_string]. rewrite <- !app_assoc. reflexivity. }
    split; auto. constructor; auto. split; [auto|]. split; [cbn; lia|]. split; [auto|]. split; [exact W1|]. split.
    { intros x r Ex. cbn in Ex. apply (W2 x (r ++ k :: write_format l tail)). rewrite Ex. reflexivity. }
    split. { intros x Hx Hl. apply P1 in Hx. apply key_letters in Hl. destruct (key x); congruence. }
    split. { intros X. apply N. right. apply in_or_app. right. apply in_or_app. left. auto. }
    split; [exact Lp|]. apply key_letters. cbn. congruence.
  - destruct (span _ (c :: s)) as [t s2] eqn:E1. apply span_inv in E1. destruct E1 as (E1 & T1 & T2). 
    assert (Tn : ~ In "~"%char t) by (intros X; apply T1 in X; discriminate).
    assert (Te : t <> []).
    { intros ->. cbn in E1. subst s2. specialize (T2 c s eq_refl). destruct (Ascii.eqb_spec c "~"%char); [congruence|discriminate]. }
    destruct (Nat.le_gt_cases (length t) 100) as [Lt|Lt]; [|rewrite store100_ub in H by lia; discriminate].
    rewrite store100 in H by lia. cbn [bind] in H. rewrite E1 in N, L. rewrite app_length in L.
    destruct (Next _ _ _ H) as (l & tail & El & Fl & Tl); [intros X; apply N; apply in_or_app; auto|destruct t; [congruence|cbn in L; lia]|].
    rewrite E1. assert (Nt : ~ In nul t) by (intros X; apply N; apply in_or_app; auto).
    destruct l as [|sg l].
    + (* nothing but text follows, so nothing follows *)
      cbn in El. subst s2. exists [], t. assert (tail = []) as ->.
      { destruct tail as [|x tail]; auto. exfalso. specialize (T2 x tail eq_refl). destruct Tl as (Tl & _). apply Tl. left.
        destruct (Ascii.eqb_spec x "~"%char); [auto|discriminate]. }
      rewrite app_nil_r. split; [reflexivity|]. split; [constructor|]. split; auto.
    + inversion Fl as [|? ? F1 F2]; subst. destruct F1 as (G1 & G2 & G3 & G4).
      assert (literal sg = []) as Lit.
      { destruct (literal sg) as [|x r] eqn:Ex; auto. exfalso. unfold write_format in T2. cbn [flat_map] in T2. rewrite Ex in T2.
        specialize (T2 x _ eq_refl). apply G1. left. destruct (Ascii.eqb_spec x "~"%char); [auto|discriminate]. }
      exists (Seg t (width sg) (prefix sg) (letter sg) :: l), tail. split.
      { unfold write_format. cbn [flat_map literal width prefix letter]. rewrite Lit. cbn [app list_ascii_of_string]. rewrite <- !app_assoc. cbn [app]. rewrite <- !app_assoc. reflexivity. }
      split; auto. constructor; auto. split; auto.
Qed.
Lemma parse_no_throw f : forall s, (length s <= f)%nat -> s <> [] -> parse f s <> Throw.
Proof.
  induction f as [|f IH]; intros s L N; [destruct s; [congruence|cbn in L; lia]|]. destruct s as [|c s]; [congruence|]. cbn [parse].
  assert (Next : forall (e : list entry) rest, (length rest <= f)%nat -> match rest with [] => Ok e | _ => bind (parse f rest) (fun r => Ok (e ++ r)) end <> Throw).
  { intros e rest Lr. destruct rest as [|x r]; [discriminate|]. specialize (IH (x :: r) Lr). destruct (parse f (x :: r)); cbn; try discriminate. apply IH. discriminate. }
  cbn in L. destruct (Ascii.eqb c "~"%char) eqn:Ec.
  - destruct (span is_digit s) as [w s2] eqn:E1. destruct (span _ s2) as [p s3] eqn:E2.
    apply span_inv in E1. destruct E1 as (-> & _). apply span_inv in E2. destruct E2 as (-> & _).
    destruct (Nat.le_gt_cases (length p) 100) as [Lp|Lp]; [|rewrite store100_ub by lia; discriminate].
    rewrite store100 by lia. cbn [bind]. destruct s3 as [|k s4]; [discriminate|]. rewrite !app_length in L. cbn in L.
    destruct (key k) as [kd|]; [|discriminate]. destruct kd; try (apply Next; lia).
    destruct (suffix_for (text100 p)) as [x| |] eqn:E; [apply Next; lia| |discriminate].
    unfold suffix_for in E. destruct (text100 p) as [|[x|] r]; try discriminate. exfalso. assert (G : forall y, strncpy (zeros 100) y 100 <> Throw).
    { intros y. destruct (strncpy_ok (zeros 100) y 100) as [r' ->]; [lia|unfold zeros; rewrite repeat_length; lia|discriminate]. }
    destruct (Ascii.eqb x "("%char); [exact (G _ E)|]. destruct (Ascii.eqb x "["%char); [exact (G _ E)|].
    destruct (Ascii.eqb x "{"%char); [exact (G _ E)|congruence].
  - destruct (span _ (c :: s)) as [t s2] eqn:E1. apply span_inv in E1. destruct E1 as (E1 & _ & T2).
    destruct (Nat.le_gt_cases (length t) 100) as [Lt|Lt]; [|rewrite store100_ub by lia; discriminate].
    rewrite store100 by lia. cbn [bind]. destruct t as [|x t].
    + exfalso. cbn in E1. subst s2. specialize (T2 c s eq_refl). rewrite Ec in T2. discriminate.
    + apply Next. cbn in E1. injection E1 as <- ->. rewrite app_length in L. lia.
Qed.

(* rendering *)
Lemma width_number w : (forall c, In c w -> is_digit c = true) -> (length w <= 19)%nat -> width_of w = number w.
Proof.
  intros D L. assert (P : forall w, (forall c, In c w -> is_digit c = true) -> 0 <= number w < 10 ^ Z.of_nat (length w)).
  { clear. induction w as [|c w IH] using rev_ind; intros D; [cbn; lia|]. rewrite number_snoc, app_length. cbn [length].
    destruct IH as [A B]; [intros; apply D; apply in_or_app; auto|]. assert (Dc : is_digit c = true) by (apply D; apply in_or_app; right; left; reflexivity). clear D. rename Dc into D.
    unfold is_digit in D. apply andb_prop in D. destruct D as [D1 D2]. apply Nat.leb_le in D1, D2. unfold dvalue.
    rewrite Nat2Z.inj_add, Z.pow_add_r by lia. cbn [Z.of_nat]. change (10 ^ Z.pos (Pos.of_succ_nat 0)) with 10. lia. }
  unfold width_of. revert L. induction w as [|c w IH] using rev_ind; intros L; [reflexivity|].
  rewrite fold_left_app. cbn [fold_left]. rewrite app_length in L. cbn in L. rewrite IH; [|intros; apply D; apply in_or_app; auto|lia].
  pose proof (P _ D) as B. rewrite number_snoc in *. rewrite app_length in B. cbn [length] in B. rewrite to_u64_id; [lia|].
  assert (10 ^ Z.of_nat (length w + 1) <= 10 ^ 19) by (apply Z.pow_le_mono_r; lia). lia.
Qed.
Lemma dec3 ms : 0 <= ms < 1000 -> Z.of_nat (length (dec ms)) = (if 100 <=? ms then 3 else if 10 <=? ms then 2 else 1).
Proof.
  intros H. assert (X : forallb (fun n => Z.of_nat (length (dec (Z.of_nat n))) =? (if 100 <=? Z.of_nat n then 3 else if 10 <=? Z.of_nat n then 2 else 1)) (seq 0 1000) = true)
    by (vm_compute; reflexivity).
  rewrite forallb_forall in X. specialize (X (Z.to_nat ms)). rewrite Z2Nat.id in X by lia. apply Z.eqb_eq. apply X. apply in_seq. lia.
Qed.
Lemma render_app l1 : forall l2 m tm ns a b, render l1 m tm ns = Ok a -> render l2 m tm ns = Ok b -> render (l1 ++ l2) m tm ns = Ok (a ++ b).
Proof.
  induction l1 as [|e l IH]; intros l2 m tm ns a b H1 H2; cbn in *; [injection H1 as <-; auto|].
  destruct (render1 e m tm ns) as [s| |]; try discriminate. cbn in *. destruct (render l m tm ns) as [t| |] eqn:E; try discriminate.
  cbn in H1. injection H1 as <-. rewrite (IH l2 m tm ns t b E H2). cbn. rewrite app_assoc. reflexivity.
Qed.
Lemma render_lit s m tm ns : (length s <= 99)%nat -> ~ In nul s -> render (lit_entries s) m tm ns = Ok s.
Proof. intros L N. destruct s as [|c s]; [reflexivity|]. cbn [lit_entries render render1 e_kind e_text]. rewrite cstr100 by auto. cbn. rewrite app_nil_r. reflexivity. Qed.
Lemma closing_short p : (length (closing p) <= 99)%nat /\ ~ In nul (closing p).
Proof.
  unfold closing. destruct p as [|c p]; [cbn; split; [lia|auto]|].
  destruct (Ascii.eqb c "("%char); [cbn; split; [lia|intros [H|[]]; discriminate]|].
  destruct (Ascii.eqb c "["%char); [cbn; split; [lia|intros [H|[]]; discriminate]|].
  destruct (Ascii.eqb c "{"%char); cbn; split; try lia; auto. intros [H|[]]; discriminate.
Qed.
Lemma render_dir s m lv st fi li cl ob fu tx tm ns : segment_ok 99 s -> (length (width s) <= 19)%nat -> says m lv st fi li cl ob fu tx -> 0 <= ns < 1000000000 ->
  render (seg_entries s) m tm ns = Ok (expand s lv st fi li cl ob fu tx tm ns).
Proof.
  intros (A1 & A2 & A3 & A4 & A5 & A6 & A7 & A8 & A9) W (S1 & S2 & S3 & S4 & S5 & S6 & S7 & S8) Hn.
  unfold seg_entries, expand. apply render_app; [apply render_lit; auto|].
  assert (R : forall e x, render1 e m tm ns = Ok x -> render [e] m tm ns = Ok x).
  { intros e x E. cbn [render]. rewrite E. cbn. rewrite app_nil_r. reflexivity. }
  apply R. pose proof (cstr100 (prefix s) A8 A7) as CP. destruct (closing_short (prefix s)) as [C1 C2]. pose proof (cstr100 _ C1 C2) as CS.
  fold (suffix_of (prefix s)) in CS.
  unfold dir_entry. unfold key. apply key_letters in A9. unfold key in A9.
  destruct (Ascii.eqb (letter s) "C"%char). { cbn [render1 e_kind e_text]. rewrite S5. cbn [bind]. destruct cl; [reflexivity|]. rewrite CP. reflexivity. }
  destruct (Ascii.eqb (letter s) "O"%char). { cbn [render1 e_kind e_text e_suffix]. rewrite S6. cbn [bind]. destruct ob; [reflexivity|]. rewrite CP, CS. reflexivity. }
  destruct (Ascii.eqb (letter s) "D"%char). { cbn [render1 e_kind e_text]. rewrite S7. cbn [bind]. destruct fu; [reflexivity|]. rewrite CP. reflexivity. }
  destruct (Ascii.eqb (letter s) "E"%char); [exact S8|].
  destruct (Ascii.eqb (letter s) "F"%char); [exact S3|].
  destruct (Ascii.eqb (letter s) "G"%char); [cbn [render1 e_kind]; rewrite S4; reflexivity|].
  destruct (Ascii.eqb (letter s) "L"%char); [cbn [render1 e_kind]; rewrite S1; reflexivity|].
  destruct (Ascii.eqb (letter s) "S"%char); [exact S2|].
  destruct (Ascii.eqb (letter s) "T"%char); [reflexivity|].
  destruct (Ascii.eqb (letter s) "M"%char); [|congruence]. cbn [render1 e_kind e_width]. rewrite width_number by auto. f_equal. unfold padded.
  rewrite Z.quot_div_nonneg by lia.
  assert (M : 0 <= ns / 1000000 < 1000) by (split; [apply Z.div_pos; lia|apply Z.div_lt_upper_bound; lia]).
  rewrite <- (dec3 _ M). f_equal. f_equal. lia.
Qed.
Lemma seg_mono n m s : (n <= m)%nat -> segment_ok n s -> segment_ok m s.
Proof. intros H (A1 & A2 & A3 & A4 & A5 & A6 & A7 & A8 & A9). repeat split; auto; lia. Qed.
Lemma render_all l tail m lv st fi li cl ob fu tx tm ns : Forall (segment_ok 99) l -> Forall (fun s => (length (width s) <= 19)%nat) l -> tail_ok 99 tail ->
  says m lv st fi li cl ob fu tx -> 0 <= ns < 1000000000 ->
  render (all_entries l tail) m tm ns = Ok (flat_map (fun s => expand s lv st fi li cl ob fu tx tm ns) l ++ tail).
Proof.
  intros F W (T1 & T2 & T3) S N. unfold all_entries. apply render_app; [|apply render_lit; auto].
  induction F as [|s l F1 F2 IH]; [reflexivity|]. inversion W; subst. cbn [flat_map]. apply render_app; auto. apply render_dir; auto.
Qed.
