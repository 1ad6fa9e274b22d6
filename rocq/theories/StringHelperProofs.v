From Verif Require Import Base BaseLemmas CInt Text StringHelperModel StringHelperSpec.

Lemma skipn_app_exact {A} n (a b : list A) : length a = n -> skipn n (a ++ b) = b.
Proof. intros <-. rewrite skipn_app, skipn_all, Nat.sub_diag. reflexivity. Qed.

(* ---- find ---- *)
Lemma is_prefix_spec d s : is_prefix d s = true <-> exists b, s = d ++ b.
Proof.
  revert s; induction d as [|c d IH]; intros [|x s]; cbn.
  - split; eauto.
  - split; eauto.
  - split; [discriminate|]. intros [b E]; discriminate.
  - rewrite andb_true_iff, IH, Ascii.eqb_eq. split.
    + intros [-> [b ->]]. eauto.
    + intros [b E]. injection E as -> ->. eauto.
Qed.
Lemma str_find_unfold d s : str_find d s = if is_prefix d s then Some 0 else match s with [] => None | _ :: s' => option_map S (str_find d s') end.
Proof. destruct s; reflexivity. Qed.

Lemma str_find_some d s n : str_find d s = Some n ->
  exists b, s = firstn n s ++ d ++ b /\ length (firstn n s) = n /\
    (forall a b', s = a ++ d ++ b' -> n <= length a).
Proof.
  revert n; induction s as [|x s IH]; intros n; rewrite str_find_unfold; destruct (is_prefix d _) eqn:E.
  - intros [= <-]. apply is_prefix_spec in E. destruct E as [b E]. exists b. cbn. split; auto. split; auto. intros; lia.
  - discriminate.
  - intros [= <-]. apply is_prefix_spec in E. destruct E as [b E]. exists b. cbn. split; auto. split; auto. intros; lia.
  - destruct (str_find d s) as [m|]; [|discriminate]. cbn. intros [= <-].
    destruct (IH m eq_refl) as (b & E1 & E2 & E3). exists b. cbn [firstn app length]. split; [congruence|]. split; [congruence|].
    intros [|y a] b' Q.
    + exfalso. assert (is_prefix d (x :: s) = true) by (apply is_prefix_spec; exists b'; exact Q). congruence.
    + cbn in Q. injection Q as -> Q. apply E3 in Q. cbn. lia.
Qed.
Lemma str_find_none d s : str_find d s = None -> ~ contains s d.
Proof.
  induction s as [|x s IH]; rewrite str_find_unfold; destruct (is_prefix d _) eqn:E; try discriminate.
  - intros _ (a & b & Q). destruct a; [|discriminate]. cbn in Q.
    assert (is_prefix d [] = true) by (apply is_prefix_spec; eauto). congruence.
  - destruct (str_find d s); [discriminate|]. intros _ (a & b & Q). destruct a as [|y a].
    + cbn in Q. assert (is_prefix d (x :: s) = true) by (apply is_prefix_spec; eauto). congruence.
    + cbn in Q. injection Q as -> Q. apply IH; auto. exists a, b. auto.
Qed.

Lemma app_cancel_len {A} (a b c d : list A) : a ++ b = c ++ d -> length a = length c -> a = c /\ b = d.
Proof.
  revert c; induction a as [|x a IH]; intros [|y c] E L; cbn in *; try discriminate; auto.
  injection E as -> E. injection L as L. destruct (IH _ E L) as [-> ->]. auto.
Qed.

Lemma find_cut d p s : d <> [] -> ends_at p d -> str_find d (p ++ d ++ s) = Some (length p).
Proof.
  intros Hd HE. destruct (str_find d (p ++ d ++ s)) as [n|] eqn:E.
  - apply str_find_some in E. destruct E as (b & E1 & E2 & E3).
    pose proof (E3 p s eq_refl) as HL. f_equal.
    destruct (Nat.eq_dec n (length p)) as [|Hn]; auto. exfalso.
    set (a := firstn n (p ++ d ++ s)) in *. 
    (* a ++ d is a prefix of p ++ d *)
    assert (Q : p ++ d = a ++ d ++ firstn (length p - length a) b).
    { rewrite app_assoc in E1. rewrite (app_assoc a d b) in E1.
      assert (F : firstn (length (p ++ d)) ((p ++ d) ++ s) = firstn (length (p ++ d)) ((a ++ d) ++ b)) by (f_equal; exact E1).
      rewrite firstn_app, firstn_all, Nat.sub_diag in F. cbn [firstn] in F. rewrite app_nil_r in F.
      rewrite firstn_app in F. rewrite firstn_all2 in F by (rewrite !app_length; lia).
      rewrite F. rewrite <- app_assoc. do 3 f_equal. rewrite !app_length. lia. }
    apply HE in Q as Q'. apply (f_equal (@length _)) in Q. rewrite Q' in Q. rewrite !app_length in Q. cbn in Q. lia.
  - apply str_find_none in E. exfalso. apply E. exists p, s. auto.
Qed.
Lemma find_none_conv d r : ~ contains r d -> str_find d r = None.
Proof.
  intros H. destruct (str_find d r) as [n|] eqn:E; auto. exfalso. apply str_find_some in E.
  destruct E as (b & E & _). apply H. exists (firstn n r), b. exact E.
Qed.
Lemma find_ends_at d s n : str_find d s = Some n -> ends_at (firstn n s) d.
Proof.
  intros E. apply str_find_some in E. destruct E as (b & E1 & E2 & E3). intros a b' Q.
  assert (R : s = a ++ d ++ (b' ++ b)).
  { rewrite E1. rewrite app_assoc, Q, <- !app_assoc. reflexivity. }
  apply E3 in R. apply (f_equal (@length _)) in Q. rewrite !app_length in Q. destruct b'; auto. cbn in Q. lia.
Qed.

Lemma split_loop_cut d fuel : forall s ps r, split_loop fuel s d = Some (ps, r) -> cut d s ps r.
Proof.
  induction fuel as [|f IH]; intros s ps r; cbn [split_loop]; destruct (str_find d s) as [n|] eqn:E.
  - discriminate.
  - intros [= <- <-]. constructor. apply str_find_none; auto.
  - destruct (split_loop f _ d) as [[ps' r']|] eqn:E'; [|discriminate]. intros [= <- <-].
    apply IH in E'. pose proof (find_ends_at _ _ _ E) as HE. apply str_find_some in E. destruct E as (b & E1 & E2 & _).
    assert (skipn (n + length d) s = b) as Hb.
    { rewrite E1 at 1. rewrite app_assoc. apply skipn_app_exact. rewrite app_length, E2. reflexivity. }
    rewrite Hb in E'. rewrite E1 at 1. constructor; auto.
  - intros [= <- <-]. constructor. apply str_find_none; auto.
Qed.
Lemma cut_split_loop d : d <> [] -> forall s ps r, cut d s ps r -> forall fuel, length s <= fuel -> split_loop fuel s d = Some (ps, r).
Proof.
  intros Hd s ps r C. induction C as [r Hr|p s ps r HE C IH]; intros fuel HF.
  - destruct fuel; cbn [split_loop]; rewrite find_none_conv by auto; reflexivity.
  - assert (0 < length d) by (destruct d; [congruence|cbn; lia]).
    rewrite !app_length in HF. destruct fuel as [|f]; [lia|]. cbn [split_loop]. rewrite find_cut by auto.
    assert (skipn (length p + length d) (p ++ d ++ s) = s) as ->.
    { rewrite app_assoc. apply skipn_app_exact. rewrite app_length. reflexivity. }
    rewrite IH by lia. do 3 f_equal. rewrite firstn_app, firstn_all, Nat.sub_diag. cbn. apply app_nil_r.
Qed.
Lemma split_loop_total d : d <> [] -> forall fuel s, length s <= fuel -> exists ps r, split_loop fuel s d = Some (ps, r).
Proof.
  intros Hd fuel. induction fuel as [|f IH]; intros s Hs; cbn [split_loop]; destruct (str_find d s) as [n|] eqn:E; eauto.
  - apply str_find_some in E. destruct E as (b & E & _). destruct s; [|cbn in Hs; lia].
    apply (f_equal (@length _)) in E. rewrite !app_length in E. cbn in E. destruct d; [congruence|cbn in E; lia].
  - destruct (IH (skipn (n + length d) s)) as (ps & r & ->).
    + rewrite skipn_length. assert (0 < length d) by (destruct d; [congruence|cbn; lia]). lia.
    + eauto.
Qed.

Lemma C20_cut_lemma s d : d <> [] -> exists ps r, cut d s ps r /\
  (forall ps' r', cut d s ps' r' -> ps' = ps /\ r' = r) /\
  split s d = Some (match s, r with [], _ => [[]] | _, [] => ps | _, _ => ps ++ [r] end).
Proof.
  intros Hd. destruct (split_loop_total d Hd (length s) s (le_n _)) as (ps & r & E). exists ps, r.
  split; [eapply split_loop_cut; eauto|]. split.
  - intros ps' r' C. rewrite (cut_split_loop d Hd _ _ _ C) in E by auto. injection E as -> ->. auto.
  - unfold split, split_fuel. destruct s; [reflexivity|]. rewrite E. destruct r; reflexivity.
Qed.

Lemma join_loop_false l d acc : join_loop false l d acc = acc ++ concat (map (fun x => d ++ x) l).
Proof. revert acc; induction l as [|x l IH]; intros acc; cbn; [rewrite app_nil_r; auto|]. rewrite IH, <- !app_assoc. auto. Qed.
Lemma join_glue l d : join l d = glue l d.
Proof.
  unfold join. destruct l as [|x l]; auto. cbn [join_loop]. rewrite join_loop_false. cbn [app]. revert x.
  induction l as [|y l IH]; intros x; [cbn; apply app_nil_r|]. cbn [map concat glue]. rewrite <- app_assoc.
  rewrite IH. reflexivity.
Qed.
Lemma glue_cons2 x l d : l <> [] -> glue (x :: l) d = x ++ d ++ glue l d.
Proof. destruct l; [congruence|]. reflexivity. Qed.
Lemma cut_glue d s ps r : cut d s ps r -> glue (ps ++ [r]) d = s.
Proof. induction 1 as [|p s ps r HE C IH]; [reflexivity|]. cbn [app]. rewrite glue_cons2 by (destruct ps; discriminate). congruence. Qed.
Lemma glue_snoc_nil d ps : ps <> [] -> glue (ps ++ [[]]) d = glue ps d ++ d.
Proof.
  induction ps as [|p [|q ps] IH]; [congruence| |]; intros _.
  - cbn. rewrite app_nil_r. reflexivity.
  - change (((p :: q :: ps) ++ [[]])) with (p :: ((q :: ps) ++ [[]])). rewrite glue_cons2 by discriminate.
    rewrite IH by discriminate. rewrite (glue_cons2 p (q :: ps)) by discriminate. rewrite <- !app_assoc. auto.
Qed.

Lemma C20_join_split_lemma s d : d <> [] -> exists l, split s d = Some l /\
  ((join l d = s /\ (s = [] \/ forall ps, ~ cut d s ps [])) \/
   (join l d ++ d = s /\ exists ps, cut d s ps [])).
Proof.
  intros Hd. destruct (C20_cut_lemma s d Hd) as (ps & r & C & U & E). rewrite E. eexists; split; [reflexivity|].
  rewrite join_glue. pose proof (cut_glue _ _ _ _ C) as G. destruct s as [|x s].
  - left. split; auto.
  - destruct r as [|y r].
    + right. split; [|eauto]. destruct ps as [|p ps]; [cbn in G; discriminate|]. rewrite <- glue_snoc_nil by discriminate. auto.
    + left. split; auto. right. intros ps' C'. apply U in C'. destruct C'; discriminate.
Qed.

Lemma cut_pieces_free d s ps r : d <> [] -> cut d s ps r -> forall p, In p (ps ++ [r]) -> ~ contains p d.
Proof.
  intros Hd. induction 1 as [r Hr|p s ps r HE C IH]; intros q [Q|Q].
  - subst; auto.
  - destruct Q.
  - subst q. intros (a & b & E). assert (b ++ d = []) as Z.
    { apply (HE a). rewrite E, <- !app_assoc. reflexivity. }
    destruct b; [cbn in Z; congruence|discriminate].
  - apply IH. exact Q.
Qed.
Lemma contains_nil_false d : d <> [] -> ~ contains [] d.
Proof. intros Hd (a & b & E). destruct a; [|discriminate]. destruct d; [congruence|discriminate]. Qed.
Lemma C20_no_delim_lemma s d l : d <> [] -> split s d = Some l -> forall p, In p l -> ~ contains p d.
Proof.
  intros Hd E p Hp. destruct (C20_cut_lemma s d Hd) as (ps & r & C & _ & E'). rewrite E' in E. injection E as <-.
  destruct s.
  - destruct Hp as [<-|[]]. apply contains_nil_false; auto.
  - eapply (cut_pieces_free d _ ps r Hd C). destruct r; auto. apply in_or_app; auto.
Qed.

Lemma glue_cut d xs x : d <> [] -> (forall p, In p xs -> ends_at p d) -> ~ contains x d -> cut d (glue (xs ++ [x]) d) xs x.
Proof.
  intros Hd. induction xs as [|p xs IH]; intros HA HL; [cbn; constructor; auto|].
  cbn [app]. rewrite glue_cons2 by (destruct xs; discriminate). constructor; [apply HA; left; auto|].
  apply IH; auto. intros q Hq. apply HA. right; auto.
Qed.
Lemma C20_split_join_lemma d xs x : d <> [] -> (forall p, In p xs -> ends_at p d) -> ~ contains x d -> x <> [] ->
  split (join (xs ++ [x]) d) d = Some (xs ++ [x]).
Proof.
  intros Hd HA HL Hx. rewrite join_glue. pose proof (glue_cut d xs x Hd HA HL) as C.
  destruct (C20_cut_lemma (glue (xs ++ [x]) d) d Hd) as (ps & r & _ & U & E). destruct (U _ _ C) as [-> ->]. rewrite E.
  destruct r; [congruence|].
  destruct (glue (ps ++ [a :: r]) d) eqn:G; [exfalso|auto].
  destruct ps as [|p ps]; [cbn in G; discriminate|]. cbn [app] in G. rewrite glue_cons2 in G by (destruct ps; discriminate).
  apply app_eq_nil in G. destruct G as [_ G]. apply app_eq_nil in G. tauto.
Qed.

Lemma single_ends_at c p : ~ In c p -> ends_at p [c].
Proof.
  intros H a b E. destruct b as [|y b] using rev_ind; auto. exfalso.
  rewrite app_assoc in E. change ((a ++ [c]) ++ b ++ [y]) with ((a ++ [c]) ++ (b ++ [y])) in E. rewrite app_assoc in E.
  apply app_inj_tail in E. destruct E as [E _]. apply H. rewrite E. apply in_or_app. left. apply in_or_app. right. left. auto.
Qed.
Lemma single_contains c p : contains p [c] <-> In c p.
Proof.
  split.
  - intros (a & b & ->). apply in_or_app. right. left. auto.
  - intros H. apply in_split in H. destruct H as (a & b & ->). exists a, b. auto.
Qed.
Lemma C20_single_lemma c xs : xs <> [] -> (forall p, In p xs -> ~ In c p) -> last xs [] <> [] -> split (join xs [c]) [c] = Some xs.
Proof.
  intros Hne HA HL. destruct (exists_last Hne) as (ys & y & ->). rewrite last_last in HL.
  apply C20_split_join_lemma; auto.
  - discriminate.
  - intros p Hp. apply single_ends_at, HA, in_or_app; auto.
  - rewrite single_contains. apply HA, in_or_app. right. left. auto.
Qed.

Lemma C20_diverges_lemma s fuel : s <> [] -> split_fuel fuel s [] = None.
Proof.
  intros Hs. unfold split_fuel. destruct s as [|c s]; [congruence|]. clear Hs.
  assert (H : forall fuel, split_loop fuel (c :: s) [] = None).
  { induction fuel0 as [|f IH]; [reflexivity|]. cbn [split_loop str_find is_prefix]. cbn [Nat.add length skipn]. rewrite IH. reflexivity. }
  rewrite H. reflexivity.
Qed.

(* ---- trim ---- *)
Local Open Scope Z_scope.
Lemma char_at_app a c b : char_at (a ++ c :: b) (Z.of_nat (length a)) = Ok c.
Proof.
  unfold char_at. rewrite app_length. cbn [length].
  destruct (_ && _) eqn:E; [|lia]. rewrite Nat2Z.id, nth_error_app2, Nat.sub_diag by lia. reflexivity.
Qed.
Definition fits (s : str) : Prop := Z.of_nat (length s) < 2 ^ 64.

Lemma trim_front_ok s : fits s -> forall b a fuel, s = a ++ b -> all_space a -> (length b <= fuel)%nat ->
  exists a' b', s = a' ++ b' /\ all_space a' /\ (b' = [] \/ exists x m, b' = x :: m /\ is_space x = false) /\
    trim_front fuel s (Z.of_nat (length a)) = Ok (Z.of_nat (length a')).
Proof.
  intros HF. induction b as [|c b IH]; intros a fuel E HA Hf.
  - exists a, []. rewrite app_nil_r in *. subst a. repeat split; auto. 
    destruct fuel; [reflexivity|]. cbn [trim_front]. rewrite Z.ltb_irrefl. reflexivity.
  - destruct fuel as [|f]; [cbn in Hf; lia|]. cbn [trim_front].
    destruct (Z.ltb_spec (Z.of_nat (length a)) (Z.of_nat (length s))) as [C|C]; [|subst s; rewrite app_length in C; cbn in C; lia].
    replace (char_at s (Z.of_nat (length a))) with (Ok c) by (rewrite E; symmetry; apply char_at_app).
    cbn [bind]. destruct (is_space c) eqn:S.
    + unfold to_u64. rewrite Z.mod_small by (unfold fits in HF; lia).
      destruct (IH (a ++ [c]) f) as (a' & b' & E1 & E2 & E3 & E4).
      * rewrite <- app_assoc. exact E.
      * intros x Hx. apply in_app_or in Hx. destruct Hx as [Hx|[<-|[]]]; auto.
      * cbn in Hf. lia.
      * exists a', b'. repeat split; auto. rewrite app_length in E4. cbn [length] in E4. rewrite Nat2Z.inj_add in E4. exact E4.
    + exists a, (c :: b). repeat split; eauto.
Qed.

Lemma trim_end_ok s front : fits s -> forall t b fuel, s = t ++ b -> t <> [] -> all_space b -> (front < length t)%nat -> (length t <= fuel)%nat ->
  exists t' b', s = t' ++ b' /\ all_space b' /\ (front < length t')%nat /\ (length t' = S front \/ is_space (last t' zero) = false) /\
    trim_end fuel s (Z.of_nat front) (Z.of_nat (length t) - 1) = Ok (Z.of_nat (length t') - 1).
Proof.
  intros HF t. induction t as [|c t IH] using rev_ind; intros b fuel E Hne HB Hf HL; [congruence|].
  rewrite app_length in *. cbn [length] in *.
  destruct fuel as [|f]; [lia|]. cbn [trim_end].
  replace (Z.of_nat (length t + 1) - 1) with (Z.of_nat (length t)) by lia.
  destruct (Z.ltb_spec (Z.of_nat front) (Z.of_nat (length t))) as [C|C].
  - replace (char_at s (Z.of_nat (length t))) with (Ok c) by (rewrite E, <- app_assoc; symmetry; apply char_at_app).
    cbn [bind]. destruct (is_space c) eqn:S.
    + unfold to_u64. rewrite Z.mod_small.
      2:{ unfold fits in HF. rewrite E, !app_length in HF. cbn in HF. lia. }
      destruct (IH (c :: b) f) as (t' & b' & E1 & E2 & E3 & E4 & E5).
      * rewrite E, <- app_assoc. reflexivity.
      * intros ->. cbn in C. lia.
      * intros x [<-|Hx]; auto.
      * lia.
      * lia.
      * exists t', b'. auto.
    + exists (t ++ [c]), b. rewrite app_length. cbn [length]. repeat split; auto; try lia.
      * right. rewrite last_last. exact S.
      * f_equal. lia.
  - exists (t ++ [c]), b. rewrite app_length. cbn [length]. repeat split; auto; try lia. f_equal. lia.
Qed.

Lemma last_default {A} (l : list A) d d' : l <> [] -> last l d = last l d'.
Proof. induction l as [|x [|y l] IH]; [congruence|reflexivity|]. intros _. change (last (y :: l) d = last (y :: l) d'). apply IH. discriminate. Qed.
Lemma last_app_ne {A} (a b : list A) d : b <> [] -> last (a ++ b) d = last b d.
Proof.
  intros Hb. induction a as [|x a IH]; auto. cbn [app]. destruct (a ++ b) eqn:E.
  - apply app_eq_nil in E. destruct E; congruence.
  - cbn [last]. exact IH.
Qed.

Lemma C21_lemma s : s <> [] -> fits s -> exists t, trim s = Ok t /\ trimmed s t.
Proof.
  intros Hne HF. unfold trim.
  destruct (trim_front_ok s HF s [] (length s + 1)%nat eq_refl) as (a & b & E & HA & HB & HT).
  { intros c []. } { lia. }
  change (Z.of_nat (length [])) with 0 in HT. rewrite HT. cbn [bind].
  assert (Hpos : (0 < length s)%nat) by (destruct s; [congruence|cbn; lia]).
  assert (HU : to_u64 (Z.of_nat (length s) - 1) = Z.of_nat (length s) - 1).
  { unfold to_u64. apply Z.mod_small. unfold fits in HF. lia. }
  rewrite HU. destruct HB as [->|(x & m & -> & Hx)].
  - (* all space *)
    rewrite app_nil_r in E. subst a.
    assert (HE : exists e, trim_end (length s + 1) s (Z.of_nat (length s)) (Z.of_nat (length s) - 1) = Ok e).
    { replace (length s + 1)%nat with (S (length s)) by lia. cbn [trim_end].
      destruct (Z.ltb_spec (Z.of_nat (length s)) (Z.of_nat (length s) - 1)); [lia|]. eauto. }
    destruct HE as [e ->]. cbn [bind]. rewrite Z.eqb_refl. exists []. split; auto.
    exists s, []. repeat split; auto; [rewrite app_nil_r; auto|intros c []].
  - destruct (trim_end_ok s (length a) HF s [] (length s + 1)%nat) as (t & r & E1 & HR & Hf & HL & HE); auto; try lia.
    + rewrite app_nil_r; auto.
    + intros c [].
    + rewrite E, app_length. cbn [length]. lia.
    + rewrite HE. cbn [bind].
      assert (Hal : (length a < length s)%nat) by (rewrite E, app_length; cbn; lia).
      destruct (Z.eqb_spec (Z.of_nat (length a)) (Z.of_nat (length s))); [lia|].
      destruct (Z.leb_spec (Z.of_nat (length a)) (Z.of_nat (length s))); [|lia].
      assert (Hts : (length t <= length s)%nat) by (rewrite E1, app_length; lia).
      unfold to_u64. rewrite Z.mod_small by (unfold fits in HF; lia).
      rewrite Nat2Z.id. replace (Z.to_nat (Z.of_nat (length t) - 1 - Z.of_nat (length a) + 1)) with (length t - length a)%nat by lia.
      eexists; split; [reflexivity|].
      (* t = a ++ u *)
      assert (Ht : t = a ++ skipn (length a) t).
      { assert (F : firstn (length a) t = a).
        { assert (Q : firstn (length a) (t ++ r) = firstn (length a) (a ++ x :: m)) by congruence.
          rewrite !firstn_app, firstn_all, Nat.sub_diag in Q. cbn [firstn] in Q.
          replace (length a - length t)%nat with 0%nat in Q by lia. cbn [firstn] in Q. rewrite !app_nil_r in Q. exact Q. }
        rewrite <- F at 1. symmetry. apply firstn_skipn. }
      set (u := skipn (length a) t) in *.
      assert (Hu : length u = (length t - length a)%nat) by (unfold u; rewrite skipn_length; lia).
      assert (Hsub : substr s (length a) (length t - length a) = u).
      { unfold substr. rewrite E1, Ht, <- app_assoc, skipn_app, skipn_all, Nat.sub_diag. cbn [app skipn].
        rewrite app_length, Hu. replace (length a + (length t - length a) - length a)%nat with (length u) by lia.
        rewrite firstn_app, firstn_all, Nat.sub_diag. cbn. apply app_nil_r. }
      rewrite Hsub. exists a, r. split; [rewrite E1 at 1; rewrite Ht at 1; rewrite <- app_assoc; auto|]. split; auto. split; auto.
      right. assert (Hum : u ++ r = x :: m).
      { assert (a ++ u ++ r = a ++ x :: m) as Q by (rewrite app_assoc, <- Ht; congruence). apply app_inv_head in Q. exact Q. }
      destruct u as [|y u']; [cbn in Hu; lia|]. cbn in Hum. injection Hum as -> Hum. exists x, u'. split; auto. split; auto.
      destruct HL as [HL|HL].
      * cbn in Hu. assert (length u' = 0)%nat by lia. destruct u'; [|discriminate]. cbn. auto.
      * rewrite Ht in HL. rewrite last_app_ne in HL by discriminate. rewrite (last_default _ x zero) by discriminate. exact HL.
Qed.

Lemma trimmed_unique s t t' : trimmed s t -> trimmed s t' -> t = t'.
Proof.
  intros (a & b & E & HA & HB & HT) (a' & b' & E' & HA' & HB' & HT').
  assert (Hnil : forall (s a t b a' b' : str), s = a ++ t ++ b -> all_space a -> all_space b -> (exists x m, t = x :: m /\ is_space x = false) ->
     s = a' ++ [] ++ b' -> all_space a' -> all_space b' -> False).
  { clear. intros s a t b a' b' E HA HB (x & m & -> & Hx) E' HA' HB'.
    assert (In x (a' ++ b')) as HI.
    { change (a' ++ b') with (a' ++ [] ++ b'). rewrite <- E', E. apply in_or_app. right. left. auto. }
    apply in_app_or in HI. destruct HI as [HI|HI]; [apply HA' in HI|apply HB' in HI]; congruence. }
  destruct HT as [->|(x & m & Et & Hx & Hl)], HT' as [->|(x' & m' & Et' & Hx' & Hl')]; auto.
  - exfalso. eapply (Hnil s a' t' b' a b); eauto.
  - exfalso. eapply (Hnil s a t b a' b'); eauto.
  - assert (Hlen : forall (a b a' b' : str) x y, a ++ x :: b = a' ++ y :: b' -> all_space a -> is_space x = false -> all_space a' -> is_space y = false -> a = a').
    { clear. induction a as [|c a IH]; intros b [|c' a'] b' x y E HA Hx HA' Hy; cbn in E; auto.
      - injection E as -> _. rewrite (HA' c' (or_introl eq_refl)) in Hx. discriminate.
      - injection E as -> _. rewrite (HA y (or_introl eq_refl)) in Hy. discriminate.
      - injection E as -> E. f_equal. eapply IH; eauto; intros z Hz; [apply HA|apply HA']; right; auto. }
    assert (a = a') as <-.
    { apply (Hlen a (m ++ b) a' (m' ++ b') x x'); auto. rewrite Et in E; rewrite Et' in E'. cbn in E, E'. congruence. }
    assert (Et2 : t ++ b = t' ++ b') by (apply (app_inv_head a); congruence).
    assert (Hrev : forall u d, u <> [] -> is_space (last u d) = false -> exists v y, u = v ++ [y] /\ is_space y = false).
    { intros u d Hu HL. destruct (exists_last Hu) as (v & y & ->). rewrite last_last in HL. eauto. }
    destruct (Hrev t x) as (v & y & Ev & Hy); [rewrite Et; discriminate|auto|].
    destruct (Hrev t' x') as (v' & y' & Ev' & Hy'); [rewrite Et'; discriminate|auto|].
    assert (Hb : rev b = rev b').
    { apply (Hlen (rev b) (rev v) (rev b') (rev v') y y'); auto.
      - apply (f_equal (@rev _)) in Et2. rewrite !rev_app_distr in Et2. rewrite Ev, Ev', !rev_app_distr in Et2. exact Et2.
      - intros c Hc. apply HB. rewrite in_rev. exact Hc.
      - intros c Hc. apply HB'. rewrite in_rev. exact Hc. }
    apply (f_equal (@rev _)) in Hb. rewrite !rev_involutive in Hb. subst b'. apply app_inv_tail in Et2. exact Et2.
Qed.

Lemma trimmed_self t : (exists x m, t = x :: m /\ is_space x = false /\ is_space (last t x) = false) -> trimmed t t.
Proof. intros H. exists [], []. rewrite app_nil_r. repeat split; auto; intros c []. Qed.

Lemma C21_idem_lemma s t : s <> [] -> fits s -> trim s = Ok t -> t <> [] -> trim t = Ok t.
Proof.
  intros Hne HF E Ht. destruct (C21_lemma s Hne HF) as (t' & E' & a & b & Es & HA & HB & HT). rewrite E in E'. injection E' as <-.
  destruct HT as [->|HT]; [congruence|].
  assert (HFt : fits t) by (unfold fits in *; rewrite Es, !app_length in HF; lia).
  destruct (C21_lemma t Ht HFt) as (t' & E' & HT'). rewrite E'. f_equal. eapply trimmed_unique; eauto. apply trimmed_self; auto.
Qed.
Local Close Scope Z_scope.

(* ---- lower/upper ---- *)
Lemma transform_ok f g s : (forall c, In c s -> f c = Ok (g c)) -> transform f s = Ok (map g s).
Proof.
  induction s as [|c s IH]; intros H; auto. cbn [transform map]. rewrite H by (left; auto). cbn [bind].
  rewrite IH by (intros; apply H; right; auto). reflexivity.
Qed.
Lemma transform_ub f s : (exists c, In c s /\ f c = UB) -> (forall c, f c <> Throw) -> transform f s = UB.
Proof.
  intros (c & Hc & HU) HT. induction s as [|x s IH]; [destruct Hc|]. cbn [transform].
  destruct (f x) eqn:E; auto; [|exfalso; eapply HT; eauto]. cbn [bind]. destruct Hc as [<-|Hc]; [congruence|]. rewrite IH; auto.
Qed.

(* ---- enum ---- *)
Lemma str_eqb_spec a b : str_eqb a b = true <-> a = b.
Proof. unfold str_eqb. destruct (list_eq_dec ascii_dec a b); split; congruence. Qed.
Local Open Scope Z_scope.
Lemma enum_vec_loop_ok l s : forall index value found,
  let r := enum_vec_loop l s index value found in
  (~ In s l /\ r = (found, value)) \/
  (exists i, last_index s l i /\ r = (true, index + Z.of_nat i)).
Proof.
  induction l as [|d l IH]; intros index value found; cbn [enum_vec_loop].
  - left. split; auto.
  - destruct (str_eqb s d) eqn:E.
    + apply str_eqb_spec in E. subst d. right. destruct (IH (index + 1) index true) as [[H1 H2]|(i & [H1 H1'] & H2)].
      * exists 0%nat. split; [split; [reflexivity|]|rewrite H2; f_equal; lia].
        intros [|j]; [lia|]. cbn. intros Q. exfalso. apply H1. eapply nth_error_In; eauto.
      * exists (S i). split; [split; [exact H1|]|rewrite H2; f_equal; lia]. intros [|j]; [lia|]. cbn. intros Q. apply H1' in Q. lia.
    + assert (s <> d) by (intros ->; rewrite (proj2 (str_eqb_spec d d) eq_refl) in E; discriminate).
      destruct (IH (index + 1) value found) as [[H1 H2]|(i & [H1 H1'] & H2)].
      * left. split; auto. intros [Q|Q]; [congruence|auto].
      * right. exists (S i). split; [split; [exact H1|]|rewrite H2; f_equal; lia]. intros [|j]; [lia|]. cbn. intros Q. apply H1' in Q. lia.
Qed.

(* a terminated array: texts, then the terminator, then anything *)
Lemma enum_loop_ok l em rest s : (forall t m, em = Some m -> In t l -> t <> m) -> forall index value found, 0 <= index -> index + Z.of_nat (length l) < 2 ^ 31 ->
  enum_loop (map Some l ++ em :: rest) em s index value found =
    Ok (enum_vec_loop l (c_str s) index value found).
Proof.
  induction l as [|d l IH]; intros HM index value found Hi Hb.
  - cbn [map app enum_loop enum_vec_loop]. destruct em as [m|]; [|reflexivity].
    rewrite (proj2 (str_eqb_spec m m) eq_refl). reflexivity.
  - cbn [map app enum_loop enum_vec_loop].
    assert (Hgo : forall v f, match map Some l ++ em :: rest with [] => UB | _ :: _ => bind (chk32 (index + 1)) (fun i' => enum_loop (map Some l ++ em :: rest) em s i' v f) end
      = Ok (enum_vec_loop l (c_str s) (index + 1) v f)).
    { intros v f. destruct (map Some l ++ em :: rest) eqn:Q; [destruct l; discriminate|].
      unfold chk32, in_i32. cbn [length] in Hb.
      destruct (_ && _) eqn:Z; [|lia]. cbn [bind]. rewrite <- Q in *. apply IH; try lia. intros; eapply HM; eauto; right; auto. }
    assert (Hbody : bind (if str_eqb (c_str s) d then Ok (index, true) else Ok (value, found)) (fun vf =>
      match map Some l ++ em :: rest with [] => UB | _ :: _ => bind (chk32 (index + 1)) (fun i' => enum_loop (map Some l ++ em :: rest) em s i' (fst vf) (snd vf)) end)
      = Ok (if str_eqb (c_str s) d then enum_vec_loop l (c_str s) (index + 1) index true else enum_vec_loop l (c_str s) (index + 1) value found)).
    { destruct (str_eqb (c_str s) d); cbn [bind fst snd]; apply Hgo. }
    destruct em as [m|]; [|exact Hbody].
    destruct (str_eqb d m) eqn:Q; [|exact Hbody]. apply str_eqb_spec in Q. exfalso. eapply HM; eauto. left; auto.
Qed.

Lemma C23_vec_lemma s value l :
  (~ In s l /\ string2Enum_vector s value l = (false, value)) \/
  (exists i, last_index s l i /\ string2Enum_vector s value l = (true, Z.of_nat i)).
Proof. unfold string2Enum_vector. destruct (enum_vec_loop_ok l s 0 value false) as [H|(i & H1 & H2)]; [left|right; exists i; rewrite H2]; auto. Qed.

Lemma C23_arr_lemma s value l em rest : Z.of_nat (length l) < 2 ^ 31 -> (forall m, em = Some m -> ~ In m l) ->
  (~ In (c_str s) l /\ string2Enum_array s value (map Some l ++ em :: rest) em = Ok (false, value)) \/
  (exists i, last_index (c_str s) l i /\ string2Enum_array s value (map Some l ++ em :: rest) em = Ok (true, Z.of_nat i)).
Proof.
  intros Hl Hm. unfold string2Enum_array. rewrite enum_loop_ok by (try lia; intros t m E Q ->; eapply Hm; eauto).
  destruct (enum_vec_loop_ok l (c_str s) 0 value false) as [[H1 H2]|(i & H1 & H2)]; [left|right; exists i]; rewrite H2; auto.
Qed.
