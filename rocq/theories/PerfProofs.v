(* Proofs about the performance monitor: the order on doubles, sorting, and the state that a history leads to. *)
From Coq Require Import Floats.SpecFloat Permutation Sorted.
From Verif Require Import Base BaseLemmas Text SMap StringHelperModel StringHelperProofs PerfModel PerfSpec.
From Verif Require FileLogProofs.
Local Open Scope Z_scope.

(* ---- the order of doubles ---- *)
Definition cls (d : double) : Z :=
  match d with S754_infinity true => -2 | S754_finite true _ _ => -1 | S754_zero _ => 0 | S754_finite false _ _ => 1 | S754_infinity false => 2 | S754_nan => 0 end.
Definition ex (d : double) : Z := match d with S754_finite true _ e => - e | S754_finite false _ e => e | _ => 0 end.
Definition mt (d : double) : Z := match d with S754_finite true m _ => Z.neg m | S754_finite false m _ => Z.pos m | _ => 0 end.

Lemma ltb_key a b : is_nan a = false -> is_nan b = false ->
  (SFltb a b = true <-> cls a < cls b \/ (cls a = cls b /\ (ex a < ex b \/ (ex a = ex b /\ mt a < mt b)))).
Proof.
  destruct a as [sa|[]| |[] ma ea]; destruct b as [sb|[]| |[] mb eb]; try discriminate; intros _ _;
    unfold SFltb, SFcompare; cbn [cls ex mt]; try (split; [discriminate|lia]); try (split; [lia|reflexivity]).
  - destruct (Z.compare_spec ea eb) as [<-|L|L].
    + change (Pos.compare_cont Eq ma mb) with (Pos.compare ma mb). destruct (Pos.compare_spec ma mb) as [<-|L|L]; cbn [CompOpp]; (split; [try discriminate|try reflexivity]); intros; try lia.
    + cbn [CompOpp]. split; [discriminate|lia].
    + split; [lia|reflexivity].
  - destruct (Z.compare_spec ea eb) as [<-|L|L].
    + change (Pos.compare_cont Eq ma mb) with (Pos.compare ma mb). destruct (Pos.compare_spec ma mb) as [<-|L|L]; (split; [try discriminate|try reflexivity]); intros; try lia.
    + split; [lia|reflexivity].
    + split; [discriminate|lia].
Qed.
Lemma nan_ltb_l b : SFltb S754_nan b = false. Proof. destruct b; reflexivity. Qed.
Lemma nan_ltb_r a : SFltb a S754_nan = false. Proof. destruct a as [|[]| |[]]; reflexivity. Qed.
Lemma ltb_irrefl a : SFltb a a = false.
Proof.
  destruct (is_nan a) eqn:E. { destruct a; try discriminate. reflexivity. }
  destruct (SFltb a a) eqn:L; [|reflexivity]. apply ltb_key in L; try assumption. lia.
Qed.
Lemma ltb_asym a b : SFltb a b = true -> SFltb b a = false.
Proof.
  intros L. destruct (is_nan a) eqn:A. { destruct a; try discriminate. }
  destruct (is_nan b) eqn:B. { destruct b; try discriminate. rewrite nan_ltb_r in L. discriminate. }
  destruct (SFltb b a) eqn:M; [|reflexivity]. apply ltb_key in L; try assumption. apply ltb_key in M; try assumption. lia.
Qed.
Lemma not_above_trans a b c : is_nan b = false -> not_above a b -> not_above b c -> not_above a c.
Proof.
  unfold not_above. intros B H1 H2.
  destruct (is_nan a) eqn:A. { destruct a; try discriminate. apply nan_ltb_r. }
  destruct (is_nan c) eqn:C0. { destruct c; try discriminate. apply nan_ltb_l. }
  destruct (SFltb c a) eqn:L; [|reflexivity]. exfalso.
  apply ltb_key in L; try assumption.
  assert (N1 : ~ (cls b < cls a \/ (cls b = cls a /\ (ex b < ex a \/ (ex b = ex a /\ mt b < mt a))))).
  { intros X. apply ltb_key in X; try assumption. congruence. }
  assert (N2 : ~ (cls c < cls b \/ (cls c = cls b /\ (ex c < ex b \/ (ex c = ex b /\ mt c < mt b))))).
  { intros X. apply ltb_key in X; try assumption. congruence. }
  lia.
Qed.
Lemma not_above_leb a b : is_nan a = false -> is_nan b = false -> (not_above a b <-> SFleb a b = true).
Proof.
  unfold not_above. intros A B. split.
  - intros H. assert (N1 : ~ (cls b < cls a \/ (cls b = cls a /\ (ex b < ex a \/ (ex b = ex a /\ mt b < mt a))))).
    { intros X. apply ltb_key in X; try assumption. congruence. }
    destruct (SFltb a b) eqn:L.
    + unfold SFleb, SFltb in *. destruct (SFcompare a b) as [[]|]; auto; discriminate.
    + assert (N2 : ~ (cls a < cls b \/ (cls a = cls b /\ (ex a < ex b \/ (ex a = ex b /\ mt a < mt b))))).
      { intros X. apply ltb_key in X; try assumption. congruence. }
      assert (E : cls a = cls b /\ ex a = ex b /\ mt a = mt b) by lia. clear N1 N2 H L.
      destruct a as [sa|[]| |[] ma ea]; destruct b as [sb|[]| |[] mb eb]; try discriminate; cbn [cls ex mt] in E; try lia; try reflexivity.
      * replace eb with ea by lia. replace mb with ma by lia. unfold SFleb, SFcompare. rewrite Z.compare_refl.
        change (Pos.compare_cont Eq ma ma) with (Pos.compare ma ma). rewrite Pos.compare_refl. reflexivity.
      * replace eb with ea by lia. replace mb with ma by lia. unfold SFleb, SFcompare. rewrite Z.compare_refl.
        change (Pos.compare_cont Eq ma ma) with (Pos.compare ma ma). rewrite Pos.compare_refl. reflexivity.
  - intros H. destruct (SFltb b a) eqn:L; [|reflexivity]. pose proof (ltb_asym _ _ L) as M.
    apply ltb_key in L; try assumption.
    unfold SFleb in H. unfold SFltb in M. destruct (SFcompare a b) as [[]|] eqn:Q; try discriminate.
    exfalso. destruct a as [sa|[]| |[] ma ea]; destruct b as [sb|[]| |[] mb eb]; try discriminate; cbn [cls ex mt] in L; try lia.
    + unfold SFcompare in Q. destruct (Z.compare_spec ea eb); try discriminate. change (Pos.compare_cont Eq ma mb) with (Pos.compare ma mb) in Q.
      destruct (Pos.compare_spec ma mb); try discriminate. lia.
    + unfold SFcompare in Q. destruct (Z.compare_spec ea eb); try discriminate. change (Pos.compare_cont Eq ma mb) with (Pos.compare ma mb) in Q.
      destruct (Pos.compare_spec ma mb); try discriminate. lia.
Qed.

(* ---- sorting ---- *)
Lemma insert_perm x l : Permutation (x :: l) (insert x l).
Proof.
  induction l as [|y r IH]; [apply Permutation_refl|]. cbn [insert]. destruct (dlt x y); [apply Permutation_refl|].
  eapply Permutation_trans; [apply perm_swap|]. apply perm_skip. exact IH.
Qed.
Lemma fold_insert_perm l : forall s, Permutation (l ++ s) (fold_left (fun s x => insert x s) l s).
Proof.
  induction l as [|x l IH]; intros s; [apply Permutation_refl|]. cbn [fold_left app].
  eapply Permutation_trans; [|apply IH]. eapply Permutation_trans; [apply Permutation_middle|]. apply Permutation_app_head, insert_perm.
Qed.
Lemma sorted_copy_perm l : Permutation l (sorted_copy l).
Proof. pose proof (fold_insert_perm l []) as H. rewrite app_nil_r in H. exact H. Qed.

(* on these values not_above is transitive *)
Definition orderly (l : list double) := forall a b c, In a l -> In b l -> In c l -> not_above a b -> not_above b c -> not_above a c.
Lemma orderly_incl l l' : incl l' l -> orderly l -> orderly l'.
Proof. intros I0 O a b c A B C0. apply O; apply I0; assumption. Qed.
Lemma insert_sorted x l : orderly (x :: l) -> StronglySorted not_above l -> StronglySorted not_above (insert x l).
Proof.
  intros O S0. induction S0 as [|y r S0 IH A].
  - repeat constructor.
  - cbn [insert]. destruct (dlt x y) eqn:L.
    + constructor; [constructor; assumption|]. assert (XY : not_above x y) by (apply ltb_asym; exact L).
      constructor; [exact XY|]. rewrite Forall_forall in A |- *. intros z Z0.
      apply (O x y z); cbn; auto.
    + constructor.
      * apply IH. eapply orderly_incl; [|exact O]. intros z [<-|Z0]; cbn; auto.
      * rewrite Forall_forall in A |- *. intros z Z0. apply (Permutation_in _ (Permutation_sym (insert_perm x r))) in Z0.
        destruct Z0 as [<-|Z0]; [exact L|apply A; exact Z0].
Qed.
Lemma fold_insert_sorted l : forall s, orderly (l ++ s) -> StronglySorted not_above s -> StronglySorted not_above (fold_left (fun s x => insert x s) l s).
Proof.
  induction l as [|x l IH]; intros s O S0; [exact S0|]. cbn [fold_left]. apply IH.
  - eapply orderly_incl; [|exact O]. intros z Z0. apply in_app_or in Z0. cbn. destruct Z0 as [Z0|Z0]; [right; apply in_or_app; auto|].
    apply (Permutation_in _ (Permutation_sym (insert_perm x s))) in Z0. destruct Z0 as [<-|Z0]; [auto|right; apply in_or_app; auto].
  - apply insert_sorted; [|exact S0]. eapply orderly_incl; [|exact O]. intros z [<-|Z0]; cbn; auto. right. apply in_or_app. auto.
Qed.

Lemma mixed_test l : existsb is_nan l && existsb (fun x => existsb (dlt x) l) l = true <-> mixed l.
Proof.
  unfold mixed. rewrite andb_true_iff, !existsb_exists. split.
  - intros [(n & N1 & N2) (x & X1 & X2)]. apply existsb_exists in X2. destruct X2 as (y & Y1 & Y2).
    split; [destruct n; try discriminate; exact N1|]. exists x, y. auto.
  - intros [N (x & y & X & Y & L)]. split; [exists S754_nan; auto|]. exists x. split; [exact X|]. apply existsb_exists. exists y. auto.
Qed.
Lemma not_mixed_orderly l : ~ mixed l -> orderly l.
Proof.
  intros N a b c A B C0 H1 H2. destruct (is_nan b) eqn:E.
  - destruct b; try discriminate. unfold not_above. destruct (SFltb c a) eqn:L; [|reflexivity].
    exfalso. apply N. split; [exact B|]. exists c, a. auto.
  - exact (not_above_trans a b c E H1 H2).
Qed.
Lemma sort_ok l : ~ mixed l -> exists s, sort l = Ok s /\ Permutation l s /\ StronglySorted not_above s.
Proof.
  intros N. exists (sorted_copy l). unfold sort. split; [|split].
  - destruct (existsb is_nan l && existsb (fun x => existsb (dlt x) l) l) eqn:E; [|reflexivity]. apply mixed_test in E. destruct (N E).
  - apply sorted_copy_perm.
  - apply fold_insert_sorted; [|constructor]. rewrite app_nil_r. apply not_mixed_orderly. exact N.
Qed.
Lemma sort_ub l : mixed l -> sort l = UB.
Proof. intros H. unfold sort. apply mixed_test in H. rewrite H. reflexivity. Qed.
Lemma mixed_dec l : {mixed l} + {~ mixed l}.
Proof.
  destruct (existsb is_nan l && existsb (fun x => existsb (dlt x) l) l) eqn:E; [left|right].
  - apply mixed_test. exact E.
  - intros H. apply mixed_test in H. congruence.
Qed.

Lemma sorted_least x s : StronglySorted not_above (x :: s) -> least (x :: s) x.
Proof.
  intros H. inversion H as [|y r S0 A]. subst. split; [left; reflexivity|]. intros z [<-|Z0]; [apply ltb_irrefl|].
  rewrite Forall_forall in A. exact (A z Z0).
Qed.
Lemma sorted_greatest s v : StronglySorted not_above s -> nth_error s (length s - 1) = Some v -> greatest s v.
Proof.
  intros S0. revert v. induction S0 as [|x r S0 IH A]; intros v H; [discriminate|].
  split; [eapply nth_error_In; exact H|]. destruct r as [|y r].
  - cbn in H. injection H as <-. intros z [<-|[]]. apply ltb_irrefl.
  - replace (length (x :: y :: r) - 1)%nat with (S (length (y :: r) - 1))%nat in H by (cbn [length]; lia).
    cbn [nth_error] in H. destruct (IH v H) as [I1 I2]. intros z [<-|Z0]; [|apply I2; exact Z0].
    rewrite Forall_forall in A. apply A. exact I1.
Qed.
Lemma nth_some {A} (l : list A) i : (i < length l)%nat -> exists v, nth_error l i = Some v.
Proof. intros H. destruct (nth_error l i) as [v|] eqn:E; [eauto|]. apply nth_error_None in E. lia. Qed.

Lemma median_ok data k (l : list double) : @get_or (list double) data k [] = l -> l <> [] -> ~ mixed l -> exists median mn mx, getMedian data k = Ok (median, mn, mx) /\ at_rank l (Nat.div (length l) 2) median /\ least l mn /\ greatest l mx.
Proof.
  intros E NE NM. destruct (sort_ok l NM) as (s & Es & P & S0). unfold getMedian. rewrite E, Es. cbn [bind].
  pose proof (Permutation_length P) as Len.
  assert (Pos : (0 < length s)%nat) by (rewrite <- Len; destruct l; [destruct (NE eq_refl)|cbn; lia]).
  destruct (nth_some s (Nat.div (length s) 2)) as (md & M). { apply Nat.div_lt; lia. }
  destruct (nth_some s (length s - 1)) as (mx & X); [lia|].
  destruct s as [|mn s'] eqn:Q; [cbn in Pos; lia|]. rewrite <- Q in *.
  assert (Z0 : nth_error s 0 = Some mn) by (rewrite Q; reflexivity).
  unfold vec_get. rewrite M. cbn [bind]. rewrite Z0. cbn [bind]. rewrite X. cbn [bind].
  exists md, mn, mx. split; [reflexivity|]. split; [|split].
  - exists s. rewrite Len. auto.
  - assert (L : least s mn) by (rewrite Q; apply sorted_least; rewrite <- Q; exact S0).
    destruct L as [L1 L2]. split; [exact (Permutation_in _ (Permutation_sym P) L1)|]. intros x Hx. apply L2. exact (Permutation_in _ P Hx).
  - destruct (sorted_greatest s mx S0 X) as [L1 L2].
    split; [exact (Permutation_in _ (Permutation_sym P) L1)|]. intros x Hx. apply L2. exact (Permutation_in _ P Hx).
Qed.
Lemma median_ub data k (l : list double) : @get_or (list double) data k [] = l -> l = [] \/ mixed l -> getMedian data k = UB.
Proof.
  intros E D. unfold getMedian. rewrite E. destruct D as [D|D]; [rewrite D; reflexivity|]. rewrite (sort_ub _ D). reflexivity.
Qed.

(* ---- state and history ---- *)
Definition kept {A} (l : list A) : option (list A) := match l with [] => None | _ => Some l end.

Record Rel (h : past) (m : mon) : Prop := MkRel {
  r_on : m_enabled m = switched_on h;
  r_print : m_print m = printing h;
  r_all : m_all m = all_on h;
  r_psort : sorted (m_prefix m);
  r_prefix : forall p, has (m_prefix m) p = prefix_on h p;
  r_tsort : sorted (m_timer m);
  r_timer : forall t, get_or (m_timer m) t 0 = since h t;
  r_dsort : sorted (m_data m);
  r_data : forall k, map_get (m_data m) k = kept (recorded h k);
  r_nsort : sorted (m_nontime m);
  r_nontime : forall k, map_get (m_nontime m) k = kept (recorded_other h k);
  r_ssort : sorted (m_static m);
  r_static : forall k, map_get (m_static m) k = static h k;
  r_buffer : Forall (fun b => b = []) (m_buffer m)
}.
Lemma fresh_rel : Rel [] fresh.
Proof. constructor; try reflexivity; try constructor. Qed.
Lemma active_rel h m p : Rel h m -> isEnabled m p = active h p.
Proof. intros R. unfold isEnabled, active. rewrite (r_on _ _ R), (r_prefix _ _ R), (r_all _ _ R). reflexivity. Qed.

Lemma has_put {T} (m : list (str * T)) k v k' : sorted m -> has (map_put m k v) k' = same k' k || has m k'.
Proof. intros S0. unfold has, same. rewrite map_get_put by exact S0. destruct (list_eq_dec ascii_dec k' k); reflexivity. Qed.
Lemma same_sym a b : same a b = same b a.
Proof. unfold same. destruct (list_eq_dec ascii_dec a b) as [->|N]; destruct (list_eq_dec ascii_dec _ _); congruence. Qed.
Lemma same_true a b : same a b = true <-> a = b.
Proof. unfold same. destruct (list_eq_dec ascii_dec a b); split; congruence. Qed.
Lemma same_refl a : same a a = true. Proof. apply same_true. reflexivity. Qed.
Lemma erase_sorted {T} (m : list (str * T)) k : sorted m -> sorted (map_erase m k).
Proof. exact (FileLogProofs.remove_sorted m k). Qed.
Lemma get_erase {T} (m : list (str * T)) k k' : sorted m -> map_get (map_erase m k) k' = if list_eq_dec ascii_dec k' k then None else map_get m k'.
Proof. exact (FileLogProofs.get_remove m k k'). Qed.
Lemma has_erase {T} (m : list (str * T)) k k' : sorted m -> has (map_erase m k) k' = negb (same k' k) && has m k'.
Proof. intros S0. unfold has, same. rewrite get_erase by exact S0. destruct (list_eq_dec ascii_dec k' k); reflexivity. Qed.
Lemma get_or_put {T} (m : list (str * T)) k v k' d : sorted m -> get_or (map_put m k v) k' d = if same k' k then v else get_or m k' d.
Proof. intros S0. unfold get_or, same. rewrite map_get_put by exact S0. destruct (list_eq_dec ascii_dec k' k); reflexivity. Qed.
Lemma kept_snoc {A} (l : list A) v : kept (l ++ [v]) = Some (l ++ [v]).
Proof. destruct l; reflexivity. Qed.
Lemma get_or_kept {A} (m : list (str * list A)) k l : map_get m k = kept l -> get_or m k [] = l.
Proof. unfold get_or. intros ->. destruct l; reflexivity. Qed.

Lemma push_spec data buffer k v (f : str -> list double) : sorted data -> (forall k, map_get data k = kept (f k)) -> Forall (fun b => b = []) buffer ->
  let '(d, b) := push data buffer k v in
  sorted d /\ Forall (fun b => b = []) b /\ forall k', map_get d k' = kept (if same k k' then f k' ++ [v] else f k').
Proof.
  intros S0 G B. unfold push. rewrite (G k). destruct (f k) as [|x l] eqn:E; cbn [kept].
  - assert (Y : forall bf, sorted (map_put data k ([] ++ [v])) /\ (forall k', map_get (map_put data k ([] ++ [v])) k' = kept (if same k k' then f k' ++ [v] else f k')) /\ bf = bf :> list (list double)).
    { intros bf. split; [apply map_put_sorted; exact S0|]. split; [|reflexivity]. intros k'. rewrite map_get_put by exact S0. rewrite same_sym. unfold same.
      destruct (list_eq_dec ascii_dec k' k) as [->|N]; [rewrite E; reflexivity|apply G]. }
    destruct (rev buffer) as [|b r] eqn:Rv.
    + destruct (Y buffer) as (Y1 & Y2 & _). auto.
    + assert (FA : Forall (fun b => b = []) (b :: r)) by (rewrite <- Rv; apply Forall_rev; exact B).
      inversion FA as [|? ? Hb Hr]. subst. destruct (Y (rev r)) as (Y1 & Y2 & _). split; [exact Y1|]. split; [apply Forall_rev; exact Hr|exact Y2].
  - split; [apply map_put_sorted; exact S0|]. split; [exact B|]. intros k'. rewrite map_get_put by exact S0. rewrite same_sym. unfold same.
    destruct (list_eq_dec ascii_dec k' k) as [->|N]; [rewrite kept_snoc, E; reflexivity|apply G].
Qed.

Lemma gather_cons ev test c h : (forall n, c <> Initialize n) -> gather ev test (c :: h) = gather ev test h ++ pick test (ev h c).
Proof. intros N. destruct c; try reflexivity. destruct (N num_names eq_refl). Qed.
Lemma gather_none ev test c h : (forall n, c <> Initialize n) -> ev h c = None -> gather ev test (c :: h) = gather ev test h.
Proof. intros N E. rewrite gather_cons by exact N. rewrite E. apply app_nil_r. Qed.
Lemma gather_some ev test c h p n v : (forall n, c <> Initialize n) -> ev h c = Some (p, n, v) ->
  gather ev test (c :: h) = if test p n then gather ev test h ++ [v] else gather ev test h.
Proof. intros N E. rewrite gather_cons by exact N. rewrite E. cbn [pick]. destruct (test p n); [reflexivity|apply app_nil_r]. Qed.
Lemma static_none c h k : static_event h c = None -> static (c :: h) k = static h k.
Proof. intros E. unfold static. cbn [last_static]. rewrite E. reflexivity. Qed.

Lemma million_ok : of_int 1000000 = million. Proof. vm_compute. reflexivity. Qed.
Lemma millis_ok a b : double_ms a b = millis a b.
Proof. unfold double_ms, millis. rewrite million_ok. reflexivity. Qed.
Lemma zero_ok : of_int 0 = zero. Proof. reflexivity. Qed.

(* a call that changes nothing the history functions look at but what it says *)
Ltac hist := cbn [switched_on printing all_on prefix_on since].

Lemma rel_quiet h m c : Rel h m ->
  switched_on (c :: h) = switched_on h -> printing (c :: h) = printing h -> all_on (c :: h) = all_on h ->
  (forall p, prefix_on (c :: h) p = prefix_on h p) -> (forall t, since (c :: h) t = since h t) ->
  (forall n, c <> Initialize n) -> time_event h c = None -> other_event h c = None -> static_event h c = None -> Rel (c :: h) m.
Proof.
  intros R A1 A2 A3 A4 A5 NI T O X.
  assert (C1 : forall k, recorded (c :: h) k = recorded h k) by (intros k; apply gather_none; assumption).
  assert (C2 : forall k, recorded_other (c :: h) k = recorded_other h k) by (intros k; apply gather_none; assumption).
  assert (C3 : forall k, static (c :: h) k = static h k) by (intros k; apply static_none; assumption).
  constructor.
  - rewrite A1. apply R.
  - rewrite A2. apply R.
  - rewrite A3. apply R.
  - apply R.
  - intros p. rewrite A4. apply R.
  - apply R.
  - intros t. rewrite A5. apply R.
  - apply R.
  - intros k. rewrite C1. apply R.
  - apply R.
  - intros k. rewrite C2. apply R.
  - apply R.
  - intros k. rewrite C3. apply R.
  - apply R.
Qed.

Lemma rel_time h m c p n v tm : Rel h m ->
  switched_on (c :: h) = switched_on h -> printing (c :: h) = printing h -> all_on (c :: h) = all_on h ->
  (forall p, prefix_on (c :: h) p = prefix_on h p) -> sorted tm -> (forall t, get_or tm t 0 = since (c :: h) t) ->
  (forall n, c <> Initialize n) -> active h p = true ->
  time_event h c = Some (p, n, v) -> other_event h c = None -> static_event h c = None -> Rel (c :: h) (with_timer (addEvent m p n v) tm).
Proof.
  intros R A1 A2 A3 A4 S5 A5 NI Ac T O X.
  assert (C1 : forall k, recorded (c :: h) k = if same (label p n) k then recorded h k ++ [v] else recorded h k)
    by (intros k; exact (gather_some time_event (fun p n => same (label p n) k) c h p n v NI T)).
  assert (C2 : forall k, recorded_other (c :: h) k = recorded_other h k) by (intros k; apply gather_none; assumption).
  assert (C3 : forall k, static (c :: h) k = static h k) by (intros k; apply static_none; assumption).
  unfold addEvent. rewrite (active_rel _ _ p R), Ac.
  pose proof (push_spec (m_data m) (m_buffer m) (makeName p n) v (recorded h) (r_dsort _ _ R) (r_data _ _ R) (r_buffer _ _ R)) as P.
  destruct (push (m_data m) (m_buffer m) (makeName p n) v) as [d b]. destruct P as (P1 & P2 & P3).
  constructor; cbn [with_timer with_data m_data m_nontime m_timer m_buffer m_prefix m_static m_all m_enabled m_print].
  - rewrite A1. apply R.
  - rewrite A2. apply R.
  - rewrite A3. apply R.
  - apply R.
  - intros q. rewrite A4. apply R.
  - exact S5.
  - exact A5.
  - exact P1.
  - intros k. rewrite C1. apply P3.
  - apply R.
  - intros k. rewrite C2. apply R.
  - apply R.
  - intros k. rewrite C3. apply R.
  - exact P2.
Qed.

Lemma rel_timer h m c tm : Rel h m ->
  switched_on (c :: h) = switched_on h -> printing (c :: h) = printing h -> all_on (c :: h) = all_on h ->
  (forall p, prefix_on (c :: h) p = prefix_on h p) -> sorted tm -> (forall t, get_or tm t 0 = since (c :: h) t) ->
  (forall n, c <> Initialize n) -> time_event h c = None -> other_event h c = None -> static_event h c = None -> Rel (c :: h) (with_timer m tm).
Proof.
  intros R A1 A2 A3 A4 S5 A5 NI T O X.
  assert (C1 : forall k, recorded (c :: h) k = recorded h k) by (intros k; apply gather_none; assumption).
  assert (C2 : forall k, recorded_other (c :: h) k = recorded_other h k) by (intros k; apply gather_none; assumption).
  assert (C3 : forall k, static (c :: h) k = static h k) by (intros k; apply static_none; assumption).
  constructor; cbn [with_timer m_data m_nontime m_timer m_buffer m_prefix m_static m_all m_enabled m_print].
  - rewrite A1. apply R.
  - rewrite A2. apply R.
  - rewrite A3. apply R.
  - apply R.
  - intros q. rewrite A4. apply R.
  - exact S5.
  - exact A5.
  - apply R.
  - intros k. rewrite C1. apply R.
  - apply R.
  - intros k. rewrite C2. apply R.
  - apply R.
  - intros k. rewrite C3. apply R.
  - apply R.
Qed.

Lemma with_timer_id m : with_timer m (m_timer m) = m. Proof. destruct m; reflexivity. Qed.
Lemma addEvent_timer m p n v : m_timer (addEvent m p n v) = m_timer m.
Proof. unfold addEvent. destruct (isEnabled m p); [|reflexivity]. destruct (push _ _ _ _). reflexivity. Qed.
Lemma addEvent_print m p n v : m_print (addEvent m p n v) = m_print m.
Proof. unfold addEvent. destruct (isEnabled m p); [|reflexivity]. destruct (push _ _ _ _). reflexivity. Qed.

Lemma start_rel h m t now : Rel h m -> Rel (Start t now :: h) (start m t now).
Proof.
  intros R. unfold start. destruct (m_enabled m) eqn:E; pose proof E as E'; rewrite (r_on _ _ R) in E'.
  - apply rel_timer; try reflexivity; try assumption; try discriminate.
    + apply map_put_sorted. apply R.
    + intros t'. rewrite get_or_put by apply R. hist. rewrite E', andb_true_r, same_sym, (r_timer _ _ R). reflexivity.
  - apply rel_quiet; try reflexivity; try assumption; try discriminate. intros t'. hist. rewrite E', andb_false_r. reflexivity.
Qed.

Lemma measurement_rel h m t d p l now : Rel h m -> Rel (Measurement t d p l now :: h) (fst (measurement m t d p l now)).
Proof.
  intros R. unfold measurement. rewrite (active_rel _ _ p R). destruct (active h p) eqn:Ac.
  - cbn [fst]. rewrite (r_timer _ _ R), millis_ok.
    rewrite <- (with_timer_id (addEvent m p d (millis (since h t) now))), addEvent_timer.
    apply rel_time; try reflexivity; try assumption; try discriminate.
    + apply R.
    + intros t'. apply R.
    + cbn [time_event]. rewrite Ac. reflexivity.
  - cbn [fst]. apply rel_quiet; try reflexivity; try assumption; try discriminate. cbn [time_event]. rewrite Ac. reflexivity.
Qed.

Lemma startStop_rel h m t d p l now : Rel h m -> Rel (StartStop t d p l now :: h) (fst (startStop m t d p l now)).
Proof.
  intros R. unfold startStop. rewrite (active_rel _ _ p R), (r_timer _ _ R). destruct (active h p) eqn:Ac.
  - destruct (since h t =? 0) eqn:Z0; cbn [negb fst].
    + unfold start. destruct (m_enabled m) eqn:E; pose proof E as E'; rewrite (r_on _ _ R) in E'.
      * apply rel_timer; try reflexivity; try assumption; try discriminate.
        -- apply map_put_sorted. apply R.
        -- intros t'. rewrite get_or_put by apply R. hist. rewrite E', Ac, orb_true_r, !andb_true_r, same_sym, (r_timer _ _ R). reflexivity.
        -- cbn [time_event]. rewrite Ac, Z0. reflexivity.
      * apply rel_quiet; try reflexivity; try assumption; try discriminate.
        -- intros t'. hist. rewrite E', Ac, orb_false_r, andb_true_r. destruct (same t t') eqn:Q; [|reflexivity].
           apply same_true in Q. subst t'. rewrite Z0. reflexivity.
        -- cbn [time_event]. rewrite Ac, Z0. reflexivity.
    + rewrite millis_ok, addEvent_timer.
      apply rel_time; try reflexivity; try assumption; try discriminate.
      * apply map_put_sorted. apply R.
      * intros t'. rewrite get_or_put by apply R. hist. rewrite Ac, andb_true_r, (r_timer _ _ R), same_sym. destruct (same t t') eqn:Q; [|reflexivity].
        apply same_true in Q. subst t'. rewrite Z0. reflexivity.
      * cbn [time_event]. rewrite Ac, Z0. reflexivity.
  - cbn [fst]. apply rel_quiet; try reflexivity; try assumption; try discriminate.
    + intros t'. hist. rewrite Ac, andb_false_r. reflexivity.
    + cbn [time_event]. rewrite Ac. reflexivity.
Qed.

Lemma addData_rel h m n v p : Rel h m -> Rel (AddData n v p :: h) (addData m n v p).
Proof.
  intros R. unfold addData. rewrite (active_rel _ _ p R). destruct (active h p) eqn:Ac.
  - rewrite <- (with_timer_id (addEvent m p n v)), addEvent_timer.
    apply rel_time; try reflexivity; try assumption; try discriminate.
    + apply R.
    + intros t'. apply R.
    + cbn [time_event]. rewrite Ac. reflexivity.
  - apply rel_quiet; try reflexivity; try assumption; try discriminate. cbn [time_event]. rewrite Ac. reflexivity.
Qed.

Lemma addNonTime_rel h m n v p : Rel h m -> Rel (AddNonTimeData n v p :: h) (addNonTimeData m n v p).
Proof.
  intros R. unfold addNonTimeData. rewrite (active_rel _ _ p R). destruct (active h p) eqn:Ac.
  - unfold addNonTimeEvent. rewrite (active_rel _ _ p R), Ac.
    set (c := AddNonTimeData n v p).
    assert (NI : forall k, c <> Initialize k) by discriminate.
    assert (T : time_event h c = None) by reflexivity.
    assert (O : other_event h c = Some (p, n, v)) by (cbn [other_event c]; rewrite Ac; reflexivity).
    assert (C1 : forall k, recorded (c :: h) k = recorded h k) by (intros k; apply gather_none; assumption).
    assert (C2 : forall k, recorded_other (c :: h) k = if same (label p n) k then recorded_other h k ++ [v] else recorded_other h k)
      by (intros k; exact (gather_some other_event (fun p n => same (label p n) k) c h p n v NI O)).
    assert (C3 : forall k, static (c :: h) k = static h k) by (intros k; apply static_none; reflexivity).
    pose proof (push_spec (m_nontime m) (m_buffer m) (makeName p n) v (recorded_other h) (r_nsort _ _ R) (r_nontime _ _ R) (r_buffer _ _ R)) as P.
    destruct (push (m_nontime m) (m_buffer m) (makeName p n) v) as [d b]. destruct P as (P1 & P2 & P3).
    constructor; cbn [with_nontime m_data m_nontime m_timer m_buffer m_prefix m_static m_all m_enabled m_print].
    + apply R.
    + apply R.
    + apply R.
    + apply R.
    + intros q. apply R.
    + apply R.
    + intros t. apply R.
    + apply R.
    + intros k. rewrite C1. apply R.
    + exact P1.
    + intros k. rewrite C2. apply P3.
    + apply R.
    + intros k. rewrite C3. apply R.
    + exact P2.
  - apply rel_quiet; try reflexivity; try assumption; try discriminate. cbn [other_event]. rewrite Ac. reflexivity.
Qed.

Lemma addStatic_rel h m n v p : Rel h m -> Rel (AddStaticData n v p :: h) (addStaticData m n v p).
Proof.
  intros R. unfold addStaticData. rewrite (active_rel _ _ p R). destruct (active h p) eqn:Ac.
  - set (c := AddStaticData n v p).
    assert (NI : forall k, c <> Initialize k) by discriminate.
    assert (X : static_event h c = Some (p, n, v)) by (cbn [static_event c]; rewrite Ac; reflexivity).
    assert (C1 : forall k, recorded (c :: h) k = recorded h k) by (intros k; apply gather_none; [assumption|reflexivity]).
    assert (C2 : forall k, recorded_other (c :: h) k = recorded_other h k) by (intros k; apply gather_none; [assumption|reflexivity]).
    assert (C3 : forall k, static (c :: h) k = if same (label p n) k then Some v else static h k).
    { intros k. unfold static. cbn [last_static]. rewrite X. cbn [pick]. destruct (same (label p n) k); reflexivity. }
    constructor; cbn [with_static m_data m_nontime m_timer m_buffer m_prefix m_static m_all m_enabled m_print].
    + apply R.
    + apply R.
    + apply R.
    + apply R.
    + intros q. apply R.
    + apply R.
    + intros t. apply R.
    + apply R.
    + intros k. rewrite C1. apply R.
    + apply R.
    + intros k. rewrite C2. apply R.
    + apply map_put_sorted. apply R.
    + intros k. rewrite map_get_put by apply R. rewrite C3, same_sym. unfold same. rewrite (r_static _ _ R). change (makeName p n) with (label p n). destruct (list_eq_dec ascii_dec k (label p n)); reflexivity.
    + apply R.
  - apply rel_quiet; try reflexivity; try assumption; try discriminate. cbn [static_event]. rewrite Ac. reflexivity.
Qed.

Lemma enable_prefixes (m : mon) p : sorted (m_prefix m) ->
  sorted (m_prefix (enablePrefix m p)) /\ (forall q, has (m_prefix (enablePrefix m p)) q = same p q || has (m_prefix m) q).
Proof.
  intros S0. unfold enablePrefix. destruct (has (m_prefix m) p) eqn:E.
  - split; [exact S0|]. intros q. destruct (same p q) eqn:Q; [|reflexivity]. apply same_true in Q. subst q. exact E.
  - cbn [with_prefix m_prefix]. split; [apply map_put_sorted; exact S0|]. intros q. rewrite has_put by exact S0. rewrite same_sym. reflexivity.
Qed.
Lemma enable_rest m p : let m' := enablePrefix m p in
  m_data m' = m_data m /\ m_nontime m' = m_nontime m /\ m_timer m' = m_timer m /\ m_buffer m' = m_buffer m /\ m_static m' = m_static m /\
  m_all m' = m_all m /\ m_enabled m' = m_enabled m /\ m_print m' = m_print m.
Proof. cbn. unfold enablePrefix. destruct (has (m_prefix m) p); cbn; auto 10. Qed.

Lemma enable_rel h m p : Rel h m -> Rel (EnablePrefix p :: h) (enablePrefix m p).
Proof.
  intros R. destruct (enable_prefixes m p (r_psort _ _ R)) as [P1 P2]. destruct (enable_rest m p) as (E1 & E2 & E3 & E4 & E5 & E6 & E7 & E8).
  set (c := EnablePrefix p).
  assert (NI : forall k, c <> Initialize k) by discriminate.
  assert (C1 : forall k, recorded (c :: h) k = recorded h k) by (intros k; apply gather_none; [assumption|reflexivity]).
  assert (C2 : forall k, recorded_other (c :: h) k = recorded_other h k) by (intros k; apply gather_none; [assumption|reflexivity]).
  assert (C3 : forall k, static (c :: h) k = static h k) by (intros k; apply static_none; reflexivity).
  constructor.
  - rewrite E7. apply R.
  - rewrite E8. apply R.
  - rewrite E6. apply R.
  - exact P1.
  - intros q. rewrite P2, (r_prefix _ _ R). reflexivity.
  - rewrite E3. apply R.
  - intros t. rewrite E3. apply R.
  - rewrite E1. apply R.
  - intros k. rewrite E1, C1. apply R.
  - rewrite E2. apply R.
  - intros k. rewrite E2, C2. apply R.
  - rewrite E5. apply R.
  - intros k. rewrite E5, C3. apply R.
  - rewrite E4. apply R.
Qed.

Lemma resize_empty (l : list (list double)) n : Forall (fun b => b = []) l -> Forall (fun b => b = []) (resize l n []).
Proof.
  intros H. unfold resize. apply Forall_app. split.
  - rewrite Forall_forall in *. intros x Hx. apply H. rewrite <- (firstn_skipn n l). apply in_or_app. auto.
  - apply Forall_forall. intros x Hx. apply repeat_spec in Hx. exact Hx.
Qed.
Lemma init_rel h m n : Rel h m -> Rel (Initialize n :: h) (initialize m n).
Proof.
  intros R. unfold initialize.
  set (m0 := Mon [] [] (m_timer m) (resize (m_buffer m) n []) (m_prefix m) (m_static m) (m_all m) (m_enabled m) (m_print m)).
  destruct (enable_prefixes m0 [] (r_psort _ _ R)) as [P1 P2]. destruct (enable_rest m0 []) as (E1 & E2 & E3 & E4 & E5 & E6 & E7 & E8).
  constructor.
  - rewrite E7. apply R.
  - rewrite E8. apply R.
  - rewrite E6. apply R.
  - exact P1.
  - intros q. rewrite P2. cbn [prefix_on]. rewrite same_sym, <- (r_prefix _ _ R). reflexivity.
  - rewrite E3. apply R.
  - intros t. rewrite E3. apply R.
  - rewrite E1. constructor.
  - intros k. rewrite E1. reflexivity.
  - rewrite E2. constructor.
  - intros k. rewrite E2. reflexivity.
  - rewrite E5. apply R.
  - intros k. rewrite E5. apply R.
  - rewrite E4. apply resize_empty. apply R.
Qed.

Lemma disable_rel h m p : Rel h m -> Rel (DisablePrefix p :: h) (disablePrefix m p).
Proof.
  intros R. set (c := DisablePrefix p).
  assert (NI : forall k, c <> Initialize k) by discriminate.
  assert (C1 : forall k, recorded (c :: h) k = recorded h k) by (intros k; apply gather_none; [assumption|reflexivity]).
  assert (C2 : forall k, recorded_other (c :: h) k = recorded_other h k) by (intros k; apply gather_none; [assumption|reflexivity]).
  assert (C3 : forall k, static (c :: h) k = static h k) by (intros k; apply static_none; reflexivity).
  unfold disablePrefix. destruct (has (m_prefix m) p) eqn:E.
  - constructor; cbn [with_prefix m_data m_nontime m_timer m_buffer m_prefix m_static m_all m_enabled m_print].
    + apply R.
    + apply R.
    + apply R.
    + apply erase_sorted. apply R.
    + intros q. rewrite has_erase by apply R. rewrite same_sym, (r_prefix _ _ R). reflexivity.
    + apply R.
    + intros t. apply R.
    + apply R.
    + intros k. rewrite C1. apply R.
    + apply R.
    + intros k. rewrite C2. apply R.
    + apply R.
    + intros k. rewrite C3. apply R.
    + apply R.
  - apply rel_quiet; try reflexivity; try assumption; try discriminate. intros q. cbn [prefix_on c].
    destruct (same p q) eqn:Q; [|reflexivity]. apply same_true in Q. subst q. rewrite <- (r_prefix _ _ R), E. reflexivity.
Qed.

Lemma switch_rel h m c m' : Rel h m -> (exists b, c = EnableAll b /\ m' = with_all m b) \/ (exists b, c = SetEnabled b /\ m' = with_enabled m b) \/
  (exists b, c = SetPrintStop b /\ m' = with_print m b) -> Rel (c :: h) m'.
Proof.
  intros R D.
  assert (NI : forall k, c <> Initialize k) by (destruct D as [(b & -> & _)|[(b & -> & _)|(b & -> & _)]]; discriminate).
  assert (Ev : time_event h c = None /\ other_event h c = None /\ static_event h c = None)
    by (destruct D as [(b & -> & _)|[(b & -> & _)|(b & -> & _)]]; auto).
  destruct Ev as (Ev1 & Ev2 & Ev3).
  assert (C1 : forall k, recorded (c :: h) k = recorded h k) by (intros k; apply gather_none; assumption).
  assert (C2 : forall k, recorded_other (c :: h) k = recorded_other h k) by (intros k; apply gather_none; assumption).
  assert (C3 : forall k, static (c :: h) k = static h k) by (intros k; apply static_none; assumption).
  destruct R as [B1 B2 B3 B4 B5 B6 B7 B8 B9 B10 B11 B12 B13 B14].
  assert (C1' : forall k, map_get (m_data m) k = kept (recorded (c :: h) k)) by (intros k; rewrite C1; apply B9).
  assert (C2' : forall k, map_get (m_nontime m) k = kept (recorded_other (c :: h) k)) by (intros k; rewrite C2; apply B11).
  assert (C3' : forall k, map_get (m_static m) k = static (c :: h) k) by (intros k; rewrite C3; apply B13).
  destruct D as [(b & -> & ->)|[(b & -> & ->)|(b & -> & ->)]]; constructor; auto.
Qed.

Lemma step_rel h m c m' r : Rel h m -> step m c = Ok (m', r) -> Rel (c :: h) m'.
Proof.
  intros R E. destruct c; cbn [step] in E; unfold quiet in E.
  - injection E as <- _. apply init_rel; exact R.
  - injection E as <- _. apply start_rel; exact R.
  - injection E as E. pose proof (measurement_rel h m timer desc prefix l now R) as H. rewrite E in H. exact H.
  - injection E as E. pose proof (startStop_rel h m timer desc prefix l now R) as H. rewrite E in H. exact H.
  - injection E as <- _. apply addStatic_rel; exact R.
  - injection E as <- _. apply addData_rel; exact R.
  - injection E as <- _. apply addNonTime_rel; exact R.
  - injection E as <- _. apply enable_rel; exact R.
  - injection E as <- _. apply (switch_rel h m); eauto.
  - injection E as <- _. apply disable_rel; exact R.
  - injection E as <- _. apply (switch_rel h m); eauto.
  - injection E as <- _. apply (switch_rel h m _ _ R); right; right; eauto.
  - unfold shown in E. destruct (printSummary m prefix name l) as [a| |]; [|discriminate|discriminate]. injection E as <- _.
    apply rel_quiet; try reflexivity; try assumption; try discriminate.
  - unfold shown in E. destruct (printSummaryFromPrefix m prefix l) as [a| |]; [|discriminate|discriminate]. injection E as <- _.
    apply rel_quiet; try reflexivity; try assumption; try discriminate.
  - unfold shown in E. destruct (printSummaryAll m l) as [a| |]; [|discriminate|discriminate]. injection E as <- _.
    apply rel_quiet; try reflexivity; try assumption; try discriminate.
Qed.
Lemma run_from_rel cs : forall h m m' rs, Rel h m -> run_from m cs = Ok (m', rs) -> Rel (rev cs ++ h) m'.
Proof.
  induction cs as [|c cs IH]; intros h m m' rs R E; cbn [run_from] in E; [injection E as <- _; exact R|].
  destruct (step m c) as [[m1 a]| |] eqn:E1; [|discriminate|discriminate]. cbn [bind] in E.
  destruct (run_from m1 cs) as [[m2 b]| |] eqn:E2; [|discriminate|discriminate]. injection E as <- _.
  cbn [rev]. rewrite <- app_assoc. apply (IH (c :: h) m1 m2 b); [|exact E2]. exact (step_rel h m c m1 a R E1).
Qed.
Lemma run_rel cs m rs : run cs = Ok (m, rs) -> Rel (rev cs) m.
Proof. intros E. rewrite <- (app_nil_r (rev cs)). exact (run_from_rel cs [] fresh m rs fresh_rel E). Qed.
