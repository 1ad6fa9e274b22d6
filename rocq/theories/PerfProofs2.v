(* Proofs about the performance monitor: replies. *)
From Coq Require Import Floats.SpecFloat Permutation Sorted.
From Verif Require Import Base BaseLemmas Text SMap StringHelperModel StringHelperSpec StringHelperProofs PerfModel PerfSpec PerfProofs.
Local Open Scope Z_scope.

Lemma bind_inv {A B} (r : result A) (f : A -> result B) y : bind r f = Ok y -> exists x, r = Ok x /\ f x = Ok y.
Proof. destruct r as [a| |]; cbn; try discriminate. eauto. Qed.

Lemma Forall2_impl {A B} (P Q : A -> B -> Prop) l1 l2 : (forall a b, P a b -> Q a b) -> Forall2 P l1 l2 -> Forall2 Q l1 l2.
Proof. intros H F0. induction F0; constructor; auto. Qed.

(* ---- summaries of one label ---- *)
Lemma time_summary_ok h m p n : Rel h m -> recorded h (label p n) <> [] -> ~ mixed (recorded h (label p n)) ->
  exists msg, createStatisticSummary m p n = Ok msg /\ time_summary (recorded h (label p n)) p n msg.
Proof.
  intros R NE NM. pose proof (get_or_kept _ _ _ (r_data _ _ R (label p n))) as G.
  destruct (median_ok _ _ _ G NE NM) as (md & mn & mx & E & H1 & H2 & H3).
  unfold createStatisticSummary. change (makeName p n) with (label p n). rewrite E. cbn [bind]. unfold getAverage. rewrite G.
  eexists. split; [reflexivity|]. exists md, mn, mx. split; [exact H1|]. split; [exact H2|]. split; [exact H3|]. reflexivity.
Qed.
Lemma time_summary_ub h m p n : Rel h m -> recorded h (label p n) = [] \/ mixed (recorded h (label p n)) -> createStatisticSummary m p n = UB.
Proof.
  intros R D. pose proof (get_or_kept _ _ _ (r_data _ _ R (label p n))) as G.
  unfold createStatisticSummary. change (makeName p n) with (label p n). rewrite (median_ub _ _ _ G D). reflexivity.
Qed.
Lemma other_summary_ok h m p n : Rel h m -> recorded_other h (label p n) <> [] -> ~ mixed (recorded_other h (label p n)) ->
  exists msg, createStatisticSummaryNonTime m p n = Ok msg /\ other_summary (recorded_other h (label p n)) p n msg.
Proof.
  intros R NE NM. pose proof (get_or_kept _ _ _ (r_nontime _ _ R (label p n))) as G.
  destruct (median_ok _ _ _ G NE NM) as (md & mn & mx & E & H1 & H2 & H3).
  unfold createStatisticSummaryNonTime. change (makeName p n) with (label p n). rewrite E. cbn [bind]. unfold getAverage. rewrite G.
  eexists. split; [reflexivity|]. exists md, mn, mx. split; [exact H1|]. split; [exact H2|]. split; [exact H3|]. reflexivity.
Qed.
Lemma other_summary_ub h m p n : Rel h m -> recorded_other h (label p n) = [] \/ mixed (recorded_other h (label p n)) -> createStatisticSummaryNonTime m p n = UB.
Proof.
  intros R D. pose proof (get_or_kept _ _ _ (r_nontime _ _ R (label p n))) as G.
  unfold createStatisticSummaryNonTime. change (makeName p n) with (label p n). rewrite (median_ub _ _ _ G D). reflexivity.
Qed.

(* ---- labels ---- *)
Lemma gather_labels ev k h : gather ev (fun p n => same (label p n) k) h <> [] -> exists p n, k = label p n.
Proof.
  induction h as [|c h IH]; [intros H; destruct (H eq_refl)|]. intros H.
  assert (D : gather ev (fun p n => same (label p n) k) h <> [] \/ pick (fun p n => same (label p n) k) (ev h c) <> []).
  { destruct (pick (fun p n => same (label p n) k) (ev h c)) as [|v r] eqn:Q; [left|right; discriminate]. intros X. apply H.
    assert (Y : (exists n, c = Initialize n) \/ forall n, c <> Initialize n) by (destruct c; eauto; right; discriminate).
    destruct Y as [[n ->]|Y]; [reflexivity|]. rewrite gather_cons by exact Y. rewrite X, Q. reflexivity. }
  destruct D as [D|D]; [exact (IH D)|]. unfold pick in D. destruct (ev h c) as [[[p n] v]|]; [|destruct (D eq_refl)].
  destruct (same (label p n) k) eqn:Q; [|destruct (D eq_refl)]. apply same_true in Q. eauto.
Qed.
Lemma static_labels k h : static h k <> None -> exists p n, k = label p n.
Proof.
  unfold static. induction h as [|c h IH]; [intros H; destruct (H eq_refl)|]. cbn [last_static].
  destruct (pick _ (static_event h c)) as [|v r] eqn:Q; [exact IH|]. intros _. unfold pick in Q.
  destruct (static_event h c) as [[[p n] w]|]; [|discriminate]. destruct (same (label p n) k) eqn:S0; [|discriminate]. apply same_true in S0. eauto.
Qed.

Lemma label_inj_p p n n' : label p n = label p n' -> n = n'.
Proof. unfold label. intros E. apply app_inv_head in E. apply app_inv_head in E. exact E. Qed.
Lemma filed_unique p n p' n' : label p n = label p' n' -> filed p n -> filed p' n' -> p = p' /\ n = n'.
Proof.
  intros E F1 F2. assert (L : length p = length p') by (pose proof (F1 _ _ E); pose proof (F2 _ _ (eq_sym E)); lia).
  pose proof E as E'. unfold label in E'. destruct (app_cancel_len _ _ _ _ E' L) as [-> _]. split; [reflexivity|]. exact (label_inj_p _ _ _ E).
Qed.
Lemma split_label a b : exists p n, label a b = label p n /\ filed p n /\ prefix_of (label a b) = p /\ name_of (label a b) = Ok n.
Proof.
  unfold prefix_of, name_of. destruct (str_find $"::" (label a b)) as [i|] eqn:E.
  - apply str_find_some in E. destruct E as (n & E1 & E2 & E3). exists (firstn i (label a b)), n.
    set (p := firstn i (label a b)) in *. split; [exact E1|]. split; [|split; [reflexivity|]].
    + intros a' b' Q. rewrite E2. apply (E3 a' b'). rewrite E1. exact Q.
    + assert (Len : List.length (label a b) = (i + 2 + List.length n)%nat).
      { rewrite E1, !app_length, E2. cbn [List.length list_ascii_of_string]. lia. }
      replace (Nat.leb (i + 2) (List.length (label a b))) with true by (symmetry; apply Nat.leb_le; lia).
      f_equal. transitivity (skipn (i + 2) (p ++ $"::" ++ n)); [f_equal; exact E1|].
      rewrite app_assoc. apply skipn_app_exact. rewrite app_length, E2. reflexivity.
  - exfalso. apply (str_find_none _ _ E). exists a, b. reflexivity.
Qed.
Lemma prefix_of_filed p n : filed p n -> prefix_of (label p n) = p /\ name_of (label p n) = Ok n.
Proof.
  intros F0. destruct (split_label p n) as (p' & n' & E & F' & P & N). destruct (filed_unique _ _ _ _ E F0 F') as [-> ->]. auto.
Qed.
Lemma str_lt_app p a b : str_lt (p ++ a) (p ++ b) = str_lt a b.
Proof. induction p as [|c p IH]; [reflexivity|]. cbn [app str_lt]. rewrite Nat.ltb_irrefl, Ascii.eqb_refl, IH. reflexivity. Qed.
Lemma label_lt p a b : str_lt (label p a) (label p b) = str_lt a b.
Proof. unfold label. rewrite !str_lt_app. reflexivity. Qed.

(* ---- one section of a report ---- *)
Definition lt_names := StronglySorted (fun a b => str_lt a b = true).
Lemma section_spec {T} p title (line : str -> str -> T -> result message) m : sorted m ->
  (forall k v, In (k, v) m -> exists a b, k = label a b) ->
  (forall n v, In (label p n, v) m -> filed p n -> line p n v <> Throw) ->
  (exists names body, (forall first, section p title line first m = Ok (if first then titled title body else List.concat body)) /\
     lt_names names /\ (forall n, In n names <-> filed p n /\ exists v, In (label p n, v) m) /\
     Forall2 (fun n t => exists v, In (label p n, v) m /\ line p n v = Ok t) names body) \/
  ((forall first, section p title line first m = UB) /\ exists n v, In (label p n, v) m /\ filed p n /\ line p n v = UB).
Proof.
  intros S0. induction S0 as [|k v r S0 IH L]; intros Lab NT.
  - left. exists [], []. split; [intros []; reflexivity|]. split; [constructor|]. split; [|constructor].
    intros n. split; [intros []|]. intros (_ & w & []).
  - destruct IH as [IH|IH].
    { intros k0 v0 I0. apply (Lab k0 v0). right; exact I0. }
    { intros n0 v0 I0. apply (NT n0 v0). right; exact I0. }
    + destruct IH as (names & body & E & Sn & In0 & FA).
      destruct (Lab k v (or_introl eq_refl)) as (a & b & Ek). destruct (split_label a b) as (p' & n & E1 & F1 & P1 & N1). rewrite <- Ek in E1, P1, N1.
      assert (FA' : Forall2 (fun n t => exists v0, In (label p n, v0) ((k, v) :: r) /\ line p n v0 = Ok t) names body).
      { eapply Forall2_impl; [|exact FA]. intros x t (w & W1 & W2). exists w. split; [right; exact W1|exact W2]. }
      destruct (list_eq_dec ascii_dec p p') as [<-|NE].
      * assert (SE : forall first, section p title line first ((k, v) :: r) =
          bind (line p n v) (fun t => Ok ((if first then [Txt title] else []) ++ t ++ List.concat body))).
        { intros first. cbn [section]. destruct (list_eq_dec ascii_dec p (prefix_of k)) as [_|X]; [|congruence]. rewrite N1. cbn [bind].
          destruct (line p n v) as [t| |]; cbn [bind]; try reflexivity. rewrite (E false). reflexivity. }
        destruct (line p n v) as [t| |] eqn:EL.
        -- left. exists (n :: names), (t :: body). split; [|split; [|split]].
           ++ intros first. rewrite SE. cbn [bind]. destruct first; reflexivity.
           ++ constructor; [exact Sn|]. apply Forall_forall. intros x Hx. apply In0 in Hx. destruct Hx as (_ & w & W).
              pose proof (L _ _ W) as Q. rewrite E1, label_lt in Q. exact Q.
           ++ intros x. cbn [In]. rewrite In0. split.
              ** intros [<-|(F2 & w & W)].
                 --- split; [exact F1|]. exists v. left. rewrite E1. reflexivity.
                 --- split; [exact F2|]. exists w. right; exact W.
              ** intros (F2 & w & [W|W]).
                 --- left. injection W as W _. rewrite E1 in W. exact (label_inj_p _ _ _ W).
                 --- right. split; [exact F2|]. exists w. exact W.
           ++ constructor; [|exact FA']. exists v. split; [left; rewrite E1; reflexivity|exact EL].
        -- exfalso. apply (NT n v); [left; rewrite E1; reflexivity|exact F1|exact EL].
        -- right. split; [intros first; rewrite SE; reflexivity|]. exists n, v. split; [left; rewrite E1; reflexivity|]. split; assumption.
      * left. exists names, body. split; [|split; [exact Sn|split; [|exact FA']]].
        -- intros first. cbn [section]. destruct (list_eq_dec ascii_dec p (prefix_of k)) as [X|_]; [congruence|]. apply E.
        -- intros x. rewrite In0. split; intros (F2 & w & W).
           ++ split; [exact F2|]. exists w. right; exact W.
           ++ destruct W as [W|W]; [|split; [exact F2|]; exists w; exact W].
              exfalso. apply NE. injection W as W _. rewrite E1 in W. symmetry in W. destruct (filed_unique _ _ _ _ W F2 F1) as [X _]. exact X.
    + destruct IH as (E & n0 & v0 & I0 & F0 & L0).
      destruct (Lab k v (or_introl eq_refl)) as (a & b & Ek). destruct (split_label a b) as (p' & n & E1 & F1 & P1 & N1). rewrite <- Ek in E1, P1, N1.
      right. split; [|exists n0, v0; split; [right; exact I0|split; assumption]].
      intros first. cbn [section]. destruct (list_eq_dec ascii_dec p (prefix_of k)) as [X|X]; [|apply E].
      rewrite N1. cbn [bind]. assert (Hp : p' = p) by congruence. rewrite Hp in E1, F1.
      destruct (line p n v) as [t| |] eqn:EL; cbn [bind]; [rewrite (E false); reflexivity| |reflexivity].
      exfalso. apply (NT n v); [left; rewrite E1; reflexivity|exact F1|exact EL].
Qed.

(* ---- a whole prefix ---- *)
Lemma kept_some {A} (l : list A) x : kept l = Some x -> x = l /\ l <> [].
Proof. destruct l; cbn; [discriminate|]. intros [= <-]. split; [reflexivity|discriminate]. Qed.
Lemma print_at msg l : print msg l = [(shown_at l, msg)].
Proof. destruct l; reflexivity. Qed.

Lemma data_in h m k v : Rel h m -> (In (k, v) (m_data m) <-> v = recorded h k /\ recorded h k <> []).
Proof.
  intros R. rewrite <- (map_get_in _ _ _ (r_dsort _ _ R)), (r_data _ _ R). split.
  - apply kept_some.
  - intros [-> N]. destruct (recorded h k); [destruct (N eq_refl)|reflexivity].
Qed.
Lemma nontime_in h m k v : Rel h m -> (In (k, v) (m_nontime m) <-> v = recorded_other h k /\ recorded_other h k <> []).
Proof.
  intros R. rewrite <- (map_get_in _ _ _ (r_nsort _ _ R)), (r_nontime _ _ R). split.
  - apply kept_some.
  - intros [-> N]. destruct (recorded_other h k); [destruct (N eq_refl)|reflexivity].
Qed.
Lemma static_in h m k v : Rel h m -> (In (k, v) (m_static m) <-> static h k = Some v).
Proof. intros R. rewrite <- (map_get_in _ _ _ (r_ssort _ _ R)), (r_static _ _ R). reflexivity. Qed.

Lemma prefix_outcome h m p l : Rel h m ->
  (exists msg, printSummaryFromPrefix m p l = Ok [(shown_at l, msg)] /\ prefix_report h p msg /\ presentable h p) \/
  (printSummaryFromPrefix m p l = UB /\ ~ presentable h p).
Proof.
  intros R. unfold printSummaryFromPrefix.
  (* static data *)
  destruct (section_spec p ($"#### Static data: ####" ++ newline) (fun _ n v => Ok [Txt (n ++ $": "); Num v; Txt newline]) (m_static m) (r_ssort _ _ R)) as [S1|S1].
  { intros k v I0. apply (static_in h m k v R) in I0. apply (static_labels k h). congruence. }
  { intros; discriminate. }
  2:{ destruct S1 as (_ & n & v & _ & _ & X). discriminate. }
  destruct S1 as (ns1 & b1 & E1 & O1 & I1 & F1). rewrite (E1 true). cbn [bind].
  assert (B1 : blocks (fun n => filed p n /\ static h (label p n) <> None) (fun n t => exists v, static h (label p n) = Some v /\ t = [Txt (n ++ $": "); Num v; Txt nl]) b1).
  { exists ns1. split; [exact O1|]. split.
    - intros n. rewrite I1. split; intros [X Y]; (split; [exact X|]).
      + destruct Y as [v Y]. apply (static_in h m _ _ R) in Y. congruence.
      + destruct (static h (label p n)) as [v|] eqn:Q; [|destruct (Y eq_refl)]. exists v. apply (static_in h m _ _ R). exact Q.
    - eapply Forall2_impl; [|exact F1]. intros n t (v & V1 & V2). exists v. apply (static_in h m _ _ R) in V1. split; [exact V1|]. injection V2 as <-. reflexivity. }
  clear E1 O1 I1 F1.
  (* time data *)
  destruct (section_spec p ($"#### Time data: ####" ++ newline) (fun q n (_ : list double) => createStatisticSummary m q n) (m_data m) (r_dsort _ _ R)) as [S2|S2].
  { intros k v I0. apply (data_in h m k v R) in I0. destruct I0 as [_ I0]. exact (gather_labels _ _ _ I0). }
  { intros n v I0 F0. apply (data_in h m _ v R) in I0. destruct I0 as [_ I0]. destruct (mixed_dec (recorded h (label p n))) as [M|M].
    - rewrite (time_summary_ub h m p n R (or_intror M)). discriminate.
    - destruct (time_summary_ok h m p n R I0 M) as (t & -> & _). discriminate. }
  2:{ right. destruct S2 as (E2 & n & v & I2 & F2 & L2). rewrite (E2 true). split; [reflexivity|]. intros Pr. destruct (Pr n F2) as [M _].
      apply (data_in h m _ v R) in I2. destruct I2 as [_ I2]. destruct (time_summary_ok h m p n R I2 M) as (t & X & _). congruence. }
  destruct S2 as (ns2 & b2 & E2 & O2 & I2 & F2). rewrite (E2 true). cbn [bind].
  assert (D2 : forall n, filed p n -> ~ mixed (recorded h (label p n))).
  { intros n F0 M. destruct (recorded h (label p n)) as [|x xs] eqn:Q; [destruct M as [[] _]|]. rewrite <- Q in M.
    assert (In n ns2) as Hn. { apply I2. split; [exact F0|]. exists (recorded h (label p n)). apply (data_in h m _ _ R). split; [reflexivity|congruence]. }
    apply (In_nth_error ns2 n) in Hn. destruct Hn as (i & Hi).
    assert (X : exists t v, In (label p n, v) (m_data m) /\ createStatisticSummary m p n = Ok t).
    { clear - F2 Hi. revert i Hi. induction F2 as [|a t ns b P F2 IH]; intros i Hi; [destruct i; discriminate|].
      destruct i as [|i]; [injection Hi as ->; destruct P as (v & V); eauto|exact (IH i Hi)]. }
    destruct X as (t & v & _ & X). rewrite (time_summary_ub h m p n R (or_intror M)) in X. discriminate. }
  assert (B2 : blocks (fun n => filed p n /\ recorded h (label p n) <> []) (fun n t => time_summary (recorded h (label p n)) p n t) b2).
  { exists ns2. split; [exact O2|]. split.
    - intros n. rewrite I2. split; intros [X Y]; (split; [exact X|]).
      + destruct Y as [v Y]. apply (data_in h m _ _ R) in Y. apply Y.
      + exists (recorded h (label p n)). apply (data_in h m _ _ R). auto.
    - eapply Forall2_impl; [|exact F2]. intros n t (v & V1 & V2). apply (data_in h m _ _ R) in V1. destruct V1 as [_ V1].
      destruct (mixed_dec (recorded h (label p n))) as [M|M]; [rewrite (time_summary_ub h m p n R (or_intror M)) in V2; discriminate|].
      destruct (time_summary_ok h m p n R V1 M) as (t' & X & Y). rewrite V2 in X. injection X as <-. exact Y. }
  clear E2 O2 I2 F2.
  (* non-time data *)
  destruct (section_spec p ($"#### Non-time data: ####" ++ newline) (fun q n (_ : list double) => createStatisticSummaryNonTime m q n) (m_nontime m) (r_nsort _ _ R)) as [S3|S3].
  { intros k v I0. apply (nontime_in h m k v R) in I0. destruct I0 as [_ I0]. exact (gather_labels _ _ _ I0). }
  { intros n v I0 F0. apply (nontime_in h m _ v R) in I0. destruct I0 as [_ I0]. destruct (mixed_dec (recorded_other h (label p n))) as [M|M].
    - rewrite (other_summary_ub h m p n R (or_intror M)). discriminate.
    - destruct (other_summary_ok h m p n R I0 M) as (t & -> & _). discriminate. }
  2:{ right. destruct S3 as (E2 & n & v & I2 & F2 & L2). rewrite (E2 true). split; [reflexivity|]. intros Pr. destruct (Pr n F2) as [_ M].
      apply (nontime_in h m _ v R) in I2. destruct I2 as [_ I2]. destruct (other_summary_ok h m p n R I2 M) as (t & X & _). congruence. }
  destruct S3 as (ns3 & b3 & E2 & O2 & I2 & F2). rewrite (E2 true). cbn [bind].
  assert (D3 : forall n, filed p n -> ~ mixed (recorded_other h (label p n))).
  { intros n F0 M. destruct (recorded_other h (label p n)) as [|x xs] eqn:Q; [destruct M as [[] _]|]. rewrite <- Q in M.
    assert (In n ns3) as Hn. { apply I2. split; [exact F0|]. exists (recorded_other h (label p n)). apply (nontime_in h m _ _ R). split; [reflexivity|congruence]. }
    apply (In_nth_error ns3 n) in Hn. destruct Hn as (i & Hi).
    assert (X : exists t v, In (label p n, v) (m_nontime m) /\ createStatisticSummaryNonTime m p n = Ok t).
    { clear - F2 Hi. revert i Hi. induction F2 as [|a t ns b P F2 IH]; intros i Hi; [destruct i; discriminate|].
      destruct i as [|i]; [injection Hi as ->; destruct P as (v & V); eauto|exact (IH i Hi)]. }
    destruct X as (t & v & _ & X). rewrite (other_summary_ub h m p n R (or_intror M)) in X. discriminate. }
  assert (B3 : blocks (fun n => filed p n /\ recorded_other h (label p n) <> []) (fun n t => other_summary (recorded_other h (label p n)) p n t) b3).
  { exists ns3. split; [exact O2|]. split.
    - intros n. rewrite I2. split; intros [X Y]; (split; [exact X|]).
      + destruct Y as [v Y]. apply (nontime_in h m _ _ R) in Y. apply Y.
      + exists (recorded_other h (label p n)). apply (nontime_in h m _ _ R). auto.
    - eapply Forall2_impl; [|exact F2]. intros n t (v & V1 & V2). apply (nontime_in h m _ _ R) in V1. destruct V1 as [_ V1].
      destruct (mixed_dec (recorded_other h (label p n))) as [M|M]; [rewrite (other_summary_ub h m p n R (or_intror M)) in V2; discriminate|].
      destruct (other_summary_ok h m p n R V1 M) as (t' & X & Y). rewrite V2 in X. injection X as <-. exact Y. }
  left. rewrite print_at. eexists. split; [reflexivity|]. split; [|intros n F0; split; [apply D2|apply D3]; exact F0].
  exists b1, b2, b3. split; [exact B1|]. split; [exact B2|]. split; [exact B3|]. reflexivity.
Qed.

Lemma has_in {T} (m : list (str * T)) k : sorted m -> (has m k = true <-> In k (map fst m)).
Proof.
  intros S0. unfold has. rewrite in_map_iff. destruct (map_get m k) as [v|] eqn:E.
  - split; [|reflexivity]. intros _. exists (k, v). split; [reflexivity|]. apply map_get_in; assumption.
  - split; [discriminate|]. intros ((k' & v) & <- & I0). rewrite (map_get_none _ _ S0) in E. destruct (E v I0).
Qed.
Lemma sorted_keys {T} (m : list (str * T)) : sorted m -> StronglySorted (fun a b => str_lt a b = true) (map fst m).
Proof.
  intros S0. induction S0 as [|k v r S0 IH L]; cbn [map]; constructor; [exact IH|]. apply Forall_forall. intros x Hx. apply in_map_iff in Hx.
  destruct Hx as ((k' & v') & <- & I0). exact (L k' v' I0).
Qed.
Lemma print_all_outcome h m l : Rel h m -> forall ps,
  (exists msgs, print_all m l ps = Ok (map (fun msg => (shown_at l, msg)) msgs) /\ Forall2 (prefix_report h) (map fst ps) msgs /\
     forall p, In p (map fst ps) -> presentable h p) \/
  (print_all m l ps = UB /\ exists p, In p (map fst ps) /\ ~ presentable h p).
Proof.
  intros R. induction ps as [|(p, b) ps IH].
  - left. exists []. split; [reflexivity|]. split; [constructor|]. intros p [].
  - cbn [print_all map fst]. destruct (prefix_outcome h m p l R) as [(msg & E & P & Pr)|[E NP]]; rewrite E; cbn [bind].
    + destruct IH as [(msgs & E2 & FA & Al)|[E2 (q & Q1 & Q2)]]; rewrite E2; cbn [bind].
      * left. exists (msg :: msgs). split; [reflexivity|]. split; [constructor; assumption|]. intros q [<-|Q]; [exact Pr|exact (Al q Q)].
      * right. split; [reflexivity|]. exists q. split; [right; exact Q1|exact Q2].
    + right. split; [reflexivity|]. exists p. split; [left; reflexivity|exact NP].
Qed.

(* ---- every call ---- *)
Lemma step_outcome h m c : Rel h m ->
  (exists m' r, step m c = Ok (m', r) /\ answers h c r /\ allowed h c) \/ (step m c = UB /\ ~ allowed h c).
Proof.
  intros R. destruct c; cbn [step]; unfold quiet.
  - left. eexists _, _. split; [reflexivity|]. split; [reflexivity|exact Logic.I].
  - left. eexists _, _. split; [reflexivity|]. split; [reflexivity|exact Logic.I].
  - left. destruct (measurement m timer desc prefix l now) as [m' r] eqn:E. exists m', r. split; [reflexivity|]. split; [|exact Logic.I].
    cbn [answers]. unfold measurement in E. rewrite (active_rel _ _ prefix R) in E. destruct (active h prefix).
    + injection E as _ <-. rewrite addEvent_print, (r_print _ _ R), print_at, (r_timer _ _ R), millis_ok. reflexivity.
    + injection E as _ <-. reflexivity.
  - left. destruct (startStop m timer desc prefix l now) as [m' r] eqn:E. exists m', r. split; [reflexivity|]. split; [|exact Logic.I].
    cbn [answers]. unfold startStop in E. rewrite (active_rel _ _ prefix R), (r_timer _ _ R) in E. destruct (active h prefix); cbn [andb].
    + destruct (negb (since h timer =? 0)).
      * injection E as _ <-. unfold stopped. cbn [with_timer m_print]. rewrite addEvent_print, (r_print _ _ R), print_at, millis_ok. reflexivity.
      * injection E as _ <-. reflexivity.
    + injection E as _ <-. reflexivity.
  - left. eexists _, _. split; [reflexivity|]. split; [reflexivity|exact Logic.I].
  - left. eexists _, _. split; [reflexivity|]. split; [reflexivity|exact Logic.I].
  - left. eexists _, _. split; [reflexivity|]. split; [reflexivity|exact Logic.I].
  - left. eexists _, _. split; [reflexivity|]. split; [reflexivity|exact Logic.I].
  - left. eexists _, _. split; [reflexivity|]. split; [reflexivity|exact Logic.I].
  - left. eexists _, _. split; [reflexivity|]. split; [reflexivity|exact Logic.I].
  - left. eexists _, _. split; [reflexivity|]. split; [reflexivity|exact Logic.I].
  - left. eexists _, _. split; [reflexivity|]. split; [reflexivity|exact Logic.I].
  - unfold shown, printSummary. destruct (mixed_dec (recorded h (label prefix name))) as [M|M].
    + right. rewrite (time_summary_ub h m prefix name R (or_intror M)). split; [reflexivity|]. intros [_ X]. exact (X M).
    + destruct (recorded h (label prefix name)) as [|x xs] eqn:Q.
      * right. rewrite (time_summary_ub h m prefix name R (or_introl Q)). split; [reflexivity|]. intros [X _]. exact (X Q).
      * rewrite <- Q in M. assert (NE : recorded h (label prefix name) <> []) by congruence.
        left. destruct (time_summary_ok h m prefix name R NE M) as (msg & E & P). rewrite E. cbn [bind]. rewrite print_at.
        eexists _, _. split; [reflexivity|]. split; [exists msg; split; [exact P|reflexivity]|split; assumption].
  - unfold shown. destruct (prefix_outcome h m prefix l R) as [(msg & E & P & Pr)|[E NP]]; rewrite E; cbn [bind].
    + left. eexists _, _. split; [reflexivity|]. split; [exists msg; split; [exact P|reflexivity]|exact Pr].
    + right. split; [reflexivity|exact NP].
  - unfold shown, printSummaryAll.
    assert (K : forall p, In p (map fst (m_prefix m)) <-> prefix_on h p = true).
    { intros p. rewrite <- (r_prefix _ _ R). symmetry. apply has_in. apply R. }
    destruct (print_all_outcome h m l R (m_prefix m)) as [(msgs & E & FA & Al)|[E (p & P1 & P2)]]; rewrite E; cbn [bind].
    + left. eexists _, _. split; [reflexivity|]. split.
      * exists (map fst (m_prefix m)), msgs. split; [apply sorted_keys; apply R|]. split; [exact K|]. split; [exact FA|reflexivity].
      * intros p Hp. apply Al, K, Hp.
    + right. split; [reflexivity|]. intros X. apply P2, X, K, P1.
Qed.

Lemma answers_of_step h m c m' r : Rel h m -> step m c = Ok (m', r) -> answers h c r.
Proof. intros R E. destruct (step_outcome h m c R) as [(m1 & r1 & E1 & A & _)|[E1 _]]; [|congruence]. rewrite E in E1. injection E1 as -> ->. exact A. Qed.
