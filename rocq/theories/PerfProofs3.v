(* Proofs about the performance monitor: plain prefixes, measured values are numbers, programs. *)
From Coq Require Import Floats.SpecFloat Permutation Sorted.
From Verif Require Import Base BaseLemmas Text SMap StringHelperModel StringHelperSpec StringHelperProofs PerfModel PerfSpec PerfProofs PerfProofs2.
Local Open Scope Z_scope.

(* ---- measured values are numbers ---- *)
Lemma shr1_pos r : 0 <= shr_m r -> 0 <= shr_m (shr_1 r).
Proof. destruct r as [[|[p|p|]|p] r s]; cbn [shr_1 shr_m]; lia. Qed.
Lemma iter_pos_inv {A} (P : A -> Prop) f : (forall x, P x -> P (f x)) -> forall n x, P x -> P (SpecFloat.iter_pos f n x).
Proof. intros H. induction n as [n IH|n IH|]; intros x Hx; cbn [SpecFloat.iter_pos]; auto. Qed.
Lemma shr_pos r e n : 0 <= shr_m r -> 0 <= shr_m (fst (shr r e n)).
Proof. intros H. unfold shr. destruct n as [|p|p]; cbn [fst]; try exact H. apply (iter_pos_inv (fun r => 0 <= shr_m r)); [exact shr1_pos|exact H]. Qed.
Lemma of_loc_m m l : shr_m (shr_record_of_loc m l) = m. Proof. destruct l as [|[]]; reflexivity. Qed.
Lemma round_pos m l : 0 <= m -> 0 <= round_nearest_even m l.
Proof. intros H. destruct l as [|[]]; cbn [round_nearest_even]; try lia. destruct (Z.even m); lia. Qed.
Lemma round_aux_number sx m e l : 0 <= m -> binary_round_aux 53 1024 sx m e l <> S754_nan.
Proof.
  intros H. unfold binary_round_aux, shr_fexp.
  destruct (shr (shr_record_of_loc m l) e _) as [r1 e1] eqn:E1.
  assert (H1 : 0 <= shr_m r1).
  { change r1 with (fst (r1, e1)). rewrite <- E1. apply shr_pos. rewrite of_loc_m. exact H. }
  destruct (shr (shr_record_of_loc (round_nearest_even (shr_m r1) (loc_of_shr_record r1)) loc_Exact) e1 _) as [r2 e2] eqn:E2.
  assert (H2 : 0 <= shr_m r2).
  { change r2 with (fst (r2, e2)). rewrite <- E2. apply shr_pos. rewrite of_loc_m. apply round_pos. exact H1. }
  destruct (shr_m r2) as [|p|p]; [discriminate| |lia]. destruct (Zle_bool e2 (1024 - 53)); discriminate.
Qed.
Lemma whole_number z : whole z <> S754_nan.
Proof.
  unfold whole, binary_normalize. destruct z as [|p|p]; [discriminate| |]; unfold binary_round; destruct (shl_align _ _ _); apply round_aux_number; lia.
Qed.
Lemma div_million x : x <> S754_nan -> SFdiv 53 1024 x million <> S754_nan.
Proof.
  intros H. destruct x as [s|s| |s m e]; [discriminate|discriminate|congruence|]. unfold SFdiv, million.
  destruct (SFdiv_core_binary 53 1024 (Z.pos m) e 8589934592000000 (-33)) as [[q e'] l] eqn:E.
  apply round_aux_number. unfold SFdiv_core_binary in E. cbn zeta in E.
  match type of E with context [Z.div_eucl ?a ?b] => destruct (Z.div_eucl a b) as [q0 r0] eqn:D; assert (A0 : 0 <= a) end.
  { destruct (e - -33 - _) as [|s0|s0]; [lia| |lia]. apply Z.shiftl_nonneg. lia. }
  injection E as <- _ _.
  match type of D with Z.div_eucl ?a ?b = _ => assert (Q : q0 = a / b) by (unfold Z.div; rewrite D; reflexivity); rewrite Q; apply Z.div_pos; [exact A0|lia] end.
Qed.
Lemma millis_number a b : millis a b <> S754_nan.
Proof. apply div_million, whole_number. Qed.

Lemma gather_numbers ev test h : (forall h' c p n v, In c h -> ev h' c = Some (p, n, v) -> v <> S754_nan) -> ~ In S754_nan (gather ev test h).
Proof.
  induction h as [|c h IH]; intros H; [intros []|]. intros I0.
  assert (X : In S754_nan (gather ev test h ++ pick test (ev h c))) by (destruct c; try exact I0; destruct I0).
  apply in_app_or in X. destruct X as [X|X].
  - apply IH; [|exact X]. intros h' c' p n v Hc. apply (H h' c' p n v). right; exact Hc.
  - unfold pick in X. destruct (ev h c) as [[[p n] v]|] eqn:E; [|destruct X]. destruct (test p n); [|destruct X]. destruct X as [X|[]].
    exact (H h c p n v (or_introl eq_refl) E X).
Qed.
Lemma recorded_numbers h k : Forall number_given h -> ~ In S754_nan (recorded h k).
Proof.
  intros F0. apply gather_numbers. rewrite Forall_forall in F0. intros h' c p n v Hc E. apply F0 in Hc.
  destruct c; cbn [time_event] in E; try discriminate.
  - destruct (active h' prefix); [|discriminate]. injection E as _ _ <-. apply millis_number.
  - destruct (active h' prefix && _); [|discriminate]. injection E as _ _ <-. apply millis_number.
  - destruct (active h' prefix); [|discriminate]. injection E as _ _ <-. exact Hc.
Qed.
Lemma recorded_other_numbers h k : Forall number_given h -> ~ In S754_nan (recorded_other h k).
Proof.
  intros F0. apply gather_numbers. rewrite Forall_forall in F0. intros h' c p n v Hc E. apply F0 in Hc.
  destruct c; cbn [other_event] in E; try discriminate.
  destruct (active h' prefix); [|discriminate]. injection E as _ _ <-. exact Hc.
Qed.

(* ---- plain prefixes ---- *)
Lemma plain_filed p n : plain p -> filed p n.
Proof.
  intros [P1 P2] a b E. destruct (Nat.le_gt_cases (length p) (length a)) as [L|L]; [exact L|exfalso].
  unfold label in E. change ($"::") with (":"%char :: ":"%char :: []) in *. cbn [app] in E.
  (* a is a proper initial part of p *)
  assert (Ep : p = a ++ skipn (length a) p).
  { rewrite <- (firstn_skipn (length a) p) at 1. f_equal.
    assert (X : firstn (length a) (p ++ ":"%char :: ":"%char :: n) = firstn (length a) (a ++ ":"%char :: ":"%char :: b)) by (rewrite E; reflexivity).
    rewrite !firstn_app in X. rewrite Nat.sub_diag in X. replace (length a - length p)%nat with 0%nat in X by lia. cbn [firstn] in X.
    rewrite !app_nil_r, firstn_all in X. exact X. }
  assert (Ls : length (skipn (length a) p) = (length p - length a)%nat) by apply skipn_length.
  rewrite Ep in E. rewrite <- app_assoc in E. apply app_inv_head in E.
  destruct (skipn (length a) p) as [|x [|y r]] eqn:Q; cbn [app] in E.
  - cbn [length] in Ls. lia.
  - injection E as -> _. apply (P2 a). exact Ep.
  - injection E as -> -> _. apply (P1 a r). exact Ep.
Qed.
Lemma plain_label p n p' n' : plain p -> plain p' -> label p n = label p' n' -> p = p' /\ n = n'.
Proof. intros P P' E. exact (filed_unique _ _ _ _ E (plain_filed p n P) (plain_filed p' n' P')). Qed.

Lemma plain_same p n p' n' : plain p -> plain p' -> same (label p' n') (label p n) = this p n p' n'.
Proof.
  intros P P'. unfold this. destruct (same (label p' n') (label p n)) eqn:E.
  - apply same_true in E. destruct (plain_label _ _ _ _ P' P E) as [-> ->]. rewrite !same_refl. reflexivity.
  - destruct (same p' p) eqn:E1; [|reflexivity]. destruct (same n' n) eqn:E2; [|reflexivity].
    apply same_true in E1. apply same_true in E2. subst. rewrite same_refl in E. discriminate.
Qed.
Definition well_named (ev : past -> call -> option (str * str * spec_float)) := forall h c p n v, ev h c = Some (p, n, v) -> prefix_named c = Some p.
Lemma time_named : well_named time_event.
Proof.
  intros h c p n v E. destruct c; cbn [time_event] in E; try discriminate; cbn [prefix_named].
  - destruct (active h prefix); [|discriminate]. congruence.
  - destruct (active h prefix && _); [|discriminate]. congruence.
  - destruct (active h prefix); [|discriminate]. congruence.
Qed.
Lemma other_named : well_named other_event.
Proof. intros h c p n v E. destruct c; cbn [other_event] in E; try discriminate; cbn [prefix_named]. destruct (active h prefix); [|discriminate]. congruence. Qed.
Lemma static_named : well_named static_event.
Proof. intros h c p n v E. destruct c; cbn [static_event] in E; try discriminate; cbn [prefix_named]. destruct (active h prefix); [|discriminate]. congruence. Qed.
Lemma pick_plain ev h c p n : well_named ev -> plain p -> plainly c ->
  pick (fun p' n' => same (label p' n') (label p n)) (ev h c) = pick (this p n) (ev h c).
Proof.
  intros W P Pc. unfold pick. destruct (ev h c) as [[[p' n'] v]|] eqn:E; [|reflexivity]. apply W in E. unfold plainly in Pc. rewrite E in Pc.
  rewrite plain_same by assumption. reflexivity.
Qed.
Lemma gather_plain ev h p n : well_named ev -> plain p -> Forall plainly h ->
  gather ev (fun p' n' => same (label p' n') (label p n)) h = gather ev (this p n) h.
Proof.
  intros W P F0. induction F0 as [|c h Hc F0 IH]; [reflexivity|].
  assert (X : gather ev (fun p' n' => same (label p' n') (label p n)) h ++ pick (fun p' n' => same (label p' n') (label p n)) (ev h c) =
              gather ev (this p n) h ++ pick (this p n) (ev h c)) by (rewrite IH, (pick_plain ev h c p n W P Hc); reflexivity).
  destruct c; try exact X. reflexivity.
Qed.
Lemma recorded_plain h p n : plain p -> Forall plainly h -> recorded h (label p n) = recorded_under h p n.
Proof. apply gather_plain. exact time_named. Qed.
Lemma recorded_other_plain h p n : plain p -> Forall plainly h -> recorded_other h (label p n) = recorded_other_under h p n.
Proof. apply gather_plain. exact other_named. Qed.
Lemma static_plain h p n : plain p -> Forall plainly h -> static h (label p n) = static_under h p n.
Proof.
  intros P F0. unfold static, static_under. induction F0 as [|c h Hc F0 IH]; [reflexivity|]. cbn [last_static].
  rewrite (pick_plain static_event h c p n static_named P Hc). destruct (pick (this p n) (static_event h c)); [exact IH|reflexivity].
Qed.

(* ---- programs ---- *)
Lemma run_from_app a : forall m b, run_from m (a ++ b) = bind (run_from m a) (fun '(m1, ra) => bind (run_from m1 b) (fun '(m2, rb) => Ok (m2, ra ++ rb))).
Proof.
  induction a as [|c a IH]; intros m b.
  - cbn [app run_from bind]. destruct (run_from m b) as [[m2 rb]| |]; reflexivity.
  - cbn [app run_from]. destruct (step m c) as [[m1 r]| |]; cbn [bind]; try reflexivity. rewrite IH.
    destruct (run_from m1 a) as [[m2 ra]| |]; cbn [bind]; try reflexivity. destruct (run_from m2 b) as [[m3 rb]| |]; reflexivity.
Qed.
Lemma run_from_length cs : forall m m' rs, run_from m cs = Ok (m', rs) -> length rs = length cs.
Proof.
  induction cs as [|c cs IH]; intros m m' rs E; cbn [run_from] in E; [injection E as _ <-; reflexivity|].
  apply bind_inv in E. destruct E as ([m1 a] & E1 & E). apply bind_inv in E. destruct E as ([m2 b] & E2 & E). injection E as _ <-.
  cbn [length]. rewrite (IH _ _ _ E2). reflexivity.
Qed.

(* the i-th reply answers the i-th call after the ones before it *)
Lemma run_replies cs : forall m rs, run cs = Ok (m, rs) ->
  length rs = length cs /\
  forall a c b, cs = a ++ c :: b -> exists r, nth_error rs (length a) = Some r /\ answers (rev a) c r /\ allowed (rev a) c.
Proof.
  intros m rs E. split; [exact (run_from_length _ _ _ _ E)|]. intros a c b ->. unfold run in E. rewrite run_from_app in E.
  apply bind_inv in E. destruct E as ([m1 ra] & E1 & E). apply bind_inv in E. destruct E as ([m2 rb] & E2 & E). injection E as _ <-.
  cbn [run_from] in E2. apply bind_inv in E2. destruct E2 as ([m3 r] & E3 & E2). apply bind_inv in E2. destruct E2 as ([m4 rc] & E4 & E2). injection E2 as _ <-.
  exists r. pose proof (run_from_length _ _ _ _ E1) as L. rewrite nth_error_app2 by lia. rewrite L, Nat.sub_diag. split; [reflexivity|].
  pose proof (run_rel a m1 ra E1) as R. destruct (step_outcome _ _ c R) as [(m' & r' & E' & A & Al)|[E' _]]; [|congruence].
  rewrite E3 in E'. injection E' as -> ->. split; assumption.
Qed.
(* a program is defined as long as every call is allowed *)
Lemma run_defined cs : (exists m rs, run cs = Ok (m, rs)) <-> forall a c b, cs = a ++ c :: b -> allowed (rev a) c.
Proof.
  split.
  - intros (m & rs & E) a c b Q. destruct (run_replies cs m rs E) as [_ H]. destruct (H a c b Q) as (r & _ & _ & Al). exact Al.
  - induction cs as [|c cs IH] using rev_ind; intros H; [exists fresh, []; reflexivity|].
    destruct IH as (m & rs & E). { intros a c' b ->. apply (H a c' (b ++ [c])). rewrite <- app_assoc. reflexivity. }
    unfold run. rewrite run_from_app. unfold run in E. rewrite E. cbn [bind run_from].
    pose proof (run_rel cs m rs E) as R. destruct (step_outcome _ _ c R) as [(m' & r' & E' & A & Al)|[E' NA]].
    + rewrite E'. cbn [bind]. eexists _, _. reflexivity.
    + exfalso. apply NA. apply (H cs c []). reflexivity.
Qed.
Lemma run_from_no_throw cs : forall h m, Rel h m -> run_from m cs <> Throw.
Proof.
  induction cs as [|c cs IH]; intros h m R; cbn [run_from]; [discriminate|].
  destruct (step_outcome h m c R) as [(m' & r & E & _ & _)|[E _]]; rewrite E; cbn [bind]; [|discriminate].
  pose proof (step_rel h m c m' r R E) as R'. specialize (IH _ _ R'). destruct (run_from m' cs) as [[m2 b]| |]; cbn [bind]; congruence.
Qed.
Lemma run_no_throw cs : run cs <> Throw. Proof. exact (run_from_no_throw cs [] fresh fresh_rel). Qed.

Lemma blocks_ext (P P' : str -> Prop) (B B' : str -> message -> Prop) body :
  (forall n, P n <-> P' n) -> (forall n t, B n t -> B' n t) -> blocks P B body -> blocks P' B' body.
Proof.
  intros HP HB (names & S0 & I0 & F0). exists names. split; [exact S0|]. split; [intros n; rewrite I0; apply HP|].
  eapply Forall2_impl; [|exact F0]. exact HB.
Qed.
Lemma plain_report_of h p msg : plain p -> Forall plainly h -> prefix_report h p msg -> plain_report h p msg.
Proof.
  intros P F0 (b1 & b2 & b3 & B1 & B2 & B3 & E). exists b1, b2, b3. split; [|split; [|split; [|exact E]]].
  - revert B1. apply blocks_ext.
    + intros n. rewrite (static_plain h p n P F0). split; [intros [_ X]; exact X|]. intros X. split; [apply plain_filed; exact P|exact X].
    + intros n t (v & V1 & V2). exists v. rewrite <- (static_plain h p n P F0). auto.
  - revert B2. apply blocks_ext.
    + intros n. rewrite (recorded_plain h p n P F0). split; [intros [_ X]; exact X|]. intros X. split; [apply plain_filed; exact P|exact X].
    + intros n t. rewrite (recorded_plain h p n P F0). auto.
  - revert B3. apply blocks_ext.
    + intros n. rewrite (recorded_other_plain h p n P F0). split; [intros [_ X]; exact X|]. intros X. split; [apply plain_filed; exact P|exact X].
    + intros n t. rewrite (recorded_other_plain h p n P F0). auto.
Qed.

Lemma since_keeps t b h : Forall (fun c => sets t c = false) b -> since (b ++ h) t = since h t.
Proof.
  intros F0. induction F0 as [|c b Hc F0 IH]; [reflexivity|]. cbn [app]. rewrite <- IH.
  destruct c; try reflexivity; cbn [sets] in Hc; cbn [since]; rewrite Hc; reflexivity.
Qed.

Lemma presentable_numbers h p : Forall number_given h -> presentable h p.
Proof. intros F0 n _. split; intros [M _]; [exact (recorded_numbers h _ F0 M)|exact (recorded_other_numbers h _ F0 M)]. Qed.

Lemma idle_startstop cs : forall m, m_enabled m = false -> m_all m = true -> m_timer m = [] ->
  Forall (fun c => exists t n p l now, c = StartStop t n p l now) cs ->
  run_from m cs = Ok (m, repeat (Reply (Some zero) []) (length cs)).
Proof.
  induction cs as [|c cs IH]; intros m E A T F0; [reflexivity|]. inversion F0 as [|c' cs' Hc F1]; subst. destruct Hc as (t & n & p & l & now & ->).
  cbn [run_from step]. unfold startStop, isEnabled. rewrite E, A, T. cbn [andb orb get_or map_get Z.eqb negb]. unfold start. rewrite E. cbn [bind].
  rewrite (IH m E A T F1). reflexivity.
Qed.

Lemma summary_numbers l md mn mx : ~ In S754_nan l -> at_rank l (Nat.div (length l) 2) md -> least l mn -> greatest l mx ->
  In md l /\ (forall x, In x l -> SFleb mn x = true) /\ (forall x, In x l -> SFleb x mx = true) /\
  exists low high, Permutation l (low ++ md :: high) /\ length low = Nat.div (length l) 2 /\
    (forall x, In x low -> SFleb x md = true) /\ (forall x, In x high -> SFleb md x = true).
Proof.
  intros N (s & P & S0 & E) [L1 L2] [G1 G2].
  assert (NN : forall x, In x l -> is_nan x = false). { intros x Hx. destruct x; try reflexivity. destruct (N Hx). }
  assert (Hmd : In md l) by (apply (Permutation_in _ (Permutation_sym P)); exact (nth_error_In _ _ E)).
  split; [exact Hmd|]. split; [|split].
  - intros x Hx. apply (not_above_leb mn x); auto.
  - intros x Hx. apply (not_above_leb x mx); auto.
  - apply nth_error_split in E. destruct E as (low & high & Es & Len). exists low, high. split; [rewrite <- Es; exact P|]. split; [exact Len|].
    rewrite Es in P, S0.
    assert (Q : Forall (fun x => not_above x md) low /\ Forall (not_above md) high).
    { clear - S0. induction low as [|x low IH]; cbn [app] in S0; inversion S0 as [|y r S1 A]; subst.
      - split; [constructor|exact A].
      - destruct (IH S1) as [I1 I2]. split; [|exact I2]. constructor; [|exact I1]. rewrite Forall_forall in A. apply A. apply in_or_app. right; left; reflexivity. }
    destruct Q as [Q1 Q2]. rewrite Forall_forall in Q1, Q2. split; intros x Hx.
    + apply (not_above_leb x md); [|apply NN; exact Hmd|exact (Q1 x Hx)]. apply NN. apply (Permutation_in _ (Permutation_sym P)), in_or_app. auto.
    + apply (not_above_leb md x); [apply NN; exact Hmd| |exact (Q2 x Hx)]. apply NN. apply (Permutation_in _ (Permutation_sym P)), in_or_app. right; right; exact Hx.
Qed.
