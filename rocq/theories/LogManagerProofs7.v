(* Proofs for C51: statements *)
From Verif Require Import Conc Text SMap LogTextModel LogManagerModel LogManagerSpec LogManagerProofs LogManagerProofs2 LogManagerProofs3 LogManagerProofs4 LogManagerProofs5 LogManagerProofs6.

Lemma do_snoc config op cs c m : do_calls config op cs = Ok m -> do_calls config op (cs ++ [c]) = do_call config op m c.
Proof.
  unfold do_calls. generalize start_mgr. induction cs as [|d cs IH]; intros m0; cbn; [intros [= ->]; destruct (do_call config op m c); reflexivity|].
  destruct (do_call config op m0 d); cbn; try discriminate. apply IH.
Qed.
Lemma map_get_iff {T} (l : list (str * T)) k v : sorted l -> (map_get l k = Some v <-> In (k, v) l).
Proof. apply map_get_in. Qed.
Lemma initialize_fresh config op cs : Forall registration cs -> exists m q, do_calls config op (cs ++ [CInitialize]) = Ok m /\
  match q with
  | None => quick_debug op = None
  | Some k => quick_debug op <> None /\ exists i, k = quick_name i /\ ~ created (known_outputs cs) (outputs_of config) k /\ forall j, j < i -> created (known_outputs cs) (outputs_of config) (quick_name j)
  end /\
  (forall n, has_stream m n <-> registered_stream cs n) /\
  (forall k, has_output m k <-> created (known_outputs cs) (outputs_of config) k \/ q = Some k) /\
  (dflt m <> None <-> outputs_of config = [] \/ option_level op <> None) /\
  (forall n o, connected m n o <-> registered_stream cs n /\
     (dflt m = Some o \/ exists k, map_get (omap m) k = Some o /\ (wired (fun _ => False) (known_outputs cs) (outputs_of config) n k \/ (q = Some k /\ n = $"QuickDebug")))) /\
  (forall n s, stream_of m n = Some s ->
     s_level s = if andb (str_eqb n $"QuickDebug") (match q with Some _ => true | None => false end) then Trace
                 else the_level op (match last_level (streams_of config) n with Some l => l | None => Info end)) /\
  (forall k x, output_of m k = Some x -> o_running x = true /\
     ((q = Some k /\ o_level x = Trace) \/
      exists l1 e c l2, outputs_of config = l1 ++ (e, c) :: l2 /\ the_name c = k /\ In (c_kind c) (known_outputs cs) /\ ~ created (known_outputs cs) l1 k /\ o_level x = the_level op (c_level c))) /\
  (forall d, dflt m = Some d -> oh m d = Some (mkO $"Default" (the_level op Info) true)).
Proof.
  intros F. destruct (registered config op cs F) as (m0 & E0 & I & N & RS & RO).
  destruct (initialize_ok config op m0 I) as (m1 & m & q & _ & C & E & S & I'). exists m, q. rewrite (do_snoc _ _ _ _ _ E0). split; [exact E|].
  destruct (i_fresh _ I N) as (A1 & A2 & A3 & A4 & A5). set (ml := loaded config m0) in *.
  assert (L1 : ocfg ml = outputs_of config) by (unfold ml, loaded; rewrite N; cbn; rewrite A1; reflexivity).
  assert (L2 : scfg ml = streams_of config) by (unfold ml, loaded; rewrite N; cbn; rewrite A2; reflexivity).
  assert (L3 : smap ml = []) by (unfold ml, loaded; rewrite N; exact A3).
  assert (L4 : omap ml = []) by (unfold ml, loaded; rewrite N; exact A4).
  assert (L5 : dflt ml = None) by (unfold ml, loaded; rewrite N; exact A5).
  assert (L6 : sfac ml = sfac m0) by (unfold ml, loaded; rewrite N; reflexivity).
  assert (L7 : ofac ml = ofac m0) by (unfold ml, loaded; rewrite N; reflexivity).
  assert (NS : forall n, stream_of ml n = None) by (intros n; unfold stream_of; rewrite L3; reflexivity).
  assert (NO : forall k, output_of ml k = None) by (intros n; unfold output_of; rewrite L4; reflexivity).
  assert (HS1 : forall n, has_stream m1 n <-> registered_stream cs n).
  { intros n. rewrite (f_has _ _ _ C), L6, RS. split; auto. intros [[s H]|H]; auto. rewrite NS in H. discriminate H. }
  assert (HO1 : forall k, has_output m1 k <-> created (known_outputs cs) (outputs_of config) k).
  { intros k. rewrite (f_keys _ _ _ C), L7, L1, (created_ext _ _ _ _ RO). split; auto. intros [[s H]|H]; auto. rewrite NO in H. discriminate H. }
  assert (HS : forall n, has_stream m n <-> registered_stream cs n).
  { intros n. rewrite <- HS1. pose proof (r_stream _ _ _ _ S n) as R. unfold has_stream. destruct (stream_of m1 n) as [s|]; [destruct R as (s' & -> & _)|rewrite R]; split; eauto; intros [x X]; discriminate X. }
  assert (W1 : wf m1) by apply C. assert (W : wf m) by apply S.
  assert (DF : dflt m <> None <-> outputs_of config = [] \/ option_level op <> None). { rewrite (r_dflt _ _ _ _ S), (f_d _ _ _ C), L1. tauto. }
  conj.
  - pose proof (r_q _ _ _ _ S) as Q. destruct q as [k|]; auto. destruct Q as (Q1 & i & Q2 & Q3 & Q4). split; auto. exists i. rewrite <- HO1. conj; auto. intros j J. apply HO1. auto.
  - apply HS.
  - intros k. split.
    { rewrite (has_output_iff m) by auto. intros [o J]. apply (r_omap _ _ _ _ S) in J. destruct J as [J|[J _]]; auto. left. apply HO1. apply has_output_iff; auto. exists o. exact J. }
    intros J. apply has_output_iff; auto. destruct J as [J|J].
    + apply HO1, has_output_iff in J; auto. destruct J as [o J]. exists o. apply (r_omap _ _ _ _ S). auto.
    + exists (on m1). apply (r_omap _ _ _ _ S). auto.
  - apply DF.
  - apply DF.
  - intros n o. assert (WI : forall k, wired (has_output ml) (ofac ml) (ocfg ml) n k <-> wired (fun _ => False) (known_outputs cs) (outputs_of config) n k).
    { intros k. rewrite L1, L7, (wired_ext _ _ _ _ _ _ RO). apply wired_iff. intros k'. split; [intros [x X]; rewrite NO in X; discriminate X|tauto]. }
    assert (C1 : connected m1 n o <-> (dflt m = Some o /\ registered_stream cs n) \/ (registered_stream cs n /\ exists k, In (k, o) (omap m1) /\ wired (fun _ => False) (known_outputs cs) (outputs_of config) n k)).
    { rewrite (f_conn _ _ _ C), HS1, <- (r_dflt _ _ _ _ S). split.
      - intros [[(s & X & _) _]|[X|[X (k & X1 & X2)]]]; [rewrite NS in X; discriminate X|auto|]. right. split; auto. exists k. rewrite <- WI. auto.
      - intros [X|[X (k & X1 & X2)]]; auto. right. right. split; auto. exists k. rewrite WI. auto. }
    assert (C2 : connected m n o <-> connected m1 n o \/ (has_stream m1 n /\ n = $"QuickDebug" /\ q <> None /\ o = on m1)).
    { pose proof (r_stream _ _ _ _ S n) as R. unfold connected, has_stream. destruct (stream_of m1 n) as [s|].
      - destruct R as (s' & -> & _ & R). split.
        + intros (t & [= <-] & J). apply R in J. destruct J as [J|J]; [left; eauto|]. right. split; eauto.
        + intros [(t & [= <-] & J)|(_ & J)]; (exists s'; split; [reflexivity|apply R; auto]).
      - rewrite R. split; [intros (t & X & _); discriminate X|]. intros [(t & X & _)|([t X] & _)]; discriminate X. }
    rewrite C2, C1. split.
    + intros [[[X Y]|[X (k & Y1 & Y2)]]|(X & -> & Y & ->)].
      * auto.
      * split; auto. right. exists k. split; auto. apply map_get_iff; [apply (w_omap _ W)|]. apply (r_omap _ _ _ _ S). auto.
      * split; [apply HS1, X|]. right. destruct q as [k|]; [|congruence]. exists k. split; auto. apply map_get_iff; [apply (w_omap _ W)|]. apply (r_omap _ _ _ _ S). auto.
    + intros [X [Y|(k & Y1 & Y2)]]; auto. apply map_get_iff in Y1; [|apply (w_omap _ W)]. apply (r_omap _ _ _ _ S) in Y1. destruct Y2 as [Y2|[Y2 ->]].
      * destruct Y1 as [Y1|[Y1 _]]; [left; right; split; eauto|]. exfalso. pose proof (r_q _ _ _ _ S) as Q. rewrite Y1 in Q. destruct Q as (_ & i & _ & Q & _). apply Q. apply HO1.
        destruct Y2 as (l1 & e & c & l2 & D1 & D2 & D3 & [[]|(e' & c' & D4 & D5 & D6)]). exists e', c'. split; auto. rewrite D1. apply in_snoc in D4. apply in_or_app. cbn. destruct D4 as [D4|D4]; [auto|right; left; auto].
      * destruct Y1 as [Y1|[_ ->]].
        -- exfalso. pose proof (r_q _ _ _ _ S) as Q. rewrite Y2 in Q. destruct Q as (_ & i & _ & Q & _). apply Q. apply has_output_iff; auto. exists o. exact Y1.
        -- right. split; [apply HS1, X|]. split; auto. split; auto. congruence.
  - intros n s E1. pose proof (r_stream _ _ _ _ S n) as R. destruct (stream_of m1 n) as [s1|] eqn:E2; [|congruence]. destruct R as (s' & R1 & R2 & _). assert (s' = s) by congruence. subst s'. rewrite R2.
    pose proof (f_slevel _ _ _ C _ _ E2) as SL. rewrite NS, L2 in SL. rewrite SL. destruct (str_eqb n $"QuickDebug"), q; reflexivity.
  - intros k x E1. apply output_of_iff in E1; auto. destruct E1 as (o & J & X). apply (r_omap _ _ _ _ S) in J. destruct J as [J|[J ->]].
    + destruct (w_o _ W1 _ _ J) as (y & Y & _). pose proof (r_old _ _ _ _ S _ _ Y) as Z. assert (x = run1 true y) by congruence. subst x. split; auto. right.
      destruct (f_new _ _ _ C k y (NO k)) as (l1 & e & c & l2 & D1 & D2 & D3 & D4 & ->); [apply output_of_iff; eauto|]. exists l1, e, c, l2. rewrite L1 in D1. rewrite L7 in D3, D4. rewrite (created_ext _ _ _ _ RO) in D4. conj; auto. apply RO. exact D3.
    + pose proof (r_new _ _ _ _ S _ J) as Z. assert (x = mkO k Trace true) by congruence. subst x. auto.
  - intros d D. rewrite (r_dflt _ _ _ _ S) in D. destruct (outputs_of config) as [|e l] eqn:OC.
    + pose proof (f_dlevel _ _ _ C d D L1 L5) as X. apply (r_old _ _ _ _ S _ _ X).
    + pose proof (f_dlevel' _ _ _ C d D ltac:(rewrite L1; discriminate)) as X. apply (r_old _ _ _ _ S _ _ X).
Qed.
Lemma reach_inv config op cs m : do_calls config op cs = Ok m -> inv m.
Proof. apply (calls_inv config op cs). Qed.
Lemma inited_iff config op cs m : do_calls config op cs = Ok m -> (inited m = true <-> In CInitialize cs).
Proof.
  revert m. induction cs as [|c cs IH] using rev_ind; intros m E.
  - injection E as <-. cbn. split; [discriminate|tauto].
  - destruct (do_calls config op cs) as [m0| |] eqn:E0.
    + rewrite (do_snoc _ _ _ _ _ E0) in E. specialize (IH _ eq_refl). pose proof (reach_inv _ _ _ _ E0) as I. rewrite in_snoc, <- IH.
      destruct (call_inv config op m0 c I) as [[_ X]|(m' & T & X & I')]; [congruence|]. assert (m' = m) by congruence. subst m'.
      destruct c; cbn [do_call throws] in E, T; try (assert (X1 : inited m = inited m0); [|rewrite X1; split; [auto|intros [H|H]; [exact H|discriminate H]]]).
      * destruct (map_get (sfac m0) n), (map_get (smap m0) n); injection E as <-; reflexivity.
      * injection E as <-. reflexivity.
      * destruct (inited m0) eqn:IN; [|discriminate T]. destruct (map_get (smap m0) n) eqn:M; [injection E as <-; exact IN|]. destruct (new_inv m0 n I IN M) as (m2 & E2 & _ & S2 & _). cbn [new_stream fst snd] in *. assert (m2 = m) by congruence. subst m2. rewrite S2. exact IN.
      * split; auto. intros _. destruct (initialize_ok config op m0 I) as (m1 & m2 & q & _ & C & E2 & S & _). assert (m2 = m) by congruence. subst m2. rewrite (r_inited _ _ _ _ S). apply C.
      * destruct (inited m0) eqn:IN; [|discriminate T]. destruct (configure_inv op m0 I IN) as (m2 & E2 & C & _). assert (m2 = m) by congruence. subst m2. apply C.
      * destruct (setlevel_ok m0 l (i_wf _ I)) as (m2 & E2 & _ & (A1 & _) & _). congruence.
      * destruct (map_get (smap m0) n) as [a|]; [|injection E as <-; reflexivity]. destruct (log m0 a l); cbn in E; try discriminate E. injection E as <-. reflexivity.
    + exfalso. revert E E0. unfold do_calls. generalize start_mgr. clear. induction cs as [|d cs IH]; intros m0; cbn; [discriminate|]. destruct (do_call config op m0 d); cbn; try discriminate. apply IH.
    + exfalso. revert E E0. unfold do_calls. generalize start_mgr. clear. induction cs as [|d cs IH]; intros m0; cbn; [discriminate|]. destruct (do_call config op m0 d); cbn; try discriminate. apply IH.
Qed.
