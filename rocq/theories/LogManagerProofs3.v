(* Proofs for C51: configure *)
From Verif Require Import Conc Text SMap LogTextModel LogManagerModel LogManagerSpec LogManagerProofs LogManagerProofs2.

Lemma str_eqb_eq a b : str_eqb a b = true <-> a = b.
Proof. unfold str_eqb. destruct (list_eq_dec ascii_dec a b); split; congruence. Qed.
Lemma more_stream m m' P n : wf m -> wf m' -> more m m' P ->
  match stream_of m n with
  | None => stream_of m' n = None
  | Some s => exists s', stream_of m' n = Some s' /\ s_level s' = s_level s /\ forall o, In o (s_outs s') <-> In o (s_outs s) \/ P n o
  end.
Proof.
  intros W W' [A B]. destruct (stream_of m n) as [s|] eqn:E.
  - apply stream_of_iff in E; auto. destruct E as (a & E & N). destruct (B _ _ E) as (s' & E' & N' & L & O). exists s'. split; [apply stream_of_iff; auto; exists a; split; congruence|]. rewrite N in O. auto.
  - destruct (stream_of m' n) as [s'|] eqn:E'; auto. apply stream_of_iff in E'; auto. destruct E' as (a & E' & N'). destruct (sh m a) as [s|] eqn:Es.
    + destruct (B _ _ Es) as (t & Et & Nt & _). assert (stream_of m n = Some s) by (apply stream_of_iff; auto; exists a; split; auto; congruence). congruence.
    + rewrite (A _ Es) in E'. discriminate E'.
Qed.
Lemma wired_iff (P Q : str -> Prop) known l n k : (forall k, P k <-> Q k) -> (wired P known l n k <-> wired Q known l n k).
Proof. intros H. unfold wired. split; intros (l1 & e & c & l2 & A & B & C & D); exists l1, e, c, l2; (split; [exact A|split; [exact B|split; [exact C|]]]); [rewrite <- H|rewrite H]; exact D. Qed.

(* 241-256: the last entry for a stream counts *)
Lemma last_level_snoc l e n : last_level (l ++ [e]) n = if str_eqb (sc_name (snd e)) n then Some (sc_level (snd e)) else last_level l n.
Proof. unfold last_level. rewrite rev_app_distr. cbn. destruct (str_eqb (sc_name (snd e)) n); reflexivity. Qed.
Definition relev (l : list (str * strcfg)) (s : sobj) : sobj := mkS (s_name s) (match last_level l (s_name s) with Some v => v | None => s_level s end) (s_outs s).
Lemma configure_streams m l : wf m -> exists m', foldM configure_stream l m = Ok m' /\ wf m' /\ frame m m' /\ oh m' = oh m /\ forall a, sh m' a = option_map (relev l) (sh m a).
Proof.
  intros W. apply (foldM_done configure_stream (fun d m' => wf m' /\ frame m m' /\ oh m' = oh m /\ forall a, sh m' a = option_map (relev d) (sh m a))).
  - intros d [e c] r m1 _ (W1 & F1 & O1 & S1). unfold configure_stream. cbn [snd]. destruct (map_get (smap m1) (sc_name c)) as [a|] eqn:M.
    + apply map_get_in in M; [|apply (w_smap _ W1)]. destruct (slevel_ok m1 a (sc_level c) _ W1 M) as (s & E & -> & W2). eexists. split; [reflexivity|]. split; [exact W2|].
      split; [eapply frame_trans; [exact F1|apply frame_stream]|]. split; [exact O1|]. intros b. cbn. unfold upd.
      assert (NM : s_name s = sc_name c). { destruct (w_s _ W1 _ _ M) as (t & Et & Nt). congruence. }
      pose proof (S1 a) as Sa. rewrite E in Sa. destruct (sh m a) as [s0|] eqn:E0; [|discriminate Sa]. injection Sa as Sa.
      destruct (Nat.eqb_spec b a) as [->|N].
      * rewrite E0. cbn. unfold relev. rewrite last_level_snoc. cbn [snd]. assert (NM0 : s_name s0 = sc_name c) by (rewrite <- NM, Sa; reflexivity). rewrite NM0. rewrite (proj2 (str_eqb_eq _ _) eq_refl). rewrite NM, Sa. reflexivity.
      * rewrite S1. destruct (sh m b) as [t|] eqn:Et; auto. cbn. unfold relev. rewrite last_level_snoc. cbn [snd]. destruct (str_eqb (sc_name c) (s_name t)) eqn:Q; auto. apply str_eqb_eq in Q.
        exfalso. apply N. pose proof (w_s' _ W _ _ Et) as I. destruct F1 as (_&_&_&_&_&A6&_). rewrite <- A6, <- Q in I. apply (unique_key _ _ _ _ (w_smap _ W1) I M).
    + exists m1. split; auto. split; auto. split; auto. split; auto. intros b. rewrite S1. destruct (sh m b) as [t|] eqn:Et; auto. cbn. unfold relev. rewrite last_level_snoc. cbn [snd].
      destruct (str_eqb (sc_name c) (s_name t)) eqn:Q; auto. apply str_eqb_eq in Q. exfalso. pose proof (w_s' _ W _ _ Et) as I. destruct F1 as (_&_&_&_&_&A6&_). rewrite <- A6, <- Q in I.
      apply (map_get_none _ _ (w_smap _ W1)) with (v := b) in M. auto.
  - split; auto. split; [apply frame_refl|]. split; auto. intros a. destruct (sh m a) as [s|]; auto. destruct s; reflexivity.
Qed.
(* 259-288 *)
Definition over1 (l : level) (d : addr) (s : sobj) : sobj := add1 d (lev1 l s).
Lemma override_ok m l : wf m -> exists m' d, override m l = Ok m' /\ wf m' /\ dflt m' = Some d /\ (dflt m = None \/ dflt m = Some d) /\
  inited m' = inited m /\ ocfg m' = ocfg m /\ scfg m' = scfg m /\ sfac m' = sfac m /\ ofac m' = ofac m /\ smap m' = smap m /\ omap m' = omap m /\
  (forall a, sh m' a = option_map (over1 l d) (sh m a)) /\
  (forall o, oh m o <> None -> oh m' o = option_map (olev1 l) (oh m o)) /\ (dflt m = None -> oh m d = None /\ oh m' d = Some (mkO $"Default" l false)).
Proof.
  intros W. unfold override.
  assert (H : exists d m1, create_default m = (d, m1) /\ wf m1 /\ dflt m1 = Some d /\ (dflt m = None \/ dflt m = Some d) /\ inited m1 = inited m /\ ocfg m1 = ocfg m /\ scfg m1 = scfg m /\ sfac m1 = sfac m /\ ofac m1 = ofac m /\ smap m1 = smap m /\ omap m1 = omap m /\
     sh m1 = sh m /\ (forall o, oh m o <> None -> oh m1 o = oh m o) /\ (dflt m = None -> oh m d = None /\ oh m1 d = Some (mkO $"Default" Info false))).
  { unfold create_default. destruct (dflt m) as [d|] eqn:D.
    - exists d, m. conj; auto; congruence.
    - cbn [new_output fst snd]. eexists _, _. split; [reflexivity|]. split; [apply (wf_new_default m $"Default" Info W D)|]. cbn. conj; auto.
      + intros o H. up o (on m); auto. rewrite (w_on _ W) in H by lia. congruence.
      + intros _. split; [apply (w_on _ W); lia|rewrite upd_same; reflexivity]. }
  destruct H as (d & m1 & -> & W1 & D1 & D1' & A1 & A2 & A3 & A4 & A5 & A6 & A7 & A8 & A9 & A10).
  destruct (olevel_ok m1 d l W1 (or_introl D1)) as (x & Ex & -> & W2). cbn [bind]. set (m2 := put_output _ _ _) in *.
  destruct (loop_all (fun m x => bind (set_stream_level l m (snd x)) (fun m => addOutputStream m (snd x) d)) (over1 l d) m2 W2) as (m3 & E3 & W3 & F3 & O3 & S3).
  - reflexivity.
  - intros s o H. apply add1_in in H. destruct H as [->|H]; auto. right. left. exact D1.
  - intros s. unfold over1. transitivity (add1 d (add1 d (lev1 l s))); [|apply add1_idem]. reflexivity.
  - intros m3 [n a] s H1 H2 H3 H4. cbn [snd] in *. unfold set_stream_level, stream. rewrite H4. cbn. unfold addOutputStream, stream. cbn. rewrite upd_same. cbn.
    eexists. split; [reflexivity|]. split; [repeat split|]. split; [reflexivity|]. intros b. cbn. unfold upd. destruct (b =? a); reflexivity.
  - rewrite E3. cbn [bind]. destruct F3 as (B1&B2&B3&B4&B5&B6&B7&B8&B9&B0). cbn in B1,B2,B3,B4,B5,B6,B7,B8,B9,B0.
    destruct (loop_o (fun m x => set_output_level l m (snd x)) (olev1 l) m3 W3) as (m4 & E4 & W4 & F4 & S4 & O4).
    + reflexivity.
    + reflexivity.
    + intros m4 y z H1 H2 H3 H4. unfold set_output_level, output. rewrite H4. reflexivity.
    + destruct F4 as (C1&C2&C3&C4&C5&C6&C7&C8&C9&C0). exists m4, d. rewrite E4. conj; auto; try congruence.
      * intros a. rewrite S4, S3. cbn. rewrite A8. reflexivity.
      * intros o N. destruct (O4 o) as [O5 O6]. rewrite O3 in O5, O6. cbn in O5, O6. rewrite B7, A7 in O5, O6.
        assert (I : (exists k, In (k, o) (omap m)) \/ (dflt m = Some o /\ ~ exists k, In (k, o) (omap m))).
        { destruct (w_o' _ W _ N) as [I|I]; auto. right. split; auto. intros [k J]. apply (proj2 (w_d _ W _ I) _ J). }
        destruct I as [I|[I J]].
        -- rewrite (O5 I). up o d; [exfalso|rewrite A9 by auto; reflexivity]. destruct I as [k I]. apply (proj2 (w_d _ W1 _ D1) k). rewrite A7. exact I.
        -- rewrite (O6 J). destruct D1' as [D|D]; [congruence|]. assert (o = d) as -> by congruence. rewrite upd_same. rewrite <- (A9 _ N), Ex. reflexivity.
      * intros D. destruct A10 as [X Y]; auto. split; auto. destruct (O4 d) as [_ O6]. rewrite O6.
        -- rewrite O3. cbn. rewrite upd_same. rewrite Y in Ex. injection Ex as <-. reflexivity.
        -- rewrite B7, A7. rewrite <- A7. intros [k J]. apply (proj2 (w_d _ W1 _ D1) _ J).
Qed.
Record configured (op : opts) (m m' : mgr) : Prop := mkCf {
  f_wf : wf m'; f_dfl : dfl_all m'; f_inited : inited m' = true; f_scfg : scfg m' = scfg m; f_ofac : ofac m' = ofac m;
  f_ocfg : ocfg m' = [] <-> ocfg m = [];
  f_omap : forall k o, In (k, o) (omap m) -> In (k, o) (omap m');
  f_has : forall n, has_stream m' n <-> has_stream m n \/ In n (map fst (sfac m));
  f_keys : forall k, has_output m' k <-> has_output m k \/ created (ofac m) (ocfg m) k;
  f_d : dflt m' <> None <-> ocfg m = [] \/ option_level op <> None;
  f_conn : forall n o, connected m' n o <-> (connected m n o /\ dflt m <> Some o) \/ (dflt m' = Some o /\ has_stream m' n) \/
    (has_stream m' n /\ exists k, In (k, o) (omap m') /\ wired (has_output m) (ofac m) (ocfg m) n k);
  f_slevel : forall n s, stream_of m' n = Some s ->
    s_level s = the_level op (match last_level (scfg m) n with Some l => l | None => match stream_of m n with Some s0 => s_level s0 | None => Info end end);
  f_old : forall k x, output_of m k = Some x -> output_of m' k = Some (mkO (o_name x) (the_level op (o_level x)) (o_running x));
  f_new : forall k x, output_of m k = None -> output_of m' k = Some x ->
    exists l1 e c l2, ocfg m = l1 ++ (e, c) :: l2 /\ the_name c = k /\ In (c_kind c) (ofac m) /\ ~ created (ofac m) l1 k /\ x = mkO k (the_level op (c_level c)) false;
  f_dlevel : forall d, dflt m' = Some d -> ocfg m = [] -> dflt m = None -> oh m' d = Some (mkO $"Default" (the_level op Info) false);
  f_dlevel' : forall d, dflt m' = Some d -> ocfg m <> [] -> oh m' d = Some (mkO $"Default" (the_level op Info) false);
  f_dkeep : forall d x, dflt m = Some d -> ocfg m = [] -> oh m d = Some x -> dflt m' = Some d /\ oh m' d = Some (mkO (o_name x) (the_level op (o_level x)) (o_running x));
  f_fac : forall n, In n (map fst (sfac m')) <-> In n (map fst (sfac m));
  f_keep : forall n a, In (n, Some a) (sfac m) -> In (n, Some a) (sfac m');
  f_inst : forall n, In n (map fst (sfac m)) -> (exists a, In (n, Some a) (sfac m')) \/ has_stream m n
}.
Lemma configure_stages op m : configure op m =
  bind (bind (stage2 m) drop_default) (fun m3 => bind (foldM create_output (ocfg m3) m3) (fun m4 => bind (foldM configure_stream (scfg m4) m4) (fun m5 =>
  match option_level op with None => Ok m5 | Some l => override m5 l end))).
Proof.
  unfold configure, stage2, option_level. destruct (match ocfg m with [] => _ | _ => _ end) as [x1| |]; auto. cbn. destruct (foldM create_stream (sfac x1) x1) as [x2| |]; auto. cbn.
  destruct (drop_default x2) as [x3| |]; auto. cbn. destruct (foldM create_output (ocfg x3) x3) as [x4| |]; auto. cbn. destruct (foldM configure_stream (scfg x4) x4) as [x5| |]; auto. cbn. destruct (log_level op); reflexivity.
Qed.
Lemma configure_ok op m : wf m -> inited m = true -> dfl_all m -> (ocfg m = [] -> dflt m = None -> smap m = []) -> exists m', configure op m = Ok m' /\ configured op m m'.
Proof.
  intros W IN D0 FR. rewrite configure_stages. destruct (stage3_ok m W IN D0 FR) as (m3 & -> & U). cbn [bind].
  pose proof (u_wf _ _ U) as W3.
  destruct (create_outputs m3 W3 (ocfg m3) ltac:(auto)) as (m4 & -> & W4 & G). cbn [bind].
  destruct (configure_streams m4 (scfg m4) W4) as (m5 & -> & W5 & F5 & O5 & S5). cbn [bind].
  destruct F5 as (B1&B2&B3&B4&B5&B6&B7&B8&B9&B0).
  assert (HO : forall k, hasO m3 k <-> has_output m k). { intros k. rewrite (has_output_iff _ _ W). unfold hasO. rewrite (u_omap _ _ U). tauto. }
  assert (ST5 : forall n, stream_of m5 n = option_map (relev (scfg m4)) (stream_of m4 n)) by (apply map_fun_stream; auto).
  assert (HAS : forall n, has_stream m5 n <-> has_stream m n \/ In n (map fst (sfac m))).
  { intros n. rewrite <- (u_has _ _ U). rewrite (has_stream_iff m5), (has_stream_iff m3) by auto. rewrite B6, (d_smap _ _ _ G). tauto. }
  assert (KEYS : forall k, has_output m5 k <-> has_output m k \/ created (ofac m) (ocfg m) k).
  { intros k. rewrite (has_output_iff m5), <- HO by auto. unfold hasO at 1. rewrite B7. rewrite <- (u_ofac _ _ U), <- (u_ocfg _ _ U). apply (d_keys _ _ _ G). }
  assert (CONN : forall n o, connected m5 n o <-> (connected m n o /\ dflt m <> Some o) \/ (dflt m5 = Some o /\ has_stream m5 n) \/
    (has_stream m5 n /\ exists k, In (k, o) (omap m5) /\ wired (has_output m) (ofac m) (ocfg m) n k)).
  { intros n o. pose proof (u_conn _ _ U n o) as C3. rewrite B8, (d_dflt _ _ _ G), B7.
    assert (HS : has_stream m5 n <-> has_stream m3 n). { rewrite (has_stream_iff m5), (has_stream_iff m3) by auto. rewrite B6, (d_smap _ _ _ G). tauto. }
    rewrite HS, or_assoc_1, <- C3. pose proof (more_stream m3 m4 _ n W3 W4 (d_more _ _ _ G)) as M. unfold connected at 1. rewrite ST5. unfold has_stream, connected.
    assert (WI : forall k, wired (hasO m3) (ofac m3) (ocfg m3) n k <-> wired (has_output m) (ofac m) (ocfg m) n k). { intros k. rewrite (u_ofac _ _ U), (u_ocfg _ _ U). apply wired_iff, HO. }
    destruct (stream_of m3 n) as [s|].
    - destruct M as (s' & -> & L & O). cbn. split.
      + intros (t & [= <-] & I). cbn in I. apply O in I. destruct I as [I|(k & I & J)]; [left; eauto|]. right. split; [eauto|]. exists k. rewrite <- WI. auto.
      + intros [(t & [= <-] & I)|(_ & k & I & J)]; (eexists; split; [reflexivity|]; apply O); auto. right. exists k. rewrite WI. auto.
    - rewrite M. cbn. split; [intros (t & H & _); discriminate H|]. intros [(t & H & _)|([t H] & _)]; discriminate H. }
  assert (LEV : forall n s, stream_of m5 n = Some s -> s_level s = match last_level (scfg m) n with Some l => l | None => match stream_of m n with Some s0 => s_level s0 | None => Info end end).
  { intros n s E. rewrite ST5 in E. pose proof (more_stream m3 m4 _ n W3 W4 (d_more _ _ _ G)) as M. destruct (stream_of m3 n) as [s3|] eqn:E3; [|rewrite M in E; discriminate E].
    destruct M as (s4 & E4 & L & _). rewrite E4 in E. cbn in E. injection E as <-. cbn. rewrite (d_scfg _ _ _ G), (u_scfg _ _ U).
    assert (s_name s4 = n) as -> by (apply stream_of_iff in E4; auto; destruct E4 as (a & _ & N); exact N). destruct (last_level (scfg m) n); auto. rewrite L. apply (u_level _ _ U _ _ E3). }
  assert (DFL : dfl_all m5).
  { intros d a s H1 H2. rewrite S5 in H2. destruct (sh m4 a) as [s4|] eqn:E4; [|discriminate H2]. injection H2 as <-. cbn. destruct (d_more _ _ _ G) as [MA MB].
    destruct (sh m3 a) as [s3|] eqn:E3; [|rewrite (MA _ E3) in E4; discriminate E4]. destruct (MB _ _ E3) as (t & Et & _ & _ & O). rewrite E4 in Et. injection Et as <-. apply O. left.
    rewrite B8, (d_dflt _ _ _ G) in H1. apply (u_dfl _ _ U _ _ _ H1 E3). }
  assert (OCF : ocfg m5 = [] <-> ocfg m = []).
  { rewrite B2, <- (u_ocfg _ _ U). pose proof (d_ocfg _ _ _ G) as K. split; intros E; rewrite E in K.
    - destruct (ocfg m3) as [|[e c] l]; auto. exfalso. apply (K e). left. left. reflexivity.
    - cbn in K. destruct (ocfg m4) as [|[e c] l]; auto. exfalso. destruct (proj1 (K e)) as [X|X]; auto. left. reflexivity. }
  assert (OLD : forall k x, output_of m k = Some x -> output_of m5 k = Some x).
  { intros k x E. apply output_of_iff in E; auto. destruct E as (o & I & E). apply output_of_iff; auto. exists o. rewrite B7, O5. split; [apply (d_old _ _ _ G); rewrite (u_omap _ _ U); exact I|].
    apply (d_oh _ _ _ G). rewrite (u_oh _ _ U); auto; [congruence|]. left. intros D. apply (proj2 (w_d _ W _ D) _ I). }
  assert (NEW : forall k x, output_of m k = None -> output_of m5 k = Some x ->
    exists l1 e c l2, ocfg m = l1 ++ (e, c) :: l2 /\ the_name c = k /\ In (c_kind c) (ofac m) /\ ~ created (ofac m) l1 k /\ x = mkO k (c_level c) false).
  { intros k x N E. apply output_of_iff in E; auto. destruct E as (o & I & E). rewrite B7 in I. rewrite O5 in E. destruct (d_level _ _ _ G _ _ I) as [H|(l1 & e & c & l2 & H1 & H2 & H3 & H4 & H5)].
    - apply HO in H. destruct H as [y H]. congruence.
    - exists l1, e, c, l2. rewrite <- (u_ocfg _ _ U), <- (u_ofac _ _ U). conj; auto. congruence. }
  assert (D5 : dflt m5 = dflt m3) by (rewrite B8; apply (d_dflt _ _ _ G)).
  assert (DL : forall d, dflt m5 = Some d -> dflt m = None -> oh m5 d = Some (mkO $"Default" Info false)).
  { intros d H1 H2. rewrite D5 in H1. rewrite O5. apply (d_oh _ _ _ G). apply (u_d3 _ _ U _ H1 H2). }
  assert (DK : forall d x, dflt m = Some d -> ocfg m = [] -> oh m d = Some x -> dflt m5 = Some d /\ oh m5 d = Some x).
  { intros d x H1 H2 H3. rewrite D5, O5. split; [apply (u_d2 _ _ U _ H2 H1)|]. apply (d_oh _ _ _ G). rewrite (u_oh _ _ U); auto. congruence. }
  assert (D5N : dflt m5 <> None <-> ocfg m = []). { rewrite D5. apply (u_d1 _ _ U). }
  assert (SF : sfac m5 = sfac m3). { rewrite B4. apply (d_sfac _ _ _ G). }
  destruct (option_level op) as [l|] eqn:OL.
  - destruct (override_ok m5 l W5) as (m6 & d & E6 & W6 & D6 & D6' & C1 & C2 & C3 & C4 & C5 & C6 & C7 & S6 & O6 & O6'). exists m6. split; auto.
    assert (ST6 : forall n, stream_of m6 n = option_map (over1 l d) (stream_of m5 n)) by (apply map_fun_stream; auto).
    assert (HAS6 : forall n, has_stream m6 n <-> has_stream m5 n). { intros n. rewrite !has_stream_iff by auto. rewrite C6. tauto. }
    assert (OUT6 : forall k, output_of m6 k = option_map (olev1 l) (output_of m5 k)).
    { intros k. unfold output_of. rewrite C7. destruct (map_get (omap m5) k) as [o|] eqn:M; auto. apply O6. apply map_get_in in M; [|apply (w_omap _ W5)]. destruct (w_o _ W5 _ _ M) as (x & E & _). congruence. }
    split; unfold the_level; rewrite ?OL; auto.
    + intros d' a s H1 H2. rewrite S6 in H2. destruct (sh m5 a) as [t|]; [|discriminate H2]. injection H2 as <-. apply add1_in. left. congruence.
    + rewrite C1, B1, (d_inited _ _ _ G). apply U.
    + rewrite C3, B3, (d_scfg _ _ _ G). apply U.
    + rewrite C5, B5, (d_ofac _ _ _ G). apply U.
    + rewrite C2. exact OCF.
    + intros k o H. rewrite C7, B7. apply (d_old _ _ _ G). rewrite (u_omap _ _ U). exact H.
    + intros n. rewrite HAS6. apply HAS.
    + intros k. rewrite <- KEYS. rewrite !has_output_iff by auto. unfold hasO. rewrite C7. tauto.
    + rewrite D6. split; [intros _; right; discriminate|discriminate].
    + intros n o. rewrite HAS6, D6, C7. transitivity (o = d /\ has_stream m5 n \/ connected m5 n o).
      * unfold connected, has_stream. rewrite ST6. destruct (stream_of m5 n) as [s|]; cbn; split.
        -- intros (t & [= <-] & I). apply add1_in in I. cbn in I. destruct I as [->|I]; eauto.
        -- intros [[-> _]|(t & [= <-] & I)]; (eexists; split; [reflexivity|apply add1_in; auto]).
        -- intros (t & H & _). discriminate H.
        -- intros [[_ [t H]]|(t & H & _)]; discriminate H.
      * rewrite CONN. split; [intros [[-> H]|[H|[[H H']|H]]]; auto|intros [H|[[[= ->] H]|H]]; auto]. right. left. destruct D6' as [X|X]; [congruence|]. split; [congruence|auto].
    + intros n s E. rewrite ST6 in E. destruct (stream_of m5 n) as [t|]; [|discriminate E]. injection E as <-. reflexivity.
    + intros k x E. rewrite OUT6, (OLD _ _ E). reflexivity.
    + intros k x N E. rewrite OUT6 in E. destruct (output_of m5 k) as [y|] eqn:Ey; [|discriminate E]. injection E as <-. destruct (NEW _ _ N Ey) as (l1 & e & c & l2 & H1 & H2 & H3 & H4 & ->). exists l1, e, c, l2. conj; auto.
    + intros d' H1 H2 H3. assert (d' = d) as -> by congruence. destruct D6' as [X|X]; [apply D5N in H2; congruence|]. rewrite O6; rewrite (DL _ X H3); [reflexivity|discriminate].
    + intros d' H1 H2. assert (d' = d) as -> by congruence. assert (X : dflt m5 = None). { destruct (dflt m5) eqn:X; auto. exfalso. apply H2, D5N. congruence. } apply (O6' X).
    + intros d' x H1 H2 H3. destruct (DK _ _ H1 H2 H3) as [X Y]. destruct D6' as [Z|Z]; [congruence|]. assert (d' = d) as -> by congruence. split; auto. rewrite O6; rewrite Y; [reflexivity|discriminate].
    + intros n. rewrite C4, SF. apply U.
    + intros n a. rewrite C4, SF. apply U.
    + intros n. rewrite C4, SF. apply U.
  - exists m5. split; auto. split; unfold the_level; rewrite ?OL; auto.
    + rewrite B1, (d_inited _ _ _ G). apply U.
    + rewrite B3, (d_scfg _ _ _ G). apply U.
    + rewrite B5, (d_ofac _ _ _ G). apply U.
    + intros k o H. rewrite B7. apply (d_old _ _ _ G). rewrite (u_omap _ _ U). exact H.
    + rewrite D5N. split; auto. intros [H|H]; congruence.
    + intros k x E. rewrite (OLD _ _ E). destruct x; reflexivity.
    + intros d H1 H2. exfalso. apply H2, D5N. congruence.
    + intros d x H1 H2 H3. destruct (DK _ _ H1 H2 H3) as [X Y]. split; auto. rewrite Y. destruct x; reflexivity.
    + intros n. rewrite SF. apply U.
    + intros n a. rewrite SF. apply U.
    + intros n. rewrite SF. apply U.
Qed.
