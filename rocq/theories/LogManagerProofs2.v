(* Proofs for C51: configure, initialize, shutdown *)
From Verif Require Import Conc Text SMap LogTextModel LogManagerModel LogManagerSpec LogManagerProofs.

Ltac conj := repeat match goal with |- _ /\ _ => split | |- _ <-> _ => split end.
Lemma stream_of_iff m n s : wf m -> (stream_of m n = Some s <-> exists a, sh m a = Some s /\ s_name s = n).
Proof.
  intros W. unfold stream_of. destruct (map_get (smap m) n) as [a|] eqn:M; split.
  - intros E. apply map_get_in in M; [|apply (w_smap _ W)]. destruct (w_s _ W _ _ M) as (s' & E1 & E2). exists a. split; auto. congruence.
  - intros (b & E & <-). pose proof (proj2 (map_get_in _ _ _ (w_smap _ W)) (w_s' _ W _ _ E)) as E1. congruence.
  - discriminate.
  - intros (b & E & <-). pose proof (proj2 (map_get_in _ _ _ (w_smap _ W)) (w_s' _ W _ _ E)) as E1. congruence.
Qed.
Lemma has_stream_iff m n : wf m -> (has_stream m n <-> exists a, In (n, a) (smap m)).
Proof.
  intros W. split.
  - intros [s E]. apply stream_of_iff in E; auto. destruct E as (a & E & <-). exists a. apply (w_s' _ W _ _ E).
  - intros [a I]. destruct (w_s _ W _ _ I) as (s & E & N). exists s. apply stream_of_iff; eauto.
Qed.
Lemma output_of_iff m k x : wf m -> (output_of m k = Some x <-> exists o, In (k, o) (omap m) /\ oh m o = Some x).
Proof.
  intros W. unfold output_of. destruct (map_get (omap m) k) as [o|] eqn:M; split.
  - intros E. apply map_get_in in M; [|apply (w_omap _ W)]. eauto.
  - intros (p & I & E). apply map_get_in in I; [|apply (w_omap _ W)]. congruence.
  - discriminate.
  - intros (p & I & E). apply map_get_in in I; [|apply (w_omap _ W)]. congruence.
Qed.
Lemma has_output_iff m k : wf m -> (has_output m k <-> hasO m k).
Proof.
  intros W. split.
  - intros [x E]. apply output_of_iff in E; auto. destruct E as (o & I & E). exists o. exact I.
  - intros [o I]. destruct (w_o _ W _ _ I) as (x & E & _). exists x. apply output_of_iff; eauto.
Qed.
Lemma connected_iff m n o : wf m -> (connected m n o <-> exists a s, sh m a = Some s /\ s_name s = n /\ In o (s_outs s)).
Proof.
  intros W. unfold connected. split.
  - intros (s & E & I). apply stream_of_iff in E; auto. destruct E as (a & E & N). eauto.
  - intros (a & s & E & N & I). exists s. split; auto. apply stream_of_iff; eauto.
Qed.
Lemma one_addr m a b s t : wf m -> sh m a = Some s -> sh m b = Some t -> s_name s = s_name t -> a = b /\ s = t.
Proof.
  intros W E1 E2 N. pose proof (w_s' _ W _ _ E1) as I1. pose proof (w_s' _ W _ _ E2) as I2. rewrite N in I1.
  pose proof (unique_key _ _ _ _ (w_smap _ W) I1 I2) as ->. split; congruence.
Qed.

(* the default output is connected to every stream *)
Definition dfl_all (m : mgr) : Prop := forall d a s, dflt m = Some d -> sh m a = Some s -> In d (s_outs s).
(* 142-158 *)
Definition stage2 (m : mgr) : result mgr :=
  bind (match ocfg m, dflt m with
        | [], None => if inited m then Ok (snd (create_default m)) else Throw
        | _, _ => Ok m end) (fun m1 => foldM create_stream (sfac m1) m1).
Definition qd_ok (m : mgr) : Prop := forall n, In n (map fst (sfac m)) -> has_stream m n -> exists a, In (n, Some a) (sfac m).

Record stage2_done (m m' : mgr) : Prop := mkS2 {
  t_wf : wf m'; t_dfl : dfl_all m';
  t_inited : inited m' = true; t_ocfg : ocfg m' = ocfg m; t_scfg : scfg m' = scfg m; t_ofac : ofac m' = ofac m; t_omap : omap m' = omap m;
  t_d1 : dflt m' <> None <-> ocfg m = [] \/ dflt m <> None;
  t_d2 : forall d, dflt m = Some d -> dflt m' = Some d;
  t_d3 : forall d x, dflt m' = Some d -> dflt m = None -> oh m' d = Some x -> x = mkO $"Default" Info false;
  t_oh : forall o, oh m o <> None -> oh m' o = oh m o;
  t_old : forall a s, sh m a = Some s -> sh m' a = Some s;
  t_new : forall a s, sh m a = None -> sh m' a = Some s -> s_level s = Info /\ In (s_name s) (map fst (sfac m)) /\ forall o, In o (s_outs s) -> dflt m' = Some o;
  t_all : forall n, In n (map fst (sfac m)) -> has_stream m' n;
  t_fac : forall n, In n (map fst (sfac m')) <-> In n (map fst (sfac m));
  t_keep : forall n a, In (n, Some a) (sfac m) -> In (n, Some a) (sfac m');
  t_inst : forall n, In n (map fst (sfac m)) -> (exists a, In (n, Some a) (sfac m')) \/ has_stream m n
}.
Lemma grown_done m m' : wf m -> wf m' -> dfl_all m -> inited m = true ->
  grown (map fst (sfac m)) m m' -> dfl_all m'.
Proof.
  intros W W' D IN G d a s H1 H2. rewrite (g_dflt _ _ _ G) in H1. destruct (sh m a) as [s0|] eqn:E.
  - pose proof (g_old _ _ _ G _ _ E) as E1. assert (s = s0) as -> by congruence. apply (D d a s0); auto.
  - destruct (g_new _ _ _ G _ _ E H2) as [-> _]. cbn. unfold outs0. rewrite H1. left. reflexivity.
Qed.
Lemma stage2_ok m : wf m -> inited m = true -> dfl_all m -> (ocfg m = [] -> dflt m = None -> smap m = []) ->
  exists m', stage2 m = Ok m' /\ stage2_done m m'.
Proof.
  intros W IN D0 FR. unfold stage2.
  assert (H : exists m1, match ocfg m, dflt m with [], None => if inited m then Ok (snd (create_default m)) else Throw | _, _ => Ok m end = Ok m1 /\ wf m1 /\ dfl_all m1 /\
    inited m1 = true /\ ocfg m1 = ocfg m /\ scfg m1 = scfg m /\ ofac m1 = ofac m /\ omap m1 = omap m /\ sfac m1 = sfac m /\ smap m1 = smap m /\ sh m1 = sh m /\
    (dflt m1 <> None <-> ocfg m = [] \/ dflt m <> None) /\ (forall d, dflt m = Some d -> dflt m1 = Some d) /\
    (forall d x, dflt m1 = Some d -> dflt m = None -> oh m1 d = Some x -> x = mkO $"Default" Info false) /\ (forall o, oh m o <> None -> oh m1 o = oh m o)).
  { destruct (ocfg m) as [|e l] eqn:OC.
    - destruct (dflt m) as [d|] eqn:D.
      + exists m. conj; auto; try (intros; congruence).
      + rewrite IN. unfold create_default. rewrite D. cbn [new_output snd fst]. eexists. split; [reflexivity|].
        split; [apply (wf_new_default m $"Default" Info W D)|]. split.
        { intros d a s H1 H2. cbn in *. exfalso. pose proof (w_s' _ W _ _ H2) as I. rewrite (FR eq_refl eq_refl) in I. exact I. }
        cbn. conj; auto; try congruence.
        * intros d x [= <-] _. rewrite upd_same. intros [= <-]. reflexivity.
        * intros o H. up o (on m); auto. rewrite (w_on _ W) in H by lia. congruence.
    - exists m. conj; auto; try (intros; congruence). intros [H|H]; [discriminate H|exact H]. }
  destruct H as (m1 & E1 & W1 & D1 & I1 & A2 & A3 & A4 & A5 & A6 & A7 & A8 & A9 & A10 & A11 & A12). rewrite E1. cbn [bind].
  destruct (create_streams m1 W1 I1) as (m2 & E2 & W2 & G). rewrite E2. exists m2. split; auto.
  pose proof (grown_done m1 m2 W1 W2 D1 I1 G) as D2. destruct G. split; auto; try congruence.
  - intros d H. rewrite g_dflt. auto.
  - intros d x H1 H2 H3. rewrite g_dflt in H1. rewrite g_oh in H3. apply (A11 d); auto.
  - intros o H. rewrite g_oh. auto.
  - intros a s H. apply g_old. rewrite A8. exact H.
  - intros a s H1 H2. rewrite <- A8 in H1. destruct (g_new _ _ H1 H2) as [E F]. rewrite <- A6. split; [rewrite E; reflexivity|]. split; auto. rewrite E. cbn. intros o. unfold outs0. rewrite g_dflt. destruct (dflt m1); [intros [<-|[]]; reflexivity|intros []].
  - intros n H. apply has_stream_iff; auto. apply g_all. rewrite A6. exact H.
  - intros n. rewrite g_fac, A6. tauto.
  - intros n a H. apply g_keep. rewrite A6. exact H.
  - intros n H. rewrite <- A6 in H. destruct (g_inst _ H) as [K|[a K]]; auto. right. apply has_stream_iff; auto. exists a. rewrite <- A7. exact K.
Qed.
(* 142-171 *)
Record stage3_done (m m' : mgr) : Prop := mkS3 {
  u_wf : wf m'; u_dfl : dfl_all m';
  u_inited : inited m' = true; u_ocfg : ocfg m' = ocfg m; u_scfg : scfg m' = scfg m; u_ofac : ofac m' = ofac m; u_omap : omap m' = omap m;
  u_d1 : dflt m' <> None <-> ocfg m = [];
  u_d2 : forall d, ocfg m = [] -> dflt m = Some d -> dflt m' = Some d;
  u_d3 : forall d, dflt m' = Some d -> dflt m = None -> oh m' d = Some (mkO $"Default" Info false);
  u_oh : forall o, oh m o <> None -> dflt m <> Some o \/ ocfg m = [] -> oh m' o = oh m o;
  u_has : forall n, has_stream m' n <-> has_stream m n \/ In n (map fst (sfac m));
  u_conn : forall n o, connected m' n o <-> (connected m n o /\ dflt m <> Some o) \/ (dflt m' = Some o /\ has_stream m' n);
  u_level : forall n s, stream_of m' n = Some s -> s_level s = match stream_of m n with Some s0 => s_level s0 | None => Info end;
  u_fac : forall n, In n (map fst (sfac m')) <-> In n (map fst (sfac m));
  u_keep : forall n a, In (n, Some a) (sfac m) -> In (n, Some a) (sfac m');
  u_inst : forall n, In n (map fst (sfac m)) -> (exists a, In (n, Some a) (sfac m')) \/ has_stream m n
}.
Lemma map_fun_stream m m' g : wf m -> wf m' -> (forall s, s_name (g s) = s_name s) -> (forall a, sh m' a = option_map g (sh m a)) -> forall n, stream_of m' n = option_map g (stream_of m n).
Proof.
  intros W W' GN H n. destruct (stream_of m n) as [s|] eqn:E.
  - apply stream_of_iff in E; auto. destruct E as (a & E & <-). apply stream_of_iff; auto. exists a. rewrite H, E. split; [reflexivity|apply GN].
  - destruct (stream_of m' n) as [s'|] eqn:E'; auto. apply stream_of_iff in E'; auto. destruct E' as (a & E' & N). rewrite H in E'. destruct (sh m a) as [s|] eqn:Es; [|discriminate E'].
    injection E' as <-. rewrite GN in N. assert (stream_of m n = Some s) by (apply stream_of_iff; eauto). congruence.
Qed.
Lemma stage2_stream m m' n s : wf m -> stage2_done m m' -> stream_of m' n = Some s ->
  stream_of m n = Some s \/ (stream_of m n = None /\ s_level s = Info /\ In n (map fst (sfac m)) /\ forall o, In o (s_outs s) -> dflt m' = Some o).
Proof.
  intros W T E. apply stream_of_iff in E; [|apply T]. destruct E as (a & E & N). destruct (sh m a) as [s0|] eqn:E0.
  - left. rewrite (t_old _ _ T _ _ E0) in E. injection E as ->. apply stream_of_iff; eauto.
  - right. destruct (t_new _ _ T _ _ E0 E) as (A & B & C). rewrite N in B. split; auto. destruct (stream_of m n) as [t|] eqn:Et; auto.
    apply stream_of_iff in Et; auto. destruct Et as (b & Et & Nt). pose proof (t_old _ _ T _ _ Et) as Et'.
    destruct (one_addr m' a b s t (t_wf _ _ T) E Et') as [-> _]; congruence.
Qed.
Lemma stage2_stream' m m' n s : wf m -> stage2_done m m' -> stream_of m n = Some s -> stream_of m' n = Some s.
Proof. intros W T E. apply stream_of_iff in E; auto. destruct E as (a & E & N). apply stream_of_iff; [apply T|]. exists a. split; auto. apply (t_old _ _ T _ _ E). Qed.
Lemma stage2_conn m m' n o : wf m -> stage2_done m m' -> (connected m' n o <-> connected m n o \/ (dflt m' = Some o /\ has_stream m' n)).
Proof.
  intros W T. split.
  - intros (s & E & I). destruct (stage2_stream _ _ _ _ W T E) as [E1|(E1 & E2 & E3 & E4)]; [left; exists s; auto|]. right. split; [auto|exists s; exact E].
  - intros [(s & E & I)|(D & s & E)]; [exists s; split; auto; exact (stage2_stream' _ _ _ _ W T E)|]. exists s. split; auto. apply stream_of_iff in E; [|apply T]. destruct E as (a & E & _). apply (t_dfl _ _ T _ _ _ D E).
Qed.
Lemma stage3_ok m : wf m -> inited m = true -> dfl_all m -> (ocfg m = [] -> dflt m = None -> smap m = []) ->
  exists m', bind (stage2 m) drop_default = Ok m' /\ stage3_done m m'.
Proof.
  intros W IN D0 FR. destruct (stage2_ok m W IN D0 FR) as (m2 & E2 & T). rewrite E2. cbn [bind].
  destruct (drop_ok m2 (t_wf _ _ T)) as (m3 & E3 & W3 & H). exists m3. split; auto. rewrite (t_ocfg _ _ T) in H.
  assert (HAS : forall n, has_stream m2 n <-> has_stream m n \/ In n (map fst (sfac m))).
  { intros n. split.
    - intros [s E]. destruct (stage2_stream _ _ _ _ W T E) as [E1|(E1 & _ & E3' & _)]; [left; exists s; auto|auto].
    - intros [[s E]|H1]; [exists s; exact (stage2_stream' _ _ _ _ W T E)|]. exact (t_all _ _ T _ H1). }
  assert (LEV : forall n s, stream_of m2 n = Some s -> s_level s = match stream_of m n with Some s0 => s_level s0 | None => Info end).
  { intros n s E. destruct (stage2_stream _ _ _ _ W T E) as [E1|(E1 & E4 & _)]; rewrite E1; auto. }
  destruct (ocfg m) as [|e l] eqn:OC.
  - subst m3. pose proof (proj2 (t_d1 _ _ T) (or_introl OC)) as DS. split; try apply T; auto.
    + tauto.
    + intros d _ H. apply (t_d2 _ _ T _ H).
    + intros d H1 H2. destruct (w_d _ W3 _ H1) as [N _]. destruct (oh m2 d) as [x|] eqn:X; [|congruence]. f_equal. apply (t_d3 _ _ T _ _ H1 H2 X).
    + intros o H _. apply (t_oh _ _ T _ H).
    + intros n o. rewrite (stage2_conn _ _ _ _ W T). split; [|tauto]. intros [H|H]; auto. destruct (dflt m) as [d|] eqn:D; [|left; split; [auto|discriminate]].
      destruct (Nat.eq_dec d o) as [->|N]; [|left; split; [auto|congruence]]. right. split; [apply (t_d2 _ _ T _ D)|]. destruct H as (s & E & _). exists s. exact (stage2_stream' _ _ _ _ W T E).
  - destruct (dflt m2) as [d|] eqn:D2.
    + destruct H as (S3 & H1 & H2).
      assert (D : dflt m = Some d).
      { destruct (dflt m) as [d'|] eqn:D; [pose proof (t_d2 _ _ T _ D); congruence|]. exfalso. assert (X : dflt m2 <> None) by congruence. apply (t_d1 _ _ T) in X. rewrite OC in X. destruct X as [X|X]; [discriminate X|congruence]. }
      assert (DN : dflt m3 = None) by (rewrite S3; reflexivity).
      assert (ST : forall n, stream_of m3 n = option_map (rem1 d) (stream_of m2 n)) by (apply map_fun_stream; auto; apply T).
      assert (HS : forall n, has_stream m3 n <-> has_stream m2 n).
      { intros n. unfold has_stream. rewrite ST. destruct (stream_of m2 n) as [t|]; cbn; split; intros [s E]; try discriminate E; eauto. }
      split; auto.
      * intros d' a s H. congruence.
      * rewrite S3. cbn. apply T.
      * rewrite S3. cbn. apply T.
      * rewrite S3. cbn. apply T.
      * rewrite S3. cbn. apply T.
      * rewrite S3. cbn. apply T.
      * split; congruence.
      * congruence.
      * intros d' H. congruence.
      * intros o H [H'|H']; [|congruence]. rewrite H2. destruct (Nat.eqb_spec o d) as [->|N]; [congruence|]. apply (t_oh _ _ T _ H).
      * intros n. rewrite HS. apply HAS.
      * intros n o. transitivity (connected m2 n o /\ dflt m2 <> Some o).
        { unfold connected. rewrite ST. split.
          - intros (s & E & I). destruct (stream_of m2 n) as [t|]; [|discriminate E]. injection E as <-. apply rem1_in in I. split; [exists t; tauto|]. rewrite D2. intros [= <-]. tauto.
          - intros [(s & E & I) X]. rewrite E. exists (rem1 d s). split; auto. apply rem1_in. split; auto. rewrite D2 in X. congruence. }
        rewrite (stage2_conn _ _ _ _ W T), D2, D, DN. split; [intros [[H|[H H']] X]; [left; auto|congruence]|]. intros [H|[H _]]; [tauto|discriminate H].
      * intros n s E. rewrite ST in E. destruct (stream_of m2 n) as [t|] eqn:Et; [|discriminate E]. injection E as <-. cbn. apply LEV, Et.
      * intros n. rewrite S3. cbn. apply T.
      * intros n a. rewrite S3. cbn. apply T.
      * intros n. rewrite S3. cbn. apply T.
    + subst m3. assert (D : dflt m = None). { destruct (dflt m) as [d|] eqn:D; auto. pose proof (t_d2 _ _ T _ D). congruence. }
      split; try apply T; auto.
      * split; congruence.
      * intros d H. congruence.
      * intros d H. congruence.
      * intros o H _. apply (t_oh _ _ T _ H).
      * intros n o. rewrite (stage2_conn _ _ _ _ W T), D. split; [intros [H|H]; auto; left; split; auto; discriminate|tauto].
Qed.
