(* Proofs for C51: all programs *)
From Verif Require Import Conc Text SMap LogTextModel LogManagerModel LogManagerSpec LogManagerProofs LogManagerProofs2 LogManagerProofs3 LogManagerProofs4.

Record inv (m : mgr) : Prop := mkInv {
  i_wf : wf m; i_dfl : dfl_all m;
  i_fresh : inited m = false -> ocfg m = [] /\ scfg m = [] /\ smap m = [] /\ omap m = [] /\ dflt m = None;
  i_dn : inited m = true -> ocfg m = [] -> dflt m <> None;
  i_qd : In $"QuickDebug" (map fst (sfac m));
  i_q : inited m = true -> exists a, In ($"QuickDebug", Some a) (sfac m)
}.
Lemma sorted_read_output l : forall c, sorted c -> sorted (fold_left read_output l c).
Proof.
  induction l as [|kv l IH]; intros c S; cbn; auto. apply IH. unfold read_output. destruct (groups _ _) as [[e v]|]; auto.
  destruct (str_eqb v _); [apply map_put_sorted, S|]. destruct (str_eqb v _); [apply map_put_sorted, S|]. destruct (str_eqb v _); [apply map_put_sorted, S|].
  destruct (str_eqb _ _); [apply map_put_sorted, S|exact S].
Qed.
Lemma sorted_read_stream l : forall c, sorted c -> sorted (fold_left read_stream l c).
Proof.
  induction l as [|kv l IH]; intros c S; cbn; auto. apply IH. unfold read_stream. destruct (groups _ _) as [[e v]|]; auto.
  destruct (str_eqb v _); [apply map_put_sorted, S|]. destruct (str_eqb v _); [apply map_put_sorted, S|exact S].
Qed.
Lemma wf_read m config : wf m -> wf (read_config (set_inited m true) config).
Proof. intros W. destruct W. split; cbn; auto; [apply sorted_read_output, w_ocfg|apply sorted_read_stream, w_scfg]. Qed.
(* the manager that configure sees in initialize *)
Definition loaded (config : list (str * str)) (m : mgr) : mgr := if inited m then m else read_config (set_inited m true) config.
Lemma loaded_ok config m : inv m -> wf (loaded config m) /\ inited (loaded config m) = true /\ dfl_all (loaded config m) /\ (ocfg (loaded config m) = [] -> dflt (loaded config m) = None -> smap (loaded config m) = []) /\
  (has_stream (loaded config m) $"QuickDebug" -> exists a, In ($"QuickDebug", Some a) (sfac (loaded config m))) /\ sfac (loaded config m) = sfac m.
Proof.
  intros I. unfold loaded. destruct (inited m) eqn:E.
  - split; [apply I|]. split; auto. split; [apply I|]. split; [intros H1 H2; exfalso; exact (i_dn _ I E H1 H2)|]. split; auto. intros _. apply (i_q _ I E).
  - destruct (i_fresh _ I E) as (A1 & A2 & A3 & A4 & A5). split; [apply wf_read, I|]. split; auto. split; [|split; [|split; [|auto]]].
    + intros d a s H. cbn in H. congruence.
    + intros _ _. exact A3.
    + intros [s H]. unfold stream_of in H. cbn in H. rewrite A3 in H. discriminate H.
Qed.
Lemma initialize_ok config op m : inv m -> exists m1 m' q, configure op (loaded config m) = Ok m1 /\ configured op (loaded config m) m1 /\ initialize config op m = Ok m' /\ started op q m1 m' /\ inv m'.
Proof.
  intros I. destruct (loaded_ok config m I) as (W & IN & D & FR & QD & SF).
  destruct (configure_ok op _ W IN D FR) as (m1 & E1 & C).
  assert (Q1 : exists a, In ($"QuickDebug", Some a) (sfac m1)).
  { destruct (f_inst _ _ _ C $"QuickDebug") as [H|H]; auto; [rewrite SF; apply (i_qd _ I)|]. destruct (QD H) as [a Ha]. exists a. apply (f_keep _ _ _ C _ _ Ha). }
  destruct (quick_ok op m1 (f_wf _ _ _ C) (f_dfl _ _ _ C) Q1) as (m' & q & E2 & S). exists m1, m', q. split; auto. split; auto. split.
  - unfold initialize. fold (loaded config m). rewrite E1. cbn [bind]. exact E2.
  - split; auto. assert (IN' : inited m' = true) by (rewrite (r_inited _ _ _ _ S); apply C). split.
    + apply S.
    + apply S.
    + congruence.
    + intros _ H. rewrite (r_ocfg _ _ _ _ S) in H. rewrite (r_dflt _ _ _ _ S). apply (f_d _ _ _ C). left. apply (f_ocfg _ _ _ C). exact H.
    + rewrite (r_sfac _ _ _ _ S). apply (f_fac _ _ _ C). rewrite SF. apply (i_qd _ I).
    + intros _. rewrite (r_sfac _ _ _ _ S). exact Q1.
Qed.
Lemma configure_inv op m : inv m -> inited m = true -> exists m', configure op m = Ok m' /\ configured op m m' /\ inv m'.
Proof.
  intros I IN. destruct (configure_ok op m (i_wf _ I) IN (i_dfl _ I)) as (m' & E & C). { intros H1 H2. destruct (i_dn _ I IN H1 H2). }
  exists m'. split; auto. split; auto. split; try apply C.
  - rewrite (f_inited _ _ _ C). discriminate.
  - intros _ H. apply (f_d _ _ _ C). left. apply (f_ocfg _ _ _ C). exact H.
  - apply (i_qd _ I).
  - intros _. destruct (i_q _ I IN) as [a Ha]. exists a. apply (f_keep _ _ _ C _ _ Ha).
Qed.
Lemma configure_early op m : inv m -> inited m = false -> configure op m = Throw.
Proof. intros I E. destruct (i_fresh _ I E) as (A1 & _ & _ & _ & A5). unfold configure. rewrite A1, A5, E. reflexivity. Qed.

Lemma setlevel_ok m l : wf m -> exists m', setLogLevel l m = Ok m' /\ wf m' /\ frame m m' /\ (forall a, sh m' a = option_map (lev1 l) (sh m a)) /\
  forall o, ((exists k, In (k, o) (omap m)) -> oh m' o = option_map (olev1 l) (oh m o)) /\ (~ (exists k, In (k, o) (omap m)) -> oh m' o = oh m o).
Proof.
  intros W. unfold setLogLevel. destruct (loop_all (fun m x => set_stream_level l m (snd x)) (lev1 l) m W) as (m1 & -> & W1 & F1 & O1 & S1).
  - reflexivity.
  - auto.
  - reflexivity.
  - intros m1 x s H1 H2 H3 H4. unfold set_stream_level, stream. rewrite H4. apply puts_put.
  - cbn [bind]. destruct (loop_o (fun m x => set_output_level l m (snd x)) (olev1 l) m1 W1) as (m2 & -> & W2 & F2 & S2 & O2).
    + reflexivity.
    + reflexivity.
    + intros m2 y z H1 H2 H3 H4. unfold set_output_level, output. rewrite H4. reflexivity.
    + exists m2. split; auto. split; auto. split; [eapply frame_trans; eauto|]. split; [intros a; rewrite S2; apply S1|].
      intros o. destruct F1 as (A1&A2&A3&A4&A5&A6&A7&A8&A9&A0). specialize (O2 o). rewrite A7, O1 in O2. exact O2.
Qed.
Lemma setlevel_inv m l : inv m -> exists m', setLogLevel l m = Ok m' /\ inv m'.
Proof.
  intros I. destruct (setlevel_ok m l (i_wf _ I)) as (m' & E & W & (A1&A2&A3&A4&A5&A6&A7&A8&A9&A0) & S & O). exists m'. split; auto. destruct I. split; auto.
  - intros d a s H1 H2. rewrite S in H2. destruct (sh m a) as [t|] eqn:Et; [|discriminate H2]. injection H2 as <-. rewrite A8 in H1. apply (i_dfl0 _ _ _ H1 Et).
  - rewrite A1, A2, A3, A6, A7, A8. auto.
  - rewrite A1, A2, A8. auto.
  - rewrite A4. auto.
  - rewrite A1, A4. auto.
Qed.
Lemma log_ok m a l s : wf m -> sh m a = Some s -> exists r, log m a l = Ok r /\
  forall o, In o r <-> In o (s_outs s) /\ (rank (s_level s) <= rank l)%Z /\ exists x, oh m o = Some x /\ (rank (o_level x) <= rank l)%Z.
Proof.
  intros W E. unfold log, stream. rewrite E. cbn [bind]. destruct (Z.leb_spec (rank (s_level s)) (rank l)) as [H|H].
  - destruct (foldM_done (fun acc o => bind (output m o) (fun x => Ok (if (rank (o_level x) <=? rank l)%Z then acc ++ [o] else acc)))
      (fun d r => forall o, In o r <-> In o d /\ exists x, oh m o = Some x /\ (rank (o_level x) <= rank l)%Z) (s_outs s)) with (b := @nil addr) as (r & E1 & R).
    + intros d o rest acc D P. assert (I : In o (s_outs s)) by (rewrite D; apply in_or_app; right; left; reflexivity).
      destruct (owned_obj _ _ W (w_outs _ W _ _ _ E I)) as (x & Ex). unfold output. rewrite Ex. cbn [bind]. eexists. split; [reflexivity|].
      intros p. rewrite in_snoc. destruct (Z.leb_spec (rank (o_level x)) (rank l)) as [L|L].
      * rewrite in_snoc, P. split; [intros [[H1 H2]| ->]; [tauto|]; split; [auto|exists x; auto]|]. intros [[H1| ->] H2]; auto.
      * rewrite P. split; [tauto|]. intros [[H1| ->] H2]; auto. destruct H2 as (y & Ey & Ly). exfalso. rewrite Ex in Ey. injection Ey as <-. lia.
    + intros o. cbn. tauto.
    + exists r. split; auto. intros o. rewrite R. tauto.
  - exists []. split; auto. intros o. cbn. split; [tauto|]. intros (_ & X & _). lia.
Qed.
Definition throws (m : mgr) (c : call) : bool := match c with CConfigure | CNewStream _ => negb (inited m) | _ => false end.
Lemma new_inv m n : inv m -> inited m = true -> map_get (smap m) n = None -> exists m', registerLogStream (snd (new_stream m n)) (sn m) = Ok m' /\ inv m' /\
  m' = set_sn (set_smap (set_sh m (sh m')) (map_put (smap m) n (sn m))) (S (sn m)) /\ forall a, sh m' a = if Nat.eqb a (sn m) then Some (mkS n Info (outs0 m)) else sh m a.
Proof.
  intros I IN M. destruct (register_new m n (i_wf _ I) M) as (m' & E & W & S & H). exists m'. split; auto. split; auto. destruct I. split; auto.
  - intros d a s H1 H2. assert (dflt m = Some d) by (rewrite S in H1; exact H1). rewrite H in H2. destruct (a =? sn m); [|eapply i_dfl0; eauto]. injection H2 as <-. cbn. unfold outs0. rewrite H0. left. reflexivity.
  - rewrite S. cbn. congruence.
  - rewrite S. cbn. auto.
  - rewrite S. cbn. auto.
  - rewrite S. cbn. auto.
Qed.
Lemma call_inv config op m c : inv m -> (throws m c = true /\ do_call config op m c = Throw) \/ exists m', throws m c = false /\ do_call config op m c = Ok m' /\ inv m'.
Proof.
  intros I. destruct c; cbn [do_call throws].
  - right. destruct (map_get (sfac m) n) eqn:E1; [eauto|]. destruct (map_get (smap m) n) eqn:E2; [eauto|]. eexists. split; [reflexivity|]. split; [reflexivity|].
    pose proof (proj1 (map_get_none _ _ (w_sfac _ (i_wf _ I))) E1) as N. pose proof (w_sfac _ (i_wf _ I)) as SF. destruct I. split; auto.
    + apply wf_set_sfac; auto; [apply map_put_sorted, SF|]. intros k a H. apply map_put_in in H; auto. destruct H as [[_ H]|[_ H]]; [discriminate H|]. apply (w_f _ i_wf0 _ _ H).
    + cbn. rewrite keys_in in *. destruct i_qd0 as [v V]. exists v. apply map_put_in; auto. right. split; auto. intros <-. exact (N _ V).
    + cbn. intros H. destruct (i_q0 H) as [a A]. exists a. apply map_put_in; auto. right. split; auto. intros <-. exact (N _ A).
  - right. eexists. split; [reflexivity|]. split; [reflexivity|]. destruct I. split; auto. destruct i_wf0. split; auto.
  - destruct (inited m) eqn:IN; [right|left; auto]. destruct (map_get (smap m) n) eqn:M; [eauto|]. cbn [new_stream]. destruct (new_inv m n I IN M) as (m' & E & I' & _). exists m'. auto.
  - right. destruct (initialize_ok config op m I) as (m1 & m' & q & _ & _ & E & _ & I'). eauto.
  - destruct (inited m) eqn:IN; [right|left; split; auto; apply configure_early; auto]. destruct (configure_inv op m I IN) as (m' & E & _ & I'). eauto.
  - right. destruct (setlevel_inv m l I) as (m' & E & I'). eauto.
  - right. destruct (map_get (smap m) n) as [a|] eqn:M; [|eauto]. apply map_get_in in M; [|apply (w_smap _ (i_wf _ I))]. destruct (w_s _ (i_wf _ I) _ _ M) as (s & E & _).
    destruct (log_ok m a l s (i_wf _ I) E) as (r & -> & _). exists m. auto.
Qed.
Lemma start_inv : inv start_mgr.
Proof.
  split.
  - assert (SF : sorted (sfac start_mgr)) by (apply map_put_sorted, map_put_sorted, map_put_sorted; constructor).
    split; auto; try exact sorted_nil.
    + intros n a [].
    + intros a s H. discriminate H.
    + intros k o [].
    + intros d H. discriminate H.
    + intros o H. destruct (H eq_refl).
    + intros a s o H. discriminate H.
    + intros n a [H|[H|[H|[]]]]; discriminate H.
  - intros d a s H. discriminate H.
  - intros _. repeat split.
  - discriminate.
  - right; right; left; reflexivity.
  - discriminate.
Qed.

Lemma calls_inv config op cs : do_calls config op cs <> UB /\ forall m, do_calls config op cs = Ok m -> inv m.
Proof.
  unfold do_calls. assert (G : forall m0, inv m0 -> foldM (do_call config op) cs m0 <> UB /\ forall m, foldM (do_call config op) cs m0 = Ok m -> inv m).
  { induction cs as [|c cs IH]; intros m0 I; cbn; [split; [discriminate|intros m [= <-]; exact I]|].
    destruct (call_inv config op m0 c I) as [[_ E]|(m1 & _ & E & I1)]; rewrite E; cbn; [split; discriminate|]. apply IH, I1. }
  apply G, start_inv.
Qed.

(* 420-461 *)
Record stopped (m m' : mgr) (gone : addr -> Prop) : Prop := mkStop {
  p_smap : smap m' = smap m; p_omap : omap m' = omap m; p_sn : sn m' = sn m; p_on : on m' = on m; p_sfac : sfac m' = sfac m; p_dflt : dflt m' = dflt m; p_inited : inited m' = inited m;
  p_s : forall a, sh m a = None <-> sh m' a = None;
  p_o : forall o, (gone o -> oh m' o = None) /\ (~ gone o -> oh m' o = oh m o)
}.
Lemma p_back m m' gone a s : stopped m m' gone -> sh m a = Some s -> exists s', sh m' a = Some s'.
Proof. intros P E. destruct (sh m' a) as [s'|] eqn:E'; [eauto|]. apply (p_s _ _ _ P) in E'. congruence. Qed.
Lemma stop_one m m1 gone o : (forall n a, In (n, a) (smap m) -> exists s, sh m a = Some s) -> stopped m m1 gone -> oh m o <> None -> ~ gone o -> exists m2, stop_output m1 o = Ok m2 /\ stopped m m2 (fun p => gone p \/ p = o).
Proof.
  intros W P NO NG. unfold stop_output, disconnect.
  destruct (foldM_inv (fun m x => removeOutputStream m (snd x) o) (fun m2 => stopped m1 m2 (fun _ => False)) (smap m1)) with (b := m1) as (m2 & -> & P2).
  - intros b [n a] I Pb. rewrite (p_smap _ _ _ P) in I. destruct (W _ _ I) as (s & E). destruct (p_back _ _ _ _ _ P E) as [s1 E1]. destruct (p_back _ _ _ _ _ Pb E1) as [s2 E2].
    unfold removeOutputStream, stream. cbn [snd]. rewrite E2. eexists. split; [reflexivity|]. destruct Pb. split; auto. intros c. cbn. unfold upd. destruct (Nat.eqb_spec c a) as [->|]; auto. split; congruence.
  - split; auto; tauto.
  - cbn [bind]. assert (X : exists x, oh m2 o = Some x). { destruct (p_o _ _ _ P2 o) as [_ H]. rewrite H by tauto. destruct (p_o _ _ _ P o) as [_ H1]. rewrite H1 by auto. destruct (oh m o); [eauto|congruence]. }
    destruct X as [x X]. unfold run_output, output. rewrite X. cbn [bind]. unfold delete_output, output. cbn. rewrite upd_same. cbn. eexists. split; [reflexivity|].
    destruct P, P2. split; cbn; try congruence.
    + intros a. rewrite p_s0. apply p_s1.
    + intros p. unfold upd. destruct (Nat.eqb_spec p o) as [->|N]; [split; [auto|tauto]|]. destruct (p_o0 p) as [H1 H2], (p_o1 p) as [_ H3]. rewrite H3 by tauto. split; [intros [H|H]; [auto|congruence]|intros H; apply H2; tauto].
Qed.
Lemma stops m0 m : (forall n a, In (n, a) (smap m) -> exists s, sh m a = Some s) -> forall l : list (str * addr), (forall k o, In (k, o) l -> oh m o <> None) -> NoDup (map snd l) -> forall gone, stopped m m0 gone -> (forall k o, In (k, o) l -> ~ gone o) ->
  exists m', foldM (fun m x => stop_output m (snd x)) l m0 = Ok m' /\ stopped m m' (fun p => gone p \/ exists k, In (k, p) l).
Proof.
  intros W l. revert m0. induction l as [|[k o] l IH]; intros m0 HO ND gone P NG.
  - exists m0. split; auto. destruct P. split; auto. intros p. destruct (p_o0 p) as [A B]. split; [intros [H|[k []]]; auto|]. intros H. apply B. tauto.
  - cbn [foldM snd]. destruct (stop_one m m0 gone o W P) as (m1 & -> & P1); [apply (HO k); left; reflexivity|apply (NG k); left; reflexivity|]. cbn [bind].
    cbn [map snd] in ND. apply NoDup_cons_iff in ND. destruct ND as [N1 N2].
    destruct (IH m1 ltac:(intros; eapply HO; right; eauto) N2 _ P1) as (m2 & -> & P2).
    + intros k' p I [H|H]; [eapply NG; [right; exact I|exact H]|]. subst p. apply N1. apply in_map_iff. exists (k', o). auto.
    + exists m2. split; auto. destruct P2. split; auto. intros p. destruct (p_o0 p) as [A B]. split.
      * intros [H|[k' [[= _ ->]|H]]]; apply A; eauto.
      * intros H. apply B. intros [[G|G]|[k' G]]; apply H; [auto|right; exists k; left; congruence|right; exists k'; right; exact G].
Qed.
Lemma deletes m : forall (l : list (str * addr)) m0, sn m0 = sn m -> oh m0 = oh m -> (forall n a, In (n, a) l -> sh m0 a <> None) -> NoDup (map snd l) ->
  exists m', foldM (fun m x => delete_stream m (snd x)) l m0 = Ok m' /\ oh m' = oh m /\ sn m' = sn m /\ omap m' = omap m0 /\ dflt m' = dflt m0 /\ inited m' = inited m0 /\ sfac m' = sfac m0 /\ on m' = on m0 /\
  forall a, ((exists n, In (n, a) l) -> sh m' a = None) /\ (~ (exists n, In (n, a) l) -> sh m' a = sh m0 a).
Proof.
  induction l as [|[n a] l IH]; intros m0 E0 E1 H ND.
  - exists m0. conj; auto. intros a. split; [intros [n []]|auto].
  - cbn [foldM snd]. unfold delete_stream at 1, stream. destruct (sh m0 a) as [s|] eqn:E; [|exfalso; apply (H n a); [left; reflexivity|exact E]]. cbn [bind].
    cbn [map snd] in ND. apply NoDup_cons_iff in ND. destruct ND as [N1 N2].
    destruct (IH (set_sh m0 (upd (sh m0) a None)) E0 E1) as (m' & -> & A1 & A2 & A3 & A4 & A5 & A6 & A7 & A8); auto.
    + intros k b I. cbn. unfold upd. destruct (Nat.eqb_spec b a) as [->|N]; [|apply (H k); right; exact I]. exfalso. apply N1. apply in_map_iff. exists (k, a). auto.
    + exists m'. conj; auto. intros b. destruct (A8 b) as [B1 B2]. split.
      * intros [k [[= _ ->]|I]]; [|apply B1; eauto]. destruct (in_dec Nat.eq_dec b (map snd l)) as [J|J]; [contradiction|]. rewrite B2; [cbn; apply upd_same|]. intros [k' J']. apply J. apply in_map_iff. exists (k', b). auto.
      * intros I. rewrite B2 by (intros [k J]; apply I; exists k; right; exact J). cbn. unfold upd. destruct (Nat.eqb_spec b a) as [->|]; auto. exfalso. apply I. exists n. left. reflexivity.
Qed.
Lemma sorted_nodup {T} (l : list (str * T)) : sorted l -> (forall k k' v, In (k, v) l -> In (k', v) l -> k = k') -> NoDup (map snd l).
Proof.
  induction l as [|[k v] l IH]; intros S U; cbn; constructor.
  - intros I. apply in_map_iff in I. destruct I as ([k' v'] & E & I). cbn in E. subst v'. assert (k = k') by (eapply U; [left; reflexivity|right; exact I]). subst k'.
    inversion S as [|? ? ? S' HL]; subst. specialize (HL _ _ I). rewrite str_lt_irrefl in HL. discriminate HL.
  - apply IH; [inversion S; auto|]. intros a b w H1 H2. eapply U; right; eauto.
Qed.
Lemma shutdown_ok m : wf m -> exists m', shutdown m = Ok m' /\ (forall a, sh m' a = None) /\ (forall o, oh m' o = None) /\ smap m' = [] /\ omap m' = [] /\ dflt m' = None /\ inited m' = false /\ sfac m' = sfac m.
Proof.
  intros W.
  assert (W0' : forall n a, In (n, a) (smap m) -> exists s, sh m a = Some s) by (intros n a I; destruct (w_s _ W _ _ I) as (s & E & _); eauto).
  unfold shutdown. set (m0 := set_inited m false).
  assert (P0 : stopped m0 m0 (fun _ => False)) by (split; auto; tauto).
  assert (H : exists m1, match dflt m0 with Some d => bind (stop_output m0 d) (fun m1 => Ok (set_dflt m1 None)) | None => Ok m0 end = Ok m1 /\ stopped m0 (set_dflt m1 (dflt m)) (fun p => dflt m = Some p) /\ dflt m1 = None).
  { change (dflt m0) with (dflt m). destruct (dflt m) as [d|] eqn:D.
    - destruct (w_d _ W _ D) as [N _]. destruct (stop_one m0 m0 _ d W0' P0 N ltac:(tauto)) as (m1 & -> & P1). cbn [bind]. eexists. split; [reflexivity|]. split; auto. destruct P1. split; auto. intros p. destruct (p_o0 p) as [A B]. cbn. split; [intros [= ->]; auto|]. intros H. apply B. intros [[]| ->]. congruence.
    - exists m0. split; auto. split; auto. destruct P0. split; auto. intros p. cbn. split; [discriminate|auto]. }
  destruct H as (m1 & -> & P1 & D1). cbn [bind].
  assert (P1' : stopped (set_dflt m0 None) m1 (fun p => dflt m = Some p)). { destruct P1. split; auto. }
  assert (OM : omap m1 = omap m) by apply (p_omap _ _ _ P1'). rewrite OM.
  destruct (stops m1 (set_dflt m0 None)) with (l := omap m) (gone := fun p => dflt m = Some p) as (m2 & -> & P2).
  - exact W0'.
  - intros k o I. destruct (w_o _ W _ _ I) as (x & E & _). cbn. congruence.
  - apply sorted_nodup; [apply (w_omap _ W)|]. intros k k' o. apply (unique_output _ _ _ _ W).
  - exact P1'.
  - intros k o I D. exact (proj2 (w_d _ W _ D) _ I).
  - cbn [bind]. assert (SM : smap m2 = smap m) by apply (p_smap _ _ _ P2). change (smap (set_omap m2 [])) with (smap m2). rewrite SM.
    destruct (deletes m2 (smap m) (set_omap m2 [])) as (m3 & -> & A1 & A2 & A3 & A4 & A5 & A6 & A7 & A8); auto.
    + intros n a I. cbn. intros E. apply (p_s _ _ _ P2) in E. cbn in E. destruct (W0' _ _ I) as [s Es]. congruence.
    + apply sorted_nodup; [apply (w_smap _ W)|]. intros k k' a I I'. destruct (w_s _ W _ _ I) as (s & E & <-), (w_s _ W _ _ I') as (s' & E' & <-). congruence.
    + cbn [bind]. eexists. split; [reflexivity|]. cbn. rewrite A1, A3, A4, A5, A6. cbn. conj; auto.
      * intros a. destruct (A8 a) as [B1 B2]. destruct (in_dec Nat.eq_dec a (map snd (smap m))) as [J|J].
        -- apply B1. apply in_map_iff in J. destruct J as ([n b] & <- & J). eauto.
        -- rewrite B2; [|intros [n I]; apply J, in_map_iff; exists (n, a); auto]. cbn. apply (p_s _ _ _ P2). cbn. destruct (sh m a) as [s|] eqn:E; auto. exfalso. apply J, in_map_iff. exists (s_name s, a). split; auto. apply (w_s' _ W _ _ E).
      * intros o. destruct (p_o _ _ _ P2 o) as [B1 B2]. destruct (oh m o) as [x|] eqn:E.
        -- apply B1. destruct (w_o' _ W o) as [D|I]; [congruence| |]; auto.
        -- destruct (in_dec Nat.eq_dec o (map snd (omap m))) as [J|J].
           ++ apply B1. right. apply in_map_iff in J. destruct J as ([n b] & <- & J). eauto.
           ++ destruct (dflt m) as [d|] eqn:D; [destruct (Nat.eq_dec d o) as [->|N]; [apply B1; auto|]|].
              ** rewrite B2; [exact E|]. intros [[= X]|[k I]]; [auto|]. apply J, in_map_iff. exists (k, o). auto.
              ** rewrite B2; [exact E|]. intros [X|[k I]]; [discriminate X|]. apply J, in_map_iff. exists (k, o). auto.
      * rewrite (p_dflt _ _ _ P2). reflexivity.
      * rewrite (p_inited _ _ _ P2). reflexivity.
      * rewrite (p_sfac _ _ _ P2). reflexivity.
Qed.
