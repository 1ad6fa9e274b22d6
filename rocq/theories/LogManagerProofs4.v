(* Proofs for C51: initialize, setLogLevel, shutdown *)
From Verif Require Import Conc Text SMap LogTextModel LogTextSpec LogManagerModel LogManagerSpec LogManagerProofs LogManagerProofs2 LogManagerProofs3.
From Verif Require LogTextProofs.
From Coq Require FinFun.

Lemma dec_inj (i j : nat) : dec (Z.of_nat i) = dec (Z.of_nat j) -> i = j.
Proof.
  intros E. destruct (LogTextProofs.dec_numeral (Z.of_nat i)) as (d & E1 & _ & _ & V1 & _), (LogTextProofs.dec_numeral (Z.of_nat j)) as (d' & E2 & _ & _ & V2 & _).
  assert (N : forall k : nat, (Z.of_nat k <? 0)%Z = false) by (intros; apply Z.ltb_ge; lia). rewrite N in E1, E2. cbn in E1, E2. assert (number d = number d') by congruence. lia.
Qed.
Lemma dec_nonempty i : dec (Z.of_nat i) <> [].
Proof. destruct (LogTextProofs.dec_numeral (Z.of_nat i)) as (d & E1 & N & _). rewrite E1. destruct (Z.of_nat i <? 0)%Z; [discriminate|exact N]. Qed.
Lemma quick_inj i j : quick_name i = quick_name j -> i = j.
Proof.
  unfold quick_name. destruct i as [|i], j as [|j]; auto; intros E.
  - exfalso. rewrite <- (app_nil_r $"QuickDebug") in E at 1. apply app_inv_head in E. symmetry in E. exact (dec_nonempty _ E).
  - exfalso. rewrite <- (app_nil_r $"QuickDebug") in E. apply app_inv_head in E. exact (dec_nonempty _ E).
  - apply app_inv_head in E. apply dec_inj in E. exact E.
Qed.
Lemma unused_spec m f : sorted (omap m) -> forall i, (forall j, j < i -> map_get (omap m) (quick_name j) <> None) -> length (omap m) <= i + f ->
  exists k, unused f m i = quick_name k /\ map_get (omap m) (quick_name k) = None /\ forall j, j < k -> map_get (omap m) (quick_name j) <> None.
Proof.
  intros SO. induction f as [|f IH]; intros i H L; cbn [unused]; fold (quick_name i); destruct (map_get (omap m) (quick_name i)) as [o|] eqn:E.
  - exfalso. assert (ND : NoDup (map quick_name (seq 0 (S i)))). { apply FinFun.Injective_map_NoDup; [intros a b; apply quick_inj|apply seq_NoDup]. }
    assert (IN : incl (map quick_name (seq 0 (S i))) (map fst (omap m))).
    { intros n I. apply in_map_iff in I. destruct I as (j & <- & I). apply in_seq in I. assert (G : map_get (omap m) (quick_name j) <> None). { destruct (Nat.eq_dec j i) as [->|N]; [congruence|apply H; lia]. }
      destruct (map_get (omap m) (quick_name j)) as [v|] eqn:G'; [|congruence]. apply map_get_in in G'; auto. apply keys_in. eauto. }
    apply NoDup_incl_length in IN; auto. rewrite !map_length, seq_length in IN. lia.
  - eauto.
  - apply IH; [|lia]. intros j J. destruct (Nat.eq_dec j i) as [->|N]; [congruence|apply H; lia].
  - eauto.
Qed.

Record started (op : opts) (q : option str) (m m' : mgr) : Prop := mkSt {
  r_wf : wf m'; r_dfl : dfl_all m';
  r_inited : inited m' = inited m; r_ocfg : ocfg m' = ocfg m; r_scfg : scfg m' = scfg m; r_sfac : sfac m' = sfac m; r_ofac : ofac m' = ofac m; r_dflt : dflt m' = dflt m;
  r_q : match q with
        | None => quick_debug op = None
        | Some k => quick_debug op <> None /\ exists i, k = quick_name i /\ ~ has_output m k /\ forall j, j < i -> has_output m (quick_name j)
        end;
  r_omap : forall k o, In (k, o) (omap m') <-> In (k, o) (omap m) \/ (q = Some k /\ o = on m);
  r_old : forall o x, oh m o = Some x -> oh m' o = Some (run1 true x);
  r_new : forall k, q = Some k -> oh m' (on m) = Some (mkO k Trace true);
  r_stream : forall n, match stream_of m n with
    | None => stream_of m' n = None
    | Some s => exists s', stream_of m' n = Some s' /\ s_level s' = (if str_eqb n $"QuickDebug" then match q with Some _ => Trace | None => s_level s end else s_level s) /\
                forall o, In o (s_outs s') <-> In o (s_outs s) \/ (n = $"QuickDebug" /\ q <> None /\ o = on m)
    end
}.
Lemma start_ok m : wf m -> exists m', bind (match dflt m with Some d => run_output true m d | None => Ok m end) (fun m3 => foldM (fun m x => run_output true m (snd x)) (omap m3) m3) = Ok m' /\
  wf m' /\ frame m m' /\ sh m' = sh m /\ forall o, oh m' o = option_map (run1 true) (oh m o).
Proof.
  intros W.
  assert (H : exists m1, match dflt m with Some d => run_output true m d | None => Ok m end = Ok m1 /\ wf m1 /\ frame m m1 /\ sh m1 = sh m /\
    forall o, oh m1 o = if match dflt m with Some d => Nat.eqb o d | None => false end then option_map (run1 true) (oh m o) else oh m o).
  { destruct (dflt m) as [d|] eqn:D; [|exists m; conj; auto; apply frame_refl]. destruct (run_ok true m d W (or_introl D)) as (x & E & -> & W1). eexists. split; [reflexivity|].
    conj; auto; [apply frame_output|]. intros o. cbn. unfold upd. destruct (Nat.eqb_spec o d) as [->|]; auto. rewrite E. reflexivity. }
  destruct H as (m1 & -> & W1 & F1 & S1 & O1). cbn [bind].
  destruct (loop_o (fun m x => run_output true m (snd x)) (run1 true) m1 W1) as (m2 & E2 & W2 & F2 & S2 & O2).
  - reflexivity.
  - reflexivity.
  - intros m2 y z H1 H2 H3 H4. unfold run_output, output. rewrite H4. reflexivity.
  - exists m2. split; auto. split; auto. split; [eapply frame_trans; eauto|]. split; [congruence|]. intros o. destruct (O2 o) as [O3 O4].
    destruct F1 as (A1&A2&A3&A4&A5&A6&A7&A8&A9&A0). rewrite A7 in O3, O4. destruct (oh m o) as [x|] eqn:E.
    + destruct (w_o' _ W o) as [D|I]; [congruence| |].
      * destruct (in_dec Nat.eq_dec o (map snd (omap m))) as [J|J].
        -- exfalso. apply in_map_iff in J. destruct J as ([k p] & <- & J). apply (proj2 (w_d _ W _ D) _ J).
        -- rewrite O4 by (intros [k K]; apply J; apply in_map_iff; exists (k, o); auto). rewrite O1, D, Nat.eqb_refl, E. reflexivity.
      * rewrite (O3 I), O1. rewrite E. destruct (match dflt m with Some d => o =? d | None => false end); reflexivity.
    + destruct (in_dec Nat.eq_dec o (map snd (omap m))) as [J|J].
      -- exfalso. apply in_map_iff in J. destruct J as ([k p] & <- & J). destruct (w_o _ W _ _ J) as (x & Ex & _). cbn in E. congruence.
      -- rewrite O4 by (intros [k K]; apply J; apply in_map_iff; exists (k, o); auto). rewrite O1, E. destruct (match dflt m with Some d => o =? d | None => false end); reflexivity.
Qed.
Lemma quick_ok op m : wf m -> dfl_all m -> (exists a, In ($"QuickDebug", Some a) (sfac m)) ->
  exists m' q, bind (quickdebug op m) (fun m2 => bind (match dflt m2 with Some d => run_output true m2 d | None => Ok m2 end) (fun m3 => foldM (fun m x => run_output true m (snd x)) (omap m3) m3)) = Ok m' /\ started op q m m'.
Proof.
  intros W DA [a I]. unfold quickdebug. destruct (quick_debug op) as [f|] eqn:Q.
  - destruct (unused_spec m (length (omap m)) (w_omap _ W) 0 ltac:(lia) ltac:(lia)) as (i & -> & N & L). set (k := quick_name i) in *. cbn [new_output].
    pose proof (wf_new_output m k Trace W N) as W1. cbn [new_output snd] in W1.
    change (omap (set_on (set_oh m (upd (oh m) (on m) (Some (mkO k Trace false)))) (S (on m)))) with (omap m). set (m2 := set_omap _ _) in *.
    assert (MG : map_get (sfac m2) $"QuickDebug" = Some (Some a)) by (apply map_get_in; [apply (w_sfac _ W)|exact I]). rewrite MG.
    pose proof (w_f _ W _ _ I) as Ia. assert (OW : owned m2 (on m)). { right. exists k. apply map_put_in; [apply (w_omap _ W)|]. auto. }
    destruct (add_ok m2 a (on m) $"QuickDebug" W1 Ia OW) as (s & Es & -> & W3). cbn [bind]. fold (add1 (on m) s) in *. set (m3 := put_stream m2 a (add1 (on m) s)) in *.
    destruct (slevel_ok m3 a Trace $"QuickDebug" W3 Ia) as (s' & Es' & -> & W4). cbn [bind]. assert (s' = add1 (on m) s) as ->. { cbn in Es'. rewrite upd_same in Es'. congruence. }
    set (m4 := put_stream m3 a _) in *. destruct (start_ok m4 W4) as (m5 & -> & W5 & F5 & S5 & O5). exists m5, (Some k). split; auto.
    destruct F5 as (B1&B2&B3&B4&B5&B6&B7&B8&B9&B0). cbn in B1,B2,B3,B4,B5,B6,B8,B9,B0. cbn in Es.
    assert (SN : s_name s = $"QuickDebug"). { destruct (w_s _ W _ _ Ia) as (t & Et & Nt). congruence. }
    assert (PI : forall k' o, In (k', o) (omap m5) <-> In (k', o) (omap m) \/ (Some k = Some k' /\ o = on m)).
    { intros k' o. rewrite B7. cbn. rewrite map_put_in by apply (w_omap _ W). split; [intros [[-> ->]|[_ H]]; auto|]. intros [H|[[= ->] ->]]; auto. right. split; auto. intros ->. apply (map_get_none _ _ (w_omap _ W)) with (v := o) in N. auto. }
    assert (SH : forall b, sh m5 b = if b =? a then Some (mkS (s_name s) Trace (s_outs (add1 (on m) s))) else sh m b).
    { intros b. rewrite S5. unfold m4, m3, m2. cbn. unfold upd. destruct (b =? a); reflexivity. }
    assert (HON : forall x, ~ has_output m x <-> map_get (omap m) x = None).
    { intros x. rewrite has_output_iff by auto. rewrite map_get_none by apply (w_omap _ W). unfold hasO. split; [intros H v J; apply H; eauto|intros H [v J]; exact (H _ J)]. }
    split; auto.
    + intros d b t H1 H2. rewrite B8 in H1. rewrite SH in H2. destruct (b =? a) eqn:Eb; [|apply (DA _ _ _ H1 H2)]. injection H2 as <-. cbn. apply add1_in. right. apply (DA _ _ _ H1 Es).
    + rewrite Q. split; [discriminate|]. exists i. split; auto. split; [apply HON; exact N|]. intros j J. specialize (L j J). destruct (map_get (omap m) (quick_name j)) as [o|] eqn:Ej; [|congruence].
      apply has_output_iff; auto. exists o. apply map_get_in; auto. apply (w_omap _ W).
    + intros o x E. rewrite O5. cbn. up o (on m); [rewrite (w_on _ W) in E by lia; discriminate E|]. rewrite E. reflexivity.
    + intros k' [= <-]. rewrite O5. cbn. rewrite upd_same. reflexivity.
    + intros n. destruct (stream_of m n) as [t|] eqn:Et.
      * apply stream_of_iff in Et; auto. destruct Et as (b & Et & Nt). destruct (Nat.eqb_spec b a) as [->|Nb].
        -- assert (t = s) by congruence. subst t. assert (n = $"QuickDebug") by congruence. subst n. exists (mkS (s_name s) Trace (s_outs (add1 (on m) s))). split; [|split].
           ++ apply stream_of_iff; auto. exists a. rewrite SH, Nat.eqb_refl. auto.
           ++ rewrite SN, (proj2 (str_eqb_eq _ _) eq_refl). reflexivity.
           ++ intros o. cbn [s_outs]. rewrite add1_in. split; [intros [->|H1]; auto; right; split; auto; split; auto; discriminate|]. intros [H1|(_ & _ & ->)]; auto.
        -- exists t. assert (NQ : n <> $"QuickDebug"). { intros ->. apply Nb. pose proof (w_s' _ W _ _ Et) as J. rewrite Nt in J. apply (unique_key _ _ _ _ (w_smap _ W) J Ia). }
           split; [|split].
           ++ apply stream_of_iff; auto. exists b. rewrite SH. destruct (Nat.eqb_spec b a); [congruence|]. auto.
           ++ destruct (str_eqb n $"QuickDebug") eqn:X; auto. apply str_eqb_eq in X. congruence.
           ++ intros o. split; auto. intros [H|(H & _)]; [auto|congruence].
      * destruct (stream_of m5 n) as [t|] eqn:Et5; auto. exfalso. apply stream_of_iff in Et5; auto. destruct Et5 as (b & Et5 & Nt). rewrite SH in Et5. assert (X : exists t', sh m b = Some t' /\ s_name t' = n).
        { destruct (b =? a) eqn:Eb; [|eauto]. apply Nat.eqb_eq in Eb. rewrite Eb. exists s. split; [auto|]. injection Et5 as <-. cbn in Nt. auto. }
        destruct X as (t' & X1 & X2). assert (stream_of m n = Some t') by (apply stream_of_iff; eauto). congruence.
  - cbn [bind]. destruct (start_ok m W) as (m5 & -> & W5 & F5 & S5 & O5). exists m5, None. split; auto. destruct F5 as (B1&B2&B3&B4&B5&B6&B7&B8&B9&B0). split; auto.
    + intros d b t H1 H2. rewrite B8 in H1. rewrite S5 in H2. apply (DA _ _ _ H1 H2).
    + intros k o. rewrite B7. split; auto. intros [H|[H _]]; [auto|discriminate H].
    + intros o x E. rewrite O5, E. reflexivity.
    + discriminate.
    + intros n. unfold stream_of. rewrite B6, S5. destruct (map_get (smap m) n) as [b|]; auto. destruct (sh m b) as [s|]; auto. exists s. conj; auto.
      * destruct (str_eqb n $"QuickDebug"); reflexivity.
      * intros o. split; auto. intros [H|(_ & H & _)]; congruence.
Qed.
