(* Proofs for the printed configuration *)
From Verif Require Import Conc Text SMap LogTextModel LogManagerModel LogManagerSpec LogManagerProofs LogManagerProofs2 LogManagerProofs3 LogManagerProofs4 LogManagerProofs5 LogManagerProofs6 LogManagerProofs7 LogPrintModel LogPrintSpec.

Lemma sorted_ascending {T} (l : list (str * T)) : sorted l -> ascending (map fst l).
Proof.
  intros S. induction S as [|k v r S IH L]; intros a x b y c E.
  - destruct a; discriminate E.
  - destruct a as [|a0 a]; cbn in E; injection E as E1 E2.
    + subst x. assert (In y (map fst r)) as I0. { rewrite E2. apply in_or_app. right. left. reflexivity. }
      apply in_map_iff in I0. destruct I0 as ([y' v'] & <- & I0). exact (L _ _ I0).
    + exact (IH a x b y c E2).
Qed.
Lemma foldM_text {A} (g : A -> str) (h : str -> A -> result str) l :
  (forall t x, In x l -> h t x = Ok (t ++ g x)) -> forall t, foldM h l t = Ok (t ++ concat (map g l)).
Proof.
  induction l as [|x l IH]; intros H t; cbn [foldM map concat]; [rewrite app_nil_r; reflexivity|].
  rewrite H by (left; reflexivity). cbn [bind]. rewrite IH by (intros; apply H; right; assumption). rewrite <- app_assoc. reflexivity.
Qed.
Lemma factories_sorted l : sorted (fold_right (fun n (f : list (str * unit)) => map_put f n tt) [] l) /\
  forall n, In n (map fst (fold_right (fun n (f : list (str * unit)) => map_put f n tt) [] l)) <-> In n l.
Proof.
  induction l as [|x l (S & I0)]; cbn [fold_right]; [split; [constructor|tauto]|]. split; [apply map_put_sorted, S|].
  intros n. split.
  - intros H. apply in_map_iff in H. destruct H as ([k u] & <- & H). apply map_put_in in H; [|exact S]. destruct H as [(-> & _)|(_ & H)]; [left; reflexivity|].
    right. apply I0. apply in_map_iff. exists (k, u). auto.
  - intros H. apply in_map_iff. exists (n, tt). split; [reflexivity|]. apply map_put_in; [exact S|].
    destruct (list_eq_dec ascii_dec n x) as [->|N]; [left; auto|]. right. split; [exact N|]. destruct H as [H|H]; [congruence|].
    apply I0, in_map_iff in H. destruct H as ([k []] & <- & H). exact H.
Qed.
Lemma factories_text l : forall t, fold_left (fun t (e : str * unit) => t ++ $"    " ++ fst e ++ endl) l t = t ++ concat (map factory_line (map fst l)).
Proof.
  induction l as [|e l IH]; intros t; cbn [fold_left map concat]; [rewrite app_nil_r; reflexivity|]. rewrite IH.
  unfold factory_line at 2. rewrite <- !app_assoc. reflexivity.
Qed.

(* what is printed of an output and of a stream *)
Definition out_entry (m : mgr) (o : addr) : str * level := match oh m o with Some x => (o_name x, o_level x) | None => ([], Mute) end.
Definition out_name (m : mgr) (o : addr) : str := fst (out_entry m o).
Definition str_entry (order : list addr -> list addr) (m : mgr) (e : str * addr) : str * list str :=
  (fst e, match sh m (snd e) with Some s => map (out_name m) (order (s_outs s)) | None => [] end).

Lemma print_output_ok m o x : oh m o = Some x -> print_output m o = Ok (output_line (out_entry m o)).
Proof. intros E. unfold print_output, output, out_entry, output_line. rewrite E. reflexivity. Qed.
Lemma print_stream_ok order m a s : wf m -> (forall l o, In o (order l) <-> In o l) -> sh m a = Some s ->
  print_stream order m a = Ok (concat (map (fun w => w ++ $" ") (map (out_name m) (order (s_outs s))))).
Proof.
  intros W P E. unfold print_stream, stream. rewrite E. cbn [bind]. rewrite map_map.
  rewrite (foldM_text (fun o => out_name m o ++ $" ")); [reflexivity|]. intros t o H. apply (P (s_outs s)) in H.
  destruct (owned_obj _ _ W (w_outs _ W _ _ _ E H)) as (x & Ex). unfold output, out_name, out_entry. rewrite Ex. reflexivity.
Qed.

Lemma print_ok order m : wf m -> (forall l o, In o (order l) <-> In o l) ->
  printConfiguration order m =
  Ok (report (map fst (factory_map m)) (match dflt m with Some o => [out_entry m o] | None => [] end ++ map (fun e => out_entry m (snd e)) (omap m))
        (map (str_entry order m) (smap m))).
Proof.
  intros W P. unfold printConfiguration. rewrite factories_text.
  set (t0 := ($"LoggingManager configuration:" ++ endl ++ $"  Log output stream factories:" ++ endl) ++ _).
  assert (D : forall t, (match dflt m with Some o => bind (print_output m o) (fun u => Ok (t ++ u)) | None => Ok t end) =
    Ok (t ++ concat (map output_line (match dflt m with Some o => [out_entry m o] | None => [] end)))).
  { intros t. destruct (dflt m) as [o|] eqn:E; [|cbn; rewrite app_nil_r; reflexivity]. destruct (w_d _ W _ E) as (N & _).
    destruct (oh m o) as [x|] eqn:Ex; [|destruct (N eq_refl)]. rewrite (print_output_ok _ _ _ Ex). cbn [bind map concat]. rewrite app_nil_r. reflexivity. }
  rewrite D. cbn [bind].
  rewrite (foldM_text (fun e : str * addr => output_line (out_entry m (snd e)))).
  2: { intros t (k, o) H. destruct (w_o _ W _ _ H) as (x & Ex & _). cbn [snd]. rewrite (print_output_ok _ _ _ Ex). reflexivity. }
  cbn [bind].
  rewrite (foldM_text (fun e : str * addr => stream_line (str_entry order m e))).
  2: { intros t (n, a) H. destruct (w_s _ W _ _ H) as (s & Es & _). cbn [fst snd]. rewrite (print_stream_ok order m a s W P Es). cbn [bind].
       unfold stream_line, str_entry. cbn [fst snd]. rewrite Es, <- !app_assoc. reflexivity. }
  unfold report, t0. rewrite map_app, concat_app, !map_map, <- !app_assoc. reflexivity.
Qed.
Lemma printed order m : wf m -> (forall l o, In o (order l) <-> In o l) ->
  exists fs d os ss, printConfiguration order m = Ok (report fs (d ++ os) ss) /\
  ascending fs /\ (forall n, In n fs <-> In n (ofac m)) /\
  match dflt m with Some o => exists x, oh m o = Some x /\ d = [(o_name x, o_level x)] | None => d = [] end /\
  ascending (map fst os) /\ (forall k l, In (k, l) os <-> exists x, output_of m k = Some x /\ o_level x = l) /\
  ascending (map fst ss) /\ (forall n, In n (map fst ss) <-> has_stream m n) /\
  forall n ws, In (n, ws) ss -> forall w, In w ws <-> exists o x, connected m n o /\ oh m o = Some x /\ o_name x = w.
Proof.
  intros W P. rewrite (print_ok order m W P). do 4 eexists. split; [reflexivity|].
  destruct (factories_sorted (ofac m)) as (F1 & F2). split; [apply sorted_ascending, F1|]. split; [exact F2|].
  split. { destruct (dflt m) as [o|] eqn:E; [|reflexivity]. destruct (w_d _ W _ E) as (N & _).
    destruct (oh m o) as [x|] eqn:Ex; [|destruct (N eq_refl)]. exists x. split; [reflexivity|]. unfold out_entry. rewrite Ex. reflexivity. }
  split.
  { replace (map fst (map (fun e : str * addr => out_entry m (snd e)) (omap m))) with (map fst (omap m)); [apply sorted_ascending, (w_omap _ W)|].
    rewrite map_map. apply map_ext_in. intros (k, o) H. destruct (w_o _ W _ _ H) as (x & Ex & <-). unfold out_entry. cbn [fst snd]. rewrite Ex. reflexivity. }
  split.
  { intros k l. unfold output_of. split.
    - intros H. apply in_map_iff in H. destruct H as ((k', o) & E & H). destruct (w_o _ W _ _ H) as (x & Ex & N). cbn [snd] in E. unfold out_entry in E. rewrite Ex in E.
      injection E as <- <-. subst k'. apply map_get_in in H; [|apply (w_omap _ W)]. rewrite H. exists x. auto.
    - intros (x & E & <-). destruct (map_get (omap m) k) as [o|] eqn:M; [|discriminate E]. apply map_get_in in M; [|apply (w_omap _ W)].
      apply in_map_iff. exists (k, o). split; [|exact M]. destruct (w_o _ W _ _ M) as (x' & Ex' & N). rewrite E in Ex'. injection Ex' as <-. cbn [snd]. unfold out_entry. rewrite E, N. reflexivity. }
  assert (Q : map fst (map (str_entry order m) (smap m)) = map fst (smap m)) by (rewrite map_map; apply map_ext; reflexivity).
  split; [rewrite Q; apply sorted_ascending, (w_smap _ W)|].
  split.
  { intros n. rewrite Q. unfold has_stream, stream_of. split.
    - intros H. apply in_map_iff in H. destruct H as ((k, a) & <- & H). destruct (w_s _ W _ _ H) as (s & Es & _). exists s.
      apply map_get_in in H; [|apply (w_smap _ W)]. cbn [fst]. rewrite H. exact Es.
    - intros (s & E). destruct (map_get (smap m) n) as [a|] eqn:M; [|discriminate E]. apply map_get_in in M; [|apply (w_smap _ W)].
      apply in_map_iff. exists (n, a). auto. }
  intros n ws H w. apply in_map_iff in H. destruct H as ((k, a) & E & H). unfold str_entry in E. cbn [fst snd] in E. destruct (w_s _ W _ _ H) as (s & Es & _). rewrite Es in E.
  injection E as -> <-. apply map_get_in in H; [|apply (w_smap _ W)]. unfold connected, stream_of. rewrite H. split.
  - intros I0. apply in_map_iff in I0. destruct I0 as (o & <- & I0). apply (P (s_outs s)) in I0.
    destruct (owned_obj _ _ W (w_outs _ W _ _ _ Es I0)) as (x & Ex). exists o, x. split; [exists s; auto|]. split; [exact Ex|]. unfold out_name, out_entry. rewrite Ex. reflexivity.
  - intros (o & x & (s' & Es' & I0) & Ex & <-). rewrite Es in Es'. injection Es' as <-. apply in_map_iff. exists o. split; [unfold out_name, out_entry; rewrite Ex; reflexivity|]. apply (P (s_outs s)), I0.
Qed.

(* the factories are the registered ones *)
Lemma ofac_iff config op cs m : do_calls config op cs = Ok m -> forall k, In k (ofac m) <-> In (CRegisterOutput k) cs.
Proof.
  revert m. induction cs as [|c cs IH] using rev_ind; intros m E k.
  - injection E as <-. cbn. tauto.
  - destruct (do_calls config op cs) as [m0| |] eqn:E0.
    + rewrite (do_snoc _ _ _ _ _ E0) in E. specialize (IH _ eq_refl k). pose proof (reach_inv _ _ _ _ E0) as I. rewrite in_snoc, <- IH.
      destruct (call_inv config op m0 c I) as [[_ X]|(m' & T & X & I')]; [congruence|]. assert (m' = m) by congruence. subst m'.
      destruct c; cbn [do_call throws] in E, T; try (assert (X1 : ofac m = ofac m0); [|rewrite X1; split; [auto|intros [H|H]; [exact H|discriminate H]]]).
      * destruct (map_get (sfac m0) n), (map_get (smap m0) n); injection E as <-; reflexivity.
      * injection E as <-. cbn. split; [intros [->|H]; auto|]. intros [H|H]; [auto|]. injection H as ->. auto.
      * destruct (inited m0) eqn:IN; [|discriminate T]. destruct (map_get (smap m0) n) eqn:M; [injection E as <-; reflexivity|].
        destruct (new_inv m0 n I IN M) as (m2 & E2 & _ & S2 & _). cbn [new_stream fst snd] in *. assert (m2 = m) by congruence. subst m2. rewrite S2. reflexivity.
      * destruct (initialize_ok config op m0 I) as (m1 & m2 & q & _ & C & E2 & S & _). assert (m2 = m) by congruence. subst m2.
        rewrite (r_ofac _ _ _ _ S), (f_ofac _ _ _ C). unfold loaded. destruct (inited m0); reflexivity.
      * destruct (inited m0) eqn:IN; [|discriminate T]. destruct (configure_inv op m0 I IN) as (m2 & E2 & C & _). assert (m2 = m) by congruence. subst m2. apply (f_ofac _ _ _ C).
      * destruct (setlevel_ok m0 l (i_wf _ I)) as (m2 & E2 & _ & (_ & _ & _ & _ & A1 & _) & _). congruence.
      * destruct (map_get (smap m0) n) as [a|]; [|injection E as <-; reflexivity]. destruct (log m0 a l); cbn in E; try discriminate E. injection E as <-. reflexivity.
    + exfalso. revert E E0. unfold do_calls. generalize start_mgr. clear. induction cs as [|d cs IH]; intros m0; cbn; [discriminate|]. destruct (do_call config op m0 d); cbn; try discriminate. apply IH.
    + exfalso. revert E E0. unfold do_calls. generalize start_mgr. clear. induction cs as [|d cs IH]; intros m0; cbn; [discriminate|]. destruct (do_call config op m0 d); cbn; try discriminate. apply IH.
Qed.
Lemma printed_calls config op cs m order : do_calls config op cs = Ok m -> (forall l o, In o (order l) <-> In o l) ->
  exists fs d os ss, printConfiguration order m = Ok (report fs (d ++ os) ss) /\
  ascending fs /\ (forall n, In n fs <-> In (CRegisterOutput n) cs) /\
  match dflt m with Some o => exists x, oh m o = Some x /\ d = [(o_name x, o_level x)] | None => d = [] end /\
  ascending (map fst os) /\ (forall k l, In (k, l) os <-> exists x, output_of m k = Some x /\ o_level x = l) /\
  ascending (map fst ss) /\ (forall n, In n (map fst ss) <-> has_stream m n) /\
  forall n ws, In (n, ws) ss -> forall w, In w ws <-> exists o x, connected m n o /\ oh m o = Some x /\ o_name x = w.
Proof.
  intros E P. destruct (printed order m (i_wf _ (reach_inv _ _ _ _ E)) P) as (fs & d & os & ss & A & B & C0 & D0). exists fs, d, os, ss.
  split; [exact A|]. split; [exact B|]. split; [|exact D0]. intros n. rewrite C0. apply (ofac_iff _ _ _ _ E).
Qed.
