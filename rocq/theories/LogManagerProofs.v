(* Proofs for C51 *)
From Verif Require Import Conc Text SMap LogTextModel LogManagerModel LogManagerSpec.

Lemma foldM_inv {A B} (f : B -> A -> result B) (P : B -> Prop) l :
  (forall b x, In x l -> P b -> exists b', f b x = Ok b' /\ P b') -> forall b, P b -> exists b', foldM f l b = Ok b' /\ P b'.
Proof.
  induction l as [|x l IH]; intros H b Pb; cbn; [eauto|]. destruct (H b x (or_introl eq_refl) Pb) as (b1 & E & P1). rewrite E. cbn.
  apply IH; auto. intros b2 y Hy. apply H. right. exact Hy.
Qed.
Lemma foldM_done {A B} (f : B -> A -> result B) (P : list A -> B -> Prop) l :
  (forall d x r b, l = d ++ x :: r -> P d b -> exists b', f b x = Ok b' /\ P (d ++ [x]) b') -> forall b, P [] b -> exists b', foldM f l b = Ok b' /\ P l b'.
Proof.
  intros H. assert (G : forall r d b, l = d ++ r -> P d b -> exists b', foldM f r b = Ok b' /\ P l b').
  { induction r as [|x r IH]; intros d b E Pb; cbn.
    - rewrite app_nil_r in E. subst. eauto.
    - destruct (H d x r b E Pb) as (b1 & E1 & P1). rewrite E1. cbn. apply (IH (d ++ [x])); auto. rewrite <- app_assoc. exact E. }
  intros b Pb. apply (G l []); auto.
Qed.
(* several things about the same loop *)
Lemma foldM_inv2 {A B} (f : B -> A -> result B) (P : B -> Prop) l b b' :
  (forall b x b', In x l -> P b -> f b x = Ok b' -> P b') -> P b -> foldM f l b = Ok b' -> P b'.
Proof.
  revert b; induction l as [|x l IH]; intros b H Pb E; cbn in E; [injection E as <-; exact Pb|].
  destruct (f b x) as [b1| |] eqn:E1; try discriminate E. cbn in E. apply (IH b1); auto.
  - intros. eapply H; eauto. right. assumption.
  - eapply H; eauto. left. reflexivity.
Qed.

(* the outputs that belong to the manager *)
Definition owned (m : mgr) (o : addr) : Prop := dflt m = Some o \/ exists k, In (k, o) (omap m).
Record wf (m : mgr) : Prop := mkWf {
  w_smap : sorted (smap m); w_omap : sorted (omap m); w_sfac : sorted (sfac m); w_ocfg : sorted (ocfg m); w_scfg : sorted (scfg m);
  w_s : forall n a, In (n, a) (smap m) -> exists s, sh m a = Some s /\ s_name s = n;
  w_s' : forall a s, sh m a = Some s -> In (s_name s, a) (smap m);
  w_sn : forall a, sn m <= a -> sh m a = None;
  w_on : forall o, on m <= o -> oh m o = None;
  w_o : forall k o, In (k, o) (omap m) -> exists x, oh m o = Some x /\ o_name x = k;
  w_d : forall d, dflt m = Some d -> oh m d <> None /\ forall k, ~ In (k, d) (omap m);
  w_o' : forall o, oh m o <> None -> owned m o;
  w_outs : forall a s o, sh m a = Some s -> In o (s_outs s) -> owned m o;
  w_f : forall n a, In (n, Some a) (sfac m) -> In (n, a) (smap m)
}.

Ltac up a b := unfold upd; destruct (Nat.eqb_spec a b) as [->|].

(* a stream gets another list of outputs or level *)
Lemma wf_put_stream m a s s' : wf m -> sh m a = Some s -> s_name s' = s_name s -> (forall o, In o (s_outs s') -> owned m o) -> wf (put_stream m a s').
Proof.
  intros W E N O. destruct W. split; cbn; auto.
  - intros n b H. up b a; [|apply w_s0, H]. destruct (w_s0 _ _ H) as (s1 & E1 & E2). exists s'. split; auto. congruence.
  - intros b t. up b a; [intros [= <-]; rewrite N; auto|apply w_s'0].
  - intros b H. up b a; [|auto]. rewrite (w_sn0 _ H) in E. discriminate E.
  - intros b t o. up b a; [intros [= <-]; apply O|apply w_outs0].
Qed.
Lemma wf_put_output m o x x' : wf m -> oh m o = Some x -> o_name x' = o_name x -> wf (put_output m o x').
Proof.
  intros W E N. destruct W. split; cbn; auto.
  - intros p H. up p o; [|auto]. rewrite (w_on0 _ H) in E. discriminate E.
  - intros k p H. up p o; [|apply w_o0, H]. destruct (w_o0 _ _ H) as (x1 & E1 & E2). exists x'. split; auto. congruence.
  - intros d H. destruct (w_d0 _ H) as [A B]. split; auto. up d o; [discriminate|auto].
  - intros p. up p o; [intros _; apply w_o'0; congruence|apply w_o'0].
Qed.
Lemma add_ok m a o n : wf m -> In (n, a) (smap m) -> owned m o ->
  exists s, sh m a = Some s /\ addOutputStream m a o = Ok (put_stream m a (mkS (s_name s) (s_level s) (if in_dec Nat.eq_dec o (s_outs s) then s_outs s else o :: s_outs s))) /\
  wf (put_stream m a (mkS (s_name s) (s_level s) (if in_dec Nat.eq_dec o (s_outs s) then s_outs s else o :: s_outs s))).
Proof.
  intros W I O. destruct (w_s _ W _ _ I) as (s & E & _). exists s. unfold addOutputStream, stream. rewrite E. split; auto. split; auto.
  eapply wf_put_stream; eauto. cbn. intros p. destruct (in_dec Nat.eq_dec o (s_outs s)); [apply (w_outs _ W _ _ _ E)|]. intros [<-|H]; auto. apply (w_outs _ W _ _ _ E H).
Qed.
Lemma remove_ok m a o n : wf m -> In (n, a) (smap m) ->
  exists s, sh m a = Some s /\ removeOutputStream m a o = Ok (put_stream m a (mkS (s_name s) (s_level s) (remove Nat.eq_dec o (s_outs s)))) /\
  wf (put_stream m a (mkS (s_name s) (s_level s) (remove Nat.eq_dec o (s_outs s)))).
Proof.
  intros W I. destruct (w_s _ W _ _ I) as (s & E & _). exists s. unfold removeOutputStream, stream. rewrite E. split; auto. split; auto.
  eapply wf_put_stream; eauto. cbn. intros p H. apply in_remove in H. eapply (w_outs _ W _ _ _ E). tauto.
Qed.
Lemma slevel_ok m a l n : wf m -> In (n, a) (smap m) ->
  exists s, sh m a = Some s /\ set_stream_level l m a = Ok (put_stream m a (mkS (s_name s) l (s_outs s))) /\ wf (put_stream m a (mkS (s_name s) l (s_outs s))).
Proof.
  intros W I. destruct (w_s _ W _ _ I) as (s & E & _). exists s. unfold set_stream_level, stream. rewrite E. split; auto. split; auto.
  eapply wf_put_stream; eauto. cbn. intros p H. eapply (w_outs _ W _ _ _ E H).
Qed.
Lemma owned_obj m o : wf m -> owned m o -> exists x, oh m o = Some x.
Proof.
  intros W [D|[k I]]; [|destruct (w_o _ W _ _ I) as (x & E & _); eauto]. destruct (w_d _ W _ D) as [N _]. destruct (oh m o); [eauto|congruence].
Qed.
Lemma olevel_ok m o l : wf m -> owned m o ->
  exists x, oh m o = Some x /\ set_output_level l m o = Ok (put_output m o (mkO (o_name x) l (o_running x))) /\ wf (put_output m o (mkO (o_name x) l (o_running x))).
Proof.
  intros W O. destruct (owned_obj _ _ W O) as (x & E). exists x. unfold set_output_level, output. rewrite E. split; auto. split; auto. eapply wf_put_output; eauto.
Qed.
Lemma run_ok b m o : wf m -> owned m o ->
  exists x, oh m o = Some x /\ run_output b m o = Ok (put_output m o (mkO (o_name x) (o_level x) b)) /\ wf (put_output m o (mkO (o_name x) (o_level x) b)).
Proof.
  intros W O. destruct (owned_obj _ _ W O) as (x & E). exists x. unfold run_output, output. rewrite E. split; auto. split; auto. eapply wf_put_output; eauto.
Qed.

(* what a loop leaves alone *)
Definition frame (m m' : mgr) : Prop :=
  inited m' = inited m /\ ocfg m' = ocfg m /\ scfg m' = scfg m /\ sfac m' = sfac m /\ ofac m' = ofac m /\ smap m' = smap m /\ omap m' = omap m /\ dflt m' = dflt m /\ sn m' = sn m /\ on m' = on m.
Lemma frame_refl m : frame m m. Proof. repeat split. Qed.
Lemma frame_trans a b c : frame a b -> frame b c -> frame a c.
Proof. intros (A1&A2&A3&A4&A5&A6&A7&A8&A9&A0) (B1&B2&B3&B4&B5&B6&B7&B8&B9&B0). repeat split; congruence. Qed.
Lemma frame_stream m a s : frame m (put_stream m a s). Proof. repeat split. Qed.
Lemma frame_output m o x : frame m (put_output m o x). Proof. repeat split. Qed.
Lemma frame_owned m m' o : frame m m' -> owned m o -> owned m' o.
Proof. intros (A1&A2&A3&A4&A5&A6&A7&A8&A9&A0). unfold owned. rewrite A7, A8. auto. Qed.

Lemma wf_ext m m' : wf m -> frame m m' -> oh m' = oh m -> (forall a, sh m' a = sh m a) -> wf m'.
Proof.
  intros W (A1&A2&A3&A4&A5&A6&A7&A8&A9&A0) E S. destruct W. split; unfold owned in *; rewrite ?A2, ?A3, ?A4, ?A6, ?A7, ?A8, ?A9, ?A0, ?E; auto.
  - intros n a H. rewrite S. auto.
  - intros a s H. rewrite S in H. auto.
  - intros a H. rewrite S. auto.
  - intros a s o H. rewrite S in H. eauto.
Qed.
Definition puts (m : mgr) (a : addr) (s : sobj) (r : result mgr) : Prop :=
  exists m2, r = Ok m2 /\ frame m m2 /\ oh m2 = oh m /\ forall b, sh m2 b = upd (sh m) a (Some s) b.
Lemma puts_put m a s : puts m a s (Ok (put_stream m a s)).
Proof. exists (put_stream m a s). split; auto. split; [apply frame_stream|]. auto. Qed.
Lemma in_snoc {A} (x y : A) d : In x (d ++ [y]) <-> In x d \/ x = y.
Proof. rewrite in_app_iff. cbn. intuition congruence. Qed.
Lemma loop_s {A} (f : mgr -> A -> result mgr) (key : A -> option addr) (g : sobj -> sobj) l m :
  wf m -> (forall s, s_name (g s) = s_name s) -> (forall s o, In o (s_outs (g s)) -> In o (s_outs s) \/ owned m o) -> (forall s, g (g s) = g s) ->
  (forall m1 x, In x l -> wf m1 -> frame m m1 ->
     match key x with None => f m1 x = Ok m1 | Some a => (exists n, In (n, a) (smap m)) /\ forall s, sh m1 a = Some s -> puts m1 a (g s) (f m1 x) end) ->
  exists m', foldM f l m = Ok m' /\ wf m' /\ frame m m' /\ oh m' = oh m /\
    forall a, (In (Some a) (map key l) -> sh m' a = option_map g (sh m a)) /\ (~ In (Some a) (map key l) -> sh m' a = sh m a).
Proof.
  intros W GN GO GG H.
  destruct (foldM_done f (fun d m' => wf m' /\ frame m m' /\ oh m' = oh m /\
    forall a, (In (Some a) (map key d) -> sh m' a = option_map g (sh m a)) /\ (~ In (Some a) (map key d) -> sh m' a = sh m a)) l) with (b := m) as (m' & E & R).
  - intros d x r m1 -> (W1 & F1 & O1 & S1). specialize (H m1 x). destruct (key x) as [a|] eqn:K.
    + destruct H as [[n I] H]; auto. { apply in_or_app. right. left. reflexivity. }
      pose proof F1 as F1'. destruct F1' as (_&_&_&_&_&A6&_). rewrite <- A6 in I. destruct (w_s _ W1 _ _ I) as (s & E & _).
      destruct (H _ E) as (m2 & E2 & F2 & O2 & S2). exists m2. split; [exact E2|]. split; [|split; [|split]].
      * refine (wf_ext (put_stream m1 a (g s)) _ _ F2 O2 S2). eapply wf_put_stream; eauto. intros o Ho. apply GO in Ho. destruct Ho as [Ho|Ho]; [apply (w_outs _ W1 _ _ _ E Ho)|eapply frame_owned; eauto].
      * eapply frame_trans; [exact F1|exact F2].
      * rewrite O2. exact O1.
      * intros b. rewrite map_app. cbn [map]. rewrite in_snoc, K. rewrite S2. cbn. unfold upd. destruct (Nat.eqb_spec b a) as [->|N].
        -- split; [|tauto]. intros _. destruct (in_dec (fun x y : option addr => ltac:(decide equality; apply Nat.eq_dec)) (Some a) (map key d)) as [J|J].
           ++ destruct (S1 a) as [S4 _]. rewrite (S4 J) in E. destruct (sh m a) as [s0|]; [|discriminate E]. cbn in *. injection E as <-. rewrite GG. reflexivity.
           ++ destruct (S1 a) as [_ S4]. rewrite (S4 J) in E. rewrite E. reflexivity.
        -- destruct (S1 b) as [S4 S3]. split; [intros [J|[= ->]]; [auto|congruence]|intros J; apply S3; tauto].
    + exists m1. split; [apply H; auto; apply in_or_app; right; left; reflexivity|]. split; [exact W1|]. split; [exact F1|]. split; [exact O1|].
      intros b. rewrite map_app. cbn [map]. rewrite in_snoc, K. destruct (S1 b) as [S2 S3]. split; [intros [J|J]; [auto|discriminate J]|intros J; apply S3; tauto].
  - split; [exact W|]. split; [apply frame_refl|]. split; [reflexivity|]. intros a. cbn. tauto.
  - exists m'. tauto.
Qed.
(* over all streams *)
Lemma loop_all (f : mgr -> str * addr -> result mgr) (g : sobj -> sobj) m :
  wf m -> (forall s, s_name (g s) = s_name s) -> (forall s o, In o (s_outs (g s)) -> In o (s_outs s) \/ owned m o) -> (forall s, g (g s) = g s) ->
  (forall m1 x s, In x (smap m) -> wf m1 -> frame m m1 -> sh m1 (snd x) = Some s -> puts m1 (snd x) (g s) (f m1 x)) ->
  exists m', foldM f (smap m) m = Ok m' /\ wf m' /\ frame m m' /\ oh m' = oh m /\ forall a, sh m' a = option_map g (sh m a).
Proof.
  intros W GN GO GG H. destruct (loop_s f (fun x => Some (snd x)) g (smap m) m W GN GO GG) as (m' & E & W' & F & O & S).
  - intros m1 [n a] I W1 F1. cbn. split; [eauto|]. intros s Es. apply (H m1 (n, a)); auto.
  - exists m'. split; [exact E|]. split; [exact W'|]. split; [exact F|]. split; [exact O|]. intros a. destruct (S a) as [S1 S2].
    destruct (sh m a) as [s|] eqn:Es.
    + rewrite <- Es. rewrite S1; [rewrite Es; reflexivity|]. apply in_map_iff. exists (s_name s, a). split; auto. apply (w_s' _ W _ _ Es).
    + destruct (in_dec (fun x y : option addr => ltac:(decide equality; apply Nat.eq_dec)) (Some a) (map (fun x => Some (snd x)) (smap m))) as [J|J]; [apply S1, J|rewrite (S2 J); reflexivity].
Qed.
Lemma loop_o (f : mgr -> str * addr -> result mgr) (h : oobj -> oobj) m :
  wf m -> (forall x, o_name (h x) = o_name x) -> (forall x, h (h x) = h x) ->
  (forall m1 x y, In x (omap m) -> wf m1 -> frame m m1 -> oh m1 (snd x) = Some y -> f m1 x = Ok (put_output m1 (snd x) (h y))) ->
  exists m', foldM f (omap m) m = Ok m' /\ wf m' /\ frame m m' /\ sh m' = sh m /\
    forall o, ((exists k, In (k, o) (omap m)) -> oh m' o = option_map h (oh m o)) /\ (~ (exists k, In (k, o) (omap m)) -> oh m' o = oh m o).
Proof.
  intros W HN HH H.
  destruct (foldM_done f (fun d m' => wf m' /\ frame m m' /\ sh m' = sh m /\
    forall o, ((exists k, In (k, o) d) -> oh m' o = option_map h (oh m o)) /\ (~ (exists k, In (k, o) d) -> oh m' o = oh m o)) (omap m)) with (b := m) as (m' & E & R).
  - intros d [k o] r m1 D (W1 & F1 & S1 & O1).
    assert (I : In (k, o) (omap m)) by (rewrite D; apply in_or_app; right; left; reflexivity).
    pose proof F1 as F1'. destruct F1' as (_&_&_&_&_&_&A7&_). pose proof I as I1. rewrite <- A7 in I1. destruct (w_o _ W1 _ _ I1) as (x & E & _).
    exists (put_output m1 o (h x)). split; [apply (H m1 (k, o)); auto|]. split; [eapply wf_put_output; eauto|]. split; [eapply frame_trans; [exact F1|apply frame_output]|]. split; [exact S1|].
    intros p. cbn. unfold upd. destruct (Nat.eqb_spec p o) as [->|N].
    + split; [|intros J; destruct J; exists k; apply in_snoc; auto]. intros _. destruct (in_dec Nat.eq_dec o (map snd d)) as [J|J].
      * assert (J' : exists k, In (k, o) d) by (apply in_map_iff in J; destruct J as ([k' o'] & <- & J); eauto).
        destruct (O1 o) as [O2 _]. rewrite (O2 J') in E. destruct (oh m o); [|discriminate E]. cbn in *. injection E as <-. rewrite HH. reflexivity.
      * assert (J' : ~ exists k, In (k, o) d) by (intros [k' J']; apply J; apply in_map_iff; exists (k', o); auto).
        destruct (O1 o) as [_ O2]. rewrite (O2 J') in E. rewrite E. reflexivity.
    + destruct (O1 p) as [O2 O3]. split.
      * intros [k' J]. apply in_snoc in J. destruct J as [J|[= _ ->]]; [|congruence]. apply O2. eauto.
      * intros J. apply O3. intros [k' J']. apply J. exists k'. apply in_snoc. auto.
  - split; [exact W|]. split; [apply frame_refl|]. split; [reflexivity|]. intros o. split; [intros [k []]|auto].
  - exists m'. tauto.
Qed.

Definition add1 (o : addr) (s : sobj) : sobj := mkS (s_name s) (s_level s) (if in_dec Nat.eq_dec o (s_outs s) then s_outs s else o :: s_outs s).
Definition rem1 (o : addr) (s : sobj) : sobj := mkS (s_name s) (s_level s) (remove Nat.eq_dec o (s_outs s)).
Definition lev1 (l : level) (s : sobj) : sobj := mkS (s_name s) l (s_outs s).
Definition olev1 (l : level) (x : oobj) : oobj := mkO (o_name x) l (o_running x).
Definition run1 (b : bool) (x : oobj) : oobj := mkO (o_name x) (o_level x) b.
Lemma add1_in o s p : In p (s_outs (add1 o s)) <-> p = o \/ In p (s_outs s).
Proof. unfold add1; cbn. destruct (in_dec Nat.eq_dec o (s_outs s)); cbn; [|intuition congruence]. split; auto. intros [->|]; auto. Qed.
Lemma add1_idem o s : add1 o (add1 o s) = add1 o s.
Proof.
  unfold add1 at 1. cbn [s_name s_level add1]. destruct (in_dec Nat.eq_dec o (s_outs (add1 o s))) as [I|I]; [destruct s; reflexivity|].
  exfalso. apply I. apply add1_in. auto.
Qed.
Lemma remove_idem o l : remove Nat.eq_dec o (remove Nat.eq_dec o l) = remove Nat.eq_dec o l.
Proof. apply notin_remove. apply remove_In. Qed.
Lemma rem1_idem o s : rem1 o (rem1 o s) = rem1 o s.
Proof. unfold rem1; cbn. rewrite remove_idem. reflexivity. Qed.
Lemma rem1_in o s p : In p (s_outs (rem1 o s)) <-> p <> o /\ In p (s_outs s).
Proof. unfold rem1; cbn. split; [intros H; apply in_remove in H; tauto|]. intros [H1 H2]. apply in_in_remove; auto. Qed.

Lemma fresh_o m : wf m -> ~ owned m (on m).
Proof. intros W O. destruct (owned_obj _ _ W O) as (x & E). rewrite (w_on _ W) in E by lia. discriminate E. Qed.
(* a new default output *)
Lemma wf_new_default m n l : wf m -> dflt m = None -> wf (set_dflt (snd (new_output m n l)) (Some (on m))).
Proof.
  intros W D. pose proof (fresh_o _ W) as FO. destruct W. split; cbn; auto.
  - intros o H. up o (on m); [lia|]. apply w_on0. lia.
  - intros k o H. up o (on m); [|apply w_o0, H]. destruct FO. right. eauto.
  - intros d [= <-]. rewrite upd_same. split; [discriminate|]. intros k H. apply FO. right. eauto.
  - intros o. unfold owned. cbn. up o (on m); [auto|]. intros H. right. destruct (w_o'0 _ H) as [E|E]; [congruence|exact E].
  - intros a s o E H. destruct (w_outs0 _ _ _ E H) as [G|G]; [congruence|right; exact G].
Qed.
(* a new named output *)
Lemma wf_new_output m n l : wf m -> map_get (omap m) n = None -> wf (set_omap (snd (new_output m n l)) (map_put (omap m) n (on m))).
Proof.
  intros W D. pose proof (fresh_o _ W) as FO. pose proof (w_omap _ W) as SO. pose proof (proj1 (map_get_none _ _ SO) D) as D'.
  assert (PI : forall k o, In (k, o) (map_put (omap m) n (on m)) <-> (k = n /\ o = on m) \/ In (k, o) (omap m)).
  { intros k o. rewrite map_put_in by auto. split; [tauto|]. intros [H|H]; auto. right. split; auto. intros ->. exact (D' _ H). }
  assert (OW : forall o, owned m o -> owned (set_omap (snd (new_output m n l)) (map_put (omap m) n (on m))) o).
  { intros o [H|[k H]]; [left; exact H|]. right. exists k. cbn. apply PI. auto. }
  destruct W. split; auto.
  - cbn. apply map_put_sorted; auto.
  - intros o H. cbn in *. up o (on m); [lia|]. apply w_on0. lia.
  - intros k o H. cbn in *. apply PI in H. destruct H as [[-> ->]|H].
    + rewrite upd_same. eauto.
    + up o (on m); [|apply w_o0, H]. destruct FO. right. eauto.
  - intros d H. cbn in *. destruct (w_d0 _ H) as [A B]. split.
    + up d (on m); [discriminate|exact A].
    + intros k I. apply PI in I. destruct I as [[_ ->]|I]; [apply FO; left; exact H|exact (B _ I)].
  - intros o. cbn. up o (on m); [|intros H; apply OW; auto]. intros _. right. exists n. cbn. apply PI. auto.
  - intros a s o E H. cbn in *. apply OW. eauto.
Qed.
(* a new stream *)
Lemma wf_new_stream m n outs : wf m -> map_get (smap m) n = None -> (forall o, In o outs -> owned m o) ->
  wf (set_sn (set_smap (set_sh m (upd (sh m) (sn m) (Some (mkS n Info outs)))) (map_put (smap m) n (sn m))) (S (sn m))).
Proof.
  intros W D HO. pose proof (w_smap _ W) as SO. pose proof (proj1 (map_get_none _ _ SO) D) as D'.
  assert (PI : forall k a, In (k, a) (map_put (smap m) n (sn m)) <-> (k = n /\ a = sn m) \/ In (k, a) (smap m)).
  { intros k a. rewrite map_put_in by auto. split; [tauto|]. intros [H|H]; auto. right. split; auto. intros ->. exact (D' _ H). }
  destruct W. split; cbn; auto.
  - apply map_put_sorted; auto.
  - intros k a H. apply PI in H. destruct H as [[-> ->]|H]; [rewrite upd_same; eauto|]. up a (sn m); [|apply w_s0, H].
    destruct (w_s0 _ _ H) as (s & E & _). rewrite w_sn0 in E by lia. discriminate E.
  - intros a s. up a (sn m); [intros [= <-]; apply PI; auto|]. intros H. apply PI. right. auto.
  - intros a H. up a (sn m); [lia|]. apply w_sn0. lia.
  - intros a s o. up a (sn m); [intros [= <-]; apply HO|apply w_outs0].
  - intros k a H. apply PI. right. auto.
Qed.
Lemma wf_set_sfac m l : wf m -> sorted l -> (forall n a, In (n, Some a) l -> In (n, a) (smap m)) -> wf (set_sfac m l).
Proof. intros W S H. destruct W. split; auto. Qed.
Lemma wf_set_ocfg m l : wf m -> sorted l -> wf (set_ocfg m l).
Proof. intros W S. destruct W. split; auto. Qed.

Definition outs0 (m : mgr) : list addr := match dflt m with Some d => [d] | None => [] end.
Lemma outs0_owned m o : In o (outs0 m) -> owned m o.
Proof. unfold outs0. destruct (dflt m) as [d|] eqn:E; [|intros []]. intros [<-|[]]. left. exact E. Qed.
Lemma register_new m n : wf m -> map_get (smap m) n = None ->
  exists m', registerLogStream (snd (new_stream m n)) (sn m) = Ok m' /\ wf m' /\
    m' = set_sn (set_smap (set_sh m (sh m')) (map_put (smap m) n (sn m))) (S (sn m)) /\
    forall a, sh m' a = if Nat.eqb a (sn m) then Some (mkS n Info (outs0 m)) else sh m a.
Proof.
  intros W D. pose proof (wf_new_stream m n [] W D) as W1. pose proof (wf_new_stream m n (outs0 m) W D (outs0_owned m)) as W2.
  unfold registerLogStream, stream, new_stream. cbn. rewrite upd_same. cbn. unfold outs0 in *.
  destruct (dflt m) as [d|] eqn:E; cbn [dflt set_smap set_sn set_sh].
  - unfold addOutputStream, stream. cbn. rewrite upd_same. cbn. eexists. split; [reflexivity|]. split; [|split; [reflexivity|]].
    + destruct W2. split; cbn in *; auto.
      * intros k a H. destruct (w_s0 _ _ H) as (s & E1 & E2). exists s. split; auto. unfold upd in *. destruct (a =? sn m); auto.
      * intros a s H. apply w_s'0. unfold upd in *. destruct (a =? sn m); auto.
      * intros a H. specialize (w_sn0 a H). unfold upd in *. destruct (a =? sn m); auto.
      * intros a s o H. apply (w_outs0 a s o). unfold upd in *. destruct (a =? sn m); auto.
    + intros a. cbn. unfold upd. destruct (a =? sn m); reflexivity.
  - eexists. split; [reflexivity|]. split; [apply W1; intros o []|]. split; [reflexivity|]. intros a. cbn. unfold upd. reflexivity.
Qed.
Lemma register_sfac m l a : registerLogStream (set_sfac m l) a = bind (registerLogStream m a) (fun x => Ok (set_sfac x l)).
Proof.
  unfold registerLogStream, stream. cbn. destruct (sh m a) as [s|] eqn:E; cbn; auto. destruct (dflt m); cbn; auto.
  unfold addOutputStream, stream. cbn. rewrite E. reflexivity.
Qed.
(* 151-158: streams that are not there yet are created and connected to the default output *)
Record grown (F : list str) (m m' : mgr) : Prop := mkGrown {
  g_inited : inited m' = inited m; g_ocfg : ocfg m' = ocfg m; g_scfg : scfg m' = scfg m; g_ofac : ofac m' = ofac m; g_omap : omap m' = omap m;
  g_dflt : dflt m' = dflt m; g_on : on m' = on m; g_oh : oh m' = oh m;
  g_old : forall a s, sh m a = Some s -> sh m' a = Some s;
  g_map : forall n a, In (n, a) (smap m) -> In (n, a) (smap m');
  g_new : forall a s, sh m a = None -> sh m' a = Some s -> s = mkS (s_name s) Info (outs0 m) /\ In (s_name s) F;
  g_all : forall n, In n F -> exists a, In (n, a) (smap m');
  g_fac : forall n, In n (map fst (sfac m')) <-> In n (map fst (sfac m));
  g_keep : forall n a, In (n, Some a) (sfac m) -> In (n, Some a) (sfac m');
  g_inst : forall n, In n F -> (exists a, In (n, Some a) (sfac m')) \/ exists a, In (n, a) (smap m)
}.
Lemma keys_in {T} (l : list (str * T)) n : In n (map fst l) <-> exists v, In (n, v) l.
Proof. rewrite in_map_iff. split; [intros ([k v] & <- & H); eauto|intros [v H]; exists (n, v); auto]. Qed.
Lemma create_streams m : wf m -> inited m = true -> exists m', foldM create_stream (sfac m) m = Ok m' /\ wf m' /\ grown (map fst (sfac m)) m m'.
Proof.
  intros W IN.
  destruct (foldM_done create_stream (fun d m' => wf m' /\ grown (map fst d) m m') (sfac m)) with (b := m) as (m' & E & R); [| |eauto].
  - intros d [n i] r m1 D (W1 & G). assert (I : In (n, i) (sfac m)) by (rewrite D; apply in_or_app; right; left; reflexivity). unfold create_stream. cbn [fst snd].
    destruct (map_get (smap m1) n) as [a|] eqn:M.
    + exists m1. split; auto. split; auto. destruct G. split; auto.
      * intros b s H1 H2. destruct (g_new0 _ _ H1 H2) as [A B]. split; auto. rewrite map_app. apply in_or_app. auto.
      * intros k. rewrite map_app. cbn [map fst]. rewrite in_snoc. intros [H| ->]; auto. exists a. apply map_get_in; auto. apply (w_smap _ W1).
      * intros k. rewrite map_app. cbn [map fst]. rewrite in_snoc. intros [H| ->]; auto. apply map_get_in in M; [|apply (w_smap _ W1)]. destruct (w_s _ W1 _ _ M) as (s & E1 & E2).
        destruct (sh m a) as [s0|] eqn:E0; [right; exists a; rewrite <- E2; rewrite (g_old0 _ _ E0) in E1; injection E1 as <-; apply (w_s' _ W _ _ E0)|].
        destruct (g_new0 _ _ E0 E1) as [_ B]. rewrite E2 in B. auto.
    + destruct i as [a|].
      { exfalso. apply (w_f _ W) in I. apply (g_map _ _ _ G) in I. apply (map_get_none _ _ (w_smap _ W1)) with (v := a) in M. auto. }
      unfold create. rewrite (g_inited _ _ _ G), IN. cbn [new_stream bind fst snd]. rewrite register_sfac.
      destruct (register_new m1 n W1 M) as (m2 & E2 & W2 & S2 & H2). unfold new_stream in E2. cbn [snd] in E2. rewrite E2. cbn [bind].
      eexists. split; [reflexivity|]. pose proof (proj1 (map_get_none _ _ (w_smap _ W1)) M) as M'.
      assert (SM : smap m2 = map_put (smap m1) n (sn m1)) by (rewrite S2; reflexivity).
      assert (SF : sfac m2 = sfac m1) by (rewrite S2; reflexivity).
      assert (PI : forall k a, In (k, a) (smap m2) <-> (k = n /\ a = sn m1) \/ In (k, a) (smap m1)).
      { intros k a. rewrite SM, map_put_in by apply (w_smap _ W1). split; [tauto|]. intros [H|H]; auto. right. split; auto. intros ->. exact (M' _ H). }
      split.
      * apply wf_set_sfac; auto; cbn [sfac set_sfac set_sn set_sh].
        { apply map_put_sorted, (w_sfac _ W1). }
        { intros k a H. apply map_put_in in H; [|apply (w_sfac _ W1)]. apply PI. destruct H as [[-> [= ->]]|[_ H]]; auto. right. apply (w_f _ W1 _ _ H). }
      * destruct G. split; try (rewrite S2; cbn; assumption); cbn [set_sfac sh smap sfac].
        { intros a s H. rewrite H2. destruct (Nat.eqb_spec a (sn m1)) as [->|]; auto. apply g_old0 in H. rewrite (w_sn _ W1) in H by lia. discriminate H. }
        { intros k a H. apply PI. auto. }
        { intros a s H1. rewrite H2. rewrite map_app. cbn [map fst]. destruct (Nat.eqb_spec a (sn m1)) as [->|].
          - intros [= <-]. cbn. rewrite in_snoc. split; auto. unfold outs0. rewrite g_dflt0. reflexivity.
          - intros H3. destruct (g_new0 _ _ H1 H3) as [A B]. split; auto. apply in_snoc. auto. }
        { intros k. rewrite map_app. cbn [map fst]. rewrite in_snoc. intros [H| ->]; [destruct (g_all0 _ H) as [a Ha]; exists a; apply PI; auto|]. exists (sn m1). apply PI. auto. }
        { intros k. cbn. rewrite <- g_fac0. rewrite !keys_in. split; intros [v H].
          - apply map_put_in in H; [|apply (w_sfac _ W1)]. destruct H as [[-> ->]|[_ H]]; [|eauto]. apply keys_in. apply g_fac0. apply keys_in. eauto.
          - destruct (list_eq_dec ascii_dec k n) as [->|N]; [exists (Some (sn m1))|exists v]; apply map_put_in; try apply (w_sfac _ W1); auto. }
        { intros k a H. cbn. apply map_put_in; [apply (w_sfac _ W1)|]. right. split; auto. intros ->. pose proof (proj2 (map_get_in _ _ _ (w_sfac _ W)) I). pose proof (proj2 (map_get_in _ _ _ (w_sfac _ W)) H). congruence. }
        { intros k. rewrite map_app. cbn [map fst]. rewrite in_snoc. cbn. intros H. destruct (list_eq_dec ascii_dec k n) as [->|N].
          - left. exists (sn m1). apply map_put_in; [apply (w_sfac _ W1)|]. auto.
          - destruct H as [H|H]; [|congruence]. destruct (g_inst0 _ H) as [[a Ha]|Ha]; auto. left. exists a. apply map_put_in; [apply (w_sfac _ W1)|]. auto. }
  - split; auto. split; auto. { intros a s H1 H2. congruence. } { intros n []. } { tauto. } { intros n []. }
Qed.
(* 161-171 *)
Lemma drop_ok m : wf m -> exists m', drop_default m = Ok m' /\ wf m' /\
  match ocfg m, dflt m with
  | _ :: _, Some d => m' = set_dflt (set_oh (set_sh m (sh m')) (oh m')) None /\ (forall a, sh m' a = option_map (rem1 d) (sh m a)) /\ (forall o, oh m' o = if Nat.eqb o d then None else oh m o)
  | _, _ => m' = m
  end.
Proof.
  intros W. unfold drop_default. destruct (ocfg m) as [|e l] eqn:OC; [eauto|]. destruct (dflt m) as [d|] eqn:D; [|eauto].
  destruct (loop_all (fun m x => removeOutputStream m (snd x) d) (rem1 d) m W) as (m1 & E1 & W1 & F1 & O1 & S1).
  - reflexivity.
  - intros s o H. apply rem1_in in H. tauto.
  - apply rem1_idem.
  - intros m1 x s H H1 H2 H3. unfold removeOutputStream, stream. rewrite H3. apply puts_put.
  - rewrite E1. cbn. pose proof F1 as (A1&A2&A3&A4&A5&A6&A7&A8&A9&A0).
    destruct (run_ok false m1 d W1) as (x & E & R & W2). { left. congruence. }
    rewrite R. cbn. unfold delete_output, output. cbn. rewrite upd_same. cbn. eexists. split; [reflexivity|].
    destruct (w_d _ W1 d ltac:(congruence)) as [_ ND]. split; [|split; [|split]].
    + destruct W1. split; cbn in *; auto.
      * intros o H. unfold upd. destruct (o =? d); auto.
      * intros k o H. unfold upd. destruct (Nat.eqb_spec o d) as [->|]; [destruct (ND _ H)|auto].
      * intros d' H. discriminate H.
      * intros o. unfold upd. destruct (Nat.eqb_spec o d) as [->|N]; [congruence|]. intros H. destruct (w_o'0 _ H) as [G|G]; [rewrite A8, D in G; congruence|]. right. exact G.
      * intros a s o H1 H2. destruct (w_outs0 _ _ _ H1 H2) as [G|G]; [|right; exact G]. exfalso. rewrite A8, D in G. injection G as <-.
        rewrite S1 in H1. destruct (sh m a); [|discriminate H1]. injection H1 as <-. apply rem1_in in H2. tauto.
    + destruct m, m1. cbn in *. subst. reflexivity.
    + intros a. cbn. apply S1.
    + intros o. cbn. unfold upd. destruct (o =? d); auto. rewrite O1. reflexivity.
Qed.
(* more outputs for the streams *)
Definition more (m m' : mgr) (P : str -> addr -> Prop) : Prop :=
  (forall a, sh m a = None -> sh m' a = None) /\
  (forall a s, sh m a = Some s -> exists s', sh m' a = Some s' /\ s_name s' = s_name s /\ s_level s' = s_level s /\ forall o, In o (s_outs s') <-> In o (s_outs s) \/ P (s_name s) o).
Lemma more_iff m m' (P Q : str -> addr -> Prop) : more m m' P -> (forall n o, P n o <-> Q n o) -> more m m' Q.
Proof. intros [A B] H. split; auto. intros a s E. destruct (B a s E) as (s' & E1 & E2 & E3 & E4). exists s'. repeat split; auto. - intros G. apply E4 in G. rewrite <- H. exact G. - intros G. apply E4. rewrite H. exact G. Qed.
Lemma more_trans m1 m2 m3 (P Q : str -> addr -> Prop) : more m1 m2 P -> more m2 m3 Q -> more m1 m3 (fun n o => P n o \/ Q n o).
Proof.
  intros [A1 B1] [A2 B2]. split; auto. intros a s E. destruct (B1 a s E) as (s1 & E1 & N1 & L1 & O1). destruct (B2 a s1 E1) as (s2 & E2 & N2 & L2 & O2).
  exists s2. split; auto. split; [congruence|]. split; [congruence|]. intros o. rewrite O2, O1, N1. tauto.
Qed.
Lemma more_same m m' (P : str -> addr -> Prop) : sh m' = sh m -> (forall n o, ~ P n o) -> more m m' P.
Proof. intros E0 H. split; rewrite E0; auto. intros a s E. exists s. repeat split; auto. intros [G|G]; [exact G|destruct (H _ _ G)]. Qed.

Lemma connect_all_ok m o c : wf m -> owned m o -> exists m', connect_all m o c = Ok m' /\ wf m' /\ frame m m' /\ oh m' = oh m /\ more m m' (fun n p => p = o /\ chosen c n).
Proof.
  intros W O. unfold connect_all, chosen. destruct (c_streams c) as [|n0 l0] eqn:CS.
  - destruct (loop_all (fun m x => addOutputStream m (snd x) o) (add1 o) m W) as (m1 & E1 & W1 & F1 & O1 & S1).
    + reflexivity.
    + intros s p H. apply add1_in in H. destruct H as [->|H]; auto.
    + apply add1_idem.
    + intros m1 x s H H1 H2 H3. unfold addOutputStream, stream. rewrite H3. apply puts_put.
    + exists m1. split; auto. split; auto. split; auto. split; auto. split.
      * intros a E. rewrite S1, E. reflexivity.
      * intros a s E. exists (add1 o s). rewrite S1, E. repeat split; auto; rewrite add1_in; tauto.
  - assert (NE : c_streams c <> []) by (rewrite CS; discriminate). rewrite <- CS in *. clear n0 l0 CS.
    destruct (loop_s (connect o) (fun n => map_get (smap m) n) (add1 o) (c_streams c) m W) as (m1 & E1 & W1 & F1 & O1 & S1).
    + reflexivity.
    + intros s p H. apply add1_in in H. destruct H as [->|H]; auto.
    + apply add1_idem.
    + intros m1 n H W1 F1. pose proof F1 as (A1&A2&A3&A4&A5&A6&A7&A8&A9&A0). destruct (map_get (smap m) n) as [a|] eqn:E; unfold connect; rewrite A6, E; auto.
      split; [exists n; apply map_get_in; auto; apply (w_smap _ W)|]. intros s Es. unfold addOutputStream, stream. rewrite Es. apply puts_put.
    + exists m1. split.
      { destruct (c_streams c); [exact E1|exact E1]. }
      split; auto. split; auto. split; auto. split.
      * intros a E. destruct (S1 a) as [S2 S3]. destruct (in_dec (fun x y : option addr => ltac:(decide equality; apply Nat.eq_dec)) (Some a) (map (fun n => map_get (smap m) n) (c_streams c))) as [J|J]; [rewrite (S2 J), E|rewrite (S3 J), E]; reflexivity.
      * intros a s E. destruct (S1 a) as [S2 S3].
        assert (J : In (Some a) (map (fun n => map_get (smap m) n) (c_streams c)) <-> In (s_name s) (c_streams c)).
        { rewrite in_map_iff. pose proof (w_s' _ W _ _ E) as I. split.
          - intros (n & E2 & H). apply map_get_in in E2; [|apply (w_smap _ W)]. destruct (w_s _ W _ _ E2) as (s' & E3 & <-). assert (s' = s) as -> by congruence. exact H.
          - intros H. exists (s_name s). split; auto. apply map_get_in; auto. apply (w_smap _ W). }
        destruct (in_dec (list_eq_dec ascii_dec) (s_name s) (c_streams c)) as [H|H].
        -- exists (add1 o s). rewrite (S2 (proj2 J H)), E. repeat split; auto; rewrite add1_in; tauto.
        -- exists s. rewrite S3, E by tauto. repeat split; auto. intros [G|[_ [G|G]]]; auto; [destruct (NE G)|tauto].
Qed.
Lemma or_assoc_1 (A B C : Prop) : (A \/ B \/ C) <-> ((A \/ B) \/ C). Proof. tauto. Qed.
Definition hasO (m : mgr) (k : str) : Prop := exists o, In (k, o) (omap m).
(* what the loop 174-237 has done after the entries l *)
Record outputs_done (m : mgr) (l : list (str * outcfg)) (m' : mgr) : Prop := mkOD {
  d_inited : inited m' = inited m; d_scfg : scfg m' = scfg m; d_sfac : sfac m' = sfac m; d_ofac : ofac m' = ofac m; d_smap : smap m' = smap m; d_dflt : dflt m' = dflt m; d_sn : sn m' = sn m;
  d_ocfg : forall e, In e (map fst (ocfg m')) <-> In e (map fst (ocfg m)) \/ In e (map fst l);
  d_old : forall k o, In (k, o) (omap m) -> In (k, o) (omap m');
  d_oh : forall o x, oh m o = Some x -> oh m' o = Some x;
  d_keys : forall k, hasO m' k <-> hasO m k \/ created (ofac m) l k;
  d_level : forall k o, In (k, o) (omap m') -> hasO m k \/
    exists l1 e c l2, l = l1 ++ (e, c) :: l2 /\ the_name c = k /\ In (c_kind c) (ofac m) /\ ~ created (ofac m) l1 k /\ oh m' o = Some (mkO k (c_level c) false);
  d_more : more m m' (fun n o => exists k, In (k, o) (omap m') /\ wired (hasO m) (ofac m) l n k)
}.
Lemma created_snoc known l e c k : created known (l ++ [(e, c)]) k <-> created known l k \/ (the_name c = k /\ In (c_kind c) known).
Proof.
  unfold created. split.
  - intros (e' & c' & I & H). apply in_snoc in I. destruct I as [I|[= -> ->]]; [left; eauto|tauto].
  - intros [(e' & c' & I & H)|H]; [exists e', c'|exists e, c]; rewrite in_snoc; auto.
Qed.
Lemma wired_snoc there known l e c n k : wired there known (l ++ [(e, c)]) n k <-> wired there known l n k \/ (the_name c = k /\ chosen c n /\ (there k \/ created known (l ++ [(e, c)]) k)).
Proof.
  unfold wired. split.
  - intros (l1 & e' & c' & l2 & E & H). destruct l2 as [|x l2] using rev_ind.
    + apply app_inj_tail in E. destruct E as [-> [= -> ->]]. right. exact H.
    + left. rewrite app_comm_cons, app_assoc in E. apply app_inj_tail in E. destruct E as [-> _]. exists l1, e', c', l2. tauto.
  - intros [(l1 & e' & c' & l2 & -> & H)|H].
    + exists l1, e', c', (l2 ++ [(e, c)]). rewrite <- app_assoc. auto.
    + exists l, e, c, []. auto.
Qed.
Lemma unique_key {T} (l : list (str * T)) k v w : sorted l -> In (k, v) l -> In (k, w) l -> v = w.
Proof. intros S H1 H2. apply map_get_in in H1, H2; auto. congruence. Qed.
Lemma unique_output m k k' o : wf m -> In (k, o) (omap m) -> In (k', o) (omap m) -> k = k'.
Proof. intros W H1 H2. destruct (w_o _ W _ _ H1) as (x & E & <-), (w_o _ W _ _ H2) as (y & E' & <-). congruence. Qed.
Lemma create_outputs m : wf m -> forall l, (forall x, In x l -> In x (ocfg m)) -> exists m', foldM create_output l m = Ok m' /\ wf m' /\ outputs_done m l m'.
Proof.
  intros W l HL.
  destruct (foldM_done create_output (fun d m' => wf m' /\ outputs_done m d m') l) with (b := m) as (m' & E & R); [| |eauto].
  - intros d [e c] r m1 D (W1 & G). unfold create_output. cbn [fst snd].
    set (m2 := set_ocfg m1 _). assert (W2 : wf m2) by (apply wf_set_ocfg; auto; apply map_put_sorted, (w_ocfg _ W1)).
    assert (OC : forall e', In e' (map fst (ocfg m2)) <-> In e' (map fst (ocfg m)) \/ In e' (map fst (d ++ [(e, c)]))).
    { intros e'. rewrite map_app. cbn [map fst]. rewrite in_snoc. rewrite <- or_assoc, <- (d_ocfg _ _ _ G), !keys_in. unfold m2. cbn. split.
      - intros [v H]. apply map_put_in in H; [|apply (w_ocfg _ W1)]. destruct H as [[-> _]|[_ H]]; eauto.
      - intros H. destruct (list_eq_dec ascii_dec e' e) as [->|N]; [eexists; apply map_put_in; [apply (w_ocfg _ W1)|left; split; reflexivity]|].
        destruct H as [[v H]|H]; [|congruence]. exists v. apply map_put_in; [apply (w_ocfg _ W1)|]. auto. }
    change (omap m2) with (omap m1). change (ofac m2) with (ofac m1).
    destruct (map_get (omap m1) (the_name c)) as [o|] eqn:M.
    + (* the output is there *)
      apply map_get_in in M; [|apply (w_omap _ W1)].
      destruct (connect_all_ok m2 o c W2) as (m3 & E3 & W3 & F3 & O3 & M3). { right. eauto. }
      rewrite E3. exists m3. split; auto. split; auto. pose proof F3 as (A1&A2&A3&A4&A5&A6&A7&A8&A9&A0). cbn in A1,A2,A3,A4,A5,A6,A7,A8,A9,A0.
      assert (HK : hasO m (the_name c) \/ created (ofac m) d (the_name c)) by (apply (d_keys _ _ _ G); exists o; exact M).
      destruct G. split; try congruence.
      * intros e'. rewrite A2. apply OC.
      * intros k p H. rewrite A7. auto.
      * intros p x H. rewrite O3. cbn. auto.
      * intros k. unfold hasO at 1. rewrite A7. rewrite created_snoc. transitivity (hasO m k \/ created (ofac m) d k); [apply d_keys0|]. split; [tauto|]. intros [H|[H|[<- H]]]; auto.
      * intros k p H. rewrite A7 in H. destruct (d_level0 k p H) as [H1|(l1 & e1 & c1 & l2 & H1 & H2)]; auto. right. exists l1, e1, c1, (l2 ++ [(e, c)]). subst d. rewrite <- app_assoc. rewrite O3. tauto.
      * assert (M3' : more m1 m3 (fun n p => p = o /\ chosen c n)) by exact M3.
        apply (more_iff _ _ _ _ (more_trans _ _ _ _ _ d_more0 M3')). intros n p. rewrite A7. split.
        -- intros [(k & I & H)|[-> H]]; [exists k|exists (the_name c)]; (split; [assumption|]); apply wired_snoc; auto. right. rewrite created_snoc. tauto.
        -- intros (k & I & H). apply wired_snoc in H. destruct H as [H|(<- & H & _)]; [left; eauto|]. right. split; auto. apply (unique_key _ _ _ _ (w_omap _ W1) I M).
    + destruct (in_dec (list_eq_dec ascii_dec) (c_kind c) (ofac m1)) as [K|K].
      * (* a new output *)
        cbn [new_output fst snd].
        pose proof (wf_new_output m2 (the_name c) (c_level c) W2 M) as W3. cbn [new_output snd] in W3.
        change (on m2) with (on m1) in *. change (omap (set_on (set_oh m2 (upd (oh m2) (on m1) (Some (mkO (the_name c) (c_level c) false)))) (S (on m1)))) with (omap m1). change (omap m2) with (omap m1) in W3.
        set (m3 := set_omap _ _) in *. pose proof (proj1 (map_get_none _ _ (w_omap _ W1)) M) as M'.
        assert (PI : forall k p, In (k, p) (omap m3) <-> (k = the_name c /\ p = on m1) \/ In (k, p) (omap m1)).
        { intros k p. unfold m3. cbn. rewrite map_put_in by apply (w_omap _ W1). split; [tauto|]. intros [H|H]; auto. right. split; auto. intros ->. exact (M' _ H). }
        destruct (connect_all_ok m3 (on m1) c W3) as (m4 & E4 & W4 & F4 & O4 & M4). { right. exists (the_name c). apply PI. auto. }
        rewrite E4. exists m4. split; auto. split; auto. pose proof F4 as (A1&A2&A3&A4&A5&A6&A7&A8&A9&A0). cbn in A1,A2,A3,A4,A5,A6,A8,A9,A0.
        assert (NK : ~ (hasO m (the_name c) \/ created (ofac m) d (the_name c))). { intros H. apply (d_keys _ _ _ G) in H. destruct H as [p H]. exact (M' _ H). }
        assert (FO : forall p, oh m1 p <> None -> oh m4 p = oh m1 p).
        { intros p H. rewrite O4. unfold m3. cbn. up p (on m1); [|reflexivity]. rewrite (w_on _ W1) in H by lia. congruence. }
        destruct G. rewrite d_ofac0 in K. split; try congruence.
        -- intros e'. rewrite A2. apply OC.
        -- intros k p H. rewrite A7. apply PI. right. auto.
        -- intros p x H. rewrite FO; auto. rewrite (d_oh0 _ _ H). discriminate.
        -- intros k. unfold hasO at 1. rewrite A7, created_snoc. rewrite or_assoc_1. rewrite <- d_keys0. unfold hasO. split.
           ++ intros [p H]. apply PI in H. destruct H as [[-> _]|H]; auto. left. eauto.
           ++ intros [[p H]|[<- H]]; [exists p|exists (on m1)]; apply PI; auto.
        -- intros k p H. rewrite A7 in H. apply PI in H. destruct H as [[-> ->]|H].
           ++ right. exists d, e, c, []. rewrite O4. unfold m3. cbn. rewrite upd_same. repeat split; auto.
           ++ destruct (w_o _ W1 _ _ H) as (x & EX & _). rewrite FO by congruence.
              destruct (d_level0 k p H) as [H1|(l1 & e1 & c1 & l2 & H1 & H2)]; auto. right. exists l1, e1, c1, (l2 ++ [(e, c)]). subst d. rewrite <- app_assoc. tauto.
        -- assert (M4' : more m1 m4 (fun n p => p = on m1 /\ chosen c n)) by exact M4.
           apply (more_iff _ _ _ _ (more_trans _ _ _ _ _ d_more0 M4')). intros n p. rewrite A7. split.
           ++ intros [(k & I & H)|[-> H]]; [exists k|exists (the_name c)]; (split; [apply PI; auto|]); apply wired_snoc; auto. right. rewrite created_snoc. tauto.
           ++ intros (k & I & H). apply PI in I. apply wired_snoc in H. destruct I as [[-> ->]|I].
              ** right. split; auto. destruct H as [(l1 & e1 & c1 & l2 & D1 & H1 & H2 & H3)|H]; [|tauto]. exfalso. apply NK. destruct H3 as [H3|H3]; auto. right.
                 destruct H3 as (e2 & c2 & H3 & H4). exists e2, c2. split; auto. subst d. apply in_snoc in H3. apply in_or_app. cbn. destruct H3 as [H3|H3]; [auto|right; left; auto].
              ** destruct H as [H|(<- & H & _)]; [left; eauto|]. exfalso. exact (M' _ I).
      * (* no factory *)
        exists m2. split; auto. split; auto. destruct G. rewrite d_ofac0 in K. split; auto.
        -- intros k. rewrite created_snoc. specialize (d_keys0 k). change (hasO m2 k) with (hasO m1 k). rewrite d_keys0. split; [tauto|]. intros [H|[H|[_ H]]]; auto. destruct (K H).
        -- intros k p H. destruct (d_level0 k p H) as [H1|(l1 & e1 & c1 & l2 & H1 & H2)]; auto. right. exists l1, e1, c1, (l2 ++ [(e, c)]). subst d. rewrite <- app_assoc. tauto.
        -- assert (H : more m m2 (fun n o => exists k, In (k, o) (omap m1) /\ wired (hasO m) (ofac m) d n k)) by exact d_more0.
           apply (more_iff _ _ _ _ H). intros n p. change (omap m2) with (omap m1). split.
           ++ intros (k & I & H1). exists k. split; auto. apply wired_snoc. auto.
           ++ intros (k & I & H1). exists k. split; auto. apply wired_snoc in H1. destruct H1 as [H1|(<- & H1 & _)]; auto. exfalso.
              apply (map_get_none _ _ (w_omap _ W1)) with (v := p) in M. auto.
  - split; auto. split; auto.
    + intros e. cbn. tauto.
    + intros k. split; auto. intros [H|(e & c & [] & _)]. exact H.
    + intros k o H. left. exists o. exact H.
    + apply more_same; auto. intros n o (k & _ & l1 & e & c & l2 & H & _). destruct l1; discriminate H.
Qed.
