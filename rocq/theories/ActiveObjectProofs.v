From Verif Require Import Conc ActiveObjectModel ActiveObjectSpec.

(* ---- the nine kinds of transition, as a case analysis ---------------------------------------------- *)
Ltac inj E := injection E as <-.

(* ---- A: lock ownership and heads ------------------------------------------------------------------- *)
Definition wcrit (p : wpc) : bool := match p with W51 | W52 _ | W55 _ => true | _ => false end.
Definition ccrit (p : cpc) : bool := match p with C85 _ | C86 => true | _ => false end.
Definition whead (p : wpc) (q : list op) : Prop :=
  match p with
  | W48 | W51 | W68 | W69 => q <> []
  | W52 o => exists q', q = o :: q'
  | WUB => False
  | _ => True
  end.
Record invA (s : st) : Prop := {
  a_w : wcrit (wk s) = true <-> mtx s = Some Worker;
  a_c : forall t, ccrit (cl s t) = true <-> mtx s = Some (Client t);
  a_q : whead (wk s) (queue s)
}.

Lemma invA_init : invA init.
Proof. constructor; cbn; [split; discriminate|intros t; split; discriminate|exact Logic.I]. Qed.

Ltac updc u t := unfold upd; destruct (Nat.eqb_spec u t) as [->|?].

Lemma whead_app p q o : whead p q -> whead p (q ++ [o]).
Proof.
  destruct p; cbn; auto; try (intros H F; apply app_eq_nil in F; destruct F; discriminate).
  intros (q' & ->). exists (q' ++ [o]). reflexivity.
Qed.

Lemma invA_step s s' : invA s -> any s s' -> invA s'.
Proof.
  intros [Aw Ac Aq] [w ST]. destruct ST as [s s' E|s s' E|t s s' E|s E|t s E|t s E].
  - unfold wstep in E. destruct (wk s) eqn:Ew; try discriminate E; cbn in Aw, Aq.
    + inj E. constructor; cbn; auto; destruct (execute s); cbn; auto.
    + destruct (sem s); [discriminate|]. inj E. constructor; cbn; auto.
    + inj E. constructor; cbn; auto; destruct (execute s); cbn; auto.
    + inj E. constructor; cbn; auto; destruct (queue s); cbn; auto. discriminate.
    + destruct (mtx s) eqn:Em; [discriminate|]. inj E. constructor; cbn; auto; [tauto|].
      intros u. split; [|discriminate]. intros H. apply Ac in H. discriminate.
    + inj E. destruct (queue s) eqn:Eq; [tauto|]. constructor; cbn; rewrite ?Eq; auto. eauto.
    + destruct Aq as (q' & Eq). rewrite Eq in E. inj E. constructor; cbn; auto.
    + inj E. assert (M : mtx s = Some Worker) by tauto.
      constructor; cbn; auto; [split; discriminate|]. intros u. split; [|discriminate].
      intros H. apply Ac in H. congruence.
    + inj E. constructor; cbn; auto.
    + inj E. constructor; cbn; auto.
    + inj E. constructor; cbn; auto; destruct (queue s); cbn; auto. discriminate.
    + destruct (queue s) eqn:Eq; [tauto|]. inj E. constructor; cbn; rewrite ?Eq; auto.
    + destruct (queue s) eqn:Eq; [tauto|]. inj E. constructor; cbn; auto.
    + inj E. constructor; cbn; auto.
  - unfold wspurious in E. destruct (wk s) eqn:Ew; try discriminate E. inj E. constructor; cbn; auto.
  - unfold cstep in E. destruct (cl s t) eqn:Ec; try discriminate E.
    + inj E. constructor; cbn; auto. intros u. pose proof (Ac t) as At. rewrite Ec in At.
      updc u t; [|apply Ac]. destruct (execute s); exact At.
    + destruct (mtx s) eqn:Em; [discriminate|]. inj E. constructor; cbn; auto.
      * split; [|discriminate]. intros H. apply Aw in H. discriminate.
      * intros u. updc u t; cbn; [tauto|]. split; [|congruence]. intros H. apply Ac in H. discriminate.
    + inj E. constructor; cbn; auto; [|apply whead_app; auto].
      intros u. pose proof (Ac t) as At. rewrite Ec in At. updc u t; [exact At|apply Ac].
    + inj E. assert (M : mtx s = Some (Client t)) by (apply Ac; rewrite Ec; reflexivity).
      constructor; cbn; auto.
      * split; [|discriminate]. intros H. apply Aw in H. congruence.
      * intros u. updc u t; cbn; [split; discriminate|]. split; [|discriminate]. intros H. apply Ac in H. congruence.
    + inj E. constructor; cbn; auto. intros u. pose proof (Ac t) as At. rewrite Ec in At. updc u t; [exact At|apply Ac].
    + inj E. constructor; cbn; auto. intros u. pose proof (Ac t) as At. rewrite Ec in At. updc u t; [exact At|apply Ac].
    + inj E. constructor; cbn; auto. intros u. pose proof (Ac t) as At. rewrite Ec in At. updc u t; [exact At|apply Ac].
    + inj E. constructor; cbn; auto. intros u. pose proof (Ac t) as At. rewrite Ec in At. updc u t; [exact At|apply Ac].
  - rewrite E in Aw. constructor; cbn; auto.
  - constructor; cbn; auto. intros u. pose proof (Ac t) as At. rewrite E in At. updc u t; [exact At|apply Ac].
  - constructor; cbn; auto. intros u. pose proof (Ac t) as At. rewrite E in At. updc u t; [exact At|apply Ac].
Qed.

Lemma reach_invA s : reach init any s -> invA s.
Proof. intros R. induction R; [apply invA_init|eapply invA_step; eauto]. Qed.

Lemma NoDup_snoc {A} (l : list A) x : NoDup l -> ~ In x l -> NoDup (l ++ [x]).
Proof.
  intros H N. induction H as [|y l Hy H IH]; cbn; [constructor; auto; constructor|].
  constructor; [|apply IH; intros F; apply N; right; auto].
  intros F. apply in_app_or in F. destruct F as [F|[->|[]]]; auto. apply N. left. auto.
Qed.

(* ---- B: the life of each operation ------------------------------------------------------------------ *)
Definition holds (p : cpc) (o : op) : Prop :=
  match p with C83 x | C83l x | C85 x | C91 x => x = o | _ => False end.
Definition whist (p : wpc) (o : op) : list event -> Prop :=
  match p with
  | W59 x => fun h => x = o -> h = [EPush o; EInvoke o]
  | W55 x | W58 x => fun h => x = o -> h = [EPush o]
  | _ => fun _ => True
  end.
Definition inhand (p : wpc) (o : op) : Prop := match p with W55 x | W58 x | W59 x => x = o | _ => False end.
Definition qhist (s : st) (o : op) : Prop :=
  if match wk s, queue s with W69, x :: _ => x =? o | _, _ => false end
  then history o (trace s) = [EPush o; EDelete o] else history o (trace s) = [EPush o].

Arguments qhist : simpl never.
Arguments history : simpl never.
Arguments good_history : simpl never.
Record invB (s : st) : Prop := {
  b_fresh : forall o, next s <= o -> history o (trace s) = [];
  b_hold : forall t o, holds (cl s t) o -> o < next s /\ history o (trace s) = [];
  b_hold1 : forall t u o, holds (cl s t) o -> holds (cl s u) o -> t = u;
  b_nodup : NoDup (queue s);
  b_queue : forall o, In o (queue s) -> qhist s o;
  b_hand : forall o, inhand (wk s) o -> ~ In o (queue s);
  b_whist : forall o, whist (wk s) o (history o (trace s));
  b_good : forall o, good_history o (history o (trace s))
}.

Lemma history_app o l1 l2 : history o (l1 ++ l2) = history o l1 ++ history o l2.
Proof. apply filter_app. Qed.

Lemma invB_init : invB init.
Proof.
  constructor; cbn; auto; try tauto; try constructor; auto.
Qed.

Lemma qhist_plain s o : wk s <> W69 -> qhist s o -> history o (trace s) = [EPush o].
Proof. unfold qhist. intros N. destruct (wk s); auto. congruence. Qed.
Lemma qhist_intro s o : wk s <> W69 -> history o (trace s) = [EPush o] -> qhist s o.
Proof. unfold qhist. intros N H. destruct (wk s); auto. congruence. Qed.

(* moving the worker without touching queue, trace or clients *)
Lemma invB_wgoto s p : invB s -> wk s <> W69 -> p <> W69 ->
  (forall o, inhand p o -> ~ In o (queue s)) ->
  (forall o, whist p o (history o (trace s))) -> invB (wgoto s p).
Proof.
  intros B N N' H1 H2. destruct B as [Bf Bh B1 Bn Bq Bd Bw Bg]. constructor; cbn; auto.
  intros o Ho. apply qhist_intro; cbn; auto. apply qhist_plain; auto.
Qed.
(* changes that concern neither histories nor clients *)
Lemma invB_ext s s' : invB s -> queue s' = queue s -> wk s' = wk s -> cl s' = cl s -> next s' = next s ->
  trace s' = trace s -> invB s'.
Proof.
  intros [Bf Bh B1 Bn Bq Bd Bw Bg] E1 E2 E3 E4 E5.
  constructor; unfold qhist in *; rewrite ?E1, ?E2, ?E3, ?E4, ?E5; auto.
Qed.
(* a client moves and holds nothing new *)
Lemma invB_cgoto s t p : invB s -> (forall o, holds p o -> holds (cl s t) o) -> invB (cgoto s t p).
Proof.
  intros [Bf Bh B1 Bn Bq Bd Bw Bg] H. constructor; cbn; auto.
  - intros u o. updc u t; [|apply Bh]. intros Ho. eapply Bh. eauto.
  - intros u v o. updc u t; updc v t; eauto.
Qed.

Lemma good_delete_after_invoke o : good_history o [EPush o; EInvoke o; EDelete o].
Proof. unfold good_history. auto 10. Qed.

(* an event about x *)
Lemma history_emit_other o x l e : about o e = false -> x = l ++ [e] -> history o x = history o l.
Proof. intros H ->. rewrite history_app; unfold history at 2; cbn. rewrite H. apply app_nil_r. Qed.

Lemma about_neq o x : x <> o -> (x =? o) = false.
Proof. apply Nat.eqb_neq. Qed.

Lemma invB_step s s' : invA s -> invB s -> any s s' -> invB s'.
Proof.
  intros A B [w ST]. destruct ST as [s s' E|s s' E|t s s' E|s E|t s E|t s E].
  - unfold wstep in E. pose proof (a_q _ A) as Aq.
    destruct (wk s) as [| | | | | | |x|x|x|x| | | | |] eqn:Ew; try discriminate E; cbn in Aq.
    + inj E. destruct (execute s); apply invB_wgoto; cbn; auto; congruence.
    + destruct (sem s); [discriminate|]. inj E.
      apply (invB_wgoto (set_sem s n)); cbn; auto; try congruence. eapply invB_ext; eauto.
    + inj E. destruct (execute s); apply invB_wgoto; cbn; auto; congruence.
    + inj E. destruct (queue s) eqn:Eq; apply invB_wgoto; cbn; auto; congruence.
    + destruct (mtx s) eqn:Em; [discriminate|]. inj E.
      apply (invB_wgoto (set_mtx s _)); cbn; auto; try congruence. eapply invB_ext; eauto.
    + inj E. destruct (queue s) eqn:Eq; apply invB_wgoto; cbn; auto; congruence.
    + (* W52: pop *)
      destruct Aq as (q & Eq). rewrite Eq in E. inj E. destruct B as [Bf Bh B1 Bn Bq Bd Bw Bg].
      rewrite Eq in *. apply NoDup_cons_iff in Bn as (Nx & Bn).
      assert (P : forall o, In o (x :: q) -> history o (trace s) = [EPush o]).
      { intros o Ho. apply qhist_plain; [congruence|auto]. }
      constructor; cbn; auto.
      * intros o Ho. apply qhist_intro; cbn; [congruence|]. apply P. right. auto.
      * intros o ->. auto.
      * intros o ->. apply P. left. auto.
    + inj E. destruct B as [Bf Bh B1 Bn Bq Bd Bw Bg]. rewrite Ew in *. constructor; cbn; auto.
      intros o Ho. apply qhist_intro; cbn; [congruence|]. apply qhist_plain; auto. congruence.
    + (* W58: invoke *)
      inj E. destruct B as [Bf Bh B1 Bn Bq Bd Bw Bg]. rewrite Ew in *. cbn in Bd, Bw.
      assert (Hx : history x (trace s) = [EPush x]) by (apply Bw; auto).
      assert (H : forall o, o <> x -> history o (trace s ++ [EInvoke x]) = history o (trace s)).
      { intros o No. rewrite history_app; unfold history at 2; cbn. rewrite about_neq by congruence. apply app_nil_r. }
      assert (Hx' : history x (trace s ++ [EInvoke x]) = [EPush x; EInvoke x]).
      { rewrite history_app, Hx; unfold history; cbn. rewrite Nat.eqb_refl. reflexivity. }
      constructor; cbn; auto.
      * intros o Ho. rewrite H; auto. intros ->. rewrite (Bf _ Ho) in Hx. discriminate.
      * intros t o Ho. destruct (Bh t o Ho). rewrite H; auto. intros ->. congruence.
      * intros o Ho. apply qhist_intro; cbn; [congruence|]. rewrite H; [apply qhist_plain; auto; congruence|].
        intros ->. apply (Bd x); auto.
      * intros o ->. auto.
      * intros o. destruct (Nat.eq_dec o x) as [->|N]; [|rewrite H; auto]. rewrite Hx'. unfold good_history. auto 10.
    + (* W59: delete *)
      inj E. destruct B as [Bf Bh B1 Bn Bq Bd Bw Bg]. rewrite Ew in *. cbn in Bd, Bw.
      assert (Hx : history x (trace s) = [EPush x; EInvoke x]) by (apply Bw; auto).
      assert (H : forall o, o <> x -> history o (trace s ++ [EDelete x]) = history o (trace s)).
      { intros o No. rewrite history_app; unfold history at 2; cbn. rewrite about_neq by congruence. apply app_nil_r. }
      assert (Hx' : history x (trace s ++ [EDelete x]) = [EPush x; EInvoke x; EDelete x]).
      { rewrite history_app, Hx; unfold history; cbn. rewrite Nat.eqb_refl. reflexivity. }
      constructor; cbn; auto.
      * intros o Ho. rewrite H; auto. intros ->. rewrite (Bf _ Ho) in Hx. discriminate.
      * intros t o Ho. destruct (Bh t o Ho). rewrite H; auto. intros ->. congruence.
      * intros o Ho. apply qhist_intro; cbn; [congruence|]. rewrite H; [apply qhist_plain; auto; congruence|].
        intros ->. apply (Bd x); auto.
      * intros o. destruct (Nat.eq_dec o x) as [->|N]; [|rewrite H; auto]. rewrite Hx'. unfold good_history. auto 10.
    + inj E. destruct (queue s) eqn:Eq; apply invB_wgoto; cbn; auto; congruence.
    + (* W68: delete front *)
      destruct (queue s) as [|x q] eqn:Eq; [tauto|]. inj E.
      destruct B as [Bf Bh B1 Bn Bq Bd Bw Bg]. rewrite Ew, ?Eq in *.
      assert (P : forall o, In o (x :: q) -> history o (trace s) = [EPush o]).
      { intros o Ho. apply qhist_plain; [congruence|auto]. }
      assert (Hx : history x (trace s) = [EPush x]) by (apply P; left; auto).
      assert (H : forall o, o <> x -> history o (trace s ++ [EDelete x]) = history o (trace s)).
      { intros o No. rewrite history_app; unfold history at 2; cbn. rewrite about_neq by congruence. apply app_nil_r. }
      assert (Hx' : history x (trace s ++ [EDelete x]) = [EPush x; EDelete x]).
      { rewrite history_app, Hx; unfold history; cbn. rewrite Nat.eqb_refl. reflexivity. }
      constructor; cbn; rewrite ?Eq; auto.
      * intros o Ho. rewrite H; auto. intros ->. rewrite (Bf _ Ho) in Hx. discriminate.
      * intros t o Ho. destruct (Bh t o Ho). rewrite H; auto. intros ->. congruence.
      * intros o Ho. unfold qhist. cbn. rewrite Eq. destruct (Nat.eqb_spec x o) as [->|N].
        -- exact Hx'.
        -- rewrite H by congruence. apply P. auto.
      * intros o. destruct (Nat.eq_dec o x) as [->|N]; [|rewrite H; auto]. rewrite Hx'. unfold good_history. auto 10.
    + (* W69: pop *)
      destruct (queue s) as [|x q] eqn:Eq; [tauto|]. inj E.
      destruct B as [Bf Bh B1 Bn Bq Bd Bw Bg]. rewrite Eq in *. apply NoDup_cons_iff in Bn as (Nx & Bn).
      constructor; cbn; auto.
      intros o Ho. apply qhist_intro; cbn; [congruence|].
      assert (Q := Bq o (or_intror Ho)). unfold qhist in Q. rewrite Ew, Eq in Q.
      destruct (Nat.eqb_spec x o) as [->|N]; [tauto|exact Q].
    + inj E. apply (invB_wgoto (set_execute s false)); cbn; auto; try congruence. eapply invB_ext; eauto.
  - unfold wspurious in E. destruct (wk s) eqn:Ew; try discriminate E. inj E. apply invB_wgoto; cbn; auto; congruence.
  - unfold cstep in E. destruct (cl s t) as [|x|x|x| | |x| |] eqn:Ec; try discriminate E.
    + inj E. apply invB_cgoto; auto. intros o. rewrite Ec. destruct (execute s); auto.
    + destruct (mtx s) eqn:Em; [discriminate|]. inj E. apply invB_cgoto.
      * eapply invB_ext; eauto.
      * intros o. cbn. rewrite Ec. auto.
    + (* push *)
      inj E. destruct B as [Bf Bh B1 Bn Bq Bd Bw Bg].
      destruct (Bh t x) as (Lx & Hx); [rewrite Ec; reflexivity|].
      assert (H : forall o, o <> x -> history o (trace s ++ [EPush x]) = history o (trace s)).
      { intros o No. rewrite history_app; unfold history at 2; cbn. rewrite about_neq by congruence. apply app_nil_r. }
      assert (Hx' : history x (trace s ++ [EPush x]) = [EPush x]).
      { rewrite history_app, Hx; unfold history; cbn. rewrite Nat.eqb_refl. reflexivity. }
      assert (Nx : ~ In x (queue s)).
      { intros F. apply Bq in F. unfold qhist in F. rewrite Hx in F. destruct (match wk s with W69 => _ | _ => _ end); discriminate. }
      assert (Hd : ~ inhand (wk s) x).
      { intros F. pose proof (Bw x) as W. rewrite Hx in W. destruct (wk s); cbn in F, W; try tauto; apply W in F; discriminate. }
      constructor; cbn; auto.
      * intros o Ho. rewrite H; [auto|lia].
      * intros u o. updc u t; [cbn; tauto|]. intros Ho. destruct (Bh u o Ho). rewrite H; auto. intros ->.
        apply n. apply (B1 u t x); auto. rewrite Ec. reflexivity.
      * intros u v o. updc u t; [cbn; tauto|]. updc v t; [cbn; tauto|]. apply B1.
      * apply NoDup_snoc; auto.
      * intros o Ho. apply in_app_or in Ho. unfold qhist. cbn.
        destruct Ho as [Ho|[->|[]]].
        -- assert (o <> x) by congruence. specialize (Bq o Ho). unfold qhist in Bq.
           replace (match wk s with W69 => match queue s ++ [x] with [] => false | x0 :: _ => x0 =? o end | _ => false end)
             with (match wk s with W69 => match queue s with [] => false | x0 :: _ => x0 =? o end | _ => false end).
           { rewrite H; auto. }
           destruct (queue s); [destruct Ho|]. reflexivity.
        -- replace (match wk s with W69 => match queue s ++ [o] with [] => false | x0 :: _ => x0 =? o end | _ => false end)
             with false; auto.
           pose proof (a_q _ A) as Aq. destruct (wk s); auto. cbn in Aq. destruct (queue s) as [|y q]; [tauto|]. cbn.
           symmetry. apply Nat.eqb_neq. intros ->. apply Nx. left. auto.
      * intros o Ho F. apply in_app_or in F. destruct F as [F|[->|[]]]; [apply (Bd o); auto|auto].
      * intros o. destruct (Nat.eq_dec o x) as [->|N]; [|rewrite H; auto].
        destruct (wk s); cbn in *; auto; intros F; tauto.
      * intros o. destruct (Nat.eq_dec o x) as [->|N]; [|rewrite H; auto]. rewrite Hx'. unfold good_history. auto 10.
    + inj E. apply invB_cgoto; [eapply invB_ext; eauto|]. cbn. tauto.
    + inj E. apply invB_cgoto; [eapply invB_ext; eauto|]. cbn. tauto.
    + (* rejected: delete *)
      inj E. destruct B as [Bf Bh B1 Bn Bq Bd Bw Bg].
      destruct (Bh t x) as (Lx & Hx); [rewrite Ec; reflexivity|].
      assert (H : forall o, o <> x -> history o (trace s ++ [EDelete x]) = history o (trace s)).
      { intros o No. rewrite history_app; unfold history at 2; cbn. rewrite about_neq by congruence. apply app_nil_r. }
      assert (Hx' : history x (trace s ++ [EDelete x]) = [EDelete x]).
      { rewrite history_app, Hx; unfold history; cbn. rewrite Nat.eqb_refl. reflexivity. }
      assert (Nx : ~ In x (queue s)).
      { intros F. apply Bq in F. unfold qhist in F. rewrite Hx in F. destruct (match wk s with W69 => _ | _ => _ end); discriminate. }
      assert (Hd : ~ inhand (wk s) x).
      { intros F. pose proof (Bw x) as W. rewrite Hx in W. destruct (wk s); cbn in F, W; try tauto; apply W in F; discriminate. }
      constructor; cbn; auto.
      * intros o Ho. rewrite H; [auto|lia].
      * intros u o. updc u t; [cbn; tauto|]. intros Ho. destruct (Bh u o Ho). rewrite H; auto. intros ->.
        apply n. apply (B1 u t x); auto. rewrite Ec. reflexivity.
      * intros u v o. updc u t; [cbn; tauto|]. updc v t; [cbn; tauto|]. apply B1.
      * intros o Ho. specialize (Bq o Ho). unfold qhist in *. cbn. rewrite H by congruence. exact Bq.
      * intros o. destruct (Nat.eq_dec o x) as [->|N]; [|rewrite H; auto].
        destruct (wk s); cbn in *; auto; intros F; tauto.
      * intros o. destruct (Nat.eq_dec o x) as [->|N]; [|rewrite H; auto]. rewrite Hx'. unfold good_history. auto 10.
    + (* stop *)
      inj E.
      assert (H : forall o, history o (trace s ++ [EStop]) = history o (trace s)).
      { intros o. rewrite history_app; unfold history at 2; cbn. apply app_nil_r. }
      apply invB_cgoto; [|cbn; tauto]. destruct B as [Bf Bh B1 Bn Bq Bd Bw Bg].
      constructor; cbn; auto; intros; rewrite ?H; auto.
      * eapply Bh; eauto.
      * unfold qhist in *. cbn. rewrite H. apply Bq. auto.
    + inj E. apply invB_cgoto; [eapply invB_ext; eauto|]. cbn. tauto.
  - apply (invB_wgoto (set_execute s true)); cbn; auto; try congruence. eapply invB_ext; eauto.
  - destruct B as [Bf Bh B1 Bn Bq Bd Bw Bg]. constructor; cbn; auto.
    + intros o Ho. apply Bf. lia.
    + intros u o. updc u t; cbn.
      * intros <-. split; [lia|apply Bf; lia].
      * intros Ho. destruct (Bh u o Ho). split; [lia|auto].
    + intros u v o. updc u t; updc v t; cbn; auto.
      * intros <- Ho. apply Bh in Ho. lia.
      * intros Ho <-. apply Bh in Ho. lia.
      * apply B1.
  - apply invB_cgoto; auto. cbn. tauto.
Qed.

Lemma reach_invB s : reach init any s -> invB s.
Proof. intros R. induction R; [apply invB_init|]. eapply invB_step; eauto. apply reach_invA; auto. Qed.

(* ---- C: order -------------------------------------------------------------------------------------- *)
Lemma sub_refl {A} (l : list A) : subsequence l l.
Proof. induction l; [apply sub_nil|apply sub_take; auto]. Qed.
Lemma sub_nil_l {A} (l : list A) : subsequence [] l.
Proof. induction l; constructor; auto. Qed.
Lemma sub_app {A} (l1 l2 k1 k2 : list A) : subsequence l1 l2 -> subsequence k1 k2 -> subsequence (l1 ++ k1) (l2 ++ k2).
Proof. intros H K. induction H; cbn; auto; [apply sub_skip|apply sub_take]; auto. Qed.
Lemma sub_drop_l {A} (l1 l2 l3 : list A) : subsequence (l1 ++ l2) l3 -> subsequence l1 l3.
Proof.
  intros H. remember (l1 ++ l2) as l eqn:E. revert l1 l2 E.
  induction H as [|x k l H IH|x k l H IH]; intros l1 l2 E.
  - symmetry in E. apply app_eq_nil in E. destruct E. subst. constructor.
  - constructor. eapply IH; eauto.
  - destruct l1 as [|y l1]; cbn in E; [apply sub_nil_l|]. injection E as -> ->. apply sub_take. eapply IH; eauto.
Qed.

Arguments pushes : simpl never.
Arguments invokes : simpl never.
Lemma pushes_app l k : pushes (l ++ k) = pushes l ++ pushes k.
Proof. apply flat_map_app. Qed.
Lemma invokes_app l k : invokes (l ++ k) = invokes l ++ invokes k.
Proof. apply flat_map_app. Qed.

Lemma pushes_1 e : pushes [e] = match e with EPush o => [o] | _ => [] end.
Proof. destruct e; reflexivity. Qed.
Lemma invokes_1 e : invokes [e] = match e with EInvoke o => [o] | _ => [] end.
Proof. destruct e; reflexivity. Qed.

(* the operation popped but not yet invoked *)
Definition hand (p : wpc) : list op := match p with W55 o | W58 o => [o] | _ => [] end.
(* every action leaves the discipline "pushed = taken ++ queue, invoked ++ hand is a subsequence of taken" *)
Definition invC (s : st) : Prop :=
  exists tk, pushes (trace s) = tk ++ queue s /\ subsequence (invokes (trace s) ++ hand (wk s)) tk.

Lemma invC_wgoto s p : invC s -> hand (wk s) = hand p -> invC (wgoto s p).
Proof. intros (tk & E & H) Hh. exists tk. cbn. rewrite <- Hh. auto. Qed.

Lemma invC_step s s' : invA s -> invC s -> any s s' -> invC s'.
Proof.
  intros A (tk & Ep & Hs) [w ST]. destruct ST as [s s' E|s s' E|t s s' E|s E|t s E|t s E].
  - unfold wstep in E. pose proof (a_q _ A) as Aq.
    destruct (wk s) as [| | | | | | |x|x|x|x| | | | |] eqn:Ew; try discriminate E; cbn in Aq, Hs.
    + inj E. exists tk. cbn. split; auto. destruct (execute s); auto.
    + destruct (sem s); [discriminate|]. inj E. exists tk. auto.
    + inj E. exists tk. cbn. split; auto. destruct (execute s); auto.
    + inj E. exists tk. cbn. split; auto. destruct (queue s); auto.
    + destruct (mtx s); [discriminate|]. inj E. exists tk. auto.
    + inj E. exists tk. cbn. split; auto. destruct (queue s); auto.
    + destruct Aq as (q & Eq). rewrite Eq in E. inj E. exists (tk ++ [x]). cbn. split.
      * rewrite Ep, Eq, <- app_assoc. reflexivity.
      * rewrite app_nil_r in Hs. apply sub_app; auto. apply sub_refl.
    + inj E. exists tk. auto.
    + inj E. exists tk. cbn. rewrite pushes_app, invokes_app, pushes_1, invokes_1. cbn. rewrite !app_nil_r. auto.
    + inj E. exists tk. cbn. rewrite pushes_app, invokes_app, pushes_1, invokes_1. cbn. rewrite !app_nil_r in *. auto.
    + inj E. exists tk. cbn. split; auto. destruct (queue s); auto.
    + destruct (queue s) as [|x q] eqn:Eq; [tauto|]. inj E. exists tk. cbn.
      rewrite pushes_app, invokes_app, pushes_1, invokes_1, Eq. cbn. rewrite !app_nil_r in *. auto.
    + destruct (queue s) as [|x q] eqn:Eq; [tauto|]. inj E. exists (tk ++ [x]). cbn. split.
      * rewrite Ep, <- app_assoc. reflexivity.
      * rewrite <- (app_nil_r (invokes _ ++ [])). apply sub_app; auto. apply sub_nil_l.
    + inj E. exists tk. auto.
  - unfold wspurious in E. destruct (wk s) eqn:Ew; try discriminate E. inj E. exists tk. cbn in *. auto.
  - unfold cstep in E. destruct (cl s t) as [|x|x|x| | |x| |] eqn:Ec; try discriminate E.
    + inj E. exists tk. auto.
    + destruct (mtx s); [discriminate|]. inj E. exists tk. auto.
    + inj E. exists tk. cbn. rewrite pushes_app, invokes_app, pushes_1, invokes_1, Ep. cbn. rewrite !app_nil_r, app_assoc. auto.
    + inj E. exists tk. auto.
    + inj E. exists tk. auto.
    + inj E. exists tk. cbn. rewrite pushes_app, invokes_app, pushes_1, invokes_1. cbn. rewrite !app_nil_r. auto.
    + inj E. exists tk. cbn. rewrite pushes_app, invokes_app, pushes_1, invokes_1. cbn. rewrite !app_nil_r. auto.
    + inj E. exists tk. auto.
  - exists tk. cbn. rewrite E in Hs. auto.
  - exists tk. auto.
  - exists tk. auto.
Qed.
Lemma reach_invC s : reach init any s -> invC s.
Proof.
  intros R. induction R; [exists []; cbn; split; auto; constructor|].
  eapply invC_step; eauto. apply reach_invA; auto.
Qed.

Lemma order s : reach init any s -> subsequence (invokes (trace s)) (pushes (trace s)).
Proof.
  intros R. destruct (reach_invC s R) as (tk & E & H). rewrite E. apply sub_drop_l in H.
  rewrite <- (app_nil_r (invokes _)). apply sub_app; auto. apply sub_nil_l.
Qed.

(* without stop() nothing is left out *)
Definition invN (s : st) : Prop :=
  ~ In EStop (trace s) ->
  pushes (trace s) = invokes (trace s) ++ hand (wk s) ++ queue s /\
  match wk s with W66 | W68 | W69 | W243 => False | WOff => execute s = false | _ => execute s = true end.

Lemma invN_step s s' : invA s -> invN s -> any s s' -> invN s'.
Proof.
  intros A N [w ST]. destruct ST as [s s' E|s s' E|t s s' E|s E|t s E|t s E].
  - unfold wstep in E. pose proof (a_q _ A) as Aq. unfold invN in *.
    destruct (wk s) as [| | | | | | |x|x|x|x| | | | |] eqn:Ew; try discriminate E; cbn in Aq, N.
    + inj E. cbn. intros H. destruct (N H) as (H1 & H2). rewrite H2. cbn. auto.
    + destruct (sem s); [discriminate|]. inj E. auto.
    + inj E. cbn. intros H. destruct (N H) as (H1 & H2). rewrite H2. cbn. auto.
    + inj E. cbn. intros H. destruct (N H) as (H1 & H2). destruct (queue s); cbn; auto.
    + destruct (mtx s); [discriminate|]. inj E. auto.
    + inj E. cbn. intros H. destruct (N H) as (H1 & H2). destruct (queue s); cbn; auto.
    + destruct Aq as (q & Eq). rewrite Eq in *. inj E. exact N.
    + inj E. exact N.
    + inj E. cbn. rewrite pushes_app, invokes_app, pushes_1, invokes_1. cbn. intros H.
      destruct N as (H1 & H2); [intros F; apply H; apply in_or_app; auto|].
      rewrite app_nil_r, <- app_assoc. auto.
    + inj E. cbn. rewrite pushes_app, invokes_app, pushes_1, invokes_1. cbn. intros H.
      destruct N as (H1 & H2); [intros F; apply H; apply in_or_app; auto|]. rewrite !app_nil_r. auto.
    + inj E. cbn. intros H. destruct (N H) as (_ & []).
    + destruct (queue s) eqn:Eq; [tauto|]. inj E. cbn. intros H.
      destruct N as (_ & []). intros F; apply H; apply in_or_app; auto.
    + destruct (queue s) eqn:Eq; [tauto|]. inj E. cbn. intros H. destruct (N H) as (_ & []).
    + inj E. cbn. intros H. destruct (N H) as (_ & []).
  - unfold wspurious in E. unfold invN in *. destruct (wk s) eqn:Ew; try discriminate E. inj E. cbn in *. auto.
  - unfold cstep in E. unfold invN in *. destruct (cl s t) as [|x|x|x| | |x| |] eqn:Ec; try discriminate E.
    + inj E. auto.
    + destruct (mtx s); [discriminate|]. inj E. auto.
    + inj E. cbn. rewrite pushes_app, invokes_app, pushes_1, invokes_1. cbn. intros H.
      destruct N as (H1 & H2); [intros F; apply H; apply in_or_app; auto|].
      rewrite H1, !app_nil_r, <- !app_assoc. auto.
    + inj E. auto.
    + inj E. auto.
    + inj E. cbn. rewrite pushes_app, invokes_app, pushes_1, invokes_1. cbn. intros H.
      destruct N as (H1 & H2); [intros F; apply H; apply in_or_app; auto|]. rewrite !app_nil_r. auto.
    + inj E. cbn. intros H. exfalso. apply H. apply in_or_app. right. left. auto.
    + inj E. auto.
  - unfold invN in *. cbn. rewrite E in N. intros H. destruct (N H) as (H1 & H2). auto.
  - exact N.
  - exact N.
Qed.
Lemma reach_invN s : reach init any s -> invN s.
Proof.
  intros R. induction R; [|eapply invN_step; eauto; apply reach_invA; auto].
  intros _. cbn. auto.
Qed.

(* ---- D: no lost wakeup ------------------------------------------------------------------------------ *)
Definition poster (p : cpc) : Prop := p = C86 \/ p = C87.
Definition waiting (p : wpc) (x : bool) : Prop :=
  match p with WOff | W243 => True | W39 | W41 => x = true | _ => False end.
Record invD (s : st) : Prop := {
  d_op : waiting (wk s) (execute s) -> queue s <> [] -> 0 < sem s \/ exists t, poster (cl s t);
  d_stop : wk s = W41 -> execute s = false -> 0 < sem s \/ exists t, cl s t = C78
}.

Lemma poster_keep s t p : (exists u, poster (cl s u)) -> ~ poster (cl s t) \/ poster p ->
  exists u, poster (upd (cl s) t p u).
Proof.
  intros (u & Hu) Ht. destruct (Nat.eq_dec u t) as [->|N].
  - exists t. rewrite upd_same. tauto.
  - exists u. rewrite upd_other; auto.
Qed.
Lemma c78_keep s t p : (exists u, cl s u = C78) -> cl s t <> C78 -> exists u, upd (cl s) t p u = C78.
Proof. intros (u & Hu) N. exists u. rewrite upd_other; auto. congruence. Qed.

Lemma invD_step s s' : invD s -> any s s' -> invD s'.
Proof.
  intros [D1 D2] [w ST]. destruct ST as [s s' E|s s' E|t s s' E|s E|t s E|t s E].
  - unfold wstep in E. destruct (wk s) as [| | | | | | |x|x|x|x| | | | |] eqn:Ew; try discriminate E.
    + inj E. constructor; cbn; destruct (execute s) eqn:Ex; cbn; auto; try tauto; discriminate.
    + destruct (sem s); [discriminate|]. inj E. constructor; cbn; [tauto|discriminate].
    + inj E. constructor; cbn; destruct (execute s) eqn:Ex; cbn; auto; try tauto; discriminate.
    + inj E. constructor; cbn; destruct (queue s) eqn:Eq; cbn; auto; try tauto; discriminate.
    + destruct (mtx s); [discriminate|]. inj E. constructor; cbn; [tauto|discriminate].
    + inj E. constructor; cbn; destruct (queue s) eqn:Eq; cbn; auto; try tauto; discriminate.
    + inj E. destruct (queue s) eqn:Eq; constructor; cbn; auto; try tauto; discriminate.
    + inj E. constructor; cbn; [tauto|discriminate].
    + inj E. constructor; cbn; [tauto|discriminate].
    + inj E. constructor; cbn; [tauto|discriminate].
    + inj E. constructor; cbn; destruct (queue s) eqn:Eq; cbn; auto; try tauto; discriminate.
    + inj E. destruct (queue s) eqn:Eq; constructor; cbn; auto; try tauto; discriminate.
    + inj E. destruct (queue s) eqn:Eq; constructor; cbn; auto; try tauto; discriminate.
    + inj E. constructor; cbn; [intros _; apply D1; exact I|discriminate].
  - unfold wspurious in E. destruct (wk s) eqn:Ew; try discriminate E. inj E. constructor; cbn; [tauto|discriminate].
  - unfold cstep in E. destruct (cl s t) as [|x|x|x| | |x| |] eqn:Ec; try discriminate E.
    + inj E. constructor; cbn.
      * intros H1 H2. destruct (D1 H1 H2) as [?|?]; [auto|]. right. apply poster_keep; auto. left. rewrite Ec. intros [|]; discriminate.
      * intros H1 H2. destruct (D2 H1 H2) as [?|?]; [auto|]. right. apply c78_keep; auto. congruence.
    + destruct (mtx s); [discriminate|]. inj E. constructor; cbn.
      * intros H1 H2. destruct (D1 H1 H2) as [?|?]; [auto|]. right. apply poster_keep; auto. left. rewrite Ec. intros [|]; discriminate.
      * intros H1 H2. destruct (D2 H1 H2) as [?|?]; [auto|]. right. apply c78_keep; auto. congruence.
    + inj E. constructor; cbn.
      * intros H1 H2. right. exists t. rewrite upd_same. left. auto.
      * intros H1 H2. destruct (D2 H1 H2) as [?|?]; [auto|]. right. apply c78_keep; auto. congruence.
    + inj E. constructor; cbn.
      * intros H1 H2. right. exists t. rewrite upd_same. right. auto.
      * intros H1 H2. destruct (D2 H1 H2) as [?|?]; [auto|]. right. apply c78_keep; auto. congruence.
    + inj E. constructor; cbn; intros; left; lia.
    + inj E. constructor; cbn.
      * intros H1 H2. destruct (D1 H1 H2) as [?|?]; [auto|]. right. apply poster_keep; auto. left. rewrite Ec. intros [|]; discriminate.
      * intros H1 H2. destruct (D2 H1 H2) as [?|?]; [auto|]. right. apply c78_keep; auto. congruence.
    + inj E. constructor; cbn.
      * intros H1 H2. destruct D1 as [?|?]; [|exact H2|auto|].
        -- destruct (wk s); cbn in *; auto; discriminate.
        -- right. apply poster_keep; auto. left. rewrite Ec. intros [|]; discriminate.
      * intros H1 _. right. exists t. apply upd_same.
    + inj E. constructor; cbn; intros; left; lia.
  - constructor; cbn; [intros _; apply D1; rewrite E; exact I|discriminate].
  - constructor; cbn.
    + intros H1 H2. destruct (D1 H1 H2) as [?|?]; [auto|]. right. apply poster_keep; auto. left. rewrite E. intros [|]; discriminate.
    + intros H1 H2. destruct (D2 H1 H2) as [?|?]; [auto|]. right. apply c78_keep; auto. congruence.
  - constructor; cbn.
    + intros H1 H2. destruct (D1 H1 H2) as [?|?]; [auto|]. right. apply poster_keep; auto. left. rewrite E. intros [|]; discriminate.
    + intros H1 H2. destruct (D2 H1 H2) as [?|?]; [auto|]. right. apply c78_keep; auto. congruence.
Qed.
Lemma reach_invD s : reach init any s -> invD s.
Proof.
  intros R. induction R; [|eapply invD_step; eauto]. constructor; cbn; [tauto|discriminate].
Qed.

(* ---- E: m_execute and the phase of the worker -------------------------------------------------------- *)
Definition off_phase (p : wpc) : bool := match p with WOff | W66 | W68 | W69 | W243 => true | _ => false end.
Definition invE (s : st) : Prop := off_phase (wk s) = true -> execute s = false.
Lemma invE_step s s' : invA s -> invE s -> any s s' -> invE s'.
Proof.
  intros A N [w ST]. unfold invE in *. destruct ST as [s s' E|s s' E|t s s' E|s E|t s E|t s E].
  - unfold wstep in E. pose proof (a_q _ A) as Aq.
    destruct (wk s) as [| | | | | | |x|x|x|x| | | | |] eqn:Ew; try discriminate E; cbn in Aq, N.
    + inj E. cbn. destruct (execute s) eqn:Ex; cbn; auto.
    + destruct (sem s); [discriminate|]. inj E. cbn. discriminate.
    + inj E. cbn. destruct (execute s) eqn:Ex; cbn; auto.
    + inj E. cbn. destruct (queue s); discriminate.
    + destruct (mtx s); [discriminate|]. inj E. discriminate.
    + inj E. cbn. destruct (queue s); discriminate.
    + inj E. destruct (queue s); discriminate.
    + inj E. discriminate.
    + inj E. discriminate.
    + inj E. discriminate.
    + inj E. cbn. auto.
    + inj E. destruct (queue s); cbn; auto.
    + inj E. destruct (queue s); cbn; auto.
    + inj E. cbn. auto.
  - unfold wspurious in E. destruct (wk s) eqn:Ew; try discriminate E. inj E. discriminate.
  - unfold cstep in E. destruct (cl s t) as [|x|x|x| | |x| |] eqn:Ec; try discriminate E; try (inj E; cbn; auto).
    destruct (mtx s); [discriminate|]. inj E. cbn. auto.
  - discriminate.
  - exact N.
  - exact N.
Qed.
Lemma reach_invE s : reach init any s -> invE s.
Proof.
  intros R. induction R; [intros _; reflexivity|]. eapply invE_step; eauto. apply reach_invA; auto.
Qed.

(* ---- F: an operation is somewhere --------------------------------------------------------------------- *)
Definition invF (s : st) : Prop := forall o, o < next s ->
  (exists t, holds (cl s t) o) \/ In o (queue s) \/ inhand (wk s) o \/ In (EDelete o) (trace s).

Lemma history_in o l : In (EDelete o) (history o l) -> In (EDelete o) l.
Proof. unfold history. rewrite filter_In. tauto. Qed.

Lemma invF_step s s' : invA s -> invB s -> invF s -> any s s' -> invF s'.
Proof.
  intros A B F [w ST]. unfold invF in *. destruct ST as [s s' E|s s' E|t s s' E|s E|t s E|t s E].
  - unfold wstep in E. pose proof (a_q _ A) as Aq.
    destruct (wk s) as [| | | | | | |x|x|x|x| | | | |] eqn:Ew; try discriminate E; cbn in Aq, F.
    + inj E. cbn. intros o Ho. specialize (F o Ho). tauto.
    + destruct (sem s); [discriminate|]. inj E. exact F.
    + inj E. cbn. intros o Ho. specialize (F o Ho). tauto.
    + inj E. cbn. intros o Ho. specialize (F o Ho). tauto.
    + destruct (mtx s); [discriminate|]. inj E. exact F.
    + inj E. cbn. intros o Ho. specialize (F o Ho). tauto.
    + destruct Aq as (q & Eq). rewrite Eq in *. inj E. cbn. intros o Ho. destruct (F o Ho) as [?|[[?|?]|[?|?]]]; auto; tauto.
    + inj E. exact F.
    + inj E. cbn. intros o Ho. destruct (F o Ho) as [?|[?|[?|?]]]; auto. right. right. right. apply in_or_app. auto.
    + inj E. cbn. intros o Ho. destruct (F o Ho) as [?|[?|[->|?]]]; auto; right; right; right; apply in_or_app; auto.
      right. left. auto.
    + inj E. cbn. intros o Ho. specialize (F o Ho). tauto.
    + destruct (queue s) as [|x q] eqn:Eq; [tauto|]. inj E. cbn. rewrite Eq. intros o Ho.
      destruct (F o Ho) as [?|[?|[?|?]]]; auto. right. right. right. apply in_or_app. auto.
    + destruct (queue s) as [|x q] eqn:Eq; [tauto|]. inj E. cbn. intros o Ho.
      destruct (F o Ho) as [?|[[->|?]|[?|?]]]; auto. right. right. right.
      assert (Q : qhist s o) by (apply (b_queue _ B); rewrite Eq; left; auto).
      unfold qhist in Q. rewrite Ew, Eq, Nat.eqb_refl in Q. apply history_in. rewrite Q. right. left. auto.
    + inj E. exact F.
  - unfold wspurious in E. destruct (wk s) eqn:Ew; try discriminate E. inj E. exact F.
  - assert (HK : forall p o, (forall u, holds (cl s u) o -> u <> t \/ holds p o) -> (exists u, holds (cl s u) o) ->
                 exists u, holds (upd (cl s) t p u) o).
    { intros p o Hp (u & Hu). destruct (Nat.eq_dec u t) as [->|N].
      - exists t. rewrite upd_same. destruct (Hp t Hu); tauto.
      - exists u. rewrite upd_other; auto. }
    unfold cstep in E. destruct (cl s t) as [|x|x|x| | |x| |] eqn:Ec; try discriminate E.
    + inj E. cbn. intros o Ho. destruct (F o Ho) as [H|H]; [left|auto]. revert H. apply HK. intros u Hu.
      destruct (Nat.eq_dec u t) as [->|]; [right|auto]. rewrite Ec in Hu. destruct (execute s); exact Hu.
    + destruct (mtx s); [discriminate|]. inj E. cbn. intros o Ho. destruct (F o Ho) as [H|H]; [left|auto].
      revert H. apply HK. intros u Hu. destruct (Nat.eq_dec u t) as [->|]; [right|auto]. rewrite Ec in Hu. exact Hu.
    + inj E. cbn. intros o Ho. rewrite !in_app_iff. destruct (F o Ho) as [(u & Hu)|[?|[?|?]]]; try tauto.
      destruct (Nat.eq_dec u t) as [->|N].
      * rewrite Ec in Hu. cbn in Hu. subst. right. left. right. left. auto.
      * left. exists u. rewrite upd_other; auto.
    + inj E. cbn. intros o Ho. destruct (F o Ho) as [H|H]; [left|auto]. revert H. apply HK. intros u Hu.
      destruct (Nat.eq_dec u t) as [->|]; [right|auto]. rewrite Ec in Hu. exact Hu.
    + inj E. cbn. intros o Ho. destruct (F o Ho) as [H|H]; [left|auto]. revert H. apply HK. intros u Hu.
      destruct (Nat.eq_dec u t) as [->|]; [right|auto]. rewrite Ec in Hu. exact Hu.
    + inj E. cbn. intros o Ho. rewrite !in_app_iff. destruct (F o Ho) as [(u & Hu)|[?|[?|?]]]; try tauto.
      destruct (Nat.eq_dec u t) as [->|N].
      * rewrite Ec in Hu. cbn in Hu. subst. right. right. right. right. left. auto.
      * left. exists u. rewrite upd_other; auto.
    + inj E. cbn. intros o Ho. rewrite !in_app_iff. destruct (F o Ho) as [H|H]; [left|tauto]. revert H. apply HK. intros u Hu.
      destruct (Nat.eq_dec u t) as [->|]; [right|auto]. rewrite Ec in Hu. exact Hu.
    + inj E. cbn. intros o Ho. destruct (F o Ho) as [H|H]; [left|auto]. revert H. apply HK. intros u Hu.
      destruct (Nat.eq_dec u t) as [->|]; [right|auto]. rewrite Ec in Hu. exact Hu.
  - cbn. intros o Ho. rewrite E in F. specialize (F o Ho). cbn in F. tauto.
  - cbn. intros o Ho. destruct (Nat.eq_dec o (next s)) as [->|N].
    + left. exists t. rewrite upd_same. reflexivity.
    + destruct (F o ltac:(lia)) as [(u & Hu)|?]; [|auto]. left. exists u. rewrite upd_other; auto.
      intros ->. rewrite E in Hu. exact Hu.
  - cbn. intros o Ho. destruct (F o Ho) as [(u & Hu)|?]; [|auto]. left. exists u. rewrite upd_other; auto.
    intros ->. rewrite E in Hu. exact Hu.
Qed.
Lemma reach_invF s : reach init any s -> invF s.
Proof.
  intros R. induction R; [intros o Ho; cbn in Ho; lia|]. eapply invF_step; eauto; [apply reach_invA|apply reach_invB]; auto.
Qed.

Lemma deleted_or_queued s o : reach init any s -> wk s = WOff -> clients_idle s -> o < next s ->
  In (EDelete o) (trace s) \/ In o (queue s).
Proof.
  intros R W C Ho. destruct (reach_invF s R o Ho) as [(t & Ht)|[?|[H|?]]]; auto.
  - rewrite C in Ht. destruct Ht.
  - rewrite W in H. destruct H.
Qed.

(* ---- liveness ------------------------------------------------------------------------------------------ *)
Lemma trace_mono w s s' e : step w s s' -> In e (trace s) -> In e (trace s').
Proof.
  intros ST H. destruct ST as [s s' E|s s' E|t s s' E|s E|t s E|t s E]; cbn; auto.
  - unfold wstep in E. destruct (wk s); try discriminate E; try (inj E; cbn; rewrite ?in_app_iff; auto; fail).
    + destruct (sem s); [discriminate|]. inj E. auto.
    + destruct (mtx s); [discriminate|]. inj E. auto.
    + inj E. destruct (queue s); auto.
    + inj E. destruct (queue s); cbn; rewrite ?in_app_iff; auto.
    + inj E. destruct (queue s); auto.
  - unfold wspurious in E. destruct (wk s); try discriminate E. inj E. auto.
  - unfold cstep in E. destruct (cl s t); try discriminate E; try (inj E; cbn; rewrite ?in_app_iff; auto; fail).
    destruct (mtx s); [discriminate|]. inj E. auto.
Qed.
Lemma exec_mono n s s' e : exec n s s' -> In e (trace s) -> In e (trace s').
Proof. intros X. induction X; auto; intros H'; apply IHX; eapply trace_mono; eauto. Qed.

Definition base (p : wpc) : nat :=
  match p with W39 => 9 | W41 => 8 | W42 => 7 | W45 => 6 | W48 => 5 | W51 => 4 | W52 _ => 3
             | W55 _ => 9 | W58 _ => 8 | W59 _ => 7 | _ => 0 end.
Definition rk (s : st) (o : op) (r : nat) : Prop :=
  (wk s = W55 o /\ r = 2) \/ (wk s = W58 o /\ r = 1) \/
  exists k, nth_error (queue s) k = Some o /\ r = 7 * k + base (wk s).

(* start() needs the worker to be off, when m_execute is false *)
Lemma rk_other s s' o r : step ByOther s s' -> execute s = true -> invE s -> rk s o r -> rk s' o r.
Proof.
  intros ST X IE RK. remember ByOther as w. destruct ST as [s s' E|s s' E|t s s' E|s E|t s E|t s E]; try discriminate.
  - unfold cstep in E. destruct (cl s t) as [|x|x|x| | |x| |]; try discriminate E; try (inj E; exact RK).
    + destruct (mtx s); [discriminate|]. inj E. exact RK.
    + inj E. destruct RK as [?|[?|(k & Hk & Hr)]]; [left; auto|right; left; auto|]. right. right. exists k. cbn.
      split; auto. rewrite nth_error_app1; auto. apply nth_error_Some. congruence.
  - unfold invE in IE. rewrite E in IE. rewrite IE in X; [discriminate|reflexivity].
  - exact RK.
  - exact RK.
Qed.

Lemma rk_worker s s' o r : step ByWorker s s' -> execute s = true -> invA s -> invE s -> rk s o r ->
  In (EInvoke o) (trace s') \/ exists r', r' < r /\ rk s' o r'.
Proof.
  intros ST X A IE RK. remember ByWorker as w. destruct ST as [s s' E|s s' E|t s s' E|s E|t s E|t s E]; try discriminate.
  - pose proof (a_q _ A) as Aq. unfold wstep in E. unfold invE in IE. rewrite X in *.
    destruct (wk s) as [| | | | | | |x|x|x|x| | | | |] eqn:Ew; try discriminate E; cbn in Aq;
      try (specialize (IE eq_refl); discriminate);
      try (destruct RK as [(F & _)|[(F & _)|(k & Hk & Hr)]]; [congruence|congruence|]; rewrite Ew in Hr; cbn [base] in Hr).
    + inj E. right. exists (7 * k + 8). split; [lia|]. right. right. exists k. auto.
    + destruct (sem s); [discriminate|]. inj E. right. exists (7 * k + 7). split; [lia|]. right. right. exists k. auto.
    + inj E. right. exists (7 * k + 6). split; [lia|]. right. right. exists k. auto.
    + inj E. right. exists (7 * k + 5). split; [lia|]. right. right. exists k. cbn.
      destruct (queue s) as [|y q]; [destruct k; discriminate|]. auto.
    + destruct (mtx s); [discriminate|]. inj E. right. exists (7 * k + 4). split; [lia|]. right. right. exists k. auto.
    + inj E. right. exists (7 * k + 3). split; [lia|]. right. right. exists k. cbn.
      destruct (queue s) as [|y q]; [destruct k; discriminate|]. auto.
    + destruct Aq as (q & Eq). rewrite Eq in *. inj E. right. destruct k as [|k]; cbn in Hk.
      * injection Hk as ->. exists 2. split; [lia|]. left. auto.
      * exists (7 * k + 9). split; [lia|]. right. right. exists k. auto.
    + inj E. right. destruct RK as [(F & Hr)|[(F & _)|(k & Hk & Hr)]].
      * rewrite Ew in F. injection F as ->. exists 1. split; [lia|]. right. left. auto.
      * congruence.
      * rewrite Ew in Hr. cbn [base] in Hr. exists (7 * k + 8). split; [lia|]. right. right. exists k. auto.
    + inj E. destruct RK as [(F & Hr)|[(F & _)|(k & Hk & Hr)]].
      * congruence.
      * rewrite Ew in F. injection F as ->. left. cbn. apply in_or_app. right. left. auto.
      * right. rewrite Ew in Hr. cbn [base] in Hr. exists (7 * k + 7). split; [lia|]. right. right. exists k. auto.
    + inj E. right. exists (7 * k + 6). split; [lia|]. right. right. exists k. auto.
  - unfold wspurious in E. destruct (wk s) eqn:Ew; try discriminate E. inj E.
    destruct RK as [(F & _)|[(F & _)|(k & Hk & Hr)]]; [congruence|congruence|]. rewrite Ew in Hr. cbn [base] in Hr.
    right. exists (7 * k + 7). split; [lia|]. right. right. exists k. auto.
Qed.

Lemma exec_invokes n s s' o r : exec n s s' -> reach init any s -> rk s o r -> 0 < r -> r <= n -> In (EInvoke o) (trace s').
Proof.
  intros X. revert r. induction X as [s X0|n s s1 s2 X0 ST X IH|n s s1 s2 X0 ST X IH]; intros r R RK R0 Hr.
  - lia.
  - destruct (rk_worker s s1 o r ST X0 (reach_invA s R) (reach_invE s R) RK) as [H|(r' & Hr' & RK')].
    + eapply exec_mono; eauto.
    + apply (IH r'); auto; [eapply reach_step; eauto; eexists; eauto| |lia].
      destruct RK' as [(_ & ->)|[(_ & ->)|(k & Hk & ->)]]; try lia.
      assert (R1 : reach init any s1) by (eapply reach_step; eauto; eexists; eauto).
      assert (X1 : execute s1 = true) by (inversion X; auto).
      pose proof (reach_invE s1 R1) as E1. unfold invE in E1. rewrite X1 in E1.
      pose proof (a_q _ (reach_invA s1 R1)) as Q1.
      destruct (wk s1); cbn in *; try lia; try (specialize (E1 eq_refl); discriminate).
  - apply (IH r); auto; [eapply reach_step; eauto; eexists; eauto|].
    eapply rk_other; eauto. apply reach_invE; auto.
Qed.

Lemma eventually_invoked n s s' k o : reach init any s -> exec n s s' -> nth_error (queue s) k = Some o ->
  7 * k + 9 <= n -> In (EInvoke o) (trace s').
Proof.
  intros R X Hk Hn. assert (X0 : execute s = true) by (inversion X; auto).
  pose proof (reach_invE s R) as E1. unfold invE in E1. rewrite X0 in E1.
  pose proof (a_q _ (reach_invA s R)) as Q1.
  apply (exec_invokes n s s' o (7 * k + base (wk s))); auto.
  - right. right. exists k. auto.
  - destruct (wk s); cbn in *; try lia; try (specialize (E1 eq_refl); discriminate).
  - destruct (wk s); cbn in *; try lia.
Qed.

(* while an operation waits, the worker or the client that is posting can move *)
Lemma not_stuck s : reach init any s -> execute s = true -> queue s <> [] ->
  wstep s <> None \/ exists t, cstep t s <> None /\ (cl s t = C86 \/ cl s t = C87 \/ exists o, cl s t = C85 o).
Proof.
  intros R X Q. pose proof (reach_invE s R) as E1. unfold invE in E1. rewrite X in E1.
  pose proof (reach_invA s R) as A. pose proof (a_q _ A) as Aq.
  unfold wstep. destruct (wk s) as [| | | | | | |x|x|x|x| | | | |] eqn:Ew; cbn in Aq;
    try (specialize (E1 eq_refl); discriminate); try (left; discriminate).
  - (* W41 *)
    destruct (sem s) eqn:Es; [|left; discriminate]. right.
    destruct (d_op _ (reach_invD s R)) as [F|(t & [Ht|Ht])]; auto.
    + rewrite Ew. exact X.
    + lia.
    + exists t. unfold cstep. rewrite Ht. split; [discriminate|auto].
    + exists t. unfold cstep. rewrite Ht. split; [discriminate|auto].
  - destruct (mtx s) as [[|t]|] eqn:Em; [| |left; discriminate].
    + apply (a_w _ A) in Em. rewrite Ew in Em. discriminate.
    + right. exists t. apply (a_c _ A) in Em. unfold cstep. destruct (cl s t); try discriminate Em.
      * split; [discriminate|eauto].
      * split; [discriminate|auto].
  - tauto.
Qed.

(* the worker alone, all clients idle *)
Lemma wstep_cl s s' : wstep s = Some s' -> cl s' = cl s.
Proof.
  unfold wstep. intros E. destruct (wk s); try discriminate E; try (inj E; reflexivity).
  - destruct (sem s); [discriminate|]. inj E. reflexivity.
  - destruct (mtx s); [discriminate|]. inj E. reflexivity.
  - inj E. destruct (queue s); reflexivity.
  - inj E. destruct (queue s); reflexivity.
  - inj E. destruct (queue s); reflexivity.
Qed.
Lemma idle_mtx s : reach init any s -> clients_idle s -> mtx s = None \/ mtx s = Some Worker.
Proof.
  intros R C. destruct (mtx s) as [[|t]|] eqn:Em; auto. apply (a_c _ (reach_invA s R)) in Em. rewrite C in Em. discriminate.
Qed.

Definition meas (s : st) : nat :=
  10 * length (queue s) + 10 * sem s +
  match wk s with W39 => 1 | W41 => 0 | W42 => 6 | W45 => 5 | W48 => 4 | W51 => 3 | W52 _ => 2
                | W55 _ => 8 | W58 _ => 7 | W59 _ => 6 | _ => 0 end.

Definition taken_care (s : st) (o : op) : Prop := In o (queue s) \/ In o (hand (wk s)) \/ In (EInvoke o) (trace s).

Lemma drain_step s s' : reach init any s -> execute s = true -> wstep s = Some s' ->
  execute s' = true /\ meas s' < meas s /\ forall o, taken_care s o -> taken_care s' o.
Proof.
  intros R X E. pose proof (reach_invE s R) as E1. unfold invE in E1.
  pose proof (a_q _ (reach_invA s R)) as Aq. unfold meas, taken_care.
  unfold wstep in E. rewrite X in *.
  destruct (wk s) as [| | | | | | |x|x|x|x| | | | |] eqn:Ew; cbn in Aq; try discriminate E;
    try (specialize (E1 eq_refl); discriminate).
  - inj E. cbn. repeat split; auto; lia.
  - destruct (sem s) eqn:Es; [discriminate|]. inj E. cbn. rewrite ?Es. repeat split; auto; lia.
  - inj E. cbn. repeat split; auto; lia.
  - inj E. cbn. destruct (queue s); repeat split; auto; cbn; try lia. 
  - destruct (mtx s); [discriminate|]. inj E. cbn. repeat split; auto; lia.
  - inj E. cbn. destruct (queue s) eqn:Eq; [tauto|]. cbn. repeat split; auto; try lia. 
  - destruct Aq as (q & Eq). rewrite Eq in *. inj E. cbn. repeat split; auto; try lia. tauto.
  - inj E. cbn. repeat split; auto; lia.
  - inj E. cbn. repeat split; auto; try lia. intros o. rewrite in_app_iff. cbn.
    intros [?|[[->|[]]|?]]; auto.
  - inj E. cbn. repeat split; auto; try lia. intros o. rewrite in_app_iff. cbn. tauto.
Qed.

Lemma drain s : reach init any s -> execute s = true -> clients_idle s ->
  exists n s', wrun n s = Some s' /\ queue s' = [] /\ wk s' = W41 /\ sem s' = 0 /\
  forall o, In o (queue s) -> In (EInvoke o) (trace s').
Proof.
  intros R X C.
  assert (G : exists n s', wrun n s = Some s' /\ queue s' = [] /\ wk s' = W41 /\ sem s' = 0 /\
              forall o, taken_care s o -> taken_care s' o).
  { remember (meas s) as m eqn:Em. revert s Em R X C.
    induction m as [m IH] using (well_founded_induction lt_wf). intros s Em R X C.
    destruct (wstep s) as [s1|] eqn:Es.
    - destruct (drain_step s s1 R X Es) as (X1 & M1 & K1).
      destruct (IH (meas s1) ltac:(lia) s1 eq_refl) as (n & s' & W & H1 & H2 & H3 & H4); auto.
      { eapply reach_step; eauto. exists ByWorker. constructor. auto. }
      { intros t. rewrite (wstep_cl _ _ Es). apply C. }
      exists (S n), s'. cbn. rewrite Es. repeat split; auto.
    - exists 0, s. split; [reflexivity|].
      pose proof (reach_invE s R) as E1. unfold invE in E1. rewrite X in E1.
      pose proof (reach_invA s R) as A. pose proof (a_q _ A) as Aq. unfold wstep in Es.
      destruct (wk s) as [| | | | | | |x|x|x|x| | | | |] eqn:Ew; cbn in Aq; try discriminate Es;
        try (specialize (E1 eq_refl); discriminate).
      + destruct (sem s) eqn:Sm; [|discriminate]. repeat split; auto.
        destruct (queue s) as [|y q] eqn:Eq; auto. exfalso.
        destruct (d_op _ (reach_invD s R)) as [F|(t & Ht)].
        * rewrite Ew. exact X.
        * congruence.
        * lia.
        * rewrite C in Ht. destruct Ht; discriminate.
      + destruct (mtx s) eqn:Mt; [|discriminate]. destruct (idle_mtx s R C) as [F|F]; [congruence|].
        apply (a_w _ A) in F. rewrite Ew in F. discriminate.
      + tauto. }
  destruct G as (n & s' & W & Q & Wk & Sm & K). exists n, s'. repeat split; auto.
  intros o Ho. destruct (K o (or_introl Ho)) as [F|[F|F]]; auto.
  - rewrite Q in F. destruct F.
  - rewrite Wk in F. destruct F.
Qed.

(* after stop() *)
Definition meas2 (s : st) : nat :=
  10 * length (queue s) +
  match wk s with W45 => 8 | W48 => 7 | W51 => 6 | W52 _ => 5 | W55 _ => 11 | W58 _ => 10 | W59 _ => 9
                | W41 => 6 | W42 => 5 | W39 => 4 | W66 => 3 | W68 => 2 | W69 => 1 | W243 => 1 | _ => 0 end.
Definition disposed (s : st) (o : op) : Prop := In o (queue s) \/ inhand (wk s) o \/ In (EDelete o) (trace s).

Lemma stop_step s s' : reach init any s -> execute s = false -> wstep s = Some s' ->
  execute s' = false /\ meas2 s' < meas2 s /\ (forall o, disposed s o -> disposed s' o) /\
  (wk s' = WOff -> queue s = queue s' /\ wk s = W243).
Proof.
  intros R X E. pose proof (a_q _ (reach_invA s R)) as Aq. pose proof (reach_invB s R) as B. unfold meas2, disposed.
  unfold wstep in E. rewrite X in *.
  destruct (wk s) as [| | | | | | |x|x|x|x| | | | |] eqn:Ew; cbn in Aq; try discriminate E.
  - inj E. cbn. repeat split; auto; try lia; try discriminate; tauto.
  - destruct (sem s) eqn:Es; [discriminate|]. inj E. cbn. repeat split; auto; try lia; try discriminate.
  - inj E. cbn. repeat split; auto; try lia; try discriminate.
  - inj E. cbn. destruct (queue s); repeat split; auto; cbn; try lia; try discriminate; tauto.
  - destruct (mtx s); [discriminate|]. inj E. cbn. repeat split; auto; try lia; discriminate.
  - inj E. cbn. destruct (queue s) eqn:Eq; [tauto|]. cbn. repeat split; auto; try lia; try discriminate; tauto.
  - destruct Aq as (q & Eq). rewrite Eq in *. inj E. cbn. repeat split; auto; try lia; try discriminate. tauto.
  - inj E. cbn. repeat split; auto; try lia; discriminate.
  - inj E. cbn. repeat split; auto; try lia; try discriminate. intros o. rewrite in_app_iff. cbn. tauto.
  - inj E. cbn. repeat split; auto; try lia; try discriminate. intros o. rewrite in_app_iff. cbn.
    intros [?|[->|?]]; auto.
  - inj E. cbn. destruct (queue s) eqn:Eq; repeat split; auto; cbn; try lia; try discriminate; tauto.
  - destruct (queue s) as [|x q] eqn:Eq; [tauto|]. inj E. cbn. rewrite Eq. cbn. repeat split; auto; try lia; try discriminate.
    intros o. rewrite in_app_iff. cbn. tauto.
  - destruct (queue s) as [|x q] eqn:Eq; [tauto|]. inj E. cbn. repeat split; auto; try lia; try discriminate.
    intros o [[->|?]|[[]|?]]; auto. right. right.
    assert (Q : qhist s o) by (apply (b_queue _ B); rewrite Eq; left; auto).
    unfold qhist in Q. rewrite Ew, Eq, Nat.eqb_refl in Q. apply history_in. rewrite Q. right. left. auto.
  - inj E. cbn. repeat split; auto; try lia.
Qed.

Lemma stop_run s : reach init any s -> execute s = false -> clients_idle s ->
  (wk s = WOff \/ wk s = W243 -> queue s = []) ->
  exists n s', wrun n s = Some s' /\ queue s' = [] /\ wk s' = WOff /\
  forall o, disposed s o -> In (EDelete o) (trace s').
Proof.
  intros R X C Q0.
  assert (G : exists n s', wrun n s = Some s' /\ queue s' = [] /\ wk s' = WOff /\
              forall o, disposed s o -> disposed s' o).
  { remember (meas2 s) as m eqn:Em. revert s Em R X C Q0.
    induction m as [m IH] using (well_founded_induction lt_wf). intros s Em R X C Q0.
    destruct (wstep s) as [s1|] eqn:Es.
    - destruct (stop_step s s1 R X Es) as (X1 & M1 & K1 & Z1).
      destruct (IH (meas2 s1) ltac:(lia) s1 eq_refl) as (n & s' & W & H1 & H2 & H4); auto.
      { eapply reach_step; eauto. exists ByWorker. constructor. auto. }
      { intros t. rewrite (wstep_cl _ _ Es). apply C. }
      { intros [F|F].
        - destruct (Z1 F) as (<- & F2). auto.
        - unfold wstep in Es. clear - Es F R. pose proof (a_q _ (reach_invA s R)) as Aq.
          destruct (wk s) as [| | | | | | |x|x|x|x| | | | |] eqn:Ew; cbn in Aq; try discriminate Es;
            try (injection Es as <-; cbn in F; discriminate F).
          + injection Es as <-. cbn in F. destruct (execute s); discriminate F.
          + destruct (sem s); [discriminate|]. injection Es as <-. cbn in F. discriminate F.
          + injection Es as <-. cbn in F. destruct (execute s); discriminate F.
          + injection Es as <-. cbn in F. destruct (queue s); discriminate F.
          + destruct (mtx s); [discriminate|]. injection Es as <-. cbn in F. discriminate F.
          + injection Es as <-. cbn in F. destruct (queue s); discriminate F.
          + injection Es as <-. destruct (queue s); cbn in F; discriminate F.
          + injection Es as <-. cbn in *. destruct (queue s); [auto|discriminate F].
          + injection Es as <-. destruct (queue s); cbn in F; discriminate F.
          + injection Es as <-. destruct (queue s); cbn in F; discriminate F. }
      exists (S n), s'. cbn. rewrite Es. repeat split; auto.
    - exists 0, s. split; [reflexivity|].
      pose proof (reach_invA s R) as A. pose proof (a_q _ A) as Aq. unfold wstep in Es.
      destruct (wk s) as [| | | | | | |x|x|x|x| | | | |] eqn:Ew; cbn in Aq; try discriminate Es.
      + auto.
      + exfalso. destruct (sem s) eqn:Sm; [|discriminate].
        destruct (d_stop _ (reach_invD s R) Ew X) as [F|(t & Ht)]; [lia|]. rewrite C in Ht. discriminate.
      + exfalso. destruct (mtx s) eqn:Mt; [|discriminate]. destruct (idle_mtx s R C) as [F|F]; [congruence|].
        apply (a_w _ A) in F. rewrite Ew in F. discriminate.
      + tauto. }
  destruct G as (n & s' & W & Q & Wk & K). exists n, s'. repeat split; auto.
  intros o Ho. destruct (K o Ho) as [F|[F|F]]; auto.
  - rewrite Q in F. destruct F.
  - rewrite Wk in F. destruct F.
Qed.

(* the worker has not yet reached the clean-up loop's end when stop() returns *)
Lemma stop_terminates s : reach init any s -> execute s = false -> clients_idle s -> wk s <> WOff -> wk s <> W243 ->
  exists n s', wrun n s = Some s' /\ wk s' = WOff /\ queue s' = [] /\
  forall o, o < next s -> In (EDelete o) (trace s').
Proof.
  intros R X C N1 N2. destruct (stop_run s R X C) as (n & s' & W & Q & Wk & K).
  - intros [F|F]; congruence.
  - exists n, s'. repeat split; auto. intros o Ho. apply K. unfold disposed.
    destruct (reach_invF s R o Ho) as [(t & Ht)|?]; auto. rewrite C in Ht. destruct Ht.
Qed.

(* ---- runs ------------------------------------------------------------------------------------------------ *)
Inductive act := AW | ASp | AC (t : tid) | AStart | AQueue (t : tid) | AStop (t : tid).
Definition arun1 (s : st) (a : act) : option st :=
  match a with
  | AW => wstep s | ASp => wspurious s | AC t => cstep t s
  | AStart => match wk s with WOff => Some (do_start s) | _ => None end
  | AQueue t => match cl s t with CIdle => Some (call_queue t s) | _ => None end
  | AStop t => match cl s t with CIdle => Some (cgoto s t C77) | _ => None end
  end.
Fixpoint arun (s : st) (l : list act) : option st :=
  match l with [] => Some s | a :: l => match arun1 s a with Some s => arun s l | None => None end end.
Lemma arun_reach l : forall s s', reach init any s -> arun s l = Some s' -> reach init any s'.
Proof.
  induction l as [|a l IH]; intros s s' R E; cbn in E; [congruence|].
  destruct (arun1 s a) as [s1|] eqn:E1; [|discriminate]. apply (IH s1); auto. eapply reach_step; eauto.
  destruct a as [| |t| |t|t]; cbn in E1.
  - exists ByWorker. apply step_worker; auto.
  - exists ByWorker. apply step_spurious; auto.
  - exists ByOther. eapply step_client; eauto.
  - destruct (wk s) eqn:Ew; try discriminate. inj E1. exists ByOther. apply step_start; auto.
  - destruct (cl s t) eqn:Ec; try discriminate. inj E1. exists ByOther. apply step_queue; auto.
  - destruct (cl s t) eqn:Ec; try discriminate. inj E1. exists ByOther. apply step_stop; auto.
Qed.
Definition queue_all (t : tid) : list act := AQueue t :: repeat (AC t) 5.

(* an operation pushed after the clean-up is never deleted *)
Lemma leak : exists s, reach init any s /\ wk s = WOff /\ clients_idle s /\ 0 < next s /\ trace s = [EStop; EPush 0].
Proof.
  eexists. split.
  - eapply (arun_reach ([AStart; AQueue 0; AC 0; AStop 1; AC 1; AC 1; AW; AW; AW] ++ repeat (AC 0) 4) init);
      [constructor|vm_compute; reflexivity].
  - split; [reflexivity|]. split; [|split; [cbn; lia|reflexivity]].
    intros t. cbn. do 3 (destruct t as [|t]; [reflexivity|]). reflexivity.
Qed.
Lemma race : exists s, reach init any s /\ data_race s.
Proof.
  eexists. split.
  - eapply (arun_reach [AStart; AW; ASp; AW; AQueue 0; AC 0; AC 0] init); [constructor|vm_compute; reflexivity].
  - split; [left; reflexivity|]. exists 0, 0. reflexivity.
Qed.
(* two operations by different clients, both run and deleted; a third is waiting, then stop() *)
Lemma example_run : exists s, reach init any s /\
  trace s = [EPush 0; EInvoke 0; EDelete 0; EPush 1; EPush 2; EInvoke 1; EDelete 1] /\ queue s = [2] /\
  execute s = true /\ clients_idle s /\ wk s = W45.
Proof.
  eexists. split.
  - eapply (arun_reach ([AStart] ++ queue_all 0 ++ repeat AW 12 ++ queue_all 1 ++ queue_all 0 ++ repeat AW 9) init);
      [constructor|vm_compute; reflexivity].
  - repeat split. intros t. cbn. repeat (destruct t as [|t]; [reflexivity|]). reflexivity.
Qed.
Lemma example_stopped : exists s, reach init any s /\ execute s = false /\ clients_idle s /\ wk s = W45 /\ queue s = [1].
Proof.
  eexists. split.
  - eapply (arun_reach ([AStart] ++ queue_all 0 ++ repeat AW 3 ++ queue_all 1 ++ repeat AW 7 ++ [AStop 1; AC 1; AC 1]) init);
      [constructor|vm_compute; reflexivity].
  - repeat split. intros t. cbn. repeat (destruct t as [|t]; [reflexivity|]). reflexivity.
Qed.
Lemma no_ub s : reach init any s -> wk s <> WUB.
Proof. intros R F. pose proof (a_q _ (reach_invA s R)) as H. rewrite F in H. exact H. Qed.
Lemma good s o : reach init any s -> good_history o (history o (trace s)).
Proof. intros R. apply (b_good _ (reach_invB s R)). Qed.
Lemma unstopped s : reach init any s -> ~ In EStop (trace s) -> exists rest, pushes (trace s) = invokes (trace s) ++ rest.
Proof. intros R N. destruct (reach_invN s R N) as (E & _). eauto. Qed.
Lemma leak_refutes :
  ~ (forall s o, reach init any s -> wk s = WOff -> clients_idle s -> o < next s -> In (EDelete o) (trace s)).
Proof.
  intros H. destruct leak as (s & R & W & C & N & T). specialize (H s 0 R W C N). rewrite T in H.
  destruct H as [F|[F|[]]]; discriminate.
Qed.
Lemma example_exec : exists s s', reach init any s /\ exec 9 s s' /\ nth_error (queue s) 0 = Some 0.
Proof.
  assert (X : forall n s s', execute s = true -> wstep s = Some s' -> forall s2, exec n s' s2 -> exec (S n) s s2).
  { intros. eapply exec_worker; eauto. apply step_worker. auto. }
  eexists. eexists. split; [|split].
  - eapply (arun_reach ([AStart] ++ queue_all 0) init); [constructor|vm_compute; reflexivity].
  - do 9 (eapply X; [reflexivity|reflexivity|]). apply exec_nil. reflexivity.
  - reflexivity.
Qed.
