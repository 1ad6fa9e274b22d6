(* Proofs for C40: what happens in every fair execution *)
From Verif Require Import Conc ActiveObjectModel ActiveObjectSpec ActiveObjectProofs FairLemmas ActiveObjectFairSpec.

Lemma other_wk s s' : step ByOther s s' -> wk s' = wk s \/ wk s = WOff.
Proof.
  intros ST. remember ByOther as w. destruct ST as [s s' E|s s' E|t s s' E|s E|t s E|t s E]; try discriminate; auto.
  unfold cstep in E. destruct (cl s t); try discriminate E; try destruct (mtx s); try discriminate E; inj E; auto.
Qed.
Lemma client_of_step s s' t : any s s' -> cl s t <> CIdle -> cl s' t = cl s t \/ cstep t s = Some s'.
Proof.
  intros (w & ST) Nt. destruct ST as [s s' E|s s' E|u s s' E|s E|u s E|u s E].
  - left. rewrite (wstep_cl _ _ E). reflexivity.
  - left. unfold wspurious in E. destruct (wk s); try discriminate E. inj E. reflexivity.
  - destruct (Nat.eq_dec t u) as [->|N]; [auto|]. left.
    unfold cstep in E. destruct (cl s u); try discriminate E; try destruct (mtx s); try discriminate E; inj E; cbn; apply upd_other; exact N.
  - auto.
  - left. cbn. apply upd_other. congruence.
  - left. cbn. apply upd_other. congruence.
Qed.
Definition crank (p : cpc) : nat :=
  match p with CIdle => 0 | C83 _ => 6 | C83l _ => 5 | C85 _ => 4 | C86 => 3 | C87 => 2 | C91 _ => 2 | C77 => 3 | C78 => 2 end.
Lemma cstep_rank s s' t : cstep t s = Some s' -> crank (cl s' t) < crank (cl s t).
Proof.
  intros E. unfold cstep in E. destruct (cl s t) eqn:Ec; try discriminate E; try destruct (mtx s); try discriminate E; inj E; cbn; rewrite upd_same; cbn; try lia.
  all: destruct (execute s); cbn; lia.
Qed.
(* every action of the worker changes its position *)
Lemma wstep_moves s s' : wstep s = Some s' -> wk s' <> wk s.
Proof.
  intros E. unfold wstep in E. destruct (wk s) as [| | | | | | |x|x|x|x| | | | |] eqn:Ew; try discriminate E.
  - inj E. cbn. destruct (execute s); discriminate.
  - destruct (sem s); [discriminate E|]. inj E. discriminate.
  - inj E. cbn. destruct (execute s); discriminate.
  - inj E. cbn. destruct (queue s); discriminate.
  - destruct (mtx s); [discriminate E|]. inj E. discriminate.
  - inj E. cbn. destruct (queue s); discriminate.
  - inj E. destruct (queue s); discriminate.
  - inj E. discriminate.
  - inj E. discriminate.
  - inj E. discriminate.
  - inj E. cbn. destruct (queue s); discriminate.
  - inj E. destruct (queue s); discriminate.
  - inj E. destruct (queue s); discriminate.
  - inj E. discriminate.
Qed.

Section Run.
Variable r : nat -> st.
Hypothesis Fr : fair r.
Let Er : execution init any r := proj1 Fr.
Let Rr : forall n, reach init any (r n) := execution_reach _ _ _ Er.

(* a client that does not wait for the mutex makes its next step *)
Lemma client_goes n t : cl (r n) t <> CIdle -> (forall o, cl (r n) t <> C83l o) ->
  exists m, n <= m /\ cl (r m) t = cl (r n) t /\ cstep t (r m) = Some (r (S m)).
Proof.
  intros N1 N2. set (P := fun k => cl (r k) t = cl (r n) t /\ n <= k). set (Q := fun j => exists m, n <= m /\ cl (r m) t = cl (r n) t /\ cstep t (r m) = Some (r (S m)) /\ j = S m).
  assert (G : eventually n Q).
  { apply (sf_leads (cstep t) r P Q).
    - apply Fr.
    - intros k (E & L). apply eventually_now. left. unfold cstep. rewrite E. destruct (cl (r n) t); try discriminate; try congruence.
    - intros k (E & L). destruct (proj2 Er k) as [X|X]; [left; split; [rewrite X; exact E|lia]|].
      destruct (client_of_step _ _ t X) as [Y|Y]; [congruence|left; split; [congruence|lia]|]. right. exists k. auto.
    - intros k (E & L) T. exists k. auto.
    - split; auto. }
  destruct G as (j & _ & m & H1 & H2 & H3 & _). exists m. auto.
Qed.
(* the mutex becomes free *)
Lemma mtx_frees n : eventually n (fun m => mtx (r m) = None).
Proof.
  destruct (mtx (r n)) as [[|t]|] eqn:Em; [| |apply eventually_now, Em].
  - set (f := fun p => match p with W51 => 3 | W52 _ => 2 | W55 _ => 1 | _ => 0 end).
    apply (leads_rank (fun k => mtx (r k) = Some Worker) _ (fun k => f (wk (r k)))); [|exact Em]. clear n Em. intros n Em.
    set (P := fun k => mtx (r k) = Some Worker /\ wk (r k) = wk (r n)).
    set (Q := fun m => mtx (r m) = None \/ (mtx (r m) = Some Worker /\ f (wk (r m)) < f (wk (r n)))).
    assert (Wc : forall k, P k -> wcrit (wk (r n)) = true) by (intros k (E1 & E2); rewrite <- E2; apply (a_w _ (reach_invA _ (Rr k))); exact E1).
    assert (T : forall k, P k -> wstep (r k) = Some (r (S k)) -> Q (S k)).
    { intros k Pk E. pose proof (Wc k Pk) as C. destruct Pk as (E1 & E2). pose proof (a_q _ (reach_invA _ (Rr k))) as Aq. unfold Q. rewrite <- E2 in C |- *. clear E2.
      revert E1 E C Aq. generalize (r k) (r (S k)). intros s s' E1 E C Aq. unfold wstep in E.
      destruct (wk s) as [| | | | | | |x|x|x|x| | | | |]; try discriminate C; cbn in Aq.
      + inj E. destruct (queue s); [congruence|]. right. cbn. auto.
      + destruct Aq as (q & Aq). rewrite Aq in E. inj E. right. cbn. auto.
      + inj E. left. reflexivity. }
    apply (sf_leads wstep r P Q).
    + apply Fr.
    + intros k Pk. apply eventually_now. left. pose proof (Wc k Pk) as C. destruct Pk as (E1 & E2). rewrite <- E2 in C. unfold wstep. destruct (wk (r k)); discriminate.
    + intros k Pk. destruct (proj2 Er k) as [X|(w & X)]; [left; unfold P in *; rewrite X; exact Pk|].
      pose proof (Wc k Pk) as C. pose proof Pk as (E1 & E2). rewrite <- E2 in C. destruct w.
      * right. apply T; [exact Pk|]. inversion X as [? ? E|? ? E| | | |]; subst; [exact E|]. unfold wspurious in E. destruct (wk (r k)); try discriminate E. discriminate C.
      * left. split; [|destruct (other_wk _ _ X) as [->|Y]; [exact E2|rewrite Y in C; discriminate C]].
        assert (Y : wk (r (S k)) = wk (r k)) by (destruct (other_wk _ _ X) as [->|Y]; [reflexivity|rewrite Y in C; discriminate C]).
        apply (a_w _ (reach_invA _ (Rr (S k)))). rewrite Y. exact C.
    + exact T.
    + split; auto.
  - assert (C : ccrit (cl (r n) t) = true) by (apply (a_c _ (reach_invA _ (Rr n))); exact Em).
    assert (H86 : forall k, cl (r k) t = C86 -> eventually k (fun m => mtx (r m) = None)).
    { intros k E. destruct (client_goes k t) as (m & L & E1 & E2); try congruence. rewrite E in E1. unfold cstep in E2. rewrite E1 in E2. injection E2 as E2.
      exists (S m). split; [lia|]. rewrite <- E2. reflexivity. }
    destruct (cl (r n) t) as [|o|o|o| | |o| |] eqn:Ec; try discriminate C; [|apply H86, Ec].
    destruct (client_goes n t) as (m & L & E1 & E2); try congruence. rewrite Ec in E1. unfold cstep in E2. rewrite E1 in E2. injection E2 as E2.
    destruct (H86 (S m)) as (j & Lj & Hj); [rewrite <- E2; cbn; apply upd_same|]. exists j. split; [lia|exact Hj].
Qed.
(* every call returns *)
Lemma calls_return n t : eventually n (fun m => cl (r m) t = CIdle).
Proof.
  apply (leads_rank (fun k => True) (fun m => cl (r m) t = CIdle) (fun k => crank (cl (r k) t))); [|exact Logic.I]. clear n. intros n _.
  destruct (cl (r n) t) as [|o|o|o| | |o| |] eqn:Ec; [apply eventually_now; auto| | | | | | | |].
  2:{ set (P := fun k => cl (r k) t = C83l o). set (Q := fun m => cl (r m) t = CIdle \/ (True /\ crank (cl (r m) t) < 5)).
      assert (T : forall k, P k -> cstep t (r k) = Some (r (S k)) -> Q (S k)).
      { intros k Pk E. right. split; [exact Logic.I|]. apply cstep_rank in E. rewrite Pk in E. exact E. }
      assert (K : forall k, P k -> P (S k) \/ Q (S k)).
      { intros k Pk. destruct (proj2 Er k) as [X|X]; [left; unfold P; rewrite X; exact Pk|].
        destruct (client_of_step _ _ t X) as [Y|Y]; [rewrite Pk; discriminate|left; unfold P in *; congruence|right; auto]. }
      apply (sf_leads (cstep t) r P Q); auto.
      - apply Fr.
      - intros k Pk. destruct (mtx_frees k) as (m & L & Em). destruct (persist P Q K k m L Pk) as [Y|(j & Lj & Y)]; [|exists j; auto].
        exists m. split; [exact L|]. left. unfold cstep. rewrite Y, Em. discriminate. }
  all: destruct (client_goes n t) as (m & L & E1 & E2); try congruence; exists (S m); split; [lia|]; right; split; [exact Logic.I|]; apply cstep_rank in E2; congruence.
Qed.
(* a client about to post does it *)
Lemma posts n t : cl (r n) t = C86 \/ cl (r n) t = C87 \/ cl (r n) t = C78 -> eventually n (fun m => 0 < sem (r m)).
Proof.
  assert (G : forall k, cl (r k) t = C87 \/ cl (r k) t = C78 -> eventually k (fun m => 0 < sem (r m))).
  { intros k E. destruct (client_goes k t) as (m & L & E1 & E2); [destruct E; congruence|destruct E; congruence|].
    exists (S m). split; [lia|]. unfold cstep in E2. rewrite E1 in E2. destruct E as [E|E]; rewrite E in E2; injection E2 as E2; rewrite <- E2; cbn; lia. }
  intros [E|E]; [|apply G, E].
  destruct (client_goes n t) as (m & L & E1 & E2); try congruence. rewrite E in E1. unfold cstep in E2. rewrite E1 in E2. injection E2 as E2.
  destruct (G (S m)) as (j & Lj & Hj); [left; rewrite <- E2; cbn; apply upd_same|]. exists j. split; [lia|exact Hj].
Qed.

(* progress by the worker: T s v, with v never growing and falling at every action of the worker *)
Section Progress.
Variable b : bool.
Variable T : st -> nat -> Prop.
Variable Q : st -> Prop.
Variable n0 : nat.
Hypothesis Ex : forall k, n0 <= k -> execute (r k) = b.
Hypothesis live : forall s v, reach init any s -> execute s = b -> T s v -> wk s <> WOff /\ (wk s = W41 -> 0 < sem s \/ exists t, cl s t = C86 \/ cl s t = C87 \/ cl s t = C78).
Hypothesis others : forall s s' v, reach init any s -> execute s = b -> execute s' = b -> T s v -> step ByOther s s' -> Q s' \/ exists v', v' <= v /\ T s' v'.
Hypothesis worker : forall s s' v, reach init any s -> execute s = b -> execute s' = b -> T s v -> step ByWorker s s' -> Q s' \/ exists v', v' < v /\ T s' v'.
Lemma progress v : forall n, n0 <= n -> T (r n) v -> eventually n (fun m => Q (r m)).
Proof.
  induction v as [v IH] using lt_wf_ind. intros n L0 Tn.
  set (P := fun k => n <= k /\ wk (r k) = wk (r n) /\ exists v', v' <= v /\ T (r k) v').
  set (Q' := fun m => n <= m /\ (Q (r m) \/ exists v', v' < v /\ T (r m) v')).
  assert (K : forall k, P k -> P (S k) \/ Q' (S k)).
  { intros k (L & E & v' & Lv & Tk). destruct (proj2 Er k) as [X|(w & X)].
    - left. unfold P. rewrite X. split; [lia|]. split; [exact E|]. exists v'. auto.
    - destruct w.
      + right. split; [lia|]. destruct (worker (r k) (r (S k)) v' (Rr k) (Ex k ltac:(lia)) (Ex (S k) ltac:(lia)) Tk X) as [Y|(v2 & Y1 & Y2)]; [auto|]. right. exists v2. split; [lia|exact Y2].
      + destruct (others (r k) (r (S k)) v' (Rr k) (Ex k ltac:(lia)) (Ex (S k) ltac:(lia)) Tk X) as [Y|(v2 & Y1 & Y2)]; [right; split; [lia|auto]|].
        left. split; [lia|]. split; [|exists v2; split; [lia|exact Y2]]. destruct (other_wk _ _ X) as [->|Y]; [exact E|]. destruct (live (r k) v' (Rr k) (Ex k ltac:(lia)) Tk) as (Z & _). contradiction. }
  assert (G : eventually n Q').
  { apply (sf_leads wstep r P Q').
    - apply Fr.
    - intros k Pk. pose proof Pk as (L & E & v' & Lv & Tk). destruct (live (r k) v' (Rr k) (Ex k ltac:(lia)) Tk) as (N1 & N2).
      assert (Wait : forall X : nat -> Prop, eventually k X -> (forall m, X m -> wk (r m) = wk (r k) -> wstep (r m) <> None) -> eventually k (fun m => wstep (r m) <> None \/ Q' m)).
      { intros X (m & Lm & Xm) H. destruct (persist P Q' K k m Lm Pk) as [(_ & Y & _)|(j & Lj & Y)]; [|exists j; auto]. exists m. split; [exact Lm|]. left. apply H; [exact Xm|congruence]. }
      destruct (wk (r k)) as [| | | | | | |x|x|x|x| | | | |] eqn:Ew; try (apply eventually_now; left; unfold wstep; rewrite Ew; discriminate).
      + congruence.
      + destruct (N2 eq_refl) as [Sm|(t & Ct)].
        * apply eventually_now. left. unfold wstep. rewrite Ew. destruct (sem (r k)); [lia|discriminate].
        * apply (Wait _ (posts k t Ct)). intros m Sm Em. unfold wstep. rewrite Em. destruct (sem (r m)); [lia|discriminate].
      + apply (Wait _ (mtx_frees k)). intros m Sm Em. unfold wstep. rewrite Em, Sm. discriminate.
      + pose proof (a_q _ (reach_invA _ (Rr k))) as Y. rewrite Ew in Y. destruct Y.
    - exact K.
    - intros k Pk Tk. destruct (K k Pk) as [(_ & Y & _)|Y]; [|exact Y]. exfalso. destruct Pk as (_ & E & _). apply (wstep_moves _ _ Tk). congruence.
    - split; [lia|]. split; [reflexivity|]. exists v. auto. }
  apply (eventually_trans _ _ n G). intros m Lm (_ & [Y|(v2 & Y1 & Y2)]); [apply eventually_now, Y|]. apply (IH v2 Y1 m); [lia|exact Y2].
Qed.
End Progress.
End Run.
(* where a waiting operation is *)
Lemma waits_place s o : reach init any s -> waits o s -> In o (queue s) \/ wk s = W55 o \/ wk s = W58 o.
Proof.
  intros R W. pose proof (reach_invB _ R) as B. unfold waits in W.
  assert (L : o < ActiveObjectModel.next s). { destruct (Nat.lt_ge_cases o (ActiveObjectModel.next s)) as [L|L]; [exact L|]. rewrite (b_fresh _ B o L) in W. discriminate W. }
  destruct (reach_invF _ R o L) as [(t & H)|[H|[H|H]]].
  - rewrite (proj2 (b_hold _ B t o H)) in W. discriminate W.
  - auto.
  - pose proof (b_whist _ B o) as Wh. destruct (wk s); try destruct H; subst; auto. cbn in Wh. rewrite W in Wh. specialize (Wh eq_refl). discriminate Wh.
  - exfalso. assert (X : In (EDelete o) (history o (trace s))) by (unfold history; apply filter_In; split; [exact H|cbn; apply Nat.eqb_refl]).
    rewrite W in X. destruct X as [X|[]]; discriminate X.
Qed.
Lemma place_rk s o : In o (queue s) \/ wk s = W55 o \/ wk s = W58 o -> exists v, rk s o v.
Proof.
  intros [H|[H|H]].
  - apply In_nth_error in H. destruct H as (k & H). exists (7 * k + base (wk s)). right. right. eauto.
  - exists 2. left. auto.
  - exists 1. right. left. auto.
Qed.
Lemma runs r n o : fair r -> keeps_running r n -> waits o (r n) -> eventually n (fun m => In (EInvoke o) (trace (r m))).
Proof.
  intros F Kr W. assert (Rn : reach init any (r n)) by (apply execution_reach, F).
  destruct (place_rk _ o (waits_place _ _ Rn W)) as (v & Hv).
  apply (progress r F true (fun s v => rk s o v) (fun s => In (EInvoke o) (trace s)) n Kr) with (v := v); auto.
  - intros s w R X Tk. pose proof (reach_invE _ R) as IE. split.
    + intros Y. unfold invE in IE. rewrite Y in IE. rewrite IE in X by reflexivity. discriminate X.
    + intros Y. destruct Tk as [(Z & _)|[(Z & _)|(k & Hk & _)]]; [congruence|congruence|].
      destruct (d_op _ (reach_invD _ R)) as [Z|(t & Z)]; auto.
      * rewrite Y. exact X.
      * intros Z. rewrite Z in Hk. destruct k; discriminate Hk.
      * right. exists t. destruct Z; auto.
  - intros s s' w R X _ Tk ST. right. exists w. split; [auto|]. apply (rk_other s); auto. apply reach_invE, R.
  - intros s s' w R X _ Tk ST. apply (rk_worker s); auto; [apply reach_invA|apply reach_invE]; exact R.
Qed.

(* after stop(): every waiting operation is deleted *)
Definition base2 (p : wpc) : nat :=
  match p with W45 => 8 | W48 => 7 | W51 => 6 | W52 _ => 5 | W55 _ => 11 | W58 _ => 10 | W59 _ => 9
             | W41 => 6 | W42 => 5 | W39 => 4 | W66 => 3 | W68 => 2 | W69 => 1 | _ => 0 end.
Definition rk2 (s : st) (o : op) (v : nat) : Prop :=
  (wk s = W55 o /\ v = 3) \/ (wk s = W58 o /\ v = 2) \/ (wk s = W59 o /\ v = 1) \/
  exists k, nth_error (queue s) k = Some o /\ v = 10 * k + base2 (wk s) /\ 0 < base2 (wk s).
Lemma rk2_worker s s' o v : reach init any s -> execute s = false -> rk2 s o v -> step ByWorker s s' ->
  In (EDelete o) (trace s') \/ exists v', v' < v /\ rk2 s' o v'.
Proof.
  intros R X Tk ST. remember ByWorker as w. destruct ST as [s s' E|s s' E|t s s' E|s E|t s E|t s E]; try discriminate.
  - pose proof (a_q _ (reach_invA _ R)) as Aq. pose proof (reach_invB _ R) as B. unfold wstep in E. rewrite X in *.
    destruct (wk s) as [| | | | | | |x|x|x|x| | | | |] eqn:Ew; try discriminate E; cbn in Aq;
      try (destruct Tk as [(F & _)|[(F & _)|[(F & _)|(k & Hk & Hr & Hp)]]]; [congruence..|]; rewrite Ew in Hr, Hp; cbn [base2] in Hr, Hp).
    + inj E. right. exists (10 * k + 3). split; [lia|]. right. right. right. exists k. cbn. auto with arith.
    + destruct (sem s); [discriminate|]. inj E. right. exists (10 * k + 5). split; [lia|]. right. right. right. exists k. cbn. auto with arith.
    + inj E. right. exists (10 * k + 4). split; [lia|]. right. right. right. exists k. cbn. auto with arith.
    + inj E. right. exists (10 * k + 7). split; [lia|]. right. right. right. exists k. cbn.
      destruct (queue s) as [|y q]; [destruct k; discriminate|]. cbn. auto with arith.
    + destruct (mtx s); [discriminate|]. inj E. right. exists (10 * k + 6). split; [lia|]. right. right. right. exists k. cbn. auto with arith.
    + inj E. right. exists (10 * k + 5). split; [lia|]. right. right. right. exists k. cbn.
      destruct (queue s) as [|y q]; [destruct k; discriminate|]. cbn. auto with arith.
    + destruct Aq as (q & Eq). rewrite Eq in *. inj E. right. destruct k as [|k]; cbn in Hk.
      * injection Hk as ->. exists 3. split; [lia|]. left. auto.
      * exists (10 * k + 11). split; [lia|]. right. right. right. exists k. cbn. auto with arith.
    + inj E. right. destruct Tk as [(F & Hr)|[(F & _)|[(F & _)|(k & Hk & Hr & Hp)]]]; [|congruence..|].
      * rewrite Ew in F. injection F as ->. exists 2. split; [lia|]. right. left. auto.
      * rewrite Ew in Hr. cbn in Hr. exists (10 * k + 10). split; [lia|]. right. right. right. exists k. cbn. auto with arith.
    + inj E. right. destruct Tk as [(F & Hr)|[(F & Hr)|[(F & _)|(k & Hk & Hr & Hp)]]]; try congruence.
      * rewrite Ew in F. injection F as ->. exists 1. split; [lia|]. right. right. left. auto.
      * rewrite Ew in Hr. cbn in Hr. exists (10 * k + 9). split; [lia|]. right. right. right. exists k. cbn. auto with arith.
    + inj E. destruct Tk as [(F & Hr)|[(F & Hr)|[(F & Hr)|(k & Hk & Hr & Hp)]]]; try congruence.
      * rewrite Ew in F. injection F as ->. left. cbn. apply in_or_app. right. left. auto.
      * right. rewrite Ew in Hr. cbn in Hr. exists (10 * k + 8). split; [lia|]. right. right. right. exists k. cbn. auto with arith.
    + inj E. right. exists (10 * k + 2). split; [lia|]. right. right. right. exists k. cbn.
      destruct (queue s) as [|y q]; [destruct k; discriminate|]. cbn. auto with arith.
    + destruct (queue s) as [|x q] eqn:Eq; [tauto|]. inj E. destruct k as [|k]; cbn in Hk.
      * injection Hk as ->. left. cbn. apply in_or_app. right. left. auto.
      * right. exists (10 * S k + 1). split; [lia|]. right. right. right. exists (S k). cbn [emit wgoto queue wk base2]. rewrite Eq. cbn [nth_error]. split; [exact Hk|]. lia.
    + destruct (queue s) as [|x q] eqn:Eq; [tauto|]. inj E. destruct k as [|k]; cbn in Hk.
      * injection Hk as ->. left. assert (Y : qhist s o) by (apply (b_queue _ B); rewrite Eq; left; auto).
        unfold qhist in Y. rewrite Ew, Eq, Nat.eqb_refl in Y. cbn. apply history_in. rewrite Y. right. left. auto.
      * right. exists (10 * k + 3). split; [lia|]. right. right. right. exists k. cbn. auto with arith.
    + lia.
  - unfold wspurious in E. destruct (wk s) eqn:Ew; try discriminate E. inj E.
    destruct Tk as [(F & _)|[(F & _)|[(F & _)|(k & Hk & Hr & Hp)]]]; [congruence..|]. rewrite Ew in Hr. cbn in Hr.
    right. exists (10 * k + 5). split; [lia|]. right. right. right. exists k. cbn. auto with arith.
Qed.
Lemma rk2_other s s' o v : rk2 s o v -> step ByOther s s' -> rk2 s' o v.
Proof.
  intros RK ST. remember ByOther as w. destruct ST as [s s' E|s s' E|t s s' E|s E|t s E|t s E]; try discriminate.
  - unfold cstep in E. destruct (cl s t) as [|x|x|x| | |x| |]; try discriminate E; try (inj E; exact RK).
    + destruct (mtx s); [discriminate|]. inj E. exact RK.
    + inj E. destruct RK as [?|[?|[?|(k & Hk & Hr)]]]; [left; auto|right; left; auto|right; right; left; auto|]. right. right. right. exists k. cbn.
      split; auto. rewrite nth_error_app1; auto. apply nth_error_Some. congruence.
  - exfalso. destruct RK as [(F & _)|[(F & _)|[(F & _)|(k & Hk & Hr & Hp)]]]; try congruence. rewrite E in Hp. cbn in Hp. lia.
  - exact RK.
  - exact RK.
Qed.
Lemma deletes r n o : fair r -> keeps_stopped r n -> waits o (r n) -> wk (r n) <> WOff -> wk (r n) <> W243 -> eventually n (fun m => In (EDelete o) (trace (r m))).
Proof.
  intros F Ks W N1 N2. assert (Rn : reach init any (r n)) by (apply execution_reach, F).
  assert (G : exists v, rk2 (r n) o v).
  { destruct (waits_place _ _ Rn W) as [H|[H|H]].
    - apply In_nth_error in H. destruct H as (k & H). exists (10 * k + base2 (wk (r n))). right. right. right. exists k. split; [exact H|]. split; [reflexivity|].
      pose proof (a_q _ (reach_invA _ Rn)) as Aq. destruct (wk (r n)); cbn in *; try congruence; try lia; tauto.
    - exists 3. left. auto.
    - exists 2. right. left. auto. }
  destruct G as (v & Hv).
  apply (progress r F false (fun s v => rk2 s o v) (fun s => In (EDelete o) (trace s)) n Ks) with (v := v); auto.
  - intros s w R X Tk. split.
    + intros Y. destruct Tk as [(Z & _)|[(Z & _)|[(Z & _)|(k & _ & _ & Z)]]]; try congruence. rewrite Y in Z. cbn in Z. lia.
    + intros Y. destruct (d_stop _ (reach_invD _ R) Y X) as [Z|(t & Z)]; [auto|]. right. exists t. auto.
  - intros s s' w R X _ Tk ST. right. exists w. split; [auto|]. apply (rk2_other s); auto.
  - intros s s' w R X _ Tk ST. apply (rk2_worker s); auto.
Qed.

(* the worker ends after stop(): only the calls of queue() that are past the test can still add something *)
Definition pushing (p : cpc) : nat := match p with C83l _ | C85 _ => 1 | _ => 0 end.
Fixpoint count (l : list tid) (f : tid -> cpc) : nat := match l with [] => 0 | t :: l => pushing (f t) + count l f end.
Lemma count_upd_out l f t p : ~ In t l -> count l (upd f t p) = count l f.
Proof.
  induction l as [|u l IH]; intros H; [reflexivity|]. cbn. rewrite IH by (intros X; apply H; right; exact X). rewrite upd_other; [reflexivity|]. intros ->. apply H. left. reflexivity.
Qed.
Lemma count_upd l f t p : NoDup l -> In t l -> count l (upd f t p) + pushing (f t) = count l f + pushing p.
Proof.
  induction 1 as [|u l H D IH]; intros [].
  - subst u. pose proof (count_upd_out l f t p H) as E. cbn. rewrite E, upd_same. lia.
  - specialize (IH H0). cbn. rewrite upd_other by (intros ->; contradiction). lia.
Qed.
Lemma finite_clients s : reach init any s -> exists l, NoDup l /\ forall t, cl s t <> CIdle -> In t l.
Proof.
  intros R. induction R as [|s s' R (l & D & H) (w & ST)]; [exists []; split; [constructor|]; intros t Y; exfalso; apply Y; reflexivity|].
  assert (G : forall t p, cl s' = upd (cl s) t p -> exists l, NoDup l /\ forall t, cl s' t <> CIdle -> In t l).
  { intros t p E. destruct (in_dec Nat.eq_dec t l) as [I|NI].
    - exists l. split; [exact D|]. intros u. rewrite E. destruct (Nat.eq_dec u t) as [->|N]; [auto|]. rewrite upd_other by exact N. apply H.
    - exists (t :: l). split; [constructor; assumption|]. intros u. rewrite E. destruct (Nat.eq_dec u t) as [->|N]; [intros; left; reflexivity|]. rewrite upd_other by exact N. right. apply H, H0. }
  destruct ST as [s s' E|s s' E|t s s' E|s E|t s E|t s E].
  - exists l. rewrite (wstep_cl _ _ E). auto.
  - exists l. unfold wspurious in E. destruct (wk s); try discriminate E. inj E. auto.
  - unfold cstep in E. destruct (cl s t); try discriminate E; try (destruct (mtx s); try discriminate E); injection E as E; apply (G t _ (f_equal cl (eq_sym E))).
  - exists l. auto.
  - exact (G t _ eq_refl).
  - exact (G t _ eq_refl).
Qed.
Definition level (l : list tid) (s : st) : nat := 10 * (length (queue s) + count l (cl s)) + match wk s with W243 => 1 | p => base2 p end.
Lemma level_other l s s' v : NoDup l -> execute s = false -> wk s <> WOff -> (forall t, pushing (cl s t) <> 0 -> In t l) -> level l s = v -> step ByOther s s' ->
  level l s' <= v /\ (wk s' <> WOff /\ (forall t, pushing (cl s' t) <> 0 -> In t l) /\ level l s' = level l s').
Proof.
  intros D X N C L ST. remember ByOther as w. 
  assert (G : forall t p, cl s' = upd (cl s) t p -> wk s' = wk s -> pushing p <= pushing (cl s t) -> length (queue s') + pushing p <= length (queue s) + pushing (cl s t) ->
    level l s' <= v /\ (wk s' <> WOff /\ (forall t, pushing (cl s' t) <> 0 -> In t l) /\ level l s' = level l s')).
  { intros t p E Ew Hp Hq. assert (C' : forall u, pushing (cl s' u) <> 0 -> In u l).
    { intros u. rewrite E. unfold upd. destruct (Nat.eqb_spec u t) as [->|_]; [|apply C]. intros Y. apply C. lia. }
    split; [|split; [congruence|auto]]. rewrite <- L. unfold level. rewrite Ew, E. destruct (in_dec Nat.eq_dec t l) as [I|NI].
    - pose proof (count_upd l (cl s) t p D I). lia.
    - rewrite (count_upd_out l (cl s) t p NI). assert (pushing (cl s t) = 0) by (destruct (Nat.eq_dec (pushing (cl s t)) 0); auto; destruct NI; auto). lia. }
  destruct ST as [s s' E|s s' E|t s s' E|s E|t s E|t s E]; try discriminate.
  - unfold cstep in E. destruct (cl s t) eqn:Ec; try discriminate E; try (destruct (mtx s); try discriminate E); rewrite ?X in E; inj E;
      (eapply (G t); [reflexivity|reflexivity|rewrite Ec; cbn; lia|rewrite Ec; cbn; rewrite ?app_length; cbn; lia]).
  - congruence.
  - apply (G t (C83 (ActiveObjectModel.next s))); auto; rewrite E; cbn; lia.
  - apply (G t C77); auto; rewrite E; cbn; lia.
Qed.
Lemma level_worker l s s' v : reach init any s -> execute s = false -> wk s <> WOff -> (forall t, pushing (cl s t) <> 0 -> In t l) -> level l s = v -> step ByWorker s s' ->
  wk s' = WOff \/ exists v', v' < v /\ (wk s' <> WOff /\ (forall t, pushing (cl s' t) <> 0 -> In t l) /\ level l s' = v').
Proof.
  intros R X N C L ST. assert (Ec : cl s' = cl s /\ (wk s' = WOff \/ level l s' < level l s)).
  { remember ByWorker as w. destruct ST as [s s' E|s s' E|t s s' E|s E|t s E|t s E]; try discriminate.
    - split; [apply (wstep_cl _ _ E)|]. pose proof (a_q _ (reach_invA _ R)) as Aq. unfold wstep in E. rewrite X in E. unfold level.
      destruct (wk s) as [| | | | | | |x|x|x|x| | | | |] eqn:Ew; try discriminate E; cbn in Aq.
      + inj E. cbn. lia.
      + destruct (sem s); [discriminate|]. inj E. cbn. lia.
      + inj E. cbn. lia.
      + inj E. cbn. destruct (queue s); cbn; lia.
      + destruct (mtx s); [discriminate|]. inj E. cbn. lia.
      + inj E. cbn. destruct (queue s); [tauto|]. cbn. lia.
      + destruct Aq as (q & Eq). rewrite Eq in *. inj E. cbn. lia.
      + inj E. cbn. lia.
      + inj E. cbn. lia.
      + inj E. cbn. lia.
      + inj E. cbn. destruct (queue s); cbn; lia.
      + destruct (queue s) eqn:Eq; [tauto|]. inj E. cbn. rewrite Eq. cbn. lia.
      + destruct (queue s) eqn:Eq; [tauto|]. inj E. cbn. lia.
      + inj E. cbn. auto.
    - unfold wspurious in E. destruct (wk s) eqn:Ew; try discriminate E. inj E. split; [reflexivity|]. unfold level. rewrite Ew. cbn. lia. }
  destruct Ec as (Ec & [Y|Y]); [auto|]. destruct (wk s') eqn:E'; auto; right; exists (level l s'); (split; [lia|]); (split; [discriminate|]); rewrite Ec; auto.
Qed.
Lemma ends r n : fair r -> keeps_stopped r n -> eventually n (fun m => wk (r m) = WOff).
Proof.
  intros F Ks. destruct (wk (r n)) eqn:E0; try (apply eventually_now; exact E0).
  all: assert (Rn : reach init any (r n)) by (apply execution_reach, F); destruct (finite_clients _ Rn) as (l & D & H);
    assert (T0 : wk (r n) <> WOff /\ (forall t, pushing (cl (r n) t) <> 0 -> In t l) /\ level l (r n) = level l (r n))
      by (split; [congruence|]; split; [|reflexivity]; intros t Y; apply H; intros Z; rewrite Z in Y; apply Y; reflexivity);
    clear E0; revert T0; generalize (level l (r n)) at 2; intros v T0.
  all: apply (progress r F false (fun s v => wk s <> WOff /\ (forall t, pushing (cl s t) <> 0 -> In t l) /\ level l s = v) (fun s => wk s = WOff) n Ks) with (v := v); auto;
    [intros s v' R X (N & C & L); split; [exact N|]; intros Y; destruct (d_stop _ (reach_invD _ R) Y X) as [Z|(t & Z)]; [auto|right; exists t; auto]
    |intros s s' v' R X X' (N & C & L) ST; right; exists (level l s'); exact (level_other l s s' v' D X N C L ST)
    |intros s s' v' R X X' (N & C & L) ST; exact (level_worker l s s' v' R X N C L ST)].
Qed.

(* executions in which nothing happens any more after a list of actions *)
Definition follow (ls : list act) (n : nat) : st := match arun init (firstn n ls) with Some s => s | None => init end.
Lemma arun_app a b s : arun s (a ++ b) = match arun s a with Some s' => arun s' b | None => None end.
Proof. revert s. induction a as [|l a IH]; intros s; [reflexivity|]. cbn. destruct (arun1 s l); auto. Qed.
Lemma arun1_any s s' a : arun1 s a = Some s' -> any s s'.
Proof.
  intros E1. destruct a as [| |t| |t|t]; cbn in E1.
  - exists ByWorker. apply step_worker; auto.
  - exists ByWorker. apply step_spurious; auto.
  - exists ByOther. eapply step_client; eauto.
  - destruct (wk s) eqn:Ew; try discriminate. inj E1. exists ByOther. apply step_start; auto.
  - destruct (cl s t) eqn:Ec; try discriminate. inj E1. exists ByOther. apply step_queue; auto.
  - destruct (cl s t) eqn:Ec; try discriminate. inj E1. exists ByOther. apply step_stop; auto.
Qed.
Lemma follow_late ls s m : arun init ls = Some s -> length ls <= m -> follow ls m = s.
Proof. intros Rn L. unfold follow. rewrite firstn_all2 by exact L. rewrite Rn. reflexivity. Qed.
Lemma follow_fair ls s : arun init ls = Some s -> wstep s = None -> (forall t, cstep t s = None) -> fair (follow ls).
Proof.
  intros Rn W C. pose proof (fun m => follow_late ls s m Rn) as Late.
  split; [split|split]; [reflexivity| | |].
  - intros n. destruct (Nat.le_gt_cases (length ls) n) as [L|L]; [left; rewrite !Late; auto; lia|]. right.
    unfold follow. destruct (nth_error ls n) as [l|] eqn:E; [|apply nth_error_None in E; lia].
    destruct (nth_error_split ls n E) as (a & b & -> & La). subst n.
    replace (firstn (S (length a)) (a ++ l :: b)) with (a ++ [l]) by (replace (S (length a)) with (length a + 1) by lia; rewrite firstn_app_2; reflexivity).
    replace (firstn (length a) (a ++ l :: b)) with a by (rewrite firstn_app, Nat.sub_diag, firstn_O, app_nil_r, firstn_all; reflexivity).
    rewrite arun_app in Rn |- *. destruct (arun init a) as [s1|]; [|discriminate Rn]. cbn in Rn |- *. destruct (arun1 s1 l) as [s2|] eqn:A; [|discriminate Rn].
    apply (arun1_any _ _ _ A).
  - right. exists (length ls). intros m L. rewrite Late by exact L. exact W.
  - intros t. right. exists (length ls). intros m L. rewrite Late by exact L. apply C.
Qed.
Lemma settled ls (P : st -> Prop) : match arun init ls with Some s => (wstep s = None /\ forall t, cstep t s = None) /\ P s | None => False end ->
  fair (follow ls) /\ forall m, length ls <= m -> P (follow ls m).
Proof.
  destruct (arun init ls) as [s|] eqn:E; [|intros []]. intros ((W & C) & H). split; [exact (follow_fair ls s E W C)|]. intros m L. rewrite (follow_late ls s m E L). exact H.
Qed.
Lemma from_on (f : nat -> st) (P : st -> bool) a n : forallb (fun k => P (f k)) (seq a n) = true -> (forall m, a + n <= m -> P (f m) = true) -> forall m, a <= m -> P (f m) = true.
Proof.
  intros H L m Lm. destruct (Nat.le_gt_cases (a + n) m) as [X|X]; [auto|]. rewrite forallb_forall in H. apply (H m). apply in_seq. lia.
Qed.
