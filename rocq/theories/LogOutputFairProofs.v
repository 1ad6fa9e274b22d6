(* Proofs for C50: what happens in every fair execution *)
From Verif Require Import Conc BaseLemmas LogOutputModel LogOutputSpec LogOutputProofs FairLemmas LogOutputFairSpec.

(* a step is the worker's, or it leaves the worker alone *)
Lemma step_split s s' : reach init (step false) s -> step false s s' ->
  wstep s = Some s' \/ (out s' = out s /\ length (pushed s) <= length (pushed s') /\ (gone_w (wk s) = false -> wk s' = wk s)).
Proof.
  intros R H. pose proof (flags_inv _ _ R) as F. unfold flags in F. inv_step H; try discriminate Hi; auto.
  - right. pcases s t Hs P X; cbn; rewrite ?app_length; auto with arith.
  - right. ccases s Hs C ES W; cbn; rewrite ?W; repeat split; auto; try discriminate.
    cbn in F. destruct (wk s); cbn in *; rewrite ?andb_false_r in F; congruence.
Qed.

Definition c_ok (c : cpc) (b : bool) (w : wpc) : bool :=
  match c with
  | CIdle | CStarted _ | CStopped | CNothing => false
  | S99 | S144 | D94 => negb b
  | S109 | J88 => match w with WEnd => true | _ => false end
  | _ => true
  end.
Lemma c_ok_spec s : cstep s <> None <-> c_ok (ctl s) (starting s) (wk s) = true.
Proof. unfold cstep. destruct (ctl s); cbn; try destruct (starting s); try destruct (wk s); cbn; split; intros H; try reflexivity; try discriminate; exfalso; apply H; reflexivity. Qed.

Section Run.
Variable r : nat -> st.
Hypothesis Fr : fair r.
Let Er : execution init (step false) r := proj1 Fr.
Let Rr : forall n, reach init (step false) (r n) := execution_reach _ _ _ Er.

Lemma pu_kept t n : pu (r (S n)) t = pu (r n) t \/ pstep t (r n) = Some (r (S n)) \/ pu (r n) t = PIdle.
Proof.
  destruct (proj2 Er n) as [-> |H]; [auto|]. set (s := r n) in *. set (s' := r (S n)) in *. clearbody s s'.
  inversion H as [? u ? Hs|? ? Hs|? ? Hs|? u m Hs|? Hs|? Hs|? Hs|? u m Hi Hs|? Hi Hs|? Hi Hs|? Hi Hs]; subst; try discriminate Hi; cbn; auto.
  - destruct (Nat.eq_dec t u) as [->|N]; [auto|]. left. pcases s u Hs P X; cbn; rewrite upd_other; auto.
  - left. destruct (worker_same _ _ Hs) as (_ & -> & _). reflexivity.
  - left. destruct (ctl_same _ _ Hs) as (_ & _ & _ & _ & -> & _). reflexivity.
  - destruct (Nat.eq_dec t u) as [->|N]; [auto|]. left. rewrite upd_other; auto.
Qed.
(* a thread that is past the entrance of push() goes on *)
Lemma push_165_goes t m n : pu (r n) t = P165 m -> eventually n (fun k => pu (r k) t = P167 /\ In m (pushed (r k))).
Proof.
  apply (wf_leads (pstep t) r (fun k => pu (r k) t = P165 m)).
  - apply strong_weak, Fr.
  - intros k E. unfold pstep. rewrite E. discriminate.
  - intros k E. destruct (pu_kept t k) as [K|[K|K]]; [left; congruence| |congruence]. right. unfold pstep in K. rewrite E in K. injection K as K. rewrite <- K. cbn. rewrite upd_same. split; [reflexivity|]. apply in_or_app. right. left. reflexivity.
  - intros k E T. unfold taken, pstep in T. rewrite E in T. injection T as T. rewrite <- T. cbn. rewrite upd_same. split; [reflexivity|]. apply in_or_app. right. left. reflexivity.
Qed.
Lemma push_167_goes t n : pu (r n) t = P167 -> eventually n (fun k => pu (r k) t = P168 /\ mx (r k) = Free).
Proof.
  apply (wf_leads (pstep t) r (fun k => pu (r k) t = P167)).
  - apply strong_weak, Fr.
  - intros k E. unfold pstep. rewrite E. discriminate.
  - intros k E. destruct (pu_kept t k) as [K|[K|K]]; [left; congruence| |congruence]. right. unfold pstep in K. rewrite E in K. injection K as K. rewrite <- K. cbn. rewrite upd_same. auto.
  - intros k E T. unfold taken, pstep in T. rewrite E in T. injection T as T. rewrite <- T. cbn. rewrite upd_same. auto.
Qed.
Lemma push_168_goes t n : pu (r n) t = P168 -> eventually n (fun k => pu (r k) t = PIdle /\ 1 <= fill (r k)).
Proof.
  apply (wf_leads (pstep t) r (fun k => pu (r k) t = P168)).
  - apply strong_weak, Fr.
  - intros k E. unfold pstep. rewrite E. discriminate.
  - intros k E. destruct (pu_kept t k) as [K|[K|K]]; [left; congruence| |congruence]. right. unfold pstep in K. rewrite E in K. injection K as K. rewrite <- K. cbn. rewrite upd_same. split; [reflexivity|lia].
  - intros k E T. unfold taken, pstep in T. rewrite E in T. injection T as T. rewrite <- T. cbn. rewrite upd_same. split; [reflexivity|lia].
Qed.
(* the mutex is not held for ever by a pushing thread *)
Lemma pusher_releases t n : mx (r n) = ByPusher t -> eventually n (fun k => mx (r k) = Free).
Proof.
  intros M. destruct (mutex_inv _ _ (Rr n)) as [_ M2]. apply M2 in M. destruct (pu (r n) t) as [|m|m| |] eqn:P; try discriminate M.
  - apply (eventually_trans _ _ _ (push_165_goes t m n P)). intros k _ [E _]. apply (eventually_imp _ _ _ (push_167_goes t k E)). intros; tauto.
  - apply (eventually_imp _ _ _ (push_167_goes t n P)). intros; tauto.
Qed.
Lemma worker_kept n : gone_w (wk (r n)) = false ->
  wstep (r n) = Some (r (S n)) \/ (wk (r (S n)) = wk (r n) /\ out (r (S n)) = out (r n) /\ length (pushed (r n)) <= length (pushed (r (S n)))).
Proof.
  intros G. destruct (proj2 Er n) as [-> |H]; [auto|]. destruct (step_split _ _ (Rr n) H) as [A|(A & B & C)]; auto.
Qed.
(* the worker gets what it waits for *)
Lemma worker_enabled n : gone_w (wk (r n)) = false -> (wk (r n) = W569 -> queue (r n) <> [] \/ 1 <= fill (r n)) ->
  eventually n (fun m => wstep (r m) <> None \/ wk (r m) <> wk (r n)).
Proof.
  intros G Q.
  assert (Fre : (wk (r n) = W577 \/ wk (r n) = W614) -> eventually n (fun m => wstep (r m) <> None \/ wk (r m) <> wk (r n))).
  { intros W.
    assert (X : eventually n (fun m => mx (r m) = Free)).
    { destruct (mx (r n)) as [| |t] eqn:M; [apply eventually_now; exact M| |apply (pusher_releases t n M)].
      exfalso. destruct (mutex_inv _ _ (Rr n)) as [M1 _]. apply M1 in M. destruct W as [W|W]; rewrite W in M; discriminate M. }
    apply (eventually_imp _ _ _ X). intros m _ Fm. destruct W as [W|W]; destruct (wk (r m)) eqn:Wm; try (right; congruence); left; unfold wstep; rewrite Wm, Fm; discriminate. }
  destruct (wk (r n)) eqn:W; try discriminate G; auto.
  all: try (apply eventually_now; left; unfold wstep; rewrite W; discriminate).
  assert (X : eventually n (fun m => 1 <= fill (r m))).
  { destruct (fill (r n)) as [|f] eqn:FE; [|apply eventually_now; lia].
    destruct (Q eq_refl) as [Q'|Q']; [|lia]. pose proof (tokens_inv _ (Rr n)) as T. unfold tokens in T. rewrite FE, W in T. cbn in T.
    destruct (waiting (r n)) as [|t l] eqn:Wt. { destruct (queue (r n)); cbn in T; [contradiction|lia]. }
    destruct (waiting_inv _ _ (Rr n)) as [_ Wi]. assert (P : p_waits (pu (r n) t) = true) by (apply Wi; rewrite Wt; left; reflexivity).
    destruct (pu (r n) t) eqn:Pt; try discriminate P.
    - apply (eventually_trans _ _ _ (push_167_goes t n Pt)). intros k _ [E _]. apply (eventually_imp _ _ _ (push_168_goes t k E)). intros; tauto.
    - apply (eventually_imp _ _ _ (push_168_goes t n Pt)). intros; tauto. }
  apply (eventually_imp _ _ _ X). intros m _ Fm. destruct (wk (r m)) eqn:Wm; try (right; congruence). left. unfold wstep. rewrite Wm. destruct (fill (r m)); [lia|discriminate].
Qed.

(* delivery *)
Definition rank_d (w : wpc) : nat :=
  match w with
  | W132 => 11 | W133 => 10 | W134 => 9 | W597 None => 8 | W606 => 8 | W567 => 7 | W569 => 6 | W574 => 5 | W577 => 4 | W589 => 3 | W597 (Some _) => 2 | W601 _ => 1
  | W614 => 6 | _ => 0
  end.
Definition ranked (w : wpc) : bool := match w with WOff | W632 | W138 | W139 | WEnd => false | _ => true end.
Definition todo (L : nat) (s : st) : Prop := ranked (wk s) = true /\ length (out s) < L /\ L <= length (pushed s).
Definition mu (L : nat) (s : st) : nat := 16 * (L - length (out s)) + rank_d (wk s).
Lemma worker_progress L s s' : reach init (step false) s -> todo L s -> wstep s = Some s' ->
  L <= length (out s') \/ (todo L s' /\ mu L s' < mu L s).
Proof.
  intros R (A & B & C) Hs. pose proof (orderly_inv _ _ R) as O. unfold orderly in O. pose proof (f_equal (@length _) O) as OL. rewrite !app_length in OL.
  destruct (worker_same _ _ Hs) as (PS & _). unfold todo, mu. rewrite PS.
  wcases s Hs W X; try discriminate A; cbn [set_mx set_fill set_queue set_exec set_finished set_starting set_wk set_out wk out] in *.
  all: try (right; cbn in *; split; [auto|lia]).
  - right. destruct (exec s); cbn in *; split; auto; lia.
  - right. destruct (queue s) eqn:Q; cbn in *; [lia|split; auto; lia].
  - right. destruct (queue s) eqn:Q; cbn in *; [lia|split; auto; lia].
  - right. destruct o; cbn in *; split; auto; lia.
  - rewrite app_length in *. cbn in *. destruct (Nat.le_gt_cases L (length (out s) + 1)); [auto|]. right. split; auto. lia.
  - destruct (queue s) as [|m q] eqn:Q; cbn in *; [lia|]. rewrite app_length in *. cbn in *. rewrite W. cbn. destruct (Nat.le_gt_cases L (length (out s) + 1)); [auto|]. right. split; auto. lia.
Qed.
Lemma todo_queue L s : reach init (step false) s -> todo L s -> wk s = W569 -> queue s <> [] \/ 1 <= fill s.
Proof.
  intros R (A & B & C) W. left. intros Q. pose proof (orderly_inv _ _ R) as O. unfold orderly in O. rewrite W, Q in O. cbn in O. rewrite app_nil_r in O. rewrite O in B. lia.
Qed.
Lemma ranked_gone w : ranked w = true -> gone_w w = false.
Proof. destruct w; auto; discriminate. Qed.
Lemma worker_leads (P Q : nat -> Prop) :
  (forall k, P k -> gone_w (wk (r k)) = false /\ (wk (r k) = W569 -> queue (r k) <> [] \/ 1 <= fill (r k))) ->
  (forall k, P k -> taken wstep r k -> Q (S k)) ->
  (forall k, P k -> wk (r (S k)) = wk (r k) -> out (r (S k)) = out (r k) -> length (pushed (r k)) <= length (pushed (r (S k))) -> P (S k) \/ Q (S k)) ->
  forall n, P n -> eventually n Q.
Proof.
  intros A B C n Pn.
  assert (K : forall k, P k /\ wk (r k) = wk (r n) -> (P (S k) /\ wk (r (S k)) = wk (r n)) \/ Q (S k)).
  { intros k [Pk Wk]. destruct (A k Pk) as [G _]. destruct (worker_kept k G) as [X|(X1 & X2 & X3)].
    - right. apply (B k Pk X).
    - destruct (C k Pk X1 X2 X3) as [Y|Y]; [left|right; exact Y]. split; [exact Y|congruence]. }
  apply (sf_leads wstep r (fun k => P k /\ wk (r k) = wk (r n))).
  - apply Fr.
  - intros k [Pk Wk]. destruct (A k Pk) as [G Q']. destruct (worker_enabled k G Q') as (m & Lm & [D|D]); [exists m; auto|].
    destruct (persist _ _ K k m Lm (conj Pk Wk)) as [Y|(j & Lj & Y)].
    + destruct Y as [_ Y]. congruence.
    + exists j. auto.
  - exact K.
  - intros k [Pk Wk] T. apply (B k Pk T).
  - auto.
Qed.
Lemma delivered L n : todo L (r n) -> eventually n (fun m => L <= length (out (r m))).
Proof.
  apply (leads_rank (fun k => todo L (r k)) _ (fun k => mu L (r k))). clear n. intros n T.
  apply (worker_leads (fun k => todo L (r k) /\ mu L (r k) = mu L (r n))).
  - intros k [Tk _]. split; [apply ranked_gone, Tk|apply (todo_queue L _ (Rr k) Tk)].
  - intros k [Tk Vk] X. rewrite <- Vk. apply worker_progress; auto.
  - intros k [(A & B & C) V] K1 K2 K3. left. unfold todo, mu in *. rewrite K1, K2. repeat split; auto; lia.
  - auto.
Qed.

(* push() returns *)
Lemma worker_mutex n : mx (r n) = ByWorker ->
  wstep (r n) = Some (r (S n)) \/ (mx (r (S n)) = ByWorker /\ wk (r (S n)) = wk (r n) /\ queue (r (S n)) = queue (r n)).
Proof.
  intros M. destruct (proj2 Er n) as [-> |H]; [auto|]. destruct (mutex_inv _ _ (Rr n)) as [M1 M2].
  assert (G : gone_w (wk (r n)) = false) by (apply M1 in M; destruct (wk (r n)); auto; discriminate M).
  destruct (step_split _ _ (Rr n) H) as [A|(_ & _ & K)]; [auto|]. specialize (K G). pose proof (Rr n) as R0. clear Fr Er Rr.
  set (s := r n) in *. set (s' := r (S n)) in *. clearbody s s'.
  inv_step H; try discriminate Hi; auto.
  - right. assert (E : p_holds (pu s t) = false). { destruct (p_holds (pu s t)) eqn:E; [|reflexivity]. apply M2 in E. congruence. }
    pcases s t Hs P X; cbn; try discriminate E; auto. congruence.
  - right. destruct (ctl_same _ _ Hs) as (_ & -> & _ & -> & _). auto.
Qed.
Lemma worker_lets_go n : mx (r n) = ByWorker -> eventually n (fun m => mx (r m) = Free).
Proof.
  apply (leads_rank (fun k => mx (r k) = ByWorker) _ (fun k => 16 * length (queue (r k)) + rank_w (wk (r k)))). clear n. intros n M.
  assert (B : forall k, mx (r k) = ByWorker -> taken wstep r k ->
    mx (r (S k)) = Free \/ (mx (r (S k)) = ByWorker /\ 16 * length (queue (r (S k))) + rank_w (wk (r (S k))) < 16 * length (queue (r k)) + rank_w (wk (r k)))).
  { intros k Mk T. unfold taken in T. destruct (mutex_inv _ _ (Rr k)) as [M1 _]. apply M1 in Mk as H.
    set (s := r k) in *. set (s' := r (S k)) in *. clearbody s s'. clear M.
    wcases s T W X; try discriminate H; cbn; auto.
    - destruct (queue s) eqn:Q; cbn; rewrite ?Q; right; split; auto; cbn; lia.
    - destruct (queue s) eqn:Q; cbn; rewrite ?Q, ?W; right; split; auto; cbn; lia. }
  apply (wf_leads wstep r (fun k => mx (r k) = ByWorker /\ 16 * length (queue (r k)) + rank_w (wk (r k)) = 16 * length (queue (r n)) + rank_w (wk (r n)))).
  - apply strong_weak, Fr.
  - intros k [Mk _]. destruct (mutex_inv _ _ (Rr k)) as [M1 _]. apply M1 in Mk. unfold wstep. destruct (wk (r k)); discriminate.
  - intros k [Mk Vk]. destruct (worker_mutex k Mk) as [X|(X1 & X2 & X3)].
    + right. rewrite <- Vk. apply B; auto.
    + left. rewrite X1, X2, X3. auto.
  - intros k [Mk Vk] T. rewrite <- Vk. apply B; auto.
  - auto.
Qed.
Lemma push_156_goes t m n : pu (r n) t = P156 m -> eventually n (fun k => pu (r k) t = P165 m).
Proof.
  assert (X : forall k, pu (r k) t = P156 m -> taken (pstep t) r k -> pu (r (S k)) t = P165 m).
  { intros k E T. unfold taken, pstep in T. rewrite E in T. destruct (mx (r k)); try discriminate T. injection T as T. rewrite <- T. cbn. apply upd_same. }
  assert (K : forall k, pu (r k) t = P156 m -> pu (r (S k)) t = P156 m \/ pu (r (S k)) t = P165 m).
  { intros k E. destruct (pu_kept t k) as [Y|[Y|Y]]; [left; congruence|right; apply (X k E Y)|congruence]. }
  apply (sf_leads (pstep t) r (fun k => pu (r k) t = P156 m)); auto.
  - apply Fr.
  - intros k E.
    assert (Y : eventually k (fun j => mx (r j) = Free)).
    { destruct (mx (r k)) as [| |u] eqn:M; [apply eventually_now; exact M|apply (worker_lets_go k M)|apply (pusher_releases u k M)]. }
    destruct Y as (j & L & Y). destruct (persist (fun i => pu (r i) t = P156 m) (fun i => pu (r i) t = P165 m) K k j L E) as [Z|(i & Li & Z)]; [|exists i; auto].
    exists j. split; [exact L|]. left. unfold pstep. rewrite Z, Y. discriminate.
Qed.
Lemma pushed_grows n k : n <= k -> exists l, pushed (r k) = pushed (r n) ++ l.
Proof.
  induction 1 as [|k _ [l IH]]; [exists []; rewrite app_nil_r; reflexivity|]. destruct (proj2 Er k) as [-> |H]; [eauto|].
  rewrite <- (app_nil_r (pushed (r n))). set (s := r k) in *. set (s' := r (S k)) in *. clearbody s s'. clear -IH H. rewrite app_nil_r.
  inv_step H; cbn; eauto.
  - pcases s t Hs P X; cbn; eauto. rewrite IH, <- app_assoc. eauto.
  - destruct (worker_same _ _ Hs) as (-> & _). eauto.
  - destruct (ctl_same _ _ Hs) as (_ & _ & -> & _). eauto.
Qed.
Lemma push_goes t m n : pu (r n) t = P156 m -> eventually n (fun k => pu (r k) t = PIdle /\ In m (pushed (r k))).
Proof.
  intros E. apply (eventually_trans _ _ _ (push_156_goes t m n E)). intros a _ Ea.
  apply (eventually_trans _ _ _ (push_165_goes t m a Ea)). intros b _ [Eb Ib].
  apply (eventually_trans _ _ _ (push_167_goes t b Eb)). intros c Lc [Ec _].
  apply (eventually_imp _ _ _ (push_168_goes t c Ec)). intros d Ld [Ed _]. split; [exact Ed|].
  destruct (pushed_grows b d ltac:(lia)) as [l ->]. apply in_or_app. auto.
Qed.

(* start() and shutdown() return *)
Lemma ctl_progress n : resting (ctl (r n)) = false ->
  resting (ctl (r (S n))) = true \/ rank_c (ctl (r (S n))) < rank_c (ctl (r n)) \/
  (ctl (r (S n)) = ctl (r n) /\ (cstep (r n) <> None -> cstep (r (S n)) <> None) /\ ~ taken cstep r n) .
Proof.
  intros N. assert (T : cstep (r n) = Some (r (S n)) -> resting (ctl (r (S n))) = true \/ rank_c (ctl (r (S n))) < rank_c (ctl (r n))).
  { clear Fr Er Rr. set (s := r n) in *. set (s' := r (S n)) in *. clearbody s s'. intros Hs.
    ccases s Hs C ES W; cbn in *; auto; try lia.
    - destruct (starting s || negb (finished s)); cbn; lia.
    - destruct (joined s); cbn; lia.
    - destruct (finished s); cbn; auto; lia.
    - destruct (finished s); cbn; lia. }
  assert (D : taken cstep r n \/ (ctl (r (S n)) = ctl (r n) /\ (cstep (r n) <> None -> cstep (r (S n)) <> None)) \/ resting (ctl (r (S n))) = true).
  { destruct (proj2 Er n) as [-> |H]; [auto|]. clear Fr Er Rr T. unfold taken. set (s := r n) in *. set (s' := r (S n)) in *. clearbody s s'.
    inv_step H; try discriminate Hi; auto; try congruence.
    - right; left. assert (Z : ctl s' = ctl s /\ starting s' = starting s /\ wk s' = wk s) by (pcases s t Hs P X; auto).
      destruct Z as (Z1 & Z2 & Z3). split; [exact Z1|]. rewrite !c_ok_spec, Z1, Z2, Z3. auto.
    - right; left. destruct (worker_same _ _ Hs) as (_ & _ & _ & C & _). split; [exact C|]. rewrite !c_ok_spec, C.
      assert (Z : (starting s' = true -> starting s = true) /\ (wk s = WEnd -> wk s' = WEnd)).
      { wcases s Hs W X; cbn; split; try congruence; destruct (queue s); auto; discriminate. }
      destruct Z as [Z1 Z2]. destruct (ctl s) eqn:CE; auto; cbn.
      all: try (destruct (starting s'), (starting s); auto; rewrite Z1 by reflexivity; auto).
      all: destruct (wk s) eqn:W; try discriminate; rewrite Z2; auto.
    - right; left. cbn. rewrite !c_ok_spec. auto. }
  destruct D as [D|[D|D]]; auto.
  - destruct (T D); auto.
  - right; right. destruct D as [D1 D2]. split; [exact D1|]. split; [exact D2|]. intros X. destruct (T X) as [Y|Y]; [congruence|]. rewrite D1 in Y. lia.
Qed.
Definition gives (n m : nat) : Prop := resting (ctl (r m)) = true \/ rank_c (ctl (r m)) < rank_c (ctl (r n)).
Lemma ctl_enabled_goes n : resting (ctl (r n)) = false -> cstep (r n) <> None -> eventually n (gives n).
Proof.
  intros N En. apply (wf_leads cstep r (fun k => ctl (r k) = ctl (r n) /\ cstep (r k) <> None) (gives n)).
  - apply Fr.
  - tauto.
  - intros k [C E]. destruct (ctl_progress k ltac:(congruence)) as [X|[X|(X1 & X2 & X3)]].
    + right. left. exact X.
    + right. right. congruence.
    + left. split; [congruence|auto].
  - intros k [C E] T. destruct (ctl_progress k ltac:(congruence)) as [X|[X|(X1 & X2 & X3)]].
    + left. exact X.
    + right. congruence.
    + contradiction.
  - auto.
Qed.
Lemma ctl_waits n (Q : nat -> Prop) : resting (ctl (r n)) = false -> eventually n (fun m => gives n m \/ (ctl (r m) = ctl (r n) /\ cstep (r m) <> None)) ->
  eventually n (gives n).
Proof.
  intros N H. apply (eventually_trans _ _ _ H). intros m _ [X|[C E]]; [apply eventually_now, X|].
  apply (eventually_imp _ _ _ (ctl_enabled_goes m ltac:(congruence) E)). intros k _ G. unfold gives in *. rewrite <- C. exact G.
Qed.
Lemma ctl_gives n k : resting (ctl (r n)) = false -> ctl (r k) = ctl (r n) -> ctl (r (S k)) = ctl (r n) \/ gives n (S k).
Proof.
  intros N C. unfold gives. destruct (ctl_progress k ltac:(congruence)) as [X|[X|(X1 & _)]]; [auto| |left; congruence]. right. right. congruence.
Qed.
(* the worker has started *)
Lemma start_144 n : ctl (r n) = S144 -> eventually n (fun m => gives n m \/ (ctl (r m) = ctl (r n) /\ cstep (r m) <> None)).
Proof.
  intros C0. assert (N : resting (ctl (r n)) = false) by (rewrite C0; reflexivity).
  apply (leads_rank (fun k => ctl (r k) = ctl (r n)) (fun m => gives n m \/ (ctl (r m) = ctl (r n) /\ cstep (r m) <> None)) (fun k => match wk (r k) with W132 => 2 | W133 => 1 | _ => 0 end)); [|reflexivity].
  intros k C. pose proof (flags_inv _ _ (Rr k)) as Fk. unfold flags in Fk. rewrite C, C0 in Fk. cbn in Fk.
  destruct (starting (r k)) eqn:Es.
  2:{ apply eventually_now. left. right. split; [exact C|]. unfold cstep. rewrite C, C0, Es. discriminate. }
  unfold running_ok in Fk. cbn in Fk.
  assert (Wk : wk (r k) = W132 \/ wk (r k) = W133) by (destruct (wk (r k)); rewrite ?andb_false_r in Fk; auto; discriminate Fk).
  apply (worker_leads (fun j => ctl (r j) = ctl (r n) /\ wk (r j) = wk (r k))); [| | |auto].
  - intros j [_ Wj]. rewrite Wj. destruct Wk as [-> | ->]; split; auto; discriminate.
  - intros j [Cj Wj] T. unfold taken, wstep in T. rewrite Wj in T. destruct Wk as [Wk|Wk]; rewrite Wk in T |- *; injection T as T.
    + right. rewrite <- T. cbn. auto.
    + left. right. rewrite <- T. split; [exact Cj|]. unfold cstep. cbn. rewrite Cj, C0. discriminate.
  - intros j [Cj Wj] E _ _. destruct (ctl_gives n j N Cj) as [X|X]; [left|right; auto]. split; congruence.
Qed.
(* the worker ends *)
Definition at_end (w : wpc) : bool := match w with W624 | W632 | W138 | W139 | WEnd => true | _ => false end.
Lemma j88_phase1 n : ctl (r n) = J88 -> eventually n (fun m => gives n m \/ (ctl (r m) = ctl (r n) /\ at_end (wk (r m)) = true)).
Proof.
  intros C0. assert (N : resting (ctl (r n)) = false) by (rewrite C0; reflexivity).
  apply (leads_rank (fun k => ctl (r k) = ctl (r n)) (fun m => gives n m \/ (ctl (r m) = ctl (r n) /\ at_end (wk (r m)) = true)) (fun k => rank_w (wk (r k)))); [|reflexivity].
  intros k C. pose proof (flags_inv _ _ (Rr k)) as Fk. unfold flags in Fk. rewrite C, C0 in Fk. cbn in Fk.
  destruct (at_end (wk (r k))) eqn:A; [apply eventually_now; auto|].
  assert (Run : forall j, ctl (r j) = ctl (r n) -> at_end (wk (r j)) = false -> exec (r j) = false /\ (running_w (wk (r j)) = true \/ wk (r j) = W614)).
  { clear -Rr C0. intros j C A. pose proof (flags_inv _ _ (Rr j)) as Fk. unfold flags in Fk. rewrite C, C0 in Fk. cbn in Fk.
    destruct (exec (r j)); [rewrite ?andb_false_r in Fk; discriminate Fk|]. split; [reflexivity|]. destruct (wk (r j)); try discriminate A; auto; cbn in Fk; rewrite ?andb_false_r in Fk; cbn in Fk; rewrite ?andb_false_r in Fk; try discriminate Fk; auto. }
  apply (worker_leads (fun j => ctl (r j) = ctl (r n) /\ wk (r j) = wk (r k))); [| | |auto].
  - intros j [Cj Wj]. rewrite <- Wj in A. destruct (Run j Cj A) as [_ [Rj|Rj]].
    + split; [destruct (wk (r j)); auto; discriminate|]. intros W. right. apply (wake_inv _ _ (Rr j)); auto. right. congruence.
    + rewrite Rj. split; [reflexivity|discriminate].
  - intros j [Cj Wj] T. rewrite <- Wj in A |- *. destruct (Run j Cj A) as [Ex Rj]. destruct (worker_same _ _ T) as (_ & _ & _ & Cs & _).
    assert (Cj' : ctl (r (S j)) = ctl (r n)) by congruence.
    assert (X : rank_w (wk (r (S j))) < rank_w (wk (r j)) \/ at_end (wk (r (S j))) = true); [|destruct X; auto].
    clear -T Ex Rj A. unfold taken in T. set (s := r j) in *. set (s' := r (S j)) in *. clearbody s s'.
    wcases s T W X; cbn in *; auto; try lia; try discriminate A; try (destruct Rj; discriminate).
    + rewrite Ex. cbn. lia.
    + destruct (queue s); cbn; lia.
    + destruct (queue s); cbn; lia.
    + destruct o; cbn; lia.
  - intros j [Cj Wj] E _ _. destruct (ctl_gives n j N Cj) as [X|X]; [left|right; auto]. split; congruence.
Qed.
Lemma j88_phase2 n : ctl (r n) = J88 -> at_end (wk (r n)) = true -> eventually n (fun m => gives n m \/ (ctl (r m) = ctl (r n) /\ cstep (r m) <> None)).
Proof.
  intros C0 A0. assert (N : resting (ctl (r n)) = false) by (rewrite C0; reflexivity).
  apply (leads_rank (fun k => ctl (r k) = ctl (r n) /\ at_end (wk (r k)) = true) (fun m => gives n m \/ (ctl (r m) = ctl (r n) /\ cstep (r m) <> None))
     (fun k => rank_w (wk (r k)) + match wk (r k) with W624 => length (queue (r k)) | _ => 0 end)); [|auto].
  intros k [C A]. destruct (wk (r k)) eqn:Wk; try discriminate A.
  5:{ apply eventually_now. left. right. split; [exact C|]. unfold cstep. rewrite C, C0, Wk. discriminate. }
  - apply (worker_leads (fun j => ctl (r j) = ctl (r n) /\ wk (r j) = W624 /\ queue (r j) = queue (r k))); [| | |auto].
    + intros j (_ & Wj & _). rewrite Wj. split; [reflexivity|discriminate].
    + intros j (Cj & Wj & Qj) T. right. destruct (worker_same _ _ T) as (_ & _ & _ & Cs & _). split; [split; [congruence|]|].
      * unfold taken, wstep in T. rewrite Wj in T. injection T as T. rewrite <- T. destruct (queue (r j)); cbn; rewrite ?Wj; reflexivity.
      * unfold taken, wstep in T. rewrite Wj in T. injection T as T. rewrite <- T, <- Qj. destruct (queue (r j)); cbn; rewrite ?Wj; cbn; lia.
    + intros j (Cj & Wj & Qj) E _ _. destruct (ctl_gives n j N Cj) as [X|X]; [|right; auto].
      destruct (mutex_inv _ _ (Rr j)) as [M1 _]. assert (M : mx (r j) = ByWorker) by (apply M1; rewrite Wj; reflexivity).
      destruct (worker_mutex j M) as [Y|(Y1 & Y2 & Y3)].
      * right. right. split; [split; [exact X|rewrite E, Wj; reflexivity]|]. unfold taken, wstep in Y. rewrite Wj in Y. injection Y as Y. rewrite <- Y, <- Qj. destruct (queue (r j)); cbn; rewrite ?Wj; cbn; lia.
      * left. split; [exact X|]. split; congruence.
  - apply (worker_leads (fun j => ctl (r j) = ctl (r n) /\ wk (r j) = W632)); [| | |auto].
    + intros j (_ & Wj). rewrite Wj. split; [reflexivity|discriminate].
    + intros j (Cj & Wj) T. right. destruct (worker_same _ _ T) as (_ & _ & _ & Cs & _). unfold taken, wstep in T. rewrite Wj in T. injection T as T. rewrite <- T. cbn. auto.
    + intros j (Cj & Wj) E _ _. destruct (ctl_gives n j N Cj) as [X|X]; [left; split; congruence|right; auto].
  - apply (worker_leads (fun j => ctl (r j) = ctl (r n) /\ wk (r j) = W138)); [| | |auto].
    + intros j (_ & Wj). rewrite Wj. split; [reflexivity|discriminate].
    + intros j (Cj & Wj) T. right. destruct (worker_same _ _ T) as (_ & _ & _ & Cs & _). unfold taken, wstep in T. rewrite Wj in T. injection T as T. rewrite <- T. cbn. auto.
    + intros j (Cj & Wj) E _ _. destruct (ctl_gives n j N Cj) as [X|X]; [left; split; congruence|right; auto].
  - apply (worker_leads (fun j => ctl (r j) = ctl (r n) /\ wk (r j) = W139)); [| | |auto].
    + intros j (_ & Wj). rewrite Wj. split; [reflexivity|discriminate].
    + intros j (Cj & Wj) T. right. destruct (worker_same _ _ T) as (_ & _ & _ & Cs & _). unfold taken, wstep in T. rewrite Wj in T. injection T as T. rewrite <- T. cbn. auto.
    + intros j (Cj & Wj) E _ _. destruct (ctl_gives n j N Cj) as [X|X]; [left; split; congruence|right; auto].
Qed.
Lemma ctl_goes n : resting (ctl (r n)) = false -> eventually n (gives n).
Proof.
  intros N. pose proof (flags_inv _ _ (Rr n)) as Fn. unfold flags in Fn.
  destruct (ctl (r n)) eqn:C; try discriminate N; try discriminate Fn.
  all: try (rewrite <- C in N; apply (ctl_enabled_goes n N); unfold cstep; rewrite C; discriminate).
  - rewrite <- C in N. apply (ctl_enabled_goes n N). unfold cstep. rewrite C. unfold flags_ok, running_ok in Fn. destruct (starting (r n)); discriminate.
  - rewrite <- C in N. apply (ctl_waits n (fun _ => True) N (start_144 n C)).
  - rewrite <- C in N. apply (ctl_enabled_goes n N). unfold cstep. rewrite C. unfold flags_ok, running_ok in Fn. destruct (starting (r n)); discriminate.
  - rewrite <- C in N. apply (ctl_waits n (fun _ => True) N). apply (eventually_trans _ _ _ (j88_phase1 n C)).
    intros m _ [X|[Cm A]]; [apply eventually_now; auto|]. apply (eventually_imp _ _ _ (j88_phase2 m ltac:(congruence) A)). intros k _ G. unfold gives in *. rewrite <- Cm. exact G.
Qed.
Lemma calls_return n : eventually n (fun m => resting (ctl (r m)) = true).
Proof.
  apply (leads_rank (fun _ => True) _ (fun k => rank_c (ctl (r k)))); [|exact I]. clear n. intros n _.
  destruct (resting (ctl (r n))) eqn:N; [apply eventually_now; auto|]. apply (eventually_imp _ _ _ (ctl_goes n N)). intros m _ [X|X]; auto.
Qed.

Lemma delivered_list n : ctl (r n) = CStarted true -> eventually n (fun m => exists l, out (r m) = pushed (r n) ++ l).
Proof.
  intros C. pose proof (flags_inv _ _ (Rr n)) as Fn. unfold flags in Fn. rewrite C in Fn. cbn in Fn. unfold running_ok in Fn.
  assert (Rn : ranked (wk (r n)) = true) by (destruct (wk (r n)); rewrite ?andb_false_r in Fn; auto; discriminate Fn).
  assert (X : eventually n (fun m => length (pushed (r n)) <= length (out (r m)))).
  { destruct (Nat.le_gt_cases (length (pushed (r n))) (length (out (r n)))) as [H|H]; [apply eventually_now, H|]. apply delivered. split; [exact Rn|]. split; lia. }
  apply (eventually_imp _ _ _ X). intros m L H. destruct (pushed_grows n m L) as [l G].
  pose proof (orderly_inv _ _ (Rr m)) as O. unfold orderly in O. rewrite G in O.
  exists (skipn (length (pushed (r n))) (out (r m))). rewrite <- (firstn_skipn (length (pushed (r n))) (out (r m))) at 1. f_equal.
  pose proof (f_equal (firstn (length (pushed (r n)))) O) as E. rewrite !firstn_app in E. rewrite Nat.sub_diag, firstn_O, app_nil_r, firstn_all in E.
  replace (length (pushed (r n)) - length (out (r m))) with 0 in E by lia. rewrite firstn_O, app_nil_r in E. exact E.
Qed.
End Run.

(* finite schedules as infinite executions *)
Definition follow (ls : list label) (n : nat) : st := match LogOutputSpec.run (firstn n ls) init with Some s => s | None => init end.
Lemma run_app a b s : LogOutputSpec.run (a ++ b) s = match LogOutputSpec.run a s with Some s' => LogOutputSpec.run b s' | None => None end.
Proof. revert s. induction a as [|l a IH]; intros s; [reflexivity|]. cbn. destruct (act l s); auto. Qed.
Lemma follow_fair ls s : existsb interrupts ls = false -> LogOutputSpec.run ls init = Some s -> wstep s = None -> cstep s = None -> (forall t, pstep t s = None) -> fair (follow ls).
Proof.
  intros I0 Rn W C P.
  assert (Late : forall m, length ls <= m -> follow ls m = s) by (intros m L; unfold follow; rewrite firstn_all2 by exact L; rewrite Rn; reflexivity).
  assert (Sf : forall f : st -> option st, f s = None -> strongly_fair f (follow ls)) by (intros f H; right; exists (length ls); intros m L; rewrite (Late m L); exact H).
  split; [split|]; [reflexivity| |].
  - intros n. destruct (Nat.le_gt_cases (length ls) n) as [L|L]; [left; rewrite !Late; auto; lia|]. right.
    unfold follow. destruct (nth_error ls n) as [l|] eqn:E; [|apply nth_error_None in E; lia].
    destruct (nth_error_split ls n E) as (a & b & -> & La). subst n.
    replace (firstn (S (length a)) (a ++ l :: b)) with (a ++ [l]) by (replace (S (length a)) with (length a + 1) by lia; rewrite firstn_app_2; reflexivity).
    replace (firstn (length a) (a ++ l :: b)) with a by (rewrite firstn_app, Nat.sub_diag, firstn_O, app_nil_r, firstn_all; reflexivity).
    rewrite run_app in Rn |- *. destruct (LogOutputSpec.run a init) as [s1|]; [|discriminate Rn]. cbn in Rn |- *. destruct (act l s1) as [s2|] eqn:A; [|discriminate Rn].
    eapply act_step; [|exact A]. intros X. rewrite existsb_app in I0. cbn in I0. rewrite X, orb_true_r in I0. discriminate I0.
  - split; [apply Sf, W|]. split; [intros t; apply Sf, P|apply strong_weak, Sf, C].
Qed.

(* an execution in which the worker starves *)
Definition busy (n : nat) : label := match n mod 5 with 0 => LCall 2 9 | _ => LP 2 end.
Definition prefix : list label := LStart :: repeat LC 6 ++ repeat LW 3 ++ [LC] ++ [LCall 1 7; LP 1; LP 1; LP 1; LP 1; LW; LW; LW].
Definition label_at (n : nat) : label := if n <? length prefix then nth n prefix LW else busy (n - length prefix).
Fixpoint starving (n : nat) : st := match n with O => init | S k => match act (label_at k) (starving k) with Some s => s | None => starving k end end.
Definition starved (s : st) : Prop := wk s = W577 /\ out s = [] /\ ctl s = CStarted true /\ pushed s <> [] /\ (forall t, t <> 2 -> pu s t = PIdle).
Lemma cycle s : starved s -> mx s = Free -> pu s 2 = PIdle -> exists s1 s2 s3 s4 s5,
  act (LCall 2 9) s = Some s1 /\ act (LP 2) s1 = Some s2 /\ act (LP 2) s2 = Some s3 /\ act (LP 2) s3 = Some s4 /\ act (LP 2) s4 = Some s5 /\
  (starved s1 /\ starved s2 /\ starved s3 /\ starved s4 /\ starved s5) /\ mx s2 = ByPusher 2 /\ mx s5 = Free /\ pu s5 2 = PIdle.
Proof.
  intros (A1 & A2 & A3 & A4 & A5) M P.
  assert (Ne : forall l, pushed s ++ l <> []) by (intros l X; apply A4; destruct (pushed s); [reflexivity|discriminate X]).
  set (s1 := set_pu s 2 (P156 9)).
  assert (P1 : pu s1 2 = P156 9) by apply upd_same.
  set (s2 := set_pu (set_mx s1 (ByPusher 2)) 2 (P165 9)).
  assert (P2 : pu s2 2 = P165 9) by apply upd_same.
  set (s3 := set_pu (set_waiting (set_pushed (set_queue s2 (queue s2 ++ [9])) (pushed s2 ++ [9])) (2 :: waiting s2)) 2 P167).
  assert (P3 : pu s3 2 = P167) by apply upd_same.
  set (s4 := set_pu (set_mx s3 Free) 2 P168).
  assert (P4 : pu s4 2 = P168) by apply upd_same.
  set (s5 := set_pu (set_waiting (set_fill s4 (S (fill s4))) (remove Nat.eq_dec 2 (waiting s4))) 2 PIdle).
  assert (P5 : pu s5 2 = PIdle) by apply upd_same.
  exists s1, s2, s3, s4, s5.
  split; [unfold act; rewrite P; reflexivity|].
  split; [unfold act, pstep; rewrite P1; change (mx s1) with (mx s); rewrite M; reflexivity|].
  split; [unfold act, pstep; rewrite P2; reflexivity|].
  split; [unfold act, pstep; rewrite P3; reflexivity|].
  split; [unfold act, pstep; rewrite P4; reflexivity|].
  split; [|split; [reflexivity|split; [reflexivity|exact P5]]].
  assert (O1 : forall t, t <> 2 -> pu s1 t = PIdle) by (intros t N; unfold s1; cbn; rewrite upd_other by exact N; auto).
  assert (O2 : forall t, t <> 2 -> pu s2 t = PIdle) by (intros t N; unfold s2; cbn [set_pu pu]; rewrite upd_other by exact N; apply O1; exact N).
  assert (O3 : forall t, t <> 2 -> pu s3 t = PIdle) by (intros t N; unfold s3; cbn [set_pu pu]; rewrite upd_other by exact N; apply O2; exact N).
  assert (O4 : forall t, t <> 2 -> pu s4 t = PIdle) by (intros t N; unfold s4; cbn [set_pu pu]; rewrite upd_other by exact N; apply O3; exact N).
  assert (O5 : forall t, t <> 2 -> pu s5 t = PIdle) by (intros t N; unfold s5; cbn [set_pu pu]; rewrite upd_other by exact N; apply O4; exact N).
  split; [|split; [|split; [|split]]]; (split; [exact A1|]; split; [exact A2|]; split; [exact A3|]; split; [|assumption]); cbn; auto.
Qed.
Lemma starving_S n s : act (label_at n) (starving n) = Some s -> starving (S n) = s.
Proof. intros H. cbn [starving]. rewrite H. reflexivity. Qed.
Definition base : nat := length prefix.
Lemma label_late n i : base <= n -> (n - base) mod 5 = 0 -> i < 5 -> label_at (i + n) = match i with 0 => LCall 2 9 | _ => LP 2 end.
Proof.
  intros H M Hi. unfold label_at. fold base. replace (i + n <? base) with false by (symmetry; apply Nat.ltb_ge; lia). unfold busy.
  replace (i + n - base) with (i + (n - base)) by lia. rewrite Nat.add_mod, M by lia. rewrite Nat.add_0_r, Nat.mod_mod, Nat.mod_small by lia. reflexivity.
Qed.
Lemma starving_next n : base <= n -> (n - base) mod 5 = 0 -> starved (starving n) -> mx (starving n) = Free -> pu (starving n) 2 = PIdle ->
  (starved (starving (1 + n)) /\ starved (starving (2 + n)) /\ starved (starving (3 + n)) /\ starved (starving (4 + n)) /\ starved (starving (5 + n))) /\
  mx (starving (2 + n)) = ByPusher 2 /\ mx (starving (5 + n)) = Free /\ pu (starving (5 + n)) 2 = PIdle.
Proof.
  intros H M A B C. destruct (cycle _ A B C) as (s1 & s2 & s3 & s4 & s5 & X1 & X2 & X3 & X4 & X5 & Y).
  pose proof (label_late n 0 H M ltac:(lia)) as L0. pose proof (label_late n 1 H M ltac:(lia)) as L1. pose proof (label_late n 2 H M ltac:(lia)) as L2.
  pose proof (label_late n 3 H M ltac:(lia)) as L3. pose proof (label_late n 4 H M ltac:(lia)) as L4. cbn [Nat.add] in *.
  assert (E1 : starving (S n) = s1) by (apply starving_S; rewrite L0; exact X1).
  assert (E2 : starving (S (S n)) = s2) by (apply starving_S; rewrite L1, E1; exact X2).
  assert (E3 : starving (S (S (S n))) = s3) by (apply starving_S; rewrite L2, E2; exact X3).
  assert (E4 : starving (S (S (S (S n)))) = s4) by (apply starving_S; rewrite L3, E3; exact X4).
  assert (E5 : starving (S (S (S (S (S n))))) = s5) by (apply starving_S; rewrite L4, E4; exact X5).
  rewrite E1, E2, E3, E4, E5. exact Y.
Qed.
Lemma starving_base : starved (starving base) /\ mx (starving base) = Free /\ pu (starving base) 2 = PIdle.
Proof.
  split; [|split; vm_compute; reflexivity]. split; [vm_compute; reflexivity|]. split; [vm_compute; reflexivity|]. split; [vm_compute; reflexivity|]. split; [vm_compute; discriminate|].
  intros [|[|[|t]]] N; try contradiction; vm_compute; reflexivity.
Qed.
Lemma base_mod k : (k * 5 + base - base) mod 5 = 0.
Proof. replace (k * 5 + base - base) with (k * 5) by lia. apply Nat.mod_mul. lia. Qed.
Lemma starving_shape k : starved (starving (k * 5 + base)) /\ mx (starving (k * 5 + base)) = Free /\ pu (starving (k * 5 + base)) 2 = PIdle.
Proof.
  induction k as [|k (A & B & C)]; [exact starving_base|].
  destruct (starving_next (k * 5 + base) ltac:(lia) (base_mod k) A B C) as ((_ & _ & _ & _ & X1) & _ & X2 & X3).
  replace (S k * 5 + base) with (5 + (k * 5 + base)) by lia. auto.
Qed.
Lemma starving_all k i : i < 5 -> starved (starving (i + (k * 5 + base))) /\ (i = 2 -> mx (starving (i + (k * 5 + base))) = ByPusher 2).
Proof.
  intros Hi. destruct (starving_shape k) as (A & B & C).
  destruct (starving_next (k * 5 + base) ltac:(lia) (base_mod k) A B C) as ((X1 & X2 & X3 & X4 & _) & M & _).
  generalize dependent (k * 5 + base). intros n A B C X1 X2 X3 X4 M.
  destruct i as [|[|[|[|[|i]]]]]; [| | | | |lia]; (split; [assumption|]); intros X; try discriminate X. exact M.
Qed.
Lemma starving_late m : base <= m -> starved (starving m).
Proof.
  intros L. replace m with ((m - base) mod 5 + ((m - base) / 5 * 5 + base)).
  - apply starving_all. apply Nat.mod_upper_bound. lia.
  - pose proof (Nat.div_mod (m - base) 5). lia.
Qed.
Lemma starving_weak : weakly_fair_run starving.
Proof.
  split; [split; [reflexivity|]|].
  - intros n. cbn [starving]. destruct (act (label_at n) (starving n)) eqn:A; [|auto]. right. eapply act_step; [|exact A].
    intros H. exfalso. revert H. unfold label_at. destruct (n <? length prefix) eqn:L.
    + apply Nat.ltb_lt in L. assert (Al : forall l, In l prefix -> interrupts l = false) by (apply Forall_forall; repeat constructor). rewrite (Al (nth n prefix LW)); [discriminate|apply nth_In, L].
    + unfold busy. destruct ((n - length prefix) mod 5); discriminate.
  - split; [|split].
    + intros n. exists (2 + (n * 5 + base)). split; [lia|]. left. destruct (starving_all n 2 ltac:(lia)) as [(W & _) M]. unfold wstep. rewrite W, (M eq_refl). reflexivity.
    + intros t n. exists (n * 5 + base). split; [lia|]. left. destruct (starving_shape n) as ((_ & _ & _ & _ & A) & _ & B). unfold pstep.
      destruct (Nat.eq_dec t 2) as [->|N]; [rewrite B; reflexivity|]. rewrite A by exact N. reflexivity.
    + intros n. exists (n * 5 + base). split; [lia|]. left. destruct (starving_shape n) as ((_ & _ & A & _) & _). unfold cstep. rewrite A. reflexivity.
Qed.
