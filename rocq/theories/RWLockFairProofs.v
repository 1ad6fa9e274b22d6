(* Proofs for C41: what happens in every fair execution *)
From Verif Require Import Conc BaseLemmas RWLockModel RWLockSpec RWLockProofs FairLemmas RWLockFairSpec.

Lemma step_thread_split s s' t : any plain_use s s' -> tstep t s = Some s' \/ pcs s' t = pcs s t \/ resting (pcs s t) = true.
Proof.
  intros [v H]. destruct (Nat.eq_dec t v) as [->|Ne].
  - inversion H as [? ? ? Hs|? ? ? Ht Hs|? ? ? Hr|? ? ? Hr|? ? Hr]; subst; auto. discriminate Ht.
  - right. left. inversion H as [? ? ? Hs|? ? ? Ht Hs|? ? ? Hr|? ? ? Hr|? ? Hr]; subst.
    + unfold tstep in Hs. destruct (pcs s v); try discriminate Hs; repeat match type of Hs with context[match ?x with _ => _ end] => destruct x eqn:?; try discriminate Hs end; injection Hs as Hs; rewrite <- Hs; cbn; rewrite ?upd_other by exact Ne; reflexivity.
    + discriminate Ht.
    + cbn. apply upd_other, Ne.
    + cbn. apply upd_other, Ne.
    + unfold call_unlock. destruct (hw s v); cbn; apply upd_other, Ne.
Qed.
Definition rank_t (p : pc) : nat :=
  match p with
  | R65 _ => 6 | R67 _ => 5 | R69 _ => 4 | R71 _ => 3 | R76 _ => 2 | W109 => 2 | W110 => 1
  | U125 _ => 9 | U127 => 8 | U128 => 7 | U129 => 6 | U131 => 5 | U132 => 4 | U138 _ => 8 | U141 _ => 7 | U148 => 6 | U153 => 5
  | _ => 0
  end.
Definition calling (p : pc) : bool := match p with Idle | Ret _ | W105 _ | W106 _ => false | _ => true end.
Lemma tstep_rank s s' t : calling (pcs s t) = true -> tstep t s = Some s' -> resting (pcs s' t) = true \/ (calling (pcs s' t) = true /\ rank_t (pcs s' t) < rank_t (pcs s t)).
Proof.
  intros C Hs. unfold tstep in Hs. destruct (pcs s t) eqn:E; try discriminate C;
    repeat match type of Hs with context[match ?x with _ => _ end] => destruct x eqn:?; try discriminate Hs end; injection Hs as Hs; rewrite <- Hs; cbn; rewrite ?upd_same; cbn; auto; right; split; auto; lia.
Qed.
(* the writer *)
Definition rank_kw (p : pc) : nat :=
  match p with W109 => 9 | W110 => 8 | Idle | Ret _ => 7 | U125 _ => 6 | U127 => 5 | U128 => 4 | U129 => 3 | U131 => 2 | U132 => 1 | _ => 0 end.
Ltac kp Kp Ne Hs := eapply Kp; try exact Ne; try (rewrite <- Hs; first [reflexivity | cbn; congruence]); try reflexivity.
Lemma kw_step s s' w : invX s -> tok s (KWriter w) -> any plain_use s s' ->
  ev s' = true \/ (tok s' (KWriter w) /\ ((pcs s' w = pcs s w /\ hw s' w = hw s w) \/ rank_kw (pcs s' w) < rank_kw (pcs s w))).
Proof.
  intros X T [v H]. pose proof T as (T0 & T1 & T2 & T3).
  assert (Kp : forall p', pcs s' = upd (pcs s) v p' -> v <> w -> hw s' w = hw s w -> ev s' = ev s -> wpid s' = wpid s -> rpids s' = rpids s -> nw s' = nw s -> tokp p' = false ->
    ev s' = true \/ (tok s' (KWriter w) /\ ((pcs s' w = pcs s w /\ hw s' w = hw s w) \/ rank_kw (pcs s' w) < rank_kw (pcs s w)))).
  { intros p' E Ne E1 E2 E3 E4 E5 E6. right. split; [|left; split; [rewrite E; apply upd_other; auto|exact E1]].
    eapply (tok_plain s s' _ v p'); eauto. }
  destruct (Nat.eq_dec v w) as [->|Ne].
  - assert (Hx : hw s w = true -> resting (pcs s w) = true) by (intros Hh; apply (x_rest _ X); unfold holds_any; rewrite Hh; reflexivity).
    assert (Wp : tokp (pcs s w) = false -> wpid s = Some w /\ nw s = 1%Z) by (intros Tw; apply wstate_plain in T2; auto).
    assert (Hw : tokp (pcs s w) = false -> (exists g, pcs s w = U125 g) \/ hw s w = true).
    { intros Tw. destruct (Wp Tw) as [W1 _]. pose proof (x_wpid _ X w W1) as K. destruct (pcs s w); try discriminate Tw; eauto. }
    inversion H as [? ? ? Hs|? ? ? Ht Hs|? ? ? Hr _ Hn|? ? ? Hr _ Hn|? ? Hr]; subst.
    + unfold tstep in Hs. destruct (pcs s w) as [|b|tm|tm|tm|ret|ret|tm|tm| | |g| | | | | |g|g| |] eqn:Ep; try discriminate Hs;
        try (exfalso; destruct Hw as [[g' Hw]|Hw]; [reflexivity|discriminate Hw|specialize (Hx Hw); discriminate Hx]).
      * exfalso. destruct ret; [destruct T2|]. destruct Hw as [[g' Hw]|Hw]; [reflexivity|discriminate Hw|specialize (Hx Hw); discriminate Hx].
      * injection Hs as Hs. rewrite <- Hs. right. cbn in T2 |- *. rewrite upd_same. cbn. destruct T2 as [_ T2]. split; [|right; lia].
        repeat split; auto. intros u Nu. rewrite upd_other; auto.
      * injection Hs as Hs. rewrite <- Hs. right. cbn in T2 |- *. rewrite upd_same. cbn. destruct T2 as [T2 T4]. split; [|right; lia].
        repeat split; auto; [lia|]. intros u Nu. rewrite upd_other; auto.
      * destruct (Wp eq_refl) as [W1 W2]. rewrite W1, Nat.eqb_refl in Hs. injection Hs as Hs. rewrite <- Hs. right. cbn. rewrite upd_same. cbn. split; [|right; lia].
        repeat split; auto. intros u Nu. rewrite upd_other; auto.
      * injection Hs as Hs. rewrite <- Hs. right. cbn in T2 |- *. rewrite upd_same. cbn. split; [|right; lia]. destruct T2. repeat split; auto. intros u Nu. rewrite upd_other; auto.
      * injection Hs as Hs. rewrite <- Hs. right. cbn in T2 |- *. rewrite upd_same. cbn. split; [|right; lia]. destruct T2. repeat split; auto; [lia|]. intros u Nu. rewrite upd_other; auto.
      * cbn in T2. destruct T2 as [T2 T4]. rewrite T4 in Hs. cbn in Hs. injection Hs as Hs. rewrite <- Hs. right. cbn. rewrite upd_same. cbn. split; [|right; lia]. repeat split; auto. intros u Nu. rewrite upd_other; auto.
      * injection Hs as Hs. rewrite <- Hs. right. cbn in T2 |- *. rewrite upd_same. cbn. split; [|right; lia]. destruct T2. repeat split; auto. intros u Nu. rewrite upd_other; auto.
      * injection Hs as Hs. rewrite <- Hs. left. reflexivity.
      * exfalso. destruct T2.
    + discriminate Ht.
    + exfalso. assert (Tw : tokp (pcs s w) = false) by (destruct (pcs s w); try discriminate Hr; reflexivity).
      destruct (Hw Tw) as [[g Hg]|Hh]; [rewrite Hg in Hr; discriminate Hr|]. assert (A : holds_any s w = true) by (unfold holds_any; rewrite Hh; reflexivity). specialize (Hn A). discriminate Hn.
    + exfalso. assert (Tw : tokp (pcs s w) = false) by (destruct (pcs s w); try discriminate Hr; reflexivity).
      destruct (Hw Tw) as [[g Hg]|Hh]; [rewrite Hg in Hr; discriminate Hr|]. assert (A : holds_any s w = true) by (unfold holds_any; rewrite Hh; reflexivity). specialize (Hn A). discriminate Hn.
    + assert (Tw : tokp (pcs s w) = false) by (destruct (pcs s w); try discriminate Hr; reflexivity).
      destruct (Hw Tw) as [[g Hg]|Hh]; [rewrite Hg in Hr; discriminate Hr|]. destruct (Wp Tw) as [W1 W2]. right. unfold call_unlock. rewrite Hh. cbn. rewrite upd_same. cbn.
      split; [|right; destruct (pcs s w); try discriminate Hr; cbn; lia]. repeat split; auto. intros u Nu. rewrite upd_other; auto.
  - assert (Tv : tokp (pcs s v) = false) by (apply T3; exact Ne).
    inversion H as [? ? ? Hs|? ? ? Ht Hs|? ? ? Hr _ Hn|? ? ? Hr _ Hn|? ? Hr]; subst.
    + unfold tstep in Hs. rewrite T0, T1 in Hs. destruct (pcs s v) as [|b|tm|tm|tm|ret|ret|tm|tm| | |g| | | | | |g|g| |] eqn:Ep; try discriminate Hs; try discriminate Tv; cbn [mem existsb] in Hs.
      * destruct (ral s); [discriminate Hs|]. injection Hs as Hs. kp Kp Ne Hs.
      * injection Hs as Hs. kp Kp Ne Hs.
      * destruct ret; [discriminate Tv|]. injection Hs as Hs. kp Kp Ne Hs.
      * injection Hs as Hs. destruct ret; kp Kp Ne Hs.
      * destruct (m_acquire (wmutex s) v); [|discriminate Hs]. injection Hs as Hs. kp Kp Ne Hs.
      * injection Hs as Hs.
        destruct (wpid s) as [z|] eqn:Wz; [destruct (Nat.eqb_spec z v) as [->|Nz]|]; try (kp Kp Ne Hs).
        exfalso. destruct (tokp (pcs s w)) eqn:Tw.
        { destruct (pcs s w) as [|b|tm|tm|tm|ret|ret|tm|tm| | |g'| | | | | |g'|g'| |]; try discriminate Tw; cbn in T2; try (destruct T2; congruence). destruct ret; [exact T2|discriminate Tw]. }
        apply wstate_plain in T2; auto. destruct T2. congruence.
      * destruct (ral s); [discriminate Hs|]. injection Hs as Hs. kp Kp Ne Hs.
      * injection Hs as Hs. kp Kp Ne Hs.
      * injection Hs as Hs. kp Kp Ne Hs.
    + discriminate Ht.
    + apply (Kp (R65 tm)); auto.
    + apply (Kp (W105 tm)); auto.
    + unfold call_unlock in *. destruct (hw s v).
      * apply (Kp (U125 false)); auto. cbn. apply upd_other. auto.
      * apply (Kp (U125 (negb (Nat.eqb (hr s v) 0)))); auto.
Qed.

Section Run.
Variable r : nat -> st.
Hypothesis Fr : fair r.
Hypothesis Lr : locks_are_released r.
Let Er : execution init (any plain_use) r := proj1 Fr.
Let Rr : forall n, reach init (any plain_use) (r n) := execution_reach _ _ _ Er.

Lemma writer_gives n w : tok (r n) (KWriter w) -> eventually n (fun m => ev (r m) = true).
Proof.
  apply (leads_rank (fun k => tok (r k) (KWriter w)) _ (fun k => rank_kw (pcs (r k) w))). clear n. intros n T.
  set (P := fun k => tok (r k) (KWriter w) /\ pcs (r k) w = pcs (r n) w /\ hw (r k) w = hw (r n) w).
  set (Q := fun m => ev (r m) = true \/ (tok (r m) (KWriter w) /\ rank_kw (pcs (r m) w) < rank_kw (pcs (r n) w))).
  assert (K : forall k, P k -> P (S k) \/ Q (S k)).
  { intros k (A & B & C). destruct (proj2 Er k) as [E|H]; [left; unfold P; rewrite E; auto|].
    destruct (kw_step _ _ w (reach_invX _ (Rr k)) A H) as [D|(D & [[D1 D2]|D3])]; [right; left; exact D| |right; right].
    - left. split; [exact D|]. split; congruence.
    - split; [exact D|]. rewrite <- B. exact D3. }
  assert (P0 : P n) by (unfold P; auto).
  destruct (resting (pcs (r n) w)) eqn:Rs.
  - assert (Hh : hw (r n) w = true).
    { assert (Tw : tokp (pcs (r n) w) = false) by (destruct (pcs (r n) w); try discriminate Rs; reflexivity).
      destruct T as (_ & _ & T2 & _). apply wstate_plain in T2; [|exact Tw]. destruct T2 as [W _]. pose proof (x_wpid _ (reach_invX _ (Rr n)) w W) as X. destruct (pcs (r n) w); try discriminate Rs; exact X. }
    destruct (Lr n w) as (m & L & Hm). { unfold holds_any. rewrite Hh. reflexivity. }
    destruct (persist P Q K n m L P0) as [(_ & _ & Y)|Y]; [|exact Y]. unfold holds_any in Hm. rewrite Y, Hh in Hm. discriminate Hm.
  - assert (En : forall k, P k -> tstep w (r k) <> None).
    { intros k (A & B & C). rewrite <- B in Rs. destruct (tokp (pcs (r k) w)) eqn:Tw; [apply tok_moves, Tw|].
      destruct A as (A0 & _ & A2 & _). apply wstate_plain in A2; [|exact Tw]. destruct A2 as [W _]. pose proof (x_wpid _ (reach_invX _ (Rr k)) w W) as X.
      assert (Y : (exists g, pcs (r k) w = U125 g) \/ hw (r k) w = true) by (destruct (pcs (r k) w); try discriminate Tw; eauto).
      destruct Y as [[g Y]|Y]; [unfold tstep; rewrite Y; discriminate|].
      rewrite (x_rest _ (reach_invX _ (Rr k)) w) in Rs; [discriminate Rs|]. unfold holds_any. rewrite Y. reflexivity. }
    apply (wf_leads (tstep w) r P Q); auto.
    + apply strong_weak, Fr.
    + intros k Pk Tk. destruct (K k Pk) as [Y|Y]; [|exact Y]. exfalso. destruct Pk as (A & B & C). destruct Y as (_ & Y & _).
      unfold taken in Tk. assert (Z : pcs (r (S k)) w <> pcs (r k) w); [|congruence]. clear -Tk.
      unfold tstep in Tk. destruct (pcs (r k) w); try discriminate Tk;
        repeat match type of Tk with context[match ?x with _ => _ end] => destruct x eqn:?; try discriminate Tk end; injection Tk as Tk; rewrite <- Tk; cbn; rewrite ?upd_same; congruence.
Qed.
(* a thread that is at the event within readLock() *)
Lemma event_comes n t tm : pcs (r n) t = R69 tm -> eventually n (fun m => ev (r m) = true).
Proof.
  intros E. pose proof (reach_inv _ _ (Rr n)) as V. destruct (v_tok _ V) as (k & T). destruct (v_R _ V) as (RL & R69E).
  assert (Ro : ralp (pcs (r n) t) = true) by (rewrite E; reflexivity).
  destruct k as [|w| |w]; cbn in T.
  - apply eventually_now. apply T.
  - apply (writer_gives n w T).
  - exfalso. destruct T as (_ & _ & T & _). apply T. apply (R69E t tm E).
  - exfalso. destruct T as (_ & _ & _ & _ & T & _). assert (Rw : ralp (pcs (r n) w) = true) by (destruct T as [-> | ->]; reflexivity).
    rewrite (ralp_unique _ _ _ (v_R _ V) Rw Ro) in T. rewrite E in T. destruct T; discriminate.
Qed.
Lemma thread_kept k t : tstep t (r k) = Some (r (S k)) \/ pcs (r (S k)) t = pcs (r k) t \/ resting (pcs (r k) t) = true.
Proof. destruct (proj2 Er k) as [-> |H]; [auto|]. apply step_thread_split, H. Qed.
(* one action of a thread that is within a call and gets what it waits for again and again *)
Lemma moves n t : calling (pcs (r n) t) = true ->
  (forall k, pcs (r k) t = pcs (r n) t -> eventually k (fun m => tstep t (r m) <> None \/ pcs (r m) t <> pcs (r n) t)) ->
  eventually n (fun m => resting (pcs (r m) t) = true \/ (calling (pcs (r m) t) = true /\ rank_t (pcs (r m) t) < rank_t (pcs (r n) t))).
Proof.
  intros C En. set (Q := fun m => resting (pcs (r m) t) = true \/ (calling (pcs (r m) t) = true /\ rank_t (pcs (r m) t) < rank_t (pcs (r n) t))).
  assert (Tk : forall k, pcs (r k) t = pcs (r n) t -> tstep t (r k) = Some (r (S k)) -> Q (S k)).
  { intros k E T. unfold Q. rewrite <- E. apply tstep_rank; [congruence|exact T]. }
  assert (K : forall k, pcs (r k) t = pcs (r n) t -> pcs (r (S k)) t = pcs (r n) t \/ Q (S k)).
  { intros k E. destruct (thread_kept k t) as [T|[T|T]]; [right; auto|left; congruence|]. rewrite E in T. destruct (pcs (r n) t); discriminate. }
  apply (sf_leads (tstep t) r (fun k => pcs (r k) t = pcs (r n) t) Q); auto.
  - apply Fr.
  - intros k E. destruct (En k E) as (m & L & [D|D]); [exists m; auto|].
    destruct (persist (fun k => pcs (r k) t = pcs (r n) t) Q K k m L E) as [Y|(j & Lj & Y)]; [congruence|]. exists j. auto.
Qed.
Definition free_to_go (p : pc) : bool := match p with R65 _ | R69 _ | U138 _ => false | p => calling p end.
Lemma can_go s t : free_to_go (pcs s t) = true -> tstep t s <> None.
Proof. unfold tstep. destruct (pcs s t); discriminate. Qed.
(* the reader access lock becomes free *)
Lemma ral_frees n : eventually n (fun m => ral (r m) = None).
Proof.
  destruct (ral (r n)) as [o|] eqn:Ro; [|apply eventually_now, Ro].
  assert (A : ralp (pcs (r n) o) = true) by (apply (v_R _ (reach_inv _ _ (Rr n))); exact Ro). clear Ro. revert n A.
  intros n A. apply (leads_rank (fun k => ralp (pcs (r k) o) = true) (fun m => ral (r m) = None) (fun k => rank_t (pcs (r k) o))); [|exact A]. clear n A. intros n A.
  set (Q := fun m => ral (r m) = None \/ (ralp (pcs (r m) o) = true /\ rank_t (pcs (r m) o) < rank_t (pcs (r n) o))).
  assert (Tk : forall k, pcs (r k) o = pcs (r n) o -> tstep o (r k) = Some (r (S k)) -> Q (S k)).
  { intros k E T. unfold Q. rewrite <- E in A |- *. clear -A T. set (s := r k) in *. set (s' := r (S k)) in *. clearbody s s'.
    unfold tstep in T. destruct (pcs s o) eqn:Ep; try discriminate A;
      repeat match type of T with context[match ?x with _ => _ end] => destruct x eqn:?; try discriminate T end; injection T as T; rewrite <- T; cbn; rewrite ?upd_same; cbn; auto; right; split; auto; lia. }
  assert (K : forall k, pcs (r k) o = pcs (r n) o -> pcs (r (S k)) o = pcs (r n) o \/ Q (S k)).
  { intros k E. destruct (thread_kept k o) as [T|[T|T]]; [right; auto|left; congruence|]. rewrite E in T. destruct (pcs (r n) o); discriminate. }
  apply (sf_leads (tstep o) r (fun k => pcs (r k) o = pcs (r n) o) Q); auto.
  - apply Fr.
  - intros k E. destruct (free_to_go (pcs (r n) o)) eqn:Fg.
    + apply eventually_now. left. apply can_go. rewrite E. exact Fg.
    + destruct (pcs (r n) o) as [| | | |tm| | | | | | | | | | | | | | | |] eqn:Ep; try discriminate A; try discriminate Fg.
      destruct (event_comes k o tm E) as (m & L & Em).
      destruct (persist (fun k => pcs (r k) o = R69 tm) Q K k m L E) as [Y|(j & Lj & Y)]; [|exists j; auto].
      exists m. split; [exact L|]. left. unfold tstep. rewrite Y, Em. discriminate.
Qed.
Lemma call_returns n t : calling (pcs (r n) t) = true -> eventually n (fun m => resting (pcs (r m) t) = true).
Proof.
  apply (leads_rank (fun k => calling (pcs (r k) t) = true) _ (fun k => rank_t (pcs (r k) t))). clear n. intros n C.
  apply moves; [exact C|]. intros k E. destruct (free_to_go (pcs (r k) t)) eqn:Fg; [apply eventually_now; left; apply can_go, Fg|].
  rewrite <- E in *. destruct (pcs (r k) t) as [| |tm| |tm| | | | | | | | | | | |g| | | |] eqn:Ep; try discriminate C; try discriminate Fg.
  - apply (eventually_imp _ _ _ (ral_frees k)). intros m _ H. destruct (pcs (r m) t) eqn:Em; try (right; congruence). left. unfold tstep. rewrite Em, H. discriminate.
  - apply (eventually_imp _ _ _ (event_comes k t tm Ep)). intros m _ H. destruct (pcs (r m) t) eqn:Em; try (right; congruence). left. unfold tstep. rewrite Em, H. discriminate.
  - apply (eventually_imp _ _ _ (ral_frees k)). intros m _ H. destruct (pcs (r m) t) eqn:Em; try (right; congruence). left. unfold tstep. rewrite Em, H. discriminate.
Qed.
End Run.

(* an execution in which the readers hand the lock to each other for ever *)
Inductive lab := Do (t : tid) | Read (t : tid) | Write (t : tid) | Unlock (t : tid).
Definition who (l : lab) : tid := match l with Do t | Read t | Write t | Unlock t => t end.
Definition alab (l : lab) (s : st) : option st :=
  match l with
  | Do t => tstep t s
  | Read t => if resting (pcs s t) && negb (holds_any s t) then Some (goto s t (R65 false)) else None
  | Write t => if resting (pcs s t) && negb (holds_any s t) then Some (goto s t (W105 false)) else None
  | Unlock t => if resting (pcs s t) then Some (call_unlock t s) else None
  end.
Definition fl (ls : list lab) (p : nat) (s : st) : st :=
  match nth_error ls p with Some l => match alab l s with Some s' => s' | None => s end | None => s end.
Definition sim (a b : st) : Prop :=
  ev a = ev b /\ wmutex a = wmutex b /\ ral a = ral b /\ nw a = nw b /\ wpid a = wpid b /\ rpids a = rpids b /\
  forall t, pcs a t = pcs b t /\ hw a t = hw b t /\ hr a t = hr b t.
Lemma sim_refl s : sim s s.
Proof. unfold sim. auto 10. Qed.
Lemma sim_trans a b c : sim a b -> sim b c -> sim a c.
Proof.
  intros (A1 & A2 & A3 & A4 & A5 & A6 & A7) (B1 & B2 & B3 & B4 & B5 & B6 & B7). unfold sim.
  split; [congruence|]. split; [congruence|]. split; [congruence|]. split; [congruence|]. split; [congruence|]. split; [congruence|].
  intros t. destruct (A7 t) as (?&?&?). destruct (B7 t) as (?&?&?). split; [congruence|]. split; congruence.
Qed.
Lemma alab_any l s s' : alab l s = Some s' -> any plain_use s s'.
Proof.
  intros H. exists (who l). destruct l as [t|t|t|t]; cbn in H |- *.
  - apply step_thread, H.
  - destruct (resting (pcs s t)) eqn:R; [|discriminate H]. destruct (holds_any s t) eqn:Hh; [discriminate H|]. injection H as <-. apply step_readLock; auto. rewrite Hh. discriminate.
  - destruct (resting (pcs s t)) eqn:R; [|discriminate H]. destruct (holds_any s t) eqn:Hh; [discriminate H|]. injection H as <-. apply step_writeLock; auto. rewrite Hh. discriminate.
  - destruct (resting (pcs s t)) eqn:R; [|discriminate H]. injection H as <-. apply step_unlock, R.
Qed.
Lemma alab_other l s s' t : alab l s = Some s' -> t <> who l -> pcs s' t = pcs s t /\ holds_any s' t = holds_any s t.
Proof.
  intros H Ne. destruct l as [v|v|v|v]; cbn in H, Ne.
  - unfold tstep in H. destruct (pcs s v); try discriminate H; repeat match type of H with context[match ?x with _ => _ end] => destruct x eqn:?; try discriminate H end;
      injection H as H; rewrite <- H; unfold holds_any; cbn; rewrite ?upd_other by exact Ne; auto.
  - destruct (_ && _); [|discriminate H]. injection H as <-. unfold holds_any. cbn. rewrite upd_other by exact Ne. auto.
  - destruct (_ && _); [|discriminate H]. injection H as <-. unfold holds_any. cbn. rewrite upd_other by exact Ne. auto.
  - destruct (resting _); [|discriminate H]. injection H as <-. unfold call_unlock, holds_any. destruct (hw s v); cbn; rewrite ?upd_other by exact Ne; auto.
Qed.
Definition both (x y : option st) : Prop := match x, y with Some a, Some b => sim a b | None, None => True | _, _ => False end.
Lemma upd_ptw {A : Type} (f g : tid -> A) t x : (forall u, f u = g u) -> forall u, upd f t x u = upd g t x u.
Proof. intros E u. unfold upd. destruct (u =? t); auto. Qed.
Lemma tstep_sim t a b : sim a b -> both (tstep t a) (tstep t b).
Proof.
  destruct a as [ea wa la na pa ra ca ha ga], b as [eb wb lb nb pb rb cb hb gb].
  intros (A1 & A2 & A3 & A4 & A5 & A6 & A7). cbn in *. subst eb wb lb nb pb rb. unfold tstep. cbn [pcs].
  assert (Pc : forall u, ca u = cb u) by apply A7. assert (Ph : forall u, ha u = hb u) by apply A7. assert (Pg : forall u, ga u = gb u) by apply A7.
  rewrite <- (Pc t). destruct (ca t); cbn; auto;
    repeat match goal with |- context[match ?x with _ => _ end] => destruct x eqn:?; cbn; auto end;
    unfold sim; cbn; repeat (split; [reflexivity|]); intros u; rewrite ?(Pg t); (split; [apply upd_ptw, Pc|]); split; auto; apply upd_ptw; auto.
Qed.
Lemma alab_sim l a b : sim a b -> both (alab l a) (alab l b).
Proof.
  intros Sm. destruct l as [t|t|t|t]; cbn; [apply tstep_sim, Sm| | |]; pose proof Sm as (A1 & A2 & A3 & A4 & A5 & A6 & A7).
  - unfold holds_any. destruct (A7 t) as (-> & -> & ->). destruct (_ && _); cbn; auto. unfold sim; cbn; repeat (split; [assumption|]). intros u. destruct (A7 u) as (P1 & P2 & P3). split; [apply upd_ptw; apply A7|auto].
  - unfold holds_any. destruct (A7 t) as (-> & -> & ->). destruct (_ && _); cbn; auto. unfold sim; cbn; repeat (split; [assumption|]). intros u. destruct (A7 u) as (P1 & P2 & P3). split; [apply upd_ptw; apply A7|auto].
  - unfold call_unlock. destruct (A7 t) as (-> & -> & ->). destruct (resting _); cbn; auto. destruct (hw b t); unfold sim; cbn; repeat (split; [assumption|]); intros u; destruct (A7 u) as (P1 & P2 & P3);
      (split; [apply upd_ptw; apply A7|split; auto; apply upd_ptw; apply A7]).
Qed.
Lemma fl_sim ls p a b : sim a b -> sim (fl ls p a) (fl ls p b).
Proof.
  intros Sm. unfold fl. destruct (nth_error ls p) as [l|]; auto. pose proof (alab_sim l a b Sm) as H. unfold both in H.
  destruct (alab l a), (alab l b); auto; contradiction.
Qed.
Lemma loop_run_sim ls a b n : sim (fl ls b (conc (fl ls) init b)) (conc (fl ls) init a) ->
  sim (loop_run (fl ls) a b init n) (conc (fl ls) init (fst (loop (fl ls) a b init n))).
Proof. intros H. exact (loop_sim (fl ls) a b init sim sim_refl sim_trans (fl_sim ls) H n). Qed.
Definition do5 (t : tid) : list lab := [Do t; Do t; Do t; Do t].
Definition a_round : list lab := (Read 2 :: do5 2) ++ (Unlock 1 :: do5 1) ++ (Read 1 :: do5 1) ++ (Unlock 2 :: do5 2).
(* thread 1 gets a read lock, thread 3 waits in writeLock(), threads 1 and 2 take turns in reading *)
Definition handing_over : list lab := [Read 1; Do 1; Do 1; Do 1; Do 1; Do 1; Write 3; Do 3] ++ a_round ++ a_round.
Definition hand : nat -> st := loop_run (fl handing_over) 28 47 init.
Definition at_phase := conc (fl handing_over) init.
(* the 20 labels from 28 on lead back to the state after 28 *)
Lemma hand_closes : sim (fl handing_over 47 (conc (fl handing_over) init 47)) (conc (fl handing_over) init 28).
Proof.
  unfold sim. repeat (split; [vm_compute; reflexivity|]). intros [|[|[|[|t]]]]; [vm_compute; auto..|]. cbv. auto.
Qed.
Lemma hand_sim n : sim (hand n) (at_phase (fst (loop (fl handing_over) 28 47 init n))).
Proof. unfold hand, at_phase. apply loop_run_sim. exact hand_closes. Qed.
Lemma hand_step n : hand (S n) = fl handing_over (fst (loop (fl handing_over) 28 47 init n)) (hand n).
Proof. reflexivity. Qed.
Lemma hand_exec : execution init (any plain_use) hand.
Proof.
  split; [reflexivity|]. intros n. rewrite hand_step. generalize (hand n) (fst (loop (fl handing_over) 28 47 init n)). intros s p.
  unfold fl. destruct (nth_error handing_over p) as [l|]; auto. destruct (alab l s) as [s'|] eqn:E; auto. right. exact (alab_any _ _ _ E).
Qed.
Lemma hand_others n t : t <> 1 -> t <> 2 -> t <> 3 -> pcs (hand n) t = Idle /\ holds_any (hand n) t = false.
Proof.
  intros N1 N2 N3. induction n as [|n IH]; [split; reflexivity|]. rewrite hand_step. revert IH. generalize (hand n) (fst (loop (fl handing_over) 28 47 init n)). intros s p IH.
  unfold fl. destruct (nth_error handing_over p) as [l|] eqn:El; auto. destruct (alab l s) as [s'|] eqn:E; auto.
  destruct (alab_other _ _ _ t E) as [-> ->]; auto. intros ->. apply nth_error_In in El.
  assert (X : forallb (fun l => (who l =? 1) || (who l =? 2) || (who l =? 3)) handing_over = true) by reflexivity.
  rewrite forallb_forall in X. specialize (X l El). rewrite !Bool.orb_true_iff, !Nat.eqb_eq in X. tauto.
Qed.
Lemma phases (P : st -> bool) lo k : forallb (fun p => P (at_phase p)) (seq lo k) = true -> forall p, lo <= p -> p < lo + k -> P (at_phase p) = true.
Proof. intros H p L1 L2. rewrite forallb_forall in H. apply H, in_seq. lia. Qed.
(* the writer gets no further *)
Lemma hand_waits n : 8 <= n -> pcs (hand n) 3 = W106 false /\ ev (hand n) = false.
Proof.
  intros L. set (p := fst (loop (fl handing_over) 28 47 init n)). pose proof (hand_sim n) as Sm. fold p in Sm. destruct Sm as (A1 & _ & _ & _ & _ & _ & A7).
  destruct (A7 3) as (-> & _). rewrite A1. assert (Hp : 8 <= p < 8 + 40).
  { split.
    - destruct (Nat.le_gt_cases 28 n) as [Ln|Ln]; [pose proof (loop_ge (fl handing_over) 28 47 init ltac:(lia) n Ln) as X; unfold p; lia|].
      pose proof (loop_forward (fl handing_over) 28 47 init ltac:(lia) 0 n) as X. cbn [loop fst] in X. rewrite Nat.add_0_r in X. unfold p. rewrite X; lia.
    - pose proof (loop_le (fl handing_over) 28 47 init ltac:(lia) n) as X. unfold p. lia. }
  pose proof (phases (fun s => negb (ev s) && match pcs s 3 with W106 false => true | _ => false end) 8 40) as X.
  specialize (X ltac:(vm_compute; reflexivity) p ltac:(lia) ltac:(lia)). cbv beta in X. destruct (ev (at_phase p)); [discriminate X|]. split; auto.
  destruct (pcs (at_phase p) 3) as [| | | | | | | |[]| | | | | | | | | | | |]; try discriminate X; reflexivity.
Qed.
Lemma hand_comes n p : 28 <= p -> p <= 47 -> exists m, n <= m /\ sim (hand m) (at_phase p) /\ hand (S m) = fl handing_over p (hand m).
Proof.
  intros H1 H2. destruct (loop_again (fl handing_over) 28 47 init ltac:(lia) n p H1 H2) as (m & L & E). exists m. split; [exact L|].
  pose proof (hand_sim m) as Sm. rewrite E in Sm. split; [exact Sm|]. rewrite hand_step, E. reflexivity.
Qed.
Lemma hand_moves n t p : 28 <= p -> p <= 47 -> nth_error handing_over p = Some (Do t) -> tstep t (at_phase p) <> None -> exists m, n <= m /\ taken (tstep t) hand m.
Proof.
  intros H1 H2 El En. destruct (hand_comes n p H1 H2) as (m & L & Sm & Hs). exists m. split; [exact L|]. unfold taken. rewrite Hs. unfold fl. rewrite El. cbn.
  pose proof (tstep_sim t _ _ Sm) as B. unfold both in B. destruct (tstep t (hand m)); auto. destruct (tstep t (at_phase p)); [contradiction|congruence].
Qed.
Lemma hand_fair : fair hand.
Proof.
  split; [exact hand_exec|]. intros t.
  destruct (Nat.eq_dec t 1) as [->|N1]; [left; intros n; apply (hand_moves n 1 34); try lia; vm_compute; congruence|].
  destruct (Nat.eq_dec t 2) as [->|N2]; [left; intros n; apply (hand_moves n 2 30); try lia; vm_compute; congruence|].
  right. exists 8. intros m L. destruct (Nat.eq_dec t 3) as [->|N3].
  - destruct (hand_waits m L) as [E1 E2]. unfold tstep. rewrite E1, E2. reflexivity.
  - destruct (hand_others m t N1 N2 N3) as [E _]. unfold tstep. rewrite E. reflexivity.
Qed.
Lemma hand_released : locks_are_released hand.
Proof.
  intros n t H.
  assert (X : forall p t, 28 <= p -> p <= 47 -> holds_any (at_phase p) t = false -> eventually n (fun m => holds_any (hand m) t = false)).
  { intros p u H1 H2 E. destruct (hand_comes n p H1 H2) as (m & L & Sm & _). exists m. split; [exact L|]. destruct Sm as (_ & _ & _ & _ & _ & _ & A7). unfold holds_any in *. destruct (A7 u) as (_ & -> & ->). exact E. }
  destruct (Nat.eq_dec t 1) as [->|N1]; [apply (X 38); try lia; vm_compute; reflexivity|].
  destruct (Nat.eq_dec t 2) as [->|N2]; [apply (X 28); try lia; vm_compute; reflexivity|].
  destruct (Nat.eq_dec t 3) as [->|N3]; [apply (X 28); try lia; vm_compute; reflexivity|].
  destruct (hand_others n t N1 N2 N3) as [_ E]. congruence.
Qed.
