From Verif Require Import Conc ThreadModel ThreadSpec.

Ltac updc u t := unfold upd; destruct (Nat.eqb_spec u t) as [->|?].
Ltac inj E := injection E as <-.

Definition holdp (p : wpc) : bool := match p with W232 | W233 | W234 | WRun | W243 | W244 => true | _ => false end.

(* ---- for every usage: the mutex has one owner --------------------------------------------------------------- *)
Definition invM (s : st) : Prop := forall w, holdp (wpcs s w) = true -> mutex s = Some (OWorker w).
Definition invT (s : st) : Prop := cp s = T273 -> mutex s = Some OClient.
Lemma invM_step c s s' : invM s /\ invT s -> step c s s' -> invM s' /\ invT s'.
Proof.
  unfold invT. intros (M & T) ST. destruct ST as [w s s' E|w s Hw Hc|b s s' E|s p Hr Hc].
  - unfold wstep in E. assert (Mw := M w). destruct (wpcs s w) eqn:Ew; try discriminate E;
      repeat match type of E with context[match ?x with _ => _ end] => destruct x eqn:?; try discriminate E end; inj E;
      (split; [intros v; cbn; updc v w; cbn; [try discriminate; auto|
        try apply M; intros Hv; apply M in Hv; try specialize (Mw eq_refl); congruence]
      | intros Hc; cbn in *; try specialize (Mw eq_refl); specialize (T Hc); congruence]).
  - split; [|exact T]. intros v. cbn. updc v w; [discriminate|apply M].
  - unfold cstep in E. destruct (cp s) eqn:Ec; try discriminate E;
      repeat match type of E with context[match ?x with _ => _ end] => destruct x eqn:?; try discriminate E end; inj E;
      (split; [intros v; cbn; try (updc v (S (cur s)); cbn; [discriminate|]); intros Hv; apply M in Hv;
         try specialize (T eq_refl); congruence
      | intros Hc; cbn in *; try discriminate Hc; auto; destruct k; discriminate]).
  - split; [exact M|]. cbn. intros ->. inversion Hc.
Qed.
Lemma reach_invM c s : reach init (step c) s -> invM s /\ invT s.
Proof. intros R. induction R; [split; [intros w|intros]; discriminate|eapply invM_step; eauto]. Qed.
Lemma one_run c s v w : reach init (step c) s -> wpcs s v = WRun -> wpcs s w = WRun -> v = w.
Proof.
  intros R Hv Hw. destruct (reach_invM c s R) as (M & _). assert (A := M v). assert (B := M w).
  rewrite Hv in A. rewrite Hw in B. specialize (A eq_refl). specialize (B eq_refl). congruence.
Qed.

(* ---- without cancel() ---------------------------------------------------------------------------------------- *)
Definition prep (p : wpc) : bool := match p with WBegin | W231 | W232 | W233 => true | _ => false end.
Definition actp (p : wpc) : bool := match p with W234 | WRun | W243 | W244 | W245 => true | _ => false end.
Definition stph (p : cpc) : bool :=
  match p with S187 | S189 | J140 KStart | J142 KStart | J145 KStart | S194 | S196 | S198 | S199 => true | _ => false end.
Definition nfin (p : cpc) : bool :=
  match p with S189 | J140 KStart | J142 KStart | J145 KStart | S194 | S196 | S198 => true | _ => false end.
Definition okact (p : cpc) : bool :=
  match p with
  | S186 | S187 | S189 | S194 | S196 | S198 | S199 | S200 | J140 KStart | J142 KStart | J145 _ | J140 KWait | J142 KWait
  | RWait true | D91 | Destroyed | RStart false | C98 | C99 | C102 | C103 | C104 | Idle | RCancel => false
  | _ => true
  end.
Definition okpost (p : cpc) : bool :=
  match p with C102 | C103 | C104 | J142 KWait | C98 | C99 | RCancel => false | _ => true end.
Definition is206 (p : cpc) : bool := match p with S206 => true | _ => false end.
Definition isrs (p : cpc) : bool := match p with S206 | RStart true => true | _ => false end.
Definition isnone (p : wpc) : bool := match p with WNone => true | _ => false end.
Definition exm (p : wpc) : bool := match p with W233 | W234 | WRun | W243 => true | _ => false end.
Definition late (p : cpc) : bool := match p with J145 _ | S196 | S198 | S199 | S200 => true | _ => false end.
Definition j142 (p : cpc) : bool := match p with J142 _ | J140 KStart => true | _ => false end.
Definition isstop (p : cpc) : bool := match p with RStop => true | _ => false end.
Definition s200 (p : cpc) : bool := match p with S200 => true | _ => false end.
Definition j196 (p : cpc) : bool := match p with S196 | S198 | S199 => true | _ => false end.
Definition j0 (n : nat) : bool := n =? 0.
Arguments j0 : simpl never.
Definition is273 (p : cpc) : bool := match p with T273 => true | _ => false end.

(* one boolean condition on the program counters and flags; z: the current worker has not been joined *)
Definition okb (c : cpc) (p : wpc) (ex fin joi sta z : bool) : bool :=
  (if prep p then is206 c && sta && negb fin && negb joi && z
   else if actp p then okact c && negb sta && negb fin && negb joi && z
   else okpost c && Bool.eqb sta (stph c) && Bool.eqb fin (negb (nfin c)) && (z || joi || late c) &&
        negb (isrs c && isnone p) && match p with WCancelled => false | _ => true end)
  && (negb ex || exm p) && negb (holdp p && is273 c) && (negb (j142 c) || negb joi && z) && (negb (j196 c) || negb joi) && negb (isstop c && ex) && (negb (isnone p) || joi || j196 c || s200 c).
Definition postp (p : wpc) : bool := match p with WNone | W247 | WEnd => true | _ => false end.

Record inv (s : st) : Prop := {
  i_ok : okb (cp s) (wpcs s (cur s)) (m_execute s) (m_finished s) (m_joined s) (m_starting s) (j0 (joins s (cur s))) = true;
  i_old : forall w, w <> cur s -> postp (wpcs s w) = true;
  i_new : forall w, cur s < w -> wpcs s w = WNone /\ joins s w = 0;
  i_jn : forall w, joins s w <= 1;
  i_mx : mutex s = if holdp (wpcs s (cur s)) then Some (OWorker (cur s)) else if is273 (cp s) then Some OClient else None;
  i_cr : forall w, creq s w = false;
  i_0 : wpcs s 0 = WNone
}.

Lemma inv_init : inv init.
Proof. constructor; cbn; auto. Qed.

Lemma inv_frame s s' : inv s -> cur s' = cur s -> wpcs s' = wpcs s -> joins s' = joins s -> creq s' = creq s ->
  mutex s' = mutex s -> is273 (cp s') = is273 (cp s) ->
  okb (cp s') (wpcs s (cur s)) (m_execute s') (m_finished s') (m_joined s') (m_starting s') (j0 (joins s (cur s))) = true ->
  inv s'.
Proof.
  intros [H1 H2 H3 H4 H5 H6 H7] E1 E2 E3 E4 E5 E6 H. constructor; rewrite ?E1, ?E2, ?E3, ?E4, ?E5, ?E6; auto.
Qed.
Ltac rwf s := repeat match goal with Q : m_finished s = _ |- _ => rewrite Q; clear Q | Q : m_starting s = _ |- _ => rewrite Q; clear Q
  | Q : m_joined s = _ |- _ => rewrite Q; clear Q | Q : m_execute s = _ |- _ => rewrite Q; clear Q end.
Ltac flags s H1 := destruct (wpcs s (cur s)); try discriminate H1; try reflexivity;
  destruct (m_finished s); try discriminate H1; try reflexivity;
  destruct (m_starting s); try discriminate H1; try reflexivity;
  destruct (m_execute s); try discriminate H1; try reflexivity;
  destruct (m_joined s); try discriminate H1; try reflexivity;
  destruct (j0 (joins s (cur s))); try discriminate H1; try reflexivity.

Lemma inv_step s s' : inv s -> step without_cancel s s' -> inv s'.
Proof.
  intros [H1 H2 H3 H4 H5 H6 H7] ST. destruct ST as [w s s' E|w s Hw Hc|b s s' E|s p Hr Hc].
  - destruct (Nat.eq_dec w (cur s)) as [Ew|Nw].
    + (* the current worker *)
      subst w.
      assert (N0 : cur s <> 0) by (intros F; rewrite F in E; unfold wstep in E; rewrite H7 in E; discriminate).
      unfold wstep in E. destruct (wpcs s (cur s)) eqn:Ew; try discriminate E; cbn [holdp] in H5; rewrite ?H5 in E;
        try (destruct (is273 (cp s)) eqn:E273; [discriminate E|]);
        inj E; (constructor; cbn; rewrite ?upd_same;
          [ destruct (cp s) as [ |[]|[]| | | | | | | | | | | | | | | | | |[]|[]|[]|[]|[]|[]|[]|[]|[]| | | | | | | | | | | ]; try discriminate H1;
            destruct (m_execute s), (m_finished s), (m_joined s), (m_starting s), (j0 (joins s (cur s))); try discriminate H1; reflexivity
          | intros v Nv; rewrite upd_other by auto; auto
          | intros v Lv; rewrite upd_other by lia; auto
          | auto
          | rewrite ?H5, ?E273; auto; try (destruct (cp s); try discriminate H1; reflexivity); try (destruct (cp s); try reflexivity; exfalso; unfold okb in H1; cbn in H1; rewrite ?andb_false_r in H1; discriminate H1)
          | auto
          | rewrite upd_other by auto; auto ]).
    + (* an old worker: only its last line is left *)
      pose proof (H2 w Nw) as Pw. unfold wstep in E. destruct (wpcs s w) eqn:Ew; try discriminate E; try discriminate Pw.
      inj E. constructor; cbn; auto.
      * rewrite upd_other; auto.
      * intros v Nv. updc v w; auto.
      * intros v Lv. updc v w; auto. destruct (H3 w Lv). congruence.
      * rewrite upd_other; auto.
      * rewrite upd_other; auto. intros <-. congruence.
  - rewrite H6 in Hc. discriminate.
  - pose proof (Build_inv s H1 H2 H3 H4 H5 H6 H7) as IV.
    assert (Hn : wpcs s (S (cur s)) = WNone /\ joins s (S (cur s)) = 0) by (apply H3; lia). destruct Hn as (Hn1 & Hn2).
    unfold cstep in E.
    destruct (cp s) as [ |bb|bb| | | | | | | | | | | | | | | | | |k|k|k|k|k|tm|tm|tm|tm| | | | | | | | | | | ] eqn:Ec; try discriminate E.
    all: try (repeat match type of E with context[match ?x with _ => _ end] => destruct x eqn:?; try discriminate E end; inj E;
       (apply (inv_frame s _ IV); [reflexivity|reflexivity|reflexivity|reflexivity|reflexivity|rewrite Ec; cbn; rwf s; try destruct k; reflexivity|]);
       cbn; rwf s; try destruct k; try destruct tm; flags s H1; fail).
    + (* S196 *)
      destruct b; inj E; [|apply (inv_frame s _ IV); try reflexivity; [rewrite Ec; reflexivity|cbn; flags s H1]].
      constructor; cbn; rewrite ?upd_same.
      * unfold j0. rewrite Hn2. cbn. flags s H1.
      * intros v Nv. rewrite upd_other by auto. destruct (Nat.eq_dec v (cur s)) as [->|Nc]; [|apply H2; auto].
        flags s H1.
      * intros v Lv. rewrite upd_other by lia. apply H3. lia.
      * auto.
      * rewrite H5. destruct (wpcs s (cur s)); try discriminate H1; reflexivity.
      * auto.
      * auto.
    + (* J142 *)
      destruct (ended (wpcs s (cur s))) eqn:Ee; [|discriminate]. inj E.
      assert (Z : joins s (cur s) = 0).
      { destruct (joins s (cur s)) eqn:Ej; auto. unfold okb in H1. cbn in H1. rewrite ?andb_false_r in H1. discriminate. }
      constructor; cbn; rewrite ?upd_same; auto.
      * unfold j0. rewrite Z in *. cbn. destruct k; flags s H1; try discriminate Ee.
      * intros v Lv. rewrite upd_other by lia. apply H3; auto.
      * intros v. updc v (cur s); auto. lia.
    + (* T270 *)
      destruct (mutex s) as [o|] eqn:Em.
      * destruct (tm && b); [|discriminate]. inj E. apply (inv_frame s _ IV); try reflexivity; [rewrite Ec; reflexivity|cbn; flags s H1].
      * inj E. constructor; cbn; auto.
        -- destruct (wpcs s (cur s)); try discriminate H1; try discriminate H5; flags s H1.
        -- destruct (wpcs s (cur s)); try discriminate H1; try discriminate H5; reflexivity.
    + (* T273 *)
      inj E. constructor; cbn; auto; [flags s H1|].
      destruct (wpcs s (cur s)); try reflexivity; exfalso; unfold okb in H1; cbn in H1; rewrite ?andb_false_r in H1; discriminate.
    + exfalso. destruct (wpcs s (cur s)); discriminate H1.
  - pose proof (Build_inv s H1 H2 H3 H4 H5 H6 H7) as IV. apply (inv_frame s _ IV); try reflexivity.
    + destruct Hc; cbn; destruct (cp s); try discriminate Hr; reflexivity.
    + cbn. inversion Hc; subst; destruct (cp s) as [|[]|[]| | | | | | | | | | | | | | | | | | | | | | | | | | | | | | | | | | | | |];
        try discriminate Hr; flags s H1.
Qed.
Lemma reach_inv s : reach init (step without_cancel) s -> inv s.
Proof. intros R. induction R; [apply inv_init|eapply inv_step; eauto]. Qed.

(* wait() == true, or ~Thread done: every worker has left run() *)
Lemma wait_true_done s w : reach init (step without_cancel) s -> cp s = RWait true -> busy (wpcs s w) = false.
Proof.
  intros R Ec. destruct (reach_inv s R) as [H1 H2 _ _ _ _ _].
  destruct (Nat.eq_dec w (cur s)) as [->|N].
  - rewrite Ec in H1. destruct (wpcs s (cur s)); try reflexivity; discriminate H1.
  - pose proof (H2 w N) as P. destruct (wpcs s w); try discriminate P; reflexivity.
Qed.
Lemma destroyed_done s w : reach init (step without_cancel) s -> cp s = Destroyed -> busy (wpcs s w) = false.
Proof.
  intros R Ec. destruct (reach_inv s R) as [H1 H2 _ _ _ _ _].
  destruct (Nat.eq_dec w (cur s)) as [->|N].
  - rewrite Ec in H1. destruct (wpcs s (cur s)); try reflexivity; discriminate H1.
  - pose proof (H2 w N) as P. destruct (wpcs s w); try discriminate P; reflexivity.
Qed.
Lemma start_true s : reach init (step without_cancel) s -> cp s = RStart true -> not_yet_running (wpcs s (cur s)) = false.
Proof.
  intros R Ec. destruct (reach_inv s R) as [H1 H2 _ _ _ _ _].
  rewrite Ec in H1. destruct (wpcs s (cur s)); try reflexivity; try discriminate H1.
  unfold okb in H1. cbn in H1. rewrite ?andb_false_r in H1. discriminate.
Qed.
Lemma start_false s w : reach init (step without_cancel) s -> cp s = RStart false -> busy (wpcs s w) = false.
Proof.
  intros R Ec. destruct (reach_inv s R) as [H1 H2 _ _ _ _ _].
  destruct (Nat.eq_dec w (cur s)) as [->|N].
  - rewrite Ec in H1. destruct (wpcs s (cur s)); try reflexivity; discriminate H1.
  - pose proof (H2 w N) as P. destruct (wpcs s w); try discriminate P; reflexivity.
Qed.
Lemma wait_false s s' : reach init (step without_cancel) s -> step without_cancel s s' -> cp s <> RWait false ->
  cp s' = RWait false -> busy (wpcs s (cur s)) = true /\ 1 <= cur s.
Proof.
  intros R ST N E. destruct (reach_inv s R) as [H1 _ _ _ _ _ H0].
  assert (H : m_finished s = false /\ cp s = T288).
  { destruct ST as [w s s' W|w s W _|b s s' W|s p Hr Hc].
    - unfold wstep in W. destruct (wpcs s w); try discriminate W; try (injection W as <-; cbn in E; congruence).
      destruct (mutex s); [discriminate W|]. injection W as <-. cbn in E. congruence.
    - cbn in E. congruence.
    - unfold cstep in W. destruct (cp s) eqn:Ec; try discriminate W;
        repeat match type of W with context [if ?x then _ else _] => destruct x eqn:? end; try discriminate W;
        try (injection W as <-; cbn in E; try discriminate E; split; congruence);
        try (match goal with k : jk |- _ => destruct k end; injection W as <-; cbn in E; discriminate E);
        destruct (mutex s); try discriminate W; try (injection W as <-; cbn in E; discriminate E).
    - cbn in E. subst p. inversion Hc. }
  destruct H as [Hf Hp]. rewrite Hp, Hf in H1. split.
  - destruct (wpcs s (cur s)); try reflexivity; unfold okb in H1; cbn in H1; rewrite ?andb_false_r in H1; discriminate H1.
  - destruct (cur s); [|lia]. rewrite H0 in H1. unfold okb in H1; cbn in H1; rewrite ?andb_false_r in H1; discriminate H1.
Qed.
Lemma joined_once s w : reach init (step without_cancel) s -> joins s w <= 1.
Proof. intros R. apply (i_jn _ (reach_inv s R)). Qed.

(* ---- stop() is not lost --------------------------------------------------------------------------------------- *)
Definition quiet (p : cpc) : bool :=
  match p with S181 | S183 | S186 | S187 | S189 | S194 | S196 | S198 | S199 | S200 | S206 | S179a | S179b
  | J140 KStart | J142 KStart | J145 KStart => false | _ => true end.
Definition stopped (s : st) : Prop :=
  m_execute s = false /\ quiet (cp s) = true /\ forall w, match wpcs s w with WBegin | W231 | W232 => False | _ => True end.
Lemma stopped_step c s s' : stopped s -> step_no_start c s s' -> stopped s'.
Proof.
  intros (S1 & S2 & S3) (ST & NS). destruct ST as [w s s' E|w s Hw Hc|b s s' E|s p Hr Hc].
  - pose proof (S3 w) as S3w. unfold wstep in E. destruct (wpcs s w) eqn:Ew; try discriminate E; try tauto;
      inj E; (split; [|split]; cbn; auto; intros v; updc v w; auto; apply S3).
  - split; [|split]; cbn; auto. intros v. updc v w; auto. apply S3.
  - unfold cstep in E. destruct (cp s) eqn:Ec; try discriminate E; try discriminate S2;
      repeat match type of E with context[match ?x with _ => _ end] => destruct x eqn:?; try discriminate E end;
      inj E; (split; [|split]; cbn; auto; try (destruct k; auto; discriminate)).
  - split; [|split]; cbn; auto. destruct Hc; auto.
Qed.
Lemma stop_not_lost s s' : reach init (step without_cancel) s -> cp s = RStop ->
  steps (step_no_start without_cancel) s s' -> m_execute s' = false.
Proof.
  intros R Ec S. assert (ST : stopped s).
  { destruct (reach_inv s R) as [H1 H2 _ _ _ _ _]. rewrite Ec in H1. split; [|split].
    - destruct (m_execute s); auto. unfold okb in H1. cbn in H1. rewrite ?andb_false_r in H1. discriminate.
    - rewrite Ec. reflexivity.
    - intros w. destruct (Nat.eq_dec w (cur s)) as [->|N].
      + destruct (wpcs s (cur s)); try exact Logic.I; discriminate H1.
      + pose proof (H2 w N) as P. destruct (wpcs s w); try discriminate P; exact Logic.I. }
  clear R Ec. induction S; [apply ST|]. apply IHS. eapply stopped_step; eauto.
Qed.

(* ---- no deadlock ----------------------------------------------------------------------------------------------- *)
Lemma busy_moves s : inv s -> prep (wpcs s (cur s)) || actp (wpcs s (cur s)) = true -> is273 (cp s) = false ->
  exists w s', wstep w s = Some s'.
Proof.
  intros [H1 H2 H3 H4 H5 H6 H7] B N. exists (cur s). unfold wstep. destruct (wpcs s (cur s)); try discriminate B; eauto.
  rewrite H5, N. cbn. eauto.
Qed.
Lemma thread_progress s : reach init (step without_cancel) s -> in_call (cp s) = true ->
  (exists w s', wstep w s = Some s') \/ (exists b s', cstep b s = Some s').
Proof.
  intros R IC. pose proof (reach_inv s R) as IV. pose proof IV as [H1 H2 H3 H4 H5 H6 H7].
  destruct (prep (wpcs s (cur s)) || actp (wpcs s (cur s))) eqn:B.
  - destruct (is273 (cp s)) eqn:N; [|left; apply busy_moves; auto].
    right. exists true. unfold cstep. destruct (cp s); try discriminate N. eauto.
  - destruct (Bool.bool_dec (j142 (cp s)) true) as [J|J].
    { destruct (cp s) eqn:Ec; try discriminate J; [right; exists true; unfold cstep; rewrite Ec; eauto|].
      destruct (wpcs s (cur s)) eqn:Ew; try discriminate B.
      - exfalso. destruct (m_joined s); unfold okb in H1; cbn in H1; rewrite ?andb_false_r in H1; discriminate.
      - left. exists (cur s). unfold wstep. rewrite Ew. eauto.
      - right. exists true. unfold cstep. rewrite Ec, Ew. cbn. eauto.
      - right. exists true. unfold cstep. rewrite Ec, Ew. cbn. eauto. }
    right. exists true. unfold cstep.
    destruct (cp s) eqn:Ec; try discriminate IC; try (exfalso; apply J; reflexivity); eauto.
    all: try (assert (St : m_starting s = false) by (destruct (wpcs s (cur s)); try discriminate B; flags s H1); rewrite St; eauto).
    rewrite H5. destruct (wpcs s (cur s)); try discriminate B; cbn; eauto.
Qed.

(* ---- runs ------------------------------------------------------------------------------------------------------ *)
Inductive act := AW (w : nat) | AC (b : bool) | AX (w : nat) | AStart | AWait (tm : bool) | AStop | AJoin | ACancel | ADtor.
Definition ent (c : bool) (a : act) : option cpc :=
  match a with
  | AStart => Some S179a | AWait tm => Some (T259 tm) | AStop => Some (P189 false) | AJoin => Some (J140 KJoin)
  | ACancel => if c then Some C98 else None | ADtor => Some D85 | _ => None
  end.
Definition arun1 (c : bool) (s : st) (a : act) : option st :=
  match a with
  | AW w => wstep w s
  | AC b => cstep b s
  | AX w => match wpcs s w with WRun => if creq s w then Some (wgoto s w WCancelled) else None | _ => None end
  | _ => if resting (cp s) then match ent c a with Some p => Some (cgoto s p) | None => None end else None
  end.
Fixpoint arun (c : bool) (s : st) (l : list act) : option st :=
  match l with [] => Some s | a :: l => match arun1 c s a with Some s => arun c s l | None => None end end.
Lemma arun_reach c l : forall s s', reach init (step c) s -> arun c s l = Some s' -> reach init (step c) s'.
Proof.
  induction l as [|a l IH]; intros s s' R E; cbn in E; [congruence|].
  destruct (arun1 c s a) as [s1|] eqn:E1; [|discriminate]. apply (IH s1); auto. eapply reach_step; eauto.
  assert (K : forall p, ent c a = Some p -> call c p).
  { destruct a; cbn; try discriminate; intros p; try (intros [= <-]; constructor). destruct c; [|discriminate]. intros [= <-]. constructor. }
  destruct a; cbn in E1;
    try (destruct (resting (cp s)) eqn:Hr; [|discriminate E1]; cbn in K; try destruct c; try discriminate E1; inj E1; apply step_call; auto; fail).
  - eapply step_worker; eauto.
  - eapply step_client; eauto.
  - destruct (wpcs s w) eqn:Ew; try discriminate E1. destruct (creq s w) eqn:Ek; [|discriminate]. inj E1. apply step_cancelled; auto.
Qed.

Definition ws (w n : nat) : list act := repeat (AW w) n.
Definition cs (n : nat) : list act := repeat (AC true) n.
(* start() up to its return, with worker w inside run(): client 179a, 179b, 186, 187, 189, 194, 196; worker 227-234; client 206 *)
Definition started (w : nat) : list act := AStart :: cs 7 ++ ws w 5 ++ [AC true].

(* wait() without a time-out fails although run() has ended *)
Lemma wait_spurious : exists s, reach init (step without_cancel) s /\ cp s = RWait false /\ cur s = 1 /\ wpcs s 1 = W245.
Proof.
  eexists. split; [eapply (arun_reach false (started 1 ++ [AWait false] ++ cs 3 ++ ws 1 3 ++ cs 3) init); [constructor|vm_compute; reflexivity]|].
  repeat split.
Qed.
(* the object is gone and the worker is about to read it *)
Lemma dtor_race : exists s, reach init (step without_cancel) s /\ cp s = Destroyed /\ wpcs s 1 = W247.
Proof.
  eexists. split; [eapply (arun_reach false (started 1 ++ ws 1 4 ++ [ADtor] ++ cs 6) init); [constructor|vm_compute; reflexivity]|].
  repeat split.
Qed.
(* the worker has ended and is never joined *)
Lemma dtor_unjoined : exists s, reach init (step without_cancel) s /\ cp s = Destroyed /\ wpcs s 1 = WEnd /\ joins s 1 = 0.
Proof.
  eexists. split; [eapply (arun_reach false (started 1 ++ ws 1 5 ++ [ADtor] ++ cs 6) init); [constructor|vm_compute; reflexivity]|].
  repeat split.
Qed.
(* after cancel(): wait() says true although run() is still executing *)
Lemma cancel_wait : exists s, reach init (step with_cancel) s /\ cp s = RWait true /\ wpcs s 1 = WRun.
Proof.
  eexists. split; [eapply (arun_reach true (started 1 ++ [ACancel] ++ cs 5 ++ [AWait false] ++ cs 5) init); [constructor|vm_compute; reflexivity]|].
  repeat split.
Qed.

(* ---- after cancel() the thread can never be started again -------------------------------------------------------- *)
Definition deadp (p : wpc) : bool := match p with WNone | WBegin | W231 | WCancelled => true | _ => false end.
Definition okc (c : cpc) (fin sta : bool) : bool :=
  match c with
  | S206 => sta && negb fin
  | J142 KStart => sta && negb fin
  | S183 | S181 | J142 _ | T270 _ | T273 | T275 | T282 | T288 | RStart true | C102 | C103 | C104 => false
  | _ => Bool.eqb sta (stph c) && Bool.eqb fin (negb (nfin c))
  end.
Definition dead (s : st) : Prop :=
  okc (cp s) (m_finished s) (m_starting s) = true /\ (forall w, deadp (wpcs s w) = true) /\ mutex s = Some (OWorker 1).
Lemma dead_step c s s' : dead s -> step c s s' -> dead s'.
Proof.
  intros (D1 & D2 & D3) ST. destruct ST as [w s s' E|w s Hw Hc|b s s' E|s p Hr Hc].
  - pose proof (D2 w) as Dw. unfold wstep in E. destruct (wpcs s w) eqn:Ew; try discriminate E; try discriminate Dw.
    + inj E. split; [|split]; auto. intros v. cbn. updc v w; auto.
    + rewrite D3 in E. discriminate.
  - pose proof (D2 w) as Dw. rewrite Hw in Dw. discriminate.
  - unfold cstep in E. destruct (cp s) as [ |bb|bb| | | | | | | | | | | | | | | | | |k|k|k|k|k|tm|tm|tm|tm| | | | | | | | | | | ] eqn:Ec;
      try discriminate E; try discriminate D1;
      try (destruct k; try discriminate D1); cbn in D1;
      destruct (m_finished s) eqn:Ef; try discriminate D1; destruct (m_starting s) eqn:Es; try discriminate D1; cbn in E; try discriminate E;
      repeat match type of E with context[match ?x with _ => _ end] => destruct x eqn:?; try discriminate E end;
      inj E; (split; [|split]; cbn; rewrite ?Ef, ?Es; auto).
    intros v. updc v (S (cur s)); auto.
  - split; [|split]; auto. cbn. destruct Hc; cbn; destruct (cp s) as [ |[]|[]| | | | | | | | | | | | | | | | | | | | | | | | | | | | | | | | | | | | | ];
      try discriminate Hr; try discriminate D1; exact D1.
Qed.
Lemma cancel_kills : exists s, reach init (step with_cancel) s /\ cp s = RCancel /\ wpcs s 1 = WCancelled /\
  forall c s', steps (step c) s s' -> cp s' <> RStart true /\ forall w, wpcs s' w <> WRun.
Proof.
  eexists. split; [eapply (arun_reach true (started 1 ++ [ACancel] ++ cs 5 ++ [AX 1]) init); [constructor|vm_compute; reflexivity]|].
  split; [reflexivity|]. split; [reflexivity|]. intros c s' S.
  match type of S with steps _ ?s0 _ => assert (D : dead s0) end.
  { split; [reflexivity|]. split; [|reflexivity]. intros [|[|w]]; reflexivity. }
  assert (D' : dead s') by (induction S; auto; apply IHS; eapply dead_step; eauto).
  destruct D' as (D1 & D2 & _). split.
  - intros E. rewrite E in D1. discriminate.
  - intros w E. specialize (D2 w). rewrite E in D2. discriminate.
Qed.

Lemma example_running : exists s, reach init (step without_cancel) s /\ cp s = RStart true /\ wpcs s 1 = WRun /\ m_execute s = true.
Proof.
  eexists. split; [eapply (arun_reach false (started 1) init); [constructor|vm_compute; reflexivity]|]. repeat split.
Qed.
Lemma example_stop : exists s, reach init (step without_cancel) s /\ cp s = RStop /\ wpcs s 1 = WRun /\ m_execute s = false.
Proof.
  eexists. split; [eapply (arun_reach false (started 1 ++ [AStop] ++ cs 2) init); [constructor|vm_compute; reflexivity]|]. repeat split.
Qed.
(* two runs; the second wait() returns true *)
Lemma example_wait : exists s, reach init (step without_cancel) s /\ cp s = RWait true /\ cur s = 2 /\ joins s 1 = 1.
Proof.
  eexists. split; [eapply (arun_reach false (started 1 ++ [AJoin] ++ [AC true] ++ ws 1 5 ++ cs 2 ++ started 2 ++ [AWait false] ++ cs 2 ++ ws 2 4 ++ cs 3) init); [constructor|vm_compute; reflexivity]|].
  repeat split.
Qed.
Lemma example_start_false : exists s, reach init (step without_cancel) s /\ cp s = RStart false /\ cur s = 1.
Proof.
  eexists. split; [eapply (arun_reach false (started 1 ++ ws 1 5 ++ [AStart] ++ cs 9 ++ [AC false] ++ cs 3) init); [constructor|vm_compute; reflexivity]|].
  repeat split.
Qed.
