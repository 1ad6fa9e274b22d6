From Verif Require Import Conc RWLockModel RWLockSpec.

(* ---- the token: exactly one of the event, a writer, the readers has it ------------------------------- *)
Definition tokp (p : pc) : bool :=
  match p with W109 | W110 | U127 | U128 | U129 | U131 | U132 | R71 true | U148 => true | _ => false end.
Definition wstate (t : tid) (p : pc) (wp : option tid) (n : Z) : Prop :=
  match p with
  | W109 | U132 => wp = None /\ n = 0%Z
  | W110 | U129 | U131 => wp = Some t /\ n = 0%Z
  | R71 true | U148 => False
  | _ => wp = Some t /\ n = 1%Z
  end.
Definition rtok1 (p : pc) : Prop := p = R71 true \/ p = U148.

Inductive kind := KEvent | KWriter (t : tid) | KReaders | KReader1 (t : tid).
Definition tok (s : st) (k : kind) : Prop :=
  match k with
  | KEvent => ev s = true /\ wpid s = None /\ rpids s = [] /\ nw s = 0%Z /\ forall u, tokp (pcs s u) = false
  | KWriter t => ev s = false /\ rpids s = [] /\ wstate t (pcs s t) (wpid s) (nw s) /\
                 forall u, u <> t -> tokp (pcs s u) = false
  | KReaders => ev s = false /\ wpid s = None /\ rpids s <> [] /\ nw s = 0%Z /\ forall u, tokp (pcs s u) = false
  | KReader1 t => ev s = false /\ wpid s = None /\ rpids s = [] /\ nw s = 0%Z /\ rtok1 (pcs s t) /\
                  forall u, u <> t -> tokp (pcs s u) = false
  end.

Ltac updc u t := unfold upd; destruct (Nat.eqb_spec u t) as [->|?].

Lemma wstate_plain t p wp n : tokp p = false -> wstate t p wp n <-> wp = Some t /\ n = 1%Z.
Proof. destruct p as [| | | | |[]| | | | | | | | | | | | | | |]; cbn; intros; try discriminate; tauto. Qed.

Lemma tok_plain s s' k t p' : tok s k -> ev s' = ev s -> wpid s' = wpid s -> rpids s' = rpids s -> nw s' = nw s ->
  pcs s' = upd (pcs s) t p' -> tokp (pcs s t) = false -> tokp p' = false -> tok s' k.
Proof.
  intros T E1 E2 E3 E4 E5 N N'. assert (U : forall u, tokp (pcs s u) = false -> tokp (pcs s' u) = false).
  { intros u. rewrite E5. updc u t; auto. }
  destruct k; cbn in *; rewrite ?E1, ?E2, ?E3, ?E4.
  - destruct T as (? & ? & ? & ? & ?). auto 6.
  - destruct T as (? & ? & Wt & ?). repeat split; auto. rewrite E5. updc t0 t; auto.
    rewrite wstate_plain in *; auto.
  - destruct T as (? & ? & ? & ? & ?). repeat split; auto.
  - destruct T as (? & ? & ? & ? & R1 & ?). repeat split; auto. rewrite E5. updc t0 t; auto.
    destruct R1 as [F|F]; rewrite F in N; discriminate.
Qed.

(* who has the token *)
Lemma tok_self s k t : tok s k -> tokp (pcs s t) = true -> k = KWriter t \/ k = KReader1 t.
Proof.
  intros T H. destruct k as [|w| |w]; cbn in T.
  - destruct T as (_ & _ & _ & _ & F). rewrite F in H. discriminate.
  - destruct T as (_ & _ & _ & F). destruct (Nat.eq_dec t w) as [->|N]; auto. rewrite F in H; auto. discriminate.
  - destruct T as (_ & _ & _ & _ & F). rewrite F in H. discriminate.
  - destruct T as (_ & _ & _ & _ & _ & F). destruct (Nat.eq_dec t w) as [->|N]; auto. rewrite F in H; auto. discriminate.
Qed.

Ltac brk := repeat match goal with |- context[match ?x with _ => _ end] => destruct x end.
Ltac plain s k t := eapply (tok_plain s _ k t);
  [eassumption|reflexivity|reflexivity|reflexivity|reflexivity|reflexivity
  |match goal with H : pcs s t = _ |- _ => rewrite H; reflexivity | |- _ => destruct (pcs s t); try discriminate; reflexivity end
  |cbn; brk; reflexivity].

(* ---- the reader access lock --------------------------------------------------------------------------- *)
Definition ralp (p : pc) : bool :=
  match p with R67 _ | R69 _ | R71 _ | R76 _ | U141 _ | U148 | U153 => true | _ => false end.
Definition invR (s : st) : Prop :=
  (forall t, ralp (pcs s t) = true <-> ral s = Some t) /\
  (forall t tm, pcs s t = R69 tm -> rpids s = []).

Lemma ralp_unique s t u : invR s -> ralp (pcs s t) = true -> ralp (pcs s u) = true -> t = u.
Proof. intros (I & _) H1 H2. apply I in H1, H2. congruence. Qed.

Ltac inj E := injection E as <-.

(* the result of any action, classified *)
Lemma erase_nonmem t l : mem t l = false -> erase t l = l.
Proof.
  unfold mem. induction l as [|x l IH]; cbn; auto. intros H. apply orb_false_iff in H as (H1 & H2).
  rewrite Nat.eqb_sym, H1. f_equal. auto.
Qed.

Section Inv.
Variable u : usage.

Lemma tok_step s s' k : tok s k -> invR s -> any u s s' -> exists k', tok s' k'.
Proof.
  intros T (IR & IE) [t ST].
  destruct ST as [t s s' E|t s s' _ E|t s tm Hr _ _|t s tm Hr _ _|t s Hr].
  - unfold tstep in E. destruct (pcs s t) as [|b|tm|tm|tm|ret|ret|tm|tm| | |g| | | | | |g|g| |] eqn:Ep; try discriminate E.
    + destruct (ral s); [discriminate|]. inj E. exists k. plain s k t.
    + inj E. exists k. plain s k t.
    + destruct (ev s) eqn:Ee; [|discriminate]. inj E. exists (KReader1 t).
      destruct k; cbn in T; destruct T as (F & T); try congruence. destruct T as (T1 & T2 & T3 & T4). cbn.
      repeat split; auto; [rewrite upd_same; left; auto|]. intros v Nv. rewrite upd_other; auto.
    + destruct ret; cbn [orb] in E.
      * destruct (tok_self s k t T) as [->| ->]; [rewrite Ep; auto| |]; cbn in T.
        -- destruct T as (_ & _ & F & _). rewrite Ep in F. destruct F.
        -- inj E. destruct T as (T0 & T1 & T2 & T3 & T4 & T5). exists KReaders. cbn. repeat split; auto.
           ++ rewrite T2. discriminate.
           ++ intros v. updc v t; auto.
      * destruct (rpids s) as [|x l] eqn:Er.
        -- inj E. exists k. plain s k t.
        -- inj E. exists KReaders. destruct k; cbn in T.
           ++ destruct T as (_ & _ & F & _). congruence.
           ++ destruct T as (_ & F & _). congruence.
           ++ destruct T as (T0 & T1 & T2 & T3 & T4). cbn. repeat split; auto; [discriminate|].
              intros v. updc v t; auto.
           ++ destruct T as (_ & _ & F & _). congruence.
    + inj E. exists k. destruct ret; plain s k t.
    + destruct (m_acquire (wmutex s) t); [|discriminate]. inj E. exists k.
      plain s k t.
    + destruct (ev s) eqn:Ee; [|discriminate]. inj E. exists (KWriter t).
      destruct k; cbn in T; destruct T as (F & T); try congruence. destruct T as (T1 & T2 & T3 & T4). cbn.
      repeat split; auto; [rewrite upd_same; cbn; auto|]. intros v Nv. rewrite upd_other; auto.
    + destruct (tok_self s k t T) as [->| ->]; [rewrite Ep; auto| |]; cbn in T; rewrite Ep in T;
        [|destruct T as (_ & _ & _ & _ & [F|F] & _); discriminate].
      inj E. exists (KWriter t). cbn in *. destruct T as (T0 & T1 & (T2 & T3) & T4).
      repeat split; auto; [rewrite upd_same; cbn; auto|]. intros v Nv. rewrite upd_other; auto.
    + destruct (tok_self s k t T) as [->| ->]; [rewrite Ep; auto| |]; cbn in T; rewrite Ep in T;
        [|destruct T as (_ & _ & _ & _ & [F|F] & _); discriminate].
      inj E. exists (KWriter t). cbn in *. destruct T as (T0 & T1 & (T2 & T3) & T4).
      repeat split; auto; [rewrite upd_same; cbn; rewrite T3; auto|]. intros v Nv. rewrite upd_other; auto.
    + inj E. exists k. destruct (wpid s) as [w|] eqn:Ew; [destruct (Nat.eqb_spec w t) as [->|]|];
        try (plain s k t; fail).
      destruct k as [|w| |w]; cbn in T.
      * destruct T as (_ & F & _). congruence.
      * destruct T as (T0 & T1 & T2 & T3). cbn. 
        assert (w = t). { destruct (Nat.eq_dec w t); auto. exfalso.
          destruct (pcs s w) as [| | | | |[]| | | | | | | | | | | | | | |]; cbn in T2; destruct T2; congruence. }
        subst w. rewrite Ep in T2. cbn in T2. destruct T2 as (T2 & T2').
        repeat split; auto; [rewrite upd_same; cbn; auto|]. intros v Nv. rewrite upd_other; auto.
      * destruct T as (_ & F & _). congruence.
      * destruct T as (_ & F & _). congruence.
    + destruct (tok_self s k t T) as [->| ->]; [rewrite Ep; auto| |]; cbn in T; rewrite Ep in T;
        [|destruct T as (_ & _ & _ & _ & [F|F] & _); discriminate].
      inj E. exists (KWriter t). cbn in *. destruct T as (T0 & T1 & (T2 & T3) & T4).
      repeat split; auto; [rewrite upd_same; cbn; auto|]. intros v Nv. rewrite upd_other; auto.
    + destruct (tok_self s k t T) as [->| ->]; [rewrite Ep; auto| |]; cbn in T; rewrite Ep in T;
        [|destruct T as (_ & _ & _ & _ & [F|F] & _); discriminate].
      inj E. exists (KWriter t). cbn in *. destruct T as (T0 & T1 & (T2 & T3) & T4).
      repeat split; auto; [rewrite upd_same; cbn; rewrite T3; auto|]. intros v Nv. rewrite upd_other; auto.
    + destruct (tok_self s k t T) as [->| ->]; [rewrite Ep; auto| |]; cbn in T; rewrite Ep in T;
        [|destruct T as (_ & _ & _ & _ & [F|F] & _); discriminate].
      destruct T as (T0 & T1 & (T2 & T3) & T4). rewrite T3 in E. cbn in E.
      inj E. exists (KWriter t). cbn in *.
      repeat split; auto; [rewrite upd_same; cbn; auto|]. intros v Nv. rewrite upd_other; auto.
    + destruct (tok_self s k t T) as [->| ->]; [rewrite Ep; auto| |]; cbn in T; rewrite Ep in T;
        [|destruct T as (_ & _ & _ & _ & [F|F] & _); discriminate].
      inj E. exists (KWriter t). cbn in *. destruct T as (T0 & T1 & (T2 & T3) & T4).
      repeat split; auto; [rewrite upd_same; cbn; auto|]. intros v Nv. rewrite upd_other; auto.
    + destruct (tok_self s k t T) as [->| ->]; [rewrite Ep; auto| |]; cbn in T; rewrite Ep in T;
        [|destruct T as (_ & _ & _ & _ & [F|F] & _); discriminate].
      inj E. exists KEvent. cbn in *. destruct T as (T0 & T1 & (T2 & T3) & T4).
      repeat split; auto. intros v. updc v t; auto.
    + destruct (ral s); [discriminate|]. inj E. exists k. plain s k t.
    + inj E. destruct (mem t (rpids s)) eqn:Em.
      * assert (Nr : rpids s <> []) by (intros F; rewrite F in Em; discriminate).
        destruct k; cbn in T.
        -- destruct T as (_ & _ & F & _). congruence.
        -- destruct T as (_ & F & _). congruence.
        -- destruct T as (T0 & T1 & T2 & T3 & T4).
           destruct (erase t (rpids s)) as [|x l] eqn:El.
           ++ exists (KReader1 t). cbn. repeat split; auto; [rewrite upd_same; right; auto|].
              intros v Nv. rewrite upd_other; auto.
           ++ exists KReaders. cbn. repeat split; auto; [discriminate|]. intros v. updc v t; auto.
        -- destruct T as (_ & _ & F & _). congruence.
      * exists k. plain s k t.
    + destruct (tok_self s k t T) as [->| ->]; [rewrite Ep; auto| |]; cbn in T; rewrite Ep in T;
        [destruct T as (_ & _ & [] & _)|].
      inj E. destruct T as (T0 & T1 & T2 & T3 & T4 & T5). exists KEvent. cbn. repeat split; auto.
      intros v. updc v t; auto.
    + inj E. exists k. plain s k t.
  - exists k. unfold tfail in E.
    destruct (pcs s t) as [|b|tm|tm|[]|ret|ret|[]|[]| | |g| | | | | |g|g| |] eqn:Ep; try discriminate E; inj E;
      plain s k t.
  - exists k. plain s k t.
  - exists k. plain s k t.
  - exists k. unfold call_unlock. destruct (hw s t); plain s k t.
Qed.

(* the invariant of m_reader_access_lock *)
Lemma invR_goto s s' t p : invR s -> ral s' = ral s -> rpids s' = rpids s -> pcs s' = upd (pcs s) t p ->
  ralp p = ralp (pcs s t) -> (forall tm, p = R69 tm -> rpids s = []) -> invR s'.
Proof.
  intros (I1 & I2) E1 E2 E3 Hp Hq. split.
  - intros v. rewrite E1, E3. updc v t; [rewrite Hp|]; apply I1.
  - intros v tm. rewrite E2, E3. updc v t; [apply Hq|apply I2].
Qed.
Lemma invR_acq s s' t p : invR s -> ral s = None -> ral s' = Some t -> rpids s' = rpids s -> pcs s' = upd (pcs s) t p ->
  ralp p = true -> (forall tm, p = R69 tm -> rpids s = []) -> invR s'.
Proof.
  intros (I1 & I2) E0 E1 E2 E3 Hp Hq. split.
  - intros v. rewrite E1, E3. updc v t; [tauto|]. rewrite I1, E0. split; congruence.
  - intros v tm. rewrite E2, E3. updc v t; [apply Hq|apply I2].
Qed.
Lemma invR_rel s s' t p : invR s -> ralp (pcs s t) = true -> ral s' = None -> rpids s' = rpids s -> pcs s' = upd (pcs s) t p ->
  ralp p = false -> invR s'.
Proof.
  intros I E0 E1 E2 E3 Hp. destruct I as (I1 & I2). apply I1 in E0. split.
  - intros v. rewrite E1, E3. updc v t; [split; congruence|]. rewrite I1, E0. split; congruence.
  - intros v tm. rewrite E2, E3. updc v t; [intros ->; discriminate|apply I2].
Qed.
Lemma invR_rp s s' t p : invR s -> ralp (pcs s t) = true -> ral s' = ral s -> pcs s' = upd (pcs s) t p ->
  ralp p = true -> (forall tm, p <> R69 tm) -> invR s'.
Proof.
  intros I E0 E1 E3 Hp Hq. pose proof I as I0. destruct I as (I1 & I2). split.
  - intros v. rewrite E1, E3. updc v t; [|apply I1]. rewrite Hp. pose proof (I1 t) as K. rewrite E0 in K. exact K.
  - intros v tm. rewrite E3. updc v t; [intros F; apply Hq in F; tauto|]. intros F. exfalso. apply n.
    apply (ralp_unique s); auto. rewrite F. reflexivity.
Qed.

Ltac rwp s t := match goal with H : pcs s t = _ |- _ => rewrite H | |- _ => destruct (pcs s t); try discriminate end.
Ltac r69 := cbn; brk; intros; first [discriminate|reflexivity|auto].
Ltac rgoto s t := eapply (invR_goto s _ t); [eassumption|reflexivity|reflexivity|reflexivity|rwp s t; cbn; brk; reflexivity|r69].
Ltac racq s t := eapply (invR_acq s _ t); [eassumption|eassumption|reflexivity|reflexivity|reflexivity|reflexivity|r69].
Ltac rrel s t := eapply (invR_rel s _ t); [eassumption|rwp s t; reflexivity|reflexivity|reflexivity|reflexivity|reflexivity].
Ltac rrp s t := eapply (invR_rp s _ t); [eassumption|rwp s t; reflexivity|reflexivity|reflexivity|cbn; brk; reflexivity|r69].

Lemma invR_step s s' : invR s -> any u s s' -> invR s'.
Proof.
  intros I [t ST].
  destruct ST as [t s s' E|t s s' _ E|t s tm Hr _ _|t s tm Hr _ _|t s Hr].
  - unfold tstep in E. destruct (pcs s t) as [|b|tm|tm|tm|ret|ret|tm|tm| | |g| | | | | |g|g| |] eqn:Ep; try discriminate E.
    + destruct (ral s) eqn:Er; [discriminate|]. inj E. racq s t.
    + inj E. rgoto s t.
    + destruct (ev s); [|discriminate]. inj E. rgoto s t.
    + inj E. destruct (ret || _) eqn:B; rrp s t.
    + inj E. destruct ret; rrel s t.
    + destruct (m_acquire (wmutex s) t); [|discriminate]. inj E. rgoto s t.
    + destruct (ev s); [|discriminate]. inj E. rgoto s t.
    + inj E. rgoto s t.
    + inj E. rgoto s t.
    + inj E. rgoto s t.
    + inj E. rgoto s t.
    + inj E. rgoto s t.
    + inj E. rgoto s t.
    + inj E. rgoto s t.
    + inj E. rgoto s t.
    + destruct (ral s) eqn:Er; [discriminate|]. inj E. racq s t.
    + inj E. destruct (mem t (rpids s)); rrp s t.
    + inj E. rgoto s t.
    + inj E. rrel s t.
  - unfold tfail in E.
    destruct (pcs s t) as [|b|tm|tm|[]|ret|ret|[]|[]| | |g| | | | | |g|g| |] eqn:Ep; try discriminate E; inj E; rgoto s t.
  - rgoto s t.
  - rgoto s t.
  - unfold call_unlock. destruct (hw s t); rgoto s t.
Qed.

(* ---- what the API user holds --------------------------------------------------------------------------- *)
Definition unlp (p : pc) : bool :=
  match p with U125 _ | U127 | U128 | U129 | U131 | U132 | W109 | W110 => true | _ => false end.
Definition pend (p : pc) : nat := match p with U125 true | U138 true | U141 true | R76 true => 1 | _ => 0 end.
Definition gz (p : pc) : bool := match p with U125 false | U138 false | U141 false => true | _ => false end.
Definition invH (s : st) : Prop :=
  (forall t, hw s t = true -> wpid s = Some t /\ unlp (pcs s t) = false) /\
  (forall t, hr s t + pend (pcs s t) <= count_occ Nat.eq_dec (rpids s) t) /\
  (forall t, gz (pcs s t) = true -> hr s t = 0).

Lemma count_snoc l x t : count_occ Nat.eq_dec (l ++ [x]) t = count_occ Nat.eq_dec l t + (if Nat.eq_dec x t then 1 else 0).
Proof. rewrite count_occ_app. cbn. destruct (Nat.eq_dec x t); auto. Qed.
Lemma mem_count t l : mem t l = true -> 0 < count_occ Nat.eq_dec l t.
Proof.
  intros H. apply count_occ_In. unfold mem in H. apply existsb_exists in H as (x & Hx & Ex).
  apply Nat.eqb_eq in Ex. subst. exact Hx.
Qed.
Lemma nmem_count t l : mem t l = false -> count_occ Nat.eq_dec l t = 0.
Proof.
  intros H. apply count_occ_not_In. intros F. assert (T : mem t l = true) by (apply existsb_exists; exists t; rewrite Nat.eqb_refl; auto).
  congruence.
Qed.
Lemma count_erase_same t l : count_occ Nat.eq_dec (erase t l) t = pred (count_occ Nat.eq_dec l t).
Proof.
  induction l as [|x l IH]; cbn; auto. destruct (Nat.eqb_spec x t) as [->|N].
  - destruct (Nat.eq_dec t t); [reflexivity|tauto].
  - cbn. destruct (Nat.eq_dec x t); [tauto|auto].
Qed.
Lemma count_erase_other t v l : v <> t -> count_occ Nat.eq_dec (erase t l) v = count_occ Nat.eq_dec l v.
Proof.
  intros Hv. induction l as [|x l IH]; cbn; auto. destruct (Nat.eqb_spec x t) as [->|N].
  - destruct (Nat.eq_dec t v); [congruence|auto].
  - cbn. destruct (Nat.eq_dec x v); auto.
Qed.

(* steps that change neither holdings nor m_writer_pid nor the reader list *)
Lemma invH_goto s s' t p : invH s -> wpid s' = wpid s -> rpids s' = rpids s -> hw s' = hw s -> hr s' = hr s ->
  pcs s' = upd (pcs s) t p -> (hw s t = true -> unlp p = false) -> pend p <= pend (pcs s t) ->
  (gz p = true -> gz (pcs s t) = true) -> invH s'.
Proof.
  intros (H1 & H2 & H3) E1 E2 E3 E4 E5 Hp Hq Hz. split; [|split].
  - intros v. rewrite E1, E3, E5. intros Hv. destruct (H1 v Hv). split; auto. updc v t; auto.
  - intros v. rewrite E2, E4, E5. specialize (H2 v). updc v t; lia.
  - intros v. rewrite E4, E5. updc v t; auto.
Qed.
Ltac hgoto s t := eapply (invH_goto s _ t);
  [eassumption|reflexivity|reflexivity|reflexivity|reflexivity|reflexivity
  |first [congruence|cbn; brk; intros; reflexivity]
  |match goal with H : pcs s t = _ |- _ => rewrite H | |- _ => idtac end; cbn; brk; cbn; lia
  |match goal with H : pcs s t = _ |- _ => rewrite H | |- _ => idtac end; cbn; brk; cbn; congruence].

Lemma wpid_norpids s k t : tok s k -> wpid s = Some t -> rpids s = [].
Proof.
  intros T W. destruct k; cbn in T.
  - destruct T as (_ & F & _). congruence.
  - tauto.
  - destruct T as (_ & F & _). congruence.
  - destruct T as (_ & F & _). congruence.
Qed.
Lemma wpid_kind s k t : tok s k -> wpid s = Some t -> k = KWriter t.
Proof.
  intros T W. destruct k as [|w| |w]; cbn in T.
  - destruct T as (_ & F & _). congruence.
  - destruct T as (_ & _ & F & _). f_equal.
    destruct (pcs s w) as [| | | | |[]| | | | | | | | | | | | | | |]; cbn in F; try tauto; destruct F; congruence.
  - destruct T as (_ & F & _). congruence.
  - destruct T as (_ & F & _). congruence.
Qed.

Lemma invH_step s s' k : tok s k -> invH s -> any u s s' -> invH s'.
Proof.
  intros T I [t ST]. pose proof I as (H1 & H2 & H3).
  destruct ST as [t s s' E|t s s' _ E|t s tm Hr _ _|t s tm Hr _ _|t s Hr];
    pose proof (H1 t) as Ht; pose proof (H2 t) as Ct; pose proof (H3 t) as Zt.
  - unfold tstep in E. destruct (pcs s t) as [|b|tm|tm|tm|ret|ret|tm|tm| | |g| | | | | |g|g| |] eqn:Ep; try discriminate E;
      cbn in Ht, Ct; try (assert (hw s t = false) by (destruct (hw s t); auto; destruct Ht; auto; discriminate)).
    + destruct (ral s) eqn:Er; [discriminate|]. inj E. hgoto s t.
    + inj E. hgoto s t.
    + destruct (ev s); [|discriminate]. inj E. hgoto s t.
    + inj E. destruct (ret || _) eqn:B.
      * split; [|split]; cbn.
        -- intros v Hv. destruct (H1 v Hv). split; auto. updc v t; auto.
        -- intros v. rewrite count_snoc. pose proof (H2 v). updc v t; cbn.
           ++ destruct (Nat.eq_dec t t); [lia|tauto].
           ++ lia.
        -- intros v. updc v t; [discriminate|apply H3].
      * hgoto s t.
    + inj E. destruct ret; cbn in Ct.
      * split; [|split]; cbn.
        -- intros v Hv. destruct (H1 v Hv). split; auto. updc v t; auto.
        -- intros v. pose proof (H2 v). updc v t; cbn; lia.
        -- intros v. updc v t; [discriminate|apply H3].
      * hgoto s t.
    + destruct (m_acquire (wmutex s) t); [|discriminate]. inj E. hgoto s t.
    + destruct (ev s) eqn:Ee; [|discriminate]. inj E.
      assert (hw s t = false).
      { destruct (hw s t) eqn:F; auto. exfalso. destruct (Ht eq_refl) as (Fw & _). apply (wpid_kind s k) in Fw; auto.
        subst. cbn in T. destruct T. congruence. }
      hgoto s t.
    + (* W109 *)
      destruct (tok_self s k t T) as [->| ->]; [rewrite Ep; auto| |]; cbn in T; rewrite Ep in T;
        [|destruct T as (_ & _ & _ & _ & [F|F] & _); discriminate].
      destruct T as (T0 & T1 & (T2 & T3) & T4). inj E. split; [|split]; cbn.
      * intros v Hv. destruct (H1 v Hv). congruence.
      * intros v. pose proof (H2 v). updc v t; cbn; lia.
      * intros v. updc v t; [discriminate|apply H3].
    + (* W110 *)
      destruct (tok_self s k t T) as [->| ->]; [rewrite Ep; auto| |]; cbn in T; rewrite Ep in T;
        [|destruct T as (_ & _ & _ & _ & [F|F] & _); discriminate].
      destruct T as (T0 & T1 & (T2 & T3) & T4). inj E. split; [|split]; cbn.
      * intros v. updc v t; [auto|]. intros Hv. destruct (H1 v Hv). congruence.
      * intros v. pose proof (H2 v). updc v t; cbn; lia.
      * intros v. updc v t; [discriminate|apply H3].
    + inj E. hgoto s t.
    + inj E. hgoto s t.
    + inj E. hgoto s t.
    + inj E. hgoto s t.
    + (* U131 *)
      destruct (tok_self s k t T) as [->| ->]; [rewrite Ep; auto| |]; cbn in T; rewrite Ep in T;
        [|destruct T as (_ & _ & _ & _ & [F|F] & _); discriminate].
      destruct T as (T0 & T1 & (T2 & T3) & T4). inj E. split; [|split]; cbn.
      * intros v Hv. destruct (H1 v Hv). congruence.
      * intros v. pose proof (H2 v). updc v t; cbn; lia.
      * intros v. updc v t; [discriminate|apply H3].
    + inj E. hgoto s t.
    + destruct (ral s) eqn:Er; [discriminate|]. inj E. hgoto s t.
    + inj E. destruct (mem t (rpids s)) eqn:Em.
      * assert (P1 : pend (match erase t (rpids s) with [] => U148 | _ :: _ => U153 end) = 0) by (destruct (erase t (rpids s)); auto).
        split; [|split]; cbn.
        -- intros v Hv. destruct (H1 v Hv). split; auto. updc v t; auto. destruct (erase t (rpids s)); auto.
        -- intros v. destruct (Nat.eq_dec v t) as [->|N].
           ++ rewrite upd_same, count_erase_same, P1. apply mem_count in Em. destruct g; cbn in *; [lia|]. rewrite Zt; auto. lia.
           ++ rewrite upd_other, count_erase_other; auto.
        -- intros v. updc v t; [|apply H3]. destruct (erase t (rpids s)); discriminate.
      * hgoto s t.
    + inj E. hgoto s t.
    + inj E. hgoto s t.
  - unfold tfail in E.
    destruct (pcs s t) as [|b|tm|tm|[]|ret|ret|[]|[]| | |g| | | | | |g|g| |] eqn:Ep; try discriminate E; inj E; hgoto s t.
  - hgoto s t.
  - hgoto s t.
  - unfold call_unlock. destruct (hw s t) eqn:Eh.
    + destruct (Ht eq_refl) as (Fw & _). pose proof (wpid_norpids s k t T Fw) as Nr.
      rewrite Nr in Ct. cbn in Ct. split; [|split]; cbn.
      * intros v. updc v t; [discriminate|]. intros Hv. destruct (H1 v Hv). auto.
      * intros v. pose proof (H2 v). updc v t; cbn; [lia|auto].
      * intros v. updc v t; [|apply H3]. intros _. lia.
    + split; [|split]; cbn.
      * intros v Hv. destruct (H1 v Hv). split; auto. updc v t; [congruence|auto].
      * intros v. pose proof (H2 v). updc v t; [|auto]. destruct (Nat.eqb_spec (hr s t) 0) as [Z|Z]; cbn; lia.
      * intros v. updc v t; [|apply H3]. destruct (Nat.eqb_spec (hr s t) 0) as [Z|Z]; cbn; [lia|discriminate].
Qed.

Record inv (s : st) : Prop := { v_tok : exists k, tok s k; v_R : invR s; v_H : invH s }.
Lemma inv_init : inv init.
Proof.
  constructor.
  - exists KEvent. cbn. auto 6.
  - split; cbn; [|discriminate]. intros t. split; discriminate.
  - split; [|split]; cbn; auto; discriminate.
Qed.
Lemma reach_inv s : reach init (any u) s -> inv s.
Proof.
  intros R. induction R as [|s s' R [(k & T) IR IH] ST]; [apply inv_init|]. constructor.
  - eapply tok_step; eauto.
  - eapply invR_step; eauto.
  - eapply invH_step; eauto.
Qed.

Lemma writers_exclusive s t v : reach init (any u) s -> hw s t = true -> hw s v = true -> t = v.
Proof.
  intros R H1 H2. destruct (v_H _ (reach_inv s R)) as (W & _ & _). apply W in H1, H2. destruct H1, H2. congruence.
Qed.
Lemma writer_excludes_readers s t v : reach init (any u) s -> hw s t = true -> hr s v = 0.
Proof.
  intros R H1. destruct (v_H _ (reach_inv s R)) as (W & C & _). apply W in H1 as (Hw & _).
  destruct (v_tok _ (reach_inv s R)) as (k & T). pose proof (wpid_norpids s k t T Hw) as N.
  specialize (C v). rewrite N in C. cbn in C. lia.
Qed.
End Inv.

(* ---- without time-outs and nesting: exact bookkeeping ---------------------------------------------------- *)
Definition wheldp (s : st) (o : tid) : Prop :=
  match pcs s o with W106 _ | W109 | W110 | U127 => True | U125 _ => wpid s = Some o | _ => hw s o = true end.
Record invX (s : st) : Prop := {
  x_rest : forall t, holds_any s t = true -> resting (pcs s t) = true;
  x_count : forall t, count_occ Nat.eq_dec (rpids s) t = hr s t + pend (pcs s t);
  x_wpid : forall t, wpid s = Some t ->
     match pcs s t with W110 | U125 _ | U127 | U128 | U129 | U131 => True | _ => hw s t = true end;
  x_one : forall t, hr s t <= 1;
  x_mtx : forall o n, wmutex s = Some (o, n) -> n = 1 /\ wheldp s o
}.

(* moves that change no bookkeeping *)
Lemma invX_goto s s' t p : invX s -> wpid s' = wpid s -> rpids s' = rpids s -> hw s' = hw s -> hr s' = hr s ->
  wmutex s' = wmutex s -> pcs s' = upd (pcs s) t p ->
  holds_any s t = false -> pend p = pend (pcs s t) ->
  (wpid s = Some t -> match p with W110 | U125 _ | U127 | U128 | U129 | U131 => True | _ => False end) ->
  (wheldp s t -> match p with W106 _ | W109 | W110 | U127 => True | _ => False end) -> invX s'.
Proof.
  intros [X1 X2 X3 X5 X4] E1 E2 E3 E4 E5 E6 Hh Hp Hw Hm. constructor.
  - intros v. unfold holds_any in *. rewrite E3, E4, E6. updc v t; [congruence|apply X1].
  - intros v. rewrite E2, E4, E6. rewrite X2. updc v t; lia.
  - intros v. rewrite E1, E3, E6. intros Hv. specialize (X3 v Hv). updc v t; auto.
    specialize (Hw Hv). destruct p; tauto.
  - rewrite E4. auto.
  - intros o n. rewrite E5. intros Ho. destruct (X4 o n Ho) as (-> & K). split; auto.
    unfold wheldp in *. rewrite E1, E3, E6. updc o t; auto. specialize (Hm K). destruct p; tauto.
Qed.
Ltac xgoto s t := eapply (invX_goto s _ t);
  [eassumption|reflexivity|reflexivity|reflexivity|reflexivity|reflexivity|reflexivity
  |try assumption
  |match goal with H : pcs s t = _ |- _ => rewrite H | |- _ => idtac end; cbn; brk; cbn; try reflexivity
  |cbn; brk; intros; first [exact I|congruence|intuition congruence|idtac]
  |unfold wheldp; match goal with H : pcs s t = _ |- _ => rewrite H | |- _ => idtac end; cbn; brk; intros; first [exact I|congruence|tauto|intuition congruence|idtac]].


Lemma resting_idle s t : invX s -> resting (pcs s t) = false -> hw s t = false /\ hr s t = 0.
Proof.
  intros X N. assert (H : holds_any s t = false) by (destruct (holds_any s t) eqn:E; auto; apply (x_rest _ X) in E; congruence).
  unfold holds_any in H. apply orb_false_iff in H as (H1 & H2). split; auto.
  apply negb_false_iff, Nat.eqb_eq in H2. auto.
Qed.

Lemma invX_step s s' : inv s -> invX s -> any plain_use s s' -> invX s'.
Proof.
  intros V X [t ST]. destruct (v_tok _ V) as (k & T). pose proof (v_H _ V) as (H1 & H2 & H3).
  pose proof X as [X1 X2 X3 X5 X4].
  destruct ST as [t s s' E|t s s' F E|t s tm Hr F N|t s tm Hr F N|t s Hr]; [|discriminate F| | |].
  2: { assert (Hh : holds_any s t = false) by (destruct (holds_any s t); auto; specialize (N eq_refl); discriminate).
    assert (Hw : hw s t = false) by (unfold holds_any in Hh; apply orb_false_iff in Hh; tauto).
    pose proof (X3 t) as W3.
    destruct (pcs s t) eqn:Ep; try discriminate Hr; xgoto s t. }
  2: { assert (Hh : holds_any s t = false) by (destruct (holds_any s t); auto; specialize (N eq_refl); discriminate).
    assert (Hw : hw s t = false) by (unfold holds_any in Hh; apply orb_false_iff in Hh; tauto).
    pose proof (X3 t) as W3.
    destruct (pcs s t) eqn:Ep; try discriminate Hr; xgoto s t. }
  2: { (* unlock *)
    pose proof (X3 t) as W3. pose proof (X2 t) as C2. pose proof (X5 t) as O5.
    assert (P0 : pend (pcs s t) = 0) by (destruct (pcs s t); try discriminate Hr; auto).
    unfold call_unlock. destruct (hw s t) eqn:Eh.
    - destruct (H1 t Eh) as (Fw & _). pose proof (wpid_norpids s k t T Fw) as Nr.
      rewrite Nr in C2. cbn in C2. constructor; cbn.
      + intros v. unfold holds_any. cbn. updc v t; [|apply X1].
        replace (hr s t) with 0 by lia. discriminate.
      + intros v. rewrite X2. updc v t; cbn; lia.
      + intros v Hv. updc v t; auto. specialize (X3 v Hv). auto.
      + auto.
      + intros o n Ho. destruct (X4 o n Ho) as (-> & K). split; auto. unfold wheldp in *. cbn.
        updc o t; auto.
    - assert (Hw : wpid s <> Some t).
      { intros Hv. specialize (X3 t Hv). rewrite Eh in X3. destruct (pcs s t); try discriminate Hr; discriminate. }
      constructor; cbn.
      + intros v. unfold holds_any. cbn. updc v t; [|apply X1]. rewrite Eh. cbn.
        replace (pred (hr s t)) with 0 by lia. discriminate.
      + intros v. rewrite X2. updc v t; auto. destruct (Nat.eqb_spec (hr s t) 0); cbn; lia.
      + intros v Hv. updc v t; [tauto|]. apply X3. auto.
      + intros v. updc v t; auto. lia.
      + intros o n Ho. destruct (X4 o n Ho) as (-> & K). split; auto. unfold wheldp in *. cbn.
        updc o t; auto. rewrite Eh in K. destruct (pcs s t); try discriminate Hr; discriminate. }
  assert (Rt : resting (pcs s t) = false) by (unfold tstep in E; destruct (pcs s t); try discriminate E; auto).
  destruct (resting_idle s t X Rt) as (Hw & Hr0).
  assert (Hh : holds_any s t = false) by (unfold holds_any; rewrite Hw, Hr0; auto).
  pose proof (X3 t) as W3. pose proof (X2 t) as C2.
  unfold tstep in E. destruct (pcs s t) as [|b|tm|tm|tm|ret|ret|tm|tm| | |g| | | | | |g|g| |] eqn:Ep; try discriminate E.
  - destruct (ral s) eqn:Er; [discriminate|]. inj E. xgoto s t.
  - inj E. xgoto s t.
  - destruct (ev s); [|discriminate]. inj E. xgoto s t.
  - inj E. destruct (ret || _) eqn:B; [|xgoto s t].
    constructor; cbn.
    + intros v. unfold holds_any in *. cbn. updc v t; [congruence|apply X1].
    + intros v. rewrite count_snoc, X2. updc v t; cbn.
      * rewrite Ep. cbn. destruct (Nat.eq_dec t t); [lia|tauto].
      * destruct (Nat.eq_dec t v); [congruence|lia].
    + intros v Hv. updc v t; [|apply X3; auto]. specialize (W3 Hv). congruence.
    + auto.
    + intros o n Ho. destruct (X4 o n Ho) as (-> & K). split; auto. unfold wheldp in *. cbn. updc o t; auto.
      rewrite Ep in K. congruence.
  - inj E. destruct ret; [|xgoto s t].
    constructor; cbn.
    + intros v. unfold holds_any in *. cbn. updc v t; [auto|apply X1].
    + intros v. rewrite X2. updc v t; cbn; auto. rewrite Ep. cbn. lia.
    + intros v Hv. updc v t; [|apply X3; auto]. specialize (W3 Hv). congruence.
    + intros v. updc v t; auto. lia.
    + intros o n Ho. destruct (X4 o n Ho) as (-> & K). split; auto. unfold wheldp in *. cbn. updc o t; auto.
      rewrite Ep in K. congruence.
  - (* W105 *)
    unfold m_acquire in E. destruct (wmutex s) as [[o n]|] eqn:Em.
    + destruct (Nat.eqb_spec o t) as [->|]; [|discriminate].
      destruct (X4 t n eq_refl) as (_ & K). unfold wheldp in K. rewrite Ep in K. congruence.
    + inj E. constructor; cbn.
      * intros v. unfold holds_any in *. cbn. updc v t; [congruence|apply X1].
      * intros v. rewrite X2. updc v t; cbn; auto. rewrite Ep. auto.
      * intros v Hv. updc v t; [|apply X3; auto]. specialize (W3 Hv). congruence.
      * auto.
      * intros o n [= <- <-]. split; auto. unfold wheldp. cbn. rewrite upd_same. exact I.
  - destruct (ev s) eqn:Ee; [|discriminate]. inj E. xgoto s t.
  - (* W109 *)
    destruct (tok_self s k t T) as [->| ->]; [rewrite Ep; auto| |]; cbn in T; rewrite Ep in T;
      [|destruct T as (_ & _ & _ & _ & [F|F] & _); discriminate].
    destruct T as (T0 & T1 & (T2 & T3) & T4). inj E. constructor; cbn.
    + intros v. unfold holds_any in *. cbn. updc v t; [congruence|apply X1].
    + intros v. rewrite X2. updc v t; cbn; auto. rewrite Ep. auto.
    + intros v [= <-]. rewrite upd_same. exact I.
    + auto.
    + intros o n Ho. destruct (X4 o n Ho) as (-> & K). split; auto. unfold wheldp in *. cbn. updc o t; auto.
      destruct (pcs s o); auto. congruence.
  - (* W110 *)
    destruct (tok_self s k t T) as [->| ->]; [rewrite Ep; auto| |]; cbn in T; rewrite Ep in T;
      [|destruct T as (_ & _ & _ & _ & [F|F] & _); discriminate].
    destruct T as (T0 & T1 & (T2 & T3) & T4). inj E. constructor; cbn.
    + intros v. unfold holds_any in *. cbn. updc v t; [auto|apply X1].
    + intros v. rewrite X2. updc v t; cbn; auto. rewrite Ep. auto.
    + intros v Hv. updc v t; auto. apply X3. auto.
    + auto.
    + intros o n Ho. destruct (X4 o n Ho) as (-> & K). split; auto. unfold wheldp in *. cbn. updc o t; auto.
  - inj E. destruct (wpid s) as [w|] eqn:Ew; [destruct (Nat.eqb_spec w t) as [->|Nw]|]; cbn [pend] in C2.
    + assert (g = false).
      { destruct g; auto. exfalso. pose proof (wpid_norpids s k t T Ew) as Nr. rewrite Nr in C2. cbn in C2. lia. }
      subst g. xgoto s t.
    + xgoto s t.
    + xgoto s t.
  - (* U127 *)
    inj E. constructor; cbn.
    + intros v. unfold holds_any in *. cbn. updc v t; [congruence|apply X1].
    + intros v. rewrite X2. updc v t; cbn; auto. rewrite Ep. auto.
    + intros v Hv. updc v t; auto. apply X3. auto.
    + auto.
    + intros o n. unfold m_release. destruct (wmutex s) as [[o' n']|] eqn:Em; [|discriminate].
      destruct (X4 o' n' eq_refl) as (-> & K).
      destruct (Nat.eqb_spec o' t) as [->|No]; [discriminate|]. intros [= <- <-]. split; auto.
      unfold wheldp in *. cbn. rewrite upd_other; auto.
  - inj E. xgoto s t.
  - inj E. destruct (tok_self s k t T) as [->| ->]; [rewrite Ep; auto| |]; cbn in T; rewrite Ep in T;
      [|destruct T as (_ & _ & _ & _ & [F|F] & _); discriminate].
    destruct T as (T0 & T1 & (T2 & T3) & T4). rewrite T3. cbn. xgoto s t.
  - (* U131 *)
    destruct (tok_self s k t T) as [->| ->]; [rewrite Ep; auto| |]; cbn in T; rewrite Ep in T;
      [|destruct T as (_ & _ & _ & _ & [F|F] & _); discriminate].
    destruct T as (T0 & T1 & (T2 & T3) & T4). inj E. constructor; cbn.
    + intros v. unfold holds_any in *. cbn. updc v t; [congruence|apply X1].
    + intros v. rewrite X2. updc v t; cbn; auto. rewrite Ep. auto.
    + discriminate.
    + auto.
    + intros o n Ho. destruct (X4 o n Ho) as (-> & K). split; auto. unfold wheldp in *. cbn. updc o t.
      * rewrite Ep in K. congruence.
      * destruct (pcs s o); auto. congruence.
  - inj E. xgoto s t.
  - destruct (ral s) eqn:Er; [discriminate|]. inj E. xgoto s t.
  - inj E. destruct (mem t (rpids s)) eqn:Em.
    + assert (g = true).
      { destruct g; auto. apply mem_count in Em. cbn in C2. lia. }
      subst g. cbn in C2.
      assert (P1 : pend (match erase t (rpids s) with [] => U148 | _ :: _ => U153 end) = 0) by (destruct (erase t (rpids s)); auto).
      constructor; cbn.
      * intros v. unfold holds_any in *. cbn. updc v t; [congruence|apply X1].
      * intros v. destruct (Nat.eq_dec v t) as [->|N].
        -- rewrite upd_same, count_erase_same, P1. lia.
        -- rewrite upd_other, count_erase_other; auto.
      * intros v Hv. updc v t; [|apply X3; auto]. specialize (W3 Hv). congruence.
      * auto.
      * intros o n Ho. destruct (X4 o n Ho) as (-> & K). split; auto. unfold wheldp in *. cbn. updc o t; auto.
        rewrite Ep in K. congruence.
    + assert (g = false).
      { destruct g; auto. apply nmem_count in Em. cbn in C2. lia. }
      subst g. xgoto s t.
  - inj E. xgoto s t.
  - inj E. xgoto s t.
Qed.
Lemma reach_invX s : reach init (any plain_use) s -> invX s.
Proof.
  intros R. induction R; [|eapply invX_step; eauto; eapply reach_inv; eauto].
  constructor; cbn; auto; discriminate.
Qed.

(* a thread that holds m_reader_access_lock can move, unless it waits for the event *)
Lemma ral_moves s o : ralp (pcs s o) = true -> (forall tm, pcs s o = R69 tm -> ev s = true) -> tstep o s <> None.
Proof.
  intros H E. unfold tstep. destruct (pcs s o) eqn:Ep; try discriminate H; try discriminate.
  rewrite (E tm); auto. discriminate.
Qed.
Lemma tok_moves s o : tokp (pcs s o) = true -> tstep o s <> None.
Proof. intros H. unfold tstep. destruct (pcs s o) as [| | | | |[]| | | | | | | | | | | | | | |]; try discriminate H; discriminate. Qed.

Lemma no_deadlock s t : reach init (any plain_use) s -> resting (pcs s t) = false ->
  (exists v, tstep v s <> None) \/ (exists v, resting (pcs s v) = true /\ holds_any s v = true).
Proof.
  intros R N. pose proof (reach_inv _ s R) as V. pose proof (reach_invX s R) as X.
  destruct (v_tok _ V) as (k & T). destruct (v_R _ V) as (RL & R69E).
  destruct k as [|w| |w].
  - (* the event is signalled: t can move or waits for somebody who can *)
    destruct T as (T0 & T1 & T2 & T3 & T4). left.
    assert (RM : forall o, ral s = Some o -> exists v, tstep v s <> None).
    { intros o Ho. exists o. apply ral_moves; auto. apply RL; auto. }
    destruct (tstep t s) as [s1|] eqn:E; [exists t; congruence|].
    unfold tstep in E. destruct (pcs s t) as [|b|tm|tm|tm|ret|ret|tm|tm| | |g| | | | | |g|g| |] eqn:Ep; try discriminate E;
      try discriminate N.
    + destruct (ral s) eqn:Er; [eauto|discriminate].
    + rewrite T0 in E. discriminate.
    + unfold m_acquire in E. destruct (wmutex s) as [[o n]|] eqn:Em; [|discriminate].
      destruct (x_mtx _ X o n Em) as (_ & K). exists o. unfold wheldp in K. unfold tstep.
      pose proof (v_H _ V) as (H1 & _ & _).
      destruct (pcs s o) eqn:Eo; try discriminate; try (apply H1 in K; destruct K; congruence); try congruence.
      rewrite T0. discriminate.
    + rewrite T0 in E. discriminate.
    + destruct (ral s) eqn:Er; [eauto|discriminate].
  - destruct T as (T0 & T1 & T2 & T3). destruct (tokp (pcs s w)) eqn:Tw; [left; exists w; apply tok_moves; auto|].
    rewrite wstate_plain in T2 by auto. destruct T2 as (T2 & _).
    pose proof (x_wpid _ X w T2) as K. destruct (hw s w) eqn:Eh.
    + right. exists w. assert (holds_any s w = true) by (unfold holds_any; rewrite Eh; auto). split; auto. apply (x_rest _ X); auto.
    + left. exists w. unfold tstep. destruct (pcs s w); try discriminate K; discriminate.
  - destruct T as (T0 & T1 & T2 & T3 & T4). destruct (rpids s) as [|v l] eqn:Er; [tauto|].
    pose proof (x_count _ X v) as C. rewrite Er in C. cbn in C. destruct (Nat.eq_dec v v); [|tauto].
    destruct (Nat.eq_dec (hr s v) 0) as [Z|Z].
    + left. destruct (pcs s v) as [|b|tm|tm|tm|ret|[]|tm|tm| | |[]| | | | | |[]|[]| |] eqn:Ep; cbn in C; try lia.
      * exists v. unfold tstep. rewrite Ep. discriminate.
      * exists v. unfold tstep. rewrite Ep. discriminate.
      * destruct (ral s) as [o|] eqn:El.
        -- exists o. apply ral_moves; [apply RL; auto|]. intros tm F. apply R69E in F. congruence.
        -- exists v. unfold tstep. rewrite Ep, El. discriminate.
      * exists v. unfold tstep. rewrite Ep. discriminate.
    + right. exists v. assert (holds_any s v = true).
      { unfold holds_any. apply orb_true_iff. right. apply negb_true_iff, Nat.eqb_neq. auto. }
      split; auto. apply (x_rest _ X); auto.
  - destruct T as (_ & _ & _ & _ & T4 & _). left. exists w. apply tok_moves. destruct T4 as [->| ->]; auto.
Qed.

(* ---- runs ------------------------------------------------------------------------------------------------ *)
Inductive act := AS (t : tid) | AF (t : tid) | AR (t : tid) (tm : bool) | AW (t : tid) (tm : bool) | AU (t : tid).
Definition arun1 (s : st) (a : act) : option st :=
  match a with
  | AS t => tstep t s
  | AF t => tfail t s
  | AR t tm => if resting (pcs s t) then Some (goto s t (R65 tm)) else None
  | AW t tm => if resting (pcs s t) then Some (goto s t (W105 tm)) else None
  | AU t => if resting (pcs s t) then Some (call_unlock t s) else None
  end.
Fixpoint arun (s : st) (l : list act) : option st :=
  match l with [] => Some s | a :: l => match arun1 s a with Some s => arun s l | None => None end end.
Lemma arun_reach l : forall s s', reach init (any unrestricted) s -> arun s l = Some s' -> reach init (any unrestricted) s'.
Proof.
  induction l as [|a l IH]; intros s s' R E; cbn in E; [congruence|].
  destruct (arun1 s a) as [s1|] eqn:E1; [|discriminate]. apply (IH s1); auto. eapply reach_step; eauto.
  destruct a as [t|t|t tm|t tm|t]; exists t; cbn in E1.
  - apply step_thread; auto.
  - apply step_timeout; auto.
  - destruct (resting (pcs s t)) eqn:Hr; [|discriminate]. inj E1. apply step_readLock; auto.
  - destruct (resting (pcs s t)) eqn:Hr; [|discriminate]. inj E1. apply step_writeLock; auto.
  - destruct (resting (pcs s t)) eqn:Hr; [|discriminate]. inj E1. apply step_unlock; auto.
Qed.
Definition strict_act (s : st) (a : act) : bool :=
  match a with AS _ => true | AF _ => false | AR t tm | AW t tm => negb tm && negb (holds_any s t) | AU _ => true end.
Fixpoint arun_strict (s : st) (l : list act) : option st :=
  match l with [] => Some s | a :: l => if strict_act s a then match arun1 s a with Some s => arun_strict s l | None => None end else None end.
Lemma arun_reach_strict l : forall s s', reach init (any plain_use) s -> arun_strict s l = Some s' -> reach init (any plain_use) s'.
Proof.
  induction l as [|a l IH]; intros s s' R E; cbn in E; [congruence|].
  destruct (strict_act s a) eqn:Sa; [|discriminate].
  destruct (arun1 s a) as [s1|] eqn:E1; [|discriminate]. apply (IH s1); auto. eapply reach_step; eauto.
  destruct a as [t|t|t tm|t tm|t]; exists t; cbn in E1, Sa; try discriminate Sa.
  - apply step_thread; auto.
  - destruct (resting (pcs s t)) eqn:Hr; [|discriminate]. inj E1. apply andb_true_iff in Sa as (Sa & Sb).
    apply negb_true_iff in Sa, Sb. apply step_readLock; auto; congruence.
  - destruct (resting (pcs s t)) eqn:Hr; [|discriminate]. inj E1. apply andb_true_iff in Sa as (Sa & Sb).
    apply negb_true_iff in Sa, Sb. apply step_writeLock; auto; congruence.
  - destruct (resting (pcs s t)) eqn:Hr; [|discriminate]. inj E1. apply step_unlock; auto.
Qed.

Definition rd (t : tid) : list act := AR t false :: repeat (AS t) 5.   (* first reader: 5 actions *)
Definition rd' (t : tid) : list act := AR t false :: repeat (AS t) 4.  (* further reader: 4 actions *)
Definition wr (t : tid) : list act := AW t false :: repeat (AS t) 4.

(* two readers share the lock; then a writer has it alone *)
Lemma example_readers : exists s, reach init (any plain_use) s /\ hr s 0 = 1 /\ hr s 1 = 1 /\ all_resting s.
Proof.
  eexists. split; [eapply (arun_reach_strict (rd 0 ++ rd' 1) init); [constructor|vm_compute; reflexivity]|].
  repeat split. intros t. cbn. repeat (destruct t as [|t]; [reflexivity|]). reflexivity.
Qed.
Lemma example_writer : exists s, reach init (any plain_use) s /\ hw s 1 = true /\ pcs s 0 = R69 false /\ resting (pcs s 0) = false.
Proof.
  eexists. split; [eapply (arun_reach_strict (rd 0 ++ [AU 0] ++ repeat (AS 0) 5 ++ wr 1 ++ [AR 0 false; AS 0; AS 0]) init); [constructor|vm_compute; reflexivity]|].
  repeat split.
Qed.

(* ---- a failed tryWriteLock() keeps m_writer_mutex ---------------------------------------------------------- *)
Definition late (p : pc) : bool := match p with W106 _ | W109 | W110 => true | _ => false end.
Definition leaked (s : st) : Prop :=
  (exists n, wmutex s = Some (0, n)) /\ forall t, t <> 0 -> hw s t = false /\ late (pcs s t) = false.
Lemma leaked_frame s s' t p : leaked s -> (exists n, wmutex s' = Some (0, n)) ->
  hw s' = hw s -> pcs s' = upd (pcs s) t p -> late p = false -> leaked s'.
Proof.
  intros ((n & M) & L) M' Eh Ep Lp. split; [exact M'|]. intros v Nv. destruct (L v Nv) as (L1 & L2).
  rewrite Eh, Ep. split; auto. updc v t; auto.
Qed.
Ltac lk s t := eapply (leaked_frame s _ t); [eassumption|eexists; eassumption|reflexivity|reflexivity|cbn; brk; reflexivity].
Lemma leaked_step s s' : leaked s -> not_by unrestricted 0 s s' -> leaked s'.
Proof.
  intros LL (t & Nt & ST). pose proof LL as ((n & M) & L). destruct (L t Nt) as (Lh & Lp).
  destruct ST as [t s s' E|t s s' _ E|t s tm Hr _ _|t s tm Hr _ _|t s Hr].
  - unfold tstep in E. destruct (pcs s t) as [|b|tm|tm|tm|ret|ret|tm|tm| | |g| | | | | |g|g| |] eqn:Ep; try discriminate E;
      try discriminate Lp.
    + destruct (ral s); [discriminate|]. inj E. lk s t.
    + inj E. lk s t.
    + destruct (ev s); [|discriminate]. inj E. lk s t.
    + inj E. destruct (ret || _); lk s t.
    + inj E. destruct ret; lk s t.
    + rewrite M in E. cbn in E. destruct t; [tauto|]. discriminate.
    + inj E. lk s t.
    + inj E. eapply (leaked_frame s _ t); [eassumption| |reflexivity|reflexivity|reflexivity].
      exists n. cbn. rewrite M. cbn. destruct t; [tauto|reflexivity].
    + inj E. lk s t.
    + inj E. lk s t.
    + inj E. lk s t.
    + inj E. lk s t.
    + destruct (ral s); [discriminate|]. inj E. lk s t.
    + inj E. destruct (mem t (rpids s)); lk s t.
    + inj E. lk s t.
    + inj E. lk s t.
  - unfold tfail in E.
    destruct (pcs s t) as [|b|tm|tm|[]|ret|ret|[]|[]| | |g| | | | | |g|g| |] eqn:Ep; try discriminate E; inj E; lk s t.
  - lk s t.
  - lk s t.
  - unfold call_unlock. rewrite Lh. lk s t.
Qed.

Lemma failed_try_blocks : exists s, reach init (any unrestricted) s /\ all_resting s /\
  (forall t, holds_any s t = false) /\ pcs s 0 = Ret false /\
  forall s' t, steps (not_by unrestricted 0) s s' -> t <> 0 -> hw s' t = false.
Proof.
  eexists. split; [eapply (arun_reach (rd 1 ++ [AW 0 true; AS 0; AF 0; AU 1] ++ repeat (AS 1) 5) init); [constructor|vm_compute; reflexivity]|].
  split; [|split; [|split; [reflexivity|]]].
  - intros t. cbn. repeat (destruct t as [|t]; [reflexivity|]). reflexivity.
  - intros t. unfold holds_any. cbn. repeat (destruct t as [|t]; [reflexivity|]). reflexivity.
  - intros s' t S Nt.
    match type of S with steps _ ?s0 _ => assert (L0 : leaked s0) end.
    { split; [exists 1; reflexivity|]. intros v Nv. destruct v as [|v]; [tauto|]. split; do 3 (try (destruct v as [|v]; [reflexivity|])); reflexivity. }
    assert (L : leaked s').
    { clear Nt. induction S; auto. apply IHS. eapply leaked_step; eauto. }
    destruct L as (_ & L). apply (L t Nt).
Qed.

(* ---- a second writeLock() by the writer waits for itself ---------------------------------------------------- *)
Definition selfwait (s : st) : Prop := wpid s = Some 0 /\ pcs s 0 = W106 false.
Lemma other_keeps s s' t v : step unrestricted t s s' -> v <> t -> pcs s' v = pcs s v.
Proof.
  intros ST N. assert (K : forall (f : tid -> pc) p, upd f t p v = f v) by (intros; apply upd_other; auto).
  destruct ST as [t s s' E|t s s' _ E|t s tm Hr _ _|t s tm Hr _ _|t s Hr].
  - unfold tstep in E. destruct (pcs s t) eqn:Ep; try discriminate E;
      repeat match type of E with context[match ?x with _ => _ end] => destruct x; try discriminate E end;
      inj E; cbn; apply K.
  - unfold tfail in E. destruct (pcs s t) eqn:Ep; try discriminate E;
      repeat match type of E with context[match ?x with _ => _ end] => destruct x; try discriminate E end;
      inj E; cbn; apply K.
  - apply K.
  - apply K.
  - unfold call_unlock. destruct (hw s t); apply K.
Qed.
Lemma selfwait_step s s' : reach init (any unrestricted) s -> selfwait s -> any unrestricted s s' -> selfwait s'.
Proof.
  intros R (Hw & Hp) (t & ST). pose proof (reach_inv _ s R) as V. destruct (v_tok _ V) as (k & T).
  pose proof (wpid_kind s k 0 T Hw) as ->. assert (Ev : ev s = false) by apply T.
  assert (Nt : t <> 0).
  { intros ->. destruct ST as [t s s' E|t s s' _ E|t s tm Hr _ _|t s tm Hr _ _|t s Hr]; try rewrite Hp in *; try discriminate.
    - unfold tstep in E. rewrite Hp, Ev in E. discriminate.
    - unfold tfail in E. rewrite Hp in E. discriminate. }
  split; [|rewrite (other_keeps s s' t); auto].
  assert (Tt : tokp (pcs s t) = true -> False).
  { intros Q. destruct (tok_self s _ t T Q) as [[= F]|F]; [auto|discriminate F]. }
  destruct ST as [t s s' E|t s s' _ E|t s tm Hr _ _|t s tm Hr _ _|t s Hr]; auto.
  - unfold tstep in E. destruct (pcs s t) eqn:Ep; try discriminate E; try (exfalso; apply Tt; reflexivity); rewrite ?Hw in E; cbn [Nat.eqb] in E;
      repeat match type of E with context[match ?x with _ => _ end] => destruct x; try discriminate E end;
      inj E; exact Hw.
  - unfold tfail in E. destruct (pcs s t) eqn:Ep; try discriminate E;
      repeat match type of E with context[match ?x with _ => _ end] => destruct x; try discriminate E end;
      inj E; exact Hw.
  - unfold call_unlock. destruct (hw s t); exact Hw.
Qed.
Lemma recursive_write_blocks : exists s, reach init (any unrestricted) s /\ hw s 0 = true /\ resting (pcs s 0) = true /\
  forall s', steps (any unrestricted) (goto s 0 (W105 false)) s' -> resting (pcs s' 0) = false.
Proof.
  eexists. split; [eapply (arun_reach (wr 0) init); [constructor|vm_compute; reflexivity]|].
  split; [reflexivity|]. split; [reflexivity|]. intros s' S.
  match type of S with steps _ ?s0 _ => assert (R : reach init (any unrestricted) s0) end.
  { eapply (arun_reach (wr 0 ++ [AW 0 false]) init); [constructor|vm_compute; reflexivity]. }
  assert (P0 : forall s, wpid s = Some 0 /\ wmutex s = Some (0, 1) /\ pcs s 0 = W105 false \/ selfwait s -> reach init (any unrestricted) s ->
     steps (any unrestricted) s s' -> wpid s' = Some 0 /\ wmutex s' = Some (0, 1) /\ pcs s' 0 = W105 false \/ selfwait s').
  { clear. intros s H R S. revert H. induction S as [s|s1 s2 s3 S1 S IH]; intros H; auto.
    assert (R2 : reach init (any unrestricted) s2) by (eapply reach_step; eauto). apply IH; auto.
    destruct H as [(H1 & H2 & H3)|H]; [|right; apply (selfwait_step s1 s2 R H S1)].
    destruct S1 as (t & ST). pose proof (reach_inv _ s1 R) as V. destruct (v_tok _ V) as (k & T).
    pose proof (wpid_kind s1 k 0 T H1) as ->.
    destruct (Nat.eq_dec t 0) as [Et|Nt].
    - right. destruct ST as [t s s' E|t s s' _ E|t s tm Hr _ _|t s tm Hr _ _|t s Hr]; subst t; try (rewrite H3 in Hr; discriminate).
      + unfold tstep in E. rewrite H3, H2 in E. cbn in E. inj E. split; auto.
      + unfold tfail in E. rewrite H3 in E. discriminate.
    - left. rewrite (other_keeps s1 s2 t) by auto.
      assert (Tt : tokp (pcs s1 t) = true -> False).
      { intros Q. destruct (tok_self s1 _ t T Q) as [[= F]|F]; [auto|discriminate F]. }
      enough (wpid s2 = Some 0 /\ wmutex s2 = Some (0, 1)) by tauto.
      destruct ST as [t s s' E|t s s' _ E|t s tm Hr _ _|t s tm Hr _ _|t s Hr]; auto.
      + unfold tstep in E. destruct (pcs s t) eqn:Ep; try discriminate E; try (exfalso; apply Tt; reflexivity);
          rewrite ?H1, ?H2 in E; cbn in E; try (destruct t; [tauto|discriminate E]);
          repeat match type of E with context[match ?x with _ => _ end] => destruct x; try discriminate E end;
          try tauto; inj E; cbn; rewrite ?H2; cbn; auto; try (split; [exact H1|exact H2]); idtac.
      + unfold tfail in E. destruct (pcs s t) eqn:Ep; try discriminate E;
          repeat match type of E with context[match ?x with _ => _ end] => destruct x; try discriminate E end;
          inj E; auto.
      + unfold call_unlock. destruct (hw s t); (split; [exact H1|exact H2]). }
  destruct (fun H => P0 _ H R S) as [(_ & _ & E)|(_ & E)]; [left; repeat split|rewrite E; reflexivity|rewrite E; reflexivity].

Qed.

(* ---- tryReadLock() waits without a time-out for m_reader_access_lock ---------------------------------------- *)
Lemma try_read_blocks : exists s, reach init (any unrestricted) s /\ hw s 2 = true /\ pcs s 0 = R65 true /\
  forall s', steps (not_by unrestricted 2) s s' -> pcs s' 0 = R65 true.
Proof.
  eexists. split; [eapply (arun_reach (wr 2 ++ [AR 1 false; AS 1; AS 1; AR 0 true]) init); [constructor|vm_compute; reflexivity]|].
  split; [reflexivity|]. split; [reflexivity|]. intros s' S.
  match type of S with steps _ ?s0 _ => assert (R : reach init (any unrestricted) s0) end.
  { eapply (arun_reach (wr 2 ++ [AR 1 false; AS 1; AS 1; AR 0 true]) init); [constructor|vm_compute; reflexivity]. }
  assert (P : forall s, wpid s = Some 2 /\ ral s = Some 1 /\ pcs s 1 = R69 false /\ pcs s 0 = R65 true /\ resting (pcs s 2) = true ->
     reach init (any unrestricted) s -> steps (not_by unrestricted 2) s s' -> pcs s' 0 = R65 true).
  { clear. intros s H R S. revert H. induction S as [s|s1 s2 s3 S1 S IH]; intros H; [tauto|].
    assert (R2 : reach init (any unrestricted) s2).
    { destruct S1 as (t & _ & ST). eapply reach_step; eauto. exists t; auto. }
    apply IH; auto. clear IH. destruct H as (H1 & H2 & H3 & H4 & H5).
    destruct S1 as (t & Nt & ST). pose proof (reach_inv _ s1 R) as V. destruct (v_tok _ V) as (k & T).
    destruct (v_R _ V) as (RL & _).
    pose proof (wpid_kind s1 k 2 T H1) as ->. assert (Ev : ev s1 = false) by apply T.
    assert (N1 : t <> 1).
    { intros Et. destruct ST as [t s s' E|t s s' _ E|t s tm Hr _ _|t s tm Hr _ _|t s Hr]; subst t; try (rewrite H3 in Hr; discriminate).
      - unfold tstep in E. rewrite H3, Ev in E. discriminate.
      - unfold tfail in E. rewrite H3 in E. discriminate. }
    assert (N0 : t <> 0).
    { intros Et. destruct ST as [t s s' E|t s s' _ E|t s tm Hr _ _|t s tm Hr _ _|t s Hr]; subst t; try (rewrite H4 in Hr; discriminate).
      - unfold tstep in E. rewrite H4, H2 in E. discriminate.
      - unfold tfail in E. rewrite H4 in E. discriminate. }
    rewrite !(other_keeps s1 s2 t) by auto.
    assert (Tt : tokp (pcs s1 t) = true -> False).
    { intros Q. destruct (tok_self s1 _ t T Q) as [[= F]|F]; [auto|discriminate F]. }
    assert (Rt : ralp (pcs s1 t) = true -> False).
    { intros Q. apply N1. eapply ralp_unique; eauto; [exact (v_R _ V)|rewrite H3; reflexivity]. }
    enough (wpid s2 = Some 2 /\ ral s2 = Some 1) by tauto.
    destruct ST as [t s s' E|t s s' _ E|t s tm Hr _ _|t s tm Hr _ _|t s Hr]; auto.
    + unfold tstep in E. destruct (pcs s t) eqn:Ep; try discriminate E; try (exfalso; apply Tt; reflexivity);
        try (exfalso; apply Rt; reflexivity);
        rewrite ?H1, ?H2 in E; cbn in E;
        repeat match type of E with context[match ?x with _ => _ end] => destruct x; try discriminate E end;
        try tauto; try discriminate E; inj E; cbn; auto.
    + unfold tfail in E. destruct (pcs s t) eqn:Ep; try discriminate E;
        repeat match type of E with context[match ?x with _ => _ end] => destruct x; try discriminate E end;
        inj E; auto.
    + unfold call_unlock. destruct (hw s t); (split; [exact H1|exact H2]). }
  eapply P; eauto. repeat split.
Qed.

(* ---- unlock() always reports success ---- *)
Lemma unlock_step u s s' t : any u s s' -> unlocking (pcs s t) = true -> unlocking (pcs s' t) = true \/ pcs s' t = Ret true.
Proof.
  intros (v & ST) U. destruct (Nat.eq_dec v t) as [->|N].
  - assert (NR : resting (pcs s t) = false) by (destruct (pcs s t); try discriminate U; reflexivity).
    destruct ST as [t s s' E|t s s' _ E|t s tm Hr _ _|t s tm Hr _ _|t s Hr]; try congruence.
    + unfold tstep in E. destruct (pcs s t) eqn:Ep; try discriminate U;
        repeat match type of E with context[match ?x with _ => _ end] => destruct x; try discriminate E end;
        inj E; cbn; rewrite upd_same; auto.
    + unfold tfail in E. destruct (pcs s t) eqn:Ep; try discriminate U; try discriminate E. inj E. cbn. rewrite upd_same. auto.
  - left. assert (K : pcs s' t = pcs s t); [|congruence].
    destruct ST as [v s s' E|v s s' _ E|v s tm Hr _ _|v s tm Hr _ _|v s Hr].
    + unfold tstep in E. destruct (pcs s v) eqn:Ep; try discriminate E;
        repeat match type of E with context[match ?x with _ => _ end] => destruct x; try discriminate E end;
        inj E; cbn; apply upd_other; auto.
    + unfold tfail in E. destruct (pcs s v) eqn:Ep; try discriminate E;
        repeat match type of E with context[match ?x with _ => _ end] => destruct x; try discriminate E end;
        inj E; cbn; apply upd_other; auto.
    + cbn. apply upd_other; auto.
    + cbn. apply upd_other; auto.
    + unfold call_unlock. destruct (hw s v); cbn; apply upd_other; auto.
Qed.

(* ---- and after a failed tryWriteLock() a matching writeLock() and unlock() do not help ---- *)
Lemma arun_steps l : forall s s', arun s l = Some s' -> steps (any unrestricted) s s'.
Proof.
  induction l as [|a l IH]; intros s s' E; cbn in E; [injection E as <-; apply steps_refl|].
  destruct (arun1 s a) as [s1|] eqn:E1; [|discriminate]. apply (steps_more _ s s1 s'); [|exact (IH s1 s' E)].
  destruct a as [t|t|t tm|t tm|t]; exists t; cbn in E1.
  - apply step_thread; auto.
  - apply step_timeout; auto.
  - destruct (resting (pcs s t)) eqn:Hr; [|discriminate]. inj E1. apply step_readLock; auto.
  - destruct (resting (pcs s t)) eqn:Hr; [|discriminate]. inj E1. apply step_writeLock; auto.
  - destruct (resting (pcs s t)) eqn:Hr; [|discriminate]. inj E1. apply step_unlock; auto.
Qed.
Lemma failed_try_blocks_again : exists s1 s2 s, reach init (any unrestricted) s1 /\ pcs s1 0 = Ret false /\
  steps (any unrestricted) s1 s2 /\ pcs s2 0 = Ret true /\ hw s2 0 = true /\
  steps (any unrestricted) s2 s /\ pcs s 0 = Ret true /\ all_resting s /\ (forall t, holds_any s t = false) /\
  forall s' t, steps (not_by unrestricted 0) s s' -> t <> 0 -> hw s' t = false.
Proof.
  eexists. eexists. eexists.
  split; [eapply (arun_reach (rd 1 ++ [AW 0 true; AS 0; AF 0; AU 1] ++ repeat (AS 1) 5) init); [constructor|vm_compute; reflexivity]|].
  split; [reflexivity|].
  split; [eapply (arun_steps (wr 0)); vm_compute; reflexivity|]. split; [reflexivity|]. split; [reflexivity|].
  split; [eapply (arun_steps (AU 0 :: repeat (AS 0) 6)); vm_compute; reflexivity|]. split; [reflexivity|].
  split; [|split].
  - intros t. cbn. repeat (destruct t as [|t]; [reflexivity|]). reflexivity.
  - intros t. unfold holds_any. cbn. repeat (destruct t as [|t]; [reflexivity|]). reflexivity.
  - intros s' t S Nt.
    match type of S with steps _ ?s0 _ => assert (L0 : leaked s0) end.
    { split; [exists 1; reflexivity|]. intros v Nv. destruct v as [|v]; [tauto|]. split; do 3 (try (destruct v as [|v]; [reflexivity|])); reflexivity. }
    assert (L : leaked s').
    { clear Nt. induction S; auto. apply IHS. eapply leaked_step; eauto. }
    destruct L as (_ & L). apply (L t Nt).
Qed.
