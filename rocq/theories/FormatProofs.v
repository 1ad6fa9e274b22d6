(* Proofs for C76 *)
From Verif Require Import Conc FormatModel FormatSpec.

Section P.
  Context {E : Type}.
  Notation st := (fst_ E).
  Definition holding (p : fpc E) : bool := match p with F134 | F135 | F136 | F138 | G187 _ | G292 => true | _ => false end.

  (* ---- in every execution ---- *)
  Record lockinv (s : st) : Prop := mkL {
    l_mx : forall t, holding (pc s t) = true <-> mx s = Some t;
    l_print : forall t d, pc s t = G187 d -> exists r, log s = d ++ r }.
  Lemma lock_goto (s : st) t p m l n a ls : lockinv s ->
    (forall u, u <> t -> holding (pc s u) = true -> m = Some u) -> (forall u, m = Some u -> u <> t -> holding (pc s u) = true) ->
    (holding p = true <-> m = Some t) ->
    (forall u d, u <> t -> pc s u = G187 d -> exists r, l = d ++ r) -> (forall d, p = G187 d -> exists r, l = d ++ r) ->
    lockinv (mkF m l n (upd (pc s) t p) a ls).
  Proof.
    intros L A A' B C0 D0. split; cbn [mx log pc]; intros u.
    - unfold upd. destruct (Nat.eqb_spec u t) as [->|N]; [exact B|]. split; [exact (A u N)|intros H; exact (A' u H N)].
    - intros d. unfold upd. destruct (Nat.eqb_spec u t) as [->|N]; [exact (D0 d)|exact (C0 u d N)].
  Qed.
  Lemma lock_excl (s : st) t u : lockinv s -> holding (pc s t) = true -> holding (pc s u) = true -> t = u.
  Proof. intros L A B. apply (l_mx _ L) in A, B. congruence. Qed.

  Ltac fin M P Mt := try solve [assumption | intros; apply M; assumption | discriminate | intros; eapply P; eassumption | cbn; rewrite <- Mt; tauto
    | cbn; rewrite <- Mt; split; discriminate | cbn; split; discriminate | intros; discriminate].
  Lemma lock_step single ic ip (s s' : st) : lockinv s -> fstep single ic ip s s' -> lockinv s'.
  Proof.
    intros L H. pose proof (l_mx _ L) as M. pose proof (l_print _ L) as P.
    destruct H as [t s s' H|t f s I0 _|t s I0|t s I0].
    - unfold fact in H. pose proof (M t) as Mt.
      assert (X : holding (pc s t) = true -> forall u d, u <> t -> pc s u = G187 d -> forall l : list E, exists r, l = d ++ r).
      { intros Ht u d N Q. destruct N. apply (lock_excl s u t L); [rewrite Q; reflexivity|exact Ht]. }
      assert (Y : holding (pc s t) = true -> forall u, u <> t -> holding (pc s u) = true -> False).
      { intros Ht u N Q. apply N. apply (lock_excl s u t L); auto. }
      destruct (pc s t) as [|[|e r]| | | | | | |d|] eqn:Q; cbn [holding] in Mt, X, Y; try discriminate H.
      + injection H as <-. apply (lock_goto s); fin M P Mt.
      + injection H as <-. apply (lock_goto s); fin M P Mt.
      + destruct (mx s) eqn:F; [discriminate H|]. injection H as <-. apply (lock_goto s); fin M P Mt.
        * intros u N Hu. apply M in Hu. discriminate.
        * intros u [= ->] N. destruct (N eq_refl).
        * cbn. tauto.
      + injection H as <-. apply (lock_goto s); fin M P Mt. intros u d N Qu. exact (X eq_refl u d N Qu []).
      + injection H as <-. apply (lock_goto s); fin M P Mt. intros u d N Qu. exact (X eq_refl u d N Qu _).
      + injection H as <-. apply (lock_goto s); fin M P Mt.
      + injection H as <-. apply (lock_goto s); fin M P Mt. intros u N Hu. destruct (Y eq_refl u N Hu).
      + destruct (mx s) eqn:F; [discriminate H|]. injection H as <-. apply (lock_goto s); fin M P Mt.
        * intros u N Hu. apply M in Hu. discriminate.
        * intros u [= ->] N. destruct (N eq_refl).
        * cbn. tauto.
        * intros d [= <-]. eexists. reflexivity.
      + destruct (P t d Q) as (r & R). destruct (nth_error (log s) (length d)) as [e|] eqn:Z; injection H as <-.
        * apply (lock_goto s); fin M P Mt.
          intros d' [= <-]. rewrite R, nth_error_app2, Nat.sub_diag in Z by lia. destruct r as [|e' r]; [discriminate Z|]. injection Z as ->.
          exists r. rewrite R, <- app_assoc. reflexivity.
        * apply (lock_goto s); fin M P Mt.
      + injection H as <-. apply (lock_goto s); fin M P Mt. intros u N Hu. destruct (Y eq_refl u N Hu).
    - pose proof (M t) as Mt. rewrite I0 in Mt. apply (lock_goto s); fin M P Mt.
    - pose proof (M t) as Mt. rewrite I0 in Mt. apply (lock_goto s); fin M P Mt.
    - pose proof (M t) as Mt. assert (holding (pc s t) = false) as K by (destruct I0 as [[_ ->]|[_ ->]]; reflexivity). rewrite K in Mt. apply (lock_goto s); fin M P Mt.
  Qed.
  Lemma lock_reach single ic ip dflt (s : st) : reach (finit dflt) (fstep single ic ip) s -> lockinv s.
  Proof.
    apply reach_invariant; [|intros a b _; apply lock_step]. split; cbn; [intros t; split; discriminate|intros t d H; discriminate H].
  Qed.

  (* ---- one change at a time, no interruption ---- *)
  Definition cur (s : st) (f : list E) : Prop := nth_error (asked s) 0 = Some f.
  Definition change_ok (s : st) (p : fpc E) : Prop :=
    match p with
    | F130 r => exists f, cur s f /\ new s ++ r = f /\ In (log s) (asked s)
    | F132 | F134 => cur s (new s) /\ In (log s) (asked s)
    | F135 => cur s (new s) /\ log s = []
    | F136 => cur s (new s) /\ log s = new s
    | F138 => cur s (log s) /\ new s = []
    | _ => True
    end.
  Record finv (s : st) : Prop := mkFI {
    f_one : forall t u, changing (pc s t) = true -> changing (pc s u) = true -> t = u;
    f_ok : forall t, change_ok s (pc s t);
    f_rest : (forall t, changing (pc s t) = false) -> cur s (log s) /\ new s = [];
    f_log : (exists t, pc s t = F135) \/ In (log s) (asked s);
    f_lines : forall l, In l (lines s) -> In l (asked s) }.
  Lemma cur_in (s : st) f : cur s f -> In f (asked s).
  Proof. apply nth_error_In. Qed.

  (* the changing thread acts *)
  Lemma by_changer (s s' : st) t p : finv s -> changing (pc s t) = true -> pc s' = upd (pc s) t p -> asked s' = asked s -> lines s' = lines s ->
    change_ok s' p -> (changing p = false -> cur s' (log s') /\ new s' = []) -> p = F135 \/ In (log s') (asked s) -> finv s'.
  Proof.
    intros I0 C0 Ep Ea El K R G.
    assert (O : forall u, u <> t -> changing (pc s u) = false).
    { intros u N. destruct (changing (pc s u)) eqn:Q; [|reflexivity]. destruct N. exact (f_one _ I0 u t Q C0). }
    split.
    - intros a b. rewrite Ep. unfold upd. destruct (Nat.eqb_spec a t) as [->|Na], (Nat.eqb_spec b t) as [->|Nb]; intros A B; auto.
      + rewrite (O b Nb) in B. discriminate B.
      + rewrite (O a Na) in A. discriminate A.
      + rewrite (O a Na) in A. discriminate A.
    - intros u. rewrite Ep. unfold upd. destruct (Nat.eqb_spec u t) as [->|N]; [exact K|]. specialize (O u N). destruct (pc s u); try discriminate O; exact Logic.I.
    - intros A. apply R. specialize (A t). rewrite Ep, upd_same in A. exact A.
    - rewrite Ea. destruct G as [->|G]; [left; exists t; rewrite Ep; apply upd_same|right; exact G].
    - intros l. rewrite El, Ea. apply (f_lines _ I0).
  Qed.
  (* a thread that does not change acts *)
  Lemma by_printer (s s' : st) t p : finv s -> changing (pc s t) = false -> changing p = false -> pc s' = upd (pc s) t p -> asked s' = asked s ->
    log s' = log s -> new s' = new s -> (forall l, In l (lines s') -> In l (lines s) \/ In l (asked s)) -> finv s'.
  Proof.
    intros I0 C0 Cp Ep Ea El En Hl.
    assert (K : forall q, change_ok s q -> change_ok s' q). { intros q. unfold change_ok, cur. rewrite Ea, El, En. auto. }
    split.
    - intros a b. rewrite Ep. unfold upd. destruct (Nat.eqb_spec a t) as [->|Na]; [congruence|]. destruct (Nat.eqb_spec b t) as [->|Nb]; [congruence|]. apply (f_one _ I0).
    - intros u. rewrite Ep. unfold upd. destruct (Nat.eqb_spec u t) as [->|N]; [destruct p; try discriminate Cp; exact Logic.I|]. apply K, (f_ok _ I0).
    - intros A. unfold cur. rewrite Ea, El, En. apply (f_rest _ I0). intros u. specialize (A u). rewrite Ep in A. unfold upd in A. destruct (Nat.eqb_spec u t) as [Eu|N]; [rewrite Eu; exact C0|exact A].
    - rewrite Ea, El. destruct (f_log _ I0) as [[u Q]|Q]; [|right; exact Q]. left. exists u. rewrite Ep, upd_other; [exact Q|]. intros ->. rewrite Q in C0. discriminate C0.
    - intros l H. rewrite Ea. destruct (Hl l H) as [Q|Q]; [apply (f_lines _ I0 _ Q)|exact Q].
  Qed.
  (* while a thread prints, the list is a whole format *)
  Lemma whole (s : st) t d : lockinv s -> finv s -> pc s t = G187 d -> In (log s) (asked s).
  Proof.
    intros L I0 Q.
    destruct (f_log _ I0) as [(u & Pu)|H]; [|exact H]. assert (u = t) by (apply (lock_excl s u t L); [rewrite Pu|rewrite Q]; reflexivity). subst u. congruence.
  Qed.

  Lemma finv_step ip (s s' : st) : lockinv s -> finv s -> fstep true false ip s s' -> finv s'.
  Proof.
    intros L I0 H. destruct H as [t s s' H|t f s Id Al|t s Id|t s X].
    - pose proof (f_ok _ I0 t) as K. unfold fact in H.
      destruct (pc s t) as [|[|e r]| | | | | | |d|] eqn:Q; cbn [change_ok] in K; try discriminate H.
      + injection H as <-. destruct K as (f & Hc & <- & G). rewrite app_nil_r in Hc.
        apply (by_changer s _ t F132 I0); [rewrite Q; reflexivity|reflexivity|reflexivity|reflexivity|split; assumption|discriminate|right; exact G].
      + injection H as <-. destruct K as (f & Hc & <- & G).
        apply (by_changer s _ t (F130 r) I0); [rewrite Q; reflexivity|reflexivity|reflexivity|reflexivity| |discriminate|right; exact G].
        exists (new s ++ e :: r). split; [exact Hc|]. split; [cbn; rewrite <- app_assoc; reflexivity|exact G].
      + destruct (mx s) eqn:F; [discriminate H|]. injection H as <-.
        apply (by_changer s _ t F134 I0); [rewrite Q; reflexivity|reflexivity|reflexivity|reflexivity|exact K|discriminate|right; apply K].
      + injection H as <-. apply (by_changer s _ t F135 I0); [rewrite Q; reflexivity|reflexivity|reflexivity|reflexivity|split; [apply K|reflexivity]|discriminate|left; reflexivity].
      + injection H as <-. apply (by_changer s _ t F136 I0); [rewrite Q; reflexivity|reflexivity|reflexivity|reflexivity|split; [apply K|reflexivity]|discriminate|].
        right. cbn. apply cur_in, K.
      + injection H as <-. destruct K as (K1 & K2). assert (cur s (log s)) as K3 by (rewrite K2; exact K1).
        apply (by_changer s _ t F138 I0); [rewrite Q; reflexivity|reflexivity|reflexivity|reflexivity|split; [exact K3|reflexivity]|discriminate|].
        right. apply cur_in, K3.
      + injection H as <-. apply (by_changer s _ t Idle I0); [rewrite Q; reflexivity|reflexivity|reflexivity|reflexivity|exact Logic.I|intros _; exact K|].
        right. apply cur_in, K.
      + destruct (mx s) eqn:F; [discriminate H|]. injection H as <-. apply (by_printer s _ t (G187 []) I0); [rewrite Q; reflexivity|reflexivity|reflexivity|reflexivity|reflexivity|reflexivity|auto].
      + destruct (nth_error (log s) (length d)) as [e|] eqn:Z; injection H as <-.
        * apply (by_printer s _ t (G187 (d ++ [e])) I0); [rewrite Q; reflexivity|reflexivity|reflexivity|reflexivity|reflexivity|reflexivity|auto].
        * apply (by_printer s _ t G292 I0); [rewrite Q; reflexivity|reflexivity|reflexivity|reflexivity|reflexivity|reflexivity|]. intros l [<-|Hl]; [right|left; exact Hl].
          destruct (l_print _ L t d Q) as (r & R). assert (r = []) as ->.
          { destruct r as [|e r]; [reflexivity|]. rewrite R, nth_error_app2, Nat.sub_diag in Z by lia. discriminate Z. }
          rewrite app_nil_r in R. rewrite <- R. exact (whole s t d L I0 Q).
      + injection H as <-. apply (by_printer s _ t Idle I0); [rewrite Q; reflexivity|reflexivity|reflexivity|reflexivity|reflexivity|reflexivity|auto].
    - specialize (Al eq_refl). destruct (f_rest _ I0 Al) as (K1 & K2). split; cbn.
      + intros a b. unfold upd. destruct (Nat.eqb_spec a t) as [->|Na], (Nat.eqb_spec b t) as [->|Nb]; intros A B; auto.
        * rewrite Al in B. discriminate B.
        * rewrite Al in A. discriminate A.
        * rewrite Al in A. discriminate A.
      + intros u. unfold upd. destruct (Nat.eqb_spec u t) as [->|N].
        * exists f. split; [reflexivity|]. split; [cbn; rewrite K2; reflexivity|]. right. apply cur_in, K1.
        * specialize (Al u). destruct (pc s u); try discriminate Al; exact Logic.I.
      + intros A. specialize (A t). rewrite upd_same in A. discriminate A.
      + right. right. apply cur_in, K1.
      + intros l H. right. apply (f_lines _ I0 _ H).
    - apply (by_printer s _ t G184 I0); [rewrite Id; reflexivity|reflexivity|reflexivity|reflexivity|reflexivity|reflexivity|auto].
    - destruct X as [[X _]|[_ Id]]; [discriminate X|]. apply (by_printer s _ t Idle I0); [rewrite Id; reflexivity|reflexivity|reflexivity|reflexivity|reflexivity|reflexivity|auto].
  Qed.
  Lemma finv_init dflt : finv (finit dflt).
  Proof.
    split; cbn.
    - intros t u H. discriminate H.
    - intros t. exact Logic.I.
    - intros _. split; reflexivity.
    - right. left. reflexivity.
    - intros l [].
  Qed.
  Lemma finv_reach ip dflt (s : st) : reach (finit dflt) (fstep true false ip) s -> lockinv s /\ finv s.
  Proof.
    apply (reach_invariant (finit dflt) (fstep true false ip) (fun s => lockinv s /\ finv s)); [split; [apply (lock_reach true false ip dflt); constructor|apply finv_init]|].
    intros a b _ (L & I0) H. split; [exact (lock_step _ _ _ _ _ L H)|exact (finv_step _ _ _ L I0 H)].
  Qed.
  (* somebody can act *)
  Lemma progress single ic ip (dflt : list E) (s : st) t : reach (finit dflt) (fstep single ic ip) s -> pc s t <> Idle -> exists u s', fact u s = Some s'.
  Proof.
    intros R N. pose proof (lock_reach _ _ _ _ _ R) as L. destruct (mx s) as [u|] eqn:M.
    - exists u. assert (H : holding (pc s u) = true) by (apply (l_mx _ L); exact M). unfold fact.
      destruct (pc s u) as [|r| | | | | | |d|]; try discriminate H; eauto. destruct (nth_error (log s) (length d)); eauto.
    - exists t. unfold fact. destruct (pc s t) as [|[|e r]| | | | | | |d|]; try congruence; eauto; try (rewrite M; eauto). destruct (nth_error (log s) (length d)); eauto.
  Qed.
  Lemma inside_holding p : inside p <-> holding p = true.
  Proof. destruct p; cbn; split; auto; discriminate. Qed.
  Lemma acts_reach single ic ip (dflt : list E) l : forall s s', acts l s = Some s' -> reach (finit dflt) (fstep single ic ip) s -> reach (finit dflt) (fstep single ic ip) s'.
  Proof.
    induction l as [|t l IH]; intros s s' H R; cbn in H; [injection H as <-; exact R|]. destruct (fact t s) as [s1|] eqn:A; [|discriminate H].
    apply (IH s1 s' H). eapply reach_step; [exact R|]. eapply f_act. exact A.
  Qed.

  (* ---- the calls under way come to an end ---- *)
  Fixpoint sum (f : tid -> nat) (n : nat) : nat := match n with 0 => 0 | S k => f k + sum f k end.
  Lemma sum_eq (f g : tid -> nat) n : (forall u, u < n -> f u = g u) -> sum f n = sum g n.
  Proof. induction n as [|n IH]; cbn; intros H; [reflexivity|]. rewrite (H n) by lia. rewrite IH; [reflexivity|]. intros u L. apply H. lia. Qed.
  Lemma sum_lt (f g : tid -> nat) t n : t < n -> (forall u, u <> t -> f u = g u) -> f t < g t -> sum f n < sum g n.
  Proof.
    induction n as [|n IH]; cbn; intros L H A; [lia|]. destruct (Nat.eq_dec t n) as [->|N].
    - rewrite (sum_eq f g n); [lia|]. intros u Lu. apply H. lia.
    - rewrite (H n) by lia. assert (sum f n < sum g n) by (apply IH; [lia|assumption..]). lia.
  Qed.
  Definition w1 (p : fpc E) : nat :=
    match p with F130 r => length r + 6 | F132 => 5 | F134 => 4 | F135 => 3 | F136 => 2 | F138 => 1 | _ => 0 end.
  Definition w2 (l : nat) (p : fpc E) : nat := match p with G184 => l + 3 | G187 d => l - length d + 2 | G292 => 1 | _ => 0 end.
  Definition M1 n (s : fst_ E) := sum (fun t => w1 (pc s t)) n.
  Definition M2 n (s : fst_ E) := sum (fun t => w2 (length (log s)) (pc s t)) n.

  Lemma falls n t (s s' : fst_ E) : (forall u, n <= u -> pc s u = Idle) -> fact t s = Some s' ->
    (forall u, n <= u -> pc s' u = Idle) /\ (M1 n s' < M1 n s \/ M1 n s' = M1 n s /\ M2 n s' < M2 n s).
  Proof.
    intros Z H. assert (Lt : t < n). { destruct (Nat.lt_ge_cases t n) as [|G]; [assumption|]. unfold fact in H. rewrite (Z t G) in H. discriminate H. }
    assert (Pc : exists p, pc s' = upd (pc s) t p /\ (w1 p < w1 (pc s t) \/ w1 p = w1 (pc s t) /\ log s' = log s /\ w2 (length (log s)) p < w2 (length (log s)) (pc s t))).
    { unfold fact in H. destruct (pc s t) as [|[|e r]| | | | | | |d|]; try discriminate H.
      1,2,4,5,6,7,10: injection H as <-; eexists; split; [reflexivity|]; cbn; try (left; cbn; lia); right; repeat split; cbn; lia.
      - destruct (mx s); [discriminate H|]. injection H as <-. eexists; split; [reflexivity|]. left; cbn; lia.
      - destruct (mx s); [discriminate H|]. injection H as <-. eexists; split; [reflexivity|]. right; repeat split; cbn; lia.
      - destruct (nth_error (log s) (length d)) as [e|] eqn:Q; injection H as <-; (eexists; split; [reflexivity|]); right; repeat split; cbn.
        + assert (length d < length (log s)) by (apply nth_error_Some; rewrite Q; discriminate). rewrite app_length; cbn; lia.
        + lia. }
    destruct Pc as (p & Ep & W). split.
    - intros u G. rewrite Ep. unfold upd. destruct (u =? t) eqn:Q; [apply Nat.eqb_eq in Q; lia|]. apply Z, G.
    - assert (O : forall u, u <> t -> pc s' u = pc s u). { intros u N. rewrite Ep. unfold upd. apply Nat.eqb_neq in N. rewrite N. reflexivity. }
      assert (T : pc s' t = p) by (rewrite Ep; unfold upd; rewrite Nat.eqb_refl; reflexivity).
      destruct W as [W|(W & El & V)]; [left|right; split].
      + apply sum_lt with t; [exact Lt| |rewrite T; exact W]. intros u N. rewrite O by exact N. reflexivity.
      + apply sum_eq. intros u _. destruct (Nat.eq_dec u t) as [->|N]; [rewrite T; exact W|rewrite O by exact N; reflexivity].
      + apply sum_lt with t; [exact Lt| |rewrite T, El; exact V]. intros u N. rewrite O, El by exact N. reflexivity.
  Qed.

  Lemma finishes n : forall a b (r : nat -> fst_ E), M1 n (r 0) <= a -> M2 n (r 0) <= b -> (forall u, n <= u -> pc (r 0) u = Idle) ->
    (forall i, (exists t, fact t (r i) = Some (r (S i))) \/ forall t, pc (r i) t = Idle) -> exists i, forall t, pc (r i) t = Idle.
  Proof.
    induction a as [a IHa] using lt_wf_ind. induction b as [b IHb] using lt_wf_ind. intros r A B Z H.
    destruct (H 0) as [(t & Ht)|I0]; [|exists 0; exact I0]. destruct (falls n t _ _ Z Ht) as (Z' & [D|(Eq & D)]).
    - destruct (IHa (M1 n (r 1)) ltac:(lia) (M2 n (r 1)) (fun i => r (S i))) as (i & I0); [reflexivity|reflexivity|exact Z'|intros i; exact (H (S i))|].
      exists (S i). exact I0.
    - destruct (IHb (M2 n (r 1)) ltac:(lia) (fun i => r (S i))) as (i & I0); [lia|reflexivity|exact Z'|intros i; exact (H (S i))|].
      exists (S i). exact I0.
  Qed.
  Lemma few_calls single ic ip (dflt : list E) s : reach (finit dflt) (fstep single ic ip) s -> exists n, forall u, n <= u -> pc s u = Idle.
  Proof.
    induction 1 as [|s s' R (n & Z) H]; [exists 0; reflexivity|].
    destruct H as [t s s' H|t f s I0 _|t s I0|t s I0].
    - exists n. exact (proj1 (falls n t s s' Z H)).
    - exists (n + S t). intros u L. cbn. unfold upd. destruct (Nat.eqb_spec u t); [lia|]. apply Z; lia.
    - exists (n + S t). intros u L. cbn. unfold upd. destruct (Nat.eqb_spec u t); [lia|]. apply Z; lia.
    - exists n. intros u L. cbn. unfold upd. destruct (Nat.eqb_spec u t); [reflexivity|]. apply Z; lia.
  Qed.
End P.

(* two changes at once *)
Lemma mixed : exists s, reach (finit [0]) (fstep false false false) s /\ lines s = [[1; 3; 2; 4]] /\ asked s = [[3; 4]; [1; 2]; [0]].
Proof.
  set (s0 := call_change 2 [3; 4] (call_change 1 [1; 2] (finit [0]))).
  assert (R0 : reach (finit [0]) (fstep false false false) s0).
  { eapply reach_step; [eapply reach_step; [apply reach_init|]|].
    - refine (f_change false false false 1 [1; 2] _ _ _); [reflexivity|intros H; discriminate H].
    - refine (f_change false false false 2 [3; 4] _ _ _); [reflexivity|intros H; discriminate H]. }
  destruct (acts [1; 2; 1; 2; 1; 2; 1; 1; 1; 1; 1] s0) as [s1|] eqn:A; [|vm_compute in A; discriminate A].
  pose proof (acts_reach _ _ _ _ _ _ _ A R0) as R1. set (s2 := call_print 3 s1).
  assert (R2 : reach (finit [0]) (fstep false false false) s2).
  { eapply reach_step; [exact R1|]. apply f_print. revert A. unfold s0. vm_compute. intros [= <-]. reflexivity. }
  destruct (acts [3; 3; 3; 3; 3; 3; 3] s2) as [s3|] eqn:B.
  - exists s3. split; [exact (acts_reach _ _ _ _ _ _ _ B R2)|]. revert B. unfold s2. revert A. unfold s0. vm_compute. intros [= <-] [= <-]. split; reflexivity.
  - exfalso. revert B. unfold s2. revert A. unfold s0. vm_compute. intros [= <-]. discriminate.
Qed.
(* a change interrupted by a signal, and another one *)
Lemma left_over : exists s, reach (finit [0]) (fstep true true false) s /\ (forall t, changing (pc s t) = false) /\ log s = [1; 2] /\ asked s = [[2]; [1]; [0]].
Proof.
  destruct (acts [1; 1] (call_change 1 [1] (finit [0]))) as [s1|] eqn:A; [|vm_compute in A; discriminate A].
  assert (R1 : reach (finit [0]) (fstep true true false) s1).
  { apply (acts_reach _ _ _ _ _ _ _ A). eapply reach_step; [apply reach_init|]. refine (f_change true true false 1 [1] _ _ _); reflexivity. }
  assert (R2 : reach (finit [0]) (fstep true true false) (goto s1 1 Idle)).
  { eapply reach_step; [exact R1|]. apply f_intr. left. split; [reflexivity|]. revert A. vm_compute. intros [= <-]. reflexivity. }
  assert (I2 : forall u, pc (goto s1 1 Idle) u = Idle).
  { intros u. revert A. cbn. intros [= <-]. cbn. unfold upd. destruct (u =? 1); reflexivity. }
  destruct (acts [1; 1; 1; 1; 1; 1; 1] (call_change 1 [2] (goto s1 1 Idle))) as [s3|] eqn:B.
  - exists s3. assert (R3 : reach (finit [0]) (fstep true true false) (call_change 1 [2] (goto s1 1 Idle))).
    { eapply reach_step; [exact R2|]. refine (f_change true true false 1 [2] _ _ _); [apply I2|]. intros _ u. rewrite I2. reflexivity. }
    split; [exact (acts_reach _ _ _ _ _ _ _ B R3)|]. revert B. revert A. cbn. intros [= <-]. cbn. intros [= <-]. cbn.
    split; [|split; reflexivity]. intros t. unfold upd. destruct (t =? 1); reflexivity.
  - exfalso. revert B. revert A. vm_compute. intros [= <-]. discriminate.
Qed.
