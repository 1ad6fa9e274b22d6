(* Proofs for C50 *)
From Verif Require Import Conc BaseLemmas LogOutputModel LogOutputSpec.

Definition running_w (w : wpc) : bool :=
  match w with W134 | W567 | W569 | W606 | W574 | W577 | W589 | W597 _ | W601 _ => true | _ => false end.
Definition draining_w (w : wpc) : bool := match w with W614 | W624 | W632 | W138 | W139 => true | _ => false end.
Definition gone_w (w : wpc) : bool := match w with WOff | WEnd => true | _ => false end.
Definition is_end (w : wpc) : bool := match w with WEnd => true | _ => false end.

Definition stopped_ok (w : wpc) (e f j s : bool) : bool := negb s && f && j && gone_w w.
Definition running_ok (w : wpc) (e f j s : bool) : bool := negb s && negb f && negb j && e && running_w w.
Definition flags_ok (c : cpc) (w : wpc) (e f j s : bool) : bool :=
  match c with
  | S97 | D520 => stopped_ok w e f j s || running_ok w e f j s
  | CIdle | CNothing | CStarted false | CStopped | S104 => stopped_ok w e f j s
  | CStarted true | S99 | D94 | D522 => running_ok w e f j s
  | S105 => s && f && j && gone_w w
  | S107 | S112 => s && negb f && j && gone_w w
  | S109 => false
  | S114 => s && negb f && negb j && gone_w w
  | S144 => running_ok w e f j s || (s && negb f && negb j && match w with W132 => true | W133 => e | _ => false end)
  | D523 | J86 | J88 => negb s && negb e && negb j && ((negb f && (running_w w || draining_w w)) || (f && is_end w))
  | J91 => negb s && f && negb j && gone_w w
  end.
Definition flags (s : st) : Prop := flags_ok (ctl s) (wk s) (exec s) (finished s) (joined s) (starting s) = true.

Ltac inv_step H :=
  inversion H as [? t ? Hs|? ? Hs|? ? Hs|? t m Hs|? Hs|? Hs|? Hs|? t m Hi Hs|? Hi Hs|? Hi Hs|? Hi Hs]; subst; clear H.
Ltac some H := injection H as <-.
Ltac wcases s Hs W X :=
  unfold wstep in Hs; destruct (wk s) eqn:W; try discriminate Hs;
  try (lazymatch type of Hs with context [match mx s with _ => _ end] => destruct (mx s) eqn:X; try discriminate Hs end);
  try (lazymatch type of Hs with context [match fill s with _ => _ end] => destruct (fill s) eqn:X; try discriminate Hs end); some Hs.
Ltac pcases s t Hs P X :=
  unfold pstep in Hs; destruct (pu s t) eqn:P; try discriminate Hs;
  try (lazymatch type of Hs with context [match mx s with _ => _ end] => destruct (mx s) eqn:X; try discriminate Hs end); some Hs.
Ltac ccases s Hs C ES W :=
  unfold cstep in Hs; destruct (ctl s) eqn:C; try discriminate Hs;
  try (lazymatch type of Hs with (if starting s then _ else _) = _ => destruct (starting s) eqn:ES; try discriminate Hs end);
  try (lazymatch type of Hs with match wk s with _ => _ end = _ => destruct (wk s) eqn:W; try discriminate Hs end); some Hs.

Lemma imp_true a b : implb a b = true -> a = true -> b = true.
Proof. destruct a, b; auto. Qed.
Definition all_b (P : bool -> bool) : bool := P true && P false.
Lemma all_b_ok P : all_b P = true -> forall b, P b = true.
Proof. unfold all_b. intros H b. apply andb_true_iff in H. destruct b; tauto. Qed.
Lemma all_flags (P : bool -> bool -> bool -> bool -> bool) :
  all_b (fun e => all_b (fun f => all_b (fun j => all_b (fun s => P e f j s)))) = true -> forall e f j s, P e f j s = true.
Proof. intros H e f j s. apply (all_b_ok _ (all_b_ok _ (all_b_ok _ (all_b_ok _ H e) f) j) s). Qed.
Ltac by_flags s F :=
  apply imp_true with (2 := F); clear F; generalize (exec s) (finished s) (joined s) (starting s);
  refine (all_flags (fun e f j st => _) _); reflexivity.
Lemma flags_inv intr s : reach init (step intr) s -> flags s.
Proof.
  apply reach_invariant; [reflexivity|]. clear s. intros s s' _ F H. unfold flags in *.
  inv_step H.
  - unfold pstep in Hs. destruct (pu s t); try discriminate; [destruct (mx s); try discriminate| | |]; some Hs; exact F.
  - unfold wstep in Hs. destruct (wk s) eqn:W; try discriminate; try (destruct (mx s); try discriminate); try (destruct (fill s); try discriminate); some Hs;
      try (destruct (queue s)); cbn [set_mx set_fill set_queue set_exec set_finished set_starting set_wk set_out ctl wk exec finished joined starting]; try rewrite W in *;
      destruct (ctl s) as [| | | | | | | | | |[|]| | | | | | | | |]; try destruct o; by_flags s F.
  - unfold cstep in Hs. destruct (ctl s) eqn:C; try discriminate;
      try (destruct (starting s) eqn:ES; try discriminate Hs; [idtac] || idtac);
      try (destruct (wk s) eqn:W; try discriminate Hs; [idtac]); some Hs;
      cbn [set_mx set_fill set_joined set_exec set_finished set_starting set_wk set_ctl set_leaked ctl wk exec finished joined starting];
      try rewrite ES in *; try rewrite W in *; try (by_flags s F); destruct (wk s) eqn:W; by_flags s F.
  - exact F.
  - cbn. destruct (ctl s) as [| | | | | | | | | |[|]| | | | | | | | |], (wk s); try discriminate Hs; by_flags s F.
  - cbn. destruct (ctl s) as [| | | | | | | | | |[|]| | | | | | | | |], (wk s); try discriminate Hs; by_flags s F.
  - cbn. rewrite Hs in F. destruct (wk s); by_flags s F.
  - exact F.
  - cbn. rewrite Hs in F. destruct (ctl s) as [| | | | | | | | | |[|]| | | | | | | | |]; by_flags s F.
  - cbn. rewrite Hs in F. destruct (ctl s) as [| | | | | | | | | |[|]| | | | | | | | |]; by_flags s F.
  - cbn. rewrite Hs in F. destruct (ctl s) as [| | | | | | | | | |[|]| | | | | | | | |]; by_flags s F.
Qed.

(* the order of the messages *)
Definition w_holds (w : wpc) : bool := match w with W589 | W597 _ | W624 | W632 => true | _ => false end.
Definition p_holds (p : ppc) : bool := match p with P165 _ | P167 => true | _ => false end.
Definition orderly (s : st) : Prop := out s ++ in_hand (wk s) ++ queue s = pushed s.
Lemma ctl_hand intr s s' : reach init (step intr) s -> cstep s = Some s' ->
  in_hand (wk s') = in_hand (wk s) /\ w_holds (wk s') = w_holds (wk s).
Proof.
  intros R Hs. pose proof (flags_inv intr s R) as F. unfold flags in F. ccases s Hs C ES W; cbn; try (split; reflexivity); rewrite ?W; try (split; reflexivity).
  destruct (wk s) eqn:W; try (split; reflexivity); cbn in F; rewrite ?andb_false_r in F; discriminate F.
Qed.
Lemma ctl_same s s' : cstep s = Some s' -> out s' = out s /\ queue s' = queue s /\ pushed s' = pushed s /\ mx s' = mx s /\ pu s' = pu s /\ waiting s' = waiting s /\ mark s' = mark s.
Proof. intros Hs. ccases s Hs C ES W; cbn; auto 10. Qed.

Lemma orderly_inv intr s : reach init (step intr) s -> orderly s.
Proof.
  intros R. apply (reach_invariant init (step intr) orderly); [reflexivity| |exact R]. clear R s. intros s s' R O H. unfold orderly in *.
  inv_step H.
  - pcases s t Hs P X; cbn; auto. rewrite <- O. rewrite <- !app_assoc. reflexivity.
  - wcases s Hs W X; cbn in *; rewrite ?W; auto.
    + destruct (exec s); exact O.
    + destruct (queue s) eqn:Q; exact O.
    + destruct (queue s) eqn:Q; cbn; rewrite ?Q; exact O.
    + destruct o; exact O.
    + rewrite <- app_assoc. exact O.
    + destruct (queue s) eqn:Q; cbn; rewrite ?Q, ?W; cbn; [exact O|]. rewrite <- app_assoc. exact O.
  - destruct (ctl_hand intr s s' R Hs) as [-> _]. destruct (ctl_same _ _ Hs) as (-> & -> & -> & _). exact O.
  - exact O.
  - exact O.
  - exact O.
  - exact O.
  - exact O.
  - cbn. rewrite Hs in O. exact O.
  - cbn. rewrite Hs in O. exact O.
  - cbn. rewrite Hs in O. exact O.
Qed.

(* the mutex *)
Definition mutex_ok (s : st) : Prop :=
  (w_holds (wk s) = true <-> mx s = ByWorker) /\ (forall t, p_holds (pu s t) = true <-> mx s = ByPusher t).

Ltac updt t := let u := fresh "u" in intros u; unfold upd; destruct (Nat.eqb_spec u t) as [->|].
Lemma mutex_inv intr s : reach init (step intr) s -> mutex_ok s.
Proof.
  intros R. apply (reach_invariant init (step intr) mutex_ok); [|intros a b Ra M H|exact R].
  { split; [|intros t]; cbn; split; intros E; discriminate E. }
  clear R s. rename a into s, b into s'. destruct M as [M1 M2]. unfold mutex_ok in *.
  inv_step H.
  - pcases s t Hs P X; cbn.
    + split; [split; intros E; [apply M1 in E|]; discriminate E|]. updt t; [split; reflexivity|]. rewrite M2. split; intros E; [discriminate E|congruence].
    + split; [exact M1|]. assert (X : mx s = ByPusher t) by (apply M2; rewrite P; reflexivity). updt t; [cbn; tauto|apply M2].
    + assert (X : mx s = ByPusher t) by (apply M2; rewrite P; reflexivity). rewrite X in *. split; [split; intros E; [apply M1 in E|]; discriminate E|].
      updt t; cbn; [split; intros E; discriminate E|]. rewrite M2. split; intros E; congruence.
    + split; [exact M1|]. updt t; [|apply M2]. cbn. rewrite <- (M2 t), P. reflexivity.
  - wcases s Hs W X; cbn in *; rewrite ?X, ?W; cbn; try (split; [exact M1|exact M2]).
    + split; [|exact M2]. destruct (exec s); exact M1.
    + split; [|exact M2]. destruct (queue s); exact M1.
    + split; [tauto|]. intros t. rewrite M2. split; intros E; discriminate E.
    + destruct (queue s); (split; [exact M1|exact M2]).
    + assert (E : mx s = ByWorker) by (apply M1; reflexivity). rewrite E in M2. split; [destruct o; cbn; split; intros G; discriminate G|]. intros t. rewrite M2. split; intros G; discriminate G.
    + split; [tauto|]. intros t. rewrite M2. split; intros E; discriminate E.
    + destruct (queue s); cbn; rewrite ?W; (split; [exact M1|exact M2]).
    + assert (E : mx s = ByWorker) by (apply M1; reflexivity). rewrite E in M2. split; [cbn; split; intros G; discriminate G|]. intros t. rewrite M2. split; intros G; discriminate G.
  - destruct (ctl_hand intr s s' Ra Hs) as [_ ->]. destruct (ctl_same _ _ Hs) as (_ & _ & _ & -> & -> & _). split; [exact M1|exact M2].
  - cbn. split; [exact M1|]. updt t; [|apply M2]. cbn. rewrite <- (M2 t), Hs. reflexivity.
  - split; [exact M1|exact M2].
  - split; [exact M1|exact M2].
  - split; [exact M1|exact M2].
  - cbn. split; [exact M1|]. updt t; [|apply M2]. cbn. rewrite <- (M2 t), Hs. reflexivity.
  - cbn. rewrite Hs in M1. split; [exact M1|exact M2].
  - cbn. rewrite Hs in M1. split; [exact M1|exact M2].
  - cbn. rewrite Hs in M1. split; [exact M1|exact M2].
Qed.

(* the end of the worker: everything that was in the queue when shutdown() was called has been output *)
Definition drained_w (w : wpc) : bool := match w with W632 | W138 | W139 | WEnd | WOff => true | _ => false end.
Definition closing (c : cpc) : bool := match c with D523 | J86 | J88 => true | _ => false end.
Definition after_drain (c : cpc) (w : wpc) : bool :=
  match c with J91 | CStopped => true | _ => closing c && drained_w w end.
Definition shut_ok (s : st) : Prop := mark s <= length (pushed s) /\ (after_drain (ctl s) (wk s) = true -> mark s <= length (out s)).
Lemma flags_gone s w : flags s -> gone_w (wk s) = false -> after_drain (ctl s) w = closing (ctl s) && drained_w w.
Proof. unfold flags. intros F G. destruct (ctl s); try reflexivity; cbn in F; unfold stopped_ok in F; rewrite G, ?andb_false_r in F; discriminate F. Qed.
Lemma shut_inv s : reach init (step false) s -> shut_ok s.
Proof.
  intros R. apply (reach_invariant init (step false) shut_ok); [|intros a b Ra M H|exact R].
  { split; cbn; [lia|discriminate]. }
  clear R s. rename a into s, b into s'. pose proof (flags_inv _ s Ra) as F. pose proof (orderly_inv _ s Ra) as O. destruct M as [M1 M2]. unfold shut_ok, orderly in *.
  inv_step H; try discriminate Hi.
  - pcases s t Hs P X; cbn; try (split; [exact M1|exact M2]). rewrite app_length. cbn. split; [lia|exact M2].
  - assert (G : gone_w (wk s) = false) by (unfold wstep in Hs; destruct (wk s); try discriminate Hs; reflexivity).
    assert (C : ctl s' = ctl s) by (wcases s Hs W X; try destruct (queue s); reflexivity).
    assert (MK : mark s' = mark s) by (wcases s Hs W X; try destruct (queue s); reflexivity).
    assert (PK : pushed s' = pushed s) by (wcases s Hs W X; try destruct (queue s); reflexivity).
    rewrite C, MK, PK. rewrite (flags_gone s _ F G) in M2. rewrite (flags_gone s _ F G). split; [exact M1|]. intros E. apply andb_true_iff in E. destruct E as [E1 E2]. rewrite E1 in M2.
    wcases s Hs W X; cbn in E2; try discriminate E2; cbn in *; auto.
    + destruct (exec s); discriminate E2.
    + destruct (queue s); discriminate E2.
    + destruct (queue s); discriminate E2.
    + destruct o; discriminate E2.
    + destruct (queue s); cbn in *; rewrite ?W in E2; [|discriminate E2]. rewrite app_nil_r in O. rewrite O. exact M1.
  - destruct (ctl_same _ _ Hs) as (E1 & _ & E2 & _ & _ & _ & E3). rewrite E1, E2, E3. split; [exact M1|].
    ccases s Hs C ES W; cbn in *; try (intros E; discriminate E); auto.
    + destruct (starting s || negb (finished s)); intros E; discriminate E.
    + destruct (joined s); intros E; discriminate E.
    + destruct (finished s); intros E; discriminate E.
    + unfold flags in F. rewrite C in F. cbn in F. unfold running_ok in F. destruct (wk s); cbn in *; try (intros E; discriminate E); rewrite ?andb_false_r in F; discriminate F.
    + unfold flags in F. rewrite C in F. cbn in F. intros E. apply M2. destruct (finished s); [|exact E].
      destruct (wk s); try reflexivity; cbn in *; rewrite ?andb_false_r in F; discriminate F.
  - split; [exact M1|exact M2].
  - split; [exact M1|]. cbn. discriminate.
  - cbn. split; [lia|discriminate].
  - cbn. split; [exact M1|discriminate].
Qed.

(* the tokens in m_fill_count *)
Definition w_token (w : wpc) : nat := match w with W574 | W577 | W589 => 1 | _ => 0 end.
Definition p_waits (p : ppc) : bool := match p with P167 | P168 => true | _ => false end.
Definition waiting_ok (s : st) : Prop := NoDup (waiting s) /\ forall t, In t (waiting s) <-> p_waits (pu s t) = true.
Lemma waiting_inv intr s : reach init (step intr) s -> waiting_ok s.
Proof.
  intros R. apply (reach_invariant init (step intr) waiting_ok); [|intros a b Ra M H|exact R].
  { split; [constructor|]. intros t. cbn. split; [intros []|discriminate]. }
  clear R s. rename a into s, b into s'. destruct M as [M1 M2]. unfold waiting_ok in *.
  assert (Same : forall t p, p_waits p = p_waits (pu s t) -> forall u, In u (waiting s) <-> p_waits (upd (pu s) t p u) = true).
  { intros t p E u. unfold upd. destruct (Nat.eqb_spec u t) as [->|]; [rewrite E|]; apply M2. }
  inv_step H.
  - pcases s t Hs P X; cbn [set_pu set_mx set_waiting set_pushed set_queue set_fill pu waiting].
    + split; [exact M1|]. apply Same. rewrite P. reflexivity.
    + split.
      * constructor; [|exact M1]. rewrite M2, P. discriminate.
      * intros u. unfold upd. destruct (Nat.eqb_spec u t) as [->|N]; cbn; [tauto|]. rewrite M2. split; [intros [E|E]; [congruence|exact E]|auto].
    + split; [exact M1|]. apply Same. rewrite P. reflexivity.
    + split.
      * clear -M1. induction M1 as [|a l N _ IH]; cbn; [constructor|]. destruct (Nat.eq_dec t a); auto. constructor; auto. intros I. apply N. apply in_remove in I. tauto.
      * intros u. unfold upd. destruct (Nat.eqb_spec u t) as [->|N]; cbn.
        { split; [intros I; apply in_remove in I; tauto|discriminate]. }
        { rewrite <- M2. split; [intros I; apply in_remove in I; tauto|intros I; apply in_in_remove; auto]. }
  - assert (E : pu s' = pu s /\ waiting s' = waiting s) by (wcases s Hs W X; try destruct (queue s); split; reflexivity). destruct E as [-> ->]. split; [exact M1|exact M2].
  - destruct (ctl_same _ _ Hs) as (_ & _ & _ & _ & -> & -> & _). split; [exact M1|exact M2].
  - cbn. split; [exact M1|]. apply Same. rewrite Hs. reflexivity.
  - split; [exact M1|exact M2].
  - split; [exact M1|exact M2].
  - split; [exact M1|exact M2].
  - cbn. split; [exact M1|]. apply Same. rewrite Hs. reflexivity.
  - split; [exact M1|exact M2].
  - split; [exact M1|exact M2].
  - split; [exact M1|exact M2].
Qed.
Lemma remove_length t (l : list tid) : NoDup l -> length l <= S (length (remove Nat.eq_dec t l)).
Proof.
  induction 1 as [|a l N _ IH]; cbn; [lia|]. destruct (Nat.eq_dec t a) as [->|]; cbn; [|lia]. rewrite notin_remove; auto.
Qed.
Definition tokens (s : st) : Prop := length (queue s) <= fill s + length (waiting s) + w_token (wk s).
Lemma tokens_inv s : reach init (step false) s -> tokens s.
Proof.
  intros R. apply (reach_invariant init (step false) tokens); [cbn; unfold tokens; cbn; lia|intros a b Ra M H|exact R].
  clear R s. rename a into s, b into s'. pose proof (waiting_inv _ _ Ra) as [N _]. pose proof (flags_inv _ s Ra) as F. unfold tokens, flags in *.
  inv_step H; try discriminate Hi.
  - pcases s t Hs P X; cbn in *; try lia.
    + rewrite app_length. cbn. lia.
    + pose proof (remove_length t _ N) as L. unfold tid in *. lia.
  - wcases s Hs W X; cbn in *; try lia.
    + destruct (queue s) eqn:Q; cbn in *; lia.
    + destruct (queue s) eqn:Q; cbn in *; rewrite ?Q; cbn; lia.
    + destruct (queue s) eqn:Q; cbn in *; rewrite ?Q, ?W; cbn; lia.
  - ccases s Hs C ES W; cbn in *; rewrite ?W in *; cbn in *; try lia.
    destruct (wk s) eqn:W; cbn in *; rewrite ?andb_false_r in F; try lia; discriminate F.
  - exact M.
  - exact M.
  - exact M.
  - exact M.
Qed.
(* the worker cannot miss the end *)
Definition wake (s : st) : Prop := (ctl s = J86 \/ ctl s = J88) -> wk s = W569 -> 1 <= fill s.
Lemma wake_inv intr s : reach init (step intr) s -> wake s.
Proof.
  intros R. apply (reach_invariant init (step intr) wake); [intros [E|E]; discriminate E|intros a b Ra M H|exact R].
  clear R s. rename a into s, b into s'. pose proof (flags_inv _ s Ra) as F. unfold wake, flags in *.
  inv_step H; try discriminate Hi; try exact M.
  - pcases s t Hs P X; cbn in *; try exact M. lia.
  - wcases s Hs W X; cbn in *; rewrite ?W; try (intros _ E; discriminate E).
    + intros [E|E]; rewrite E in F; cbn in F; destruct (exec s), (starting s); try discriminate F; intros G; discriminate G.
    + destruct (queue s); intros _ E; discriminate E.
    + destruct (queue s); intros _ E; discriminate E.
    + destruct o; intros _ E; discriminate E.
    + destruct (queue s); cbn; rewrite ?W; intros _ E; discriminate E.
  - ccases s Hs C ES W; cbn in *; rewrite ?W in *; cbn in *; try (intros [E|E]; discriminate E); try (intros _ E; discriminate E); try lia.
    + destruct (starting s || negb (finished s)); intros [E|E]; discriminate E.
    + destruct (joined s); intros [E|E]; discriminate E.
    + destruct (finished s); intros [E|E]; discriminate E.
    + intros _ E. apply M; auto.
  - cbn. intros [E|E]; discriminate E.
  - cbn. intros [E|E]; discriminate E.
  - cbn. intros [E|E]; discriminate E.
  - cbn. intros _ E. discriminate E.
  - cbn. intros _ E. discriminate E.
  - cbn. intros _ E. discriminate E.
Qed.

(* progress *)
Lemma internal_step intr s s' : internal s s' -> step intr s s'.
Proof. intros [[t H]|[H|H]]; [eapply step_push|eapply step_worker|eapply step_ctl]; eauto. Qed.
Lemma internal_steps intr s s' : steps internal s s' -> steps (step intr) s s'.
Proof. induction 1; [constructor|]. eapply steps_more; [eapply internal_step|]; eauto. Qed.
Lemma worker_steps s s' : steps worker_alone s s' -> steps internal s s'.
Proof. induction 1; [constructor|]. eapply steps_more; [right; left; exact H|assumption]. Qed.
Lemma worker_same s s' : wstep s = Some s' -> pushed s' = pushed s /\ pu s' = pu s /\ waiting s' = waiting s /\ ctl s' = ctl s /\ mark s' = mark s.
Proof. intros Hs. wcases s Hs W X; try destruct (queue s); auto 10. Qed.

Definition rank_w (w : wpc) : nat :=
  match w with
  | W134 => 15 | W569 => 14 | W574 => 13 | W577 => 12 | W589 => 11 | W597 _ => 10 | W601 _ => 9 | W606 => 8 | W567 => 7
  | W614 => 6 | W624 => 5 | W632 => 4 | W138 => 3 | W139 => 2 | _ => 0
  end.
Definition quiet (s : st) : Prop := forall t, p_holds (pu s t) = false.
Lemma quiet_mx intr s : reach init (step intr) s -> quiet s -> w_holds (wk s) = false -> mx s = Free.
Proof.
  intros R Q W. destruct (mutex_inv _ _ R) as [M1 M2]. destruct (mx s) as [| |t]; auto.
  - assert (E : w_holds (wk s) = true) by (apply M1; reflexivity). congruence.
  - assert (E : p_holds (pu s t) = true) by (apply M2; reflexivity). rewrite Q in E. discriminate E.
Qed.
(* the worker finishes when it has been told to *)
Lemma worker_finishes intr n : forall s, 16 * length (queue s) + rank_w (wk s) <= n -> reach init (step intr) s -> quiet s -> ctl s = J88 ->
  exists s', steps worker_alone s s' /\ wk s' = WEnd.
Proof.
  induction n as [n IH] using lt_wf_ind. intros s L R Q C.
  pose proof (flags_inv _ _ R) as F. unfold flags in F. rewrite C in F. cbn in F.
  destruct (is_end (wk s)) eqn:IE. { exists s. split; [constructor|]. destruct (wk s); try discriminate IE; reflexivity. }
  assert (E : exists s1, wstep s = Some s1 /\ 16 * length (queue s1) + rank_w (wk s1) < 16 * length (queue s) + rank_w (wk s)).
  { pose proof (quiet_mx _ _ R Q) as MX. pose proof (wake_inv _ _ R (or_intror C)) as WK. unfold wstep.
    destruct (exec s) eqn:EX; [destruct (starting s); discriminate F|].
    destruct (wk s) eqn:W; try discriminate IE; cbn in F; rewrite ?andb_false_r in F; try discriminate F; try rewrite (MX eq_refl);
      try (eexists; split; [reflexivity|]; cbn; lia).
    - destruct (fill s) as [|k]; [specialize (WK eq_refl); lia|]. eexists; split; [reflexivity|]. cbn. lia.
    - eexists; split; [reflexivity|]. destruct (queue s) eqn:Qe; cbn; rewrite ?Qe; cbn; lia.
    - eexists; split; [reflexivity|]. destruct (queue s) eqn:Qe; cbn; rewrite ?Qe; cbn; lia.
    - eexists; split; [reflexivity|]. destruct o; cbn; lia.
    - eexists; split; [reflexivity|]. destruct (queue s) eqn:Qe; cbn; rewrite ?Qe, ?W; cbn; lia. }
  destruct E as (s1 & E1 & E2). destruct (worker_same _ _ E1) as (_ & P & _ & C1 & _).
  destruct (IH (16 * length (queue s1) + rank_w (wk s1)) ltac:(lia) s1 (le_n _)) as (s' & S1 & S2).
  - eapply reach_step; [exact R|]. eapply step_worker. exact E1.
  - intros t. rewrite P. apply Q.
  - congruence.
  - exists s'. split; auto. eapply steps_more; [exact E1|exact S1].
Qed.
(* the worker outputs what is in the queue *)
Definition rank_o (w : wpc) : nat :=
  match w with
  | W134 => 15 | W597 _ => 13 | W601 _ => 12 | W606 => 11 | W567 => 10 | W569 => 9 | W574 => 8 | W577 => 7 | _ => 6
  end.
Lemma worker_outputs n : forall s, 16 * length (queue s) + rank_o (wk s) <= n -> reach init (step false) s -> quiet s -> waiting s = [] -> exec s = true -> running_w (wk s) = true ->
  exists s', steps worker_alone s s' /\ queue s' = [] /\ in_hand (wk s') = [].
Proof.
  induction n as [n IH] using lt_wf_ind. intros s L R Q WT EX RW.
  destruct (queue s ++ in_hand (wk s)) eqn:D. { apply app_eq_nil in D. exists s. split; [constructor|tauto]. }
  assert (E : exists s1, wstep s = Some s1 /\ 16 * length (queue s1) + rank_o (wk s1) < 16 * length (queue s) + rank_o (wk s) /\ exec s1 = true /\ running_w (wk s1) = true).
  { pose proof (quiet_mx _ _ R Q) as MX. pose proof (tokens_inv _ R) as TK. unfold tokens in TK. rewrite WT in TK. unfold wstep.
    destruct (wk s) eqn:W; try discriminate RW; try rewrite (MX eq_refl);
      try (eexists; split; [reflexivity|]; cbn; split; [lia|auto]; fail).
    - eexists; split; [reflexivity|]. rewrite EX. cbn. split; [lia|auto].
    - cbn in D. rewrite app_nil_r in D. destruct (fill s) as [|k]; [rewrite D in TK; cbn in TK; lia|]. eexists; split; [reflexivity|]. cbn. split; [lia|auto].
    - cbn in D. rewrite app_nil_r in D. eexists; split; [reflexivity|]. rewrite D. cbn. rewrite D. cbn. split; [lia|auto].
    - cbn in D. rewrite app_nil_r in D. eexists; split; [reflexivity|]. rewrite D. cbn. split; [lia|auto].
    - eexists; split; [reflexivity|]. destruct o; cbn; (split; [lia|auto]). }
  destruct E as (s1 & E1 & E2 & EX1 & RW1). destruct (worker_same _ _ E1) as (_ & P & WT1 & C1 & _).
  assert (R1 : reach init (step false) s1) by (eapply reach_step; [exact R|eapply step_worker; exact E1]).
  assert (Q1 : quiet s1) by (intros t; rewrite P; apply Q). rewrite <- WT1 in WT.
  destruct (IH (16 * length (queue s1) + rank_o (wk s1)) ltac:(lia) s1 (le_n _)) as (s' & S1 & S2 & S3); auto.
  exists s'. split; auto. eapply steps_more; [exact E1|exact S1].
Qed.
Lemma worker_steps_same s s' : steps worker_alone s s' -> pushed s' = pushed s /\ pu s' = pu s /\ waiting s' = waiting s /\ ctl s' = ctl s /\ mark s' = mark s.
Proof. induction 1 as [|a b c H _ IH]; [auto 10|]. destruct (worker_same _ _ H) as (E1 & E2 & E3 & E4 & E5), IH as (F1 & F2 & F3 & F4 & F5). repeat split; congruence. Qed.

(* a pusher that holds the mutex gives it back *)
Lemma release intr s : reach init (step intr) s ->
  exists s', steps internal s s' /\ quiet s' /\ ctl s' = ctl s /\ forall t, p_holds (pu s t) = false -> pu s' t = pu s t.
Proof.
  intros R. destruct (mutex_inv _ _ R) as [M1 M2].
  assert (A : (exists t, mx s = ByPusher t) \/ quiet s).
  { destruct (mx s) as [| |t]; [right|right|eauto]; intros t; destruct (p_holds (pu s t)) eqn:E; auto; apply M2 in E; discriminate E. }
  destruct A as [[t X]|A]; [|exists s; split; [constructor|auto]].
  assert (N : forall u, u <> t -> p_holds (pu s u) = false) by (intros u Hu; destruct (p_holds (pu s u)) eqn:E; auto; apply M2 in E; congruence).
  assert (P : p_holds (pu s t) = true) by (apply M2; exact X).
  destruct (pu s t) as [| |m| |] eqn:E; try discriminate P.
  - eexists. split; [eapply steps_more; [|eapply steps_more; [|constructor]]|].
    + left. exists t. unfold pstep. rewrite E. reflexivity.
    + left. exists t. unfold pstep. cbn. rewrite upd_same. reflexivity.
    + split; [|split; [reflexivity|]]; intros u; cbn; unfold upd; destruct (Nat.eqb_spec u t) as [->|]; auto. intros H. rewrite E in H. discriminate H.
  - eexists. split; [eapply steps_one|].
    + left. exists t. unfold pstep. rewrite E. reflexivity.
    + split; [|split; [reflexivity|]]; intros u; cbn; unfold upd; destruct (Nat.eqb_spec u t) as [->|]; auto. intros H. rewrite E in H. discriminate H.
Qed.

(* start() and shutdown() return *)
Definition rank_c (c : cpc) : nat :=
  match c with
  | S97 => 9 | S99 => 1 | S104 => 8 | S105 => 7 | S107 => 6 | S109 => 5 | S112 => 4 | S114 => 3 | S144 => 2
  | D520 => 9 | D94 => 8 | D522 => 7 | D523 => 6 | J86 => 5 | J88 => 4 | J91 => 3 | _ => 0
  end.
Lemma ctl_returns intr n : forall s, rank_c (ctl s) <= n -> reach init (step intr) s ->
  exists s', steps internal s s' /\ resting (ctl s') = true.
Proof.
  induction n as [n IH] using lt_wf_ind. intros s L R.
  destruct (resting (ctl s)) eqn:RS. { exists s. split; [constructor|exact RS]. }
  assert (E : exists s1, steps internal s s1 /\ rank_c (ctl s1) < rank_c (ctl s)).
  { pose proof (flags_inv _ _ R) as F. unfold flags in F.
    destruct (ctl s) eqn:C; try discriminate RS; cbn in F; try discriminate F.
    all: try (eexists; split; [apply steps_one; right; right; unfold cstep; rewrite C; reflexivity|]; cbn; lia).
    - eexists; split; [apply steps_one; right; right; unfold cstep; rewrite C; reflexivity|]. cbn. destruct (starting s || negb (finished s)); cbn; lia.
    - unfold running_ok in F. destruct (starting s) eqn:ES; [discriminate F|]. eexists; split; [apply steps_one; right; right; unfold cstep; rewrite C, ES; reflexivity|]. cbn. lia.
    - eexists; split; [apply steps_one; right; right; unfold cstep; rewrite C; reflexivity|]. cbn. destruct (joined s); cbn; lia.
    - destruct (starting s) eqn:ES.
      + unfold running_ok in F. cbn in F. destruct (wk s) eqn:W; rewrite ?andb_false_r in F; try discriminate F.
        * eexists; split; [eapply steps_more; [|eapply steps_more; [|apply steps_one]]|].
          -- right; left. unfold wstep. rewrite W. reflexivity.
          -- right; left. unfold wstep. cbn. reflexivity.
          -- right; right. unfold cstep. cbn. rewrite C. reflexivity.
          -- cbn. lia.
        * eexists; split; [eapply steps_more; [|apply steps_one]|].
          -- right; left. unfold wstep. rewrite W. reflexivity.
          -- right; right. unfold cstep. cbn. rewrite C. reflexivity.
          -- cbn. lia.
      + eexists; split; [apply steps_one; right; right; unfold cstep; rewrite C, ES; reflexivity|]. cbn. lia.
    - eexists; split; [apply steps_one; right; right; unfold cstep; rewrite C; reflexivity|]. cbn. destruct (finished s); cbn; lia.
    - unfold running_ok in F. destruct (starting s) eqn:ES; [discriminate F|]. eexists; split; [apply steps_one; right; right; unfold cstep; rewrite C, ES; reflexivity|]. cbn. lia.
    - eexists; split; [apply steps_one; right; right; unfold cstep; rewrite C; reflexivity|]. cbn. destruct (finished s); cbn; lia.
    - destruct (release _ _ R) as (s1 & S1 & Q1 & C1 & _).
      assert (R1 : reach init (step intr) s1) by (eapply reach_steps; [exact R|apply internal_steps, S1]). rewrite C in C1.
      destruct (worker_finishes intr _ s1 (le_n _) R1 Q1 C1) as (s2 & S2 & W2).
      destruct (worker_steps_same _ _ S2) as (_ & _ & _ & C2 & _). rewrite C1 in C2.
      eexists. split; [eapply steps_app; [exact S1|eapply steps_app; [exact (worker_steps _ _ S2)|apply steps_one; right; right; unfold cstep; rewrite C2, W2; reflexivity]]|]. cbn. lia. }
  destruct E as (s1 & E1 & E2).
  destruct (IH (rank_c (ctl s1)) ltac:(lia) s1 (le_n _)) as (s' & S1 & S2).
  - eapply reach_steps; [exact R|apply internal_steps, E1].
  - exists s'. split; auto. eapply steps_app; eauto.
Qed.

(* push() returns *)
Lemma worker_releases n : forall s, 16 * length (queue s) + rank_w (wk s) <= n -> exists s', steps worker_alone s s' /\ w_holds (wk s') = false.
Proof.
  induction n as [n IH] using lt_wf_ind. intros s L. destruct (w_holds (wk s)) eqn:H; [|exists s; split; [constructor|exact H]].
  assert (E : exists s1, wstep s = Some s1 /\ 16 * length (queue s1) + rank_w (wk s1) < 16 * length (queue s) + rank_w (wk s)).
  { unfold wstep. destruct (wk s) eqn:W; try discriminate H; (eexists; split; [reflexivity|]).
    - destruct (queue s) eqn:Qe; cbn; rewrite ?Qe; cbn; lia.
    - destruct o; cbn; lia.
    - destruct (queue s) eqn:Qe; cbn; rewrite ?Qe, ?W; cbn; lia.
    - cbn. lia. }
  destruct E as (s1 & E1 & E2). destruct (IH (16 * length (queue s1) + rank_w (wk s1)) ltac:(lia) s1 (le_n _)) as (s' & S1 & S2).
  exists s'. split; auto. eapply steps_more; [exact E1|exact S1].
Qed.
Lemma push_168 s t : pu s t = P168 -> exists s', steps internal s s' /\ pu s' t = PIdle /\ pushed s' = pushed s.
Proof. intros E. eexists. split; [apply steps_one; left; exists t; unfold pstep; rewrite E; reflexivity|]. cbn. rewrite upd_same. auto. Qed.
Lemma push_167 s t : pu s t = P167 -> exists s', steps internal s s' /\ pu s' t = PIdle /\ pushed s' = pushed s.
Proof.
  intros E. destruct (push_168 (set_pu (set_mx s Free) t P168) t) as (s' & S & A & B); [apply upd_same|].
  exists s'. split; [|auto]. eapply steps_more; [|exact S]. left. exists t. unfold pstep. rewrite E. reflexivity.
Qed.
Lemma push_165 s t m : pu s t = P165 m -> exists s', steps internal s s' /\ pu s' t = PIdle /\ pushed s' = pushed s ++ [m].
Proof.
  intros E. destruct (push_167 (set_pu (set_waiting (set_pushed (set_queue s (queue s ++ [m])) (pushed s ++ [m])) (t :: waiting s)) t P167) t) as (s' & S & A & B); [apply upd_same|].
  exists s'. split; [|auto]. eapply steps_more; [|exact S]. left. exists t. unfold pstep. rewrite E. reflexivity.
Qed.
(* the message with which push() has been called and which is not yet in the queue *)
Lemma push_returns intr s t : reach init (step intr) s ->
  exists s', steps internal s s' /\ pu s' t = PIdle /\ (forall m, pu s t = P156 m \/ pu s t = P165 m -> In m (pushed s')).
Proof.
  intros R. destruct (pu s t) as [|m|m| |] eqn:E.
  - exists s. split; [constructor|]. split; auto. intros m [H|H]; discriminate H.
  - destruct (release _ _ R) as (s1 & S1 & Q1 & _ & P1). rewrite <- (P1 t) in E by (rewrite E; reflexivity).
    destruct (worker_releases _ s1 (le_n _)) as (s2 & S2 & W2). destruct (worker_steps_same _ _ S2) as (_ & P2 & _). rewrite <- P2 in E.
    assert (T : steps internal s s2) by (eapply steps_app; [exact S1|apply worker_steps, S2]).
    assert (MX : mx s2 = Free).
    { eapply (quiet_mx intr); [eapply reach_steps; [exact R|apply internal_steps, T]| |exact W2]. intros u. rewrite P2. apply Q1. }
    destruct (push_165 (set_pu (set_mx s2 (ByPusher t)) t (P165 m)) t m) as (s' & S3 & A & B); [apply upd_same|].
    exists s'. split; [|split; [exact A|]].
    + eapply steps_app; [exact T|]. eapply steps_more; [|exact S3]. left. exists t. unfold pstep. rewrite E, MX. reflexivity.
    + intros k [H|H]; [|discriminate H]. injection H as <-. rewrite B. apply in_or_app. right. left. reflexivity.
  - destruct (push_165 s t m E) as (s' & S & A & B). exists s'. split; [exact S|]. split; [exact A|]. intros k [H|H]; [discriminate H|]. injection H as <-. rewrite B. apply in_or_app. right. left. reflexivity.
  - destruct (push_167 s t E) as (s' & S & A & B). exists s'. split; [exact S|]. split; [exact A|]. intros k [H|H]; discriminate H.
  - destruct (push_168 s t E) as (s' & S & A & B). exists s'. split; [exact S|]. split; [exact A|]. intros k [H|H]; discriminate H.
Qed.

(* the queue of fixed size: contents from the read index to the write index, cyclic *)
Definition slots (q : fixed) : nat := if rd q <=? wr q then wr q - rd q else size q + wr q - rd q.
Definition at_i (n r i : nat) : nat := if r + i <? n then r + i else r + i - n.
Definition holds (q : fixed) (l : list msg) : Prop :=
  1 <= size q /\ length (cells q) = size q + 1 /\ rd q < size q /\ wr q < size q /\ slots q = length l /\
  forall i x, nth_error l i = Some x -> nth_error (cells q) (at_i (size q) (rd q) i) = Some x.
Lemma set_ok {A} (l : list A) i x : i < length l -> vec_set l i x = Ok (list_set l i x).
Proof. intros H. unfold vec_set. apply Nat.ltb_lt in H. rewrite H. reflexivity. Qed.
Lemma full_iff q l : holds q l -> isFull q = (size q - 1 <=? length l).
Proof.
  intros (H1 & _ & H2 & H3 & H4 & _). unfold isFull. unfold slots in H4.
  destruct (rd q) as [|r] eqn:R; destruct (size q) as [|z] eqn:Z; try lia.
  - cbn [Nat.leb] in H4. cbn [orb Nat.eqb]. rewrite andb_true_r. destruct (Nat.eqb_spec (wr q) z), (Nat.leb_spec (S z - 1) (length l)); auto; lia.
  - rewrite andb_false_r, orb_false_r. destruct (Nat.leb_spec (S r) (wr q)), (Nat.eqb_spec (wr q) r), (Nat.leb_spec (S z - 1) (length l)); auto; lia.
Qed.
Lemma empty_iff q l : holds q l -> isEmpty q = (length l =? 0).
Proof.
  intros (H1 & _ & H2 & H3 & H4 & _). unfold isEmpty. unfold slots in H4.
  destruct (Nat.leb_spec (rd q) (wr q)), (Nat.eqb_spec (rd q) (wr q)), (Nat.eqb_spec (length l) 0); auto; lia.
Qed.
Lemma push_holds q l m : holds q l -> exists q', fpush q m = Ok q' /\ holds q' (if length l <? size q - 1 then l ++ [m] else l) /\ size q' = size q.
Proof.
  intros H. pose proof (full_iff _ _ H) as F. destruct H as (H1 & HC & H2 & H3 & H4 & H5). unfold fpush. rewrite F.
  destruct (Nat.leb_spec (size q - 1) (length l)) as [L|L]; destruct (Nat.ltb_spec (length l) (size q - 1)) as [L'|L']; try lia.
  - exists q. split; auto. split; auto. repeat split; auto.
  - rewrite set_ok by lia. cbn. eexists. split; [reflexivity|]. split; [|reflexivity]. unfold holds, slots in *; cbn.
    assert (I : incrementIndex (size q) (wr q) < size q /\ (incrementIndex (size q) (wr q) = S (wr q) \/ (incrementIndex (size q) (wr q) = 0 /\ S (wr q) = size q))).
    { unfold incrementIndex. destruct (Nat.leb_spec (size q) (S (wr q))); lia. }
    rewrite list_set_length, app_length. cbn. destruct I as [I1 I2].
    split; [exact H1|]. split; [exact HC|]. split; [exact H2|]. split; [exact I1|]. split.
    + destruct (Nat.leb_spec (rd q) (wr q)) as [A|A], (Nat.leb_spec (rd q) (incrementIndex (size q) (wr q))) as [B|B]; destruct I2 as [I2|[I2 I3]]; rewrite ?I2 in *; lia.
    + intros i x N. destruct (Nat.lt_ge_cases i (length l)) as [K|K].
      * rewrite nth_error_app1 in N by exact K. rewrite nth_error_list_set_ne; [apply H5, N|].
        unfold at_i. destruct (Nat.leb_spec (rd q) (wr q)), (Nat.ltb_spec (rd q + i) (size q)); lia.
      * rewrite nth_error_app2 in N by exact K. assert (i = length l) as ->. { destruct (i - length l) as [|d] eqn:D; [lia|]. cbn in N. destruct d; discriminate N. }
        rewrite Nat.sub_diag in N. injection N as <-. replace (at_i (size q) (rd q) (length l)) with (wr q).
        { apply nth_error_list_set_eq. lia. }
        unfold at_i. destruct (Nat.leb_spec (rd q) (wr q)), (Nat.ltb_spec (rd q + length l) (size q)); lia.
Qed.
Lemma pop_holds q l : holds q l ->
  match l with [] => fpop q = Ok (None, q) | m :: r => exists q', fpop q = Ok (Some m, q') /\ holds q' r /\ size q' = size q end.
Proof.
  intros H. pose proof (empty_iff _ _ H) as E. destruct H as (H1 & HC & H2 & H3 & H4 & H5). unfold fpop. rewrite E.
  destruct l as [|m r]; cbn; [reflexivity|]. unfold vec_get.
  pose proof (H5 0 m eq_refl) as G. unfold at_i in G. rewrite Nat.add_0_r in G. pose proof H2 as H2'. apply Nat.ltb_lt in H2'. rewrite H2' in G. rewrite G. cbn.
  eexists. split; [reflexivity|]. split; [|reflexivity]. unfold holds, slots in *; cbn in *.
  assert (I : incrementIndex (size q) (rd q) < size q /\ (incrementIndex (size q) (rd q) = S (rd q) \/ (incrementIndex (size q) (rd q) = 0 /\ S (rd q) = size q))).
  { unfold incrementIndex. destruct (Nat.leb_spec (size q) (S (rd q))); lia. }
  destruct I as [I1 I2].
  split; [exact H1|]. split; [exact HC|]. split; [exact I1|]. split; [exact H3|]. split.
  - destruct (Nat.leb_spec (rd q) (wr q)) as [A|A], (Nat.leb_spec (incrementIndex (size q) (rd q)) (wr q)) as [B|B]; destruct I2 as [I2|[I2 I3]]; rewrite ?I2 in *; lia.
  - intros i x N. specialize (H5 (S i) x N). rewrite <- H5. f_equal. unfold at_i. 
    destruct I2 as [->|[-> I3]]; [destruct (Nat.ltb_spec (S (rd q) + i) (size q)), (Nat.ltb_spec (rd q + S i) (size q)); lia|].
    assert (K : S i <= length r) by (apply nth_error_Some; rewrite N; discriminate).
    destruct (Nat.leb_spec (rd q) (wr q)), (Nat.ltb_spec (0 + i) (size q)), (Nat.ltb_spec (rd q + S i) (size q)); lia.
Qed.
Lemma fixed_fifo os : forall q l, holds q l -> fixed_run q os = Ok (fifo_run (size q - 1) l os).
Proof.
  induction os as [|[m|] os IH]; intros q l H; cbn; [reflexivity| |].
  - destruct (push_holds q l m H) as (q' & E & H' & Z). rewrite E. cbn. rewrite (IH q' _ H'), Z. reflexivity.
  - pose proof (pop_holds q l H) as P. destruct l as [|m r].
    + rewrite P. cbn. rewrite (IH q [] H). reflexivity.
    + destruct P as (q' & E & H' & Z). rewrite E. cbn. rewrite (IH q' _ H'), Z. reflexivity.
Qed.
Lemma fixed_zero os : forall c, fixed_run (mkFixed 0 [c] 0 0) os = Ok (fifo_run 0 [] os).
Proof. induction os as [|[m|] os IH]; intros c; cbn; [reflexivity|apply IH|]. rewrite IH. reflexivity. Qed.
Lemma fixed_new n os : fixed_run (new_fixed n) os = Ok (fifo_run (n - 1) [] os).
Proof.
  destruct n as [|n]; [apply fixed_zero|]. apply (fixed_fifo os (new_fixed (S n)) []). unfold holds, slots, new_fixed. cbn. rewrite repeat_length. repeat split; try lia.
  intros i x H. destruct i; discriminate H.
Qed.

(* schedules *)
Lemma act_step intr l s s' : (interrupts l = true -> intr = true) -> act l s = Some s' -> step intr s s'.
Proof.
  intros I H. destruct l; cbn in H, I.
  - eapply step_push; eauto.
  - eapply step_worker; eauto.
  - eapply step_ctl; eauto.
  - destruct (pu s t) eqn:E; try discriminate H. some H. apply step_call_push. exact E.
  - destruct (resting (ctl s)) eqn:E; try discriminate H. some H. apply step_call_start. exact E.
  - destruct (resting (ctl s)) eqn:E; try discriminate H. some H. apply step_call_shutdown. exact E.
  - destruct (wk s) eqn:E; try discriminate H. some H. apply step_intr_pop; auto.
  - destruct (wk s) eqn:E; try discriminate H. some H. apply step_intr_drain; auto.
Qed.
Lemma run_steps intr ls : forall s s', (existsb interrupts ls = true -> intr = true) -> run ls s = Some s' -> steps (step intr) s s'.
Proof.
  induction ls as [|l ls IH]; cbn; intros s s' I H. { some H. constructor. }
  destruct (act l s) as [s1|] eqn:E; [|discriminate H]. eapply steps_more; [eapply act_step; [|exact E]|apply IH; auto].
  - intros K. apply I. rewrite K. reflexivity.
  - intros K. apply I. rewrite K. apply orb_true_r.
Qed.
Lemma after_reach intr ls : existsb interrupts ls = false \/ intr = true -> reach init (step intr) (after ls).
Proof.
  intros I. unfold after. destruct (run ls init) as [s|] eqn:E; [|constructor]. eapply reach_steps; [constructor|]. eapply run_steps; [|exact E]. destruct I as [I|I]; [congruence|auto].
Qed.
