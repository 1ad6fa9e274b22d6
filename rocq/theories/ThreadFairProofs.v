(* Proofs for C45: what happens in every fair execution *)
From Verif Require Import Conc BaseLemmas ThreadModel ThreadSpec ThreadProofs FairLemmas ThreadFairSpec.

Definition rank_c (p : cpc) : nat :=
  match p with
  | S179a => 20 | S179b => 19 | S181 => 2 | S183 => 1 | S186 => 18 | S187 => 17 | S189 => 16 | J140 KStart => 15 | J142 KStart => 14 | J145 KStart => 13 | S194 => 12 | S196 => 11
  | S198 => 3 | S199 => 2 | S200 => 1 | S206 => 1
  | J140 KDtor => 4 | J142 KDtor => 3 | J145 KDtor => 2 | D91 => 1 | P189 true => 6 | P189b true => 5 | P189 false => 2 | P189b false => 1 | D85 => 7
  | J140 _ => 3 | J142 _ => 2 | J145 _ => 1
  | T259 _ => 15 | T264 _ => 14 | T266 _ => 13 | T270 _ => 12 | T273 => 11 | T275 => 11 | T282 => 10 | T288 => 9
  | C98 => 5 | C99 => 4 | C102 => 3 | C103 => 2 | C104 => 1
  | _ => 0
  end.
Definition rank_w (p : wpc) : nat :=
  match p with WBegin => 10 | W231 => 9 | W232 => 8 | W233 => 7 | W234 => 6 | WRun => 5 | W243 => 4 | W244 => 3 | W245 => 2 | W247 => 1 | _ => 0 end.
Definition N (s : st) : nat := 32 * rank_c (cp s) + rank_w (wpcs s (cur s)).
Definition same (s s' : st) : Prop :=
  cp s' = cp s /\ cur s' = cur s /\ wpcs s' (cur s) = wpcs s (cur s) /\ m_finished s' = m_finished s /\ m_starting s' = m_starting s /\ mutex s' = mutex s /\ m_execute s' = m_execute s.
Definition gain (s s' : st) : Prop := in_call (cp s') = false \/ N s' < N s.
(* the client can go on, and gets on when it does *)
Definition c_ready (s : st) : bool :=
  match cp s with
  | S181 | S206 | P189 _ | T264 _ | C98 => negb (m_starting s)
  | J142 _ => ended (wpcs s (cur s))
  | T270 _ => match mutex s with None => true | Some _ => false end
  | T282 => m_finished s
  | p => in_call p
  end.
Lemma c_ready_can s : c_ready s = true -> in_call (cp s) = true -> exists s', client s s'.
Proof.
  intros R C. unfold c_ready in R. unfold client. destruct (cp s) eqn:E; try discriminate C; try discriminate R;
    (eexists; exists true; unfold cstep; rewrite E; try reflexivity).
  all: try (destruct (m_starting s); [discriminate R|]; reflexivity).
  - rewrite R. reflexivity.
  - destruct (mutex s); [discriminate R|]. reflexivity.
Qed.
Lemma client_gain b s s' : cstep b s = Some s' -> gain s s' \/ (same s s' /\ cp s = T282 /\ m_finished s = false).
Proof.
  intros H. unfold gain, N. unfold cstep in H. destruct (cp s) eqn:E; try discriminate H;
    repeat match type of H with context[match ?x with _ => _ end] => destruct x eqn:?; try discriminate H end; injection H as H; rewrite <- H; cbn; try (left; left; reflexivity).
  all: try (left; right; rewrite ?upd_same; cbn; lia).
  all: try (left; destruct k; cbn; try (left; reflexivity); right; lia).
  right. repeat split; auto. apply andb_true_iff in Heqb0. destruct (m_finished s); cbn in Heqb0; [destruct Heqb0; discriminate|reflexivity].
Qed.
Lemma step_class s s' : inv s -> in_call (cp s) = true -> step false s s' -> gain s s' \/ same s s'.
Proof.
  intros IV IC H. inversion H as [w ? ? Hs|w ? Hw Hc|b ? ? Hs|? p Hr Hp]; subst.
  - destruct (Nat.eq_dec w (cur s)) as [->|Ne].
    + left. right. unfold N. unfold wstep in Hs. destruct (wpcs s (cur s)) eqn:W; try discriminate Hs; try (destruct (mutex s); try discriminate Hs); injection Hs as Hs; rewrite <- Hs; cbn; rewrite upd_same; cbn; lia.
    + right. pose proof (i_old s IV w Ne) as O. unfold wstep in Hs. destruct (wpcs s w) eqn:W; try discriminate Hs; try discriminate O. injection Hs as Hs. rewrite <- Hs.
      unfold same. cbn. rewrite upd_other by auto. auto 10.
  - rewrite (i_cr s IV w) in Hc. discriminate Hc.
  - destruct (client_gain b s s' Hs) as [G|(G & _)]; auto.
  - unfold in_call in IC. rewrite Hr in IC. discriminate IC.
Qed.
Lemma awaits_kept s s' : inv s -> in_call (cp s) = true -> awaits_run (cp s) = false -> step false s s' -> in_call (cp s') = false \/ awaits_run (cp s') = false.
Proof.
  intros IV IC A H. inversion H as [w ? ? Hs|w ? Hw Hc|b ? ? Hs|? p Hr Hp]; subst.
  - right. assert (E : cp s' = cp s); [|rewrite E; exact A].
    unfold wstep in Hs. destruct (wpcs s w) eqn:W; try discriminate Hs; try (destruct (mutex s); try discriminate Hs); injection Hs as Hs; rewrite <- Hs; reflexivity.
  - right. exact A.
  - unfold cstep in Hs. destruct (cp s) eqn:E; try discriminate Hs; try discriminate A;
      repeat match type of Hs with context[match ?x with _ => _ end] => destruct x eqn:?; try discriminate Hs end; injection Hs as Hs; rewrite <- Hs; cbn; auto; destruct k; cbn in *; auto; discriminate.
  - unfold in_call in IC. rewrite Hr in IC. discriminate IC.
Qed.
(* the destructor has told the worker to stop *)
Definition told (s : st) : Prop := cp s = J140 KDtor \/ cp s = J142 KDtor -> m_execute s = false.
Lemma told_inv s : reach init (step false) s -> told s.
Proof.
  intros R. apply (reach_invariant init (step false) told); [intros [H|H]; discriminate H| |exact R]. clear R s. intros s s' R T H. pose proof (reach_inv s R) as IV. unfold told in *.
  inversion H as [w ? ? Hs|w ? Hw Hc|b ? ? Hs|? p Hr Hp]; subst.
  - unfold wstep in Hs. destruct (wpcs s w) eqn:W; try discriminate Hs; try (destruct (mutex s); try discriminate Hs); injection Hs as Hs; rewrite <- Hs; cbn; auto.
    all: intros C; exfalso; destruct (Nat.eq_dec w (cur s)) as [->|Ne];
      [pose proof (i_ok s IV) as O; rewrite W in O; unfold okb in O; cbn in O; destruct C as [C|C]; rewrite C in O; discriminate O
      |pose proof (i_old s IV w Ne) as O; rewrite W in O; discriminate O].
  - exact T.
  - unfold cstep in Hs. destruct (cp s) eqn:E; try discriminate Hs;
      repeat match type of Hs with context[match ?x with _ => _ end] => destruct x eqn:?; try discriminate Hs end; injection Hs as Hs; rewrite <- Hs; cbn; auto; try (intros [X|X]; discriminate X).
    all: try (destruct k; cbn; try (intros [X|X]; discriminate X); intros _; apply T; auto; fail).
  - cbn. inversion Hp; subst; intros [X|X]; discriminate X.
Qed.
Lemma someone ends s : reach init (step false) s -> in_call (cp s) = true -> ends = true \/ awaits_run (cp s) = false ->
  c_ready s = true \/ bound ends (cur s) s <> None.
Proof.
  intros R IC E. pose proof (reach_inv s R) as IV. pose proof IV as [H1 H2 H3 H4 H5 H6 H7]. pose proof (told_inv s R) as T.
  destruct (c_ready s) eqn:Cr; [auto|]. right. unfold c_ready in Cr.
  assert (B : ends = false -> wpcs s (cur s) = WRun -> m_execute s = false).
  { intros -> W. destruct E as [E|E]; [discriminate E|]. destruct (cp s) eqn:C; try match goal with k : jk |- _ => destruct k end; try discriminate IC; try discriminate Cr; try discriminate E; rewrite W in *.
    all: try (apply T; auto; fail).
    all: unfold okb in H1; cbn in H1; try discriminate H1; destruct (m_starting s); try discriminate Cr; cbn in H1; rewrite ?andb_false_r in H1; cbn in H1; discriminate H1. }
  assert (W : wstep (cur s) s <> None -> bound ends (cur s) s <> None).
  { unfold bound. intros Ws. destruct (wpcs s (cur s)) eqn:W; auto. destruct ends; cbn; auto. rewrite B by auto. cbn. exact Ws. }
  apply W. clear W B. unfold wstep.
  assert (X : prep (wpcs s (cur s)) || actp (wpcs s (cur s)) = true \/ wpcs s (cur s) = W247).
  { destruct (prep (wpcs s (cur s)) || actp (wpcs s (cur s))) eqn:PA; [auto|]. right. unfold okb in H1.
    destruct (wpcs s (cur s)) eqn:Wk; try discriminate PA; auto; exfalso; destruct (cp s) eqn:C; try match goal with k : jk |- _ => destruct k end; try discriminate IC; try discriminate Cr; cbn in *;
      rewrite ?H5 in Cr; cbn in Cr; try discriminate Cr;
      destruct (m_starting s), (m_finished s), (m_joined s), (m_execute s), (j0 (joins s (cur s))); cbn in *; discriminate. }
  destruct X as [X|X]; [|rewrite X; discriminate].
  destruct (wpcs s (cur s)) eqn:Wk; try discriminate X; try discriminate. rewrite H5. cbn. destruct (is273 (cp s)) eqn:I3; [|discriminate].
  destruct (cp s); try discriminate I3. discriminate Cr.
Qed.

Section Run.
Variable ends : bool.
Variable r : nat -> st.
Hypothesis Fr : fair ends r.
Let Er : execution init (step false) r := proj1 Fr.
Let Rr : forall n, reach init (step false) (r n) := execution_reach _ _ _ Er.

Definition live (k : nat) : Prop := in_call (cp (r k)) = true /\ (ends = true \/ awaits_run (cp (r k)) = false).
Definition better (n m : nat) : Prop := in_call (cp (r m)) = false \/ (live m /\ N (r m) < N (r n)).
Lemma live_step k : live k -> better k (S k) \/ same (r k) (r (S k)).
Proof.
  intros [IC A]. destruct (proj2 Er k) as [E|H]; [right; rewrite E; unfold same; auto 10|].
  destruct (step_class _ _ (reach_inv _ (Rr k)) IC H) as [[G|G]|G]; [left; left; exact G| |auto].
  destruct (in_call (cp (r (S k)))) eqn:IC'; [|left; left; exact IC'].
  left. right. split; [|exact G]. split; [exact IC'|]. destruct A as [A|A]; [auto|]. destruct (awaits_kept _ _ (reach_inv _ (Rr k)) IC A H); [congruence|auto].
Qed.
Lemma live_same k : live k -> same (r k) (r (S k)) -> live (S k) /\ N (r (S k)) = N (r k).
Proof. intros L (A & B & C & _). unfold live, N in *. rewrite A, B, C. auto. Qed.
Lemma c_ready_same s s' : same s s' -> c_ready s' = c_ready s.
Proof. intros (A & B & C & D & E & G & H). unfold c_ready. rewrite A, B, C, D, E, G. reflexivity. Qed.
Lemma bound_same w s s' : same s s' -> w = cur s -> bound ends w s <> None -> bound ends w s' <> None.
Proof.
  intros (A & B & C & D & E & G & H) -> X. unfold bound, wstep in *. rewrite C, H, G. destruct (wpcs s (cur s)); try congruence; try discriminate.
  - destruct (mutex s); congruence.
  - destruct (ends || negb (m_execute s)); congruence.
Qed.
Lemma returns n : live n -> eventually n (fun m => in_call (cp (r m)) = false).
Proof.
  apply (leads_rank live _ (fun k => N (r k))). clear n. intros n L.
  destruct (someone ends (r n) (Rr n) (proj1 L) (proj2 L)) as [C|W].
  - apply (wf_leads_rel client r (fun k => live k /\ N (r k) = N (r n) /\ c_ready (r k) = true)).
    + apply Fr.
    + intros k (Lk & _ & Ck). apply c_ready_can; [exact Ck|apply Lk].
    + intros k (Lk & Nk & Ck). destruct (live_step k Lk) as [B|B].
      * right. rewrite <- Nk. exact B.
      * left. destruct (live_same k Lk B). rewrite (c_ready_same _ _ B). split; auto. split; [congruence|auto].
    + intros k (Lk & Nk & Ck) [b T]. destruct (live_step k Lk) as [B|B]; [rewrite <- Nk; exact B|].
      exfalso. destruct (client_gain b _ _ T) as [[G|G]|(_ & C2 & F2)].
      * destruct (live_same k Lk B) as [[G' _] _]. congruence.
      * destruct (live_same k Lk B). lia.
      * unfold c_ready in Ck. rewrite C2, F2 in Ck. discriminate Ck.
    + auto.
  - set (w := cur (r n)) in *.
    apply (wf_leads (bound ends w) r (fun k => live k /\ N (r k) = N (r n) /\ cur (r k) = w /\ bound ends w (r k) <> None)).
    + apply Fr.
    + tauto.
    + intros k (Lk & Nk & Ck & Bk). destruct (live_step k Lk) as [B|B].
      * right. rewrite <- Nk. exact B.
      * left. destruct (live_same k Lk B). split; [auto|]. split; [congruence|]. split; [destruct B as (_ & B & _); congruence|]. eapply bound_same; eauto.
    + intros k (Lk & Nk & Ck & Bk) T. destruct (live_step k Lk) as [B|B]; [rewrite <- Nk; exact B|].
      exfalso. destruct B as (_ & _ & B & _). rewrite Ck in B. unfold taken, bound, wstep in T. destruct (wpcs (r k) w) eqn:Wk; try discriminate T.
      all: try (destruct (mutex (r k)); try discriminate T).
      all: try (destruct (ends || negb (m_execute (r k))); try discriminate T).
      all: injection T as T; rewrite <- T in B; cbn in B; rewrite upd_same in B; discriminate B.
    + auto.
Qed.
End Run.

(* finite schedules as infinite executions *)
Definition follow (ls : list act) (n : nat) : st := match arun false init (firstn n ls) with Some s => s | None => init end.
Lemma arun_app a b s : arun false s (a ++ b) = match arun false s a with Some s' => arun false s' b | None => None end.
Proof. revert s. induction a as [|l a IH]; intros s; [reflexivity|]. cbn. destruct (arun1 false s l); auto. Qed.
Lemma arun1_step s s' a : arun1 false s a = Some s' -> step false s s'.
Proof.
  intros E1. assert (K : forall p, ent false a = Some p -> call false p).
  { destruct a; cbn; try discriminate; intros p; intros [= <-]; constructor. }
  destruct a; cbn in E1;
    try (destruct (resting (cp s)) eqn:Hr; [|discriminate E1]; cbn in K; try discriminate E1; injection E1 as <-; apply step_call; auto; fail).
  - eapply step_worker; eauto.
  - eapply step_client; eauto.
  - destruct (wpcs s w) eqn:Ew; try discriminate E1. destruct (creq s w) eqn:Ek; [|discriminate]. injection E1 as <-. apply step_cancelled; auto.
Qed.
Lemma follow_fair ends ls s : arun false init ls = Some s -> (forall w, bound ends w s = None) -> (forall b, cstep b s = None) -> fair ends (follow ls).
Proof.
  intros Rn W C.
  assert (Late : forall m, length ls <= m -> follow ls m = s) by (intros m L; unfold follow; rewrite firstn_all2 by exact L; rewrite Rn; reflexivity).
  split; [split|split]; [reflexivity| | |].
  - intros n. destruct (Nat.le_gt_cases (length ls) n) as [L|L]; [left; rewrite !Late; auto; lia|]. right.
    unfold follow. destruct (nth_error ls n) as [l|] eqn:E; [|apply nth_error_None in E; lia].
    destruct (nth_error_split ls n E) as (a & b & -> & La). subst n.
    replace (firstn (S (length a)) (a ++ l :: b)) with (a ++ [l]) by (replace (S (length a)) with (length a + 1) by lia; rewrite firstn_app_2; reflexivity).
    replace (firstn (length a) (a ++ l :: b)) with a by (rewrite firstn_app, Nat.sub_diag, firstn_O, app_nil_r, firstn_all; reflexivity).
    rewrite arun_app in Rn |- *. destruct (arun false init a) as [s1|]; [|discriminate Rn]. cbn in Rn |- *. destruct (arun1 false s1 l) as [s2|] eqn:A; [|discriminate Rn].
    apply (arun1_step _ _ _ A).
  - intros w n. exists (max n (length ls)). split; [lia|]. left. rewrite Late by lia. apply W.
  - intros n. exists (max n (length ls)). split; [lia|]. left. intros s' [b H]. rewrite Late in H by lia. rewrite C in H. discriminate H.
Qed.
