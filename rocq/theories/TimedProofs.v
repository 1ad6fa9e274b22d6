From Verif Require Import Base CInt TimeModel TimeSpec PeriodModel PeriodSpec PeriodProofs Conc TimedModel TimedSpec.
Local Open Scope Z_scope.

Lemma runs_cons p s t now e l s' o : runs p s ((t, now, e) :: l) = Ok (s', o) ->
  exists s1 o1 o2, step p s t now e = Ok (s1, o1) /\ runs p s1 l = Ok (s', o2) /\ o = o1 ++ o2.
Proof.
  cbn [runs]. destruct (step p s t now e) as [[s1 o1]| |]; cbn [bind fst snd]; try discriminate.
  destruct (runs p s1 l) as [[s2 o2]| |] eqn:R; cbn [bind fst snd]; try discriminate.
  intros E. injection E as <- <-. exists s1, o1, o2. split; [reflexivity|]. split; [assumption|reflexivity].
Qed.
Lemma holders_app a : forall h b, holders h (a ++ b) = holders (holders h a) b.
Proof. induction a as [|[t w b0|t] a IH]; intros h b; [reflexivity| |]; cbn [app holders]; [destruct b0|]; apply IH. Qed.
Lemma takes_app a : forall b, takes (a ++ b) = takes a + takes b.
Proof. induction a as [|[t w b0|t] a IH]; intros b; [reflexivity| |]; cbn [app takes]; [destruct b0|]; rewrite IH; lia. Qed.
Lemma posts_app a : forall b, posts (a ++ b) = posts a + posts b.
Proof. induction a as [|[t w b0|t] a IH]; intros b; [reflexivity| |]; cbn [app posts]; rewrite IH; lia. Qed.
Lemma posts_nonneg o : 0 <= posts o.
Proof. induction o as [|[t w b0|t] o IH]; cbn [posts]; lia. Qed.

(* what one step does to the object *)
Inductive effect (s : state) (s' : state) : list obs -> Prop :=
| Nothing : object s' = object s -> effect s s' []
| Failure t w : object s' = object s -> effect s s' [Returned t w false]
| Success t w : acquire t w (object s) = Got (object s') -> effect s s' [Returned t w true]
| Freed t : release t (object s) = Ok (object s') -> effect s s' [Released t].
Lemma step_effect p s t now e s' o : step p s t now e = Ok (s', o) -> effect s s' o.
Proof.
  intros E. destruct e; cbn [step] in E.
  - destruct (waiting s t); [injection E as <- <-; apply Nothing; reflexivity|]. destruct (exists_ p w (object s)); [|injection E as <- <-; apply Nothing; reflexivity].
    destruct (begin p now h); cbn [bind] in E; try discriminate. injection E as <- <-. apply Nothing. reflexivity.
  - destruct (waiting s t) as [[w l]|]; [|injection E as <- <-; apply Nothing; reflexivity]. cbv zeta in E.
    assert (G : forall x, x = match l with Forever => (s, []) | Deadline d => if d <=? ns now then (mkS (object s) (upd (waiting s) t None), [Returned t w false]) else (s, []) | AtOnce => (mkS (object s) (upd (waiting s) t None), [Returned t w false]) end -> x = (s', o) -> effect s s' o).
    { intros x -> X. destruct l as [|d|]; [|destruct (d <=? ns now)|]; injection X as <- <-; first [apply Nothing; reflexivity|apply Failure; reflexivity]. }
    destruct (acquire t w (object s)) as [ob| |] eqn:A.
    + injection E as <- <-. apply Success. exact A.
    + destruct p; try (injection E as <- <-; apply Failure; reflexivity). destruct l; try (injection E as <- <-; apply Failure; reflexivity).
      eapply G; [reflexivity|]. injection E as E. exact E.
    + eapply G; [reflexivity|]. injection E as E. exact E.
  - destruct (waiting s t); [injection E as <- <-; apply Nothing; reflexivity|]. destruct (release t (object s)) as [ob| |] eqn:A; cbn [bind] in E; try discriminate.
    injection E as <- <-. apply Freed. exact A.
  - destruct (waiting s t) as [[[] []]|], p; injection E as <- <-; first [apply Nothing; reflexivity|apply Failure; reflexivity].
Qed.
Lemma step_waiting p s t now e s' o u : step p s t now e = Ok (s', o) -> u <> t -> waiting s' u = waiting s u.
Proof.
  intros E N. destruct e; cbn [step] in E.
  - destruct (waiting s t); [injection E as <- <-; reflexivity|]. destruct (exists_ p w (object s)); [|injection E as <- <-; reflexivity].
    destruct (begin p now h); cbn [bind] in E; try discriminate. injection E as <- <-. cbn. apply upd_other. exact N.
  - destruct (waiting s t) as [[w l]|]; [|injection E as <- <-; reflexivity]. cbv zeta in E.
    destruct (acquire t w (object s)), p, l as [|d|]; try destruct (d <=? ns now); injection E as <- <-; cbn; rewrite ?upd_other by exact N; reflexivity.
  - destruct (waiting s t); [injection E as <- <-; reflexivity|]. destruct (release t (object s)); cbn [bind] in E; try discriminate. injection E as <- <-. reflexivity.
  - destruct (waiting s t) as [[[] []]|], p; injection E as <- <-; cbn; rewrite ?upd_other by exact N; reflexivity.
Qed.
Lemma runs_waiting p l : forall s s' o u, runs p s l = Ok (s', o) -> others_only u l -> waiting s' u = waiting s u.
Proof.
  induction l as [|[[t now] e] l IH]; intros s s' o u E N; [injection E as <- <-; reflexivity|].
  destruct (runs_cons _ _ _ _ _ _ _ _ E) as (s1 & o1 & o2 & E1 & E2 & ->). apply Forall_cons_iff in N. destruct N as [N1 N2]. cbn in N1.
  rewrite (IH _ _ _ _ E2 N2). apply (step_waiting _ _ _ _ _ _ _ _ E1). congruence.
Qed.

(* ---- locks ---- *)
Definition InvL (ob : obj) (h : list (nat * want)) : Prop :=
  match ob with
  | Mtx None => h = []
  | Mtx (Some (u, d)) => (1 <= d)%nat /\ h = repeat (u, Lock) d
  | Rwl (Some u) r => r = [] /\ h = [(u, Write)]
  | Rwl None r => h = map (fun x => (x, Read)) r
  | Sem _ => False
  end.
Lemma drop_read t r r' : remove_one t r = Some r' -> drop t (map (fun x => (x, Read)) r) = map (fun x => (x, Read)) r'.
Proof.
  revert r'. induction r as [|u r IH]; intros r' E; cbn [remove_one map drop] in *; [discriminate|]. destruct (u =? t)%nat; [injection E as <-; reflexivity|].
  destruct (remove_one t r) as [r2|]; [|discriminate]. injection E as <-. cbn [map]. f_equal. apply IH. reflexivity.
Qed.
Lemma drop_other t u w n : u <> t -> drop t (repeat (u, w) n) = repeat (u, w) n.
Proof. intros N. induction n as [|n IH]; [reflexivity|]. cbn [repeat drop]. destruct (Nat.eqb_spec u t); [contradiction|]. f_equal. exact IH. Qed.
Lemma effect_inv s s' o h : effect s s' o -> InvL (object s) h -> InvL (object s') (holders h o).
Proof.
  intros E I0. destruct E as [E|t w E|t w E|t E]; cbn [holders]; try (rewrite E; exact I0).
  - destruct (object s) as [[[u d]|]|[u|] r|v]; cbn [InvL] in I0; destruct w; cbn [acquire] in E; try discriminate.
    + destruct (Nat.eqb_spec u t) as [->|]; [|discriminate]. injection E as <-. destruct I0 as [I1 ->]. cbn [InvL]. split; [lia|reflexivity].
    + injection E as <-. subst h. cbn [InvL]. split; [lia|reflexivity].
    + destruct (u =? t)%nat; discriminate.
    + destruct (u =? t)%nat; discriminate.
    + injection E as <-. subst h. reflexivity.
    + destruct r; [|discriminate]. injection E as <-. subst h. split; reflexivity.
    + destruct I0.
  - destruct (object s) as [[[u d]|]|[u|] r|v]; cbn [InvL release] in *.
    + destruct I0 as [I1 ->]. destruct (Nat.eqb_spec u t) as [->|N]; injection E as <-.
      * destruct d as [|[|d]]; [lia| |]; cbn [repeat drop]; rewrite Nat.eqb_refl; [reflexivity|]. split; [lia|reflexivity].
      * rewrite drop_other by exact N. split; [exact I1|reflexivity].
    + injection E as <-. subst h. reflexivity.
    + destruct (Nat.eqb_spec u t) as [->|N]; [|discriminate]. injection E as <-. destruct I0 as [-> ->]. cbn [drop]. rewrite Nat.eqb_refl. reflexivity.
    + destruct (remove_one t r) as [r'|] eqn:R; [|discriminate]. injection E as <-. subst h. exact (drop_read _ _ _ R).
    + destruct I0.
Qed.
Lemma runs_inv p l : forall s s' o h, runs p s l = Ok (s', o) -> InvL (object s) h -> InvL (object s') (holders h o).
Proof.
  induction l as [|[[t now] e] l IH]; intros s s' o h E I0; [injection E as <- <-; exact I0|].
  destruct (runs_cons _ _ _ _ _ _ _ _ E) as (s1 & o1 & o2 & E1 & E2 & ->). rewrite holders_app.
  apply (IH _ _ _ _ E2). exact (effect_inv _ _ _ _ (step_effect _ _ _ _ _ _ _ E1) I0).
Qed.
Lemma fresh_inv ob : fresh ob -> InvL (object (idle ob)) [].
Proof. intros [->| ->]; reflexivity. Qed.
Lemma repeat_in {A} (x y : A) n : In y (repeat x n) -> y = x.
Proof. apply repeat_spec. Qed.
Lemma inv_exclusion ob h t1 w1 t2 w2 : InvL ob h -> In (t1, w1) h -> In (t2, w2) h -> t1 <> t2 -> w1 = Read /\ w2 = Read.
Proof.
  intros I0 A B N. destruct ob as [[[u d]|]|[u|] r|v]; cbn [InvL] in I0.
  - destruct I0 as [_ ->]. apply repeat_in in A. apply repeat_in in B. congruence.
  - subst h. destruct A.
  - destruct I0 as [_ ->]. destruct A as [A|[]], B as [B|[]]. congruence.
  - subst h. apply in_map_iff in A. apply in_map_iff in B. destruct A as (x & A & _), B as (y & B & _). injection A as _ <-. injection B as _ <-. split; reflexivity.
  - destruct I0.
Qed.
(* what acquire answers, in terms of the holders *)
Definition free_h (t : nat) (w : want) (h : list (nat * want)) : Prop :=
  match w with
  | Lock => forall u, In (u, Lock) h -> u = t
  | Read => forall u, ~ In (u, Write) h
  | Write => forall u w', ~ In (u, w') h
  | Take => False
  end.
Lemma acquire_answer p ob h t w : InvL ob h -> exists_ p w ob = true ->
  match acquire t w ob with
  | Got _ => free_h t w h
  | Deadlk => ~ free_h t w h /\ In (t, Write) h
  | Busy => ~ free_h t w h /\ ~ In (t, Write) h
  end.
Proof.
  intros I0 X. destruct ob as [[[u d]|]|[u|] r|v]; cbn [InvL] in I0; destruct w; cbn [exists_] in X; try (destruct p; discriminate); cbn [acquire free_h].
  - destruct I0 as [I1 ->]. destruct (Nat.eqb_spec u t) as [->|N].
    + intros x I0. apply repeat_in in I0. congruence.
    + split; [|intros I0; apply repeat_in in I0; discriminate]. intros Y. apply N. apply Y. destruct d; [lia|]. left. reflexivity.
  - subst h. intros u [].
  - destruct I0 as [-> ->]. destruct (Nat.eqb_spec u t) as [->|N].
    + split; [|left; reflexivity]. intros Y. apply (Y t). left. reflexivity.
    + split; [|intros [I0|[]]; congruence]. intros Y. apply (Y u). left. reflexivity.
  - destruct I0 as [-> ->]. destruct (Nat.eqb_spec u t) as [->|N].
    + split; [|left; reflexivity]. intros Y. apply (Y t Write). left. reflexivity.
    + split; [|intros [I0|[]]; congruence]. intros Y. apply (Y u Write). left. reflexivity.
  - subst h. intros u I0. apply in_map_iff in I0. destruct I0 as (x & I0 & _). discriminate.
  - subst h. destruct r as [|x r].
    + intros u w' [].
    + split; [|intros I0; apply in_map_iff in I0; destruct I0 as (y & I0 & _); discriminate]. intros Y. apply (Y x Read). left. reflexivity.
  - destruct I0.
Qed.

(* ---- limits ---- *)
Definition lim_expired (l : limit) (now : time) : Prop := match l with Forever => False | Deadline d => d <= ns now | AtOnce => True end.
Lemma until_expired p t now : p <> Win32 -> canonical t -> 0 <= total now -> lim_expired (until p t) now <-> total t <= total now.
Proof.
  intros Np C0 P. assert (G : lim_expired (Deadline (ns t)) now <-> total t <= total now) by (unfold lim_expired, ns, total; tauto).
  destruct p; try contradiction; cbn [until]; [|exact G]. destruct ((0 <=? nsecs t) && (nsecs t <? 1000000000) && (0 <=? secs t)) eqn:B; [exact G|].
  cbn [lim_expired]. split; [|tauto]. intros _. unfold canonical in C0. destruct C0 as (_ & C1 & C2 & C3).
  assert (total t <= 0); [|lia]. unfold total. apply andb_false_iff in B. destruct B as [B|B]; [apply andb_false_iff in B; destruct B as [B|B]|]; lia.
Qed.
Lemma begin_posix p now h : p <> Win32 -> sane h -> clock_value now ->
  exists l, begin p now h = Ok l /\ forall now2, clock_value now2 -> (lim_expired l now2 <-> expired now h now2).
Proof.
  intros Np S0 [C1 C2]. destruct h; cbn [sane] in S0.
  - exists Forever. split; [destruct p; reflexivity|]. intros now2 _. reflexivity.
  - exists AtOnce. split; [destruct p; reflexivity|]. intros now2 _. reflexivity.
  - exists (until p t). split; [destruct p; [reflexivity|reflexivity|contradiction]|]. intros now2 [_ D]. cbn [expired]. apply until_expired; [exact Np|apply S0|exact D].
  - destruct (absolute_ok now d C1 S0) as (t & E & C & T0). exists (until p t). split; [destruct p; [| |contradiction]; cbn [begin]; rewrite E; reflexivity|].
    intros now2 [_ D]. rewrite (until_expired p t now2 Np C D), T0. cbn [expired]. destruct (total d <? 0); [|tauto]. change (365 * 24 * 60 * 60) with (365 * 86400). tauto.
Qed.

(* one Run *)
Lemma run_cases p s t now w l : waiting s t = Some (w, l) ->
  match acquire t w (object s) with
  | Got _ => exists s', step p s t now Run = Ok (s', [Returned t w true])
  | Deadlk => if match p, l with Darwin, Deadline _ => true | _, _ => false end
              then (lim_expired l now -> exists s', step p s t now Run = Ok (s', [Returned t w false])) /\ (~ lim_expired l now -> step p s t now Run = Ok (s, []))
              else exists s', step p s t now Run = Ok (s', [Returned t w false])
  | Busy => (lim_expired l now -> exists s', step p s t now Run = Ok (s', [Returned t w false])) /\ (~ lim_expired l now -> step p s t now Run = Ok (s, []))
  end.
Proof.
  intros W. cbn [step]. rewrite W. cbv zeta.
  assert (G : forall r, r = match l with Forever => (s, []) | Deadline d => if d <=? ns now then (mkS (object s) (upd (waiting s) t None), [Returned t w false]) else (s, []) | AtOnce => (mkS (object s) (upd (waiting s) t None), [Returned t w false]) end ->
    (lim_expired l now -> exists s', @Ok (state * list obs) r = Ok (s', [Returned t w false])) /\ (~ lim_expired l now -> @Ok (state * list obs) r = Ok (s, []))).
  { intros r ->. destruct l as [|d|]; cbn [lim_expired].
    - split; [tauto|reflexivity].
    - destruct (Z.leb_spec d (ns now)); (split; [intros; try lia|intros; try lia]); [eexists; reflexivity|reflexivity].
    - split; [eexists; reflexivity|tauto]. }
  destruct (acquire t w (object s)).
  - eexists. reflexivity.
  - destruct p, l; cbv iota; try (eexists; reflexivity). apply G. reflexivity.
  - apply G. reflexivity.
Qed.

(* ---- semaphores ---- *)
Lemma count_app a : forall v b, count v (a ++ b) = count (count v a) b.
Proof. induction a as [|[t w [|]|t] a IH]; intros v b; [reflexivity| | |]; cbn [app count]; apply IH. Qed.
Lemma effect_sem s s' o v : effect s s' o -> object s = Sem v -> 0 <= v <= sem_max ->
  object s' = Sem (count v o) /\ 0 <= count v o <= sem_max.
Proof.
  intros E V P. unfold sem_max in *. destruct E as [E|t w E|t w E|t E]; cbn [count] in *; rewrite V in E.
  - rewrite E. split; [reflexivity|lia].
  - rewrite E. split; [reflexivity|lia].
  - destruct w; cbn [acquire] in E; try discriminate. destruct (Z.ltb_spec 0 v); [|discriminate]. injection E as <-. split; [reflexivity|lia].
  - cbn [release] in E. unfold sem_max in E. injection E as <-. split; [|lia]. destruct (Z.ltb_spec v 2147483647); f_equal; lia.
Qed.
Lemma runs_sem p l : forall s s' o v, runs p s l = Ok (s', o) -> object s = Sem v -> 0 <= v <= sem_max ->
  object s' = Sem (count v o) /\ 0 <= count v o <= sem_max.
Proof.
  induction l as [|[[t now] e] l IH]; intros s s' o v E V P.
  - injection E as <- <-. cbn [count] in *. split; assumption.
  - destruct (runs_cons _ _ _ _ _ _ _ _ E) as (s1 & o1 & o2 & E1 & E2 & ->). rewrite count_app.
    destruct (effect_sem _ _ _ _ (step_effect _ _ _ _ _ _ _ E1) V P) as [A B]. exact (IH _ _ _ _ E2 A B).
Qed.
Lemma count_sum o : forall v, no_overflow v o -> count v o = v + posts o - takes o.
Proof.
  induction o as [|[t w [|]|t] o IH]; intros v N; cbn [no_overflow count posts takes] in *; [lia|rewrite (IH _ N); lia|rewrite (IH _ N); lia|].
  destruct N as [N1 N2]. rewrite Z.min_l by lia. rewrite (IH _ N2). lia.
Qed.
Lemma drop_length t w h : In (t, w) h -> length h = S (length (drop t h)).
Proof.
  induction h as [|[u x] h IH]; intros J; [destruct J|]. cbn [drop]. destruct (Nat.eqb_spec u t); [reflexivity|].
  destruct J as [J|J]; [congruence|]. cbn [length]. f_equal. exact (IH J).
Qed.
Lemma scoped_sem v0 o : v0 <= sem_max -> forall h, scoped_use h o -> Z.of_nat (length (holders h o)) + count (v0 - Z.of_nat (length h)) o = v0.
Proof.
  intros M. unfold sem_max in M. induction o as [|[t w [|]|t] o IH]; intros h U; cbn [scoped_use holders count] in *.
  - lia.
  - rewrite <- (IH _ U) at 2. cbn [length]. do 2 f_equal. lia.
  - apply IH, U.
  - destruct U as [I0 U]. pose proof (drop_length _ _ _ I0) as L. rewrite <- (IH _ U) at 2. do 2 f_equal. lia.
Qed.
Lemma msec_ok d : canonical d -> 0 <= total d < 4294967295 * 1000000 -> to_msec d = Ok (total d / 1000000) /\ 0 <= total d / 1000000 < 4294967295.
Proof.
  intros C0 H. assert (Q : 0 <= total d / 1000000 < 4294967295) by (split; [apply Z.div_pos; lia|apply Z.div_lt_upper_bound; lia]).
  split; [|exact Q]. unfold canonical, total in *. destruct C0 as (_ & C1 & C2 & C3).
  assert (S0 : 0 <= secs d <= 4294967) by lia. assert (N0 : 0 <= nsecs d) by lia.
  assert (E : Z.quot (nsecs d) 1000000 = nsecs d / 1000000) by (apply Z.quot_div_nonneg; lia).
  assert (N1 : 0 <= nsecs d / 1000000 < 1000) by (split; [apply Z.div_pos; lia|apply Z.div_lt_upper_bound; lia]).
  assert (X : (secs d * 1000000000 + nsecs d) / 1000000 = secs d * 1000 + nsecs d / 1000000).
  { replace (secs d * 1000000000 + nsecs d) with (nsecs d + secs d * 1000 * 1000000) by lia. rewrite Z.div_add by lia. lia. }
  rewrite X. unfold to_msec. rewrite E. unfold chk64, in_i64, bind.
  repeat match goal with |- context [if ?b then _ else _] => let H := fresh in destruct b eqn:H; [|exfalso; lia] end. reflexivity.
Qed.
Lemma milliseconds_ok now d : canonical d -> 0 <= total d < 4294967295 * 1000000 ->
  milliseconds now d = Ok (Deadline (total now + total d / 1000000 * 1000000)).
Proof.
  intros C0 H. destruct (msec_ok d C0 H) as [E Q]. unfold milliseconds. rewrite E. cbn [bind]. unfold to_u32. rewrite Z.mod_small by lia.
  destruct (Z.eqb_spec (total d / 1000000) 4294967295); [lia|]. unfold ns, total. reflexivity.
Qed.

(* the kind of the object stays *)
Definition kind (o : obj) : nat := match o with Mtx _ => 0 | Rwl _ _ => 1 | Sem _ => 2 end.
Lemma effect_kind s s' o : effect s s' o -> kind (object s') = kind (object s).
Proof.
  intros E. destruct E as [E|t w E|t w E|t E]; try (rewrite E; reflexivity).
  - destruct w, (object s) as [[[u d]|]|[u|] [|x r]|v]; cbn [acquire] in E; try destruct (u =? t)%nat; try destruct (0 <? v); try discriminate; injection E as <-; reflexivity.
  - destruct (object s) as [[[u d]|]|[u|] r|v]; cbn [release] in E.
    + injection E as <-. destruct (u =? t)%nat; [|reflexivity]. destruct d as [|[|d]]; reflexivity.
    + injection E as <-. reflexivity.
    + destruct (u =? t)%nat; [|discriminate]. injection E as <-. reflexivity.
    + destruct (remove_one t r); [|discriminate]. injection E as <-. reflexivity.
    + injection E as <-. destruct (v <? sem_max); reflexivity.
Qed.
Lemma runs_kind p l : forall s s' o, runs p s l = Ok (s', o) -> kind (object s') = kind (object s).
Proof.
  induction l as [|[[t now] e] l IH]; intros s s' o E; [injection E as <- <-; reflexivity|].
  destruct (runs_cons _ _ _ _ _ _ _ _ E) as (s1 & o1 & o2 & E1 & E2 & ->).
  rewrite (IH _ _ _ E2). exact (effect_kind _ _ _ (step_effect _ _ _ _ _ _ _ E1)).
Qed.
Lemma exists_kind p w a b : kind a = kind b -> exists_ p w a = exists_ p w b.
Proof. destruct p, w, a, b; cbn; congruence. Qed.
(* after a call, whatever others do, the thread waits with this limit *)
Lemma call_waits p s t now w h l l2 s2 o2 : waiting s t = None -> exists_ p w (object s) = true -> begin p now h = Ok l ->
  others_only t l2 -> runs p s ((t, now, Call w h) :: l2) = Ok (s2, o2) -> waiting s2 t = Some (w, l).
Proof.
  intros W X B N E. destruct (runs_cons _ _ _ _ _ _ _ _ E) as (s3 & o3 & o4 & E1 & E2 & ->).
  cbn [step] in E1. rewrite W, X, B in E1. cbn [bind] in E1. injection E1 as <- <-.
  rewrite (runs_waiting _ _ _ _ _ _ E2 N). cbn. apply upd_same.
Qed.
Lemma free_for_h t w o : free_for t w o <-> free_h t w (holders [] o).
Proof. destruct w; reflexivity. Qed.
Lemma fresh_not_sem p ob s l o : fresh ob -> runs p (idle ob) l = Ok (s, o) -> InvL (object s) (holders [] o).
Proof. intros F0 E. exact (runs_inv _ _ _ _ _ _ E (fresh_inv _ F0)). Qed.
Lemma runs_app p a : forall s b s1 o1 s2 o2, runs p s a = Ok (s1, o1) -> runs p s1 b = Ok (s2, o2) -> runs p s (a ++ b) = Ok (s2, o1 ++ o2).
Proof.
  induction a as [|[[t now] e] a IH]; intros s b s1 o1 s2 o2 A B; [injection A as <- <-; exact B|].
  destruct (runs_cons _ _ _ _ _ _ _ _ A) as (s3 & o3 & o4 & E1 & E2 & ->). cbn [app runs]. rewrite E1. cbn [bind fst snd].
  rewrite (IH _ _ _ _ _ _ E2 B). cbn [bind fst snd]. rewrite app_assoc. reflexivity.
Qed.

Lemma answer_gen p ob l1 s1 o1 t now1 w h l l2 s2 o2 now2 (e : Prop) :
  fresh ob -> runs p (idle ob) l1 = Ok (s1, o1) -> waiting s1 t = None -> exists_ p w ob = true ->
  begin p now1 h = Ok l -> (lim_expired l now2 <-> e) -> others_only t l2 ->
  runs p s1 ((t, now1, Call w h) :: l2) = Ok (s2, o2) ->
  (free_for t w (o1 ++ o2) -> exists s3, step p s2 t now2 Run = Ok (s3, [Returned t w true])) /\
  (~ free_for t w (o1 ++ o2) -> e \/ (has t Write (o1 ++ o2) /\ match p, l with Darwin, Deadline _ => False | _, _ => True end) ->
   exists s3, step p s2 t now2 Run = Ok (s3, [Returned t w false])) /\
  (~ free_for t w (o1 ++ o2) -> ~ e -> ~ (has t Write (o1 ++ o2) /\ match p, l with Darwin, Deadline _ => False | _, _ => True end) ->
   step p s2 t now2 Run = Ok (s2, [])).
Proof.
  intros F0 E1 W X B L N E2. assert (K : exists_ p w (object s1) = true) by (rewrite (exists_kind p w (object s1) ob); [exact X|]; exact (runs_kind _ _ _ _ _ E1)).
  pose proof (call_waits _ _ _ _ _ _ _ _ _ _ W K B N E2) as W2.
  pose proof (runs_app _ _ _ _ _ _ _ _ E1 E2) as E3. pose proof (fresh_not_sem _ _ _ _ _ F0 E3) as I0.
  assert (K2 : exists_ p w (object s2) = true) by (rewrite (exists_kind p w (object s2) ob); [exact X|]; exact (runs_kind _ _ _ _ _ E3)).
  pose proof (acquire_answer p _ _ t w I0 K2) as A. pose proof (run_cases p s2 t now2 w l W2) as R.
  rewrite free_for_h. unfold has. destruct (acquire t w (object s2)).
  - split; [intros _; exact R|]. split; intros Nf; contradiction.
  - destruct A as [A1 A2]. split; [contradiction|]. destruct p, l; cbn in R |- *.
    all: split; [intros _ [Y|[_ Y]]|intros _ Y1 Y2]; try contradiction; try tauto; try (exfalso; apply Y2; split; [exact A2|exact Logic.I]).
  - destruct A as [A1 A2]. destruct R as [R1 R2]. split; [contradiction|]. split.
    + intros _ [Y|[Y _]]; [apply R1, L, Y|contradiction].
    + intros _ Y _. apply R2. rewrite L. exact Y.
Qed.
Lemma begin_posix_block p now h l : p <> Win32 -> begin p now h = Ok l -> p = Darwin -> (match l with Deadline _ => False | _ => True end <-> (h = Block \/ h = Try)).
Proof.
  intros _ B ->. destruct h; cbn [begin] in B.
  - injection B as <-. tauto.
  - injection B as <-. tauto.
  - injection B as <-. cbn. split; [contradiction|]. intros [Q|Q]; discriminate.
  - destruct (getAbsoluteTimeout now d); cbn [bind] in B; try discriminate. injection B as <-. cbn. split; [contradiction|]. intros [Q|Q]; discriminate.
Qed.
Lemma begin_win now h : sane h -> fits_ms now h -> clock_value now ->
  exists l, begin Win32 now h = Ok l /\ forall now2, (lim_expired l now2 <-> expired_ms now h now2).
Proof.
  intros S0 Fm [C1 C2]. destruct h; cbn [sane fits_ms] in *.
  - exists Forever. split; [reflexivity|]. intros now2. reflexivity.
  - exists AtOnce. split; [reflexivity|]. intros now2. reflexivity.
  - destruct (relative_ok now t C1 S0) as (d & E & D1 & D2). cbn [begin]. rewrite E. cbn [bind].
    rewrite (milliseconds_ok now d D1) by (rewrite D2; lia). eexists. split; [reflexivity|]. intros now2. unfold lim_expired, expired_ms, whole_ms. rewrite D2. unfold ns, total. reflexivity.
  - cbn [begin]. rewrite (milliseconds_ok now d (proj1 S0)) by lia. eexists. split; [reflexivity|]. intros now2. reflexivity.
Qed.
Lemma begin_all p now h : in_range p now h -> clock_value now ->
  exists l, begin p now h = Ok l /\ (forall now2, clock_value now2 -> (lim_expired l now2 <-> gives_up p now h now2)) /\
    (match p, l with Darwin, Deadline _ => False | _, _ => True end <-> (p = Darwin -> h = Block \/ h = Try)).
Proof.
  intros [S0 Fm] C0. destruct p.
  - destruct (begin_posix Posix now h ltac:(discriminate) S0 C0) as (l & B & L). exists l. split; [exact B|]. split; [exact L|]. split; [discriminate|trivial].
  - destruct (begin_posix Darwin now h ltac:(discriminate) S0 C0) as (l & B & L). exists l. split; [exact B|]. split; [exact L|].
    pose proof (begin_posix_block Darwin now h l ltac:(discriminate) B eq_refl) as Q. rewrite Q. tauto.
  - destruct (begin_win now h S0 Fm C0) as (l & B & L). exists l. split; [exact B|]. split; [intros now2 _; apply L|]. split; [discriminate|trivial].
Qed.

Lemma answer_sem p v0 l1 s1 o1 t now1 h l l2 s2 o2 now2 (e : Prop) :
  p <> Darwin -> 0 <= v0 <= sem_max -> runs p (idle (Sem v0)) l1 = Ok (s1, o1) -> waiting s1 t = None ->
  begin p now1 h = Ok l -> (lim_expired l now2 <-> e) -> others_only t l2 ->
  runs p s1 ((t, now1, Call Take h) :: l2) = Ok (s2, o2) ->
  (0 < count v0 (o1 ++ o2) -> exists s3, step p s2 t now2 Run = Ok (s3, [Returned t Take true])) /\
  (count v0 (o1 ++ o2) = 0 -> e -> exists s3, step p s2 t now2 Run = Ok (s3, [Returned t Take false])) /\
  (count v0 (o1 ++ o2) = 0 -> ~ e -> step p s2 t now2 Run = Ok (s2, [])).
Proof.
  intros Np P E1 W B L N E2.
  assert (K : exists_ p Take (object s1) = true) by (rewrite (exists_kind p Take (object s1) (Sem v0)); [destruct p; [reflexivity|contradiction|reflexivity]|]; exact (runs_kind _ _ _ _ _ E1)).
  pose proof (call_waits _ _ _ _ _ _ _ _ _ _ W K B N E2) as W2.
  pose proof (runs_app _ _ _ _ _ _ _ _ E1 E2) as E3. destruct (runs_sem _ _ _ _ _ _ E3 eq_refl P) as [V Q].
  pose proof (run_cases p s2 t now2 Take l W2) as R. rewrite V in R. cbn [acquire] in R.
  destruct (Z.ltb_spec 0 (count v0 (o1 ++ o2))).
  - split; [intros _; exact R|]. split; intros; lia.
  - destruct R as [R1 R2]. split; [intros; lia|]. split; [intros _ Y; apply R1, L, Y|]. intros _ Y. apply R2. rewrite L. exact Y.
Qed.

(* what is defined *)
Lemma release_defined ob h t w : InvL ob h -> In (t, w) h -> exists o, release t ob = Ok o.
Proof.
  intros I0 A. destruct ob as [[[u d]|]|[u|] r|v]; cbn [InvL release] in *; try (eexists; reflexivity).
  - destruct I0 as [_ ->]. destruct A as [A|[]]. injection A as -> _. rewrite Nat.eqb_refl. eexists. reflexivity.
  - subst h. apply in_map_iff in A. destruct A as (x & A & J). injection A as -> _.
    assert (G : exists r', remove_one t r = Some r').
    { induction r as [|u r IH]; [destruct J|]. cbn [remove_one]. destruct (Nat.eqb_spec u t); [eexists; reflexivity|]. destruct J as [J|J]; [contradiction|]. destruct (IH J) as [r' ->]. eexists. reflexivity. }
    destruct G as [r' ->]. eexists. reflexivity.
Qed.
Lemma step_defined p s t now e : (forall w h, e = Call w h -> in_range p now h) -> clock_value now ->
  (e = Release -> waiting s t = None -> exists o, release t (object s) = Ok o) -> exists s' o, step p s t now e = Ok (s', o).
Proof.
  intros A C0 R. destruct e; cbn [step].
  - destruct (waiting s t); [eauto|]. destruct (exists_ p w (object s)); [|eauto]. destruct (begin_all p now h (A _ _ eq_refl) C0) as (l & -> & _). cbn [bind]. eauto.
  - destruct (waiting s t) as [[w l]|]; [|eauto]. cbv zeta. destruct (acquire t w (object s)); [eauto| |].
    + destruct (match p with Darwin => _ | _ => _ end). eauto.
    + destruct (match l with Forever => _ | _ => _ end). eauto.
  - destruct (waiting s t); [eauto|]. destruct (R eq_refl eq_refl) as [o ->]. cbn [bind]. eauto.
  - destruct (waiting s t) as [[[] []]|], p; eauto.
Qed.
