(* Proofs about scope guards and scoped timers. *)
From Verif Require Import Base CInt TimeModel TimeSpec TimeProofs GuardModel GuardSpec.
Local Open Scope nat_scope.

Lemma known_snoc h e : known (h ++ [e]) = note (known h) e.
Proof. unfold known. rewrite fold_left_app. reflexivity. Qed.
Lemma alive_snoc h e : alive (h ++ [e]) = step_alive (alive h) e.
Proof. unfold alive. rewrite fold_left_app. reflexivity. Qed.
Lemma log_snoc h e : log_state (h ++ [e]) = step_log (log_state h) e.
Proof. unfold log_state. rewrite fold_left_app. reflexivity. Qed.
Lemma readings_snoc h e : readings (h ++ [e]) = readings h ++ times e.
Proof. unfold readings. rewrite flat_map_app. cbn. rewrite app_nil_r. reflexivity. Qed.
Lemma put_same k o v : put k o v o = v.
Proof. unfold put. rewrite Nat.eqb_refl. reflexivity. Qed.
Lemma put_other k o v i : i <> o -> put k o v i = k i.
Proof. unfold put. intros H. apply Nat.eqb_neq in H. rewrite H. reflexivity. Qed.

Section P.
  Variable clock : nat -> time.
  Variable cxx11 : bool.
  Hypothesis sane : Sane clock.

  (* what may happen next, given what has happened *)
  Definition Allowed (pre : list event) (e : event) : Prop :=
    (forall e', In e' pre -> ~ halt e') /\
    match e with
    | ENewGuard o _ => forall e', In e' pre -> made e' <> Some o
    | ENewTimer o _ _ t => (forall e', In e' pre -> made e' <> Some o) /\ t = clock (length (readings pre))
    | ECopy o o' => (forall e', In e' pre -> made e' <> Some o) /\ In o' (alive pre)
    | ESwitch o _ => In o (alive pre) /\ exists f b, known pre o = Some (AGuard f b)
    | EAssign o o' => In o (alive pre) /\ In o' (alive pre) /\
        (exists f b, known pre o = Some (AGuard f b)) /\ (exists f b, known pre o' = Some (AGuard f b))
    | EGone o eff =>
      (exists l, alive pre = o :: l) /\
      match known pre o with
      | Some (AGuard f b) => eff = if b then Ran f else Quiet
      | Some (ATimer d l t stopped) =>
        (stopped = false /\ logging pre l ->
          exists now ln, Elapsed clock pre d None t (now, ln) /\ eff = Wrote now ln) /\
        (stopped = true \/ ~ logging pre l -> eff = Quiet)
      | None => False
      end
    | EStop o out =>
      In o (alive pre) /\
      match known pre o with
      | Some (ATimer d l t stopped) =>
        (stopped = false /\ logging pre l -> exists r, Elapsed clock pre d None t r /\ out = Some r) /\
        (stopped = true \/ ~ logging pre l -> out = None)
      | _ => False
      end
    | EPrint o x out =>
      In o (alive pre) /\
      match known pre o with
      | Some (ATimer d l t _) =>
        (logging pre l -> exists r, Elapsed clock pre d x t r /\ out = Some r) /\ (~ logging pre l -> out = None)
      | _ => False
      end
    | EAbort => exists pre' o f, pre = pre' ++ [EGone o (Ran f)] /\ Throws f
    | EUndefined => exists o d l t stopped, known pre o = Some (ATimer d l t stopped) /\
        ~ fits (total (clock (length (readings pre))) - total t)%Z
    | EWork _ | ERaise | ELog _ _ => True
    end.

  Definition Good (h : list event) : Prop := forall pre e post, h = pre ++ e :: post -> Allowed pre e.

  Lemma good_nil : Good [].
  Proof. intros pre e post E. destruct pre; discriminate. Qed.
  Lemma good_snoc h e : Good h -> Allowed h e -> Good (h ++ [e]).
  Proof.
    intros G A pre e' post E. destruct post as [|x post] using rev_ind.
    - apply app_inj_tail in E. destruct E as [<- <-]. exact A.
    - clear IHpost. rewrite app_comm_cons, app_assoc in E. apply app_inj_tail in E. destruct E as [E _]. exact (G _ _ _ E).
  Qed.

  Definition Same (b : obj) (t : option thing) : Prop :=
    match b with
    | Guard f r => t = Some (AGuard f r)
    | Timer d l st a => t = Some (ATimer d l st (negb a)) /\ exists i, st = clock i
    end.
  Definition ident (e : nat * nat * obj) : nat := snd (fst e).

  Record Inv (s : st) : Prop := {
    i_good : Good (trace s);
    i_nohalt : forall e, In e (trace s) -> ~ halt e;
    i_alive : alive (trace s) = map ident (env s);
    i_nodup : NoDup (map ident (env s));
    i_same : forall x o b, In (x, o, b) (env s) -> Same b (known (trace s) o);
    i_made : forall e o, In e (trace s) -> made e = Some o -> o < next s;
    i_next : forall o, In o (map ident (env s)) -> o < next s;
    i_log : log_state (trace s) = (log_on s, log_level s);
    i_reads : length (readings (trace s)) = reads s;
    i_calm : cxx11 = true -> forall o f, In (EGone o (Ran f)) (trace s) -> ~ Throws f
  }.

  Definition Post (s : st) (r : outcome * st) : Prop :=
    (exists h, trace (snd r) = trace s ++ h) /\
    match fst r with
    | Halted => Good (trace (snd r)) /\ exists h e, trace (snd r) = h ++ [e] /\ halt e
    | _ => Inv (snd r) /\ exists l, map ident (env (snd r)) = l ++ map ident (env s)
    end.

  Lemma post_refl s : Inv s -> Post s (Normal, s).
  Proof. intros H. split; [exists []; rewrite app_nil_r; reflexivity|]. split; auto. exists []. reflexivity. Qed.
  Lemma post_trans s s1 r : (exists h, trace s1 = trace s ++ h) -> (exists l, map ident (env s1) = l ++ map ident (env s)) ->
    Post s1 r -> Post s r.
  Proof.
    intros [h1 E1] [l1 L1] [[h2 E2] P]. split.
    - exists (h1 ++ h2). rewrite E2, E1, app_assoc. reflexivity.
    - destruct (fst r); auto; destruct P as [I1 [l2 L2]]; (split; [exact I1|]); exists (l2 ++ l1); rewrite L2, L1, app_assoc; reflexivity.
  Qed.

  Lemma lookup_in x v o b : lookup x v = Some (o, b) -> In (x, o, b) v.
  Proof.
    induction v as [|[[y o'] c] r IH]; cbn; [discriminate|].
    destruct (y =? x) eqn:E.
    - intros X. injection X as -> ->. apply Nat.eqb_eq in E. subst. auto.
    - auto.
  Qed.
  Lemma replace_ids x b v : map ident (replace x b v) = map ident v.
  Proof. induction v as [|[[y o'] c] r IH]; cbn; auto. destruct (y =? x); cbn; auto. unfold ident in *. cbn. f_equal. exact IH. Qed.
  Lemma replace_in x b v o b0 y o' c : lookup x v = Some (o, b0) -> NoDup (map ident v) -> In (y, o', c) (replace x b v) ->
    (o' = o /\ c = b) \/ (o' <> o /\ In (y, o', c) v).
  Proof.
    induction v as [|[[z oz] cz] r IH]; cbn [lookup replace map]; [discriminate|].
    intros L ND. inversion ND as [|? ? N1 N2]; subst. destruct (z =? x).
    - injection L as -> ->. intros [E|E].
      + injection E as <- <- <-. auto.
      + right. split; [|right; exact E]. intros ->. apply N1. change (ident (z, o, b0)) with o. change o with (ident (y, o, c)). apply in_map. exact E.
    - intros [E|E].
      + injection E as <- <- <-. right. split; [|left; reflexivity]. intros ->. apply N1.
        change (ident (z, o, cz)) with o. change o with (ident (x, o, b0)). apply in_map. apply lookup_in. exact L.
      + destruct (IH L N2 E) as [?|[? ?]]; auto. right. split; auto. right. auto.
  Qed.

  Lemma print_spec s d l start x : Inv s -> (exists i, start = clock i) ->
    match print_line clock s d l start x with
    | None => ~ logging (trace s) l
    | Some (Ok r) => logging (trace s) l /\ Elapsed clock (trace s) d x start r
    | Some _ => logging (trace s) l /\ ~ fits (total (clock (reads s)) - total start)%Z
    end.
  Proof.
    intros HI [i ->]. unfold print_line, logging, Elapsed. rewrite (i_log _ HI), (i_reads _ HI). cbn [fst snd].
    destruct (log_on s); cbn [andb]; [|intros [? _]; discriminate].
    destruct (log_level s <=? l) eqn:E; [|intros [_ ?]; apply Nat.leb_gt in E; lia].
    apply Nat.leb_le in E.
    destruct (sane (reads s)) as [Ca Pa], (sane i) as [Cb Pb].
    assert (Hs : in_i64 (secs (clock (reads s)) - secs (clock i)) = true).
    { destruct Ca as (Ca & ? & ? & ?), Cb as (Cb & ? & ? & ?). unfold in_i64, total in *. lia. }
    assert (HR : representable (total (clock (reads s)) - total (clock i))%Z).
    { destruct Ca as (Ca & ? & ? & ?), Cb as (Cb & ? & ? & ?). unfold representable, total, in_i64 in *. lia. }
    destruct (stamp_diff_ok _ _ Ca Cb Hs HR) as (t & -> & Ct & Tt). cbn [bind].
    unfold to_nsec, chk64. destruct Ct as (C1 & C2 & C3 & C4). unfold fits. rewrite <- Tt. unfold total at 2.
    destruct (in_i64 (1000000000 * secs t)) eqn:F; cbn [bind].
    - destruct (in_i64 (1000000000 * secs t + nsecs t)) eqn:G; cbn [bind].
      + split; [auto|]. unfold total at 1. do 2 f_equal. lia.
      + split; [auto|]. unfold total. unfold in_i64 in G. lia.
    - split; [auto|]. unfold total. unfold in_i64 in F. lia.
  Qed.

  (* one more event *)
  Lemma known_ids_lt s o : Inv s -> In o (map ident (env s)) -> o <> next s.
  Proof. intros HI Ho. pose proof (i_next _ HI _ Ho). lia. Qed.
  Lemma in_ids x o b (v : list (nat * nat * obj)) : In (x, o, b) v -> In o (map ident v).
  Proof. intros H. change o with (ident (x, o, b)). apply in_map. exact H. Qed.
  Lemma allowed_new s : Inv s -> forall e', In e' (trace s) -> made e' <> Some (next s).
  Proof. intros HI e' H E. pose proof (i_made _ HI _ _ H E). lia. Qed.

  (* an event that makes no object, destroys none and reads no clock, with an environment of the same identities *)
  Lemma inv_event s e v k m : Inv s -> Allowed (trace s) e -> gone e = None -> ~ halt e -> made e = None ->
    step_alive (alive (trace s)) e = alive (trace s) -> map ident v = map ident (env s) ->
    (forall x o b, In (x, o, b) v -> Same b (note (known (trace s)) e o)) ->
    step_log (log_state (trace s)) e = (k, m) ->
    Post s (Normal, emit e (St v (next s) (reads s + length (times e)) k m (trace s))).
  Proof.
    intros HI HA Hg Hh Hm Ha Hv Hsame Hlog. split; [exists [e]; reflexivity|]. cbn [fst snd]. split.
    2:{ exists []. cbn [emit env]. exact Hv. }
    constructor; cbn [emit env next reads log_on log_level trace].
    - apply good_snoc; [apply HI|exact HA].
    - intros e' He'. apply in_app_or in He'. destruct He' as [He'|[<-|[]]]; [apply (i_nohalt _ HI); exact He'|exact Hh].
    - rewrite alive_snoc, Ha, Hv. apply HI.
    - rewrite Hv. apply HI.
    - intros x o b Hin. rewrite known_snoc. exact (Hsame _ _ _ Hin).
    - intros e' o He' Hmo. apply in_app_or in He'. destruct He' as [He'|[<-|[]]]; [apply (i_made _ HI _ _ He' Hmo)|congruence].
    - intros o Ho. rewrite Hv in Ho. apply (i_next _ HI _ Ho).
    - rewrite log_snoc. exact Hlog.
    - rewrite readings_snoc, app_length, (i_reads _ HI). reflexivity.
    - intros Hc o f Hin. apply in_app_or in Hin. destruct Hin as [Hin|[->|[]]]; [apply (i_calm _ HI Hc _ _ Hin)|discriminate].
  Qed.

  (* a new object *)
  Lemma inv_new s e x b : Inv s -> Allowed (trace s) e -> ~ halt e -> made e = Some (next s) ->
    step_alive (alive (trace s)) e = next s :: alive (trace s) ->
    (forall o, o <> next s -> note (known (trace s)) e o = known (trace s) o) ->
    Same b (note (known (trace s)) e (next s)) ->
    step_log (log_state (trace s)) e = log_state (trace s) ->
    Post s (Normal, emit e (push x b (St (env s) (next s) (reads s + length (times e)) (log_on s) (log_level s) (trace s)))).
  Proof.
    intros HI HA Hh Hm Ha Hk Hsame Hlog.  split; [exists [e]; reflexivity|]. cbn [fst snd]. split.
    2:{ exists [next s]. reflexivity. }
    constructor; cbn [emit push env next reads log_on log_level trace map].
    - apply good_snoc; [apply HI|exact HA].
    - intros e' He'. apply in_app_or in He'. destruct He' as [He'|[<-|[]]]; [apply (i_nohalt _ HI); exact He'|exact Hh].
    - rewrite alive_snoc, Ha, (i_alive _ HI). reflexivity.
    - constructor; [|apply HI]. intros Hin. change (ident (x, next s, b)) with (next s) in Hin. exact (known_ids_lt _ _ HI Hin eq_refl).
    - intros y o c [E|Hin].
      + injection E as <- <- <-. rewrite known_snoc. exact Hsame.
      + rewrite known_snoc, Hk; [apply (i_same _ HI _ _ _ Hin)|]. apply (known_ids_lt _ _ HI (in_ids _ _ _ _ Hin)).
    - intros e' o He' Hmo. apply in_app_or in He'. destruct He' as [He'|[<-|[]]].
      + pose proof (i_made _ HI _ _ He' Hmo). lia.
      + rewrite Hm in Hmo. injection Hmo as <-. lia.
    - intros o [<-|Ho]; [cbn; lia|]. pose proof (i_next _ HI _ Ho). lia.
    - rewrite log_snoc, Hlog. apply HI.
    - rewrite readings_snoc, app_length, (i_reads _ HI). reflexivity.
    - intros Hc o f Hin. apply in_app_or in Hin. destruct Hin as [Hin|[->|[]]]; [apply (i_calm _ HI Hc _ _ Hin)|discriminate].
  Qed.

  (* an object is destroyed *)
  Lemma inv_gone s x o b r eff : Inv s -> env s = (x, o, b) :: r -> Allowed (trace s) (EGone o eff) ->
    (cxx11 = true -> forall f, eff = Ran f -> ~ Throws f) ->
    Inv (emit (EGone o eff) (St r (next s) (reads s + length (times (EGone o eff))) (log_on s) (log_level s) (trace s))).
  Proof.
    intros HI He HA Hcalm.
    assert (Hids : map ident (env s) = o :: map ident r) by (rewrite He; reflexivity).
    pose proof (i_nodup _ HI) as ND. rewrite Hids in ND. inversion ND as [|? ? N1 N2]; subst.
    constructor; cbn [emit env next reads log_on log_level trace].
    - apply good_snoc; [apply HI|exact HA].
    - intros e' He'. apply in_app_or in He'. destruct He' as [He'|[<-|[]]]; [apply (i_nohalt _ HI); exact He'|intros []].
    - rewrite alive_snoc, (i_alive _ HI), Hids. cbn [step_alive remove].
      destruct (Nat.eq_dec o o) as [_|N]; [|congruence]. apply notin_remove. exact N1.
    - exact N2.
    - intros y o' c Hin. rewrite known_snoc. cbn [note]. apply (i_same _ HI y). rewrite He. right. exact Hin.
    - intros e' o' He' Hmo. apply in_app_or in He'. destruct He' as [He'|[<-|[]]]; [apply (i_made _ HI _ _ He' Hmo)|discriminate].
    - intros o' Ho. apply (i_next _ HI). rewrite Hids. right. exact Ho.
    - rewrite log_snoc. apply HI.
    - rewrite readings_snoc, app_length, (i_reads _ HI). reflexivity.
    - intros Hc o' f Hin. apply in_app_or in Hin. destruct Hin as [Hin|[Hin|[]]]; [apply (i_calm _ HI Hc _ _ Hin)|].
      injection Hin as _ Hf. exact (Hcalm Hc f Hf).
  Qed.

  Definition Post1 (s : st) (r : list (nat * nat * obj)) (res : outcome * st) : Prop :=
    (exists h, trace (snd res) = trace s ++ h) /\
    match fst res with
    | Halted => Good (trace (snd res)) /\ exists h e, trace (snd res) = h ++ [e] /\ halt e
    | _ => Inv (snd res) /\ env (snd res) = r
    end.

  Lemma gone0 s x o b r eff : Inv s -> env s = (x, o, b) :: r -> times (EGone o eff) = [] -> Allowed (trace s) (EGone o eff) ->
    (cxx11 = true -> forall f, eff = Ran f -> ~ Throws f) ->
    Inv (emit (EGone o eff) (set_env r s)).
  Proof.
    intros HI He Ht HA Hc. pose proof (inv_gone s x o b r eff HI He HA Hc) as H. rewrite Ht in H. cbn [length] in H.
    rewrite Nat.add_0_r in H. exact H.
  Qed.
  Lemma gone1 s x o b r now ln : Inv s -> env s = (x, o, b) :: r -> Allowed (trace s) (EGone o (Wrote now ln)) ->
    Inv (emit (EGone o (Wrote now ln)) (read (set_env r s))).
  Proof.
    intros HI He HA. pose proof (inv_gone s x o b r (Wrote now ln) HI He HA ltac:(intros; discriminate)) as H. cbn [times length] in H.
    rewrite Nat.add_1_r in H. exact H.
  Qed.

  Lemma quiet s x o b r out : Inv s -> out <> Halted -> env s = (x, o, b) :: r -> Allowed (trace s) (EGone o Quiet) ->
    Post1 s r (out, emit (EGone o Quiet) (set_env r s)).
  Proof.
    intros HI Ho He HA. split; [eexists; reflexivity|]. cbn [fst snd].
    assert (Inv (emit (EGone o Quiet) (set_env r s)) /\ env (emit (EGone o Quiet) (set_env r s)) = r).
    { split; [|reflexivity]. apply (gone0 s x o b); auto. intros; discriminate. }
    destruct out; auto. congruence.
  Qed.

  Lemma destroy_post s x o b r out : Inv s -> out <> Halted -> env s = (x, o, b) :: r ->
    Post1 s r (destroy clock cxx11 o b out (set_env r s)).
  Proof.
    intros HI Ho He.
    assert (Hin : In (x, o, b) (env s)) by (rewrite He; left; reflexivity).
    pose proof (i_same _ HI _ _ _ Hin) as Sm.
    assert (Hal : exists l, alive (trace s) = o :: l) by (rewrite (i_alive _ HI), He; eexists; reflexivity).
    destruct b as [f [|]|d l start [|]]; cbn [destroy].
    - cbn [Same] in Sm.
      assert (HA : Allowed (trace s) (EGone o (Ran f))).
      { split; [apply (i_nohalt _ HI)|]. split; [exact Hal|]. rewrite Sm. reflexivity. }
      assert (HG : Good (trace (emit (EGone o (Ran f)) (set_env r s)))) by (apply good_snoc; [apply HI|exact HA]).
      assert (HN : forall e, In e (trace (emit (EGone o (Ran f)) (set_env r s))) -> ~ halt e).
      { intros e He'. apply in_app_or in He'. destruct He' as [He'|[<-|[]]]; [apply (i_nohalt _ HI); exact He'|intros []]. }
      assert (Hab : call_throws f = true -> Post1 s r (Halted, emit EAbort (emit (EGone o (Ran f)) (set_env r s)))).
      { intros Hf. split; [eexists; cbn [emit trace snd set_env]; rewrite <- app_assoc; reflexivity|]. cbn [fst snd]. split.
        - change (trace (emit EAbort (emit (EGone o (Ran f)) (set_env r s)))) with (trace (emit (EGone o (Ran f)) (set_env r s)) ++ [EAbort]).
          apply good_snoc; [exact HG|]. split; [exact HN|]. exists (trace s), o, f. split; [reflexivity|].
          intros g ->. exact Hf.
        - exists (trace (emit (EGone o (Ran f)) (set_env r s))), EAbort. split; [reflexivity|exact Logic.I]. }
      destruct (call_throws f) eqn:Ef.
      + destruct cxx11 eqn:Ec; [apply Hab; reflexivity|]. destruct out; [|apply Hab; reflexivity|congruence].
        split; [eexists; reflexivity|]. cbn [fst snd]. split; [|reflexivity].
        apply (gone0 s x o (Guard f true)); auto. intros; congruence.
      + split; [eexists; reflexivity|]. cbn [fst snd].
        assert (HI1 : Inv (emit (EGone o (Ran f)) (set_env r s))).
        { apply (gone0 s x o (Guard f true)); auto. intros _ g X T. injection X as <-.
          destruct f as [g|]; [|discriminate]. cbn in Ef. rewrite (T g eq_refl) in Ef. discriminate. }
        destruct out; try congruence; (split; [exact HI1|reflexivity]).
    - cbn [Same] in Sm. apply (quiet s x o (Guard f false)); auto.
      split; [apply (i_nohalt _ HI)|]. split; [exact Hal|]. rewrite Sm. reflexivity.
    - destruct Sm as [Sm St]. cbn [negb] in Sm. pose proof (print_spec s d l start None HI St) as PS.
      change (print_line clock (set_env r s) d l start None) with (print_line clock s d l start None).
      destruct (print_line clock s d l start None) as [[[now ln]| |]|].
      + destruct PS as [PL PE].
        split; [eexists; reflexivity|]. cbn [fst snd].
        assert (Inv (emit (EGone o (Wrote now ln)) (read (set_env r s)))).
        { apply (gone1 s x o (Timer d l start true)); auto.
          split; [apply (i_nohalt _ HI)|]. split; [exact Hal|]. rewrite Sm. split.
          - intros _. exists now, ln. auto.
          - intros [X|X]; [discriminate|contradiction]. }
        destruct out; try congruence; (split; [assumption|reflexivity]).
      + destruct PS as [PL PE]. split; [eexists; reflexivity|]. cbn [fst snd]. split.
        * apply good_snoc; [apply HI|]. split; [apply (i_nohalt _ HI)|]. exists o, d, l, start, false. change (trace (set_env r s)) with (trace s). rewrite (i_reads _ HI). auto.
        * eexists _, EUndefined. split; [reflexivity|exact Logic.I].
      + destruct PS as [PL PE]. split; [eexists; reflexivity|]. cbn [fst snd]. split.
        * apply good_snoc; [apply HI|]. split; [apply (i_nohalt _ HI)|]. exists o, d, l, start, false. change (trace (set_env r s)) with (trace s). rewrite (i_reads _ HI). auto.
        * eexists _, EUndefined. split; [reflexivity|exact Logic.I].
      + apply (quiet s x o (Timer d l start true)); auto.
        split; [apply (i_nohalt _ HI)|]. split; [exact Hal|]. rewrite Sm. split; [intros [_ X]; contradiction|auto].
    - destruct Sm as [Sm St]. apply (quiet s x o (Timer d l start false)); auto.
      split; [apply (i_nohalt _ HI)|]. split; [exact Hal|]. rewrite Sm. split; [intros [X _]; discriminate|auto].
  Qed.

  Lemma unwind_post k : forall s out, Inv s -> out <> Halted -> k <= length (env s) ->
    Post1 s (skipn k (env s)) (unwind clock cxx11 k out s).
  Proof.
    induction k as [|k IH]; intros s out HI Ho Hk; cbn [unwind].
    - split; [exists []; rewrite app_nil_r; reflexivity|]. cbn [fst snd skipn]. destruct out; try congruence; auto.
    - destruct (env s) as [|[[x o] b] r] eqn:He; [cbn in Hk; lia|].
      pose proof (destroy_post s x o b r out HI Ho He) as [[h1 T1] P1].
      destruct (destroy clock cxx11 o b out (set_env r s)) as [out1 s1]. cbn [fst snd] in *.
      destruct out1.
      + destruct P1 as [HI1 E1]. pose proof (IH s1 Normal HI1 ltac:(discriminate)) as P2. rewrite E1 in P2.
        destruct (P2 ltac:(cbn in Hk; lia)) as [[h2 T2] P3]. split; [|exact P3].
        exists (h1 ++ h2). rewrite T2, T1, app_assoc. reflexivity.
      + destruct P1 as [HI1 E1]. pose proof (IH s1 Throwing HI1 ltac:(discriminate)) as P2. rewrite E1 in P2.
        destruct (P2 ltac:(cbn in Hk; lia)) as [[h2 T2] P3]. split; [|exact P3].
        exists (h1 ++ h2). rewrite T2, T1, app_assoc. reflexivity.
      + split; [exists h1; exact T1|exact P1].
  Qed.

  (* after a scope the same objects exist as before *)
  Definition PostS (s : st) (r : outcome * st) : Prop :=
    (exists h, trace (snd r) = trace s ++ h) /\
    match fst r with
    | Halted => Good (trace (snd r)) /\ exists h e, trace (snd r) = h ++ [e] /\ halt e
    | _ => Inv (snd r) /\ map ident (env (snd r)) = map ident (env s)
    end.
  Lemma postS_post s r : PostS s r -> Post s r.
  Proof. intros [T P]. split; [exact T|]. destruct (fst r); auto; destruct P as [? E]; (split; [assumption|]); exists []; exact E. Qed.

  Lemma scope_post body s : (forall s0, Inv s0 -> Post s0 (body s0)) -> Inv s -> PostS s (scope clock cxx11 body s).
  Proof.
    intros HB HI. unfold scope. specialize (HB s HI). destruct (body s) as [out s1]. destruct HB as [[h1 T1] P1]. cbn [fst snd] in *.
    assert (X : out <> Halted -> PostS s (unwind clock cxx11 (length (env s1) - length (env s)) out s1)).
    { intros Ho. assert (P2 : Inv s1 /\ exists l, map ident (env s1) = l ++ map ident (env s)) by (destruct out; auto; congruence).
      destruct P2 as [HI1 [l L]].
      assert (Len : length (env s1) = length l + length (env s)).
      { rewrite <- (map_length ident (env s1)), L, app_length, map_length. reflexivity. }
      pose proof (unwind_post (length (env s1) - length (env s)) s1 out HI1 Ho ltac:(lia)) as [[h2 T2] P3].
      split; [exists (h1 ++ h2); rewrite T2, T1, app_assoc; reflexivity|].
      destruct (fst (unwind clock cxx11 (length (env s1) - length (env s)) out s1)); auto.
      - destruct P3 as [HI2 E2]. split; [exact HI2|]. rewrite E2, <- skipn_map, L. replace (length (env s1) - length (env s)) with (length l + 0) by lia.
        rewrite skipn_app. rewrite skipn_all2 by lia. replace (length l + 0 - length l) with 0 by lia. reflexivity.
      - destruct P3 as [HI2 E2]. split; [exact HI2|]. rewrite E2, <- skipn_map, L. replace (length (env s1) - length (env s)) with (length l + 0) by lia.
        rewrite skipn_app. rewrite skipn_all2 by lia. replace (length l + 0 - length l) with 0 by lia. reflexivity. }
    destruct out; [apply X; discriminate|apply X; discriminate|]. split; [exists h1; exact T1|exact P1].
  Qed.

  Lemma postS_trans s s1 r : (exists h, trace s1 = trace s ++ h) -> map ident (env s1) = map ident (env s) -> PostS s1 r -> PostS s r.
  Proof.
    intros [h1 E1] L1 [[h2 E2] P]. split.
    - exists (h1 ++ h2). rewrite E2, E1, app_assoc. reflexivity.
    - destruct (fst r); auto; destruct P as [I1 L2]; (split; [exact I1|]); rewrite L2, L1; reflexivity.
  Qed.

  Lemma repeat_post body n : (forall s0, Inv s0 -> PostS s0 (body s0)) -> forall s, Inv s -> PostS s (repeat_ n body s).
  Proof.
    intros HB. induction n as [|n IH]; intros s HI; cbn [repeat_].
    - split; [exists []; rewrite app_nil_r; reflexivity|]. cbn [fst snd]. auto.
    - pose proof (HB s HI) as P. destruct (body s) as [out s1] eqn:Eb. destruct out; try exact P.
      destruct P as [T [HI1 L]]. cbn [fst snd] in *. apply (postS_trans s s1); auto.
  Qed.

  Lemma ev0 s e v k m : Inv s -> Allowed (trace s) e -> gone e = None -> ~ halt e -> made e = None -> times e = [] ->
    step_alive (alive (trace s)) e = alive (trace s) -> map ident v = map ident (env s) ->
    (forall x o b, In (x, o, b) v -> Same b (note (known (trace s)) e o)) ->
    step_log (log_state (trace s)) e = (k, m) ->
    Post s (Normal, emit e (St v (next s) (reads s) k m (trace s))).
  Proof.
    intros HI HA Hg Hh Hm Ht Ha Hv Hs Hl. pose proof (inv_event s e v k m HI HA Hg Hh Hm Ha Hv Hs Hl) as H. rewrite Ht in H. cbn [length] in H.
    rewrite Nat.add_0_r in H. exact H.
  Qed.
  Lemma ev1 s e v k m t : Inv s -> Allowed (trace s) e -> gone e = None -> ~ halt e -> made e = None -> times e = [t] ->
    step_alive (alive (trace s)) e = alive (trace s) -> map ident v = map ident (env s) ->
    (forall x o b, In (x, o, b) v -> Same b (note (known (trace s)) e o)) ->
    step_log (log_state (trace s)) e = (k, m) ->
    Post s (Normal, emit e (St v (next s) (S (reads s)) k m (trace s))).
  Proof.
    intros HI HA Hg Hh Hm Ht Ha Hv Hs Hl. pose proof (inv_event s e v k m HI HA Hg Hh Hm Ha Hv Hs Hl) as H. rewrite Ht in H. cbn [length] in H.
    rewrite Nat.add_1_r in H. exact H.
  Qed.
  Lemma new0 s e x b : Inv s -> Allowed (trace s) e -> ~ halt e -> made e = Some (next s) -> times e = [] ->
    step_alive (alive (trace s)) e = next s :: alive (trace s) ->
    (forall o, o <> next s -> note (known (trace s)) e o = known (trace s) o) ->
    Same b (note (known (trace s)) e (next s)) ->
    step_log (log_state (trace s)) e = log_state (trace s) ->
    Post s (Normal, emit e (push x b s)).
  Proof.
    intros HI HA Hh Hm Ht Ha Hk Hs Hl. pose proof (inv_new s e x b HI HA Hh Hm Ha Hk Hs Hl) as H. rewrite Ht in H. cbn [length] in H.
    rewrite Nat.add_0_r in H. exact H.
  Qed.
  Lemma und s o d l t st : Inv s -> known (trace s) o = Some (ATimer d l t st) ->
    ~ fits (total (clock (reads s)) - total t)%Z -> Post s (Halted, emit EUndefined s).
  Proof.
    intros HI Hk Hf. split; [eexists; reflexivity|]. cbn [fst snd]. split.
    - apply good_snoc; [apply HI|]. split; [apply (i_nohalt _ HI)|]. exists o, d, l, t, st. rewrite (i_reads _ HI). auto.
    - eexists _, EUndefined. split; [reflexivity|exact Logic.I].
  Qed.
  Lemma alive_in s x o b : Inv s -> In (x, o, b) (env s) -> In o (alive (trace s)).
  Proof. intros HI H. rewrite (i_alive _ HI). exact (in_ids _ _ _ _ H). Qed.

  Lemma switch_post s x b : Inv s ->
    Post s (match lookup x (env s) with
            | Some (o, Guard f _) => (Normal, emit (ESwitch o b) (set_env (replace x (Guard f b) (env s)) s))
            | _ => (Normal, s)
            end).
  Proof.
    intros HI. destruct (lookup x (env s)) as [[o [f b0|]]|] eqn:L; try (apply post_refl; exact HI).
    pose proof (lookup_in _ _ _ _ L) as Hin. pose proof (i_same _ HI _ _ _ Hin) as Sm. cbn [Same] in Sm.
    apply (ev0 s (ESwitch o b) (replace x (Guard f b) (env s))); auto.
    - split; [apply (i_nohalt _ HI)|]. split; [apply (alive_in s x o _ HI Hin)|]. eauto.
    - apply replace_ids.
    - intros y o' c Hc. destruct (replace_in _ _ _ _ _ _ _ _ L (i_nodup _ HI) Hc) as [[-> ->]|[N Hy]]; cbn [note]; rewrite Sm.
      + cbn [Same]. apply put_same.
      + rewrite put_other by exact N. apply (i_same _ HI _ _ _ Hy).
    - cbn [step_log]. apply HI.
  Qed.

  Lemma stop_same s x o d l t a out y o' c : Inv s -> lookup x (env s) = Some (o, Timer d l t a) ->
    In (y, o', c) (replace x (Timer d l t false) (env s)) -> Same c (note (known (trace s)) (EStop o out) o').
  Proof.
    intros HI L Hc. pose proof (i_same _ HI _ _ _ (lookup_in _ _ _ _ L)) as [Sm St]. cbn [note]. rewrite Sm.
    destruct (replace_in _ _ _ _ _ _ _ _ L (i_nodup _ HI) Hc) as [[-> ->]|[N Hy]].
    - cbn [Same negb]. rewrite put_same. auto.
    - rewrite put_other by exact N. apply (i_same _ HI _ _ _ Hy).
  Qed.

  Lemma exec_post p : forall s, Inv s -> Post s (exec clock cxx11 p s).
  Proof.
    induction p as [|w| |p IHp q IHq|p IH|n p IH|p IHp q IHq|x f|x|x|x d l|x|x extra|x y|x y|on l]; intros s HI; cbn [exec].
    - apply post_refl, HI.
    - destruct s as [v n r k m t]. apply (ev0 (St v n r k m t) (EWork w)); auto; try reflexivity.
      + split; [apply (i_nohalt _ HI)|exact Logic.I].
      + intros y o b Hin. apply (i_same _ HI _ _ _ Hin).
      + cbn [step_log]. apply HI.
    - assert (P : Post s (Normal, emit ERaise (St (env s) (next s) (reads s) (log_on s) (log_level s) (trace s)))).
      { apply ev0; auto; try reflexivity.
        + split; [apply (i_nohalt _ HI)|exact Logic.I].
        + intros y o b Hin. apply (i_same _ HI _ _ _ Hin).
        + cbn [step_log]. apply HI. }
      destruct P as [T P]. split; [exact T|exact P].
    - pose proof (IHp s HI) as P. destruct (exec clock cxx11 p s) as [out s1] eqn:E. destruct out; try exact P.
      destruct P as [T [HI1 L]]. cbn [fst snd] in *. apply (post_trans s s1); auto.
    - apply postS_post, scope_post; auto.
    - apply postS_post, repeat_post; auto. intros s0 H0. apply scope_post; auto.
    - pose proof (scope_post (exec clock cxx11 p) s IHp HI) as P.
      destruct (scope clock cxx11 (exec clock cxx11 p) s) as [out s1] eqn:E. destruct out; try (apply postS_post; exact P).
      destruct P as [T [HI1 L]]. cbn [fst snd] in *. apply postS_post. apply (postS_trans s s1); auto. apply scope_post; auto.
    - apply new0; auto; try reflexivity.
      + split; [apply (i_nohalt _ HI)|]. apply (allowed_new _ HI).
      + intros o Ho. cbn [note]. apply put_other. exact Ho.
      + cbn [Same note]. apply put_same.
    - apply switch_post, HI.
    - apply switch_post, HI.
    - assert (P : Post s (Normal, emit (ENewTimer (next s) d l (clock (reads s))) (push x (Timer d l (clock (reads s)) true) (St (env s) (next s) (reads s + 1) (log_on s) (log_level s) (trace s))))).
      { apply (inv_new s (ENewTimer (next s) d l (clock (reads s)))); auto; try reflexivity.
        + split; [apply (i_nohalt _ HI)|]. split; [apply (allowed_new _ HI)|]. rewrite (i_reads _ HI). reflexivity.
        + intros o Ho. cbn [note]. apply put_other. exact Ho.
        + cbn [Same note negb]. rewrite put_same. eauto. }
      rewrite Nat.add_1_r in P. exact P.
    - destruct (lookup x (env s)) as [[o [|d l t a]]|] eqn:L; try (apply post_refl; exact HI).
      pose proof (lookup_in _ _ _ _ L) as Hin. pose proof (i_same _ HI _ _ _ Hin) as [Sm Sc].
      pose proof (alive_in _ _ _ _ HI Hin) as Hal.
      pose proof (print_spec s d l t None HI Sc) as PS.
      destruct a; cbn [negb] in Sm.
      + destruct (print_line clock s d l t None) as [[r| |]|].
        * destruct PS as [PL PE]. apply (ev1 s (EStop o (Some r)) (replace x (Timer d l t false) (env s)) (log_on s) (log_level s) (fst r)); auto; try reflexivity.
          -- split; [apply (i_nohalt _ HI)|]. split; [exact Hal|]. rewrite Sm. split; [eauto|intros [X|X]; [discriminate|contradiction]].
          -- destruct r. reflexivity.
          -- apply replace_ids.
          -- intros y o' c. apply (stop_same s x o d l t true); auto.
          -- cbn [step_log]. apply HI.
        * destruct PS as [PL PE]. apply (und s o d l t false); auto.
        * destruct PS as [PL PE]. apply (und s o d l t false); auto.
        * apply (ev0 s (EStop o None) (replace x (Timer d l t false) (env s))); auto; try reflexivity.
          -- split; [apply (i_nohalt _ HI)|]. split; [exact Hal|]. rewrite Sm. split; [intros [_ X]; contradiction|auto].
          -- apply replace_ids.
          -- intros y o' c. apply (stop_same s x o d l t true); auto.
          -- cbn [step_log]. apply HI.
      + apply (ev0 s (EStop o None) (replace x (Timer d l t false) (env s))); auto; try reflexivity.
        -- split; [apply (i_nohalt _ HI)|]. split; [exact Hal|]. rewrite Sm. split; [intros [X _]; discriminate|auto].
        -- apply replace_ids.
        -- intros y o' c. apply (stop_same s x o d l t false); auto.
        -- cbn [step_log]. apply HI.
    - destruct (lookup x (env s)) as [[o [|d l t a]]|] eqn:L; try (apply post_refl; exact HI).
      pose proof (lookup_in _ _ _ _ L) as Hin. pose proof (i_same _ HI _ _ _ Hin) as [Sm Sc].
      pose proof (alive_in _ _ _ _ HI Hin) as Hal.
      pose proof (print_spec s d l t extra HI Sc) as PS.
      destruct (print_line clock s d l t extra) as [[r| |]|].
      + destruct PS as [PL PE]. apply (ev1 s (EPrint o extra (Some r)) (env s) (log_on s) (log_level s) (fst r)); auto; try reflexivity.
        * split; [apply (i_nohalt _ HI)|]. split; [exact Hal|]. rewrite Sm. split; [eauto|intros X; contradiction].
        * destruct r. reflexivity.
        * intros y o' c Hc. apply (i_same _ HI _ _ _ Hc).
        * cbn [step_log]. apply HI.
      + destruct PS as [PL PE]. apply (und s o d l t (negb a)); auto.
      + destruct PS as [PL PE]. apply (und s o d l t (negb a)); auto.
      + destruct s as [v0 n0 r0 k0 m0 t0]. apply (ev0 (St v0 n0 r0 k0 m0 t0) (EPrint o extra None)); auto; try reflexivity.
        * split; [apply (i_nohalt _ HI)|]. split; [exact Hal|]. rewrite Sm. split; [intros X; contradiction|auto].
        * intros y o' c Hc. apply (i_same _ HI _ _ _ Hc).
        * cbn [step_log]. apply HI.
    - destruct (lookup y (env s)) as [[o b]|] eqn:L; [|apply post_refl; exact HI].
      pose proof (lookup_in _ _ _ _ L) as Hin. pose proof (i_same _ HI _ _ _ Hin) as Sm.
      apply new0; auto; try reflexivity.
      + split; [apply (i_nohalt _ HI)|]. split; [apply (allowed_new _ HI)|]. apply (alive_in _ _ _ _ HI Hin).
      + intros o' Ho. cbn [note]. apply put_other. exact Ho.
      + cbn [note]. rewrite put_same. exact Sm.
    - destruct (lookup x (env s)) as [[o [f b|]]|] eqn:L; try (apply post_refl; exact HI).
      destruct (lookup y (env s)) as [[o' [g c|]]|] eqn:L'; try (apply post_refl; exact HI).
      pose proof (lookup_in _ _ _ _ L) as Hin. pose proof (i_same _ HI _ _ _ Hin) as Sm.
      pose proof (lookup_in _ _ _ _ L') as Hin'. pose proof (i_same _ HI _ _ _ Hin') as Sm'. cbn [Same] in Sm, Sm'.
      apply (ev0 s (EAssign o o') (replace x (Guard g c) (env s))); auto; try reflexivity.
      + split; [apply (i_nohalt _ HI)|]. split; [apply (alive_in _ _ _ _ HI Hin)|]. split; [apply (alive_in _ _ _ _ HI Hin')|]. split; eauto.
      + apply replace_ids.
      + intros z oz cz Hz. cbn [note]. destruct (replace_in _ _ _ _ _ _ _ _ L (i_nodup _ HI) Hz) as [[-> ->]|[N Hy]].
        * rewrite put_same. exact Sm'.
        * rewrite put_other by exact N. apply (i_same _ HI _ _ _ Hy).
      + cbn [step_log]. apply HI.
    - apply (ev0 s (ELog on l) (env s)); auto; try reflexivity.
      + split; [apply (i_nohalt _ HI)|exact Logic.I].
      + intros z oz cz Hz. apply (i_same _ HI _ _ _ Hz).
  Qed.

  Lemma inv_start : Inv start_.
  Proof.
    constructor; cbn; try reflexivity; try (intros; contradiction); [apply good_nil|constructor].
  Qed.

  Lemma good_app h1 h2 : Good (h1 ++ h2) -> Good h1.
  Proof. intros G pre e post E. apply (G pre e (post ++ h2)). rewrite E, <- app_assoc. reflexivity. Qed.
  Lemma good_last h e : Good (h ++ [e]) -> Allowed h e.
  Proof. intros G. apply (G h e []). reflexivity. Qed.

  (* the objects that exist are those made and not yet destroyed *)
  Lemma alive_spec h : Good h ->
    NoDup (alive h) /\
    (forall o, In o (alive h) <-> (exists e, In e h /\ made e = Some o) /\ (forall e, In e h -> gone e <> Some o)) /\
    (forall e o, In e h -> gone e = Some o -> exists e', In e' h /\ made e' = Some o).
  Proof.
    induction h as [|e h IH] using rev_ind; intros G.
    - cbn. split; [constructor|]. split; [|intros ? ? []]. intros o. split; [intros []|intros [[e [[] _]] _]].
    - destruct (IH (good_app _ _ G)) as (ND & AL & GM). pose proof (good_last _ _ G) as [_ A]. rewrite alive_snoc.
      assert (Old : made e = None -> gone e = None -> step_alive (alive h) e = alive h ->
        NoDup (step_alive (alive h) e) /\
        (forall o, In o (step_alive (alive h) e) <-> (exists e0, In e0 (h ++ [e]) /\ made e0 = Some o) /\ (forall e0, In e0 (h ++ [e]) -> gone e0 <> Some o)) /\
        (forall e0 o, In e0 (h ++ [e]) -> gone e0 = Some o -> exists e', In e' (h ++ [e]) /\ made e' = Some o)).
      { intros Hm Hg ->. split; [exact ND|]. split.
        - intros o. rewrite AL. split.
          + intros [[e0 [H1 H2]] H3]. split; [exists e0; split; [apply in_or_app; auto|exact H2]|].
            intros e1 H4. apply in_app_or in H4. destruct H4 as [H4|[<-|[]]]; [auto|congruence].
          + intros [[e0 [H1 H2]] H3]. split.
            * apply in_app_or in H1. destruct H1 as [H1|[<-|[]]]; [eauto|congruence].
            * intros e1 H4. apply H3. apply in_or_app. auto.
        - intros e0 o H1 H2. apply in_app_or in H1. destruct H1 as [H1|[<-|[]]]; [|congruence].
          destruct (GM _ _ H1 H2) as [e' [H3 H4]]. exists e'. split; [apply in_or_app; auto|exact H4]. }
      assert (New : forall n, made e = Some n -> gone e = None -> step_alive (alive h) e = n :: alive h -> (forall e', In e' h -> made e' <> Some n) ->
        NoDup (step_alive (alive h) e) /\
        (forall o, In o (step_alive (alive h) e) <-> (exists e0, In e0 (h ++ [e]) /\ made e0 = Some o) /\ (forall e0, In e0 (h ++ [e]) -> gone e0 <> Some o)) /\
        (forall e0 o, In e0 (h ++ [e]) -> gone e0 = Some o -> exists e', In e' (h ++ [e]) /\ made e' = Some o)).
      { intros n Hm Hg -> Fr. split; [|split].
        - constructor; [|exact ND]. rewrite AL. intros [[e0 [H1 H2]] _]. exact (Fr _ H1 H2).
        - intros o. cbn [In]. rewrite AL. split.
          + intros [<-|[[e0 [H1 H2]] H3]].
            * split; [exists e; split; [apply in_or_app; right; left; reflexivity|exact Hm]|].
              intros e1 H4 H5. apply in_app_or in H4. destruct H4 as [H4|[<-|[]]]; [|congruence].
              destruct (GM _ _ H4 H5) as [e' [H6 H7]]. exact (Fr _ H6 H7).
            * split; [exists e0; split; [apply in_or_app; auto|exact H2]|].
              intros e1 H4. apply in_app_or in H4. destruct H4 as [H4|[<-|[]]]; [auto|congruence].
          + intros [[e0 [H1 H2]] H3]. apply in_app_or in H1. destruct H1 as [H1|[<-|[]]].
            * right. split; [eauto|]. intros e1 H4. apply H3. apply in_or_app. auto.
            * left. congruence.
        - intros e0 o H1 H2. apply in_app_or in H1. destruct H1 as [H1|[<-|[]]]; [|congruence].
          destruct (GM _ _ H1 H2) as [e' [H3 H4]]. exists e'. split; [apply in_or_app; auto|exact H4]. }
      destruct e as [w| |n f|n b|n d l t|n out|n x out|n n'|n n'|n eff|b l| |]; try (apply Old; reflexivity).
      + apply (New n); auto.
      + apply (New n); auto. apply A.
      + apply (New n); auto. apply A.
      + clear Old New. destruct A as [[l Hl] _]. cbn [step_alive]. rewrite Hl in *. cbn [remove].
        destruct (Nat.eq_dec n n) as [_|N]; [|congruence]. inversion ND as [|? ? N1 N2]; subst. rewrite (notin_remove Nat.eq_dec l n N1).
        assert (Mk : exists e', In e' h /\ made e' = Some n) by (apply (proj1 (AL n)); left; reflexivity).
        split; [exact N2|]. split.
        * intros o. split.
          -- intros Ho. destruct (proj1 (AL o) (or_intror Ho)) as [[e0 [H1 H2]] H3].
             split; [exists e0; split; [apply in_or_app; auto|exact H2]|].
             intros e1 H4. apply in_app_or in H4. destruct H4 as [H4|[<-|[]]]; [auto|]. cbn. intros X. injection X as <-. contradiction.
          -- intros [[e0 [H1 H2]] H3]. apply in_app_or in H1. destruct H1 as [H1|[<-|[]]]; [|discriminate].
             assert (Ho : In o (n :: l)). { apply AL. split; [eauto|]. intros e1 H4. apply H3. apply in_or_app. auto. }
             destruct Ho as [<-|Ho]; [|exact Ho]. exfalso. apply (H3 (EGone n eff)); [apply in_or_app; right; left; reflexivity|reflexivity].
        * intros e0 o H1 H2. apply in_app_or in H1. destruct H1 as [H1|[<-|[]]].
          -- destruct (GM _ _ H1 H2) as [e' [H3 H4]]. exists e'. split; [apply in_or_app; auto|exact H4].
          -- cbn in H2. injection H2 as <-. destruct Mk as [e' [H3 H4]]. exists e'. split; [apply in_or_app; auto|exact H4].
  Qed.

  (* an object is destroyed at most once *)
  Lemma gone_once h pre eff post o : Good h -> h = pre ++ EGone o eff :: post ->
    forall e, In e pre \/ In e post -> gone e <> Some o.
  Proof.
    intros G E. assert (X : forall e, In e pre -> gone e <> Some o).
    { intros e He. destruct (G _ _ _ E) as [_ [[l Hl] _]].
      assert (Gp : Good pre) by (rewrite E in G; exact (good_app _ _ G)).
      destruct (alive_spec pre Gp) as (_ & AL & _). apply (proj1 (AL o)); [rewrite Hl; left; reflexivity|exact He]. }
    intros e [He|He]; [auto|]. intros Hg. apply in_split in He. destruct He as (p1 & p2 & ->).
    assert (E2 : h = (pre ++ EGone o eff :: p1) ++ e :: p2) by (rewrite E, <- app_assoc; reflexivity).
    destruct e as [w| |n f|n b|n d l t|n out|n x out|n n'|n n'|n eff'|b l| |]; try discriminate. cbn in Hg. injection Hg as ->.
    destruct (G _ _ _ E2) as [_ [[l Hl] _]].
    assert (Gp : Good (pre ++ EGone o eff :: p1)) by (rewrite E2 in G; exact (good_app _ _ G)).
    destruct (alive_spec _ Gp) as (_ & AL & _).
    assert (Hin : In o (alive (pre ++ EGone o eff :: p1))) by (rewrite Hl; left; reflexivity).
    apply (proj2 (proj1 (AL o) Hin) (EGone o eff)); [apply in_elt|reflexivity].
  Qed.

  (* a known timer was started by a reading of the clock *)
  Lemma timer_start h : Good h -> forall o d l t b, known h o = Some (ATimer d l t b) ->
    exists i, i < length (readings h) /\ t = clock i.
  Proof.
    induction h as [|e h IH] using rev_ind; intros G o d l t b; [discriminate|].
    rewrite known_snoc, readings_snoc, app_length.
    assert (Old : known h o = Some (ATimer d l t b) -> exists i, i < length (readings h) + length (times e) /\ t = clock i).
    { intros K. destruct (IH (good_app _ _ G) _ _ _ _ _ K) as (i & H1 & H2). exists i. split; [lia|exact H2]. }
    assert (Old2 : forall o' d' l' b', known h o' = Some (ATimer d' l' t b') -> exists i, i < length (readings h) + length (times e) /\ t = clock i).
    { intros o' d' l' b' K. destruct (IH (good_app _ _ G) _ _ _ _ _ K) as (i & H1 & H2). exists i. split; [lia|exact H2]. }
    pose proof (good_last _ _ G) as [_ A].
    destruct e as [w| |n f|n c|n d' l' t'|n out|n x out|n n'|n n'|n eff|c l'| |]; cbn [note]; try exact Old.
    - unfold put. destruct (o =? n); [discriminate|exact Old].
    - destruct (known h n) as [[f c'|]|] eqn:K; try exact Old. unfold put. destruct (o =? n); [discriminate|exact Old].
    - unfold put. destruct (o =? n); [|exact Old]. intros X. injection X as -> -> -> _.
      destruct A as [_ ->]. exists (length (readings h)). cbn. split; [lia|reflexivity].
    - destruct (known h n) as [[|d' l' t' c']|] eqn:K; try exact Old. unfold put. destruct (o =? n); [|exact Old].
      intros X. injection X as -> -> -> _. exact (Old2 _ _ _ _ K).
    - unfold put. destruct (o =? n); [|exact Old]. intros K. exact (Old2 _ _ _ _ K).
    - unfold put. destruct (o =? n); [|exact Old]. intros K. exact (Old2 _ _ _ _ K).
  Qed.

  (* reports of a timer *)
  Definition final (o : nat) (e : event) : bool :=
    match e with EStop n (Some _) => n =? o | EGone n (Wrote _ _) => n =? o | _ => false end.

  Lemma one_report h o d l t : Good h -> (forall pre post, h = pre ++ post -> logging pre l) -> In (ENewTimer o d l t) h ->
    exists b, known h o = Some (ATimer d l t b) /\
      length (filter (final o) h) = if b || existsb (fun e => match gone e with Some n => n =? o | None => false end) h then 1 else 0.
  Proof.
    induction h as [|e h IH] using rev_ind; intros G L Hin; [destruct Hin|].
    pose proof (good_last _ _ G) as [_ A]. rewrite known_snoc, filter_app, app_length, existsb_app.
    assert (Lh : forall pre post, h = pre ++ post -> logging pre l).
    { intros pre post E. apply (L pre (post ++ [e])). rewrite E, <- app_assoc. reflexivity. }
    assert (Hl : logging h l) by (apply (L h [e]); reflexivity).
    apply in_app_or in Hin. destruct Hin as [Hin|[->|[]]].
    2:{ exists false. cbn [note]. rewrite put_same. split; [reflexivity|]. cbn.
        destruct A as [Fr _].
        assert (Ng : forall e, In e h -> gone e <> Some o).
        { intros e He Hg. destruct (alive_spec h (good_app _ _ G)) as (_ & _ & GM). destruct (GM _ _ He Hg) as (e' & H1 & H2). exact (Fr _ H1 H2). }
        assert (Nf : forall e, In e h -> final o e = false).
        { intros e He. destruct (final o e) eqn:F; [|reflexivity]. exfalso.
          apply in_split in He. destruct He as (p1 & p2 & Eh).
          pose proof (proj2 (good_app _ _ G _ _ _ Eh)) as A1.
          destruct e as [w| |n f|n c|n d' l' t'|n [r|]|n x out|n n'|n n'|n [| |]|c l'| |]; cbn in F; try discriminate; apply Nat.eqb_eq in F; subst n.
          - destruct A1 as [A1 _]. assert (Gp : Good p1) by (apply (good_app p1 (EStop o (Some r) :: p2)); rewrite <- Eh; exact (good_app _ _ G)).
            destruct (alive_spec p1 Gp) as (_ & AL & _). destruct (proj1 (AL o) A1) as [[e' [H1 H2]] _].
            apply (Fr e'); [rewrite Eh; apply in_or_app; auto|exact H2].
          - apply (Ng (EGone o (Wrote now l0))); [rewrite Eh; apply in_elt|reflexivity]. }
        assert (F0 : filter (final o) h = []).
        { clear - Nf. induction h as [|a h IHh]; [reflexivity|]. cbn. rewrite (Nf a (or_introl eq_refl)). apply IHh. intros e He. apply Nf. right. exact He. }
        rewrite F0. cbn.
        assert (B0 : existsb (fun e => match gone e with Some n => n =? o | None => false end) h = false).
        { destruct (existsb _ h) eqn:B; [|reflexivity]. apply existsb_exists in B. destruct B as (e & He & Hg).
          destruct (gone e) as [n|] eqn:Eg; [|discriminate]. apply Nat.eqb_eq in Hg. subst. exfalso. exact (Ng _ He Eg). }
        rewrite B0. reflexivity. }
    destruct (IH (good_app _ _ G) Lh Hin) as (b & K & C).
    assert (Mk : exists e', In e' h /\ made e' = Some o) by (eexists; split; [exact Hin|reflexivity]).
    assert (Fresh : forall n, (forall e', In e' h -> made e' <> Some n) -> n <> o).
    { intros n Fr ->. destruct Mk as (e' & H1 & H2). exact (Fr _ H1 H2). }
    assert (Old : note (known h) e o = known h o -> final o e = false -> gone e <> Some o ->
      exists b0, note (known h) e o = Some (ATimer d l t b0) /\
      length (filter (final o) h) + length (filter (final o) [e]) =
      (if b0 || (existsb (fun e0 => match gone e0 with Some n => n =? o | None => false end) h || existsb (fun e0 => match gone e0 with Some n => n =? o | None => false end) [e]) then 1 else 0)).
    { intros -> Hf Hg. exists b. split; [exact K|]. cbn [filter existsb]. rewrite Hf. cbn [length].
      assert (X : (match gone e with Some n => n =? o | None => false end) = false).
      { destruct (gone e) as [n|]; [|reflexivity]. apply Nat.eqb_neq. congruence. }
      rewrite X, !orb_false_r, Nat.add_0_r. exact C. }
    destruct e as [w| |n f|n c|n d' l' t'|n out|n x out|n n'|n n'|n eff|c l'| |]; try (apply Old; [reflexivity|reflexivity|discriminate]).
    - apply Old; [|reflexivity|discriminate]. cbn [note]. apply put_other. apply not_eq_sym. exact (Fresh _ A).
    - destruct A as [_ [f [c' Kn]]]. apply Old; [|reflexivity|discriminate]. cbn [note]. rewrite Kn. apply put_other. congruence.
    - apply Old; [|reflexivity|discriminate]. cbn [note]. apply put_other. apply not_eq_sym. exact (Fresh _ (proj1 A)).
    - destruct (Nat.eq_dec n o) as [->|N].
      + destruct A as [Al Sm]. rewrite K in Sm. cbn [note]. rewrite K. rewrite put_same. exists true. split; [reflexivity|].
        cbn [orb filter existsb]. rewrite C.
        assert (B0 : existsb (fun e => match gone e with Some n => n =? o | None => false end) h = false).
        { destruct (existsb _ h) eqn:B; [|reflexivity]. apply existsb_exists in B. destruct B as (e & He & Hg).
          destruct (gone e) as [n|] eqn:Eg; [|discriminate]. apply Nat.eqb_eq in Hg. subst. exfalso.
          destruct (alive_spec h (good_app _ _ G)) as (_ & AL & _). exact (proj2 (proj1 (AL o) Al) _ He Eg). }
        rewrite B0, orb_false_r. destruct Sm as [S1 S2]. destruct b.
        * rewrite (S2 (or_introl eq_refl)). reflexivity.
        * destruct (S1 (conj eq_refl Hl)) as (r & _ & ->). cbn. rewrite Nat.eqb_refl. reflexivity.
      + apply Old; [| |discriminate].
        * cbn [note]. destruct (known h n) as [[|]|]; auto. apply put_other. congruence.
        * destruct out; cbn; [apply Nat.eqb_neq; exact N|reflexivity].
    - apply Old; [|reflexivity|discriminate]. cbn [note]. apply put_other. apply not_eq_sym. exact (Fresh _ (proj1 A)).
    - destruct A as (_ & _ & (f & c & Kn) & _). apply Old; [|reflexivity|discriminate]. cbn [note]. apply put_other. congruence.
    - destruct (Nat.eq_dec n o) as [->|N].
      + destruct A as [[rest Al] Sm]. rewrite K in Sm. cbn [note]. exists b. split; [exact K|].
        cbn [filter existsb gone]. rewrite Nat.eqb_refl, !orb_true_r, C.
        assert (B0 : existsb (fun e => match gone e with Some n => n =? o | None => false end) h = false).
        { destruct (existsb _ h) eqn:B; [|reflexivity]. apply existsb_exists in B. destruct B as (e & He & Hg).
          destruct (gone e) as [n|] eqn:Eg; [|discriminate]. apply Nat.eqb_eq in Hg. subst. exfalso.
          destruct (alive_spec h (good_app _ _ G)) as (_ & AL & _). assert (Hi : In o (alive h)) by (rewrite Al; left; reflexivity).
          exact (proj2 (proj1 (AL o) Hi) _ He Eg). }
        rewrite B0, orb_false_r. destruct Sm as [S1 S2]. destruct b.
        * rewrite (S2 (or_introl eq_refl)). reflexivity.
        * destruct (S1 (conj eq_refl Hl)) as (now & ln & _ & ->). cbn. rewrite Nat.eqb_refl. reflexivity.
      + apply Old; [reflexivity| |cbn; congruence]. destruct eff; cbn; try reflexivity. apply Nat.eqb_neq. exact N.
  Qed.
End P.

(* whole programs *)
Section Programs.
  Variable clock : nat -> time.
  Variable cxx11 : bool.
  Hypothesis sane : Sane clock.
  Notation exec := (exec clock cxx11).
  Notation run := (run clock cxx11).

  Lemma run_post p : PostS clock cxx11 start_ (run p).
  Proof.
    pose proof (scope_post clock cxx11 sane (exec p) start_ (exec_post clock cxx11 sane p) (inv_start clock cxx11)) as P.
    unfold GuardModel.run. cbn [GuardModel.exec].
    destruct (scope clock cxx11 (exec p) start_) as [[| |] s1]; try exact P.
    destruct P as [T [HI L]]. cbn [fst snd] in *. apply (postS_trans clock cxx11 start_ s1); auto.
    apply scope_post; auto. intros s0 H0. apply post_refl. exact H0.
  Qed.
  Lemma run_good p : Good clock (trace (snd (run p))).
  Proof.
    pose proof (run_post p) as [_ P]. destruct (fst (run p)); [apply (i_good _ _ _ (proj1 P))|apply (i_good _ _ _ (proj1 P))|apply P].
  Qed.
  Lemma run_all_gone p : fst (run p) = Normal -> alive (trace (snd (run p))) = [].
  Proof. intros E. pose proof (run_post p) as [_ P]. rewrite E in P. destruct P as [HI L]. rewrite (i_alive _ _ _ HI), L. reflexivity. Qed.

  Lemma run_exactly_once p o e : fst (run p) = Normal -> In e (trace (snd (run p))) -> made e = Some o ->
    exists pre eff post, trace (snd (run p)) = pre ++ EGone o eff :: post /\
      (forall e', In e' pre \/ In e' post -> gone e' <> Some o) /\
      (forall f on, known pre o = Some (AGuard f on) -> eff = if on then Ran f else Quiet).
  Proof.
    intros E He Hm. pose proof (run_good p) as G. pose proof (run_all_gone p E) as A.
    set (h := trace (snd (run p))) in *.
    destruct (alive_spec clock h G) as (_ & AL & _).
    assert (X : ~ (forall e0, In e0 h -> gone e0 <> Some o)).
    { intros X. assert (Y : In o (alive h)) by (apply AL; eauto). rewrite A in Y. destruct Y. }
    assert (Y : exists e0, In e0 h /\ gone e0 = Some o).
    { clear - X. induction h as [|a h IHh]; [exfalso; apply X; intros ? []|].
      destruct (gone a) as [n|] eqn:Ga.
      - destruct (Nat.eq_dec n o) as [->|N]; [exists a; split; [left; reflexivity|exact Ga]|].
        destruct IHh as (e0 & H1 & H2); [|exists e0; split; [right; exact H1|exact H2]].
        intros Y. apply X. intros e0 [<-|H0]; [congruence|auto].
      - destruct IHh as (e0 & H1 & H2); [|exists e0; split; [right; exact H1|exact H2]].
        intros Y. apply X. intros e0 [<-|H0]; [congruence|auto]. }
    destruct Y as (e0 & H0 & Hg). apply in_split in H0. destruct H0 as (pre & post & Eh).
    destruct e0 as [w| |n f|n b|n d l t|n out|n x out|n n'|n n'|n eff|b l| |]; try discriminate. cbn in Hg. injection Hg as ->.
    exists pre, eff, post. split; [exact Eh|]. split; [exact (gone_once clock h pre eff post o G Eh)|].
    intros f on K. destruct (G _ _ _ Eh) as [_ [_ S1]]. rewrite K in S1. exact S1.
  Qed.

  Lemma run_not_early p pre o f post : trace (snd (run p)) = pre ++ EGone o (Ran f) :: post ->
    known pre o = Some (AGuard f true) /\ exists l, alive pre = o :: l.
  Proof.
    intros E. destruct (run_good p _ _ _ E) as [_ [A S1]]. split; [|exact A].
    destruct (known pre o) as [[g [|]|d l t b]|]; [injection S1 as <-; reflexivity|discriminate| |contradiction].
    destruct S1 as [S1 S2]. destruct b; [rewrite S2 in E; [|auto]; exfalso|].
    - specialize (S2 (or_introl eq_refl)). discriminate.
    - assert (D : logging pre l \/ ~ logging pre l).
      { unfold logging. destruct (fst (log_state pre)) eqn:F; [|right; intros [X _]; discriminate].
        destruct (le_dec (snd (log_state pre)) l); [left; auto|right; intros [_ X]; contradiction]. }
      destruct D as [D|D]; [destruct (S1 (conj eq_refl D)) as (? & ? & _ & X); discriminate|specialize (S2 (or_intror D)); discriminate].
  Qed.

  Lemma run_lifo p pre o eff post : trace (snd (run p)) = pre ++ EGone o eff :: post -> exists l, alive pre = o :: l.
  Proof. intros E. exact (proj1 (proj2 (run_good p _ _ _ E))). Qed.

  (* the last object of a scope to go is the first one made in it *)
  Lemma unwind_last k : forall s out x o b v, Inv clock cxx11 s -> out <> Halted -> nth_error (env s) k = Some (x, o, b) ->
    v = unwind clock cxx11 (S k) out s -> fst v <> Halted ->
    exists h eff, trace (snd v) = trace s ++ h ++ [EGone o eff].
  Proof.
    induction k as [|k IH]; intros s out x o b v HI Ho Hk -> Hv.
    - destruct (env s) as [|[[y o'] c] r] eqn:He; [discriminate|]. cbn in Hk. injection Hk as -> -> ->.
      cbn [unwind] in Hv |- *. rewrite He in Hv |- *.
      assert (Q : forall out1 s1, destroy clock cxx11 o b out (set_env r s) = (out1, s1) -> out1 <> Halted -> exists eff, trace s1 = trace s ++ [EGone o eff]).
      { intros out1 s1 E N. destruct b as [f [|]|d l t [|]]; cbn [destroy] in E.
        - destruct (call_throws f); [destruct cxx11; [|destruct out]|]; injection E as <- <-; try congruence; eexists; reflexivity.
        - injection E as <- <-; eexists; reflexivity.
        - destruct (print_line _ _ _ _ _ _) as [[[now ln]| |]|]; injection E as <- <-; try congruence; eexists; reflexivity.
        - injection E as <- <-; eexists; reflexivity. }
      destruct (destroy clock cxx11 o b out (set_env r s)) as [out1 s1]. destruct out1; cbn [fst snd unwind] in *; try congruence;
        (destruct (Q _ _ eq_refl ltac:(discriminate)) as [eff E]; exists [], eff; exact E).
    - destruct (env s) as [|[[y o'] c] r] eqn:He; [discriminate|]. cbn in Hk.
      remember (S k) as k1 eqn:Ek1. cbn [unwind] in Hv |- *. rewrite He in Hv |- *.
      pose proof (destroy_post clock cxx11 sane s y o' c r out HI Ho He) as [[h1 T1] P1].
      destruct (destroy clock cxx11 o' c out (set_env r s)) as [out1 s1]. cbn [fst snd] in *. destruct out1; cbn [fst snd] in *; try congruence.
      + destruct P1 as [HI1 E1]. subst k1. destruct (IH s1 Normal x o b _ HI1 ltac:(discriminate) ltac:(rewrite E1; exact Hk) eq_refl Hv) as (h2 & eff & T2).
        exists (h1 ++ h2), eff. rewrite T2, T1, !app_assoc. reflexivity.
      + destruct P1 as [HI1 E1]. subst k1. destruct (IH s1 Throwing x o b _ HI1 ltac:(discriminate) ltac:(rewrite E1; exact Hk) eq_refl Hv) as (h2 & eff & T2).
        exists (h1 ++ h2), eff. rewrite T2, T1, !app_assoc. reflexivity.
  Qed.

  Lemma closing_brace q s x f body out s' : exec q start_ = (Normal, s) ->
    exec (Scope (Seq (MkGuard x f) body)) s = (out, s') -> out <> Halted ->
    exists o mid eff, trace s' = trace s ++ ENewGuard o f :: mid ++ [EGone o eff] /\
      (forall g on, known (trace s ++ ENewGuard o f :: mid) o = Some (AGuard g on) -> eff = if on then Ran g else Quiet).
  Proof.
    intros Eq E Ho. assert (HI : Inv clock cxx11 s).
    { pose proof (exec_post clock cxx11 sane q start_ (inv_start clock cxx11)) as P. rewrite Eq in P. apply P. }
    pose proof (exec_post clock cxx11 sane (MkGuard x f) s HI) as Pg. cbn [GuardModel.exec] in Pg.
    set (s1 := emit (ENewGuard (next s) f) (push x (Guard f true) s)) in *.
    destruct Pg as [_ [HI1 _]]. cbn [fst snd] in HI1.
    pose proof (exec_post clock cxx11 sane body s1 HI1) as Pb.
    pose proof (exec_post clock cxx11 sane (Scope (Seq (MkGuard x f) body)) s HI) as PS. rewrite E in PS.
    cbn [GuardModel.exec] in E. unfold scope in E. cbn [GuardModel.exec] in E. fold s1 in E.
    destruct (exec body s1) as [out2 s2]. destruct Pb as [[h1 T1] P]. cbn [fst snd] in *.
    assert (X : out2 <> Halted -> unwind clock cxx11 (length (env s2) - length (env s)) out2 s2 = (out, s') ->
      exists mid eff, trace s' = trace s ++ ENewGuard (next s) f :: mid ++ [EGone (next s) eff]).
    { intros N2 E2. assert (P2 : Inv clock cxx11 s2 /\ exists l, map ident (env s2) = l ++ map ident (env s1)) by (destruct out2; auto; congruence).
      destruct P2 as [HI2 [l L]]. change (map ident (env s1)) with (next s :: map ident (env s)) in L.
      assert (Len : length (env s2) = length l + S (length (env s))).
      { rewrite <- (map_length ident (env s2)), L, app_length. cbn [length]. rewrite map_length. reflexivity. }
      assert (Nth : nth_error (map ident (env s2)) (length l) = Some (next s)).
      { rewrite L, nth_error_app2, Nat.sub_diag by lia. reflexivity. }
      rewrite nth_error_map in Nth. destruct (nth_error (env s2) (length l)) as [[[y o] b]|] eqn:En; [|discriminate].
      cbn in Nth. injection Nth as ->.
      replace (length (env s2) - length (env s)) with (S (length l)) in E2 by lia.
      destruct (unwind_last (length l) s2 out2 y (next s) b (out, s') HI2 N2 En (eq_sym E2) Ho) as (h2 & eff & T2).
      exists (h1 ++ h2), eff. cbn [snd] in T2. rewrite T2, T1. unfold s1. cbn [emit push trace]. rewrite <- !app_assoc. reflexivity. }
    assert (Y : exists mid eff, trace s' = trace s ++ ENewGuard (next s) f :: mid ++ [EGone (next s) eff]).
    { destruct out2; [apply X; [discriminate|exact E]|apply X; [discriminate|exact E]|]. injection E as <- _. congruence. }
    destruct Y as (mid & eff & T). exists (next s), mid, eff. split; [exact T|].
    intros g on K. assert (G : Good clock (trace s')) by (destruct PS as [_ PS]; destruct out; try congruence; cbn [snd] in PS; apply (i_good _ _ _ (proj1 PS))).
    assert (T' : trace s' = (trace s ++ ENewGuard (next s) f :: mid) ++ EGone (next s) eff :: []) by (rewrite T, <- app_assoc; reflexivity).
    destruct (G _ _ _ T') as [_ [_ S1]]. rewrite K in S1. exact S1.
  Qed.

  Lemma run_abort p : In EAbort (trace (snd (run p))) -> exists o f, In (EGone o (Ran f)) (trace (snd (run p))) /\ Throws f.
  Proof.
    intros H. apply in_split in H. destruct H as (pre & post & E). destruct (run_good p _ _ _ E) as [_ (pre' & o & f & -> & T)].
    exists o, f. split; [|exact T]. rewrite E. apply in_or_app. left. apply in_or_app. right. left. reflexivity.
  Qed.
  Lemma run_calm p o f : cxx11 = true -> In (EGone o (Ran f)) (trace (snd (run p))) -> Throws f -> fst (run p) = Halted.
  Proof.
    intros Hc Hin Hf. pose proof (run_post p) as [_ P]. destruct (fst (run p)); auto; exfalso; exact (i_calm _ _ _ (proj1 P) Hc _ _ Hin Hf).
  Qed.
  Lemma run_halted p : fst (run p) = Halted <-> exists e, In e (trace (snd (run p))) /\ halt e.
  Proof.
    pose proof (run_post p) as [_ P]. destruct (fst (run p)).
    - split; [discriminate|]. intros (e & H1 & H2). exfalso. exact (i_nohalt _ _ _ (proj1 P) _ H1 H2).
    - split; [discriminate|]. intros (e & H1 & H2). exfalso. exact (i_nohalt _ _ _ (proj1 P) _ H1 H2).
    - split; [|reflexivity]. intros _. destruct P as [_ (h & e & -> & H)]. exists e. split; [apply in_or_app; right; left; reflexivity|exact H].
  Qed.

  Lemma run_defined p : (forall i j, fits (total (clock i) - total (clock j))%Z) -> ~ In EUndefined (trace (snd (run p))).
  Proof.
    intros F H. apply in_split in H. destruct H as (pre & post & E). pose proof (run_good p) as G.
    destruct (G _ _ _ E) as [_ (o & d & l & t & b & K & N)].
    assert (Gp : Good clock pre) by (apply (good_app clock pre (EUndefined :: post)); rewrite <- E; exact G).
    destruct (timer_start clock pre Gp _ _ _ _ _ K) as (i & _ & ->). apply N, F.
  Qed.

  Lemma run_report p o d l t : fst (run p) = Normal -> (forall pre post, trace (snd (run p)) = pre ++ post -> logging pre l) ->
    In (ENewTimer o d l t) (trace (snd (run p))) -> length (filter (final o) (trace (snd (run p)))) = 1.
  Proof.
    intros E L Hin. destruct (one_report clock _ o d l t (run_good p) L Hin) as (b & _ & ->).
    destruct (run_exactly_once p o _ E Hin eq_refl) as (pre & eff & post & Eh & _).
    replace (existsb _ _) with true; [rewrite orb_true_r; reflexivity|]. symmetry. apply existsb_exists.
    exists (EGone o eff). split; [rewrite Eh; apply in_elt|]. cbn. apply Nat.eqb_refl.
  Qed.

  (* lines *)
  Definition written (e : event) : option (nat * time * line) :=
    match e with
    | EStop o (Some (t, l)) | EPrint o _ (Some (t, l)) | EGone o (Wrote t l) => Some (o, t, l)
    | _ => None
    end.

  Lemma decide_logging h l : logging h l \/ ~ logging h l.
  Proof.
    unfold logging. destruct (fst (log_state h)) eqn:F; [|right; intros [X _]; discriminate].
    destruct (le_dec (snd (log_state h)) l); [left; auto|right; intros [_ X]; contradiction].
  Qed.

  Lemma run_line p pre e post o now d x ns : trace (snd (run p)) = pre ++ e :: post -> written e = Some (o, now, Line d x ns) ->
    exists l b i, i < length (readings pre) /\ known pre o = Some (ATimer d l (clock i) b) /\ logging pre l /\
      now = clock (length (readings pre)) /\ ns = (total now - total (clock i))%Z.
  Proof.
    intros E W. pose proof (run_good p) as G. pose proof (G _ _ _ E) as [_ A].
    assert (Gp : Good clock pre) by (apply (good_app clock pre (e :: post)); rewrite <- E; exact G).
    destruct e as [w| |n f|n c|n d' l' t'|n [[t1 l1]|]|n x1 [[t1 l1]|]|n n'|n n'|n [|f|t1 l1]|c l'| |]; cbn in W; try discriminate; injection W as -> -> ->.
    - destruct A as [_ A]. destruct (known pre o) as [[|d' l t b]|] eqn:K; try contradiction. destruct A as [A1 A2].
      destruct (decide_logging pre l) as [D|D]; [|specialize (A2 (or_intror D)); discriminate].
      destruct b; [specialize (A2 (or_introl eq_refl)); discriminate|].
      destruct (A1 (conj eq_refl D)) as (r & El & X). injection X as <-. unfold Elapsed in El. injection El as -> -> -> ->.
      destruct (timer_start clock pre Gp _ _ _ _ _ K) as (i & Hi & ->). exists l, false, i. auto 6.
    - destruct A as [_ A]. destruct (known pre o) as [[|d' l t b]|] eqn:K; try contradiction. destruct A as [A1 A2].
      destruct (decide_logging pre l) as [D|D]; [|specialize (A2 D); discriminate].
      destruct (A1 D) as (r & El & X). injection X as <-. unfold Elapsed in El. injection El as -> -> -> ->.
      destruct (timer_start clock pre Gp _ _ _ _ _ K) as (i & Hi & ->). exists l, b, i. auto 6.
    - destruct A as [_ A]. destruct (known pre o) as [[g c|d' l t b]|] eqn:K; try contradiction; [destruct c; discriminate|]. destruct A as [A1 A2].
      destruct (decide_logging pre l) as [D|D]; [|specialize (A2 (or_intror D)); discriminate].
      destruct b; [specialize (A2 (or_introl eq_refl)); discriminate|].
      destruct (A1 (conj eq_refl D)) as (n1 & l1 & El & X). injection X as <- <-. unfold Elapsed in El. injection El as -> -> -> ->.
      destruct (timer_start clock pre Gp _ _ _ _ _ K) as (i & Hi & ->). exists l, false, i. auto 6.
  Qed.

  Lemma run_not_throwing p : fst (run p) <> Throwing.
  Proof.
    unfold GuardModel.run. cbn [GuardModel.exec]. destruct (scope clock cxx11 (exec p) start_) as [[| |] s1]; cbn [fst]; try discriminate.
    unfold scope. cbn [GuardModel.exec]. rewrite Nat.sub_diag. discriminate.
  Qed.
  Lemma run_completes p : (forall i j, fits (total (clock i) - total (clock j))%Z) ->
    (forall o f, In (EGone o (Ran f)) (trace (snd (run p))) -> ~ Throws f) -> fst (run p) = Normal.
  Proof.
    intros F T. pose proof (run_not_throwing p) as N. pose proof (run_halted p) as [H _].
    destruct (fst (run p)); [reflexivity|congruence|]. destruct (H eq_refl) as (e & H1 & H2).
    destruct e; try destruct H2.
    - destruct (run_abort p H1) as (o & f & H3 & H4). exfalso. exact (T _ _ H3 H4).
    - exfalso. exact (run_defined p F H1).
  Qed.

  Lemma unwind_out k : forall s out out' s', Inv clock cxx11 s -> out <> Halted -> k <= length (env s) ->
    unwind clock cxx11 k out s = (out', s') -> out' <> Halted ->
    (forall o f, In (EGone o (Ran f)) (trace s') -> ~ Throws f) -> out' = out.
  Proof.
    induction k as [|k IH]; intros s out out' s' HI Ho Hk E N T; cbn [unwind] in E.
    - injection E as <- <-. reflexivity.
    - destruct (env s) as [|[[x o] b] r] eqn:He; [injection E as <- <-; reflexivity|].
      pose proof (destroy_post clock cxx11 sane s x o b r out HI Ho He) as [_ P1].
      destruct (destroy clock cxx11 o b out (set_env r s)) as [out1 s1] eqn:Ed. cbn [fst snd] in *.
      assert (X : out1 <> Halted -> unwind clock cxx11 k out1 s1 = (out', s') -> out' = out).
      { intros N1 E1. assert (P2 : Inv clock cxx11 s1 /\ env s1 = r) by (destruct out1; auto; congruence). destruct P2 as [HI1 Er].
        assert (Hk1 : k <= length (env s1)) by (rewrite Er; cbn in Hk; lia).
        rewrite (IH s1 out1 out' s' HI1 N1 Hk1 E1 N T).
        destruct b as [f [|]|d l t [|]]; cbn [destroy] in Ed.
        - destruct (call_throws f) eqn:Ef; [|injection Ed as <- <-; reflexivity]. exfalso.
          apply (T o f).
          + pose proof (unwind_post clock cxx11 sane k s1 out1 HI1 N1 Hk1) as [[h Th] _]. rewrite E1 in Th. cbn [snd] in Th. rewrite Th.
            apply in_or_app. left. destruct cxx11; [injection Ed as <- <-; congruence|]. destruct out; injection Ed as <- <-; try congruence.
            cbn [emit trace]. apply in_or_app. right. left. reflexivity.
          + intros g ->. exact Ef.
        - injection Ed as <- <-. reflexivity.
        - destruct (print_line _ _ _ _ _ _) as [[[now ln]| |]|]; injection Ed as <- <-; congruence.
        - injection Ed as <- <-. reflexivity. }
      destruct out1; [apply X; [discriminate|exact E]|apply X; [discriminate|exact E]|injection E as <- <-; congruence].
  Qed.

  Lemma exceptions_pass q s p out s1 out' s' : exec q start_ = (Normal, s) -> exec p s = (out, s1) ->
    exec (Scope p) s = (out', s') -> out' <> Halted -> (forall o f, In (EGone o (Ran f)) (trace s') -> ~ Throws f) -> out' = out.
  Proof.
    intros Eq Ep Es N T. assert (HI : Inv clock cxx11 s).
    { pose proof (exec_post clock cxx11 sane q start_ (inv_start clock cxx11)) as P. rewrite Eq in P. apply P. }
    cbn [GuardModel.exec] in Es. unfold scope in Es. pose proof (exec_post clock cxx11 sane p s HI) as [_ P]. rewrite Ep in Es, P. cbn [fst snd] in P.
    destruct out; [| |injection Es as <- <-; congruence].
    - apply (unwind_out _ s1 Normal out' s' (proj1 P) ltac:(discriminate) (Nat.le_sub_l _ _) Es N T).
    - apply (unwind_out _ s1 Throwing out' s' (proj1 P) ltac:(discriminate) (Nat.le_sub_l _ _) Es N T).
  Qed.

  Lemma copy_twice x y f : throws f = false -> x <> y ->
    trace (snd (run (Seq (MkGuard x (Some f)) (Copy y x)))) =
      [ENewGuard 0 (Some f); ECopy 1 0; EGone 1 (Ran (Some f)); EGone 0 (Ran (Some f))].
  Proof.
    intros Hf N. unfold GuardModel.run. cbn [GuardModel.exec]. unfold scope. cbn [GuardModel.exec start_ emit push env lookup].
    rewrite Nat.eqb_refl. cbn [unwind emit push env length destroy call_throws Nat.sub set_env]. rewrite Hf. cbn [unwind emit push env length destroy call_throws Nat.sub set_env].
    rewrite Hf. reflexivity.
  Qed.
End Programs.
