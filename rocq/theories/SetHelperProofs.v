From Verif Require Import Base SetHelperModel SetHelperSpec.

(* a flag pattern describes the two sets *)
Definition flags_of {T} (s1 s2 : list T) (f : flags) : Prop :=
  (super f = true <-> subset s2 s1) /\ (sub f = true <-> subset s1 s2) /\
  (equal f = true <-> super f = true /\ sub f = true) /\ (inter f = true <-> exists x, In x s1 /\ In x s2).

Lemma final_class {T} (s1 s2 : list T) f : flags_of s1 s2 f ->
  classification s1 s2 (if equal f then EQUAL else if super f then PROPER_SUPERSET else if sub f then PROPER_SUBSET
    else if inter f then INTERSECTION_NONEMPTY else DISJUNCT).
Proof.
  intros (H1 & H2 & H3 & H4). unfold classification.
  assert (HN : (forall x, In x s1 -> ~ In x s2) <-> ~ exists x, In x s1 /\ In x s2).
  { split; [intros H (x & A & B); eapply H; eauto|intros H x A B; apply H; eauto]. }
  rewrite HN, <- H1, <- H2, <- H4. clear H1 H2 H4 HN.
  destruct (equal f), (super f), (sub f), (inter f); intuition congruence.
Qed.

Definition finish {T} (z : list T * list T * flags) : flags :=
  let '(i1, i2, f) := z in
  let f := match i1 with [] => f | _ => F false (super f) false (inter f) end in
  match i2 with [] => f | _ => F false false (sub f) (inter f) end.

Section Proof.
  Context {T : Type} (lt eqb : T -> T -> bool) (HO : strict_total lt eqb).

  Lemma lt_ne x y : lt x y = true -> x <> y.
  Proof. destruct HO as (_ & I & _). intros H ->. rewrite I in H. discriminate. Qed.
  Lemma asc_hd x r : ascending lt (x :: r) -> ascending lt r /\ forall y, In y r -> lt x y = true.
  Proof. inversion 1; auto. Qed.
  Lemma below_all x y r : ascending lt (y :: r) -> lt x y = true -> forall z, In z (y :: r) -> lt x z = true.
  Proof. destruct HO as (_ & _ & Tr & _). intros A L z [<-|Hz]; auto. apply asc_hd in A. eapply Tr; eauto. apply A; auto. Qed.

  Lemma merge_ok n : forall s1 s2, length s1 + length s2 <= n -> ascending lt s1 -> ascending lt s2 -> exists g, flags_of s1 s2 g /\
    forall f, finish (merge_loop lt eqb s1 s2 f) = F (equal f && equal g) (super f && super g) (sub f && sub g) (inter f || inter g).
  Proof.
    destruct HO as (He & Hi & Htr & Hto).
    induction n as [|n IH]; intros [|x1 r1] [|x2 r2] Hn A1 A2; cbn [length] in Hn; try lia.
    - exists (F true true true false). split.
      + unfold flags_of, subset; cbn. intuition (try discriminate). destruct H as (x & [] & _).
      + intros [e p b i]. cbn. rewrite !andb_true_r, orb_false_r. auto.
    - exists (F true true true false). split.
      + unfold flags_of, subset; cbn. intuition (try discriminate). destruct H as (x & [] & _).
      + intros [e p b i]. cbn. rewrite !andb_true_r, orb_false_r. auto.
    - exists (F false false true false). split.
      + unfold flags_of, subset; cbn. intuition (try discriminate).
        * exfalso. apply (H x2). auto.
        * destruct H as (x & [] & _).
      + intros [e p b i]. cbn. rewrite !andb_false_r, andb_true_r, orb_false_r. auto.
    - exists (F false true false false). split.
      + unfold flags_of, subset; cbn. intuition (try discriminate).
        * exfalso. apply (H x1). auto.
        * destruct H as (x & _ & []).
      + intros [e p b i]. cbn. rewrite !andb_false_r, andb_true_r, orb_false_r. auto.
    - pose proof (asc_hd _ _ A1) as [A1' L1]. pose proof (asc_hd _ _ A2) as [A2' L2].
      cbn [merge_loop]. destruct (eqb x1 x2) eqn:E.
      + apply He in E. subst x2.
        destruct (IH r1 r2 ltac:(lia) A1' A2') as ([e p b i] & HF & HG).
        exists (F e p b true). split.
        * destruct HF as (F1 & F2 & F3 & F4). unfold flags_of; cbn in *.
          assert (S1 : subset (x1 :: r2) (x1 :: r1) <-> subset r2 r1).
          { split; intros H y Hy; [|destruct Hy as [<-|Hy]; [left; auto|right; auto]].
            destruct (H y (or_intror Hy)) as [<-|Q]; auto. apply L2, lt_ne in Hy. congruence. }
          assert (S2 : subset (x1 :: r1) (x1 :: r2) <-> subset r1 r2).
          { split; intros H y Hy; [|destruct Hy as [<-|Hy]; [left; auto|right; auto]].
            destruct (H y (or_intror Hy)) as [<-|Q]; auto. apply L1, lt_ne in Hy. congruence. }
          rewrite S1, S2. repeat split; try tauto. intros _. exists x1. auto.
        * intros f. rewrite HG. cbn. rewrite orb_true_r. reflexivity.
      + assert (N : x1 <> x2) by (intros ->; rewrite (proj2 (He x2 x2) eq_refl) in E; discriminate).
        destruct (lt x1 x2) eqn:L.
        * pose proof (below_all x1 x2 r2 A2 L) as B.
          assert (NI : ~ In x1 (x2 :: r2)) by (intros Q; apply B in Q; rewrite Hi in Q; discriminate).
          destruct (IH r1 (x2 :: r2) ltac:(cbn [length]; lia) A1' A2) as ([e p b i] & HF & HG).
          exists (F false p false i). split.
          -- destruct HF as (F1 & F2 & F3 & F4). unfold flags_of; cbn [super sub equal inter] in *.
             assert (S1 : subset (x2 :: r2) (x1 :: r1) <-> subset (x2 :: r2) r1).
             { split; intros H y Hy; [|right; auto]. destruct (H y Hy) as [<-|Q]; auto. contradiction. }
             rewrite S1. split; auto. split; [split; [discriminate|intros H; exfalso; apply NI, H; left; auto]|].
             split; [intuition discriminate|]. rewrite F4. split; intros (x & H1 & H2).
             ++ exists x. split; auto. right; auto.
             ++ destruct H1 as [<-|H1]; [contradiction|eauto].
          -- intros f. rewrite HG. cbn. rewrite !andb_false_r. reflexivity.
        * assert (L' : lt x2 x1 = true) by (destruct (Hto x1 x2) as [|[|]]; congruence).
          pose proof (below_all x2 x1 r1 A1 L') as B.
          assert (NI : ~ In x2 (x1 :: r1)) by (intros Q; apply B in Q; rewrite Hi in Q; discriminate).
          destruct (IH (x1 :: r1) r2 ltac:(cbn [length]; lia) A1 A2') as ([e p b i] & HF & HG).
          exists (F false false b i). split.
          -- destruct HF as (F1 & F2 & F3 & F4). unfold flags_of; cbn [super sub equal inter] in *.
             assert (S1 : subset (x1 :: r1) (x2 :: r2) <-> subset (x1 :: r1) r2).
             { split; intros H y Hy; [|right; auto]. destruct (H y Hy) as [<-|Q]; auto. contradiction. }
             rewrite S1. split; [split; [discriminate|intros H; exfalso; apply NI, H; left; auto]|]. split; auto.
             split; [intuition discriminate|]. rewrite F4. split; intros (x & H1 & H2).
             ++ exists x. split; auto. right; auto.
             ++ destruct H2 as [<-|H2]; [contradiction|eauto].
          -- intros f. specialize (HG (F false false (sub f) (inter f))). cbn [merge_loop] in HG. 
             cbn [equal super sub inter andb] in HG. cbn [equal super sub inter]. rewrite !andb_false_r. exact HG.
  Qed.
End Proof.

Lemma C26_lemma :
  forall T (lt eqb : T -> T -> bool) s1 s2, strict_total lt eqb -> ascending lt s1 -> ascending lt s2 ->
  classification s1 s2 (setRelation lt eqb s1 s2).
Proof.
  intros T lt eqb s1 s2 HO A1 A2. destruct (merge_ok lt eqb HO _ s1 s2 (le_n _) A1 A2) as (g & HF & HG).
  specialize (HG (F true true true false)). pose proof (final_class s1 s2 g HF) as HC. destruct g as [e p b i].
  cbn [equal super sub inter andb orb] in *. unfold setRelation. unfold finish in HG.
  destruct (merge_loop lt eqb s1 s2 (F true true true false)) as [[i1 i2] f]. rewrite HG. exact HC.
Qed.
