From Verif Require Import Base Text ATreeModel ATreeSpec ATreeProofs ATreeProofs2 ATreeProofs3.
From Coq Require Import Permutation.
From Verif Require Conc.

(* ---- copy ---- *)
Definition fresh_tree (t : tree) (a b : nat) : Prop := NoDup (ids t) /\ forall x, In x (ids t) -> a <= x < b.
Definition copied (h h' : heap) (par : option nat) (t t' : tree) : Prop :=
  tid t' = next h /\ next h < next h' /\ fresh_tree t' (next h) (next h') /\ repr h' par t' /\
  content_of t' = reversed (content_of t) /\ (forall y, In y (nodes t') -> tchanged y = false) /\
  (forall x, ~ In x (ids t') -> par <> Some x -> cell h' x = cell h x) /\
  (forall q m, par = Some q -> cell h q = Some m -> cell h' q = Some (set_subs (next h :: subs m) m)).
Lemma copy_effect t : forall h ps par fuel, repr h ps t -> (forall x, In x (ids t) -> x < next h) ->
  (forall q, par = Some q -> q < next h /\ live h q) -> height t <= fuel ->
  exists h' t', copy_tree fuel h (tid t) par = Done (h', next h) /\ copied h h' par t t'.
Proof.
  induction t as [i d a ch l IH] using tree_ind'. intros h ps par [|f] R LT Q HF; [cbn in HF; lia|].
  cbn [height] in HF. apply le_S_n in HF. apply repr_eq in R. destruct R as [E SB]. cbn [copy_tree tid].
  unfold deref at 1. rewrite E. cbn [obind]. cbn [alloc desc attr subs].
  set (p := next h). set (h1 := mkH _ (S p)).
  assert (A1 : cell h1 p = Some (mkN d a false par [])) by exact (alloc_same h (mkN d a false par [])).
  assert (A2 : forall x, x <> p -> cell h1 x = cell h x) by exact (alloc_other h (mkN d a false par [])).
  assert (X : forall m acc g, (forall y, In y m -> In y l) -> S p <= next g ->
     cell g p = Some (mkN d a false par (map tid acc)) -> (forall x, x <> p -> ~ In x (flat_map ids acc) -> cell g x = cell h x) ->
     NoDup (flat_map ids acc) -> (forall x, In x (flat_map ids acc) -> p < x < next g) -> Forall (repr g (Some p)) acc ->
     (forall y, In y (flat_map nodes acc) -> tchanged y = false) ->
     exists g' acc', ofold (fun g c => let* r := copy_tree f g c (Some p) in Done (fst r)) (map tid m) g = Done g' /\
       S p <= next g' /\ cell g' p = Some (mkN d a false par (map tid acc')) /\ (forall x, x <> p -> ~ In x (flat_map ids acc') -> cell g' x = cell h x) /\
       NoDup (flat_map ids acc') /\ (forall x, In x (flat_map ids acc') -> p < x < next g') /\ Forall (repr g' (Some p)) acc' /\
       (forall y, In y (flat_map nodes acc') -> tchanged y = false) /\
       map content_of acc' = rev (map (fun y => reversed (content_of y)) m) ++ map content_of acc).
  { induction m as [|y m IHm]; intros acc g SS NG CG KG ND FA RA CA.
    - exists g, acc. cbn. repeat split; auto; apply FA; assumption.
    - assert (KG0 : forall x, x < p -> cell g x = cell h x) by (intros x L; apply KG; [lia|]; intros J; specialize (FA x J); lia).
      assert (Il : In y l) by (apply SS; now left). cbn [map ofold]. rewrite Forall_forall in IH, SB.
      assert (LY : forall x, In x (ids y) -> x < p) by (intros x I; apply LT; exact (ids_sub i d a ch l y x Il I)).
      destruct (IH y Il g (Some i) (Some p) f) as (g2 & t2 & E2 & T1 & T2 & T3 & T4 & T5 & T6 & T7 & T8).
      + apply repr_ext with h; [|apply SB, Il]. intros x I. apply KG0, LY, I.
      + intros x I. specialize (LY x I). lia.
      + intros q [= <-]. split; [lia|]. apply live_ex. eauto.
      + clear - HF Il. induction l as [|z l IHl]; [easy|]. cbn [fold_right] in HF. destruct Il as [->|I]; [lia|]. apply IHl; [lia|exact I].
      + rewrite E2. cbn [obind fst]. specialize (T8 p _ eq_refl CG). cbn [subs set_subs desc attr changed parent] in T8. destruct T3 as [T3 T3'].
        destruct (IHm (t2 :: acc) g2) as (g' & acc' & H0 & H1 & H2 & H3 & H4 & H5 & H6 & H7 & H8).
        * intros z Iz. apply SS. now right.
        * lia.
        * rewrite T8. cbn [map]. rewrite T1. reflexivity.
        * cbn [flat_map]. intros x N J. rewrite T7; [apply KG; [exact N|]| |congruence]; intros K; apply J, in_or_app; auto.
        * cbn [flat_map]. apply nodup_app_iff. split; [exact T3|]. split; [exact ND|]. intros x I J. specialize (T3' x I). specialize (FA x J). lia.
        * cbn [flat_map]. intros x I. apply in_app_or in I. destruct I as [I|I]; [specialize (T3' x I)|specialize (FA x I)]; lia.
        * constructor; [exact T4|]. rewrite Forall_forall in RA |- *. intros z Iz. apply repr_ext with g; [|auto]. intros x I.
          assert (J : p < x < next g) by (apply FA, in_flat_map; eauto). apply T7; [intros K; specialize (T3' x K); lia|]. intros [= Z]. lia.
        * cbn [flat_map]. intros z I. apply in_app_or in I. destruct I; auto.
        * exists g', acc'. repeat split; try assumption; try apply H5; try assumption.
          rewrite H8. cbn [map rev]. rewrite T5. rewrite <- app_assoc. reflexivity. }
  destruct (X l [] h1 (fun y I => I)) as (g & acc & EG & NG & CG & KG & ND & FA & RA & CA & CC); try easy.
  { intros x N _. now apply A2. }
  { constructor. }
  rewrite EG. cbn [obind]. assert (KG0 : forall x, ~ In x (ids (T p d a false acc)) -> cell g x = cell h x).
  { intros x. rewrite ids_eq. intros N. apply KG; [intros ->|intros I]; apply N; [now left|now right]. }
  assert (R0 : forall g', (forall x, p <= x -> par <> Some x -> cell g' x = cell g x) -> repr g' par (T p d a false acc)).
  { intros g' K. assert (NP : par <> Some p) by (intros Z; destruct (Q p Z); fold p in H; lia). apply repr_eq. split; [rewrite K; [exact CG|lia|exact NP]|]. rewrite Forall_forall in RA |- *. intros z Iz.
    apply repr_ext with g; [|auto]. intros x I. assert (J : p < x < next g) by (apply FA, in_flat_map; eauto). apply K; [lia|].
    intros Z. destruct (Q x Z) as [Z' _]. fold p in Z'. lia. }
  assert (FT : fresh_tree (T p d a false acc) p (next g)).
  { split; [rewrite ids_eq; constructor; [|exact ND]; intros I; specialize (FA p I); lia|]. intros x. rewrite ids_eq. intros [<-|I]; [lia|].
    specialize (FA x I). lia. }
  assert (CT : content_of (T p d a false acc) = reversed (content_of (T i d a ch l))).
  { cbn [content_of reversed]. rewrite CC. cbn [map]. rewrite app_nil_r, map_map. reflexivity. }
  assert (CH : forall y, In y (nodes (T p d a false acc)) -> tchanged y = false).
  { intros y. rewrite nodes_eq. intros [<-|I]; [reflexivity|auto]. }
  destruct par as [q|].
  - destruct (Q q eq_refl) as [LQ LvQ]. fold p in LQ. destruct (proj1 (live_ex h q) LvQ) as [m Em].
    assert (Eq : cell g q = Some m) by (rewrite KG; [exact Em|lia|intros J; specialize (FA q J); lia]).
    rewrite (update_done _ _ _ m Eq). cbn [obind]. exists (put g q (set_subs (p :: subs m) m)), (T p d a false acc). split; [reflexivity|].
    unfold copied. fold p. rewrite next_put. split; [reflexivity|]. split; [lia|]. split; [exact FT|]. split; [|split; [exact CT|split; [exact CH|split]]].
    + apply R0. intros x _ N. apply put_other. congruence.
    + intros x L N. rewrite put_other by congruence. auto.
    + intros q' m' [= <-] Em'. rewrite Em in Em'. inversion Em'. subst m'. apply put_same.
  - exists g, (T p d a false acc). split; [reflexivity|]. unfold copied. fold p. split; [reflexivity|]. split; [lia|]. split; [exact FT|].
    split; [|split; [exact CT|split; [exact CH|split]]]; [apply R0; auto|intros x L _; auto|discriminate].
Qed.
Lemma copy_ok h p n par fuel : forest h -> cell h p = Some n -> (forall q, par = Some q -> live h q) -> next h <= fuel ->
  exists t h' t', repr h (parent n) t /\ tid t = p /\ copy_tree fuel h p par = Done (h', next h) /\ copied h h' par t t' /\ forest h'.
Proof.
  intros F E LQ L. destruct (tree_at h p n F E) as (t & R & <-). exists t.
  assert (Q : forall q, par = Some q -> q < next h /\ live h q) by (intros q Z; split; [apply (f_fresh _ F)|]; auto).
  destruct (copy_effect t h (parent n) par fuel R) as (h' & t' & D & P); [|exact Q| |].
  - intros x I. apply (f_fresh _ F). exact (repr_live _ _ _ _ R I).
  - pose proof (height_bound _ _ _ F R). lia.
  - exists h', t'. split; [exact R|]. split; [reflexivity|]. split; [exact D|]. split; [exact P|].
    destruct P as (P1 & P2 & (P3 & P3') & P4 & P5 & P6 & P7 & P8). apply (graft h h' par t' F); try assumption; [lia|].
    intros q Z. destruct (Q q Z) as [_ Lq]. destruct (proj1 (live_ex h q) Lq) as [m Em]. exists m, (set_subs (next h :: subs m) m).
    rewrite P1. auto.
Qed.
