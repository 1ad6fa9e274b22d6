From Verif Require Import Base Text LogTextModel ATreeModel ATreeSpec ATreeProofs ATreeProofs2 ATreeProofs3 ATreeProofs4 ATreeProofs5 ATreeProofs6 ATreeProofs7 ATreeProofs8 ATreeProofs9 ATreeProofs10.

Lemma remove_first_split p l : In p l -> exists b a, l = b ++ p :: a /\ remove_first p l = b ++ a.
Proof.
  induction l as [|x l IH]; [easy|]. cbn [remove_first]. destruct (Nat.eqb_spec x p) as [->|N]; [intros _; exists [], l; auto|].
  intros [->|I]; [congruence|]. destruct (IH I) as (b & a & E1 & E2). exists (x :: b), a. cbn [app]. now rewrite E1 at 1; rewrite E2.
Qed.
Lemma insert_after_split t a b r : ~ In a b -> insert_after t a (b ++ a :: r) = b ++ a :: t :: r.
Proof.
  induction b as [|x b IH]; intros N; cbn [app insert_after].
  - destruct r; [reflexivity|]. now rewrite Nat.eqb_refl.
  - destruct (b ++ a :: r) eqn:E; [now destruct b|]. destruct (Nat.eqb_spec x a) as [->|]; [exfalso; apply N; now left|].
    rewrite IH; [reflexivity|]. intros I. apply N. now right.
Qed.
Lemma next_in_split b x y r : ~ In x b -> next_in (b ++ x :: y :: r) x = Some y.
Proof.
  induction b as [|z b IH]; intros N; cbn [app next_in]; [now rewrite Nat.eqb_refl|].
  destruct (b ++ x :: y :: r) eqn:E; [now destruct b|]. destruct (Nat.eqb_spec z x) as [->|]; [exfalso; apply N; now left|]. apply IH. intros I. apply N. now right.
Qed.
Lemma next_in_last b x : ~ In x b -> next_in (b ++ [x]) x = None.
Proof.
  induction b as [|z b IH]; intros N; cbn [app next_in]; [reflexivity|].
  destruct (b ++ [x]) eqn:E; [reflexivity|]. destruct (Nat.eqb_spec z x) as [->|]; [exfalso; apply N; now left|]. apply IH. intros I. apply N. now right.
Qed.
Lemma nodup_not_before {A} (b : list A) x r : NoDup (b ++ x :: r) -> ~ In x b.
Proof. intros N I. apply NoDup_remove_2 in N. apply N, in_or_app. now left. Qed.
(* the tree of values of a node and where its nodes are *)
Lemma tree_values h p : forest h -> live h p -> exists q t, repr h q t /\ tid t = p /\ forall x, In x (ids t) <-> below h p x.
Proof.
  intros F L. destruct (proj1 (live_ex h p) L) as [n E]. destruct (tree_at h p n F E) as (t & R & <-). exists (parent n), t. split; [exact R|]. split; [reflexivity|].
  intros x. eapply ids_below; eauto.
Qed.
Lemma reversed_twice c : reversed (reversed c) = c.
Proof.
  induction c as [d a l IH] using content_ind'. cbn [reversed]. f_equal. rewrite map_rev, rev_involutive, map_map.
  induction IH as [|x l Hx _ IHl]; [reflexivity|]. cbn [map]. now rewrite Hx, IHl.
Qed.
Lemma search_fuel_root h : forall fuel p n, cell h p = Some n -> parent n = Some p -> root fuel h p = Running.
Proof. induction fuel as [|f IH]; intros p n E P; cbn [root]; [reflexivity|]. unfold deref. rewrite E. cbn [obind]. rewrite P. eauto. Qed.
Lemma contains_loop h p n : cell h p = Some n -> In p (subs n) -> (forall c, In c (subs n) -> c = p) -> forall fuel, contains fuel h p = Running.
Proof.
  intros E I U. induction fuel as [|f IH]; [reflexivity|]. cbn [contains]. unfold deref. rewrite E. cbn [obind].
  destruct (subs n) as [|c l]; [easy|]. rewrite (U c) by now left. cbn [ofold]. now rewrite IH.
Qed.
