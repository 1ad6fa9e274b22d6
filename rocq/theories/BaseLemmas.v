From Verif Require Import Base.

Ltac Zify.zify_post_hook ::= Z.div_mod_to_equations.

Lemma list_set_length {A} (l : list A) i x : length (list_set l i x) = length l.
Proof. revert i; induction l as [|y l IH]; intros [|i]; cbn; auto. Qed.

Lemma nth_error_list_set {A} (l : list A) i x j :
  nth_error (list_set l i x) j =
  if (j =? i) && (i <? length l) then Some x else nth_error l j.
Proof.
  revert i j; induction l as [|y l IH]; intros i j.
  - cbn [list_set length]. destruct (Nat.ltb_spec i 0); [lia|]. rewrite andb_false_r. reflexivity.
  - destruct i as [|i], j as [|j]; cbn [list_set nth_error length]; auto. rewrite IH. reflexivity.
Qed.

Lemma nth_error_list_set_eq {A} (l : list A) i x : i < length l -> nth_error (list_set l i x) i = Some x.
Proof. intros H. rewrite nth_error_list_set, Nat.eqb_refl. apply Nat.ltb_lt in H. rewrite H. reflexivity. Qed.

Lemma nth_error_list_set_ne {A} (l : list A) i x j : j <> i -> nth_error (list_set l i x) j = nth_error l j.
Proof. intros H. rewrite nth_error_list_set. apply Nat.eqb_neq in H. rewrite H. reflexivity. Qed.

Lemma list_set_out {A} (l : list A) i x : length l <= i -> list_set l i x = l.
Proof. revert i; induction l as [|y l IH]; intros [|i] H; cbn in *; auto; try lia. f_equal; apply IH; lia. Qed.

Lemma nth_error_ext {A} (l1 l2 : list A) : (forall i, nth_error l1 i = nth_error l2 i) -> l1 = l2.
Proof.
  revert l2; induction l1 as [|x l1 IH]; intros [|y l2] H; auto.
  - specialize (H 0); discriminate.
  - specialize (H 0); discriminate.
  - f_equal. + specialize (H 0); cbn in H; congruence. + apply IH; intros i; exact (H (S i)).
Qed.

Lemma nth_error_ext_len {A} (l1 l2 : list A) :
  length l1 = length l2 -> (forall i, i < length l1 -> nth_error l1 i = nth_error l2 i) -> l1 = l2.
Proof.
  intros HL H. apply nth_error_ext; intros i. destruct (Nat.lt_ge_cases i (length l1)) as [C|C].
  - auto.
  - transitivity (@None A); [|symmetry]; apply nth_error_None; lia.
Qed.

Lemma nth_error_skipn {A} (l : list A) k i : nth_error (skipn k l) i = nth_error l (k + i).
Proof. revert l; induction k as [|k IH]; intros [|x l]; cbn; auto. destruct i; auto. Qed.

Lemma nth_error_firstn {A} (l : list A) k i : nth_error (firstn k l) i = if i <? k then nth_error l i else None.
Proof.
  revert l i; induction k as [|k IH]; intros [|x l] [|i]; cbn [firstn nth_error]; auto.
  - destruct (_ <? _); auto.
  - rewrite IH. reflexivity.
Qed.

Lemma nth_error_Some_lt {A} (l : list A) i : i < length l -> exists x, nth_error l i = Some x.
Proof. intros H. destruct (nth_error l i) eqn:E; eauto. apply nth_error_None in E; lia. Qed.

Lemma nth_error_lt {A} (l : list A) i x : nth_error l i = Some x -> i < length l.
Proof. intros H. apply nth_error_Some. congruence. Qed.

Lemma nth_error_app {A} (l1 l2 : list A) i :
  nth_error (l1 ++ l2) i = if i <? length l1 then nth_error l1 i else nth_error l2 (i - length l1).
Proof.
  destruct (Nat.ltb_spec i (length l1)); [apply nth_error_app1|apply nth_error_app2]; lia.
Qed.

Lemma vec_get_Ok {A} (l : list A) i x : nth_error l i = Some x -> vec_get l i = Ok x.
Proof. unfold vec_get; intros ->; auto. Qed.

Lemma vec_set_Ok {A} (l : list A) i x : i < length l -> vec_set l i x = Ok (list_set l i x).
Proof. unfold vec_set; intros H; apply Nat.ltb_lt in H; rewrite H; auto. Qed.
