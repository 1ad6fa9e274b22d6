(* std::map<std::string, T> as a list of pairs strictly ascending in the key.
   std::string's operator< compares bytes as unsigned chars, lexicographically. *)
From Verif Require Import Base Text.

Fixpoint str_lt (a b : str) : bool :=
  match a, b with
  | _, [] => false
  | [], _ :: _ => true
  | x :: a', y :: b' => (nat_of_ascii x <? nat_of_ascii y) || (Ascii.eqb x y && str_lt a' b')
  end.

(* map::find *)
Fixpoint map_get {T} (m : list (str * T)) (k : str) : option T :=
  match m with
  | [] => None
  | (k', v) :: r => if str_lt k k' then None else if str_lt k' k then map_get r k else Some v
  end.
(* m[k] = v *)
Fixpoint map_put {T} (m : list (str * T)) (k : str) (v : T) : list (str * T) :=
  match m with
  | [] => [(k, v)]
  | (k', v') :: r => if str_lt k k' then (k, v) :: m else if str_lt k' k then (k', v') :: map_put r k v else (k, v) :: r
  end.

Inductive sorted {T} : list (str * T) -> Prop :=
| sorted_nil : sorted []
| sorted_cons k v r : sorted r -> (forall k' v', In (k', v') r -> str_lt k k' = true) -> sorted ((k, v) :: r).

Lemma str_lt_irrefl a : str_lt a a = false.
Proof. induction a as [|x a IH]; cbn [str_lt]; auto. rewrite Nat.ltb_irrefl, IH, andb_false_r. auto. Qed.
Lemma str_lt_trans a b c : str_lt a b = true -> str_lt b c = true -> str_lt a c = true.
Proof.
  revert b c; induction a as [|x a IH]; intros [|y b] [|z c]; cbn [str_lt]; try discriminate; auto.
  rewrite !orb_true_iff, !andb_true_iff, !Nat.ltb_lt, !Ascii.eqb_eq.
  intros [H1|[-> H1]] [H2|[-> H2]]; eauto; left; lia.
Qed.
Lemma str_lt_total a b : a = b \/ str_lt a b = true \/ str_lt b a = true.
Proof.
  revert b; induction a as [|x a IH]; intros [|y b]; cbn [str_lt]; auto.
  destruct (Ascii.eqb_spec x y) as [->|N].
  - rewrite Ascii.eqb_refl, Nat.ltb_irrefl. cbn [orb andb]. destruct (IH b) as [->|[H|H]]; auto.
  - assert (nat_of_ascii x <> nat_of_ascii y).
    { intros E. apply N. rewrite <- (ascii_nat_embedding x), <- (ascii_nat_embedding y), E. auto. }
    destruct (Nat.ltb_spec (nat_of_ascii x) (nat_of_ascii y)); auto.
    destruct (Nat.ltb_spec (nat_of_ascii y) (nat_of_ascii x)); auto. lia.
Qed.
Lemma str_lt_asym a b : str_lt a b = true -> str_lt b a = false.
Proof. intros H. destruct (str_lt b a) eqn:E; auto. pose proof (str_lt_irrefl a). pose proof (str_lt_trans _ _ _ H E). congruence. Qed.
Lemma str_lt_ne a b : str_lt a b = true -> a <> b.
Proof. intros H ->. rewrite str_lt_irrefl in H. discriminate. Qed.
Lemma str_cmp a b : {a = b} + {str_lt a b = true} + {str_lt b a = true}.
Proof.
  destruct (str_lt a b) eqn:E1; auto. destruct (str_lt b a) eqn:E2; auto. left; left.
  destruct (str_lt_total a b) as [|[|]]; congruence.
Qed.

Section Map.
  Context {T : Type}.
  Implicit Types m r : list (str * T).

  Lemma map_get_in m k v : sorted m -> (map_get m k = Some v <-> In (k, v) m).
  Proof.
    intros S. induction S as [|k' v' r S IH HL]; cbn; [split; [discriminate|tauto]|].
    destruct (str_cmp k k') as [[->|H]|H].
    - rewrite str_lt_irrefl. split; [intros [= <-]; auto|]. intros [[= <-]|Q]; auto.
      apply HL in Q. rewrite str_lt_irrefl in Q. discriminate.
    - rewrite H. split; [discriminate|]. intros [[= <- <-]|Q]; [rewrite str_lt_irrefl in H; discriminate|].
      apply HL in Q. pose proof (str_lt_trans _ _ _ H Q) as Z. rewrite str_lt_irrefl in Z. discriminate.
    - rewrite (str_lt_asym _ _ H), H, IH. split; auto. intros [[= <- <-]|Q]; auto. rewrite str_lt_irrefl in H. discriminate.
  Qed.
  Lemma map_get_none m k : sorted m -> (map_get m k = None <-> forall v, ~ In (k, v) m).
  Proof.
    intros S. destruct (map_get m k) as [v|] eqn:E.
    - split; [discriminate|]. intros H. apply map_get_in in E; auto. destruct (H _ E).
    - split; auto. intros _ v Q. apply map_get_in in Q; auto. congruence.
  Qed.
  Lemma map_put_in m k v k' v' : sorted m -> (In (k', v') (map_put m k v) <-> (k' = k /\ v' = v) \/ (k' <> k /\ In (k', v') m)).
  Proof.
    intros S. induction S as [|k1 v1 r S IH HL]; cbn [map_put].
    - cbn. split; [intros [[= <- <-]|[]]; auto|]. intros [[-> ->]|[_ []]]; auto.
    - destruct (str_cmp k k1) as [[->|H]|H].
      + rewrite str_lt_irrefl. cbn. split.
        * intros [[= <- <-]|Q]; auto. right. split; auto. intros ->. apply HL in Q. rewrite str_lt_irrefl in Q. discriminate.
        * intros [[-> ->]|[N [[= <- <-]|Q]]]; auto. congruence.
      + rewrite H. cbn. split.
        * intros [[= <- <-]|[[= <- <-]|Q]]; auto.
          -- right. split; auto. apply str_lt_ne in H. congruence.
          -- right. split; auto. intros ->. apply HL in Q. pose proof (str_lt_trans _ _ _ H Q) as Z. rewrite str_lt_irrefl in Z. discriminate.
        * intros [[-> ->]|[N [Q|Q]]]; auto.
      + rewrite (str_lt_asym _ _ H), H. cbn. rewrite IH. split.
        * intros [[= <- <-]|[[-> ->]|[N Q]]]; auto. right. split; auto. apply str_lt_ne in H. congruence.
        * intros [[-> ->]|[N [[= <- <-]|Q]]]; auto.
  Qed.
  Lemma map_put_sorted m k v : sorted m -> sorted (map_put m k v).
  Proof.
    intros S. induction S as [|k1 v1 r S IH HL]; cbn [map_put].
    - constructor; [constructor|]. intros ? ? [].
    - destruct (str_cmp k k1) as [[->|H]|H].
      + rewrite str_lt_irrefl. constructor; auto.
      + rewrite H. constructor; [constructor; auto|]. intros k' v' [[= <- <-]|Q]; auto. apply HL in Q. eapply str_lt_trans; eauto.
      + rewrite (str_lt_asym _ _ H), H. constructor; auto. intros k' v' Q. apply map_put_in in Q; auto.
        destruct Q as [[-> ->]|[_ Q]]; auto. eapply HL; eauto.
  Qed.
  Lemma map_get_put m k v k' : sorted m -> map_get (map_put m k v) k' = if list_eq_dec ascii_dec k' k then Some v else map_get m k'.
  Proof.
    intros S. destruct (list_eq_dec ascii_dec k' k) as [->|N].
    - apply map_get_in; [apply map_put_sorted; auto|]. apply map_put_in; auto.
    - destruct (map_get m k') as [v'|] eqn:E.
      + apply map_get_in; [apply map_put_sorted; auto|]. apply map_put_in; auto. right. split; auto. apply map_get_in; auto.
      + apply map_get_none; [apply map_put_sorted; auto|]. intros v' Q. apply map_put_in in Q; auto.
        destruct Q as [[-> _]|[_ Q]]; [congruence|]. rewrite map_get_none in E by auto. eapply E; eauto.
  Qed.
End Map.
