(* C26 *)
From Verif Require Import Base SetHelperModel SetHelperSpec SetHelperProofs.

(* C26: for every strict total order and every two sets *)
Theorem C26_setRelation_classifies :
  forall T (lt eqb : T -> T -> bool) s1 s2, strict_total lt eqb -> ascending lt s1 -> ascending lt s2 ->
  classification s1 s2 (setRelation lt eqb s1 s2).
Proof. exact C26_lemma. Qed.
Print Assumptions C26_setRelation_classifies.

Example C26_nonvacuous :
  strict_total Nat.ltb Nat.eqb /\ ascending Nat.ltb [1; 3; 5] /\
  setRelation Nat.ltb Nat.eqb [1; 3; 5] [1; 3; 5] = EQUAL /\ setRelation Nat.ltb Nat.eqb [1; 3; 5] [3] = PROPER_SUPERSET /\
  setRelation Nat.ltb Nat.eqb [3] [1; 3; 5] = PROPER_SUBSET /\ setRelation Nat.ltb Nat.eqb [1; 3] [3; 5] = INTERSECTION_NONEMPTY /\
  setRelation Nat.ltb Nat.eqb [1; 3] [2; 5] = DISJUNCT.
Proof.
  split; [|split; [|vm_compute; auto]].
  - repeat split; intros; rewrite ?Nat.eqb_eq, ?Nat.ltb_lt, ?Nat.ltb_ge in *; subst; try lia.
  - repeat constructor; intros y H; cbn in H; rewrite Nat.ltb_lt; intuition lia.
Qed.
