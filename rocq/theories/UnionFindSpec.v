(* Specification: the equivalence relation generated by the pairs merged so far. *)
From Verif Require Import Base UnionFindModel.

Inductive eqcl (E : nat -> nat -> Prop) : nat -> nat -> Prop :=
| eq_base x y : E x y -> eqcl E x y
| eq_refl' x : eqcl E x x
| eq_sym' x y : eqcl E x y -> eqcl E y x
| eq_trans' x y z : eqcl E x y -> eqcl E y z -> eqcl E x z.

(* number of elements after a history *)
Definition elements (n : nat) (ops : list op) : nat :=
  fold_left (fun k o => match o with Grow g => k + g | _ => k end) ops n.

(* the pair (x,y) was merged at a moment when both were elements *)
Definition merged (n : nat) (ops : list op) (x y : nat) : Prop :=
  exists before after', ops = before ++ Merge x y :: after' /\
    x < elements n before /\ y < elements n before.
