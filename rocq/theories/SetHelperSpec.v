(* Specification vocabulary for C26. *)
From Verif Require Import Base SetHelperModel.

(* compare is a strict total order and == is equality *)
Definition strict_total {T} (lt eqb : T -> T -> bool) : Prop :=
  (forall x y, eqb x y = true <-> x = y) /\ (forall x, lt x x = false) /\
  (forall x y z, lt x y = true -> lt y z = true -> lt x z = true) /\
  (forall x y, x = y \/ lt x y = true \/ lt y x = true).

(* what a std::set iterates over: strictly ascending *)
Inductive ascending {T} (lt : T -> T -> bool) : list T -> Prop :=
| asc_nil : ascending lt []
| asc_cons x r : ascending lt r -> (forall y, In y r -> lt x y = true) -> ascending lt (x :: r).

Definition subset {T} (a b : list T) : Prop := forall x, In x a -> In x b.

(* the documented classification *)
Definition classification {T} (s1 s2 : list T) (r : SetRelation) : Prop :=
  (r = EQUAL <-> subset s1 s2 /\ subset s2 s1) /\
  (r = PROPER_SUPERSET <-> subset s2 s1 /\ ~ subset s1 s2) /\
  (r = PROPER_SUBSET <-> subset s1 s2 /\ ~ subset s2 s1) /\
  (r = INTERSECTION_NONEMPTY <-> ~ subset s1 s2 /\ ~ subset s2 s1 /\ exists x, In x s1 /\ In x s2) /\
  (r = DISJUNCT <-> ~ subset s1 s2 /\ ~ subset s2 s1 /\ forall x, In x s1 -> ~ In x s2).

