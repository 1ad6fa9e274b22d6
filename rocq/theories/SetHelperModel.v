(* Model of src/icl_core/src/icl_core/SetHelper.h:setRelation.  A std::set is the list of its elements in
   iteration order; compare and == are the element type's comparison functions. *)
From Verif Require Import Base.

(* SetHelper.h:33-40 *)
Inductive SetRelation := EQUAL | PROPER_SUPERSET | PROPER_SUBSET | INTERSECTION_NONEMPTY | DISJUNCT.

(* the local variables equal, super, sub, inter *)
Record flags := F { equal : bool; super : bool; sub : bool; inter : bool }.

Section SetRelation.
  Context {T : Type} (compare eqb : T -> T -> bool).

  (* SetHelper.h:55-76: the rest of both sets and the flags when one iterator has reached its end *)
  Fixpoint merge_loop (s1 : list T) : list T -> flags -> list T * list T * flags :=
    match s1 with
    | [] => fun s2 f => ([], s2, f)
    | x1 :: r1 =>
      fix inner (s2 : list T) (f : flags) {struct s2} :=
      match s2 with
      | [] => (s1, [], f)
      | x2 :: r2 =>
        if eqb x1 x2 then merge_loop r1 r2 (F (equal f) (super f) (sub f) true)
        else if compare x1 x2 then merge_loop r1 s2 (F false (super f) false (inter f))
        else inner r2 (F false false (sub f) (inter f))
      end
    end.

  (* SetHelper.h:46-92 *)
  Definition setRelation (s1 s2 : list T) : SetRelation :=
    let '(i1, i2, f) := merge_loop s1 s2 (F true true true false) in
    let f := match i1 with [] => f | _ => F false (super f) false (inter f) end in
    let f := match i2 with [] => f | _ => F false false (sub f) (inter f) end in
    if equal f then EQUAL
    else if super f then PROPER_SUPERSET
    else if sub f then PROPER_SUBSET
    else if inter f then INTERSECTION_NONEMPTY
    else DISJUNCT.
End SetRelation.
