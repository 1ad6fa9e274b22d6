(* Vocabulary for C16, C17: the class is instantiated sensibly and the values are proper ones. *)
From Verif Require Import Base SequenceNumberModel.
Local Open Scope Z_scope.

(* at least 8 bits; min and max are values of the base type and min < max *)
Definition sensible (p : params) : Prop :=
  8 <= width (tbase p) /\ representable (tbase p) (min_value p) = true /\
  representable (tbase p) (max_value p) = true /\ min_value p < max_value p.

Definition proper (p : params) (v : Z) : Prop := min_value p <= v < max_value p.
