(* Specification of the scaling of time spans (C67). *)
From Coq Require Import QArith Qround Floats.SpecFloat.
From Verif Require Import Base TimeModel TimeSpec.
Local Open Scope Z_scope.

(* the number that a double stands for *)
Definition number (d : spec_float) : Q :=
  match d with
  | S754_finite s m e =>
    let z := if s then Zneg m else Zpos m in
    if 0 <=? e then inject_Z (z * 2 ^ e) else (z # 2 ^ Z.to_pos (- e))%Q
  | _ => 0%Q
  end.
Definition finite (d : spec_float) : Prop := match d with S754_zero _ | S754_finite _ _ _ => True | _ => False end.
(* -lim < q < lim *)
Definition within (q : Q) (lim : Z) : Prop := (- inject_Z lim < q < inject_Z lim)%Q.
Definition integer (q : Q) : Prop := exists z, (q == inject_Z z)%Q.
(* t is q nanoseconds, with an error of less than e nanoseconds *)
Definition close (t : time) (q : Q) (e : Z) : Prop := within (inject_Z (total t) - q) e.
