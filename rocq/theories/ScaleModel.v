(* Scaling of time spans: icl_core/TimeSpan.h:210-220 (paths relative to src/icl_core/src).
   double is Coq's SpecFloat with precision 53 and largest exponent 1024, rounding to nearest even, as IEEE 754 and C++ have it. *)
From Coq Require Import Floats.SpecFloat.
From Verif Require Import Base CInt TimeModel.
Local Open Scope Z_scope.

Notation double := spec_float.
Definition dmul : double -> double -> double := SFmul 53 1024.
Definition ddiv : double -> double -> double := SFdiv 53 1024.
(* the conversion of an integer operand to double, which rounds *)
Definition of_int (z : Z) : double := binary_normalize 53 1024 z 0 false.
(* the conversion to an integer cuts off the fraction; None: not a number *)
Definition truncate (d : double) : option Z :=
  match d with
  | S754_zero _ => Some 0
  | S754_finite s m e =>
    let a := if 0 <=? e then Zpos m * 2 ^ e else Zpos m / 2 ^ (- e) in
    Some (if s then - a else a)
  | _ => None
  end.
(* int64_t(d), int32_t(d): undefined if the truncated value does not fit *)
Definition to_int64 (d : double) : result Z := match truncate d with Some z => chk64 z | None => UB end.
Definition to_int32 (d : double) : result Z := match truncate d with Some z => chk32 z | None => UB end.

(* TimeSpan.h:216-220 *)
Definition times (span : time) (factor : double) : result time :=
  bind (to_int64 (dmul (of_int (secs span)) factor)) (fun s =>
  bind (to_int32 (dmul (of_int (nsecs span)) factor)) (fun n => make_span s n)).
(* TimeSpan.h:210-214 *)
Definition divided (span : time) (divisor : double) : result time :=
  bind (to_int64 (ddiv (of_int (secs span)) divisor)) (fun s =>
  bind (to_int32 (ddiv (of_int (nsecs span)) divisor)) (fun n => make_span s n)).
