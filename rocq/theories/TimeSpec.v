(* Specification vocabulary for time values. *)
From Verif Require Import Base CInt TimeModel.
Local Open Scope Z_scope.

(* total nanoseconds *)
Definition total (t : time) : Z := secs t * 1000000000 + nsecs t.

(* canonical representation: sub-second part smaller than a second, same sign as the seconds *)
Definition canonical (t : time) : Prop :=
  in_i64 (secs t) = true /\ Z.abs (nsecs t) < 1000000000 /\
  (0 < secs t -> 0 <= nsecs t) /\ (secs t < 0 -> nsecs t <= 0).

(* a number of nanoseconds whose whole seconds fit in an int64_t *)
Definition representable (ns : Z) : Prop :=
  - (2^63 + 1) * 1000000000 < ns < 2^63 * 1000000000.

(* meaning of printed text: a leading minus negates the sum of the components *)
Definition unit_ns (u : unit_) : Z :=
  match u with H => 3600000000000 | M => 60000000000 | S_ => 1000000000 | MS => 1000000 | US => 1000 | NS => 1 end.
Fixpoint item_sum (l : list item) : Z :=
  match l with
  | [] => 0
  | Minus :: r => item_sum r
  | Num z u :: r => z * unit_ns u + item_sum r
  end.
Definition denote (l : list item) : Z :=
  match l with Minus :: r => - item_sum r | _ => item_sum l end.
