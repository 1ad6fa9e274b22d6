(* Specification of the clock, boost's times and sleeping (C66). *)
From Verif Require Import Base CInt TimeModel TimeSpec ClockModel.
Local Open Scope Z_scope.

(* the steps in which the clock of a system is read, in nanoseconds *)
Definition resolution (sys : system) : Z := match sys with Windows => 1000000 | _ => 1000 end.
(* a timespec as nanosleep requires it *)
Definition request (s n : Z) : Prop := 0 <= s /\ 0 <= n < 1000000000.
