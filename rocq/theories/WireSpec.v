(* Vocabulary of C71. *)
From Verif Require Import Base CInt TimeModel TimeSpec WireModel.
Local Open Scope Z_scope.

(* the time another program reads in the two fields, in nanoseconds *)
Definition reads (w : wire) : Z := w_sec w * 1000000000 + w_nsec w.
(* the values the fields can have *)
Definition is_stamp_msg (w : wire) : Prop := 0 <= w_sec w < 18446744073709551616 /\ 0 <= w_nsec w < 4294967296.
Definition is_dds_time (w : wire) : Prop := -2147483648 <= w_sec w < 2147483648 /\ 0 <= w_nsec w < 4294967296.
Definition is_span_msg (w : wire) : Prop :=
  -9223372036854775808 <= w_sec w < 9223372036854775808 /\ -2147483648 <= w_nsec w < 2147483648.
Definition is_mach_time (w : wire) : Prop := 0 <= w_sec w < 4294967296 /\ 0 <= w_nsec w < 1000000000.
