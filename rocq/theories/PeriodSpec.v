(* Vocabulary of C46. *)
From Verif Require Import Base CInt TimeModel TimeSpec.
Local Open Scope Z_scope.

(* a time well inside the 64-bit range (about 73 thousand million years) *)
Definition moderate (t : time) : Prop := canonical t /\ - 2^61 < secs t < 2^61.
Definition moderate_clock (clock : nat -> time) : Prop := forall i, moderate (clock i).
Definition monotone (clock : nat -> time) : Prop := forall i j, (i <= j)%nat -> total (clock i) <= total (clock j).
(* consecutive elements, starting from a, are at least p apart *)
Fixpoint spaced (p a : Z) (l : list time) : Prop :=
  match l with [] => True | t :: r => a + p <= total t /\ spaced p (total t) r end.
(* the time the call waits for: one period after the last execution, or one period from now if the clock has
   been set back behind the last execution *)
Definition target (now last p : Z) : Z := if last <=? now then last + p else now + p.
