(* Vocabulary of C44. *)
From Verif Require Import Conc SpinLockModel.

Definition with_tryLock : bool := true.
Definition without_tryLock : bool := false.
Definition all_resting (s : st) : Prop := forall t, resting (pcs s t) = true.
Definition nobody_has (s : st) : Prop := forall t, has s t = false.
