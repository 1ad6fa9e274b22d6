(* Vocabulary of C41. *)
From Verif Require Import Conc RWLockModel.

Definition all_resting (s : st) : Prop := forall t, resting (pcs s t) = true.
(* the next action belongs to some thread other than w *)
Definition not_by (u : usage) (w : tid) (s s' : st) : Prop := exists t, t <> w /\ step u t s s'.
Definition unrestricted : usage := mkUsage true true.
(* no time-outs, and no thread asks for the lock while it has it *)
Definition plain_use : usage := mkUsage false false.
(* inside unlock() *)
Definition unlocking (p : pc) : bool :=
  match p with U125 _ | U127 | U128 | U129 | U131 | U132 | U138 _ | U141 _ | U148 | U153 => true | _ => false end.
