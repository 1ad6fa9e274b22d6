(* Vocabulary of C31. *)
From Verif Require Import Conc SingletonModel.

(* an object that has been created and not destroyed *)
Definition live (s : st) (x : nat) : Prop := x < created s /\ ~ In x (dead s).
(* multi-threaded configuration with the default lifetime policy *)
Definition default_mt : config := mkConfig true false true.
