(* Vocabulary of C74: a thread class with data of its own. *)
From Verif Require Import Conc ThreadModel ThreadSpec DerivedModel.

Definition stopping_destructor : bool := true.
Definition plain_destructor : bool := false.
Definition careful_client : bool := true.
Definition any_client : bool := false.
(* the derived part of the object has been destroyed, and a worker is in makePeriodic() or run() *)
Definition uses_destroyed_data (s : dst) : Prop := ph s = Gone /\ exists w, wpcs (base s) w = WRun.
(* a worker will get to run(), of an object that is only a Thread any more *)
Definition will_call_pure_virtual (s : dst) : Prop := ph s = Gone /\ exists w, wpcs (base s) w = W234.
(* delete has been called and has not returned *)
Definition in_delete (s : dst) : Prop := ph s <> Living /\ cp (base s) <> Destroyed.
