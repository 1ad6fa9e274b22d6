(* Vocabulary of C45. *)
From Verif Require Import Conc ThreadModel.

Definition with_cancel : bool := true.
Definition without_cancel : bool := false.
(* the worker is between its creation and the end of run(), or has not yet said that it is finished *)
Definition busy (p : wpc) : bool := match p with WNone | W247 | WEnd | WCancelled => false | _ => true end.
(* the worker has not begun with run() *)
Definition not_yet_running (p : wpc) : bool :=
  match p with WNone | WBegin | W231 | W232 | W233 => true | _ => false end.
(* any action except a call of start() *)
Definition step_no_start (c : bool) (s s' : st) : Prop := step c s s' /\ cp s' <> S179a.
(* a call is in progress *)
Definition in_call (p : cpc) : bool := negb (resting p) && match p with Destroyed => false | _ => true end.
