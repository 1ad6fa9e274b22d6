(* Vocabulary of C45: the executions in which every thread gets its turn. *)
From Verif Require Export Fair.
From Verif Require Import ThreadModel.

(* What worker w is bound to do: with [ends], run() returns some time; without, it returns only after it has seen that execute() is false,
   like a run() that loops while execute() *)
Definition bound (ends : bool) (w : nat) (s : st) : option st :=
  match wpcs s w with WRun => if ends || negb (m_execute s) then wstep w s else None | _ => wstep w s end.
(* the client does something within a call, whatever the environment answers *)
Definition client (s s' : st) : Prop := exists b, cstep b s = Some s'.
(* neither the workers nor the client are passed over for ever while they could go on *)
Definition fair (ends : bool) (r : nat -> st) : Prop :=
  execution init (step false) r /\ (forall w, weakly_fair (bound ends w) r) /\ weakly_fair_rel client r.
(* the client is in wait() or join(), which wait for the end of run() *)
Definition awaits_run (p : cpc) : bool :=
  match p with T259 _ | T264 _ | T266 _ | T270 _ | T273 | T275 | T282 | T288 | J140 KJoin | J142 KJoin | J140 KWait | J142 KWait => true | _ => false end.
