(* Vocabulary of C49: the executions in which every thread gets its turn. *)
From Verif Require Export Fair.
From Verif Require Import Text LogTextModel LogStreamModel LogStreamSpec.

(* no thread is passed over for ever when it could go on again and again *)
Definition fair (SIZE POOL : nat) (outs : list nat) (r : nat -> st) : Prop :=
  execution (init SIZE POOL) (any SIZE outs false) r /\ forall t, strongly_fair (tstep SIZE outs t) r.
(* no thread is passed over for ever when it could go on without interruption *)
Definition weakly_fair_run (SIZE POOL : nat) (outs : list nat) (r : nat -> st) : Prop :=
  execution (init SIZE POOL) (any SIZE outs false) r /\ forall t, weakly_fair (tstep SIZE outs t) r.
(* the statement a thread is executing *)
Definition doing (p : pc) : option stmt :=
  match p with
  | Idle => None
  | A94 m | A97 m | A148 m _ | MSet m _ | MPut m _ _ | W95 m _ _ _ _ | W97 m _ _ _ | F127 m _ | F128 m _ | F130 m _ | F138 m _ | F140 m _ | F146 m _ => Some m
  end.
