(* Vocabulary of C40: the executions in which the worker and every client get their turn. *)
From Verif Require Export Fair.
From Verif Require Import ActiveObjectModel ActiveObjectSpec.

(* no thread is passed over for ever when it could go on again and again *)
Definition fair (r : nat -> st) : Prop := execution init any r /\ strongly_fair wstep r /\ forall t, strongly_fair (cstep t) r.
(* from n on execute() is true: stop() has not been called since the last start() *)
Definition keeps_running (r : nat -> st) (n : nat) : Prop := forall k, n <= k -> execute (r k) = true.
(* from n on execute() is false: stop() has been called, start() is not called again *)
Definition keeps_stopped (r : nat -> st) (n : nat) : Prop := forall k, n <= k -> execute (r k) = false.
(* pushed, neither run nor deleted *)
Definition waits (o : op) (s : st) : Prop := history o (trace s) = [EPush o].
