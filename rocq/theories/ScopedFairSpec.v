(* Vocabulary of C63: the executions of threads with scoped locks in which every thread gets its turn. *)
From Verif Require Import Base ScopedModel ScopedSpec.
From Verif Require Export Fair.

(* a step of any thread; the locks are taken in ascending order *)
Definition moves (s s' : state) : Prop := exists t e, in_order s t e /\ step s t e = Next s'.
(* the attempt that ends the constructor thread t is in *)
Definition finishes (t : nat) (s : state) : option state :=
  match step s t (Attempt false) with
  | Next s' => match entering (threads s' t) with None => Some s' | Some _ => None end
  | _ => None
  end.
(* finitely many locks; no thread that finds the lock it waits for free again and again is passed over for ever at those moments.
   Threads may do nothing, or fail with EAGAIN, arbitrarily often *)
Definition fair (mutex : nat -> bool) (r : nat -> state) : Prop :=
  execution (init mutex) moves r /\ (forall t, strongly_fair (finishes t) r) /\
  exists last, forall n t l h f, entering (threads (r n) t) = Some (l, h, f) -> l <= last.
(* no constructor that the thread is in returns any more *)
Definition stuck_from (r : nat -> state) (n t : nat) : Prop := forall k, n <= k -> entering (threads (r k) t) <> None.
(* every block with a scoped lock is left some time, if the constructors in it return *)
Definition blocks_end (r : nat -> state) : Prop :=
  forall n t o rest, scopes (threads (r n) t) = o :: rest -> eventually n (fun k => scopes (threads (r k) t) = rest \/ stuck_from r k t).
(* while somebody waits to write, there is some moment without readers *)
Definition readers_pause (r : nat -> state) : Prop :=
  forall n t l f, entering (threads (r n) t) = Some (l, Wr, f) -> eventually n (fun k => forall u, ~ in_scope (r k) u l Rd).
