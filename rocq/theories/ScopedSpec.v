(* Specification of scoped locks (C63). *)
From Verif Require Import Base ScopedModel.

(* the thread is in a scope whose isLocked() is true *)
Definition in_scope (s : state) (t l : nat) (h : how) : Prop := exists force, In (Scope l h force true) (scopes (threads s t)).
(* may two threads have it at the same time? *)
Definition compatible (h h' : how) : Prop := h = Rd /\ h' = Rd.

(* the thread can go on: it is not in a constructor, or the constructor is finished by its next attempt *)
Definition goes_on (s : state) (t : nat) : Prop :=
  match entering (threads s t) with
  | None => True
  | Some _ => exists s', step s t (Attempt false) = Next s' /\ entering (threads s' t) = None
  end.
(* t is in the constructor of a lock that u has *)
Definition waits_for (s : state) (t u : nat) : Prop :=
  t <> u /\ exists l h force h', entering (threads s t) = Some (l, h, force) /\ in_scope s u l h' /\ ~ compatible h h'.
Inductive chain (s : state) : nat -> nat -> Prop :=
| chain_here t : chain s t t
| chain_next t u v : waits_for s t u -> chain s u v -> chain s t v.

(* every thread takes locks in ascending order, except for mutexes that it already has *)
Definition in_order (s : state) (t : nat) (e : event) : Prop :=
  match e with
  | Enter l h _ => (h = Mx /\ in_scope s t l Mx) \/ forall l' h', in_scope s t l' h' -> l' < l
  | _ => True
  end.
Fixpoint ordered (s : state) (tr : list (nat * event)) : Prop :=
  match tr with
  | [] => True
  | (t, e) :: r => in_order s t e /\ match step s t e with Next s' => ordered s' r | _ => True end
  end.
