(* Specification vocabulary for Small. *)
From Verif Require Import Base BaseLemmas CInt SmallModel.
Local Open Scope Z_scope.

(* a strict weak order *)
Definition strict_weak {T} (lt : T -> T -> bool) : Prop :=
  (forall x, lt x x = false) /\ (forall x y z, lt x y = true -> lt y z = true -> lt x z = true) /\
  (forall x y z, lt x y = false -> lt y z = false -> lt x z = false).

(* values written to cell p, oldest first *)
Definition written {T} (h : list (nat * T)) (p : nat) : list T := map snd (filter (fun x => Nat.eqb (fst x) p) h).

(* v is the earliest of the least values of l *)
Definition first_least {T} (lt : T -> T -> bool) (l : list T) (v : T) : Prop :=
  exists a b, l = a ++ v :: b /\ (forall x, In x l -> lt x v = false) /\ (forall x, In x a -> lt v x = true).

Definition zcell {T} (lt : T -> T -> bool) (l : list T) (c : option T) : Prop :=
  match c with None => l = [] | Some v => first_least lt l v end.

(* ---- C28 ---- *)
(* a properly sized array: the result of construct/assign/resize with representable size, width and height *)
Definition sized {T} (a : array T) : Prop :=
  0 <= m_width a < 2 ^ 64 /\ 0 <= m_height a < 2 ^ 64 /\ m_width a * m_height a < 2 ^ 64 /\ asize a = m_width a * m_height a.
Definition cell {T} (a : array T) (column row : Z) : Prop := 0 <= column < m_width a /\ 0 <= row < m_height a.

