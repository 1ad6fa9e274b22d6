(* Shared vocabulary: outcomes of C++ calls and list update. *)
From Coq Require Export List Arith ZArith NArith Lia Bool.
From Coq Require Export ZifyBool ZifyNat ZifyN.
Export ListNotations.

(* Outcome of a C++ call: normal return, thrown C++ exception, undefined behaviour. *)
Inductive result (A : Type) : Type :=
| Ok (a : A)
| Throw
| UB.
Arguments Ok {A} a.
Arguments Throw {A}.
Arguments UB {A}.

Definition bind {A B} (r : result A) (f : A -> result B) : result B :=
  match r with Ok a => f a | Throw => Throw | UB => UB end.

(* v[i] = x on a std::vector; an index outside the vector leaves it alone (callers check and report UB). *)
Fixpoint list_set {A} (l : list A) (i : nat) (x : A) : list A :=
  match l, i with
  | [], _ => []
  | _ :: r, O => x :: r
  | y :: r, S j => y :: list_set r j x
  end.

(* v[i] *)
Definition vec_get {A} (l : list A) (i : nat) : result A :=
  match nth_error l i with Some x => Ok x | None => UB end.

(* v[i] = x *)
Definition vec_set {A} (l : list A) (i : nat) (x : A) : result (list A) :=
  if i <? length l then Ok (list_set l i x) else UB.
