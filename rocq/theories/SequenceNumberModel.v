(* Model of src/icl_core/src/icl_core/SequenceNumber.h (template class SequenceNumber). *)
From Verif Require Import Base.
Local Open Scope Z_scope.

(* The template parameter TBase: an integer type of the given signedness and width in bits. *)
Record base := B { signed : bool; width : Z }.
Definition lowest (t : base) : Z := if signed t then - 2 ^ (width t - 1) else 0.
Definition highest (t : base) : Z := if signed t then 2 ^ (width t - 1) - 1 else 2 ^ width t - 1.
Definition representable (t : base) (z : Z) : bool := (lowest t <=? z) && (z <=? highest t).

(* The type TBase is promoted to before arithmetic: int if narrower than 32 bits. *)
Definition promoted (t : base) : base := if width t <? 32 then B true 32 else t.

(* a - b in C++: signed overflow is undefined, unsigned wraps *)
Definition minus (t : base) (a b : Z) : result Z :=
  let p := promoted t in
  if signed p then (if representable p (a - b) then Ok (a - b) else UB) else Ok ((a - b) mod 2 ^ width p).

(* ++m_value, SequenceNumber.h:143.  A narrow type is incremented as int and converted back (wraps). *)
Definition incr (t : base) (a : Z) : result Z :=
  if representable t (a + 1) then Ok (a + 1)
  else if signed t then (if width t <? 32 then Ok (a + 1 - 2 ^ width t) else UB)
  else Ok 0.

(* Template arguments (SequenceNumber.h:43): TBase, max_value, min_value.
   A sequence number is its m_value (SequenceNumber.h:207). *)
Record params := P { tbase : base; max_value : Z; min_value : Z }.

(* SequenceNumber.h:86-96; operator / truncates *)
Definition lt (p : params) (a b : Z) : result bool :=
  if a <? b then bind (minus (tbase p) b a) (fun d => Ok (d <? Z.quot (max_value p) 2))
  else bind (minus (tbase p) a b) (fun d => Ok (Z.quot (max_value p) 2 <? d)).

(* SequenceNumber.h:125-128, 133-136 *)
Definition eq (a b : Z) : bool := a =? b.
Definition ne (a b : Z) : bool := negb (eq a b).

(* SequenceNumber.h:101-104 *)
Definition le (p : params) (a b : Z) : result bool := bind (lt p a b) (fun r => Ok (r || eq a b)).
(* SequenceNumber.h:109-112 *)
Definition gt (p : params) (a b : Z) : result bool :=
  if ne a b then bind (lt p a b) (fun r => Ok (negb r)) else Ok false.
(* SequenceNumber.h:117-120 *)
Definition ge (p : params) (a b : Z) : result bool := bind (lt p a b) (fun r => Ok (negb r)).

(* SequenceNumber.h:141-149 *)
Definition next (p : params) (a : Z) : result Z :=
  bind (incr (tbase p) a) (fun v => Ok (if max_value p <=? v then min_value p else v)).

(* SequenceNumber.h:154-159: returned value and new value *)
Definition post_next (p : params) (a : Z) : result (Z * Z) := bind (next p a) (fun v => Ok (a, v)).

(* k increments *)
Fixpoint nexts (p : params) (k : nat) (a : Z) : result Z :=
  match k with O => Ok a | S j => bind (nexts p j a) (next p) end.
