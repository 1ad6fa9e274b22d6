(* Character strings as lists of bytes, and decimal text. *)
From Coq Require Export Ascii String.
From Verif Require Export Base.
Local Open Scope Z_scope.

Notation str := (list ascii).
Notation length := List.length.
Notation "$ s" := (list_ascii_of_string s) (at level 1, format "$ s").

Definition dchar (z : Z) : ascii := ascii_of_nat (48 + Z.to_nat z).
Definition is_digit (c : ascii) : bool := ((48 <=? nat_of_ascii c) && (nat_of_ascii c <=? 57))%nat.
Definition dvalue (c : ascii) : Z := Z.of_nat (nat_of_ascii c) - 48.

(* the last k decimal digits of z, with leading zeros *)
Fixpoint digits (k : nat) (z : Z) : str :=
  match k with O => [] | S k' => digits k' (z / 10) ++ [dchar (z mod 10)] end.

(* the number written by a digit string *)
Definition number (l : str) : Z := fold_left (fun a c => a * 10 + dvalue c) l 0.

Definition substr (s : str) (pos len : nat) : str := firstn len (skipn pos s).
