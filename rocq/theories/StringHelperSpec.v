(* What split, join, trim, pad and string2Enum should compute. *)
From Verif Require Import Base Text StringHelperModel.

Definition contains (s d : str) : Prop := exists a b, s = a ++ d ++ b.

(* d occurs in p ++ d only at the end *)
Definition ends_at (p d : str) : Prop := forall a b, p ++ d = a ++ d ++ b -> b = [].

(* reading s from the left, cutting at every delimiter: pieces and what is left behind the last delimiter *)
Inductive cut (d : str) : str -> list str -> str -> Prop :=
| cut_last r : ~ contains r d -> cut d r [] r
| cut_piece p s ps r : ends_at p d -> cut d s ps r -> cut d (p ++ d ++ s) (p :: ps) r.

(* the texts with the delimiter between neighbours *)
Fixpoint glue (l : list str) (d : str) : str :=
  match l with [] => [] | [x] => x | x :: r => x ++ d ++ glue r d end.

Definition all_space (s : str) : Prop := forall c, In c s -> is_space c = true.
Definition trimmed (s t : str) : Prop :=
  exists a b, s = a ++ t ++ b /\ all_space a /\ all_space b /\
  (t = [] \/ exists x m, t = x :: m /\ is_space x = false /\ is_space (last t x) = false).

(* i is the last index of s in l *)
Definition last_index (s : str) (l : list str) (i : nat) : Prop :=
  nth_error l i = Some s /\ forall j, nth_error l j = Some s -> j <= i.
