(* Vocabulary of C55: which number a text denotes, and which texts are truth values. *)
From Verif Require Import Base Text SMap StringHelperModel ConfigGetModel.
Local Open Scope Z_scope.

Definition blank (s : str) : Prop := Forall (fun c => is_space c = true) s.

(* a digit and its value, by its position in the alphabet of digits *)
Definition digit (base : nat) (c : ascii) (v : nat) : Prop :=
  (v < base)%nat /\ (nth_error $"0123456789abcdef" v = Some c \/ nth_error $"0123456789ABCDEF" v = Some c).
(* positional notation *)
Inductive written (base : nat) : str -> Z -> Prop :=
| W_nil : written base [] 0
| W_snoc ds n c v : written base ds n -> digit base c v -> written base (ds ++ [c]) (n * Z.of_nat base + Z.of_nat v).
Definition no_digit_first (base : nat) (s : str) : Prop := forall c r v, s = c :: r -> ~ digit base c v.
Definition x_first (s r : str) : Prop := s = "x"%char :: r \/ s = "X"%char :: r.

(* the longest numeral at the beginning of a text: decimal, octal after a leading 0, hexadecimal after 0x or 0X *)
Inductive unsigned_numeral : str -> Z -> Prop :=
| U_dec c v ds rest n : digit 10 c v -> v <> 0%nat -> written 10 (c :: ds) n -> no_digit_first 10 rest ->
    unsigned_numeral ((c :: ds) ++ rest) n
| U_oct ds rest n : written 8 ds n -> no_digit_first 8 rest ->
    (ds = [] -> forall r, x_first rest r -> no_digit_first 16 r) ->
    unsigned_numeral ("0"%char :: ds ++ rest) n
| U_hex x ds rest n : x_first x [] -> ds <> [] -> written 16 ds n -> no_digit_first 16 rest ->
    unsigned_numeral ("0"%char :: x ++ ds ++ rest) n.
(* [neg]: there is a minus sign *)
Definition int_text (s : str) (neg : bool) (n : Z) : Prop :=
  exists b sign t, s = b ++ sign ++ t /\ blank b /\ unsigned_numeral t n /\
  ((sign = [] \/ sign = $"+") /\ neg = false \/ sign = $"-" /\ neg = true).
Definition signed_value (neg : bool) (n : Z) : Z := if neg then - n else n.
(* the integers of a type *)
Definition signed_type (i : ity) : bool := match i with I16 => true | U16 => false | I32 => true | U32 => false | I64 => true | U64 => false end.
Definition lowest (i : ity) : Z :=
  match i with I16 => -32768 | U16 => 0 | I32 => -2147483648 | U32 => 0 | I64 => -9223372036854775808 | U64 => 0 end.
Definition highest (i : ity) : Z :=
  match i with I16 => 32767 | U16 => 65535 | I32 => 2147483647 | U32 => 4294967295 | I64 => 9223372036854775807 | U64 => 18446744073709551615 end.
Definition in_range (i : ity) (z : Z) : Prop := lowest i <= z <= highest i.

(* the first word of a text *)
Definition first_word (s w : str) : Prop :=
  exists b r, s = b ++ w ++ r /\ blank b /\ (forall c, In c w -> is_space c = false) /\
  (forall c r', r = c :: r' -> is_space c = true) /\ (w = [] -> r = []).
(* equal up to the case of ASCII letters *)
Definition same_letter (c d : ascii) : Prop :=
  c = d \/ exists k, (k < 26)%nat /\ c = ascii_of_nat (65 + k) /\ d = ascii_of_nat (97 + k).
Definition spells (s word : str) : Prop := Forall2 same_letter s word.
Definition true_word (s : str) : Prop := spells s $"1" \/ spells s $"yes" \/ spells s $"true".
Definition false_word (s : str) : Prop := spells s $"0" \/ spells s $"no" \/ spells s $"false".
Definition ascii_only (s : str) : Prop := Forall (fun c => (nat_of_ascii c < 128)%nat) s.

(* the values of a type *)
Definition has_type (t : cty) (v : value) : Prop :=
  match t, v with TInt i, VZ z => in_range i z | TBool, VB _ => True | TString, VS _ => True | TChar, VC _ => True | _, _ => False end.
