(* Fixed-width C++ integers as Z with explicit ranges.
   Signed overflow is undefined behaviour (UB); conversions to a narrower or differently signed
   type wrap (two's complement), as on every platform the library supports. *)
From Verif Require Import Base.
Local Open Scope Z_scope.

Definition in_i64 (z : Z) : bool := (-(2^63) <=? z) && (z <? 2^63).
Definition in_i32 (z : Z) : bool := (-(2^31) <=? z) && (z <? 2^31).

(* result of a signed 64 / 32 bit operation *)
Definition chk64 (z : Z) : result Z := if in_i64 z then Ok z else UB.
Definition chk32 (z : Z) : result Z := if in_i32 z then Ok z else UB.

(* conversion to uint64_t, uint32_t, int64_t, int32_t *)
Definition to_u64 (z : Z) : Z := z mod 2^64.
Definition to_u32 (z : Z) : Z := z mod 2^32.
Definition to_i64 (z : Z) : Z := (z + 2^63) mod 2^64 - 2^63.
Definition to_i32 (z : Z) : Z := (z + 2^31) mod 2^32 - 2^31.
