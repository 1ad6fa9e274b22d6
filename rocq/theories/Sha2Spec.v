(* FIPS PUB 180-3, byte-oriented, written without reference to the model (only the vocabulary of
   histories at the end mentions the model's type of calls). *)
From Verif Require Import Text Sha2Model.
Local Open Scope Z_scope.

(* ---- primes and the constants, FIPS 180-3 section 4.2.2, 4.2.3, 5.3 -------------------------- *)

Definition is_prime (n : nat) : bool :=
  (2 <=? n)%nat && forallb (fun d => negb (n mod d =? 0)%nat) (seq 2 (n - 2)).
(* the first n primes (n <= 95) *)
Definition first_primes (n : nat) : list nat := firstn n (filter is_prime (seq 0 500)).

(* k is the first w bits of the fractional part of the cube / square root of p *)
Definition cbrt_bits (w : Z) (p : nat) (k : Z) : Prop :=
  exists r, 0 <= r /\ r ^ 3 <= Z.of_nat p * 2 ^ (3 * w) < (r + 1) ^ 3 /\ k = r mod 2 ^ w.
Definition sqrt_bits (w : Z) (p : nat) (k : Z) : Prop :=
  exists r, 0 <= r /\ r ^ 2 <= Z.of_nat p * 2 ^ (2 * w) < (r + 1) ^ 2 /\ k = r mod 2 ^ w.
(* k is the second 32 bits of the fractional part of the square root of p *)
Definition sqrt_second32 (p : nat) (k : Z) : Prop :=
  exists k64, sqrt_bits 64 p k64 /\ k = k64 mod 2 ^ 32.

(* ---- the four functions ------------------------------------------------------------------------ *)

Record fips := mkFips {
  w : Z;                                             (* word size in bits *)
  nrounds : nat;
  Sig0 : Z * Z * Z; Sig1 : Z * Z * Z;                (* ROTR, ROTR, ROTR *)
  sig0 : Z * Z * Z; sig1 : Z * Z * Z;                (* ROTR, ROTR, SHR *)
  K : list Z; H0 : list Z;
  outwords : nat                                     (* words of the final hash value in the digest *)
}.
Definition wbytes (f : fips) : nat := Z.to_nat (w f / 8).
Definition block (f : fips) : nat := (16 * wbytes f)%nat.

(* section 3.2, 4.1 *)
Definition rotr (f : fips) (n x : Z) : Z := x / 2 ^ n + (x mod 2 ^ n) * 2 ^ (w f - n).
Definition shr (n x : Z) : Z := x / 2 ^ n.
Definition ch (x y z : Z) : Z := Z.lxor (Z.land x y) (Z.land (Z.lnot x) z).
Definition maj (x y z : Z) : Z := Z.lxor (Z.lxor (Z.land x y) (Z.land x z)) (Z.land y z).
Definition bigS (f : fips) (s : Z * Z * Z) (x : Z) : Z :=
  let '(a, b, c) := s in Z.lxor (Z.lxor (rotr f a x) (rotr f b x)) (rotr f c x).
Definition smallS (f : fips) (s : Z * Z * Z) (x : Z) : Z :=
  let '(a, b, c) := s in Z.lxor (Z.lxor (rotr f a x) (rotr f b x)) (shr c x).

(* big-endian bytes of a number and number of bytes *)
Fixpoint be (n : nat) (z : Z) : list Z :=
  match n with O => [] | S n => be n (z / 256) ++ [z mod 256] end.
Definition of_be (l : list Z) : Z := fold_left (fun acc b => acc * 256 + b) l 0.

(* section 5.1: append the bit 1, then zeros up to two words before a block boundary, then the bit
   length as a two word number *)
Definition padding_zeros (f : fips) (len : nat) : nat :=
  ((block f - (len + 1 + 2 * wbytes f) mod block f) mod block f)%nat.
Definition pad (f : fips) (m : list Z) : list Z :=
  m ++ [128] ++ repeat 0 (padding_zeros f (length m)) ++ be (2 * wbytes f) (8 * Z.of_nat (length m)).

(* section 5.2: cut a list into pieces of n elements *)
Definition cut {A} (n : nat) (l : list A) : list (list A) :=
  map (fun i => firstn n (skipn (i * n) l)) (seq 0 (length l / n)).

(* section 6.2.2, 6.4.2 step 1 *)
Fixpoint extend (f : fips) (n : nat) (W : list Z) : list Z :=
  match n with
  | O => W
  | S n =>
    let t := length W in
    let Wt := (smallS f (sig1 f) (nth (t - 2) W 0) + nth (t - 7) W 0
               + smallS f (sig0 f) (nth (t - 15) W 0) + nth (t - 16) W 0) mod 2 ^ w f in
    extend f n (W ++ [Wt])
  end.
Definition message_schedule (f : fips) (b : list Z) : list Z :=
  extend f (nrounds f - 16) (map of_be (cut (wbytes f) b)).

(* step 3 *)
Definition working : Type := Z * Z * Z * Z * Z * Z * Z * Z.
Definition step (f : fips) (W : list Z) (s : working) (t : nat) : working :=
  let '(a, b, c, d, e, f', g, h) := s in
  let T1 := (h + bigS f (Sig1 f) e + ch e f' g + nth t (K f) 0 + nth t W 0) mod 2 ^ w f in
  let T2 := (bigS f (Sig0 f) a + maj a b c) mod 2 ^ w f in
  ((T1 + T2) mod 2 ^ w f, a, b, c, (d + T1) mod 2 ^ w f, e, f', g).

(* steps 2 to 4 *)
Definition compress (f : fips) (H : list Z) (b : list Z) : list Z :=
  let W := message_schedule f b in
  match H with
  | [h0; h1; h2; h3; h4; h5; h6; h7] =>
    let '(a, b, c, d, e, f', g, h) := fold_left (step f W) (seq 0 (nrounds f)) (h0, h1, h2, h3, h4, h5, h6, h7) in
    map (fun '(x, y) => (x + y) mod 2 ^ w f)
        [(a, h0); (b, h1); (c, h2); (d, h3); (e, h4); (f', h5); (g, h6); (h, h7)]
  | _ => []
  end.

Definition hash (f : fips) (m : list Z) : list Z :=
  fold_left (compress f) (cut (block f) (pad f m)) (H0 f).
(* the message digest: the first outwords words of the last hash value, as bytes *)
Definition digest (f : fips) (m : list Z) : list Z :=
  concat (map (be (wbytes f)) (firstn (outwords f) (hash f m))).

(* lower case hexadecimal *)
Definition hexchar (z : Z) : ascii := nth (Z.to_nat z) $"0123456789abcdef" "?"%char.
Definition hex (l : list Z) : str := concat (map (fun b => [hexchar (b / 16); hexchar (b mod 16)]) l).

(* f is SHA-224, SHA-256, SHA-384, SHA-512 (sections 4.1.2, 4.1.3, 4.2.2, 4.2.3, 5.3, 6.2 - 6.5) *)
Definition family32 (f : fips) : Prop :=
  w f = 32 /\ nrounds f = 64%nat /\
  Sig0 f = (2, 13, 22) /\ Sig1 f = (6, 11, 25) /\ sig0 f = (7, 18, 3) /\ sig1 f = (17, 19, 10) /\
  Forall2 (cbrt_bits 32) (first_primes 64) (K f).
Definition family64 (f : fips) : Prop :=
  w f = 64 /\ nrounds f = 80%nat /\
  Sig0 f = (28, 34, 39) /\ Sig1 f = (14, 18, 41) /\ sig0 f = (1, 8, 7) /\ sig1 f = (19, 61, 6) /\
  Forall2 (cbrt_bits 64) (first_primes 80) (K f).
Definition is_sha224 (f : fips) : Prop :=
  family32 f /\ outwords f = 7%nat /\ Forall2 sqrt_second32 (skipn 8 (first_primes 16)) (H0 f).
Definition is_sha256 (f : fips) : Prop :=
  family32 f /\ outwords f = 8%nat /\ Forall2 (sqrt_bits 32) (first_primes 8) (H0 f).
Definition is_sha384 (f : fips) : Prop :=
  family64 f /\ outwords f = 6%nat /\ Forall2 (sqrt_bits 64) (skipn 8 (first_primes 16)) (H0 f).
Definition is_sha512 (f : fips) : Prop :=
  family64 f /\ outwords f = 8%nat /\ Forall2 (sqrt_bits 64) (first_primes 8) (H0 f).

(* the message bytes a C string denotes: up to the first zero byte *)
Fixpoint cstr_bytes (data : list Z) : list Z :=
  match data with
  | [] => []
  | c :: rest => if c =? 0 then [] else c :: cstr_bytes rest
  end.

Definition byte_list (m : list Z) : Prop := Forall (fun b => 0 <= b < 256) m.

(* ---- histories ---------------------------------------------------------------------------------- *)

(* a call the caller is allowed to make: bytes, C strings terminated *)
Definition legal (c : call) : Prop :=
  match c with
  | Pcstr d => byte_list d /\ In 0 d
  | Pmem d => byte_list d
  | _ => True
  end.
Definition is_process (c : call) : bool := match c with Pcstr _ | Pmem _ => true | _ => false end.
Definition call_bytes (c : call) : list Z :=
  match c with Pcstr d => cstr_bytes d | Pmem d => d | _ => [] end.
(* the calls before the message: none, or any calls ending in clear() *)
Definition ends_clean (pre : list call) : Prop := pre = [] \/ exists pre', pre = pre' ++ [Clear].
(* the memory an object is constructed in: a buffer of BLOCK_SIZE bytes of any value *)
Definition raw_memory (g : alg) (mem : obj) : Prop :=
  length (m_buffer mem) = blk (aimpl g) /\ byte_list (m_buffer mem).
