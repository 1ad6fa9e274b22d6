(* SHA-2: icl_core_crypt/Sha2.h, Sha2.hpp, Sha2Impl.h, Sha2Impl.hpp.

   Sha2Impl has a primary template (uint32_t words) and a partial specialisation for uint64_t whose
   functions are the same text up to the word width, the block size, the constant table, the
   rotation amounts and the number of rounds.  The model is one function per C++ function with
   these as a parameter record [impl]; the records [impl32] and [impl64] transcribe the two
   templates.  The unrolled round calls of processBuffer are transcribed literally, one list entry
   per macro call. *)
From Verif Require Import Text.
Local Open Scope Z_scope.

Record impl := mkImpl {
  wbits : Z;                       (* bits of T *)
  blk : nat;                       (* cMESSAGE_BLOCK_SIZE *)
  padpos : nat;                    (* cMESSAGE_PAD_POSITION *)
  hexw : nat;                      (* std::setw in getHexDigest *)
  ktab : list Z;                   (* k256 / k512 *)
  bS0 : Z * Z * Z; bS1 : Z * Z * Z; ss0 : Z * Z * Z; ss1 : Z * Z * Z; (* rotation / shift amounts *)
  rounds : list (bool * list nat * nat) (* (with schedule update?, roles of v0..v7, t) *)
}.

(* A Sha2 object, Sha2Impl.h:78-86 and 136-144. *)
Record obj := mkObj {
  m_digest : list Z;
  m_message_size : Z;              (* uint64_t *)
  m_buffer : list Z;               (* uint8_t[BLOCK_SIZE], indeterminate at construction *)
  m_buffer_fill : nat
}.

(* Sha2.h:111-125, the template arguments t_h0..t_h7 and t_len *)
Record alg := mkAlg { aimpl : impl; t_h : list Z; t_len : nat }.

(* ---- word operations ---------------------------------------------------------------------- *)

(* unsigned addition in T *)
Definition addw (p : impl) (x y : Z) : Z := (x + y) mod 2 ^ wbits p.
(* Sha2Impl.hpp:83 *)
Definition Ch (x y z : Z) : Z := Z.lxor z (Z.land x (Z.lxor y z)).
(* Sha2Impl.hpp:85 *)
Definition Maj (x y z : Z) : Z := Z.lor (Z.land x y) (Z.land z (Z.lxor x y)).
(* Sha2Impl.hpp:87; the left shift drops the bits beyond T *)
Definition Rotr (p : impl) (x n : Z) : Z :=
  Z.lor (Z.shiftr x n) (Z.shiftl x (wbits p - n) mod 2 ^ wbits p).
(* Sha2Impl.hpp:89 *)
Definition Shr (x n : Z) : Z := Z.shiftr x n.
(* Sha2Impl.hpp:93-94, 268-269 *)
Definition Sigma0 (p : impl) (x : Z) : Z :=
  let '(a, b, c) := bS0 p in Z.lxor (Z.lxor (Rotr p x a) (Rotr p x b)) (Rotr p x c).
Definition Sigma1 (p : impl) (x : Z) : Z :=
  let '(a, b, c) := bS1 p in Z.lxor (Z.lxor (Rotr p x a) (Rotr p x b)) (Rotr p x c).
(* Sha2Impl.hpp:95-96, 270-271 *)
Definition sigma0 (p : impl) (x : Z) : Z :=
  let '(a, b, c) := ss0 p in Z.lxor (Z.lxor (Rotr p x a) (Rotr p x b)) (Shr x c).
Definition sigma1 (p : impl) (x : Z) : Z :=
  let '(a, b, c) := ss1 p in Z.lxor (Z.lxor (Rotr p x a) (Rotr p x b)) (Shr x c).

(* Sha2Impl.hpp:68-80: the i-th word of the buffer: byte j of the word shifted left by
   8*(bytes-1-j) and or-ed together.  The macro writes the operands of | from the last byte to the
   first; | is commutative and the model folds from the first. *)
Definition bswaparr (p : impl) (buf : list Z) (i : nat) : Z :=
  let n := Z.to_nat (wbits p / 8) in
  fold_left (fun acc j =>
               Z.lor acc (Z.shiftl (nth (i * n + j) buf 0) (wbits p - 8 - 8 * Z.of_nat j) mod 2 ^ wbits p))
            (seq 0 n) 0.

(* ---- rounds ------------------------------------------------------------------------------- *)

Definition get (l : list Z) (i : nat) : Z := nth i l 0.

(* Sha2Impl.hpp:114-117 (= 121-124, 306-309, 313-316) *)
Definition round_core (p : impl) (roles : list nat) (t : nat) (v w : list Z) : list Z :=
  let r i := nth i roles 0%nat in
  let a := r 0%nat in let b := r 1%nat in let c := r 2%nat in let d := r 3%nat in
  let e := r 4%nat in let f := r 5%nat in let g := r 6%nat in let h := r 7%nat in
  let T1 := addw p (addw p (addw p (addw p (get v h) (Sigma1 p (get v e)))
                                   (Ch (get v e) (get v f) (get v g)))
                           (get (ktab p) t))
                   (get w (Nat.land t 15)) in
  let T2 := addw p (Sigma0 p (get v a)) (Maj (get v a) (get v b) (get v c)) in
  let v := list_set v d (addw p (get v d) T1) in
  list_set v h (addw p T1 T2).

(* Sha2Impl.hpp:120, 312 *)
Definition schedule (p : impl) (t : nat) (w : list Z) : list Z :=
  list_set w (Nat.land t 15)
    (addw p (get w (Nat.land t 15))
       (addw p (addw p (sigma1 p (get w (Nat.land (t + 14) 15))) (get w (Nat.land (t + 9) 15)))
               (sigma0 p (get w (Nat.land (t + 1) 15))))).

(* one macro call round_0_15 / round_16_63 / round_16_79 on the locals (v0..v7, w) *)
Definition round (p : impl) (st : list Z * list Z) (call : bool * list nat * nat) : list Z * list Z :=
  let '(upd, roles, t) := call in
  let '(v, w) := st in
  let w := if upd then schedule p t w else w in
  (round_core p roles t v w, w).

(* Sha2Impl.hpp:127-230, 319-440 *)
Definition processBuffer (p : impl) (o : obj) : obj :=
  let v := m_digest o in
  let w := map (bswaparr p (m_buffer o)) (seq 0 16) in
  let '(v, _) := fold_left (round p) (rounds p) (v, w) in
  mkObj (map (fun i => addw p (get (m_digest o) i) (get v i)) (seq 0 8))
        (m_message_size o) (m_buffer o) (m_buffer_fill o).

(* ---- Sha2 --------------------------------------------------------------------------------- *)

(* Sha2Impl.hpp:43-55, 280-292 *)
Definition clear (g : alg) (o : obj) : obj := mkObj (t_h g) 0 (m_buffer o) 0.

(* Sha2Impl.hpp:37-40, 274-277, Sha2.hpp:38-41: the arrays start with arbitrary contents *)
Definition construct (g : alg) (garbage : obj) : obj := clear g garbage.

Definition set_fill (o : obj) (n : nat) : obj := mkObj (m_digest o) (m_message_size o) (m_buffer o) n.
(* m_message_size += n, uint64_t *)
Definition add_size (o : obj) (n : Z) : obj :=
  mkObj (m_digest o) ((m_message_size o + n) mod 2 ^ 64) (m_buffer o) (m_buffer_fill o).
(* m_buffer[i] = x *)
Definition set_byte (o : obj) (i : nat) (x : Z) : result obj :=
  bind (vec_set (m_buffer o) i x) (fun b => Ok (mkObj (m_digest o) (m_message_size o) b (m_buffer_fill o))).
(* ::memcpy(&m_buffer[pos], ptr, length bytes) *)
Definition memcpy (o : obj) (pos : nat) (bytes : list Z) : result obj :=
  if (pos + length bytes <=? length (m_buffer o))%nat then
    Ok (mkObj (m_digest o) (m_message_size o)
              (firstn pos (m_buffer o) ++ bytes ++ skipn (pos + length bytes) (m_buffer o))
              (m_buffer_fill o))
  else UB.

(* Sha2.hpp:44-57.  [data] is the memory from the pointer on; running off its end is UB. *)
Fixpoint process_cstr (p : impl) (o : obj) (data : list Z) : result obj :=
  match data with
  | [] => UB
  | c :: rest =>
    if c =? 0 then Ok o
    else
      let o := if (m_buffer_fill o =? blk p)%nat then set_fill (processBuffer p o) 0 else o in
      bind (set_byte o (m_buffer_fill o) c) (fun o =>
      process_cstr p (add_size (set_fill o (S (m_buffer_fill o))) 1) rest)
  end.

(* Sha2.hpp:60-81.  [data] are the size bytes at the pointer.  Each turn of the loop either
   consumes a byte or empties a full buffer, so [fuel] = 2 + number of bytes suffices (proved). *)
Fixpoint process_loop (p : impl) (fuel : nat) (o : obj) (data : list Z) : result obj :=
  if (blk p - m_buffer_fill o <=? length data)%nat then
    match fuel with
    | O => UB
    | S fuel =>
      let amount := (blk p - m_buffer_fill o)%nat in
      bind (memcpy o (m_buffer_fill o) (firstn amount data)) (fun o =>
      let o := processBuffer p o in
      process_loop p fuel (set_fill (add_size o (Z.of_nat amount)) 0) (skipn amount data))
    end
  else
    bind (memcpy o (m_buffer_fill o) data) (fun o =>
    let o := add_size o (Z.of_nat (length data)) in
    Ok (set_fill o (m_buffer_fill o + length data))).
Definition process_mem (p : impl) (o : obj) (data : list Z) : result obj :=
  process_loop p (2 + length data) o data.

(* the loops "for (size_t i = from; i < to; ++i) m_buffer[i] = 0", Sha2.hpp:120-123, 138-141, 145-148 *)
Fixpoint zero_from (o : obj) (from n : nat) : result obj :=
  match n with
  | O => Ok o
  | S n => bind (set_byte o from 0) (fun o => zero_from o (S from) n)
  end.
Definition zero_range (o : obj) (from to : nat) : result obj := zero_from o from (to - from).

(* Sha2.hpp:124-131, 149-156 *)
Definition put_length (p : impl) (o : obj) (bits : Z) : result obj :=
  let byte s := Z.land (Z.shiftr bits s) 255 in
  bind (set_byte o (blk p - 8) (byte 56)) (fun o =>
  bind (set_byte o (blk p - 7) (byte 48)) (fun o =>
  bind (set_byte o (blk p - 6) (byte 40)) (fun o =>
  bind (set_byte o (blk p - 5) (byte 32)) (fun o =>
  bind (set_byte o (blk p - 4) (byte 24)) (fun o =>
  bind (set_byte o (blk p - 3) (byte 16)) (fun o =>
  bind (set_byte o (blk p - 2) (byte 8)) (fun o =>
  set_byte o (blk p - 1) (byte 0)))))))).

(* Sha2.hpp:100-159 *)
Definition finalizeBuffer (p : impl) (o : obj) (size : nat) : result obj :=
  let message_size_bits := (m_message_size o * 8) mod 2 ^ 64 in
  bind (if (size <? blk p)%nat
        then bind (set_byte o size 128) (fun o => Ok (o, S size))
        else bind (set_byte (processBuffer p o) 0 128) (fun o => Ok (o, 1%nat)))
    (fun '(o, size) =>
  if (size <=? padpos p)%nat then
    bind (zero_range o size (blk p - 8)) (fun o =>
    bind (put_length p o message_size_bits) (fun o =>
    Ok (processBuffer p o)))
  else
    bind (zero_range o size (blk p)) (fun o =>
    bind (zero_range (processBuffer p o) 0 (blk p - 8)) (fun o =>
    bind (put_length p o message_size_bits) (fun o =>
    Ok (processBuffer p o))))).

(* Sha2.hpp:84-88 *)
Definition finalize (p : impl) (o : obj) : result obj := finalizeBuffer p o (m_buffer_fill o).

(* ---- getHexDigest ------------------------------------------------------------------------- *)

Definition hexdigit (z : Z) : ascii :=
  if z <? 10 then ascii_of_nat (48 + Z.to_nat z) else ascii_of_nat (87 + Z.to_nat z).
(* std::hex output of an unsigned number: no leading zeros, "0" for 0 *)
Fixpoint hex_digits (fuel : nat) (z : Z) : str :=
  match fuel with
  | O => []
  | S fuel => (if z / 16 =? 0 then [] else hex_digits fuel (z / 16)) ++ [hexdigit (z mod 16)]
  end.
(* std::setw(n) << std::setfill('0'): pad on the left to at least n characters *)
Definition setw0 (n : nat) (s : str) : str := repeat "0"%char (n - length s) ++ s.
(* Sha2Impl.hpp:58-66, 295-303 *)
Definition getHexDigest (g : alg) (o : obj) : str :=
  concat (map (fun i => setw0 (hexw (aimpl g)) (hex_digits 16 (get (m_digest o) i))) (seq 0 (t_len g))).

(* ---- the two templates -------------------------------------------------------------------- *)

(* Sha2Impl.hpp:102-111 *)
Definition k256 : list Z := [
   0x428a2f98; 0x71374491; 0xb5c0fbcf; 0xe9b5dba5; 0x3956c25b; 0x59f111f1; 0x923f82a4; 0xab1c5ed5;
   0xd807aa98; 0x12835b01; 0x243185be; 0x550c7dc3; 0x72be5d74; 0x80deb1fe; 0x9bdc06a7; 0xc19bf174;
   0xe49b69c1; 0xefbe4786; 0x0fc19dc6; 0x240ca1cc; 0x2de92c6f; 0x4a7484aa; 0x5cb0a9dc; 0x76f988da;
   0x983e5152; 0xa831c66d; 0xb00327c8; 0xbf597fc7; 0xc6e00bf3; 0xd5a79147; 0x06ca6351; 0x14292967;
   0x27b70a85; 0x2e1b2138; 0x4d2c6dfc; 0x53380d13; 0x650a7354; 0x766a0abb; 0x81c2c92e; 0x92722c85;
   0xa2bfe8a1; 0xa81a664b; 0xc24b8b70; 0xc76c51a3; 0xd192e819; 0xd6990624; 0xf40e3585; 0x106aa070;
   0x19a4c116; 0x1e376c08; 0x2748774c; 0x34b0bcb5; 0x391c0cb3; 0x4ed8aa4a; 0x5b9cca4f; 0x682e6ff3;
   0x748f82ee; 0x78a5636f; 0x84c87814; 0x8cc70208; 0x90befffa; 0xa4506ceb; 0xbef9a3f7; 0xc67178f2].
(* Sha2Impl.hpp:242-263 *)
Definition k512 : list Z := [
   0x428a2f98d728ae22; 0x7137449123ef65cd; 0xb5c0fbcfec4d3b2f; 0xe9b5dba58189dbbc;
   0x3956c25bf348b538; 0x59f111f1b605d019; 0x923f82a4af194f9b; 0xab1c5ed5da6d8118;
   0xd807aa98a3030242; 0x12835b0145706fbe; 0x243185be4ee4b28c; 0x550c7dc3d5ffb4e2;
   0x72be5d74f27b896f; 0x80deb1fe3b1696b1; 0x9bdc06a725c71235; 0xc19bf174cf692694;
   0xe49b69c19ef14ad2; 0xefbe4786384f25e3; 0x0fc19dc68b8cd5b5; 0x240ca1cc77ac9c65;
   0x2de92c6f592b0275; 0x4a7484aa6ea6e483; 0x5cb0a9dcbd41fbd4; 0x76f988da831153b5;
   0x983e5152ee66dfab; 0xa831c66d2db43210; 0xb00327c898fb213f; 0xbf597fc7beef0ee4;
   0xc6e00bf33da88fc2; 0xd5a79147930aa725; 0x06ca6351e003826f; 0x142929670a0e6e70;
   0x27b70a8546d22ffc; 0x2e1b21385c26c926; 0x4d2c6dfc5ac42aed; 0x53380d139d95b3df;
   0x650a73548baf63de; 0x766a0abb3c77b2a8; 0x81c2c92e47edaee6; 0x92722c851482353b;
   0xa2bfe8a14cf10364; 0xa81a664bbc423001; 0xc24b8b70d0f89791; 0xc76c51a30654be30;
   0xd192e819d6ef5218; 0xd69906245565a910; 0xf40e35855771202a; 0x106aa07032bbd1b8;
   0x19a4c116b8d2d0c8; 0x1e376c085141ab53; 0x2748774cdf8eeb99; 0x34b0bcb5e19b48a8;
   0x391c0cb3c5c95a63; 0x4ed8aa4ae3418acb; 0x5b9cca4f7763e373; 0x682e6ff3d6b2b8a3;
   0x748f82ee5defb2fc; 0x78a5636f43172f60; 0x84c87814a1f0ab72; 0x8cc702081a6439ec;
   0x90befffa23631e28; 0xa4506cebde82bde9; 0xbef9a3f7b2c67915; 0xc67178f2e372532b;
   0xca273eceea26619c; 0xd186b8c721c0c207; 0xeada7dd6cde0eb1e; 0xf57d4f7fee6ed178;
   0x06f067aa72176fba; 0x0a637dc5a2c898a6; 0x113f9804bef90dae; 0x1b710b35131c471b;
   0x28db77f523047d84; 0x32caab7b40c72493; 0x3c9ebe0a15c9bebc; 0x431d67c49c100d4c;
   0x4cc5d4becb3e42b6; 0x597f299cfc657e2a; 0x5fcb6fab3ad6faec; 0x6c44198c4a475817].
(* Sha2Impl.hpp:150-220 *)
Definition rounds256 : list (bool * list nat * nat) := ([
   (false, [0;1;2;3;4;5;6;7], 0); (false, [7;0;1;2;3;4;5;6], 1);
   (false, [6;7;0;1;2;3;4;5], 2); (false, [5;6;7;0;1;2;3;4], 3);
   (false, [4;5;6;7;0;1;2;3], 4); (false, [3;4;5;6;7;0;1;2], 5);
   (false, [2;3;4;5;6;7;0;1], 6); (false, [1;2;3;4;5;6;7;0], 7);
   (false, [0;1;2;3;4;5;6;7], 8); (false, [7;0;1;2;3;4;5;6], 9);
   (false, [6;7;0;1;2;3;4;5], 10); (false, [5;6;7;0;1;2;3;4], 11);
   (false, [4;5;6;7;0;1;2;3], 12); (false, [3;4;5;6;7;0;1;2], 13);
   (false, [2;3;4;5;6;7;0;1], 14); (false, [1;2;3;4;5;6;7;0], 15);
   (true, [0;1;2;3;4;5;6;7], 16); (true, [7;0;1;2;3;4;5;6], 17);
   (true, [6;7;0;1;2;3;4;5], 18); (true, [5;6;7;0;1;2;3;4], 19);
   (true, [4;5;6;7;0;1;2;3], 20); (true, [3;4;5;6;7;0;1;2], 21);
   (true, [2;3;4;5;6;7;0;1], 22); (true, [1;2;3;4;5;6;7;0], 23);
   (true, [0;1;2;3;4;5;6;7], 24); (true, [7;0;1;2;3;4;5;6], 25);
   (true, [6;7;0;1;2;3;4;5], 26); (true, [5;6;7;0;1;2;3;4], 27);
   (true, [4;5;6;7;0;1;2;3], 28); (true, [3;4;5;6;7;0;1;2], 29);
   (true, [2;3;4;5;6;7;0;1], 30); (true, [1;2;3;4;5;6;7;0], 31);
   (true, [0;1;2;3;4;5;6;7], 32); (true, [7;0;1;2;3;4;5;6], 33);
   (true, [6;7;0;1;2;3;4;5], 34); (true, [5;6;7;0;1;2;3;4], 35);
   (true, [4;5;6;7;0;1;2;3], 36); (true, [3;4;5;6;7;0;1;2], 37);
   (true, [2;3;4;5;6;7;0;1], 38); (true, [1;2;3;4;5;6;7;0], 39);
   (true, [0;1;2;3;4;5;6;7], 40); (true, [7;0;1;2;3;4;5;6], 41);
   (true, [6;7;0;1;2;3;4;5], 42); (true, [5;6;7;0;1;2;3;4], 43);
   (true, [4;5;6;7;0;1;2;3], 44); (true, [3;4;5;6;7;0;1;2], 45);
   (true, [2;3;4;5;6;7;0;1], 46); (true, [1;2;3;4;5;6;7;0], 47);
   (true, [0;1;2;3;4;5;6;7], 48); (true, [7;0;1;2;3;4;5;6], 49);
   (true, [6;7;0;1;2;3;4;5], 50); (true, [5;6;7;0;1;2;3;4], 51);
   (true, [4;5;6;7;0;1;2;3], 52); (true, [3;4;5;6;7;0;1;2], 53);
   (true, [2;3;4;5;6;7;0;1], 54); (true, [1;2;3;4;5;6;7;0], 55);
   (true, [0;1;2;3;4;5;6;7], 56); (true, [7;0;1;2;3;4;5;6], 57);
   (true, [6;7;0;1;2;3;4;5], 58); (true, [5;6;7;0;1;2;3;4], 59);
   (true, [4;5;6;7;0;1;2;3], 60); (true, [3;4;5;6;7;0;1;2], 61);
   (true, [2;3;4;5;6;7;0;1], 62); (true, [1;2;3;4;5;6;7;0], 63)])%nat.
(* Sha2Impl.hpp:342-430 *)
Definition rounds512 : list (bool * list nat * nat) := ([
   (false, [0;1;2;3;4;5;6;7], 0); (false, [7;0;1;2;3;4;5;6], 1);
   (false, [6;7;0;1;2;3;4;5], 2); (false, [5;6;7;0;1;2;3;4], 3);
   (false, [4;5;6;7;0;1;2;3], 4); (false, [3;4;5;6;7;0;1;2], 5);
   (false, [2;3;4;5;6;7;0;1], 6); (false, [1;2;3;4;5;6;7;0], 7);
   (false, [0;1;2;3;4;5;6;7], 8); (false, [7;0;1;2;3;4;5;6], 9);
   (false, [6;7;0;1;2;3;4;5], 10); (false, [5;6;7;0;1;2;3;4], 11);
   (false, [4;5;6;7;0;1;2;3], 12); (false, [3;4;5;6;7;0;1;2], 13);
   (false, [2;3;4;5;6;7;0;1], 14); (false, [1;2;3;4;5;6;7;0], 15);
   (true, [0;1;2;3;4;5;6;7], 16); (true, [7;0;1;2;3;4;5;6], 17);
   (true, [6;7;0;1;2;3;4;5], 18); (true, [5;6;7;0;1;2;3;4], 19);
   (true, [4;5;6;7;0;1;2;3], 20); (true, [3;4;5;6;7;0;1;2], 21);
   (true, [2;3;4;5;6;7;0;1], 22); (true, [1;2;3;4;5;6;7;0], 23);
   (true, [0;1;2;3;4;5;6;7], 24); (true, [7;0;1;2;3;4;5;6], 25);
   (true, [6;7;0;1;2;3;4;5], 26); (true, [5;6;7;0;1;2;3;4], 27);
   (true, [4;5;6;7;0;1;2;3], 28); (true, [3;4;5;6;7;0;1;2], 29);
   (true, [2;3;4;5;6;7;0;1], 30); (true, [1;2;3;4;5;6;7;0], 31);
   (true, [0;1;2;3;4;5;6;7], 32); (true, [7;0;1;2;3;4;5;6], 33);
   (true, [6;7;0;1;2;3;4;5], 34); (true, [5;6;7;0;1;2;3;4], 35);
   (true, [4;5;6;7;0;1;2;3], 36); (true, [3;4;5;6;7;0;1;2], 37);
   (true, [2;3;4;5;6;7;0;1], 38); (true, [1;2;3;4;5;6;7;0], 39);
   (true, [0;1;2;3;4;5;6;7], 40); (true, [7;0;1;2;3;4;5;6], 41);
   (true, [6;7;0;1;2;3;4;5], 42); (true, [5;6;7;0;1;2;3;4], 43);
   (true, [4;5;6;7;0;1;2;3], 44); (true, [3;4;5;6;7;0;1;2], 45);
   (true, [2;3;4;5;6;7;0;1], 46); (true, [1;2;3;4;5;6;7;0], 47);
   (true, [0;1;2;3;4;5;6;7], 48); (true, [7;0;1;2;3;4;5;6], 49);
   (true, [6;7;0;1;2;3;4;5], 50); (true, [5;6;7;0;1;2;3;4], 51);
   (true, [4;5;6;7;0;1;2;3], 52); (true, [3;4;5;6;7;0;1;2], 53);
   (true, [2;3;4;5;6;7;0;1], 54); (true, [1;2;3;4;5;6;7;0], 55);
   (true, [0;1;2;3;4;5;6;7], 56); (true, [7;0;1;2;3;4;5;6], 57);
   (true, [6;7;0;1;2;3;4;5], 58); (true, [5;6;7;0;1;2;3;4], 59);
   (true, [4;5;6;7;0;1;2;3], 60); (true, [3;4;5;6;7;0;1;2], 61);
   (true, [2;3;4;5;6;7;0;1], 62); (true, [1;2;3;4;5;6;7;0], 63);
   (true, [0;1;2;3;4;5;6;7], 64); (true, [7;0;1;2;3;4;5;6], 65);
   (true, [6;7;0;1;2;3;4;5], 66); (true, [5;6;7;0;1;2;3;4], 67);
   (true, [4;5;6;7;0;1;2;3], 68); (true, [3;4;5;6;7;0;1;2], 69);
   (true, [2;3;4;5;6;7;0;1], 70); (true, [1;2;3;4;5;6;7;0], 71);
   (true, [0;1;2;3;4;5;6;7], 72); (true, [7;0;1;2;3;4;5;6], 73);
   (true, [6;7;0;1;2;3;4;5], 74); (true, [5;6;7;0;1;2;3;4], 75);
   (true, [4;5;6;7;0;1;2;3], 76); (true, [3;4;5;6;7;0;1;2], 77);
   (true, [2;3;4;5;6;7;0;1], 78); (true, [1;2;3;4;5;6;7;0], 79)])%nat.

(* Sha2Impl.h:51-87, Sha2Impl.hpp:63, 93-96 *)
Definition impl32 : impl :=
  mkImpl 32 64 56 8 k256 (2, 13, 22) (6, 11, 25) (7, 18, 3) (17, 19, 10) rounds256.
(* Sha2Impl.h:104-145, Sha2Impl.hpp:268-271, 300 *)
Definition impl64 : impl :=
  mkImpl 64 128 112 16 k512 (28, 34, 39) (14, 18, 41) (1, 8, 7) (19, 61, 6) rounds512.

(* Sha2.h:111-113 *)
Definition Sha224 : alg := mkAlg impl32
  [0xc1059ed8; 0x367cd507; 0x3070dd17; 0xf70e5939;
   0xffc00b31; 0x68581511; 0x64f98fa7; 0xbefa4fa4] 7.
(* Sha2.h:115-117 *)
Definition Sha256 : alg := mkAlg impl32
  [0x6a09e667; 0xbb67ae85; 0x3c6ef372; 0xa54ff53a;
   0x510e527f; 0x9b05688c; 0x1f83d9ab; 0x5be0cd19] 8.
(* Sha2.h:119-121 *)
Definition Sha384 : alg := mkAlg impl64
  [0xcbbb9d5dc1059ed8; 0x629a292a367cd507; 0x9159015a3070dd17; 0x152fecd8f70e5939;
   0x67332667ffc00b31; 0x8eb44a8768581511; 0xdb0c2e0d64f98fa7; 0x47b5481dbefa4fa4] 6.
(* Sha2.h:123-125 *)
Definition Sha512 : alg := mkAlg impl64
  [0x6a09e667f3bcc908; 0xbb67ae8584caa73b; 0x3c6ef372fe94f82b; 0xa54ff53a5f1d36f1;
   0x510e527fade682d1; 0x9b05688c2b3e6c1f; 0x1f83d9abfb41bd6b; 0x5be0cd19137e2179] 8.

(* ---- histories ---------------------------------------------------------------------------- *)

(* One call of the public interface: process(const char *data) with the memory at the pointer,
   process(const void *data, size_t) / process(const String&) with the bytes, clear(), finalize(). *)
Inductive call :=
| Pcstr (data : list Z)
| Pmem (data : list Z)
| Clear
| Finalize.
Definition do_call (g : alg) (o : obj) (c : call) : result obj :=
  match c with
  | Pcstr d => process_cstr (aimpl g) o d
  | Pmem d => process_mem (aimpl g) o d
  | Clear => Ok (clear g o)
  | Finalize => finalize (aimpl g) o
  end.
Fixpoint do_calls (g : alg) (o : obj) (cs : list call) : result obj :=
  match cs with
  | [] => Ok o
  | c :: cs => bind (do_call g o c) (fun o => do_calls g o cs)
  end.
