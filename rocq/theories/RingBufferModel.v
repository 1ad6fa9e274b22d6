(* Model of icl_core/RingBuffer.h and RingBuffer.hpp.
   All paths below are relative to src/icl_core/src/icl_core.
   Simplifications: size_type is nat (capacity = SIZE_MAX, for which capacity+1 wraps to 0, is excluded);
   iterators hold addresses (Z, counted in cells) instead of raw pointers, i.e. a flat address space; the
   deprecated wrappers (RingBuffer.h:475-538) are one-line forwards and are left out.
   The deprecated class tRingBuffer (tRingBuffer.h:42-236) has the same code for its constructor, Clear, Write, Read, Skip, At,
   Size, Capacity and SetCapacity, so that what is proved here holds for it too. *)
From Verif Require Import Base.

Section RB.
Context {T : Type}.

(* RingBuffer.h:541-543 *)
Record rb := RB { m_buffer : list T; m_write : nat; m_read : nat }.

(* m_buffer.size() *)
Definition bsize (b : rb) : nat := length (m_buffer b).

(* RingBuffer.h:202-204; d is T(), the value-initialised element *)
Definition construct (d : T) (capacity : nat) : rb := RB (repeat d (capacity + 1)) 0 0.

(* RingBuffer.h:221 *)
Definition clear (b : rb) : rb := RB (m_buffer b) 0 0.

(* RingBuffer.h:224 *)
Definition empty (b : rb) : bool := m_write b =? m_read b.

(* RingBuffer.h:227 *)
Definition full (b : rb) : bool := ((m_write b + 1) mod bsize b) =? m_read b.

(* RingBuffer.h:312-323 *)
Definition skip (b : rb) : result rb :=
  if m_write b =? m_read b then Throw
  else
    let r := m_read b + 1 in
    Ok (RB (m_buffer b) (m_write b) (if bsize b <=? r then 0 else r)).

(* RingBuffer.h:234-254 *)
Definition write (b : rb) (val : T) (overwrite : bool) : result rb :=
  let nw := m_write b + 1 in
  let new_write_pos := if bsize b <=? nw then 0 else nw in
  let store (b1 : rb) :=
    bind (vec_set (m_buffer b1) (m_write b1) val)
         (fun buf => Ok (RB buf new_write_pos (m_read b1))) in
  if new_write_pos =? m_read b
  then (if overwrite then bind (skip b) store else Throw)
  else store b.

(* RingBuffer.h:349-359 *)
Definition size (b : rb) : nat :=
  if m_read b <=? m_write b then m_write b - m_read b
  else m_write b + bsize b - m_read b.

(* RingBuffer.h:362 *)
Definition capacity (b : rb) : nat := bsize b - 1.

(* RingBuffer.h:365-368 *)
Definition reserve (b : rb) : nat := capacity b - size b.

(* RingBuffer.h:269-306: the cell index used by both overloads of at() *)
Definition at_pos (b : rb) (pos : nat) : result nat :=
  if pos <? size b then
    let p := pos + m_read b in
    Ok (if bsize b <=? p then p - bsize b else p)
  else Throw.

(* RingBuffer.h:269-284 *)
Definition at_ (b : rb) (pos : nat) : result T :=
  bind (at_pos b pos) (fun p => vec_get (m_buffer b) p).

(* RingBuffer.h:291-306, assigning through the returned reference *)
Definition at_assign (b : rb) (pos : nat) (v : T) : result rb :=
  bind (at_pos b pos) (fun p =>
  bind (vec_set (m_buffer b) p v) (fun buf => Ok (RB buf (m_write b) (m_read b)))).

(* RingBuffer.h:308-309 *)
Definition front (b : rb) : result T := at_ b 0.

(* RingBuffer.h:333-346 *)
Definition read (b : rb) : result (rb * T) :=
  if m_write b =? m_read b then Throw
  else
    let read_pos := m_read b in
    let r := m_read b + 1 in
    bind (vec_get (m_buffer b) read_pos)
         (fun v => Ok (RB (m_buffer b) (m_write b) (if bsize b <=? r then 0 else r), v)).

(* RingBuffer.hpp:147-157 *)
Definition skip_n (b : rb) (count : nat) : rb :=
  if size b <=? count then clear b
  else RB (m_buffer b) (m_write b) ((m_read b + count) mod bsize b).

(* RingBuffer.hpp:160-167 *)
Definition fakeWrite (b : rb) (count : nat) : rb :=
  let count := if reserve b <? count then reserve b else count in
  RB (m_buffer b) ((m_write b + count) mod bsize b) (m_read b).

(* RingBuffer.h:391-399: the copy loop of setCapacity, [todo] iterations left, at index i *)
Fixpoint copy_loop (old : list T) (buf : list T) (i old_read todo : nat) : result (list T) :=
  match todo with
  | O => Ok buf
  | S todo' =>
    bind (vec_get old old_read) (fun v =>
    bind (vec_set buf i v) (fun buf' =>
    let r := old_read + 1 in
    copy_loop old buf' (i + 1) (if length old <=? r then 0 else r) todo'))
  end.

(* std::vector::resize(n), new cells value-initialised *)
Definition vec_resize (d : T) (l : list T) (n : nat) : list T :=
  firstn n l ++ repeat d (n - length l).

(* RingBuffer.h:375-403 *)
Definition setCapacity (d : T) (b : rb) (cap : nat) : result rb :=
  let old_size := size b in
  let new_size := if cap <? old_size then cap else old_size in
  let old_buffer := m_buffer b in
  let buf := vec_resize d (m_buffer b) (cap + 1) in
  let r := m_read b + (old_size - new_size) in
  let old_read := if length old_buffer <=? r then r - length old_buffer else r in
  bind (copy_loop old_buffer buf 0 old_read new_size)
       (fun buf' => Ok (RB buf' new_size 0)).

(* RingBuffer.hpp:29-52: (start cell, length) *)
Definition arrayOne (b : rb) : nat * nat :=
  if m_read b <=? m_write b then (m_read b, m_write b - m_read b)
  else (m_read b, bsize b - m_read b).

(* RingBuffer.hpp:55-78 *)
Definition arrayTwo (b : rb) : nat * nat :=
  if m_read b <=? m_write b then (m_write b, 0) else (0, m_write b).

(* RingBuffer.hpp:81-118 *)
Definition emptyArrayOne (b : rb) : nat * nat :=
  if m_read b <=? m_write b then
    if m_read b =? 0 then (m_write b, bsize b - m_write b - 1)
    else (m_write b, bsize b - m_write b)
  else (m_write b, m_read b - m_write b - 1).

(* RingBuffer.hpp:121-144 *)
Definition emptyArrayTwo (b : rb) : nat * nat :=
  if m_read b <=? m_write b then (0, (if 0 <? m_read b then m_read b else 1) - 1)
  else (m_read b, 0).

(* A client reading the cells [start, start+len) through the returned pointer *)
Definition client_read (b : rb) (range : nat * nat) : result (list T) :=
  let '(s, n) := range in
  if s + n <=? bsize b then Ok (firstn n (skipn s (m_buffer b))) else UB.

(* A client storing xs through a pointer to cell s *)
Fixpoint client_store (buf : list T) (s : nat) (xs : list T) : result (list T) :=
  match xs with
  | [] => Ok buf
  | x :: r => bind (vec_set buf s x) (fun buf' => client_store buf' (s + 1) r)
  end.

(* The documented use of the empty ranges (RingBuffer.h:421-435): store at most the offered number
   of values in emptyArrayOne, the rest in emptyArrayTwo, then fakeWrite the number of values given. *)
Definition client_fill (b : rb) (xs : list T) : result rb :=
  let '(s1, n1) := emptyArrayOne b in
  let '(s2, n2) := emptyArrayTwo b in
  bind (client_store (m_buffer b) s1 (firstn n1 xs)) (fun buf1 =>
  bind (client_store buf1 s2 (firstn n2 (skipn n1 xs))) (fun buf2 =>
  Ok (fakeWrite (RB buf2 (m_write b) (m_read b)) (length xs)))).

(* ---- iterators, RingBuffer.h:58-199 (iterator adds nothing but non-const access) ---- *)
Local Open Scope Z_scope.

(* RingBuffer.h:160-166 *)
Record iter := It { m_current : Z; m_cbegin : Z; m_cend : Z; m_begin : Z }.

(* RingBuffer.h:411-414; base: the address &m_buffer[0] *)
Definition begin_ (base : Z) (b : rb) : iter :=
  It (base + Z.of_nat (m_read b)) base (base + Z.of_nat (bsize b)) (base + Z.of_nat (m_read b)).

(* RingBuffer.h:416-419 *)
Definition end_ (base : Z) (b : rb) : iter :=
  It (base + Z.of_nat (m_write b)) base (base + Z.of_nat (bsize b)) (base + Z.of_nat (m_read b)).

Definition with_cur (it : iter) (c : Z) : iter := It c (m_cbegin it) (m_cend it) (m_begin it).

(* RingBuffer.h:73-78 *)
Definition it_incr (it : iter) : iter :=
  let c := m_current it + 1 in
  with_cur it (if c =? m_cend it then m_cbegin it else c).

(* RingBuffer.h:86-94 *)
Definition it_decr (it : iter) : iter :=
  let c := if m_current it =? m_cbegin it then m_cend it else m_current it in
  with_cur it (c - 1).

(* RingBuffer.h:102-114 (and +, 119-124) *)
Definition it_add (it : iter) (offset : Z) : iter :=
  let c := m_current it + offset in
  let c := if m_cend it <=? c then c - (m_cend it - m_cbegin it) else c in
  let c := if c <? m_cbegin it then c + (m_cend it - m_cbegin it) else c in
  with_cur it c.

(* RingBuffer.h:115-118 (and -, 125-130) *)
Definition it_sub (it : iter) (offset : Z) : iter := it_add it (- offset).

(* RingBuffer.h:132-147 *)
Definition it_diff (it other : iter) : Z :=
  if ((m_begin it <=? m_current it) && (m_begin other <=? m_current other))
     || ((m_current it <? m_begin it) && (m_current other <? m_begin other))
  then m_current it - m_current other
  else if m_begin it <=? m_current it
  then m_current it - m_current other + m_cbegin it - m_cend it
  else m_current it - m_current other + m_cend it - m_cbegin it.

(* RingBuffer.h:149-150 *)
Definition it_eq (it other : iter) : bool := m_current it =? m_current other.

(* RingBuffer.h:152-153 *)
Definition it_deref (base : Z) (b : rb) (it : iter) : result T :=
  let index := m_current it - base in
  if (0 <=? index) && (index <? Z.of_nat (bsize b))
  then vec_get (m_buffer b) (Z.to_nat index) else UB.

(* for (it = first; it != last; ++it) collect *it;  None = more than fuel iterations *)
Fixpoint it_collect (base : Z) (b : rb) (it last : iter) (fuel : nat) : option (result (list T)) :=
  if it_eq it last then Some (Ok [])
  else match fuel with
       | O => None
       | S f =>
         match it_deref base b it with
         | Ok v => match it_collect base b (it_incr it) last f with
                   | Some (Ok l) => Some (Ok (v :: l))
                   | o => o
                   end
         | Throw => Some Throw
         | UB => Some UB
         end
       end.
Local Close Scope Z_scope.

(* ---- the API as a state machine ---- *)
Inductive op :=
| Write (v : T) (overwrite : bool)
| Read | Skip | SkipN (n : nat) | Clear | SetCapacity (n : nat)
| FakeWrite (n : nat) | Fill (xs : list T)
| Size | Reserve | Capacity | Empty | Full
| At (i : nat) | AtAssign (i : nat) (v : T) | Front
| Traverse (base : Z) (* with iterators, if the buffer lies there *) | Arrays.

Inductive out :=
| RUnit | RVal (v : T) | RNat (n : nat) | RBool (b : bool) | RVals (l : list T)
| RThrow (* std::out_of_range *) | RUB | RDiverge.

Definition lift {A} (b : rb) (r : result A) (k : A -> rb * out) : rb * out :=
  match r with Ok a => k a | Throw => (b, RThrow) | UB => (b, RUB) end.

Definition step (d : T) (b : rb) (o : op) : rb * out :=
  match o with
  | Write v ow => lift b (write b v ow) (fun b' => (b', RUnit))
  | Read => lift b (read b) (fun p => (fst p, RVal (snd p)))
  | Skip => lift b (skip b) (fun b' => (b', RUnit))
  | SkipN n => (skip_n b n, RUnit)
  | Clear => (clear b, RUnit)
  | SetCapacity n => lift b (setCapacity d b n) (fun b' => (b', RUnit))
  | FakeWrite n => (fakeWrite b n, RUnit)
  | Fill xs => lift b (client_fill b xs) (fun b' => (b', RUnit))
  | Size => (b, RNat (size b))
  | Reserve => (b, RNat (reserve b))
  | Capacity => (b, RNat (capacity b))
  | Empty => (b, RBool (empty b))
  | Full => (b, RBool (full b))
  | At i => lift b (at_ b i) (fun v => (b, RVal v))
  | AtAssign i v => lift b (at_assign b i v) (fun b' => (b', RUnit))
  | Front => lift b (front b) (fun v => (b, RVal v))
  | Traverse base => match it_collect base b (begin_ base b) (end_ base b) (bsize b) with
                | Some r => lift b r (fun l => (b, RVals l))
                | None => (b, RDiverge)
                end
  | Arrays => lift b (client_read b (arrayOne b)) (fun l1 =>
              lift b (client_read b (arrayTwo b)) (fun l2 => (b, RVals (l1 ++ l2))))
  end.

Fixpoint run (d : T) (b : rb) (ops : list op) : rb * list out :=
  match ops with
  | [] => (b, [])
  | o :: r => let '(b1, x) := step d b o in
              let '(b2, xs) := run d b1 r in (b2, x :: xs)
  end.

End RB.
Arguments rb T : clear implicits.
Arguments op T : clear implicits.
Arguments out T : clear implicits.
