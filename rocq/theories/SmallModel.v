(* Models of ZBuffer.h, Array2D.h, BitfieldHelper.h, Finalizable.h, SearchableStack.h (src/icl_core/src/icl_core). *)
From Verif Require Import Base CInt.

(* ---- ZBuffer.h ---- *)
Section ZBuffer.
  Context {T : Type} (cmp : T -> T -> bool).
  (* ZBuffer.h:56-59 *)
  Definition zbuffer (size : nat) : list (option T) := repeat None size.
  (* ZBuffer.h:68-77; a position outside the buffer fails the assertion or is undefined.
     reset() (80) does not compile and is not modelled. *)
  Definition update (b : list (option T)) (pos : nat) (value : T) : result (bool * list (option T)) :=
    bind (vec_get b pos) (fun cell =>
    if match cell with None => true | Some v => cmp value v end
    then Ok (true, list_set b pos (Some value))
    else Ok (false, b)).
  (* ZBuffer.h:86-88 *)
  Definition zat (b : list (option T)) (pos : nat) : result (option T) := vec_get b pos.

  (* a history of updates, oldest first *)
  Fixpoint updates (b : list (option T)) (h : list (nat * T)) : result (list (option T)) :=
    match h with
    | [] => Ok b
    | (p, v) :: r => bind (update b p v) (fun x => updates (snd x) r)
    end.
End ZBuffer.

(* ---- Array2D.h ---- *)
Local Open Scope Z_scope.
Section Array2D.
  Context {T : Type} (dflt : T). (* value_type() *)
  (* Array2D.h:174-176 *)
  Record array := A2 { m_container : list T; m_width : Z; m_height : Z }.
  (* Array2D.h:61-67; width*height is computed in size_t *)
  Definition construct (w h : Z) (v : T) : array := A2 (repeat v (Z.to_nat (to_u64 (w * h)))) w h.
  (* vector::resize *)
  Definition vresize (l : list T) (n : nat) (v : T) : list T := firstn n l ++ repeat v (n - length l).
  (* Array2D.h:85-97 *)
  Definition resize (a : array) (w h : Z) (v : T) : array := A2 (vresize (m_container a) (Z.to_nat (to_u64 (w * h))) v) w h.
  (* Array2D.h:99-111 *)
  Definition assign (a : array) (w h : Z) (v : T) : array := A2 (repeat v (Z.to_nat (to_u64 (w * h)))) w h.
  (* Array2D.h:113-121 *)
  Definition set (a : array) (v : T) : array := A2 (repeat v (Z.to_nat (to_u64 (m_width a * m_height a)))) (m_width a) (m_height a).
  Definition reset (a : array) : array := set a dflt.
  (* Array2D.h:144 *)
  Definition index1D (a : array) (column row : Z) : Z := to_u64 (to_u64 (row * m_width a) + column).
  (* Array2D.h:147-151; division by zero is undefined *)
  Definition indexTo2D (a : array) (i : Z) : result (Z * Z) :=
    if m_width a =? 0 then UB else Ok (i mod m_width a, i / m_width a).
  (* Array2D.h:124-131 *)
  Definition at1 (a : array) (i : Z) : result T := vec_get (m_container a) (Z.to_nat i).
  (* Array2D.h:134-141, reading and writing *)
  Definition at2 (a : array) (column row : Z) : result T := at1 a (index1D a column row).
  Definition write2 (a : array) (column row : Z) (v : T) : result array :=
    bind (vec_set (m_container a) (Z.to_nat (index1D a column row)) v) (fun l => Ok (A2 l (m_width a) (m_height a))).
  (* Array2D.h:163 *)
  Definition asize (a : array) : Z := Z.of_nat (length (m_container a)).
  (* Array2D.h:154-159 *)
  Definition swap (a b : array) : array * array := (b, a).
End Array2D.
Arguments array : clear implicits.

(* ---- BitfieldHelper.h ---- *)
(* An integer type T: signedness and width; conversion to T keeps the low bits (two's complement). *)
Record ityp := IT { isigned : bool; iwidth : Z }.
Definition convert (t : ityp) (z : Z) : Z :=
  if isigned t then (z + 2 ^ (iwidth t - 1)) mod 2 ^ iwidth t - 2 ^ (iwidth t - 1) else z mod 2 ^ iwidth t.
Definition in_range (t : ityp) (z : Z) : Prop := convert t z = z.
Definition int : ityp := IT true 32.
(* BitfieldHelper.h:39-43; a negative Z is its infinite two's complement *)
Definition setBits (t : ityp) (bits bitfield : Z) : Z := convert t (Z.lor (convert int bitfield) bits).
(* BitfieldHelper.h:48-52 *)
Definition clearBits (t : ityp) (bits bitfield : Z) : Z := convert t (Z.land (convert int bitfield) (Z.lnot bits)).
(* BitfieldHelper.h:57-61 *)
Definition isBitSet (t : ityp) (bit bitfield : Z) : bool := negb (Z.land bitfield (convert t bit) =? 0).

(* ---- Finalizable.h ---- *)
Section Finalizable.
  Context {T : Type}.
  (* Finalizable.h:105-107 *)
  Record finalizable := Fin { m_value : T; m_final : bool }.
  (* Finalizable.h:45-48 *)
  Definition fconstruct (v : T) : finalizable := Fin v false.
  (* Finalizable.h:53-56 *)
  Definition fcopy (o : finalizable) : finalizable := o.
  (* Finalizable.h:59-84: the object afterwards and whether std::logic_error was thrown *)
  Definition fassign (x : finalizable) (v : T) : finalizable * result unit :=
    if negb (m_final x) then (Fin v (m_final x), Ok tt) else (x, Throw).
  Definition fassign_obj (x o : finalizable) : finalizable * result unit :=
    if negb (m_final x) then (Fin (m_value o) (m_final x), Ok tt) else (x, Throw).
  (* Finalizable.h:93 *)
  Definition ffinalize (x : finalizable) : finalizable := Fin (m_value x) true.

  Inductive fop := FAssign (v : T) | FAssignObj (o : finalizable) | FFinalize.
  Definition fstep (x : finalizable) (o : fop) : finalizable * result unit :=
    match o with
    | FAssign v => fassign x v
    | FAssignObj o => fassign_obj x o
    | FFinalize => (ffinalize x, Ok tt)
    end.
  Definition frun (x : finalizable) (l : list fop) : finalizable := fold_left (fun x o => fst (fstep x o)) l x.
End Finalizable.
Arguments finalizable : clear implicits.
Arguments fop : clear implicits.

(* ---- SearchableStack.h ---- *)
Section Stack.
  Context {T : Type} (comp : T -> T -> bool).
  (* a stack is its vector; SearchableStack.h:58-71 *)
  Definition push (s : list T) (t : T) : list T := s ++ [t].
  Definition pop (s : list T) : result (list T) := match s with [] => UB | _ => Ok (removelast s) end.
  Definition top (s : list T) : result T := match rev s with [] => UB | t :: _ => Ok t end.
  (* SearchableStack.h:83-90: index of the element found; size() = end() *)
  Fixpoint sfind (s : list T) (t : T) : nat :=
    match s with [] => 0 | x :: r => if comp x t then 0 else S (sfind r t) end%nat.
End Stack.
