(* Specification: an ideal bounded FIFO queue.  Only the names of operations and outputs are
   taken from the model. *)
From Verif Require Import Base RingBufferModel.

Section Spec.
Context {T : Type}.

Record queue := Q { q_cap : nat; q_items : list T (* oldest first *) }.

(* [spec_step q o q' out]: performing o on queue q may yield queue q' and output out. *)
Inductive spec_step : queue -> op T -> queue -> out T -> Prop :=
| S_write_room c l v ow : length l < c -> spec_step (Q c l) (Write v ow) (Q c (l ++ [v])) RUnit
| S_write_overwrite c x l v : length (x :: l) = c ->
    spec_step (Q c (x :: l)) (Write v true) (Q c (l ++ [v])) RUnit
| S_write_full c l v : length l = c -> spec_step (Q c l) (Write v false) (Q c l) RThrow
| S_write_cap0 v ow : spec_step (Q 0 []) (Write v ow) (Q 0 []) RThrow
| S_read c x l : spec_step (Q c (x :: l)) Read (Q c l) (RVal x)
| S_read_empty c : spec_step (Q c []) Read (Q c []) RThrow
| S_skip c x l : spec_step (Q c (x :: l)) Skip (Q c l) RUnit
| S_skip_empty c : spec_step (Q c []) Skip (Q c []) RThrow
| S_skipn c l n : spec_step (Q c l) (SkipN n) (Q c (skipn n l)) RUnit
| S_clear c l : spec_step (Q c l) Clear (Q c []) RUnit
  (* keep the newest min(c', length l) elements *)
| S_setcap c l c' : spec_step (Q c l) (SetCapacity c') (Q c' (skipn (length l - c') l)) RUnit
  (* appends unspecified elements *)
| S_fakewrite c l n xs : length xs = Nat.min n (c - length l) ->
    spec_step (Q c l) (FakeWrite n) (Q c (l ++ xs)) RUnit
| S_fill c l xs : spec_step (Q c l) (Fill xs) (Q c (l ++ firstn (c - length l) xs)) RUnit
| S_size c l : spec_step (Q c l) Size (Q c l) (RNat (length l))
| S_reserve c l : spec_step (Q c l) Reserve (Q c l) (RNat (c - length l))
| S_capacity c l : spec_step (Q c l) Capacity (Q c l) (RNat c)
| S_empty c l : spec_step (Q c l) Empty (Q c l) (RBool (length l =? 0))
| S_full c l : spec_step (Q c l) Full (Q c l) (RBool (length l =? c))
| S_at c l i x : nth_error l i = Some x -> spec_step (Q c l) (At i) (Q c l) (RVal x)
| S_at_out c l i : length l <= i -> spec_step (Q c l) (At i) (Q c l) RThrow
| S_assign c l i v : i < length l ->
    spec_step (Q c l) (AtAssign i v) (Q c (firstn i l ++ v :: skipn (S i) l)) RUnit
| S_assign_out c l i v : length l <= i -> spec_step (Q c l) (AtAssign i v) (Q c l) RThrow
| S_front c x l : spec_step (Q c (x :: l)) Front (Q c (x :: l)) (RVal x)
| S_front_empty c : spec_step (Q c []) Front (Q c []) RThrow
| S_traverse c l base : spec_step (Q c l) (Traverse base) (Q c l) (RVals l)
| S_arrays c l : spec_step (Q c l) Arrays (Q c l) (RVals l).

Inductive spec_run : queue -> list (op T) -> list (out T) -> queue -> Prop :=
| R_nil q : spec_run q [] [] q
| R_cons q o ops q1 x q2 xs :
    spec_step q o q1 x -> spec_run q1 ops xs q2 -> spec_run q (o :: ops) (x :: xs) q2.

End Spec.
Arguments queue T : clear implicits.

(* States a client can produce: construct with some capacity, then any operations. *)
Definition reachable {T} (d : T) (b : rb T) : Prop :=
  exists c ops, b = fst (run d (construct d c) ops).

(* What the client sees: size() and at(i) for each i. *)
Definition contents {T} (b : rb T) (l : list T) : Prop :=
  size b = length l /\ forall i x, nth_error l i = Some x -> at_ b i = Ok x.

(* cell k lies in the range [r = (start, length)] *)
Definition in_range (k : nat) (r : nat * nat) : Prop := fst r <= k < fst r + snd r.
