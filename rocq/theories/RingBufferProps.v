(* C01-C05 *)
From Verif Require Import Base RingBufferModel RingBufferSpec RingBufferProofs.

(* C01: all outputs of any operation sequence are those of an ideal bounded FIFO queue. *)
Theorem C01_ringbuffer_refines_queue :
  forall (T : Type) (d : T) (c : nat) (ops : list (op T)),
  exists q', spec_run (Q c []) ops (snd (run d (construct d c) ops)) q'.
Proof. exact @C01_lemma. Qed.
Print Assumptions C01_ringbuffer_refines_queue.

(* The specification leaves no freedom except the values exposed by fakeWrite. *)
Theorem C01_spec_deterministic :
  forall (T : Type) (q q1 q2 : queue T) o x1 x2,
  (forall n, o <> FakeWrite n) -> length (q_items q) <= q_cap q ->
  spec_step q o q1 x1 -> spec_step q o q2 x2 -> q1 = q2 /\ x1 = x2.
Proof. exact @spec_step_det. Qed.
Print Assumptions C01_spec_deterministic.

Example C01_nonvacuous :
  snd (run 0 (construct 0 2) [Write 1 false; Write 2 false; Write 3 true; Traverse 5000; Read; Fill [7; 8]; Arrays; Write 9 false; Full])
  = [RUnit; RUnit; RUnit; RVals [2; 3]; RVal 2; RUnit; RVals [3; 7]; RThrow; RBool true].
Proof. vm_compute. reflexivity. Qed.

(* C02 *)
Theorem C02_write_and_overwrite :
  forall (T : Type) (d : T) b l v, reachable d b -> contents b l ->
  (length l < capacity b -> forall ow, exists b', write b v ow = Ok b' /\
     contents b' (l ++ [v]) /\ capacity b' = capacity b) /\
  (length l = capacity b -> write b v false = Throw) /\
  (forall x r, l = x :: r -> length l = capacity b -> exists b', write b v true = Ok b' /\
     contents b' (r ++ [v]) /\ capacity b' = capacity b) /\
  (capacity b = 0 -> forall ow, write b v ow = Throw).
Proof. exact @C02_lemma. Qed.
Print Assumptions C02_write_and_overwrite.

(* C03 *)
(* wherever the buffer lies in memory *)
Theorem C03_iterators :
  forall (T : Type) (d : T) base b l, reachable d b -> contents b l ->
  it_collect base b (begin_ base b) (end_ base b) (bsize b) = Some (Ok l) /\
  it_diff (end_ base b) (begin_ base b) = Z.of_nat (length l) /\
  it_eq (it_add (begin_ base b) (Z.of_nat (length l))) (end_ base b) = true /\
  (forall i, i < length l -> it_deref base b (it_add (begin_ base b) (Z.of_nat i)) = at_ b i) /\
  (forall i j, i <= length l -> j <= length l ->
     it_diff (it_add (begin_ base b) (Z.of_nat i)) (it_add (begin_ base b) (Z.of_nat j)) = (Z.of_nat i - Z.of_nat j)%Z /\
     it_eq (it_add (begin_ base b) (Z.of_nat i)) (it_add (begin_ base b) (Z.of_nat j)) = (i =? j) /\
     it_add (it_add (begin_ base b) (Z.of_nat i)) (Z.of_nat j - Z.of_nat i) = it_add (begin_ base b) (Z.of_nat j) /\
     it_sub (it_add (begin_ base b) (Z.of_nat i)) (Z.of_nat i - Z.of_nat j) = it_add (begin_ base b) (Z.of_nat j)) /\
  (forall i, i < length l -> it_incr (it_add (begin_ base b) (Z.of_nat i)) = it_add (begin_ base b) (Z.of_nat (S i)) /\
     it_decr (it_add (begin_ base b) (Z.of_nat (S i))) = it_add (begin_ base b) (Z.of_nat i)).
Proof. exact @C03_lemma. Qed.
Print Assumptions C03_iterators.

(* C04 *)
Theorem C04_raw_ranges :
  forall (T : Type) (d : T) b l, reachable d b -> contents b l ->
  (exists l1 l2, client_read b (arrayOne b) = Ok l1 /\ client_read b (arrayTwo b) = Ok l2 /\ l = l1 ++ l2) /\
  snd (emptyArrayOne b) + snd (emptyArrayTwo b) = reserve b /\
  (forall k, in_range k (emptyArrayOne b) \/ in_range k (emptyArrayTwo b) ->
     k < bsize b /\ ~ in_range k (arrayOne b) /\ ~ in_range k (arrayTwo b)) /\
  (forall k, ~ (in_range k (emptyArrayOne b) /\ in_range k (emptyArrayTwo b))) /\
  (forall xs, length xs <= reserve b -> exists b', client_fill b xs = Ok b' /\
     contents b' (l ++ xs) /\ capacity b' = capacity b).
Proof. exact @C04_lemma. Qed.
Print Assumptions C04_raw_ranges.

(* C05 *)
Theorem C05_setCapacity_keeps_newest :
  forall (T : Type) (d : T) b l c, reachable d b -> contents b l ->
  exists b', setCapacity d b c = Ok b' /\ capacity b' = c /\
    exists dropped kept, l = dropped ++ kept /\ length kept = Nat.min c (length l) /\ contents b' kept.
Proof. exact @C05_lemma. Qed.
Print Assumptions C05_setCapacity_keeps_newest.

(* Every reachable state has contents, and a wrapped-around one exists. *)
Theorem reachable_has_contents : forall (T : Type) (d : T) b, reachable d b -> exists l, contents b l.
Proof. exact @reachable_contents. Qed.
Print Assumptions reachable_has_contents.

Definition wrapped : rb nat :=
  fst (run 0 (construct 0 3) [Write 1 false; Write 2 false; Write 3 false; Read; Read; Write 4 false; Write 5 false]).
Example C02_C05_nonvacuous :
  reachable 0 wrapped /\ contents wrapped [3; 4; 5] /\ m_write wrapped < m_read wrapped /\ capacity wrapped = 3.
Proof.
  split; [|split; [|split]].
  - eexists _, _; reflexivity.
  - split; [reflexivity|]. intros [|[|[|i]]] x H; cbn in H; try (injection H as <-; reflexivity). destruct i; discriminate.
  - vm_compute. lia.
  - reflexivity.
Qed.
