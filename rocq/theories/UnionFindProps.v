(* C06, C07 *)
From Verif Require Import Base UnionFindModel UnionFindSpec UnionFindProofs.

(* C06: after any history, find(x) == find(y) (evaluated one after the other) iff x and y are
   connected by the merges, and the representative belongs to the class. *)
Theorem C06_find_decides_equivalence :
  forall n ops x y, x < elements n ops -> y < elements n ops ->
  exists p1 rx p2 ry,
    find (after n ops) x = Found p1 rx /\
    find (UF p1 (m_rank (after n ops))) y = Found p2 ry /\
    (rx = ry <-> eqcl (merged n ops) x y) /\
    rx < elements n ops /\ eqcl (merged n ops) x rx.
Proof. exact C06_lemma. Qed.
Print Assumptions C06_find_decides_equivalence.

Theorem C06_size_and_out_of_range :
  forall n ops, size (after n ops) = elements n ops /\
  forall x y, elements n ops <= x \/ elements n ops <= y ->
    (elements n ops <= x -> find (after n ops) x = FThrow) /\
    merge (after n ops) x y = MThrow /\
    step (after n ops) (Merge x y) = after n ops.
Proof. exact (fun n ops => conj (C06_size n ops) (C06_throw n ops)). Qed.
Print Assumptions C06_size_and_out_of_range.

Example C06_nonvacuous :
  let h := [Merge 0 1; Merge 2 3; Grow 2; Merge 1 3; Find 4; Merge 9 0] in
  elements 4 h = 6 /\ merged 4 h 1 3 /\ find (after 4 h) 3 = Found [0; 0; 0; 0; 4; 5] 0.
Proof.
  cbn zeta. split; [reflexivity|]. split.
  - exists [Merge 0 1; Merge 2 3; Grow 2], [Find 4; Merge 9 0]. cbn. repeat split; lia.
  - vm_compute. reflexivity.
Qed.

(* C07: log2(n) nested recursive calls always suffice (so at most log2(n)+1 activations of find),
   and give the result of the unbounded recursion. *)
Theorem C07_find_depth_logarithmic :
  forall n ops x, x < elements n ops ->
  exists p r, find_rec (Nat.log2 (elements n ops)) (m_parent (after n ops)) x = Found p r /\
              find (after n ops) x = Found p r.
Proof. exact C07_lemma. Qed.
Print Assumptions C07_find_depth_logarithmic.

(* the bound is met: with 4 elements a chain of depth 2 occurs *)
Example C07_tight :
  let u := after 4 [Merge 0 1; Merge 2 3; Merge 1 3] in
  find_rec 1 (m_parent u) 3 = TooDeep /\ Nat.log2 4 = 2.
Proof. vm_compute. auto. Qed.
