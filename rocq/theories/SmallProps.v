(* C27 ZBuffer, C28 Array2D, C29 bit fields, C30 Finalizable, C43 SearchableStack *)
From Verif Require Import Base BaseLemmas CInt SmallModel SmallSpec SmallProofs.
Local Open Scope Z_scope.

(* C27 *)
Theorem C27_cells_hold_the_least_value :
  forall T (cmp : T -> T -> bool) size h, strict_weak cmp -> Forall (fun x => (fst x < size)%nat) h ->
  exists b, updates cmp (zbuffer size) h = Ok b /\
  forall p, (p < size)%nat -> exists c, zat b p = Ok c /\
    match c with None => written h p = [] | Some v => first_least cmp (written h p) v end.
Proof. exact C27_cells_hold_the_least_value_proof. Qed.
Print Assumptions C27_cells_hold_the_least_value.

(* update returns true exactly if it stored the value; no other cell changes *)
Theorem C27_update_reports_and_is_local :
  forall T (cmp : T -> T -> bool) b p (v : T), (p < length b)%nat ->
  exists s b', update cmp b p v = Ok (s, b') /\ length b' = length b /\
  (s = true -> nth_error b' p = Some (Some v)) /\ (s = false -> b' = b) /\
  (s = true <-> forall w, nth_error b p = Some (Some w) -> cmp v w = true) /\
  (forall q, q <> p -> nth_error b' q = nth_error b q).
Proof. exact C27_update_reports_and_is_local_proof. Qed.
Print Assumptions C27_update_reports_and_is_local.

Example C27_nonvacuous :
  strict_weak Nat.ltb /\
  updates Nat.ltb (zbuffer 3) [(0, 5); (1, 4); (0, 3); (0, 9); (1, 4)]%nat = Ok [Some 3; Some 4; None]%nat.
Proof. split; [|reflexivity]. unfold strict_weak. repeat split; intros; rewrite ?Nat.ltb_lt, ?Nat.ltb_ge in *; lia. Qed.

Theorem C28_index_is_a_bijection :
  forall T (a : array T), sized a ->
  (forall c r, cell a c r -> 0 <= index1D a c r < asize a /\ indexTo2D a (index1D a c r) = Ok (c, r)) /\
  (forall i, 0 <= i < asize a -> exists c r, indexTo2D a i = Ok (c, r) /\ cell a c r /\ index1D a c r = i).
Proof. exact C28_index_is_a_bijection_proof. Qed.
Print Assumptions C28_index_is_a_bijection.

(* a write changes that cell and no other; every cell can be read and written *)
Theorem C28_write_changes_one_cell :
  forall T (a : array T) c r v, sized a -> cell a c r ->
  exists a', write2 a c r v = Ok a' /\ sized a' /\ m_width a' = m_width a /\ m_height a' = m_height a /\
  forall c' r', cell a c' r' -> exists w, at2 a c' r' = Ok w /\ at2 a' c' r' = Ok (if (c' =? c) && (r' =? r) then v else w).
Proof. exact C28_write_changes_one_cell_proof. Qed.
Print Assumptions C28_write_changes_one_cell.

(* construct, assign and set give a properly sized array with the value in every cell *)
Theorem C28_fill :
  forall T (a : array T) w h v, 0 <= w < 2 ^ 64 -> 0 <= h < 2 ^ 64 -> w * h < 2 ^ 64 ->
  (forall b, b = construct w h v \/ b = assign a w h v ->
     sized b /\ m_width b = w /\ m_height b = h /\ forall c r, cell b c r -> at2 b c r = Ok v) /\
  (sized a -> sized (set a v) /\ m_width (set a v) = m_width a /\ m_height (set a v) = m_height a /\
     forall c r, cell (set a v) c r -> at2 (set a v) c r = Ok v) /\
  sized (resize a w h v).
Proof. exact C28_fill_proof. Qed.
Print Assumptions C28_fill.

(* resize keeps the linear contents, not the cells: cell (0,1) of a 2x2 array moves when it is widened *)
Theorem C28_resize_does_not_keep_cells :
  exists (a : array nat), sized a /\ at2 a 0 1 = Ok 3%nat /\ at2 (resize a 3 2 0%nat) 0 1 = Ok 4%nat.
Proof. exact C28_resize_does_not_keep_cells_proof. Qed.
Print Assumptions C28_resize_does_not_keep_cells.

Example C28_nonvacuous : sized (construct 3 2 0%nat) /\ cell (construct 3 2 0%nat) 2 1 /\ indexTo2D (construct 3 2 0%nat) 5 = Ok (2, 1).
Proof. vm_compute. intuition congruence. Qed.

(* C29 for every type T of at most 32 bits: each bit of the result *)
Theorem C29_bits :
  forall t bits x n, 0 < iwidth t <= 32 -> 0 <= n < iwidth t ->
  Z.testbit (setBits t bits x) n = Z.testbit x n || Z.testbit bits n /\
  Z.testbit (clearBits t bits x) n = Z.testbit x n && negb (Z.testbit bits n) /\
  convert t (setBits t bits x) = setBits t bits x /\ convert t (clearBits t bits x) = clearBits t bits x.
Proof. exact C29_bits_proof. Qed.
Print Assumptions C29_bits.

(* isBitSet: some bit of the mask is on *)
Theorem C29_isBitSet :
  forall t bit x, 0 < iwidth t <= 32 -> in_range t x ->
  (isBitSet t bit x = true <-> exists n, 0 <= n < iwidth t /\ Z.testbit x n = true /\ Z.testbit bit n = true).
Proof. exact C29_isBitSet_proof. Qed.
Print Assumptions C29_isBitSet.

(* With a 64-bit type the field is squeezed through int: bits 32..63 are overwritten by bit 31. *)
Theorem C29_64bit_refuted :
  let t := IT false 64 in
  setBits t 1 (2 ^ 40) = 1 /\ setBits t 1 (2 ^ 31) = 2 ^ 64 - 2 ^ 31 + 1 /\ clearBits t 1 (2 ^ 40 + 1) = 0.
Proof. vm_compute. auto. Qed.
Print Assumptions C29_64bit_refuted.

Example C29_nonvacuous :
  setBits (IT false 8) 6 129 = 135 /\ clearBits (IT false 32) 5 (2 ^ 31 + 7) = 2 ^ 31 + 2 /\
  isBitSet (IT true 16) 4 (-1) = true /\ isBitSet (IT false 8) 4 3 = false /\ in_range (IT true 16) (-1).
Proof. vm_compute. auto. Qed.

(* after finalize() no history of calls changes value or flag, and every assignment throws;
   before it every assignment succeeds, takes over the value and never the flag *)
Theorem C30_final_is_for_ever :
  forall T (x : finalizable T) before after,
  let y := ffinalize (frun x before) in
  frun y after = y /\ m_value y = m_value (frun x before) /\ m_final y = true /\
  (forall v, fassign (frun y after) v = (y, Throw)) /\ (forall o, fassign_obj (frun y after) o = (y, Throw)) /\
  fcopy (frun y after) = y.
Proof. exact C30_final_is_for_ever_proof. Qed.
Print Assumptions C30_final_is_for_ever.

Theorem C30_assignable_until_final :
  forall T (v0 : T) (ops : list (fop T)), ~ In FFinalize ops ->
  let x := frun (fconstruct v0) ops in
  m_final x = false /\
  (forall v, fassign x v = (Fin v false, Ok tt)) /\ (forall o, fassign_obj x o = (Fin (m_value o) false, Ok tt)).
Proof. exact C30_assignable_until_final_proof. Qed.
Print Assumptions C30_assignable_until_final.

Example C30_nonvacuous :
  frun (fconstruct 1%nat) [FAssign 2%nat; FAssignObj (Fin 3%nat true); FFinalize; FAssign 4%nat] = Fin 3%nat true.
Proof. reflexivity. Qed.

(* ---- C43 ---- *)
Theorem C43_stack_is_lifo :
  forall T (s : list T) t, pop (push s t) = Ok s /\ top (push s t) = Ok t /\ length (push s t) = S (length s) /\
  (s <> [] -> exists s' u, pop s = Ok s' /\ top s = Ok u /\ push s' u = s).
Proof. exact C43_stack_is_lifo_proof. Qed.
Print Assumptions C43_stack_is_lifo.

(* find returns the lowest position holding a match, end() (= size) exactly if there is none *)
Theorem C43_find_is_the_lowest_match :
  forall T (comp : T -> T -> bool) s t, let i := sfind comp s t in
  (i <= length s)%nat /\ (forall j x, (j < i)%nat -> nth_error s j = Some x -> comp x t = false) /\
  (forall x, nth_error s i = Some x -> comp x t = true) /\
  (i = length s <-> forall x, In x s -> comp x t = false).
Proof. exact C43_find_is_the_lowest_match_proof. Qed.
Print Assumptions C43_find_is_the_lowest_match.

Example C43_nonvacuous : sfind Nat.eqb [3; 5; 5; 7]%nat 5%nat = 1%nat /\ sfind Nat.eqb [3; 5]%nat 9%nat = 2%nat.
Proof. auto. Qed.
