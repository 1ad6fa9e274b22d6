(* C16, C17 *)
From Verif Require Import Base SequenceNumberModel SequenceNumberSpec SequenceNumberProofs.
Local Open Scope Z_scope.

(* C16: k increments never leave [min,max), never overflow and count modulo max-min *)
Theorem C16_increments_count_modulo :
  forall p v k, sensible p -> proper p v ->
  exists v', nexts p k v = Ok v' /\ min_value p <= v' < max_value p /\
    v' = min_value p + (v - min_value p + Z.of_nat k) mod (max_value p - min_value p).
Proof. exact C16_lemma. Qed.
Print Assumptions C16_increments_count_modulo.

(* C16: the period is exactly max-min *)
Theorem C16_period :
  forall p v, sensible p -> proper p v ->
  nexts p (Z.to_nat (max_value p - min_value p)) v = Ok v /\
  forall k, (0 < k)%nat -> nexts p k v = Ok v -> max_value p - min_value p <= Z.of_nat k.
Proof. exact (fun p v S V => conj (C16_cycle p v S V) (fun k => C16_nonmin p v k S V)). Qed.
Print Assumptions C16_period.

Example C16_nonvacuous :
  sensible (P (B false 8) 255 3) /\ proper (P (B false 8) 255 3) 254 /\
  nexts (P (B false 8) 255 3) 2 254 = Ok 4 /\ post_next (P (B false 8) 255 3) 254 = Ok (254, 3).
Proof. vm_compute. intuition congruence. Qed.

(* C17: for min = 0 and even max, a < b exactly when b is 1 .. max/2-1 increments after a *)
Theorem C17_less_is_reachable_forward :
  forall p a b, sensible p -> min_value p = 0 -> Z.even (max_value p) = true -> proper p a -> proper p b ->
  exists r, lt p a b = Ok r /\
  (r = true <-> exists k, 1 <= Z.of_nat k < max_value p / 2 /\ nexts p k a = Ok b).
Proof. exact C17_even. Qed.
Print Assumptions C17_less_is_reachable_forward.

(* for odd max the bound differs by one depending on whether the wrap is crossed *)
Theorem C17_less_odd_range :
  forall p a b, sensible p -> min_value p = 0 -> Z.odd (max_value p) = true -> proper p a -> proper p b ->
  exists r, lt p a b = Ok r /\
  (r = true <-> exists k, 1 <= Z.of_nat k < max_value p / 2 + (if a <? b then 0 else 1) /\ nexts p k a = Ok b).
Proof. exact C17_odd. Qed.
Print Assumptions C17_less_odd_range.

Theorem C17_successor_is_greater :
  forall p a k b, sensible p -> min_value p = 0 -> Z.even (max_value p) = true -> proper p a ->
  1 <= Z.of_nat k < max_value p / 2 -> nexts p k a = Ok b ->
  lt p a b = Ok true /\ lt p b a = Ok false /\ gt p b a = Ok true.
Proof. exact C17_succ_lemma. Qed.
Print Assumptions C17_successor_is_greater.

(* the six operators: irreflexive, asymmetric, and total except at distance max/2, where both a>b and b>a *)
Theorem C17_operators :
  forall p a b, sensible p -> min_value p = 0 -> Z.even (max_value p) = true -> proper p a -> proper p b ->
  let half := (a - b) mod max_value p = max_value p / 2 in
  exists l l', lt p a b = Ok l /\ lt p b a = Ok l' /\
    gt p a b = Ok (ne a b && negb l) /\ le p a b = Ok (l || eq a b) /\ ge p a b = Ok (negb l) /\
    (a = b -> l = false) /\ (l = true -> l' = false) /\
    (a <> b -> l = false -> l' = false -> half) /\
    (half -> gt p a b = Ok true /\ gt p b a = Ok true) /\
    (a <> b -> ~ half -> l = negb l' /\ gt p b a = Ok l).
Proof. exact C17_ops_lemma. Qed.
Print Assumptions C17_operators.

Example C17_nonvacuous :
  lt (P (B false 32) 4294967294 0) 4294967293 5 = Ok true /\ lt (P (B false 8) 100 0) 0 50 = Ok false /\
  gt (P (B false 8) 100 0) 0 50 = Ok true /\ gt (P (B false 8) 100 0) 50 0 = Ok true /\
  lt (P (B true 8) 100 0) 99 0 = Ok true.
Proof. vm_compute. auto. Qed.

(* With min > 0 the comparison, which halves max instead of the range, is no serial order:
   with values 90..99 the wrap from 99 to 90 is not seen. *)
Theorem C17_positive_min_refuted :
  exists p a b, sensible p /\ proper p a /\ next p a = Ok b /\ lt p a b = Ok false /\ gt p a b = Ok true.
Proof. exists (P (B false 8) 100 90), 99, 90. vm_compute. intuition congruence. Qed.
Print Assumptions C17_positive_min_refuted.

(* C16: which instantiations are sensible: any range of a signed or unsigned integer type *)
Theorem C16_ranges :
  forall w mn mx, 8 <= w ->
  (sensible (P (B true w) mx mn) <-> - (2 ^ (w - 1)) <= mn /\ mn < mx /\ mx <= 2 ^ (w - 1) - 1) /\
  (sensible (P (B false w) mx mn) <-> 0 <= mn /\ mn < mx /\ mx <= 2 ^ w - 1).
Proof.
  intros w mn mx W. unfold sensible, representable, lowest, highest. cbn [tbase signed width min_value max_value].
  rewrite !andb_true_iff, !Z.leb_le. lia.
Qed.
Print Assumptions C16_ranges.

Example C16_signed_nonvacuous :
  sensible (P (B true 8) 127 (-128)) /\ nexts (P (B true 8) 127 (-128)) 2 126 = Ok (-127).
Proof. vm_compute. intuition congruence. Qed.

(* C16: a number beyond the range (the constructor takes any value of the type) is pulled back to min by the next increment, but
   not the largest value of the type: it becomes the smallest one (of a signed narrow type), 0 (unsigned), or the increment is
   undefined *)
Theorem C16_beyond_the_range :
  forall p v, sensible p -> max_value p <= v + 1 ->
  let top := if signed (tbase p) then 2 ^ (width (tbase p) - 1) - 1 else 2 ^ width (tbase p) - 1 in
  (v < top -> next p v = Ok (min_value p)) /\
  (v = top -> signed (tbase p) = true -> width (tbase p) < 32 -> next p v = Ok (- (2 ^ (width (tbase p) - 1)))) /\
  (v = top -> signed (tbase p) = true -> 32 <= width (tbase p) -> next p v = UB) /\
  (v = top -> signed (tbase p) = false -> next p v = Ok 0).
Proof. exact beyond_range. Qed.
Print Assumptions C16_beyond_the_range.

Example C16_beyond_nonvacuous :
  sensible (P (B true 8) 100 (-5)) /\ next (P (B true 8) 100 (-5)) 120 = Ok (-5) /\ next (P (B true 8) 100 (-5)) 127 = Ok (-128) /\
  next (P (B true 32) 100 (-5)) 2147483647 = UB /\ next (P (B false 8) 100 5) 255 = Ok 0.
Proof. vm_compute. intuition congruence. Qed.
