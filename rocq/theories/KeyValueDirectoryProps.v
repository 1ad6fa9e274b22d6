(* C24, C25 *)
From Verif Require Import Base BaseLemmas Text SMap KeyValueDirectoryModel KeyValueDirectorySpec KeyValueDirectoryProofs.

(* C24: after any history of inserts *)
Theorem C24_directory_is_a_map :
  forall T (h : list (str * T)) k (out : T),
  get (after h) k out = match latest h k with Some v => (true, v) | None => (false, out) end /\
  hasKey (after h) k = (match latest h k with Some _ => true | None => false end) /\
  (fst (insert (after h) k out) = true <-> latest h k = None) /\
  (latest h k = None <-> forall v, ~ In (k, v) h).
Proof. exact C24_directory_is_a_map_proof. Qed.
Print Assumptions C24_directory_is_a_map.

Example C24_nonvacuous :
  let h := [($"b", 3); ($"a", 2); ($"b", 1)] in
  get (after h) ($"b") 0 = (true, 3) /\ get (after h) ($"c") 9 = (false, 9) /\ fst (insert (after h) ($"a") 5) = false.
Proof. vm_compute. auto. Qed.

Theorem C25_next_is_the_next_matching_key :
  forall T (h : list (str * T)) matches i,
  (m_reset i = true \/ exists c, m_current_entry i = Some (Some c)) ->
  exists b i', next matches (after h) i = Ok (b, i') /\ m_reset i' = false /\
  if b then exists k v, key i' = Ok k /\ value (after h) i' = Ok v /\ latest h k = Some v /\ matches k = true /\ behind i k /\
            (forall k', latest h k' <> None -> matches k' = true -> behind i k' -> k' = k \/ str_lt k k' = true)
  else m_current_entry i' = Some None /\ forall k', latest h k' <> None -> matches k' = true -> ~ behind i k'.
Proof. exact C25_next_is_the_next_matching_key_proof. Qed.
Print Assumptions C25_next_is_the_next_matching_key.

Theorem C25_query_enumerates_matches :
  forall T (h : list (str * T)) matches i n, m_reset i = true -> length h <= n ->
  exists l, visit matches (after h) n i = Ok l /\ sorted l /\
  forall k v, In (k, v) l <-> latest h k = Some v /\ matches k = true.
Proof. exact C25_query_enumerates_matches_proof. Qed.
Print Assumptions C25_query_enumerates_matches.

Example C25_nonvacuous :
  let h := [($"b", 3); ($"c", 4); ($"a", 2); ($"b", 1)] in
  visit (fun k => negb (is_digit (hd zero k))) (after h) 4 find = Ok [($"a", 2); ($"b", 3); ($"c", 4)].
Proof. vm_compute. auto. Qed.

(* next() once more after it returned false increments end(): undefined *)
Theorem C25_next_after_the_end_is_UB :
  forall T (d : directory T) matches i i', next matches d i = Ok (false, i') -> next matches d i' = UB.
Proof. exact C25_next_after_the_end_is_UB_proof. Qed.
Print Assumptions C25_next_after_the_end_is_UB.

(* reset(): wherever the iterator stands (also at the end), the whole enumeration follows once more *)
Theorem C25_reset_starts_over :
  forall T (h : list (str * T)) matches i n, length h <= n ->
  visit matches (after h) n (reset i) = visit matches (after h) n find /\
  exists l, visit matches (after h) n (reset i) = Ok l /\ sorted l /\
  forall k v, In (k, v) l <-> latest h k = Some v /\ matches k = true.
Proof.
  intros T h matches i n L. split; [destruct n; reflexivity|]. exact (C25_query_enumerates_matches_proof T h matches (reset i) n eq_refl L).
Qed.
Print Assumptions C25_reset_starts_over.

(* asking for the key or the value before the first next() or at the end is undefined *)
Theorem C25_nothing_to_read_is_UB :
  forall T (d : directory T) matches i i', next matches d i = Ok (false, i') ->
  key i' = UB /\ value d i' = UB /\ key find = UB /\ value d find = UB.
Proof.
  intros T d matches i i' E. unfold next in E. destruct (if m_reset i then Ok d else _) as [rest| |]; try discriminate E. cbn [bind] in E.
  injection E as E <-. destruct (skip_mismatches matches rest); [discriminate|]. repeat split.
Qed.
Print Assumptions C25_nothing_to_read_is_UB.

(* a query that also says what its groups matched visits the same entries, and after each successful step the groups are those of
   the key just reached; a group the expression does not have is the empty text *)
Theorem C25_match_groups :
  forall T rx (d : directory T) i,
  let matches := fun k => match rx k with Some _ => true | None => false end in
  (forall b j, gnext rx d i = Ok (b, j) -> next matches d (g_iter i) = Ok (b, g_iter j)) /\
  (forall b j, next matches d (g_iter i) = Ok (b, j) -> exists i', gnext rx d i = Ok (b, i') /\ g_iter i' = j) /\
  (forall j, gnext rx d i = Ok (true, j) -> exists k g, key (g_iter j) = Ok k /\ rx k = Some g /\ forall n, matchGroup j n = Ok (nth n g [])).
Proof.
  intros T rx d i. cbv zeta. destruct (gnext_next rx d i) as (A & B & C0). split; [exact A|]. split; [exact B|].
  intros j H. destruct (C0 j H) as (k & g & K & R & M). exists k, g. split; [exact K|]. split; [exact R|].
  intros n. unfold matchGroup. rewrite M. destruct (Nat.ltb_spec n (length g)) as [L|L].
  - apply vec_get_Ok. rewrite (nth_error_nth' g [] L). reflexivity.
  - rewrite nth_overflow by exact L. reflexivity.
Qed.
Print Assumptions C25_match_groups.
(* before the first step there are no groups; reset() starts over and does not clear those of the last match *)
Theorem C25_match_groups_before_the_first :
  m_reset (g_iter gfind) = true /\ (forall i, m_reset (g_iter (greset i)) = true) /\
  forall n, matchGroup gfind n = Ok [] /\ forall i, matchGroup (greset i) n = matchGroup i n.
Proof. split; [reflexivity|]. split; [reflexivity|]. intros n. split; [unfold matchGroup; cbn; destruct (n <? 0)%nat eqn:E; [apply Nat.ltb_lt in E; lia|reflexivity]|reflexivity]. Qed.
Print Assumptions C25_match_groups_before_the_first.
(* at the end the groups are those of the last match only if it was the last entry; otherwise they are undefined *)
Theorem C25_match_groups_at_the_end_refuted :
  ~ (forall T rx (d : directory T) i j, gnext rx d i = Ok (false, j) -> matchGroup j 0 = Ok []).
Proof.
  intros H. specialize (H nat (fun k => Some [k]) [($"a", 1)] (GI (It false (Some (Some ($"a")))) (Some [$"a"])) _ eq_refl). vm_compute in H. discriminate H.
Qed.
Print Assumptions C25_match_groups_at_the_end_refuted.

(* an expression of two groups around a slash, the first of one character, on three keys *)
Definition slash (k : str) : option (list str) :=
  match k with c :: d :: r => if Ascii.eqb d "/" then Some [k; [c]; r] else None | _ => None end.
Example C25_groups_nonvacuous :
  let d := after [($"x/1", 1); ($"zz", 2); ($"a/22", 3)] in
  match gnext slash d gfind with
  | Ok (true, i) => (matchGroup i 0, matchGroup i 1, matchGroup i 2, matchGroup i 3) = (Ok ($"a/22"), Ok ($"a"), Ok ($"22"), Ok []) /\
      match gnext slash d i with
      | Ok (true, j) => matchGroup j 2 = Ok ($"1") /\ match gnext slash d j with Ok (false, e) => matchGroup e 0 = UB | _ => False end
      | _ => False
      end
  | _ => False
  end.
Proof. vm_compute. auto. Qed.
