(* Model of src/icl_core/src/icl_core/KeyValueDirectory.hpp.  The regular expression of a query is an arbitrary
   predicate on keys (boost::regex_match: the whole key matches); with the groups of a match (at the end of the file)
   an arbitrary partial function from keys to the texts of the groups, group 0 first. *)
From Verif Require Import Base Text SMap.

Section KVD.
  Context {T : Type}.
  (* KeyValueDirectory.h:109-110 *)
  Definition directory : Type := list (str * T).

  (* KeyValueDirectory.hpp:40-53: returned flag and the referenced value afterwards *)
  Definition get (d : directory) (key : str) (value : T) : bool * T :=
    match map_get d key with Some v => (true, v) | None => (false, value) end.
  (* KeyValueDirectory.hpp:55-60 *)
  Definition hasKey (d : directory) (key : str) : bool :=
    match map_get d key with Some _ => true | None => false end.
  (* KeyValueDirectory.hpp:62-68: find_it is taken before the assignment; map iterators stay valid and end() does not move *)
  Definition insert (d : directory) (key : str) (value : T) : bool * directory :=
    let find_it := map_get d key in
    (match find_it with None => true | Some _ => false end, map_put d key value).

  (* KeyValueDirectory.h:198-205.  An iterator into the map is the key it points to, None = end();
     before the first next() it points nowhere. *)
  Record iter := It { m_reset : bool; m_current_entry : option (option str) }.

  (* KeyValueDirectory.hpp:70-77, 125-129 *)
  Definition find : iter := It true None.
  Definition reset (i : iter) : iter := It true (m_current_entry i).

  (* ++ on a map iterator: the entry behind key k *)
  Fixpoint entries_after (d : directory) (k : str) : directory :=
    match d with
    | [] => []
    | (k', v) :: r => if str_lt k k' then d else entries_after r k
    end.
  (* KeyValueDirectory.hpp:115-119 on the entries from m_current_entry on *)
  Fixpoint skip_mismatches (matches : str -> bool) (d : directory) : option str :=
    match d with
    | [] => None
    | (k, _) :: r => if matches k then Some k else skip_mismatches matches r
    end.
  (* KeyValueDirectory.hpp:98-123; incrementing end() or an unset iterator is UB *)
  Definition next (matches : str -> bool) (d : directory) (i : iter) : result (bool * iter) :=
    bind (if m_reset i then Ok d
          else match m_current_entry i with
               | Some (Some k) => Ok (entries_after d k)
               | _ => UB
               end) (fun rest =>
    let e := skip_mismatches matches rest in
    Ok (match e with Some _ => true | None => false end, It false (Some e))).
  (* KeyValueDirectory.hpp:79-83, 131-135 *)
  Definition key (i : iter) : result str :=
    match m_current_entry i with Some (Some k) => Ok k | _ => UB end.
  Definition value (d : directory) (i : iter) : result T :=
    match m_current_entry i with
    | Some (Some k) => match map_get d k with Some v => Ok v | None => UB end
    | _ => UB
    end.

  (* a client's history of inserts *)
  Fixpoint after (l : list (str * T)) : directory :=
    match l with [] => [] | (k, v) :: r => snd (insert (after r) k v) end. (* latest insert first *)

  (* while (it.next()) visit(it.key(), it.value()); with at most n successful rounds *)
  Fixpoint visit (matches : str -> bool) (d : directory) (n : nat) (i : iter) : result (list (str * T)) :=
    bind (next matches d i) (fun bi =>
    if fst bi then
      match n with
      | O => Throw (* not finished *)
      | S n' => bind (key (snd bi)) (fun k => bind (value d (snd bi)) (fun v =>
                bind (visit matches d n' (snd bi)) (fun l => Ok ((k, v) :: l))))
      end
    else Ok []).

  (* ---- the groups of the current match ---- *)
  (* KeyValueDirectory.h:198-205 with m_current_results: the texts of the groups (an unmatched group is the empty text),
     None after a failed regex_match, whose effect on the results boost leaves undefined *)
  Record giter := GI { g_iter : iter; m_current_results : option (list str) }.
  (* KeyValueDirectory.hpp:70-77, 125-129: the results start empty, and reset() leaves them alone *)
  Definition gfind : giter := GI find (Some []).
  Definition greset (i : giter) : giter := GI (reset (g_iter i)) (m_current_results i).
  (* KeyValueDirectory.hpp:115-119 *)
  Fixpoint gskip (rx : str -> option (list str)) (d : directory) (res : option (list str)) : option str * option (list str) :=
    match d with
    | [] => (None, res)
    | (k, _) :: r => match rx k with Some g => (Some k, Some g) | None => gskip rx r None end
    end.
  (* KeyValueDirectory.hpp:98-123 *)
  Definition gnext (rx : str -> option (list str)) (d : directory) (i : giter) : result (bool * giter) :=
    bind (if m_reset (g_iter i) then Ok d
          else match m_current_entry (g_iter i) with
               | Some (Some k) => Ok (entries_after d k)
               | _ => UB
               end) (fun rest =>
    let (e, res) := gskip rx rest (m_current_results i) in
    Ok (match e with Some _ => true | None => false end, GI (It false (Some e)) res)).
  (* KeyValueDirectory.hpp:85-96 *)
  Definition matchGroup (i : giter) (index : nat) : result str :=
    match m_current_results i with
    | None => UB
    | Some g => if (index <? length g)%nat then vec_get g index else Ok []
    end.
End KVD.
Arguments directory : clear implicits.
