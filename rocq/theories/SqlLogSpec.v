(* Specification of log databases (C61). *)
From Verif Require Import Base Text SMap IsoModel IsoSpec SqlLogModel.
Local Open Scope Z_scope.

(* a row, and the time when its line was logged *)
Definition entry := (Z * row)%type.
Definition day_number_of (t : Z) : Z := t / (24 * 60 * 60).

(* FILENAME.YYYY-MM-DD *)
Definition archive (c : config) (d : Z) : str :=
  let x := Nat.iter (Z.to_nat d) next_day (D 1970 1 1) in
  db_filename c ++ $"." ++ digits 4 (year x) ++ $"-" ++ digits 2 (month x) ++ $"-" ++ digits 2 (day x).

Definition files (m : machine) : fsys := match m with Running w => fs w | Halted f _ => f | Wrong => [] end.
Fixpoint ascending (l : list Z) : Prop := match l with [] => True | d :: r => (forall d', In d' r -> d < d') /\ ascending r end.

(* all the rows, in their order, are in the archives of ascending days and then in the database itself; an archive holds
   only rows of the days before its own *)
Definition kept (c : config) (all : list entry) (m : machine) : Prop :=
  exists (groups : list (Z * list entry)) (current : list entry),
    concat (map snd groups) ++ current = all /\
    ascending (map fst groups) /\
    (rotate c = false -> groups = []) /\
    (forall d es, In (d, es) groups ->
       map_get (files m) (archive c d) = Some (map snd es) /\ forall t r, In (t, r) es -> day_number_of t < d) /\
    (map_get (files m) (db_filename c) = Some (map snd current) \/ map_get (files m) (db_filename c) = None /\ current = []).

(* ---- histories ---- *)
(* the times of the calls do not decrease, the two readings of one call are of the same day; up to the year 9999 *)
Fixpoint timely (t : Z) (l : list call) : Prop :=
  match l with
  | [] => True
  | (Start t1, _) :: r => t <= t1 < 253402300800 /\ timely t1 r
  | (Push t1 t2 _, _) :: r => t <= t1 <= t2 /\ t2 < 253402300800 /\ day_number_of t1 = day_number_of t2 /\ timely t2 r
  | (Stop, _) :: r => timely t r
  end.
(* an output is started, used and then stopped or killed, and so on *)
Fixpoint orderly (up : bool) (l : list call) : Prop :=
  match l with
  | [] => True
  | (e, crash) :: r =>
    up = match e with Start _ => false | _ => true end /\
    orderly (match e, crash with Stop, _ | _, Some _ => false | _, None => true end) r
  end.
(* the rows that were inserted *)
Fixpoint inserted (l : list call) (rs : list (option row)) : list entry :=
  match l, rs with
  | (Push t1 _ _, _) :: r, Some x :: rs' => (t1, x) :: inserted r rs'
  | _ :: r, _ :: rs' => inserted r rs'
  | _, _ => []
  end.
(* what is there before the first start counts as rows of time 0 *)
Definition before (c : config) (f : fsys) : list entry :=
  match map_get f (db_filename c) with Some rows => map (fun r => (0, r)) rows | None => [] end.

(* the row that a message should make *)
Definition int32 (z : Z) : Z := if z mod 2 ^ 32 <? 2 ^ 31 then z mod 2 ^ 32 else z mod 2 ^ 32 - 2 ^ 32.
Definition row_of (m : message) : row :=
  [Chars []; Chars (stamp m); Chars (log_stream m); Chars (log_level m); Chars (filename m); Int (int32 (line m));
   Chars (class_name m); Chars (object_name m); Chars (function_name m); Chars (message_text m)].
Definition message_of (e : call) : option message := match e with (Push _ _ m, None) => Some m | _ => None end.

(* the row is in no file *)
Definition lost (r : row) (f : fsys) : Prop := forall name rows, In (name, rows) f -> ~ In r rows.
