(* What the performance monitor owes its users, from the calls made so far (newest first). *)
From Coq Require Import Floats.SpecFloat Permutation Sorted.
From Verif Require Import Base Text SMap PerfModel.
Local Open Scope Z_scope.

Definition past := list call.
Definition same (a b : str) : bool := if list_eq_dec ascii_dec a b then true else false.

(* ---- switches ---- *)
Fixpoint switched_on (h : past) : bool :=
  match h with [] => true | SetEnabled b :: _ => b | _ :: h => switched_on h end.
Fixpoint printing (h : past) : bool :=
  match h with [] => true | SetPrintStop b :: _ => b | _ :: h => printing h end.
Fixpoint all_on (h : past) : bool :=
  match h with [] => false | EnableAll b :: _ => b | _ :: h => all_on h end.
(* enabled by its own name; initialize enables the empty prefix *)
Fixpoint prefix_on (h : past) (p : str) : bool :=
  match h with
  | [] => false
  | EnablePrefix q :: h => same q p || prefix_on h p
  | DisablePrefix q :: h => negb (same q p) && prefix_on h p
  | Initialize _ :: h => same p [] || prefix_on h p
  | _ :: h => prefix_on h p
  end.
(* does the monitor record under this prefix? *)
Definition active (h : past) (p : str) : bool := (switched_on h && prefix_on h p) || all_on h.

(* ---- timers: nanoseconds of the last start, 0 if there was none ---- *)
Fixpoint since (h : past) (t : str) : Z :=
  match h with
  | [] => 0
  | Start t' now :: h => if same t' t && switched_on h then now else since h t
  | StartStop t' _ p _ now :: h =>
    if same t' t && active h p && (negb (since h t =? 0) || switched_on h) then now else since h t
  | _ :: h => since h t
  end.

(* ---- recorded values ---- *)
Definition zero : spec_float := S754_zero false.
(* 10^6 = 8589934592000000 * 2^-33 *)
Definition million : spec_float := S754_finite false 8589934592000000 (-33).
(* the nearest double of a whole number *)
Definition whole (z : Z) : spec_float := binary_normalize 53 1024 z 0 false.
(* the milliseconds between two times *)
Definition millis (from till : Z) : spec_float := SFdiv 53 1024 (whole (till - from)) million.

(* the prefix, name and value of the time value the call records *)
Definition time_event (h : past) (c : call) : option (str * str * spec_float) :=
  match c with
  | AddData n v p => if active h p then Some (p, n, v) else None
  | Measurement t n p _ now => if active h p then Some (p, n, millis (since h t) now) else None
  | StartStop t n p _ now => if active h p && negb (since h t =? 0) then Some (p, n, millis (since h t) now) else None
  | _ => None
  end.
Definition other_event (h : past) (c : call) : option (str * str * spec_float) :=
  match c with AddNonTimeData n v p => if active h p then Some (p, n, v) else None | _ => None end.
Definition static_event (h : past) (c : call) : option (str * str * spec_float) :=
  match c with AddStaticData n v p => if active h p then Some (p, n, v) else None | _ => None end.

(* the label under which a value is kept *)
Definition label (p n : str) : str := p ++ $"::" ++ n.

Definition pick (test : str -> str -> bool) (e : option (str * str * spec_float)) : list spec_float :=
  match e with Some (p, n, v) => if test p n then [v] else [] | None => [] end.
(* the values recorded since the last initialize, oldest first, for which [test prefix name] holds *)
Fixpoint gather (event : past -> call -> option (str * str * spec_float)) (test : str -> str -> bool) (h : past) : list spec_float :=
  match h with
  | [] => []
  | Initialize _ :: _ => []
  | c :: h => gather event test h ++ pick test (event h c)
  end.
Definition recorded (h : past) (k : str) : list spec_float := gather time_event (fun p n => same (label p n) k) h.
Definition recorded_other (h : past) (k : str) : list spec_float := gather other_event (fun p n => same (label p n) k) h.
(* static data is kept until it is overwritten; initialize does not touch it *)
Fixpoint last_static (test : str -> str -> bool) (h : past) : option spec_float :=
  match h with
  | [] => None
  | c :: h => match pick test (static_event h c) with v :: _ => Some v | [] => last_static test h end
  end.
Definition static (h : past) (k : str) : option spec_float := last_static (fun p n => same (label p n) k) h.

(* ---- statistics ---- *)
(* b is not less than a; for numbers this is a <= b *)
Definition not_above (a b : spec_float) : Prop := SFltb b a = false.
Definition at_rank (l : list spec_float) (i : nat) (v : spec_float) : Prop :=
  exists s, Permutation l s /\ StronglySorted not_above s /\ nth_error s i = Some v.
Definition least (l : list spec_float) (v : spec_float) : Prop := In v l /\ forall x, In x l -> not_above v x.
Definition greatest (l : list spec_float) (v : spec_float) : Prop := In v l /\ forall x, In x l -> not_above x v.
Definition mean (l : list spec_float) : spec_float :=
  SFdiv 53 1024 (fold_left (SFadd 53 1024) l zero) (whole (Z.of_nat (List.length l))).
(* values that std::sort must not be given: NaN and two different numbers *)
Definition mixed (l : list spec_float) : Prop := In S754_nan l /\ exists x y, In x l /\ In y l /\ SFltb x y = true.

Definition nl : str := [ascii_of_nat 10].

Definition time_summary (l : list spec_float) (p n : str) (msg : message) : Prop :=
  exists median min max, at_rank l (Nat.div (List.length l) 2) median /\ least l min /\ greatest l max /\
  msg = [Txt ($"Summary for " ++ label p n ++ nl); Txt $"Called "; Cnt (List.length l); Txt ($" times" ++ nl);
         Txt (n ++ $"_avg: "); Num (mean l); Txt ($" ms" ++ nl);
         Txt (n ++ $"_median: "); Num median; Txt ($" ms" ++ nl);
         Txt (n ++ $"_min: "); Num min; Txt ($" ms" ++ nl);
         Txt (n ++ $"_max: "); Num max; Txt ($" ms" ++ nl);
         Txt nl].
Definition other_summary (l : list spec_float) (p n : str) (msg : message) : Prop :=
  exists median min max, at_rank l (Nat.div (List.length l) 2) median /\ least l min /\ greatest l max /\
  msg = [Txt ($"Summary for " ++ label p n ++ nl); Txt $"num entries: "; Cnt (List.length l); Txt nl;
         Txt (n ++ $"_avg: "); Num (mean l); Txt nl;
         Txt (n ++ $"_median: "); Num median; Txt nl;
         Txt (n ++ $"_min: "); Num min; Txt nl;
         Txt (n ++ $"_max: "); Num max; Txt nl;
         Txt nl].

(* ---- reports ---- *)
(* p is what stands before the first "::" of the label *)
Definition filed (p n : str) : Prop := forall a b, label p n = label a b -> (List.length p <= List.length a)%nat.
(* one block for each name with P, in ascending order of the names *)
Definition blocks (P : str -> Prop) (block : str -> message -> Prop) (body : list message) : Prop :=
  exists names, StronglySorted (fun a b => str_lt a b = true) names /\ (forall n, In n names <-> P n) /\ Forall2 block names body.
Definition titled (title : str) (body : list message) : message :=
  match body with [] => [] | _ => Txt title :: List.concat body end.

Definition prefix_report (h : past) (p : str) (msg : message) : Prop :=
  exists b1 b2 b3,
    blocks (fun n => filed p n /\ static h (label p n) <> None)
           (fun n t => exists v, static h (label p n) = Some v /\ t = [Txt (n ++ $": "); Num v; Txt nl]) b1 /\
    blocks (fun n => filed p n /\ recorded h (label p n) <> [])
           (fun n t => time_summary (recorded h (label p n)) p n t) b2 /\
    blocks (fun n => filed p n /\ recorded_other h (label p n) <> [])
           (fun n t => other_summary (recorded_other h (label p n)) p n t) b3 /\
    msg = Txt (nl ++ $"########## Begin of Summary for prefix " ++ p ++ $" ##########" ++ nl)
          :: titled ($"#### Static data: ####" ++ nl) b1
          ++ titled ($"#### Time data: ####" ++ nl) b2
          ++ titled ($"#### Non-time data: ####" ++ nl) b3.

(* ---- replies ---- *)
(* the level at which messages appear: levels other than debug, trace and info become info *)
Definition shown_at (l : level) : level := match l with Debug => Debug | Trace => Trace | _ => Info end.
Definition stopped (h : past) (p n : str) (l : level) (d : spec_float) : reply :=
  Reply (Some d) (if printing h then [(shown_at l, [Txt (label p n); Txt $": "; Num d; Txt $" ms"])] else []).

Definition answers (h : past) (c : call) (r : reply) : Prop :=
  match c with
  | Measurement t n p l now =>
    r = if active h p then stopped h p n l (millis (since h t) now) else Reply (Some zero) []
  | StartStop t n p l now =>
    r = if active h p && negb (since h t =? 0) then stopped h p n l (millis (since h t) now) else Reply (Some zero) []
  | PrintSummary p n l =>
    exists msg, time_summary (recorded h (label p n)) p n msg /\ r = Reply None [(shown_at l, msg)]
  | PrintSummaryFromPrefix p l =>
    exists msg, prefix_report h p msg /\ r = Reply None [(shown_at l, msg)]
  | PrintSummaryAll l =>
    exists ps msgs, StronglySorted (fun a b => str_lt a b = true) ps /\ (forall p, In p ps <-> prefix_on h p = true) /\
      Forall2 (prefix_report h) ps msgs /\ r = Reply None (map (fun msg => (shown_at l, msg)) msgs)
  | _ => r = Reply None []
  end.

(* the calls that may be made *)
Definition presentable (h : past) (p : str) : Prop :=
  forall n, filed p n -> ~ mixed (recorded h (label p n)) /\ ~ mixed (recorded_other h (label p n)).
Definition allowed (h : past) (c : call) : Prop :=
  match c with
  | PrintSummary p n _ => recorded h (label p n) <> [] /\ ~ mixed (recorded h (label p n))
  | PrintSummaryFromPrefix p _ => presentable h p
  | PrintSummaryAll _ => forall p, prefix_on h p = true -> presentable h p
  | _ => True
  end.

(* ---- prefixes ---- *)
(* a prefix without "::" that does not end in ":" *)
Definition plain (p : str) : Prop := (forall a b, p <> a ++ $"::" ++ b) /\ (forall a, p <> a ++ $":").
Definition prefix_named (c : call) : option str :=
  match c with
  | Measurement _ _ p _ _ | StartStop _ _ p _ _ | AddStaticData _ _ p | AddData _ _ p | AddNonTimeData _ _ p => Some p
  | _ => None
  end.
Definition plainly (c : call) : Prop := match prefix_named c with Some p => plain p | None => True end.
Definition this (p n : str) (p' n' : str) : bool := same p' p && same n' n.
(* what was recorded under prefix p and name n *)
Definition recorded_under (h : past) (p n : str) : list spec_float := gather time_event (this p n) h.
Definition recorded_other_under (h : past) (p n : str) : list spec_float := gather other_event (this p n) h.
Definition static_under (h : past) (p n : str) : option spec_float := last_static (this p n) h.

(* no NaN is handed to the monitor *)
Definition number_given (c : call) : Prop :=
  match c with AddData _ v _ | AddNonTimeData _ v _ => v <> S754_nan | _ => True end.

(* ---- the same report for plain prefixes, in terms of what was recorded under the prefix itself ---- *)
Definition plain_report (h : past) (p : str) (msg : message) : Prop :=
  exists b1 b2 b3,
    blocks (fun n => static_under h p n <> None)
           (fun n t => exists v, static_under h p n = Some v /\ t = [Txt (n ++ $": "); Num v; Txt nl]) b1 /\
    blocks (fun n => recorded_under h p n <> []) (fun n t => time_summary (recorded_under h p n) p n t) b2 /\
    blocks (fun n => recorded_other_under h p n <> []) (fun n t => other_summary (recorded_other_under h p n) p n t) b3 /\
    msg = Txt (nl ++ $"########## Begin of Summary for prefix " ++ p ++ $" ##########" ++ nl)
          :: titled ($"#### Static data: ####" ++ nl) b1
          ++ titled ($"#### Time data: ####" ++ nl) b2
          ++ titled ($"#### Non-time data: ####" ++ nl) b3.

(* ---- calls that may set a timer ---- *)
Definition sets (t : str) (c : call) : bool :=
  match c with Start t' _ => same t' t | StartStop t' _ _ _ _ => same t' t | _ => false end.
