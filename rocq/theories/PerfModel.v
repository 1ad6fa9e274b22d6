(* Model of src/icl_core/src/icl_core_performance_monitor/PerformanceMonitor.cpp (all of it; the macros in
   PerformanceMonitorMacros.h only forward to these functions and are not modelled).
   Simplifications:
   - one thread (the class has no locking);
   - double is Coq's SpecFloat with precision 53 and largest exponent 1024, rounding to nearest even;
   - a time stamp is its number of nanoseconds (TimeStamp.h / TimeBase.h; C01 to C04 are about those classes), the
     reading of TimeStamp::now() is an argument of the call;
   - how operator<< writes a double or a count is not modelled: a message is its text with the numbers left as numbers;
   - the number of values of one label stays below 2^31 (`int n = (int) size` in getAverage);
   - std::sort of values that compare equal (0.0 and -0.0) may arrange them differently. *)
From Coq Require Import Floats.SpecFloat.
From Verif Require Import Base Text SMap StringHelperModel.
Local Open Scope Z_scope.

Notation double := spec_float.
Definition dadd : double -> double -> double := SFadd 53 1024.
Definition ddiv : double -> double -> double := SFdiv 53 1024.
Definition dlt : double -> double -> bool := SFltb.
(* conversion of an integer to double *)
Definition of_int (z : Z) : double := binary_normalize 53 1024 z 0 false.
Definition is_nan (d : double) : bool := match d with S754_nan => true | _ => false end.

(* icl_core_logging/Constants.h, LogLevel *)
Inductive level := Trace | Debug | Info | Warning | Error | Mute.

(* a message: literal text, a double, a size *)
Inductive piece := Txt (s : str) | Num (d : double) | Cnt (n : nat).
Definition message := list piece.

(* PerformanceMonitor.h:194-196 and 227-234 *)
Record mon := Mon {
  m_data : list (str * list double);
  m_nontime : list (str * list double);
  m_timer : list (str * Z);
  m_buffer : list (list double);
  m_prefix : list (str * bool);
  m_static : list (str * double);
  m_all : bool;
  m_enabled : bool;
  m_print : bool
}.

(* PerformanceMonitor.cpp:44-49 *)
Definition fresh : mon := Mon [] [] [] [] [] [] false true true.

(* what a call hands back: the returned value, if it has one, and the messages it logged *)
Record reply := Reply { returned : option double; logged : list (level * message) }.
Definition silent : reply := Reply None [].

Definition with_data (m : mon) v b := Mon v (m_nontime m) (m_timer m) b (m_prefix m) (m_static m) (m_all m) (m_enabled m) (m_print m).
Definition with_nontime (m : mon) v b := Mon (m_data m) v (m_timer m) b (m_prefix m) (m_static m) (m_all m) (m_enabled m) (m_print m).
Definition with_timer (m : mon) v := Mon (m_data m) (m_nontime m) v (m_buffer m) (m_prefix m) (m_static m) (m_all m) (m_enabled m) (m_print m).
Definition with_prefix (m : mon) v := Mon (m_data m) (m_nontime m) (m_timer m) (m_buffer m) v (m_static m) (m_all m) (m_enabled m) (m_print m).
Definition with_static (m : mon) v := Mon (m_data m) (m_nontime m) (m_timer m) (m_buffer m) (m_prefix m) v (m_all m) (m_enabled m) (m_print m).
Definition with_all (m : mon) v := Mon (m_data m) (m_nontime m) (m_timer m) (m_buffer m) (m_prefix m) (m_static m) v (m_enabled m) (m_print m).
Definition with_enabled (m : mon) v := Mon (m_data m) (m_nontime m) (m_timer m) (m_buffer m) (m_prefix m) (m_static m) (m_all m) v (m_print m).
Definition with_print (m : mon) v := Mon (m_data m) (m_nontime m) (m_timer m) (m_buffer m) (m_prefix m) (m_static m) (m_all m) (m_enabled m) v.

(* 37-40 *)
Definition makeName (prefix name : str) : str := prefix ++ $"::" ++ name.

(* map::find(k) != end() *)
Definition has {T} (m : list (str * T)) (k : str) : bool := match map_get m k with Some _ => true | None => false end.
(* map::erase *)
Definition map_erase {T} (m : list (str * T)) (k : str) : list (str * T) :=
  filter (fun e => if list_eq_dec ascii_dec (fst e) k then false else true) m.
(* m[k] read: a missing entry is created with the default value, which only the timer map can show afterwards, as the
   value it would have had anyway; the vector maps are read this way only where the next step is undefined if the entry
   is missing. The creation itself is left out. *)
Definition get_or {T} (m : list (str * T)) (k : str) (d : T) : T := match map_get m k with Some v => v | None => d end.

(* 281-289 *)
Definition enablePrefix (m : mon) (p : str) : mon :=
  if has (m_prefix m) p then m else with_prefix m (map_put (m_prefix m) p true).
(* 296-304 *)
Definition disablePrefix (m : mon) (p : str) : mon :=
  if has (m_prefix m) p then with_prefix m (map_erase (m_prefix m) p) else m.
(* 291-294 *)
Definition enableAll (m : mon) (b : bool) : mon := with_all m b.

(* vector::resize *)
Definition resize {A} (l : list A) (n : nat) (x : A) : list A := firstn n l ++ repeat x (n - List.length l).

(* 65-75; num_events only reserves memory *)
Definition initialize (m : mon) (num_names : nat) : mon :=
  enablePrefix
    (Mon [] [] (m_timer m) (resize (m_buffer m) num_names []) (m_prefix m) (m_static m) (m_all m) (m_enabled m) (m_print m))
    [].

(* 78-81 *)
Definition isEnabled (m : mon) (p : str) : bool := (m_enabled m && has (m_prefix m) p) || m_all m.

(* 83-90 *)
Definition start (m : mon) (timer : str) (now : Z) : mon :=
  if m_enabled m then with_timer m (map_put (m_timer m) timer now) else m.

(* 182-191 and 200-209: a new label takes over the last preallocated vector, if there is one. Gives the map and buffers. *)
Definition push (data : list (str * list double)) (buffer : list (list double)) (k : str) (v : double)
  : list (str * list double) * list (list double) :=
  match map_get data k with
  | Some l => (map_put data k (l ++ [v]), buffer)
  | None =>
    match rev buffer with
    | [] => (map_put data k ([] ++ [v]), buffer)
    | b :: r => (map_put data k (b ++ [v]), rev r)
    end
  end.
(* 177-193 *)
Definition addEvent (m : mon) (p n : str) (v : double) : mon :=
  if isEnabled m p then let '(d, b) := push (m_data m) (m_buffer m) (makeName p n) v in with_data m d b else m.
(* 195-211 *)
Definition addNonTimeEvent (m : mon) (p n : str) (v : double) : mon :=
  if isEnabled m p then let '(d, b) := push (m_nontime m) (m_buffer m) (makeName p n) v in with_nontime m d b else m.

(* 214-239 *)
Definition print (msg : message) (l : level) : list (level * message) :=
  match l with
  | Debug => [(Debug, msg)]
  | Info => [(Info, msg)]
  | Trace => [(Trace, msg)]
  | _ => [(Info, msg)]
  end.

(* 105-106, 138-139 *)
Definition stop_text (p n : str) (d : double) : message := [Txt (makeName p n); Txt $": "; Num d; Txt $" ms"].

(* 98-100, 131-133: toNSec() / 1000000.0 *)
Definition double_ms (from till : Z) : double := ddiv (of_int (till - from)) (of_int 1000000).

(* 92-112 *)
Definition measurement (m : mon) (timer desc p : str) (l : level) (now : Z) : mon * reply :=
  if isEnabled m p then
    let d := double_ms (get_or (m_timer m) timer 0) now in
    let m' := addEvent m p desc d in
    (m', Reply (Some d) (if m_print m' then print (stop_text p desc d) l else []))
  else (m, Reply (Some (of_int 0)) []).

(* 114-150 *)
Definition startStop (m : mon) (timer desc p : str) (l : level) (now : Z) : mon * reply :=
  if isEnabled m p then
    let begun := get_or (m_timer m) timer 0 in
    if negb (begun =? 0) then
      let d := double_ms begun now in
      let m1 := addEvent m p desc d in
      let m2 := with_timer m1 (map_put (m_timer m1) timer now) in
      (m2, Reply (Some d) (if m_print m2 then print (stop_text p desc d) l else []))
    else (start m timer now, Reply (Some (of_int 0)) [])
  else (m, Reply (Some (of_int 0)) []).

(* 152-159 *)
Definition addStaticData (m : mon) (n : str) (v : double) (p : str) : mon :=
  if isEnabled m p then with_static m (map_put (m_static m) (makeName p n) v) else m.
(* 161-167 *)
Definition addData (m : mon) (n : str) (v : double) (p : str) : mon := if isEnabled m p then addEvent m p n v else m.
(* 169-175 *)
Definition addNonTimeData (m : mon) (n : str) (v : double) (p : str) : mon := if isEnabled m p then addNonTimeEvent m p n v else m.

(* std::sort with operator<. Undefined if < is no strict weak order on the values: a NaN together with two values one
   of which is less than the other. *)
Fixpoint insert (x : double) (l : list double) : list double :=
  match l with
  | [] => [x]
  | y :: r => if dlt x y then x :: l else y :: insert x r
  end.
Definition sorted_copy (l : list double) : list double := fold_left (fun s x => insert x s) l [].
Definition sort (l : list double) : result (list double) :=
  if existsb is_nan l && existsb (fun x => existsb (dlt x) l) l then UB else Ok (sorted_copy l).

(* 399-406, 408-416: median, minimum, maximum. With an empty vector tmp[0] does not exist. *)
Definition getMedian (data : list (str * list double)) (k : str) : result (double * double * double) :=
  bind (sort (get_or data k [])) (fun tmp =>
  bind (vec_get tmp (Nat.div (List.length tmp) 2)) (fun median =>
  bind (vec_get tmp 0) (fun min =>
  bind (vec_get tmp (List.length tmp - 1)) (fun max => Ok (median, min, max))))).

(* 377-386, 388-397 *)
Definition getAverage (data : list (str * list double)) (k : str) : double :=
  let l := get_or data k [] in
  ddiv (fold_left dadd l (of_int 0)) (of_int (Z.of_nat (List.length l))).

Definition newline : str := [ascii_of_nat 10].

(* 241-254 *)
Definition createStatisticSummary (m : mon) (p n : str) : result message :=
  let k := makeName p n in
  bind (getMedian (m_data m) k) (fun '(median, min, max) =>
  Ok [Txt ($"Summary for " ++ k ++ newline); Txt $"Called "; Cnt (List.length (get_or (m_data m) k [])); Txt ($" times" ++ newline);
      Txt (n ++ $"_avg: "); Num (getAverage (m_data m) k); Txt ($" ms" ++ newline);
      Txt (n ++ $"_median: "); Num median; Txt ($" ms" ++ newline);
      Txt (n ++ $"_min: "); Num min; Txt ($" ms" ++ newline);
      Txt (n ++ $"_max: "); Num max; Txt ($" ms" ++ newline);
      Txt newline]).

(* 256-269 *)
Definition createStatisticSummaryNonTime (m : mon) (p n : str) : result message :=
  let k := makeName p n in
  bind (getMedian (m_nontime m) k) (fun '(median, min, max) =>
  Ok [Txt ($"Summary for " ++ k ++ newline); Txt $"num entries: "; Cnt (List.length (get_or (m_nontime m) k [])); Txt newline;
      Txt (n ++ $"_avg: "); Num (getAverage (m_nontime m) k); Txt newline;
      Txt (n ++ $"_median: "); Num median; Txt newline;
      Txt (n ++ $"_min: "); Num min; Txt newline;
      Txt (n ++ $"_max: "); Num max; Txt newline;
      Txt newline]).

(* 271-279 *)
Definition printSummary (m : mon) (p n : str) (l : level) : result (list (level * message)) :=
  bind (createStatisticSummary m p n) (fun msg => Ok (print msg l)).

(* 325-326, 342-343, 360-361: find("::") and substr(0, prefix_end); npos takes the whole string *)
Definition prefix_of (k : str) : str := match str_find $"::" k with Some i => firstn i k | None => k end.
(* 335, 352, 370: substr(prefix_end + 2); npos + 2 wraps around to 1, beyond the end it throws *)
Definition name_of (k : str) : result str :=
  let i := match str_find $"::" k with Some i => (i + 2)%nat | None => 1%nat end in
  if Nat.leb i (List.length k) then Ok (skipn i k) else Throw.

(* the three loops of 323-373: [first] tells whether the title is still to be written *)
Fixpoint section {T} (prefix title : str) (line : str -> str -> T -> result message) (first : bool) (m : list (str * T)) : result message :=
  match m with
  | [] => Ok []
  | (k, v) :: r =>
    if list_eq_dec ascii_dec prefix (prefix_of k) then
      bind (name_of k) (fun n =>
      bind (line prefix n v) (fun t =>
      bind (section prefix title line false r) (fun u =>
      Ok ((if first then [Txt title] else []) ++ t ++ u))))
    else section prefix title line first r
  end.

(* 317-375 *)
Definition printSummaryFromPrefix (m : mon) (p : str) (l : level) : result (list (level * message)) :=
  bind (section p ($"#### Static data: ####" ++ newline) (fun _ n v => Ok [Txt (n ++ $": "); Num v; Txt newline]) true (m_static m)) (fun s1 =>
  bind (section p ($"#### Time data: ####" ++ newline) (fun q n _ => createStatisticSummary m q n) true (m_data m)) (fun s2 =>
  bind (section p ($"#### Non-time data: ####" ++ newline) (fun q n _ => createStatisticSummaryNonTime m q n) true (m_nontime m)) (fun s3 =>
  Ok (print (Txt (newline ++ $"########## Begin of Summary for prefix " ++ p ++ $" ##########" ++ newline) :: s1 ++ s2 ++ s3) l)))).

(* 306-315 *)
Fixpoint print_all (m : mon) (l : level) (ps : list (str * bool)) : result (list (level * message)) :=
  match ps with
  | [] => Ok []
  | (p, _) :: r => bind (printSummaryFromPrefix m p l) (fun a => bind (print_all m l r) (fun b => Ok (a ++ b)))
  end.
Definition printSummaryAll (m : mon) (l : level) : result (list (level * message)) := print_all m l (m_prefix m).

(* The public functions (PerformanceMonitor.h:78-191), the assignments to the public members (194-196). The clock
   reading is part of the call. *)
Inductive call :=
| Initialize (num_names : nat)
| Start (timer : str) (now : Z)
| Measurement (timer desc prefix : str) (l : level) (now : Z)
| StartStop (timer desc prefix : str) (l : level) (now : Z)
| AddStaticData (name : str) (v : double) (prefix : str)
| AddData (name : str) (v : double) (prefix : str)
| AddNonTimeData (name : str) (v : double) (prefix : str)
| EnablePrefix (prefix : str)
| EnableAll (b : bool)
| DisablePrefix (prefix : str)
| SetEnabled (b : bool)
| SetPrintStop (b : bool)
| PrintSummary (prefix name : str) (l : level)
| PrintSummaryFromPrefix (prefix : str) (l : level)
| PrintSummaryAll (l : level).

Definition quiet (m : mon) : result (mon * reply) := Ok (m, silent).
Definition shown (m : mon) (r : result (list (level * message))) : result (mon * reply) := bind r (fun ms => Ok (m, Reply None ms)).

Definition step (m : mon) (c : call) : result (mon * reply) :=
  match c with
  | Initialize n => quiet (initialize m n)
  | Start t now => quiet (start m t now)
  | Measurement t d p l now => Ok (measurement m t d p l now)
  | StartStop t d p l now => Ok (startStop m t d p l now)
  | AddStaticData n v p => quiet (addStaticData m n v p)
  | AddData n v p => quiet (addData m n v p)
  | AddNonTimeData n v p => quiet (addNonTimeData m n v p)
  | EnablePrefix p => quiet (enablePrefix m p)
  | EnableAll b => quiet (enableAll m b)
  | DisablePrefix p => quiet (disablePrefix m p)
  | SetEnabled b => quiet (with_enabled m b)
  | SetPrintStop b => quiet (with_print m b)
  | PrintSummary p n l => shown m (printSummary m p n l)
  | PrintSummaryFromPrefix p l => shown m (printSummaryFromPrefix m p l)
  | PrintSummaryAll l => shown m (printSummaryAll m l)
  end.

(* a program: calls in order, starting with a new monitor; the replies in order *)
Fixpoint run_from (m : mon) (cs : list call) : result (mon * list reply) :=
  match cs with
  | [] => Ok (m, [])
  | c :: r => bind (step m c) (fun '(m1, a) => bind (run_from m1 r) (fun '(m2, b) => Ok (m2, a :: b)))
  end.
Definition run (cs : list call) : result (mon * list reply) := run_from fresh cs.
