(* Model of the ISO-8601 functions of icl_core/TimeStamp.cpp.
   libc's gmtime is modelled by counting days in the proleptic Gregorian calendar; strftime by the digits of
   the broken-down time (leap seconds do not exist in POSIX time). *)
From Verif Require Import Base CInt TimeModel Text.
Local Open Scope Z_scope.

(* boost::lexical_cast<int32_t>(std::string): optional sign, then at least one digit, nothing else *)
Definition all_digits (l : str) : bool := forallb is_digit l.
Definition lexical_unsigned (l : str) : result Z :=
  match l with
  | [] => Throw
  | _ => if all_digits l then Ok (number l) else Throw
  end.
Definition lexical_cast_i32 (l : str) : result Z :=
  let r := match l with
           | c :: r => if Ascii.eqb c "-" then bind (lexical_unsigned r) (fun z => Ok (- z))
                       else if Ascii.eqb c "+" then lexical_unsigned r
                       else lexical_unsigned l
           | [] => Throw
           end in
  bind r (fun z => if in_i32 z then Ok z else Throw).

(* TimeStamp.cpp:133-157: one optional field *)
Definition field (s : str) (min pos len : nat) (default : Z) : result Z :=
  if (min <=? length s)%nat then lexical_cast_i32 (substr s pos len) else Ok default.

(* TimeStamp.cpp:170-172, 176-178 *)
Definition leap_year (y : Z) : bool :=
  (Z.rem y 400 =? 0) || ((Z.rem y 4 =? 0) && negb (Z.rem y 100 =? 0)).

(* TimeStamp.cpp:168-174: [k] years starting with y *)
Fixpoint year_loop (k : nat) (y acc : Z) : Z :=
  match k with
  | O => acc
  | S k' => year_loop k' (y + 1) (to_u64 (acc + (if leap_year y then 366 else 365)))
  end.

(* TimeStamp.cpp:179-183 *)
Definition days_per_month (leap : bool) : list Z :=
  [31; if leap then 29 else 28; 31; 30; 31; 30; 31; 31; 30; 31; 30; 31].

(* TimeStamp.cpp:184-187: [k] months starting with array index i *)
Fixpoint month_loop (k : nat) (i : nat) (dpm : list Z) (acc : Z) : result Z :=
  match k with
  | O => Ok acc
  | S k' => bind (vec_get dpm i) (fun d => month_loop k' (i + 1) dpm (to_u64 (acc + d)))
  end.

(* TimeStamp.cpp:125-193 *)
Definition fromIso8601BasicUTC (s : str) : result time :=
  bind (field s 4 0 4 1970) (fun tm_year =>
  bind (field s 6 4 2 1) (fun tm_mon =>
  bind (field s 8 6 2 1) (fun tm_mday =>
  bind (field s 11 9 2 0) (fun tm_hour =>
  bind (field s 13 11 2 0) (fun tm_min =>
  bind (field s 15 13 2 0) (fun tm_sec =>
  bind (if (16 <? length s)%nat
        then lexical_cast_i32 (substr (substr s 16 9 ++ $"000000000") 0 9)
        else Ok 0) (fun nsecs =>
  let days0 := year_loop (Z.to_nat (tm_year - 1970)) 1970 0 in
  bind (month_loop (Z.to_nat (tm_mon - 1)) 0 (days_per_month (leap_year tm_year)) days0) (fun days1 =>
  let days := to_u64 (days1 + (tm_mday - 1)) in
  let secs := to_u64 (86400 * days + 3600 * tm_hour + 60 * tm_min + tm_sec) in
  make_stamp secs (to_u32 nsecs))))))))).

(* ---- gmtime / strftime ---- *)
Record date := D { year : Z; month : Z; day : Z }.
Definition is_leap (y : Z) : bool := (y mod 4 =? 0) && (negb (y mod 100 =? 0) || (y mod 400 =? 0)).
Definition month_len (y m : Z) : Z :=
  if m =? 2 then (if is_leap y then 29 else 28)
  else if (m =? 4) || (m =? 6) || (m =? 9) || (m =? 11) then 30 else 31.
Definition next_day (d : date) : date :=
  if day d <? month_len (year d) (month d) then D (year d) (month d) (day d + 1)
  else if month d <? 12 then D (year d) (month d + 1) 1
  else D (year d + 1) 1 1.
Definition prev_day (d : date) : date :=
  if 1 <? day d then D (year d) (month d) (day d - 1)
  else if 1 <? month d then D (year d) (month d - 1) (month_len (year d) (month d - 1))
  else D (year d - 1) 12 31.
(* the date n days after (before, if negative) 1970-01-01 *)
Definition date_of_day (n : Z) : date :=
  if 0 <=? n then Nat.iter (Z.to_nat n) next_day (D 1970 1 1)
  else Nat.iter (Z.to_nat (- n)) prev_day (D 1970 1 1).

(* decimal text of a non-negative number without leading zeros (up to 20 digits) *)
Fixpoint decimal (fuel : nat) (z : Z) : str :=
  match fuel with
  | O => []
  | S f => if z <? 10 then [dchar z] else decimal f (z / 10) ++ [dchar (z mod 10)]
  end.
(* %Y *)
Definition year_text (y : Z) : str := if y <? 0 then $"-" ++ decimal 20 (- y) else decimal 20 y.

(* strftime(dest, max, "%Y%m%dT%H%M%S", gmtime(&secs)); too long a text leaves dest indeterminate *)
Definition strf_basic (max : nat) (secs : Z) : result str :=
  let d := date_of_day (secs / 86400) in
  let r := secs mod 86400 in
  let text := year_text (year d) ++ digits 2 (month d) ++ digits 2 (day d) ++ $"T" ++
              digits 2 (r / 3600) ++ digits 2 (r mod 3600 / 60) ++ digits 2 (r mod 60) in
  if (length text <? max)%nat then Ok text else UB.

(* strftime(dest, max, "%Y-%m-%d %H:%M:%S", gmtime(&secs)) *)
Definition strf_extended (max : nat) (secs : Z) : result str :=
  let d := date_of_day (secs / 86400) in
  let r := secs mod 86400 in
  let text := year_text (year d) ++ $"-" ++ digits 2 (month d) ++ $"-" ++ digits 2 (day d) ++ $" " ++
              digits 2 (r / 3600) ++ $":" ++ digits 2 (r mod 3600 / 60) ++ $":" ++ digits 2 (r mod 60) in
  if (length text <? max)%nat then Ok text else UB.

(* TimeStamp.cpp:249-261 (the while loop runs at most once because |nsecs| < 10^9) *)
Definition formatIso8601BasicUTC (t : time) : result str :=
  bind (if nsecs t <? 0 then bind (chk64 (secs t - 1)) (fun s => Ok (T s (nsecs t + 1000000000))) else Ok t) (fun t =>
  bind (strf_basic 16 (secs t)) (fun a => Ok (a ++ $"," ++ digits 9 (nsecs t)))).

(* TimeStamp.cpp:228-233 *)
Definition formatIso8601UTC (t : time) : result str := strf_extended 20 (secs t).

(* ---- local time ---- *)
(* localtime(): the wall clock is [zone secs] seconds ahead of UTC at that moment; None: a null pointer, the buffer of the caller
   is not written (TimeStamp.cpp:211-219) *)
Definition strfLocaltime (zone : Z -> option Z) (strf : nat -> Z -> result str) (max : nat) (secs : Z) : result str :=
  match zone secs with Some offset => strf max (secs + offset) | None => UB end.
(* TimeStamp.cpp:221-226 *)
Definition formatIso8601 (zone : Z -> option Z) (t : time) : result str := strfLocaltime zone strf_extended 20 (secs t).
(* TimeStamp.cpp:235-247 *)
Definition formatIso8601Basic (zone : Z -> option Z) (t : time) : result str :=
  bind (if nsecs t <? 0 then bind (chk64 (secs t - 1)) (fun s => Ok (T s (nsecs t + 1000000000))) else Ok t) (fun t =>
  bind (strfLocaltime zone strf_basic 16 (secs t)) (fun a => Ok (a ++ $"," ++ digits 9 (nsecs t)))).
