(* Model of TimeBase.{h,cpp}, TimeSpan.{h,cpp}, TimeStamp.{h,cpp} (without ISO-8601 text, see IsoModel.v).
   Paths relative to src/icl_core/src/icl_core.
   Simplifications: now()/fromNow (OS clock), LXRT/Darwin variants, OpenSplice conversions
   are left out; operators with double operands (TimeSpan.h:210-220) are in ScaleModel.v. *)
From Verif Require Import Base CInt.
Local Open Scope Z_scope.

(* TimeBase.h:288-289 *)
Record time := T { secs : Z (* int64_t *); nsecs : Z (* int32_t *) }.

(* One pass through the loop body of TimeBase.cpp:85-110; None: the loop condition is false *)
Definition norm_body (s n : Z) : option (result (Z * Z)) :=
  let step (dn ds : Z) :=
    bind (chk32 (n + dn)) (fun n' => bind (chk64 (s + ds)) (fun s' => Ok (s', n'))) in
  if (0 <=? s) && (1000000000 <=? n) then Some (step (-1000000000) 1)
  else if (s <=? 0) && (n <=? -1000000000) then Some (step 1000000000 (-1))
  else if (0 <? s) && (n <? 0) then Some (step 1000000000 (-1))
  else if (s <? 0) && (0 <? n) then Some (step (-1000000000) 1)
  else None.

(* TimeBase.cpp:83-111 with at most [fuel] passes; None: not finished *)
Fixpoint norm_loop (fuel : nat) (s n : Z) : option (result time) :=
  match norm_body s n with
  | None => Some (Ok (T s n))
  | Some r =>
    match fuel with
    | O => None
    | S f => match r with
             | Ok (s', n') => norm_loop f s' n'
             | Throw => Some Throw
             | UB => Some UB
             end
    end
  end.

(* TimeBase.cpp:83-111; C08 shows three passes are always enough, so the Throw below never occurs *)
Definition normalize (s n : Z) : result time :=
  match norm_loop 3 s n with Some r => r | None => Throw end.

(* TimeBase.cpp:239-244, TimeSpan.cpp:34-36 *)
Definition make_span (s n : Z) : result time := normalize s n.

(* TimeStamp.h:73-75: uint64_t and uint32_t arguments converted to int64_t and int32_t *)
Definition make_stamp (s n : Z) : result time := normalize (to_i64 s) (to_i32 n).

(* TimeBase.cpp:246-251, 253-258: tv_sec is 64 bit, tv_nsec (long) is converted to int32_t *)
Definition from_timespec (s n : Z) : result time := normalize s (to_i32 n).

(* TimeBase.cpp:113-119 *)
Definition to_timespec (t : time) : Z * Z := (secs t, nsecs t).

(* TimeBase.cpp:232-237 *)
Definition max_time : result time := normalize (2^63 - 1) 999999999.

(* TimeBase.cpp:37-43, TimeSpan.cpp:102-108, TimeStamp.h:213-219, TimeSpan.h:198-202, TimeStamp.h:343-353 *)
Definition add (a b : time) : result time :=
  bind (chk64 (secs a + secs b)) (fun s =>
  bind (chk32 (nsecs a + nsecs b)) (fun n => normalize s n)).

(* TimeBase.cpp:45-51, TimeSpan.cpp:110-116, TimeStamp.h:222-228, TimeSpan.h:204-208, TimeStamp.h:355-359 *)
Definition sub (a b : time) : result time :=
  bind (chk64 (secs a - secs b)) (fun s =>
  bind (chk32 (nsecs a - nsecs b)) (fun n => normalize s n)).

(* TimeStamp.h:361-365 with tsSec, tsNSec (281-283) unsigned *)
Definition stamp_diff (a b : time) : result time :=
  let ds := to_u64 (to_u64 (secs a) - to_u64 (secs b)) in
  let dn := to_u32 (to_u32 (nsecs a) - to_u32 (nsecs b)) in
  make_span (to_i64 ds) (to_i32 dn).

(* TimeSpan.h:222-232; cZERO = (0,0), TimeSpan.cpp:32 *)
Definition lt (a b : time) : bool := if secs a =? secs b then nsecs a <? nsecs b else secs a <? secs b.
Definition abs_span (t : time) : result time := if lt t (T 0 0) then sub (T 0 0) t else Ok t.

(* TimeBase.cpp:53-81 *)
Definition ne (a b : time) : bool := negb (secs a =? secs b) || negb (nsecs a =? nsecs b).
Definition eq (a b : time) : bool := (secs a =? secs b) && (nsecs a =? nsecs b).
Definition gt (a b : time) : bool := if secs a =? secs b then nsecs b <? nsecs a else secs b <? secs a.
Definition le (a b : time) : bool := if secs a =? secs b then nsecs a <=? nsecs b else secs a <? secs b.
Definition ge (a b : time) : bool := if secs a =? secs b then nsecs b <=? nsecs a else secs b <? secs a.

(* TimeSpan.cpp:63-69, 87-90 *)
Definition from_sec (sec : Z) : result time := normalize sec 0.
(* TimeSpan.cpp:71-77, 92-95; C++ / and % truncate: Z.quot, Z.rem *)
Definition from_msec (msec : Z) : result time :=
  normalize (Z.quot msec 1000) (to_i32 (Z.rem msec 1000 * 1000000)).
(* TimeSpan.cpp:79-85, 97-100 *)
Definition from_usec (usec : Z) : result time :=
  normalize (Z.quot usec 1000000) (to_i32 (Z.rem usec 1000000 * 1000)).

(* TimeSpan.cpp:158-161 *)
Definition ts_usec (t : time) : Z := Z.quot (nsecs t) 1000.
(* TimeSpan.cpp:163-166 *)
Definition to_msec (t : time) : result Z :=
  bind (chk64 (secs t * 1000)) (fun x => chk64 (x + Z.quot (nsecs t) 1000000)).
(* TimeSpan.cpp:168-171 *)
Definition to_usec (t : time) : result Z :=
  bind (chk64 (secs t * 1000000)) (fun x => chk64 (x + Z.quot (nsecs t) 1000)).
(* TimeSpan.cpp:173-176 *)
Definition to_nsec (t : time) : result Z :=
  bind (chk64 (1000000000 * secs t)) (fun x => chk64 (x + nsecs t)).

(* TimeBase.h:107-158 *)
Definition days (t : time) : Z := Z.quot (secs t) 86400.
Definition hours (t : time) : Z := Z.rem (Z.quot (secs t) 3600) 24.
Definition minutes (t : time) : Z := Z.quot (Z.rem (secs t) 3600) 60.
Definition seconds (t : time) : Z := Z.rem (Z.rem (secs t) 3600) 60.
Definition milliSeconds (t : time) : Z := Z.quot (nsecs t) 1000000.
Definition microSeconds (t : time) : Z := Z.quot (nsecs t) 1000.
Definition nanoSeconds (t : time) : Z := Z.rem (nsecs t) 1000.

(* TimeSpan.cpp:229-267, and the same code for log streams in icl_core_logging/Logging.cpp:56-93.  The output is a list of items instead of characters: a minus sign, or a
   number (printed in decimal with its own sign) followed by a unit. *)
Inductive unit_ := H | M | S_ | MS | US | NS.
Inductive item := Minus | Num (z : Z) (u : unit_).
Definition print (t : time) : result (list item) :=
  let cs := secs t in
  let cn := nsecs t in
  let sign := if cs <? 0 then [Minus] else [] in
  bind (if cs <? 0 then chk64 (- cs) else Ok cs) (fun cs =>
  let h := if 3600 <? cs then [Num (Z.quot cs 3600) H] else [] in
  let cs := if 3600 <? cs then Z.rem cs 3600 else cs in
  let m := if 60 <? cs then [Num (Z.quot cs 60) M] else [] in
  let cs := if 60 <? cs then Z.rem cs 60 else cs in
  let s := if 0 <? cs then [Num cs S_] else [] in
  let f := if Z.quot cn 1000000 * 1000000 =? cn then Num (Z.quot cn 1000000) MS
           else if Z.quot cn 1000 * 1000 =? cn then Num cn US
           else Num cn NS in
  Ok (sign ++ h ++ m ++ s ++ [f])).
