(* The clock, time stamps from boost, and sleeping: icl_core/TimeStamp.cpp:88-123, 195-201, 327-333, os_posix_time.cpp:42-116,
   os_win32_time.cpp:34-107, os_time.h:41-59 (forwards). Paths relative to src/icl_core/src.
   The functions are modelled as what they ask the system for and what they answer. Trusted: gettimeofday, _ftime_s, nanosleep,
   Sleep and rt_sleep do what is asked for. long has 64 bits except on Win32; time_t has 64 bits. boost::posix_time in its usual
   configuration: 64 bit ticks of a microsecond; special values (not_a_date_time) and date ranges of boost are left out. *)
From Verif Require Import Base CInt TimeModel.
Local Open Scope Z_scope.

Inductive system := Linux | Rtai | Windows.

(* os_posix_time.cpp:60-63, os_win32_time.cpp:34-41; the clock of the system counts nanoseconds since 1970, the system
   functions give the seconds and the microseconds, milliseconds since then *)
Definition gettimeofday (sys : system) (clock : Z) : Z * Z :=
  match sys with
  | Windows => (clock / 1000000000, clock mod 1000000000 / 1000000 * 1000000)
  | _ => (clock / 1000000000, clock mod 1000000000 / 1000 * 1000)
  end.
(* TimeStamp.cpp:111-116, 195-201 *)
Definition now (sys : system) (clock : Z) : result time :=
  let ts := gettimeofday sys clock in from_timespec (fst ts) (snd ts).
(* TimeStamp.cpp:118-123, 327-333; msec is a uint64_t *)
Definition futureMSec (sys : system) (clock : Z) (msec : Z) : result time :=
  bind (make_stamp (msec / 1000) (to_u32 (msec mod 1000 * 1000000))) (fun r =>
  bind (now sys clock) (fun n => add r n)).

(* TimeStamp.cpp:89-97, 99-108; us: the ticks between 1970 and the given time *)
Definition stamp_of_ptime (us : Z) : result time :=
  bind (chk64 (us * 1000)) (fun total_nanoseconds =>
  let total_seconds := Z.quot us 1000000 in
  normalize total_seconds (to_i32 total_nanoseconds)).

(* asked for: the nanoseconds the system is asked to wait; answer: the return value; remaining: what is stored in rmtp
   (None: nothing, or what the system stores) *)
Record slept := Slept { asked : Z; answer : option Z; remaining : option (Z * Z) }.
(* os_posix_time.cpp:67-86 and os_win32_time.cpp:43-72 with rmtp; TimeStamp() is 1970, TimeBase.h:272 *)
Definition nanosleep (sys : system) (s n : Z) : result slept :=
  match sys with
  | Linux => Ok (Slept (s * 1000000000 + n) None None)
  | Rtai =>
    bind (chk64 (1000000 * s)) (fun a => bind (chk64 (a + n)) (fun x => Ok (Slept x (Some 0) (Some (0, 0)))))
  | Windows =>
    bind (from_timespec s n) (fun wait_time =>
    let start_time := T 0 0 in
    bind (chk64 (1000 * s)) (fun a => bind (chk64 (a + Z.quot n 1000000)) (fun x =>
    let ms := to_u32 x in
    bind (stamp_diff (T 0 0) start_time) (fun sleep_time =>
    bind (make_span 0 1000000) (fun tolerance =>
    bind (add sleep_time tolerance) (fun y =>
    if ge y wait_time then Ok (Slept (ms * 1000000) (Some 0) (Some (0, 0)))
    else bind (sub wait_time sleep_time) (fun r => Ok (Slept (ms * 1000000) (Some (-1)) (Some (secs r, nsecs r))))))))))
  end.
(* os_posix_time.cpp:88-101, os_win32_time.cpp:74-89; unsigned int multiplications wrap *)
Definition sleep (sys : system) (seconds : Z) : result slept :=
  match sys with
  | Linux => Ok (Slept (seconds * 1000000000) None None)
  | Rtai => Ok (Slept (to_u32 (1000000000 * seconds)) (Some 0) None)
  | Windows =>
    bind (stamp_diff (T 0 0) (T 0 0)) (fun sleep_time =>
    let ms := to_u32 (1000 * seconds) in
    Ok (Slept (ms * 1000000) (Some (if seconds <=? secs sleep_time then 0 else to_u32 (secs sleep_time - seconds))) None))
  end.
(* os_posix_time.cpp:103-116, os_win32_time.cpp:91-107; unsigned long has 32 bits on Windows *)
Definition usleep (sys : system) (useconds : Z) : result slept :=
  match sys with
  | Linux => Ok (Slept (useconds * 1000) None None)
  | Rtai => Ok (Slept (to_i64 (to_u64 (1000 * useconds))) (Some 0) None)
  | Windows =>
    bind (stamp_diff (T 0 0) (T 0 0)) (fun sleep_time =>
    bind (to_usec sleep_time) (fun x =>
    Ok (Slept (useconds / 1000 * 1000000) (Some (if useconds <=? x + 1000 then 0 else -1)) None)))
  end.

(* a client's loop: sleep again for the rest until it is reported that nothing is left; the number of calls is limited by the
   fuel; gives the time asked for and the rest *)
Fixpoint sleep_all (fuel : nat) (sys : system) (s n : Z) : result (Z * option (Z * Z)) :=
  match fuel with
  | O => Ok (0, Some (s, n))
  | S f =>
    bind (nanosleep sys s n) (fun r =>
    match answer r, remaining r with
    | Some 0, _ | None, _ | _, None => Ok (asked r, None)
    | _, Some (s', n') => bind (sleep_all f sys s' n') (fun x => Ok (asked r + fst x, snd x))
    end)
  end.
