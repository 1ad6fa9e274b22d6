(* Time values in the formats of other systems: the OpenSplice DDS types (icl_core/TimeStamp.cpp:46-86, TimeSpan.cpp:42-61,
   iTimeStamp.idl, iTimeSpan.idl) and the Mach type (TimeBase.cpp:147-155). Paths relative to src/icl_core/src.
   Simplifications: DDS::Time_t is the one of the DDS specification, { long sec; unsigned long nanosec; }; IDL long and
   long long have 32 and 64 bits; mach_timespec_t is { unsigned int; clock_res_t (int) }; the conversion operators return
   their structure by value, sending it is not modelled. *)
From Verif Require Import Base CInt TimeModel PeriodModel.
Local Open Scope Z_scope.

(* a structure as it travels: its two fields *)
Record wire := W { w_sec : Z; w_nsec : Z }.

(* icl_core/TimeStamp.cpp:52-55: unsigned long long and unsigned long become int64_t and int32_t *)
Definition stamp_of_msg (w : wire) : result time := normalize (to_i64 (w_sec w)) (to_i32 (w_nsec w)).
(* icl_core/TimeStamp.cpp:64-69 *)
Definition stamp_assign_msg (w : wire) : time := T (to_i64 (w_sec w)) (to_i32 (w_nsec w)).
(* icl_core/TimeStamp.cpp:79-85 *)
Definition stamp_to_msg (t : time) : wire := W (to_u64 (secs t)) (to_u32 (nsecs t)).

(* icl_core/TimeStamp.cpp:47-50: sec is signed, nanosec unsigned *)
Definition stamp_of_dds (w : wire) : result time := normalize (w_sec w) (to_i32 (w_nsec w)).
(* icl_core/TimeStamp.cpp:57-62 *)
Definition stamp_assign_dds (w : wire) : time := T (w_sec w) (to_i32 (w_nsec w)).
(* icl_core/TimeStamp.cpp:71-77 *)
Definition stamp_to_dds (t : time) : wire := W (to_i32 (secs t)) (to_u32 (nsecs t)).

(* icl_core/TimeSpan.cpp:43-45 *)
Definition span_of_msg (w : wire) : result time := normalize (w_sec w) (w_nsec w).
(* icl_core/TimeSpan.cpp:47-52 *)
Definition span_assign_msg (w : wire) : time := T (w_sec w) (w_nsec w).
(* icl_core/TimeSpan.cpp:54-60 *)
Definition span_to_msg (t : time) : wire := W (secs t) (nsecs t).

(* icl_core/TimeBase.cpp:148-154 *)
Definition mach_timespec (t : time) : wire := W (to_u32 (secs t)) (nsecs t).

(* the time-out given to semaphore_timedwait: icl_core_thread/SemaphoreImplDarwin.cpp:60-65 and 67-70 *)
Definition darwin_wait_span (t : time) : wire := mach_timespec t.
Definition darwin_wait_stamp (now t : time) : result wire := bind (getRelativeTimeout now t) (fun r => Ok (darwin_wait_span r)).
