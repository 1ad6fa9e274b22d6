(* Time-outs and the emulated periodic thread.
   icl_core_thread/Common.h:46-71, icl_core_thread/PeriodicThreadImplEmulate.cpp:28-68.
   TimeStamp::now() is an arbitrary clock: [clock i] is its i-th reading.  nanosleep() has no effect on the
   model except that time passes, that is, the following readings of the clock are arbitrary. *)
From Verif Require Import Base CInt TimeModel.
Local Open Scope Z_scope.

(* Common.h:46-57; TimeSpan() is zero, TimeSpan.h *)
Definition getRelativeTimeout (now timeout_absolute : time) : result time :=
  if lt timeout_absolute now then Ok (T 0 0) else stamp_diff timeout_absolute now.

(* Common.h:59-71 *)
Definition getAbsoluteTimeout (now timeout_relative : time) : result time :=
  if lt timeout_relative (T 0 0)
  then bind (make_span (365 * 86400) 0) (fun year => add now year)
  else add now timeout_relative.

(* PeriodicThreadImplEmulate.cpp:60-65; [slept] collects the times passed to nanosleep.
   None: not finished after [fuel] turns. *)
Fixpoint sleep_loop (fuel : nat) (clock : nat -> time) (i : nat) (next remaining : time) (slept : list time) :
  option (result (nat * list time)) :=
  if gt remaining (T 0 0) then
    match fuel with
    | O => None
    | S f => match stamp_diff next (clock i) with
             | Ok l => sleep_loop f clock (S i) next l (slept ++ [remaining])
             | Throw => Some Throw
             | UB => Some UB
             end
    end
  else Some (Ok (i, slept)).

(* PeriodicThreadImplEmulate.cpp:43-68: i: number of clock readings so far; the result is the new
   m_last_execution_time, the number of clock readings, and the sleeps *)
Definition waitPeriod (fuel : nat) (clock : nat -> time) (i : nat) (m_last m_period : time) :
  option (result (time * nat * list time)) :=
  let now := clock i in
  match bind (add m_last m_period) (fun next =>
        bind (stamp_diff next now) (fun remaining =>
        if gt remaining m_period then bind (add now m_period) (fun next' => Ok (next', m_period))
        else Ok (next, remaining))) with
  | Ok (next, remaining) =>
    match sleep_loop fuel clock (S i) next remaining [] with
    | Some (Ok (i', slept)) => Some (Ok (clock i', S i', slept))
    | Some Throw => Some Throw
    | Some UB => Some UB
    | None => None
    end
  | Throw => Some Throw
  | UB => Some UB
  end.

(* n calls of waitPeriod() in a row; the result is the list of the times at which they returned
   (m_last_execution_time after each call) *)
Fixpoint periods (n fuel : nat) (clock : nat -> time) (i : nat) (m_last m_period : time) : option (result (list time)) :=
  match n with
  | O => Some (Ok [])
  | S n' =>
    match waitPeriod fuel clock i m_last m_period with
    | Some (Ok (last', i', _)) =>
      match periods n' fuel clock i' last' m_period with
      | Some (Ok l) => Some (Ok (last' :: l))
      | x => x
      end
    | Some Throw => Some Throw
    | Some UB => Some UB
    | None => None
    end
  end.
