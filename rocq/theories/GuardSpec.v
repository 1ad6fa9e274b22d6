(* Specification vocabulary for scope guards and scoped timers: what the calls seen so far say about every object,
   without reference to scopes, names or the objects' members. *)
From Verif Require Import Base CInt TimeModel TimeSpec GuardModel.
Local Open Scope nat_scope.

Inductive thing :=
| AGuard (f : option fn) (on : bool)
| ATimer (desc level : nat) (start : time) (stopped : bool).

Definition put (k : nat -> option thing) (o : nat) (v : option thing) : nat -> option thing :=
  fun i => if i =? o then v else k i.

(* a guard is on when made, a copy is like its original, switching and stopping take effect at once *)
Definition note (k : nat -> option thing) (e : event) : nat -> option thing :=
  match e with
  | ENewGuard o f => put k o (Some (AGuard f true))
  | ESwitch o b => match k o with Some (AGuard f _) => put k o (Some (AGuard f b)) | _ => k end
  | ENewTimer o d l t => put k o (Some (ATimer d l t false))
  | EStop o _ => match k o with Some (ATimer d l t _) => put k o (Some (ATimer d l t true)) | _ => k end
  | ECopy o o' | EAssign o o' => put k o (k o')
  | _ => k
  end.
Definition known (h : list event) : nat -> option thing := fold_left note h (fun _ => None).

(* the objects that exist, the youngest first *)
Definition step_alive (l : list nat) (e : event) : list nat :=
  match e with
  | ENewGuard o _ | ENewTimer o _ _ _ | ECopy o _ => o :: l
  | EGone o _ => remove Nat.eq_dec o l
  | _ => l
  end.
Definition alive (h : list event) : list nat := fold_left step_alive h [].

(* whether the stream takes lines of this level *)
Definition step_log (x : bool * nat) (e : event) : bool * nat :=
  match e with ELog on l => (on, l) | _ => x end.
Definition log_state (h : list event) : bool * nat := fold_left step_log h (true, 0).
Definition logging (h : list event) (level : nat) : Prop :=
  fst (log_state h) = true /\ snd (log_state h) <= level.

(* the readings of the clock *)
Definition times (e : event) : list time :=
  match e with
  | ENewTimer _ _ _ t => [t]
  | EStop _ (Some (t, _)) | EPrint _ _ (Some (t, _)) | EGone _ (Wrote t _) => [t]
  | _ => []
  end.
Definition readings (h : list event) : list time := flat_map times h.

Definition made (e : event) : option nat :=
  match e with ENewGuard o _ | ENewTimer o _ _ _ | ECopy o _ => Some o | _ => None end.
Definition gone (e : event) : option nat := match e with EGone o _ => Some o | _ => None end.
Definition halt (e : event) : Prop := match e with EAbort | EUndefined => True | _ => False end.

(* a user function that throws when called; the empty function does *)
Definition Throws (f : option fn) : Prop := forall g, f = Some g -> throws g = true.

(* a clock that never shows a time before 1970 *)
Definition Sane (clock : nat -> time) : Prop := forall i, canonical (clock i) /\ (0 <= total (clock i))%Z.

(* the one line a timer may write now: elapsed time since its start, to the nanosecond *)
Definition Elapsed (clock : nat -> time) (h : list event) (desc : nat) (extra : option nat) (start : time)
  (out : time * line) : Prop :=
  let now := clock (length (readings h)) in out = (now, Line desc extra (total now - total start)%Z).

Definition fits (z : Z) : Prop := (-(2^63) <= z < 2^63)%Z.
