(* Specification of locks and semaphores with time-outs (C65). *)
From Verif Require Import Base CInt TimeModel TimeSpec PeriodSpec TimedModel.
Local Open Scope Z_scope.

(* who has what, after these returns and releases *)
Fixpoint drop (t : nat) (l : list (nat * want)) : list (nat * want) :=
  match l with [] => [] | (u, w) :: r => if (u =? t)%nat then r else (u, w) :: drop t r end.
Fixpoint holders (h : list (nat * want)) (o : list obs) : list (nat * want) :=
  match o with
  | [] => h
  | Returned t w true :: r => holders ((t, w) :: h) r
  | Returned _ _ false :: r => holders h r
  | Released t :: r => holders (drop t h) r
  end.
Definition has (t : nat) (w : want) (o : list obs) : Prop := In (t, w) (holders [] o).

(* of semaphores: successful waits and posts *)
Fixpoint takes (o : list obs) : Z := match o with [] => 0 | Returned _ _ true :: r => takes r + 1 | _ :: r => takes r end.
Fixpoint posts (o : list obs) : Z := match o with [] => 0 | Released _ :: r => posts r + 1 | _ :: r => posts r end.

(* the value a semaphore should have; it cannot exceed 2^31 - 1 *)
Fixpoint count (v : Z) (o : list obs) : Z :=
  match o with
  | [] => v
  | Returned _ _ true :: r => count (v - 1) r
  | Returned _ _ false :: r => count v r
  | Released _ :: r => count (Z.min (v + 1) (2^31 - 1)) r
  end.
(* no post comes when the value is the largest *)
Fixpoint no_overflow (v : Z) (o : list obs) : Prop :=
  match o with
  | [] => True
  | Returned _ _ true :: r => no_overflow (v - 1) r
  | Returned _ _ false :: r => no_overflow v r
  | Released _ :: r => v < 2^31 - 1 /\ no_overflow (v + 1) r
  end.

(* an object that nobody has *)
Definition fresh (o : obj) : Prop := o = Mtx None \/ o = Rwl None [].

(* may thread t have a lock in this way, as things are? *)
Definition free_for (t : nat) (w : want) (o : list obs) : Prop :=
  match w with
  | Lock => forall u, has u Lock o -> u = t
  | Read => forall u, ~ has u Write o
  | Write => forall u w', ~ has u w' o
  | Take => False
  end.

(* is it time to give up at time now2 a call that was made at time now1? *)
Definition expired (now1 : time) (h : how) (now2 : time) : Prop :=
  match h with
  | Block => False
  | Try => True
  | Until t => total t <= total now2
  | For d => if total d <? 0 then total now1 + 365 * 24 * 60 * 60 * 1000000000 <= total now2 else total now1 + total d <= total now2
  end.
(* times that can be computed with; the clock is after 1970 *)
Definition sane (h : how) : Prop := match h with Until t => moderate t | For d => moderate d | _ => True end.
Definition clock_value (t : time) : Prop := moderate t /\ 0 <= total t.
(* thread t does nothing *)
Definition others_only (t : nat) (l : history) : Prop := Forall (fun x => fst (fst x) <> t) l.

(* every post is by a thread that has taken the semaphore (ScopedSemaphore) *)
Fixpoint scoped_use (h : list (nat * want)) (o : list obs) : Prop :=
  match o with
  | [] => True
  | Returned t w true :: r => scoped_use ((t, w) :: h) r
  | Returned _ _ false :: r => scoped_use h r
  | Released t :: r => In (t, Take) h /\ scoped_use (drop t h) r
  end.

(* Win32 counts whole milliseconds from the call *)
Definition whole_ms (d : Z) : Z := d / 1000000 * 1000000.
Definition expired_ms (now1 : time) (h : how) (now2 : time) : Prop :=
  match h with
  | Block => False
  | Try => True
  | Until t => total now1 + whole_ms (Z.max 0 (total t - total now1)) <= total now2
  | For d => total now1 + whole_ms (total d) <= total now2
  end.
(* about 49.7 days *)
Definition fits_ms (now1 : time) (h : how) : Prop :=
  match h with
  | Until t => total t - total now1 < (2^32 - 1) * 1000000
  | For d => 0 <= total d < (2^32 - 1) * 1000000
  | _ => True
  end.
(* when a call with these time-outs gives up on each platform *)
Definition gives_up (p : platform) (now1 : time) (h : how) (now2 : time) : Prop :=
  match p with Win32 => expired_ms now1 h now2 | _ => expired now1 h now2 end.
Definition in_range (p : platform) (now1 : time) (h : how) : Prop :=
  sane h /\ match p with Win32 => fits_ms now1 h | _ => True end.
(* a thread that asks for a lock while it writes itself: refused at once, except by the polling loops *)
Definition refused (p : platform) (h : how) (t : nat) (o : list obs) : Prop :=
  has t Write o /\ (p = Darwin -> h = Block \/ h = Try).
