(* Specification of periodic threads with a timer descriptor (C64). *)
From Verif Require Import Base CInt TimeModel TimeSpec PTimerModel.
Local Open Scope Z_scope.

(* a period the timer can be set to *)
Definition proper (p : time) : Prop := 0 <= secs p < 2 ^ 32 /\ 0 <= nsecs p < 1000000000 /\ 0 < total p.

(* the times of the returns of waitPeriod() because of the timer *)
Fixpoint wakes (o : list (Z * obs)) : list Z :=
  match o with
  | [] => []
  | (t, Woke true) :: r => t :: wakes r
  | _ :: r => wakes r
  end.
(* how many periods have passed since s, at time t *)
Definition periods_since (s p t : Z) : Z := (t - s) / p.
Fixpoint increasing (l : list Z) : Prop := match l with x :: (y :: _) as r => x < y /\ increasing r | _ => True end.

(* the calls of waitPeriod() that returned because of the timer: when they began and when they returned; pending: one that has begun *)
Fixpoint waits (pending : Z) (o : list (Z * obs)) : list (Z * Z) :=
  match o with
  | [] => []
  | (t, Wait) :: r => waits t r
  | (t, Woke true) :: r => (pending, t) :: waits pending r
  | _ :: r => waits pending r
  end.
(* every round's work takes at most w from the return of the last wait, and the thread runs at most d after the time when it should *)
Fixpoint in_time (s p w d prev : Z) (l : list (Z * Z)) : Prop :=
  match l with
  | [] => True
  | (b, r) :: l' =>
    b <= prev + w /\ r <= Z.max b (s + (periods_since s p prev + 1) * p) + d /\ in_time s p w d r l'
  end.
(* the k-th wait returns at most d after the k-th multiple of the period *)
Fixpoint on_schedule (s p d k : Z) (l : list (Z * Z)) : Prop :=
  match l with
  | [] => True
  | (_, r) :: l' => s + k * p <= r <= s + k * p + d /\ on_schedule s p d (k + 1) l'
  end.

(* ---- rounds ---- *)
(* where an observer of the thread is: it is not in a round, in a round that has run these operations, after a round, waiting *)
Inductive phase := Idle | Round (done : list op) | After | Waiting.
(* known: the operations that were added, in this order. A round runs them all, once each and in this order, with those that
   are added meanwhile; between two rounds there is a wait *)
Fixpoint proper_rounds (known : list op) (p : phase) (o : list (Z * obs)) : Prop :=
  match o with
  | [] => True
  | (_, x) :: r =>
    match x, p with
    | PeriodSet _, _ => proper_rounds known p r
    | Added a, _ => proper_rounds (known ++ [a]) p r
    | Begin, Idle => proper_rounds known (Round []) r
    | Ran a, Round done => nth_error known (length done) = Some a /\ proper_rounds known (Round (done ++ [a])) r
    | End, Round done => done = known /\ proper_rounds known After r
    | Wait, After => proper_rounds known Waiting r
    | Woke _, Waiting => proper_rounds known Idle r
    | Finished, (Idle | After) => proper_rounds known Idle r
    | _, _ => False
    end
  end.
(* the operations that were run *)
Fixpoint ran (o : list (Z * obs)) : list op :=
  match o with [] => [] | (_, Ran a) :: r => a :: ran r | _ :: r => ran r end.
Definition occurs (x : obs) (o : list (Z * obs)) : Prop := exists t, In (t, x) o.
(* nobody set a period *)
Definition undisturbed (o : list (Z * obs)) : Prop := forall b, ~ occurs (PeriodSet b) o.
Fixpoint count_wokes (o : list (Z * obs)) : nat :=
  match o with [] => O | (_, Woke _) :: r => S (count_wokes r) | _ :: r => count_wokes r end.

(* the period of the thread was set to p at time t, and that succeeded *)
Definition armed (max : nat) (s : state) (t : Z) (p : time) : Prop :=
  exists al per l s1 o1 e, runs max (new_thread al per) l = Ok (s1, o1) /\ step max s1 t e = Ok (s, [PeriodSet true]) /\ m_period s = p.
Definition no_signal (l : list (Z * event)) : Prop := Forall (fun te => snd te <> Signal) l.
Definition no_start (l : list (Z * event)) : Prop := Forall (fun te => snd te <> Start) l.
Definition in_a_round (s : state) : Prop := exists i, at_ s = At i.
(* the thread runs at these times *)
Definition steps_at (ts : list Z) : list (Z * event) := map (fun t => (t, Step [])) ts.
(* the thread is started and at once stopped, n times *)
Definition start_stop (t : Z) : list (Z * event) := [(t, Start); (t, Step []); (t, Stop); (t, Step [])].
Fixpoint cycles (n : nat) (t : Z) : list (Z * event) := match n with O => [] | S m => start_stop t ++ cycles m t end.
