(* C68: scope guards and scoped timers *)
From Verif Require Import Base CInt TimeModel TimeSpec GuardModel GuardSpec GuardProofs.
Local Open Scope nat_scope.

(* Every guard and timer a program makes is destroyed exactly once, however its scope is left; a guard then runs the function
   it was given if it was last enabled, and nothing else. *)
Theorem C68_exactly_once (clock : nat -> time) (cxx11 : bool) (p : prog) (o : nat) (e : event) :
  Sane clock -> fst (run clock cxx11 p) = Normal ->
  In e (trace (snd (run clock cxx11 p))) -> made e = Some o ->
  exists pre eff post, trace (snd (run clock cxx11 p)) = pre ++ EGone o eff :: post /\
    (forall e', In e' pre \/ In e' post -> gone e' <> Some o) /\
    (forall f on, known pre o = Some (AGuard f on) -> eff = if on then Ran f else Quiet).
Proof. intros. apply (run_exactly_once clock cxx11) with (e := e); assumption. Qed.
Print Assumptions C68_exactly_once.

(* No function runs early: only a guard that is on and is the youngest object alive runs its function. *)
Theorem C68_not_early (clock : nat -> time) (cxx11 : bool) (p : prog) pre o f post :
  Sane clock -> trace (snd (run clock cxx11 p)) = pre ++ EGone o (Ran f) :: post ->
  known pre o = Some (AGuard f true) /\ exists l, alive pre = o :: l.
Proof. intros. apply (run_not_early clock cxx11) with (p := p) (post := post); assumption. Qed.
Print Assumptions C68_not_early.

(* Objects go in the reverse order of their making. *)
Theorem C68_reverse_order (clock : nat -> time) (cxx11 : bool) (p : prog) pre o eff post :
  Sane clock -> trace (snd (run clock cxx11 p)) = pre ++ EGone o eff :: post -> exists l, alive pre = o :: l.
Proof. intros. apply (run_lifo clock cxx11) with (p := p) (eff := eff) (post := post); assumption. Qed.
Print Assumptions C68_reverse_order.

(* { AtScopeEnd x(f); body }: the very last thing to happen in the scope, after everything in the body and whether the body
   finishes or throws, is the end of the guard. *)
Theorem C68_closing_brace (clock : nat -> time) (cxx11 : bool) q s x f body out s' :
  Sane clock -> exec clock cxx11 q start_ = (Normal, s) ->
  exec clock cxx11 (Scope (Seq (MkGuard x f) body)) s = (out, s') -> out <> Halted ->
  exists o mid eff, trace s' = trace s ++ ENewGuard o f :: mid ++ [EGone o eff] /\
    (forall g on, known (trace s ++ ENewGuard o f :: mid) o = Some (AGuard g on) -> eff = if on then Ran g else Quiet).
Proof. intros S0. apply (closing_brace clock cxx11 S0). Qed.
Print Assumptions C68_closing_brace.

(* Guards neither swallow nor raise: unless a cleanup function throws, a scope ends the way its body does. *)
Theorem C68_exceptions_pass (clock : nat -> time) (cxx11 : bool) q s p out s1 out' s' :
  Sane clock -> exec clock cxx11 q start_ = (Normal, s) -> exec clock cxx11 p s = (out, s1) ->
  exec clock cxx11 (Scope p) s = (out', s') -> out' <> Halted ->
  (forall o f, In (EGone o (Ran f)) (trace s') -> ~ Throws f) -> out' = out.
Proof. intros S0. apply (exceptions_pass clock cxx11 S0). Qed.
Print Assumptions C68_exceptions_pass.

(* A program is only killed if a cleanup function throws (or is empty); from C++11 on it then always is. *)
Theorem C68_killed_only_by_a_throwing_cleanup (clock : nat -> time) (cxx11 : bool) (p : prog) :
  Sane clock ->
  (In EAbort (trace (snd (run clock cxx11 p))) ->
     exists o f, In (EGone o (Ran f)) (trace (snd (run clock cxx11 p))) /\ Throws f) /\
  (cxx11 = true -> forall o f, In (EGone o (Ran f)) (trace (snd (run clock cxx11 p))) -> Throws f ->
     fst (run clock cxx11 p) = Halted).
Proof. intros S0. split; [apply (run_abort clock cxx11 S0)|]. intros Hc o f. apply (run_calm clock cxx11 S0); assumption. Qed.
Print Assumptions C68_killed_only_by_a_throwing_cleanup.

(* If no cleanup function throws and no two readings of the clock are 292 years apart, every program runs to its end. *)
Theorem C68_runs_to_the_end (clock : nat -> time) (cxx11 : bool) (p : prog) :
  Sane clock -> (forall i j, fits (total (clock i) - total (clock j))%Z) ->
  (forall o f, In (EGone o (Ran f)) (trace (snd (run clock cxx11 p))) -> ~ Throws f) ->
  fst (run clock cxx11 p) = Normal.
Proof. intros S0. apply (run_completes clock cxx11 S0). Qed.
Print Assumptions C68_runs_to_the_end.

(* While its level is logged, a scoped timer writes exactly one report, when it is first stopped or else when its scope ends. *)
Theorem C68_one_report (clock : nat -> time) (cxx11 : bool) (p : prog) o d l t :
  Sane clock -> fst (run clock cxx11 p) = Normal ->
  (forall pre post, trace (snd (run clock cxx11 p)) = pre ++ post -> logging pre l) ->
  In (ENewTimer o d l t) (trace (snd (run clock cxx11 p))) ->
  length (filter (fun e => match e with EStop n (Some _) => n =? o | EGone n (Wrote _ _) => n =? o | _ => false end)
    (trace (snd (run clock cxx11 p)))) = 1.
Proof. intros S0. apply (run_report clock cxx11 S0). Qed.
Print Assumptions C68_one_report.

(* Every line shows the nanoseconds between the reading taken when the timer was made and the reading taken for the line, and is
   only written when its level is logged; with a clock that does not go back it is never negative. *)
Theorem C68_lines (clock : nat -> time) (cxx11 : bool) (p : prog) pre e post o now d x ns :
  Sane clock -> trace (snd (run clock cxx11 p)) = pre ++ e :: post ->
  (e = EStop o (Some (now, Line d x ns)) \/ (exists x', e = EPrint o x' (Some (now, Line d x ns))) \/ e = EGone o (Wrote now (Line d x ns))) ->
  exists l b i, i < length (readings pre) /\ known pre o = Some (ATimer d l (clock i) b) /\ logging pre l /\
    now = clock (length (readings pre)) /\ ns = (total now - total (clock i))%Z /\
    ((forall j k, j <= k -> (total (clock j) <= total (clock k))%Z) -> (0 <= ns)%Z).
Proof.
  intros S0 E W. assert (W' : written e = Some (o, now, Line d x ns)) by (destruct W as [->|[[x' ->]| ->]]; reflexivity).
  destruct (run_line clock cxx11 S0 p pre e post o now d x ns E W') as (l & b & i & H1 & H2 & H3 & H4 & H5).
  exists l, b, i. split; [exact H1|]. split; [exact H2|]. split; [exact H3|]. split; [exact H4|]. split; [exact H5|].
  intros M. rewrite H5, H4. specialize (M i (length (readings pre)) (Nat.lt_le_incl _ _ H1)). apply Z.le_0_sub. exact M.
Qed.
Print Assumptions C68_lines.

(* The objects can be copied, and the copy cleans up again: after AtScopeEnd y(x) the function runs twice. *)
Theorem C68_copies_clean_up_again (clock : nat -> time) (cxx11 : bool) x y f :
  throws f = false -> x <> y ->
  trace (snd (run clock cxx11 (Seq (MkGuard x (Some f)) (Copy y x)))) =
    [ENewGuard 0 (Some f); ECopy 1 0; EGone 1 (Ran (Some f)); EGone 0 (Ran (Some f))].
Proof. apply copy_twice. Qed.
Print Assumptions C68_copies_clean_up_again.

(* non-vacuity: an exception out of a loop, nested guards, one of them disabled, one enabled again, a timer stopped early *)
Definition c68_clock (n : nat) : time := T (Z.of_nat (Nat.min n 50)) 500.
Definition c68_f (n : nat) : option fn := Some (Fn n false).
Definition c68_prog : prog :=
  Seq (MkGuard 0 (c68_f 10)) (Seq (MkTimer 1 7 2) (Seq (MkGuard 2 (c68_f 11)) (Seq (Disable 2)
  (Seq (Loop 2 (Seq (MkGuard 3 (c68_f 12)) (Work 5))) (Seq (Stop 1) (Seq (Scope (Seq (MkGuard 4 (c68_f 13)) (Seq (Disable 4) (Seq (Enable 4) Raise)))) (Work 6))))))).

Example C68_run_ex : run c68_clock true c68_prog =
  (Normal, St [] 6 2 true 0
    [ENewGuard 0 (c68_f 10); ENewTimer 1 7 2 (T 0 500); ENewGuard 2 (c68_f 11); ESwitch 2 false;
     ENewGuard 3 (c68_f 12); EWork 5; EGone 3 (Ran (c68_f 12)); ENewGuard 4 (c68_f 12); EWork 5; EGone 4 (Ran (c68_f 12));
     EStop 1 (Some (T 1 500, Line 7 None 1000000000));
     ENewGuard 5 (c68_f 13); ESwitch 5 false; ESwitch 5 true; ERaise; EGone 5 (Ran (c68_f 13));
     EGone 2 Quiet; EGone 1 Quiet; EGone 0 (Ran (c68_f 10))]).
Proof. vm_compute. reflexivity. Qed.
Example C68_throwing_cleanup_ex :
  fst (run c68_clock true (MkGuard 0 (Some (Fn 1 true)))) = Halted /\
  fst (run c68_clock false (MkGuard 0 (Some (Fn 1 true)))) = Normal /\
  fst (run c68_clock false (Seq (MkGuard 0 (Some (Fn 1 true))) Raise)) = Halted /\
  fst (run c68_clock true (MkGuard 0 None)) = Halted /\
  fst (run c68_clock true (Seq (MkGuard 0 None) (Disable 0))) = Normal.
Proof. vm_compute. auto. Qed.
Example C68_prog_sane_ex : Sane c68_clock /\ forall i j, fits (total (c68_clock i) - total (c68_clock j)).
Proof.
  assert (H : forall n, (0 <= Z.of_nat (Nat.min n 50) <= 50)%Z) by (intros; lia).
  split.
  - intros n. specialize (H n). unfold c68_clock, canonical, total, in_i64. cbn [secs nsecs]. lia.
  - intros i j. pose proof (H i). pose proof (H j). unfold c68_clock, fits, total. cbn [secs nsecs]. lia.
Qed.
Definition c68_still (n : nat) : time := T 5 0.
Example C68_sane_ex : Sane c68_still.
Proof. intros n. unfold c68_still, canonical, total. cbn. split; [split; [reflexivity|lia]|lia]. Qed.
Example C68_sane_step_ex : Sane (fun n => if n =? 0 then T 5 999999999 else T 7 1).
Proof. intros n. destruct (n =? 0); unfold canonical, total; cbn; (split; [split; [reflexivity|lia]|lia]). Qed.
Example C68_fits_ex : forall i j, fits (total (c68_still i) - total (c68_still j)).
Proof. intros. unfold c68_still, fits, total. cbn. lia. Qed.
Example C68_timer_at_end_ex : trace (snd (run (fun n => if n =? 0 then T 5 999999999 else T 7 1) true (MkTimer 0 1 3))) =
  [ENewTimer 0 1 3 (T 5 999999999); EGone 0 (Wrote (T 7 1) (Line 1 None 1000000002))].
Proof. vm_compute. reflexivity. Qed.
Example C68_clock_back_ex : trace (snd (run (fun n => if n =? 0 then T 7 1 else T 5 999999999) true (MkTimer 0 1 3))) =
  [ENewTimer 0 1 3 (T 7 1); EGone 0 (Wrote (T 5 999999999) (Line 1 None (-1000000002)))].
Proof. vm_compute. reflexivity. Qed.
