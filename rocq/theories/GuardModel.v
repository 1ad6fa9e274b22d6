(* Model of AtScopeEnd.h (src/icl_core/src/icl_core) and ScopedTimer.h (src/icl_core/src/icl_core_logging) used in C++
   programs with nested scopes, loops, exceptions and copies of the objects.
   The C++ rules for automatic objects (destroyed in reverse order of construction when their scope is left, normally or by
   an exception; std::terminate when a destructor throws during unwinding, or at all from C++11 on) are part of the model.
   Simplifications: texts and user functions are numbers; a user function only runs and returns or throws, it does not touch
   other guards; one thread; a name that is not in scope (does not compile) makes a statement do nothing; the file name,
   line, class and object name given to the thread stream are left out; what the log stream does with a line is in
   LogStreamModel.v and LogTextModel.v. *)
From Verif Require Import Base CInt TimeModel.
Local Open Scope nat_scope.

(* boost::function<void()>: None is the empty function, calling it throws bad_function_call *)
Record fn := Fn { tag : nat; throws : bool }.
Definition call_throws (f : option fn) : bool := match f with None => true | Some g => throws g end.

(* AtScopeEnd.h:61-65 (m_func, m_run_at_scope_end); ScopedTimer.h:121-129 (m_description, m_level, m_start_time, m_active) *)
Inductive obj :=
| Guard (f : option fn) (run : bool)
| Timer (desc level : nat) (start : time) (active : bool).

Inductive prog :=
| Skip
| Work (w : nat)
| Raise
| Seq (p q : prog)
| Scope (p : prog)
| Loop (n : nat) (p : prog)
| Try (p h : prog)
| MkGuard (x : nat) (f : option fn)
| Enable (x : nat)
| Disable (x : nat)
| MkTimer (x desc level : nat)
| Stop (x : nat)
| Print (x : nat) (extra : option nat)
| Copy (x y : nat)               (* T x(y); *)
| Assign (x y : nat)             (* x = y; guards only: the members of a ScopedTimer are const *)
| SetLog (on : bool) (level : nat).

(* a line of log output: description, extra description, nanoseconds *)
Inductive line := Line (desc : nat) (extra : option nat) (ns : Z).
(* what a destructor did *)
Inductive effect := Quiet | Ran (f : option fn) | Wrote (now : time) (l : line).
(* everything that can be seen of a run *)
Inductive event :=
| EWork (w : nat)
| ERaise
| ENewGuard (o : nat) (f : option fn)
| ESwitch (o : nat) (on : bool)
| ENewTimer (o desc level : nat) (start : time)
| EStop (o : nat) (out : option (time * line))
| EPrint (o : nat) (extra : option nat) (out : option (time * line))
| ECopy (o from : nat)
| EAssign (o from : nat)
| EGone (o : nat) (e : effect)
| ELog (on : bool) (level : nat)
| EAbort
| EUndefined.

Inductive outcome := Normal | Throwing | Halted.

(* env: the automatic objects, innermost first, with name and identity *)
Record st := St { env : list (nat * nat * obj); next : nat; reads : nat; log_on : bool; log_level : nat; trace : list event }.

Definition emit (e : event) (s : st) : st :=
  St (env s) (next s) (reads s) (log_on s) (log_level s) (trace s ++ [e]).
Definition set_env (v : list (nat * nat * obj)) (s : st) : st :=
  St v (next s) (reads s) (log_on s) (log_level s) (trace s).
Definition push (x : nat) (b : obj) (s : st) : st :=
  St ((x, next s, b) :: env s) (S (next s)) (reads s) (log_on s) (log_level s) (trace s).
Definition read (s : st) : st :=
  St (env s) (next s) (S (reads s)) (log_on s) (log_level s) (trace s).

Fixpoint lookup (x : nat) (v : list (nat * nat * obj)) : option (nat * obj) :=
  match v with
  | [] => None
  | (y, o, b) :: r => if y =? x then Some (o, b) else lookup x r
  end.
Fixpoint replace (x : nat) (b : obj) (v : list (nat * nat * obj)) : list (nat * nat * obj) :=
  match v with
  | [] => []
  | (y, o, c) :: r => if y =? x then (y, o, b) :: r else (y, o, c) :: replace x b r
  end.

Section Run.
  Variable clock : nat -> time.   (* the successive results of TimeStamp::now() *)
  Variable cxx11 : bool.          (* destructors are noexcept *)

  (* ScopedTimer.h:81-96 with SLOGGING_LOG_FLCO (LoggingMacros_SLOGGING.h:55-71): the clock is only read if the line is written;
     None: nothing is written *)
  Definition print_line (s : st) (desc level : nat) (start : time) (extra : option nat) : option (result (time * line)) :=
    if log_on s && (log_level s <=? level)
    then let now := clock (reads s) in
         Some (bind (stamp_diff now start) (fun d => bind (to_nsec d) (fun ns => Ok (now, Line desc extra ns))))
    else None.

  (* AtScopeEnd.h:48-54, ScopedTimer.h:113-119; [out]: how the scope is being left *)
  Definition destroy (o : nat) (b : obj) (out : outcome) (s : st) : outcome * st :=
    match b with
    | Guard f true =>
      let s1 := emit (EGone o (Ran f)) s in
      if call_throws f
      then match cxx11, out with
           | false, Normal => (Throwing, s1)
           | _, _ => (Halted, emit EAbort s1)
           end
      else (out, s1)
    | Guard _ false => (out, emit (EGone o Quiet) s)
    | Timer d l start true =>
      match print_line s d l start None with
      | None => (out, emit (EGone o Quiet) s)
      | Some (Ok (now, ln)) => (out, emit (EGone o (Wrote now ln)) (read s))
      | Some _ => (Halted, emit EUndefined s)
      end
    | Timer _ _ _ false => (out, emit (EGone o Quiet) s)
    end.

  (* the C++ rule for leaving a scope: the last [k] objects, innermost first *)
  Fixpoint unwind (k : nat) (out : outcome) (s : st) : outcome * st :=
    match k with
    | O => (out, s)
    | S k' =>
      match env s with
      | [] => (out, s)
      | (x, o, b) :: r =>
        match destroy o b out (set_env r s) with
        | (Halted, s1) => (Halted, s1)
        | (out1, s1) => unwind k' out1 s1
        end
      end
    end.

  Definition scope (body : st -> outcome * st) (s : st) : outcome * st :=
    match body s with
    | (Halted, s1) => (Halted, s1)
    | (out, s1) => unwind (length (env s1) - length (env s)) out s1
    end.

  Fixpoint repeat_ (n : nat) (body : st -> outcome * st) (s : st) : outcome * st :=
    match n with
    | O => (Normal, s)
    | S m => match body s with
             | (Normal, s1) => repeat_ m body s1
             | r => r
             end
    end.

  Fixpoint exec (p : prog) (s : st) : outcome * st :=
    match p with
    | Skip => (Normal, s)
    | Work w => (Normal, emit (EWork w) s)
    | Raise => (Throwing, emit ERaise s)
    | Seq p q => match exec p s with
                 | (Normal, s1) => exec q s1
                 | r => r
                 end
    | Scope p => scope (exec p) s
    | Loop n p => repeat_ n (scope (exec p)) s
    | Try p h => match scope (exec p) s with
                 | (Throwing, s1) => scope (exec h) s1
                 | r => r
                 end
    (* AtScopeEnd.h:42-45 *)
    | MkGuard x f => (Normal, emit (ENewGuard (next s) f) (push x (Guard f true) s))
    (* AtScopeEnd.h:59 *)
    | Enable x => match lookup x (env s) with
                  | Some (o, Guard f _) => (Normal, emit (ESwitch o true) (set_env (replace x (Guard f true) (env s)) s))
                  | _ => (Normal, s)
                  end
    (* AtScopeEnd.h:57 *)
    | Disable x => match lookup x (env s) with
                   | Some (o, Guard f _) => (Normal, emit (ESwitch o false) (set_env (replace x (Guard f false) (env s)) s))
                   | _ => (Normal, s)
                   end
    (* ScopedTimer.h:64-78 *)
    | MkTimer x d l =>
      let now := clock (reads s) in
      (Normal, emit (ENewTimer (next s) d l now) (push x (Timer d l now true) (read s)))
    (* ScopedTimer.h:101-108 *)
    | Stop x =>
      match lookup x (env s) with
      | Some (o, Timer d l start a) =>
        let stopped := fun s' => set_env (replace x (Timer d l start false) (env s')) s' in
        if a then
          match print_line s d l start None with
          | None => (Normal, emit (EStop o None) (stopped s))
          | Some (Ok r) => (Normal, emit (EStop o (Some r)) (stopped (read s)))
          | Some _ => (Halted, emit EUndefined s)
          end
        else (Normal, emit (EStop o None) (stopped s))
      | _ => (Normal, s)
      end
    (* ScopedTimer.h:81-96 *)
    | Print x extra =>
      match lookup x (env s) with
      | Some (o, Timer d l start _) =>
        match print_line s d l start extra with
        | None => (Normal, emit (EPrint o extra None) s)
        | Some (Ok r) => (Normal, emit (EPrint o extra (Some r)) (read s))
        | Some _ => (Halted, emit EUndefined s)
        end
      | _ => (Normal, s)
      end
    (* the implicit copy constructors (AtScopeEnd.h:38-66, ScopedTimer.h:43-130): member by member *)
    | Copy x y =>
      match lookup y (env s) with
      | Some (o, b) => (Normal, emit (ECopy (next s) o) (push x b s))
      | None => (Normal, s)
      end
    (* the implicit copy assignment of AtScopeEnd *)
    | Assign x y =>
      match lookup x (env s), lookup y (env s) with
      | Some (o, Guard _ _), Some (o', Guard f b) =>
        (Normal, emit (EAssign o o') (set_env (replace x (Guard f b) (env s)) s))
      | _, _ => (Normal, s)
      end
    (* LogStream::setActive, setLogLevel *)
    | SetLog on l => (Normal, emit (ELog on l) (St (env s) (next s) (reads s) on l (trace s)))
    end.

  Definition start_ : st := St [] 0 0 true 0 [].

  (* a whole program: the body of a function whose caller catches everything *)
  Definition run (p : prog) : outcome * st := exec (Try p Skip) start_.
End Run.
