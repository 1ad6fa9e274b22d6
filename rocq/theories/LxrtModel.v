(* The checks for LXRT: icl_core/os_lxrt.cpp:55-297; icl_core/os_lxrt.h:59-80.

   /proc/modules is a text that does not change during one check (None: it cannot be opened); each check reads it anew.
   std::istream::getline(char*, n) is modelled from its documentation.  The variant of the build is a parameter: without LXRT, with the
   extension of RTAI 3.3 or 3.5 (_SYSTEM_LXRT_33_, _SYSTEM_LXRT_35_), or with plain RTAI.  RTAI itself is external: of the calling task its
   model keeps whether it has a real-time task (rt_buddy()) and whether that is in hard real-time; the results of mlockall, sched_setscheduler and
   rt_task_init are inputs.  After makeThisALinuxTask (253-297) the task has no real-time task any more.  Output of
   printf, the timer (228-243) and lxrtGetExecTime are not modelled; one thread. *)
From Verif Require Import Base Text.

Definition nl : ascii := ascii_of_nat 10.
(* getline(line, 200): the characters stored, what is left, and whether the stream is good() afterwards.  [room]: how many more can be stored *)
Fixpoint getline (room : nat) (s : str) {struct s} : str * str * bool :=
  match s with
  | [] => ([], [], false)                                     (* eofbit *)
  | c :: r =>
    if Ascii.eqb c nl then ([], r, true)
    else match room with
         | O => ([], s, false)                                (* failbit *)
         | S k => let '(l, rest, g) := getline k r in (c :: l, rest, g)
         end
  end.
(* !strncmp(line, name, strlen(name)): line is followed by a NUL, name has none *)
Fixpoint begins (name line : str) : bool :=
  match name, line with
  | [], _ => true
  | a :: n, b :: l => Ascii.eqb a b && begins n l
  | _ :: _, [] => false
  end.
(* os_lxrt.cpp:87-96; [fuel]: each turn that goes on takes a line away (LxrtProofs) *)
Fixpoint read_modules (fuel : nat) (s : str) (name : str) : bool :=
  match fuel with
  | O => false
  | S f => let '(l, rest, g) := getline 199 s in
           if begins name l then true else if g then read_modules f rest name else false
  end.
(* os_lxrt.cpp:83-97 *)
Definition checkKernelModule (modules : option str) (name : str) : bool :=
  match modules with None => false | Some s => read_modules (S (length s)) s name end.

Inductive variant := NoLxrt | WithExtension | PlainRtai.
(* os_lxrt.cpp:58; the real-time task of the caller and its mode *)
Record st := mkSt { available : bool; buddy : bool; hard : bool }.
Definition init : st := mkSt false false false.

(* os_lxrt.cpp:99-139: the answer *)
Definition all_loaded (v : variant) (m : option str) : bool :=
  match v with
  | NoLxrt => false
  | WithExtension => checkKernelModule m $"mca_lxrt_extension"
  | PlainRtai => if checkKernelModule m $"rtai_hal" then if checkKernelModule m $"rtai_lxrt" then checkKernelModule m $"rtai_sem" else false else false
  end.
Definition checkForLxrt (v : variant) (m : option str) (s : st) : bool * st :=
  if all_loaded v m then (true, mkSt true (buddy s) (hard s)) else (false, s).
(* os_lxrt.cpp:141-148 *)
Definition isLxrtAvailable (v : variant) (s : st) : bool := match v with NoLxrt => false | _ => available s end.
(* os_lxrt.cpp:150-157 *)
Definition isThisLxrtTask (v : variant) (s : st) : bool := match v with NoLxrt => false | _ => available s && buddy s end.
(* os_lxrt.cpp:159-166 *)
Definition isThisHRT (v : variant) (s : st) : bool := match v with NoLxrt => false | _ => available s && buddy s && hard s end.
(* os_lxrt.cpp:168-178 *)
Definition ensureNoHRT (v : variant) (s : st) : bool * st :=
  if isThisHRT v s then (true, mkSt (available s) (buddy s) false) else (false, s).
(* os_lxrt.cpp:180-185; without a real-time task RTAI does nothing *)
Definition makeHRT (v : variant) (s : st) : st := match v with NoLxrt => s | _ => if buddy s then mkSt (available s) true true else s end.
(* os_lxrt.cpp:187-250; None: exit(1) *)
Definition makeThisAnLxrtTask (v : variant) (locked sched task : bool) (s : st) : option (Z * st) :=
  match v with
  | NoLxrt => Some (0%Z, s)
  | _ =>
    if negb (available s) then Some (0%Z, s)
    else if isThisLxrtTask v s then Some (0%Z, s)
    else if negb locked then Some (0%Z, s)
    else if negb sched then None
    else if negb task then None
    else Some (1%Z, mkSt (available s) true false)
  end.
(* os_lxrt.cpp:253-297 *)
Definition makeThisALinuxTask (v : variant) (s : st) : st := if isThisLxrtTask v s then mkSt (available s) false false else s.

(* a program's calls *)
Inductive call :=
| CCheck (m : option str) | CStartup (m : option str) (locked sched task : bool) | CShutdown
| CMakeTask (locked sched task : bool) | CMakeLinux | CMakeHRT | CNoHRT.
Definition lift (r : option (Z * st)) : option st := match r with Some (_, s) => Some s | None => None end.
(* os_lxrt.cpp:61-81 for lxrtStartup and lxrtShutdown *)
Definition run1 (v : variant) (s : st) (c : call) : option st :=
  match c with
  | CCheck m => Some (snd (checkForLxrt v m s))
  | CStartup m a b d => match v with NoLxrt => Some s | _ => lift (makeThisAnLxrtTask v a b d (snd (checkForLxrt v m s))) end
  | CShutdown | CMakeLinux => Some (makeThisALinuxTask v s)
  | CMakeTask a b d => lift (makeThisAnLxrtTask v a b d s)
  | CMakeHRT => Some (makeHRT v s)
  | CNoHRT => Some (snd (ensureNoHRT v s))
  end.
Fixpoint runs (v : variant) (s : st) (l : list call) : option st :=
  match l with [] => Some s | c :: r => match run1 v s c with Some s' => runs v s' r | None => None end end.
