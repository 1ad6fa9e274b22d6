(* Vocabulary of C50: what becomes of the messages given to a log output stream with a worker thread. *)
From Verif Require Import Conc LogOutputModel.

(* the message the worker has taken from the queue and not yet output *)
Definition in_hand (w : wpc) : list msg := match w with W597 (Some m) | W601 m => [m] | _ => [] end.
(* the worker is running its loop *)
Definition working (w : wpc) : Prop :=
  match w with W567 | W569 | W606 | W574 | W577 | W589 | W597 _ | W601 _ => True | _ => False end.
(* no call of push() has got past its entrance *)
Definition no_push_under_way (s : st) : Prop := forall t, pu s t = PIdle \/ exists m, pu s t = P156 m.
(* only the worker moves *)
Definition worker_alone (s s' : st) : Prop := wstep s = Some s'.
(* no new calls, no failures *)
Definition internal (s s' : st) : Prop := (exists t, pstep t s = Some s') \/ wstep s = Some s' \/ cstep s = Some s'.
(* l starts with the first n elements of k, and l has that many *)
Definition has_first (n : nat) (k l : list msg) : Prop := n <= length k /\ exists r, l = firstn n k ++ r.

(* a bounded FIFO: what a queue of fixed size should be *)
Inductive op := OPush (m : msg) | OPop.
Fixpoint fifo_run (cap : nat) (l : list msg) (os : list op) : list (option msg) :=
  match os with
  | [] => []
  | OPush m :: r => fifo_run cap (if length l <? cap then l ++ [m] else l) r
  | OPop :: r => match l with [] => None :: fifo_run cap [] r | m :: l' => Some m :: fifo_run cap l' r end
  end.
(* the results of the pops of the real one *)
Fixpoint fixed_run (q : fixed) (os : list op) : result (list (option msg)) :=
  match os with
  | [] => Ok []
  | OPush m :: r => bind (fpush q m) (fun q' => fixed_run q' r)
  | OPop :: r => bind (fpop q) (fun p => bind (fixed_run (snd p) r) (fun l => Ok (fst p :: l)))
  end.

(* schedules *)
Inductive label := LP (t : tid) | LW | LC | LCall (t : tid) (m : msg) | LStart | LShutdown | LIntrPop | LIntrDrain.
Definition act (l : label) (s : st) : option st :=
  match l with
  | LP t => pstep t s
  | LW => wstep s
  | LC => cstep s
  | LCall t m => match pu s t with PIdle => Some (set_pu s t (P156 m)) | _ => None end
  | LStart => if resting (ctl s) then Some (set_ctl s S97) else None
  | LShutdown => if resting (ctl s) then Some (set_ctl (set_mark s (length (pushed s))) D520) else None
  | LIntrPop => match wk s with W577 => Some (set_wk s W567) | _ => None end
  | LIntrDrain => match wk s with W614 => Some (set_wk s W138) | _ => None end
  end.
Fixpoint run (ls : list label) (s : st) : option st := match ls with [] => Some s | l :: r => match act l s with Some s' => run r s' | None => None end end.
Definition after (ls : list label) : st := match run ls init with Some s => s | None => init end.
Definition interrupts (l : label) : bool := match l with LIntrPop | LIntrDrain => true | _ => false end.
