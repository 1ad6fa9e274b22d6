(* Vocabulary of C40, in terms of the observable history of pushes, invocations and deletions. *)
From Verif Require Import Conc ActiveObjectModel.

(* the history of one operation *)
Definition about (o : op) (e : event) : bool :=
  match e with EPush x | EInvoke x | EDelete x => x =? o | EStop => false end.
Definition history (o : op) (l : list event) : list event := filter (about o) l.

(* The permitted lives of an operation: nothing yet, rejected, waiting, invoked but not yet deleted,
   discarded without being run, run and deleted. *)
Definition good_history (o : op) (h : list event) : Prop :=
  h = [] \/ h = [EDelete o] \/ h = [EPush o] \/ h = [EPush o; EInvoke o] \/
  h = [EPush o; EDelete o] \/ h = [EPush o; EInvoke o; EDelete o].

Definition pushes (l : list event) : list op := flat_map (fun e => match e with EPush o => [o] | _ => [] end) l.
Definition invokes (l : list event) : list op := flat_map (fun e => match e with EInvoke o => [o] | _ => [] end) l.

(* l1 is obtained from l2 by leaving elements out *)
Inductive subsequence {A : Type} : list A -> list A -> Prop :=
| sub_nil : subsequence [] []
| sub_skip : forall x l1 l2, subsequence l1 l2 -> subsequence l1 (x :: l2)
| sub_take : forall x l1 l2, subsequence l1 l2 -> subsequence (x :: l1) (x :: l2).

(* every client is outside queue() and stop() *)
Definition clients_idle (s : st) : Prop := forall t, cl s t = CIdle.

(* n actions of the worker alone *)
Fixpoint wrun (n : nat) (s : st) : option st :=
  match n with O => Some s | S n => match wstep s with Some s' => wrun n s' | None => None end end.

(* an execution in which the worker acts n times and m_execute is true in every state *)
Inductive exec : nat -> st -> st -> Prop :=
| exec_nil : forall s, execute s = true -> exec 0 s s
| exec_worker : forall n s s1 s2, execute s = true -> step ByWorker s s1 -> exec n s1 s2 -> exec (S n) s s2
| exec_other : forall n s s1 s2, execute s = true -> step ByOther s s1 -> exec n s1 s2 -> exec n s s2.

(* C++ data race: two threads are about to access the same list, one of them writes it, and they hold no
   common lock *)
Definition worker_reads_queue (s : st) : Prop := wk s = W45 \/ wk s = W66 \/ wk s = W68.
Definition client_writes_queue (s : st) (t : tid) : Prop := exists o, cl s t = C85 o.
Definition data_race (s : st) : Prop := worker_reads_queue s /\ exists t, client_writes_queue s t.
