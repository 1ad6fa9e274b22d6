(* Vocabulary of C75. *)
From Verif Require Import Conc ThreadModel ThreadSpec LxrtThreadModel.

(* every semaphore and every RTAI task can be made; c: pthread_create may fail *)
Definition only_create_fails (c : bool) : env := mkEnv false false c.
Definition nothing_fails : env := mkEnv false false false.
(* RTAI refuses a semaphore whose name is taken; t: tasks may fail, c: pthread_create may fail *)
Definition unique_names (t c : bool) : env := mkEnv true t c.
Definition tasks_fail : env := mkEnv false true false.
(* one action of a worker or of the client *)
Definition can_go_on (e : env) (s : lst) : Prop := exists s', lstep e s s'.

(* for each wait in the life of a thread: whether RTAI does as it is told in it *)
Definition waits_of (l : list mode_event) : list bool := flat_map (fun e => match e with EWait o => [o] | _ => [] end) l.
