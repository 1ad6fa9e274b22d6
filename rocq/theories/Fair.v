(* Infinite executions and fairness, stated so that no classical logic is needed to use them. *)
From Verif Require Export Conc.

(* an infinite execution: at every time a step is taken or nothing happens *)
Definition execution {S : Type} (init : S) (step : S -> S -> Prop) (r : nat -> S) : Prop :=
  r 0 = init /\ forall n, r (Datatypes.S n) = r n \/ step (r n) (r (Datatypes.S n)).
(* act is taken at time n *)
Definition taken {S : Type} (act : S -> option S) (r : nat -> S) (n : nat) : Prop := act (r n) = Some (r (Datatypes.S n)).
(* weak fairness: again and again the action is impossible or taken; it does not stay possible for ever without being taken *)
Definition weakly_fair {S : Type} (act : S -> option S) (r : nat -> S) : Prop :=
  forall n, exists m, n <= m /\ (act (r m) = None \/ taken act r m).
(* strong fairness: the action is taken again and again, or from some time on it is impossible *)
Definition strongly_fair {S : Type} (act : S -> option S) (r : nat -> S) : Prop :=
  (forall n, exists m, n <= m /\ taken act r m) \/ exists n, forall m, n <= m -> act (r m) = None.
(* from n on, Q comes true at some time *)
Definition eventually (n : nat) (Q : nat -> Prop) : Prop := exists m, n <= m /\ Q m.
(* weak fairness of an action with several outcomes *)
Definition weakly_fair_rel {S : Type} (act : S -> S -> Prop) (r : nat -> S) : Prop :=
  forall n, exists m, n <= m /\ ((forall s, ~ act (r m) s) \/ act (r m) (r (Datatypes.S m))).
