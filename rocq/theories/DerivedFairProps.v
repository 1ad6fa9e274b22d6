(* C74: a delete returns in every fair execution *)
From Verif Require Import Conc ThreadModel ThreadSpec ThreadProofs ThreadFairSpec DerivedModel DerivedSpec DerivedProofs DerivedFairSpec DerivedFairProofs.
From Verif Require Export Fair.

(* C74: with a destructor that stops and joins, a delete returns, even if run() only ends when it sees that execute() is false *)
Theorem C74_fair_delete_returns careful ends r n : fair_delete stopping_destructor careful ends r -> in_delete (r n) ->
  eventually n (fun m => cp (base (r m)) = Destroyed).
Proof. intros F [P _]. exact (delete_ends careful r (fair_weaker careful ends r F) n P). Qed.
Print Assumptions C74_fair_delete_returns.

(* deleted while the thread is in such a run() *)
Example C74_fair_ex : exists r, fair_delete stopping_destructor any_client false r /\ exists n, ph (r n) = Joining /\ wpcs (base (r n)) 1 = WRun.
Proof. exists (dfollow delete_running). exact delete_running_fair. Qed.
