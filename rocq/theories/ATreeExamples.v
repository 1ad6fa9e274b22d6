(* Concrete heaps for the examples and the refuted claims. *)
From Verif Require Import Base Text LogTextModel ATreeModel ATreeSpec ATreeProofs ATreeProofs9.

Definition is_done {A} (o : outcome A) : bool := match o with Done _ => true | _ => false end.
Definition heap_of {A} (o : outcome (heap * A)) : heap := match o with Done (h, _) => h | _ => empty_heap end.
Definition the_heap (o : outcome heap) : heap := match o with Done h => h | _ => empty_heap end.
Definition snd_of {A} (o : outcome (heap * A)) (x : A) : A := match o with Done (_, y) => y | _ => x end.
Lemma heap_done {A} (o : outcome (heap * A)) x : is_done o = true -> o = Done (heap_of o, snd_of o x).
Proof. destruct o as [[h a]| |]; cbn; easy. Qed.
Lemma the_done (o : outcome heap) : is_done o = true -> o = Done (the_heap o).
Proof. destruct o; cbn; easy. Qed.
Definition alive (h : heap) (p : nat) : bool := match cell h p with Some _ => true | None => false end.
Lemma alive_live h p : alive h p = true -> live h p.
Proof. unfold alive, live. destruct (cell h p); easy. Qed.

(* a root (0), then "a.b" = "1" (nodes 1, 2), "a.c" = "2" (node 3) *)
Definition ex1 : heap := heap_of (new_tree empty_heap None None).
Definition ex2 : heap := heap_of (setAttribute ex1 0 (Some $"a.b") (Some $"1")).
Definition ex3 : heap := heap_of (setAttribute ex2 0 (Some $"a.c") (Some $"2")).
Lemma ex1_history b : history b ex1.
Proof. apply more with empty_heap; [constructor|]. eapply o_new with (par := None); [easy|]. exact (heap_done (new_tree empty_heap None None) 0 eq_refl). Qed.
Lemma ex2_history b : history b ex2.
Proof.
  apply more with ex1; [apply ex1_history|]. eapply o_attribute with (p := 0); [now apply alive_live|]. refine (heap_done _ 0 _). vm_compute. reflexivity.
Qed.
Lemma ex3_history b : history b ex3.
Proof.
  apply more with ex2; [apply ex2_history|]. eapply o_attribute with (p := 0); [now apply alive_live|]. refine (heap_done _ 0 _). vm_compute. reflexivity.
Qed.
(* further: "a.b" unmarked, and a second root (4) with the description "a" *)
Definition ex4 : heap := the_heap (unmarkChanges 8 ex3 0).
Definition ex5 : heap := heap_of (new_tree ex4 (Some $"a") None).
Lemma ex4_history b : history b ex4.
Proof.
  apply more with ex3; [apply ex3_history|]. apply o_unmark with (fuel := 8) (p := 0); [apply the_done; vm_compute; reflexivity|]. vm_compute. lia.
Qed.
Lemma ex5_history b : history b ex5.
Proof. apply more with ex4; [apply ex4_history|]. eapply o_new with (par := None); [easy|]. refine (heap_done _ 0 _). vm_compute. reflexivity. Qed.
(* a root (0) with the sub trees "b" (2) and "1" (1), and a root (3) with the description "1" *)
Definition ex6 : heap := heap_of (setAttribute ex1 0 (Some $"1") (Some $"x")).
Definition ex7 : heap := heap_of (setAttribute ex6 0 (Some $"b") (Some $"y")).
Definition ex8 : heap := heap_of (new_tree ex7 (Some $"1") None).
Lemma ex8_history b : history b ex8.
Proof.
  apply more with ex7.
  { apply more with ex6.
    { apply more with ex1; [apply ex1_history|]. eapply o_attribute with (p := 0); [now apply alive_live|]. refine (heap_done _ 0 _). vm_compute. reflexivity. }
    eapply o_attribute with (p := 0); [now apply alive_live|]. refine (heap_done _ 0 _). vm_compute. reflexivity. }
  eapply o_new with (par := None); [easy|]. refine (heap_done _ 0 _). vm_compute. reflexivity.
Qed.
Lemma root_not_below h t p : is_root h p -> p <> t -> ~ below h t p.
Proof. intros R D B. destruct B as [|x c B P]; [congruence|]. exact (root_no_parent _ _ _ R P). Qed.
Lemma root_of h p n : cell h p = Some n -> parent n = None -> is_root h p.
Proof. intros. exists n. auto. Qed.
