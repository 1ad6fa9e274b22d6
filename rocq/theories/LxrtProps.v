(* C73 The checks for LXRT.  Vocabulary: LxrtSpec. *)
From Verif Require Import Base BaseLemmas Text LxrtModel LxrtSpec LxrtProofs.

(* C73: if all lines of /proc/modules are shorter than 200 characters, the check says yes exactly if a line begins with the name *)
Theorem C73_check text ls name : lines text ls -> Forall short ls -> checkKernelModule (Some text) name = true <-> exists l, In l ls /\ starts name l.
Proof. intros H F. rewrite (check_seen text ls name H), (seen_short ls F). reflexivity. Qed.
Print Assumptions C73_check.
(* C73: a module that is listed is found, if its line and those before it are short, whatever comes later *)
Theorem C73_listed_found text before line after name : lines text (before ++ line :: after) -> Forall short before -> short line -> lists name line ->
  checkKernelModule (Some text) name = true.
Proof.
  intros H B L (rest & E). apply (check_seen text _ name H). exists line. split; [apply seen_before; assumption|]. exists ($" " ++ rest). exact E.
Qed.
Print Assumptions C73_listed_found.
(* C73: the check says yes only if a line begins with the name, however long the lines are; every text has lines, the loop ends for each of them *)
Theorem C73_yes_means text name : checkKernelModule (Some text) name = true -> exists ls line, lines text ls /\ In line ls /\ starts name line.
Proof.
  intros H. destruct (lines_exist text) as (ls & L). apply (check_seen text ls name L) in H. destruct H as (l & Hi & r & E).
  destruct (seen_begin ls l Hi) as (line & Hl & q & E2). exists ls, line. split; [exact L|]. split; [exact Hl|]. exists (r ++ q). rewrite E2, E, app_assoc. reflexivity.
Qed.
Print Assumptions C73_yes_means.
(* C73: without /proc/modules the answer is no *)
Theorem C73_unreadable name : checkKernelModule None name = false.
Proof. reflexivity. Qed.
Print Assumptions C73_unreadable.
(* C73, refuted: a module that the check finds is listed; one whose name is longer will do *)
Theorem C73_prefix_refuted : ~ (forall text name, checkKernelModule (Some text) name = true -> module_listed name text).
Proof.
  intros H. destruct (H $"rtai_sem_test 1" $"rtai_sem" eq_refl) as (ls & line & L & Hi & rest & E).
  inversion L as [s N Es El|s t l N Ht Es El].
  - rewrite <- El in Hi. destruct Hi as [Hi|[]]. rewrite <- Hi in E. discriminate E.
  - assert (X : ~ In (ascii_of_nat 10) $"rtai_sem_test 1") by (cbn; intros K; repeat (destruct K as [K|K]; [discriminate K|]); exact K).
    apply X. assert (Y : In (ascii_of_nat 10) (s ++ ascii_of_nat 10 :: t)) by (apply in_or_app; right; left; reflexivity). rewrite Es in Y. exact Y.
Qed.
Print Assumptions C73_prefix_refuted.
(* C73, refuted: a module that is listed is found: a line of 200 characters ends the search *)
Theorem C73_long_line_refuted : ~ (forall text name, module_listed name text -> checkKernelModule (Some text) name = true).
Proof.
  intros H. assert (X : checkKernelModule (Some (repeat "a"%char 200 ++ ascii_of_nat 10 :: $"rtai_sem 1")) $"rtai_sem" = false) by (vm_compute; reflexivity).
  rewrite H in X; [discriminate X|]. exists [repeat "a"%char 200; $"rtai_sem 1"], $"rtai_sem 1". split; [|split].
  - apply one_line; [intros K; apply repeat_spec in K; discriminate K|]. apply last_line. cbn. intros K. repeat (destruct K as [K|K]; [discriminate K|]). exact K.
  - right. left. reflexivity.
  - exists $"1". reflexivity.
Qed.
Print Assumptions C73_long_line_refuted.
(* C73: after any calls, isLxrtAvailable() says whether some check has found all the modules this build needs; later checks do not take it back *)
Theorem C73_available v l s : runs v init l = Some s ->
  isLxrtAvailable v s = true <-> v <> NoLxrt /\ exists c m, In c l /\ looks c = Some m /\ forall n, In n (needed v) -> checkKernelModule m n = true.
Proof.
  intros R. destruct v; [split; [discriminate|intros (A & _); congruence]|..]; cbn [isLxrtAvailable].
  all: match goal with |- context[needed ?w] => rewrite (runs_available w l ltac:(discriminate) init s R) end; cbn [available init].
  all: split; [intros [X|(c & m & A & B & Q)]; [discriminate X|]; split; [discriminate|]; exists c, m; split; [exact A|]; split; [exact B|]; apply all_loaded_iff; [discriminate|exact Q]|].
  all: intros (_ & c & m & A & B & Q); right; exists c, m; split; [exact A|]; split; [exact B|]; apply all_loaded_iff; [discriminate|exact Q].
Qed.
Print Assumptions C73_available.
(* C73: a hard real-time task is a real-time task, and a real-time task needs LXRT *)
Theorem C73_task_kinds v s : (isThisHRT v s = true -> isThisLxrtTask v s = true) /\ (isThisLxrtTask v s = true -> isLxrtAvailable v s = true).
Proof. destruct v; cbn; split; try discriminate; rewrite !andb_true_iff; tauto. Qed.
Print Assumptions C73_task_kinds.
(* C73: makeThisAnLxrtTask() answers 1 exactly if LXRT is available, this is no real-time task yet, and the memory is locked; after that it is a
   real-time task, not in hard real-time.  If it answers 0 nothing has changed; it ends the process if the scheduler or the task cannot be had *)
Theorem C73_make_task v locked sched task s :
  match makeThisAnLxrtTask v locked sched task s with
  | Some (z, s') => (z = 1%Z /\ isLxrtAvailable v s = true /\ isThisLxrtTask v s = false /\ locked = true /\ sched = true /\ task = true /\
                     isThisLxrtTask v s' = true /\ isThisHRT v s' = false) \/
                    (z = 0%Z /\ s' = s /\ (isLxrtAvailable v s = false \/ isThisLxrtTask v s = true \/ locked = false))
  | None => isLxrtAvailable v s = true /\ isThisLxrtTask v s = false /\ locked = true /\ (sched = false \/ task = false)
  end.
Proof.
  assert (G : forall w, w <> NoLxrt -> isLxrtAvailable w s = available s /\ makeThisAnLxrtTask w locked sched task s =
    (if negb (available s) then Some (0%Z, s) else if isThisLxrtTask w s then Some (0%Z, s) else if negb locked then Some (0%Z, s)
     else if negb sched then None else if negb task then None else Some (1%Z, mkSt (available s) true false)) /\
    isThisLxrtTask w (mkSt (available s) true false) = available s /\ isThisHRT w (mkSt (available s) true false) = false).
  { intros [| |] Nw; [congruence|..]; cbn; rewrite ?andb_true_r, ?andb_false_r; auto. }
  destruct v; [right; auto|destruct (G WithExtension ltac:(discriminate)) as (G1 & G2 & G3 & G4)|destruct (G PlainRtai ltac:(discriminate)) as (G1 & G2 & G3 & G4)].
  1: set (B := isThisLxrtTask WithExtension s) in *. 2: set (B := isThisLxrtTask PlainRtai s) in *.
  all: rewrite G1, G2; clearbody B; destruct (available s); cbn [negb]; [|right; auto]; destruct B; cbn [negb]; [right; auto|];
    destruct locked; cbn [negb]; [|right; auto 10]; destruct sched; cbn [negb]; [|auto 10]; destruct task; cbn [negb]; [|auto 10]; left; auto 10.
Qed.
Print Assumptions C73_make_task.
(* C73: after lxrtShutdown() or makeThisALinuxTask() this is no real-time task; after ensureNoHRT() it is not in hard real-time, and its answer
   says whether it was *)
Theorem C73_back_to_linux v l s : runs v init (l ++ [CShutdown]) = Some s \/ runs v init (l ++ [CMakeLinux]) = Some s ->
  isThisLxrtTask v s = false /\ isThisHRT v s = false /\ buddy s = false.
Proof.
  assert (G : forall u, sane u -> let w := makeThisALinuxTask v u in v <> NoLxrt -> isThisLxrtTask v w = false /\ isThisHRT v w = false /\ buddy w = false).
  { intros u (A & B) w Nv. unfold w, makeThisALinuxTask. destruct (isThisLxrtTask v u) eqn:E.
    - destruct v; cbn; rewrite ?andb_false_r; auto.
    - assert (Bf : buddy u = false) by (destruct (buddy u) eqn:Bu; [|reflexivity]; destruct v; [congruence|..]; cbn in E; rewrite (A eq_refl), Bu in E; discriminate E).
      split; [exact E|]. split; [destruct v; cbn; rewrite ?Bf, ?andb_false_r; reflexivity|exact Bf]. }
  assert (R : forall c, (c = CShutdown \/ c = CMakeLinux) -> forall l u, runs v u (l ++ [c]) = Some s -> exists w, runs v u l = Some w /\ s = makeThisALinuxTask v w).
  { intros c Hc k. induction k as [|x k IH]; intros u H; cbn [app runs] in *.
    - exists u. split; [reflexivity|]. destruct Hc as [->| ->]; cbn in H; injection H as <-; reflexivity.
    - destruct (run1 v u x) as [q|]; [|discriminate H]. apply IH, H. }
  intros H. assert (X : exists w, runs v init l = Some w /\ s = makeThisALinuxTask v w) by (destruct H as [H|H]; [apply (R CShutdown)|apply (R CMakeLinux)]; auto).
  destruct X as (w & Rw & ->). destruct v.
  - rewrite runs_none in Rw. injection Rw as <-. auto.
  - apply G; [apply (runs_sane _ l init w init_sane Rw)|discriminate].
  - apply G; [apply (runs_sane _ l init w init_sane Rw)|discriminate].
Qed.
Print Assumptions C73_back_to_linux.
Theorem C73_no_hard_real_time v s : fst (ensureNoHRT v s) = isThisHRT v s /\ isThisHRT v (snd (ensureNoHRT v s)) = false /\
  isThisLxrtTask v (snd (ensureNoHRT v s)) = isThisLxrtTask v s.
Proof.
  unfold ensureNoHRT. destruct (isThisHRT v s) eqn:E; cbn [fst snd]; [|auto]. split; [reflexivity|]. destruct v; cbn; rewrite ?andb_false_r; auto.
Qed.
Print Assumptions C73_no_hard_real_time.
(* C73: a build without LXRT never changes anything and always answers no *)
Theorem C73_without_lxrt l : runs NoLxrt init l = Some init /\ forall m a b d s, fst (checkForLxrt NoLxrt m s) = false /\ isLxrtAvailable NoLxrt s = false /\
  isThisLxrtTask NoLxrt s = false /\ isThisHRT NoLxrt s = false /\ makeThisAnLxrtTask NoLxrt a b d s = Some (0%Z, s).
Proof. split; [apply runs_none|]. intros. cbn. auto. Qed.
Print Assumptions C73_without_lxrt.

Definition loaded : str := $"rtai_sem 20480 1 - Live" ++ ascii_of_nat 10 :: $"rtai_lxrt 60 2 rtai_sem, Live" ++ ascii_of_nat 10 :: $"rtai_hal 45056 3 Live" ++ [ascii_of_nat 10].
Example C73_check_ex : lines loaded [$"rtai_sem 20480 1 - Live"; $"rtai_lxrt 60 2 rtai_sem, Live"; $"rtai_hal 45056 3 Live"; []] /\
  Forall short [$"rtai_sem 20480 1 - Live"; $"rtai_lxrt 60 2 rtai_sem, Live"; $"rtai_hal 45056 3 Live"; []] /\ lists $"rtai_lxrt" $"rtai_lxrt 60 2 rtai_sem, Live".
Proof.
  split; [|split; [repeat (constructor; [unfold short; cbn; lia|]); constructor|exists $"60 2 rtai_sem, Live"; reflexivity]].
  unfold loaded. do 3 (apply one_line; [cbn; intros K; repeat (destruct K as [K|K]; [discriminate K|]); exact K|]). apply last_line. intros [].
Qed.
Example C73_available_ex : exists s, runs PlainRtai init [CCheck None; CStartup (Some loaded) true true true; CMakeHRT; CCheck None] = Some s /\
  isLxrtAvailable PlainRtai s = true /\ isThisHRT PlainRtai s = true /\ exists s', runs PlainRtai s [CNoHRT; CShutdown] = Some s' /\ isThisLxrtTask PlainRtai s' = false /\ isLxrtAvailable PlainRtai s' = true.
Proof. eexists. split; [vm_compute; reflexivity|]. split; [reflexivity|]. split; [reflexivity|]. eexists. split; [vm_compute; reflexivity|]. split; reflexivity. Qed.
