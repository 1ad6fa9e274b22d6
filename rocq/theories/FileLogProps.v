(* C58: log files. *)
From Verif Require Import Base Text SMap IsoModel IsoSpec FileLogModel FileLogSpec FileLogProofs FileLogProofs2.
Local Open Scope Z_scope.

(* Every line that was pushed (and, when the system does not fail, that is every line pushed) is in the files, in order, whatever
   the times, restarts and - when the stream is flushed - kills: the archives, by ascending days, followed by the log file. *)
Theorem C58_lines_are_kept (c : config) (y : sys) (f : fsys) (n : nat) (l : list call) (t : Z) :
  sorted f -> 0 <= t -> not_later c f t -> not_decreasing t (times l) -> (forall x, In x (times l) -> x < 253402300800) ->
  orderly false l -> delete_days c = None \/ dir_ok c = false -> how c <> Zip \/ smooth c y f -> flushing c = true \/ ~ crashes l ->
  let (m, bs) := runs c y (Halted f n) l in
  m <> Wrong /\ kept c (torn_lines l) (before c f ++ written l bs) m /\ (smooth c y f -> written l bs = pushed l) /\ length bs = length l.
Proof.
  intros S0 H0 Hn Hm Hl Ho Hk Hz Hc.
  assert (Gen : forall clean, (clean = true -> smooth c y f) -> (how c = Zip -> clean = true) ->
    let (m, bs) := runs c y (Halted f n) l in m <> Wrong /\ kept c (torn_lines l) (before c f ++ written l bs) m /\ (clean = true -> written l bs = pushed l) /\ length bs = length l).
  { intros clean Hs Hz'.
    pose proof (runs_ok c y (torn_lines l) clean false (fun Q => proj1 (Hs Q)) Hz' (fun Q => match Bool.diff_false_true Q with end) Hk l (Halted f n) (before c f) t eq_refl H0
      (initial c (torn_lines l) clean false t f H0 S0 (fun Q => proj2 (Hs Q)) Hn) Ho Hm Hl Hc (fun x Hx => Hx)) as R.
    destruct (runs c y (Halted f n) l) as (m, bs). destruct R as (T' & R1 & R2 & R3). destruct (inv_kept c (torn_lines l) clean false _ _ _ R1) as (R4 & R5). auto. }
  destruct Hz as [Hz|Hz].
  - pose proof (Gen false ltac:(discriminate) ltac:(congruence)) as G0. destruct (runs c y (Halted f n) l) as (m, bs). destruct G0 as (G1 & G2 & _ & G4).
    repeat (split; [assumption|]). split; [|exact G4]. intros Hs. exact (proj1 (proj2 (proj2 (Gen true (fun _ => Hs) (fun _ => eq_refl)))) eq_refl).
  - pose proof (Gen true (fun _ => Hz) (fun _ => eq_refl)) as G0. destruct (runs c y (Halted f n) l) as (m, bs). destruct G0 as (G1 & G2 & G3 & G4). auto.
Qed.
Print Assumptions C58_lines_are_kept.

(* In one session without failures every line is in the archive of its day. *)
Theorem C58_archive_by_day (c : config) (y : sys) (f : fsys) (n : nat) (t t1 t2 : Z) (l : list call) (stop : list call) :
  sorted f -> smooth c y f -> 0 <= t -> not_later c f t -> rotate c = true -> delete_days c = None \/ dir_ok c = false ->
  only_pushes l -> stop = [] \/ (exists t3, stop = [(Stop t3, None)]) ->
  let h := (Start t1 t2, None) :: l ++ stop in not_decreasing t (times h) -> (forall x, In x (times h) -> x < 253402300800) ->
  kept_by_day c [] (before c f ++ pushed l) (fst (runs c y (Halted f n) h)).
Proof.
  intros S0 (Hf & Hd) H0 Hn Er Hk Hp Hs h Hm Hl. unfold h, times in Hm, Hl. cbn [map concat fst times1 app not_decreasing] in Hm, Hl. rewrite map_app, concat_app in Hm, Hl. fold (times l) in Hm, Hl. fold (times stop) in Hm, Hl.
  destruct Hm as (M1 & M2 & M3). assert (L2 : t2 < 253402300800) by (apply Hl; right; left; reflexivity).
  destruct (start_ok c y [] true true (fun _ => Hf) (fun _ => eq_refl) (fun _ => eq_refl) Hk (before c f) t t1 t2 f n H0 (conj M1 M2) L2
    (initial c [] true true t f H0 S0 (fun _ => Hd) Hn)) as (w & E1 & (gs & cur & L & Ea & E2) & _ & _).
  assert (Lv : Live c [] true true (before c f) (flushing c) t2 w) by (exists gs, cur, L; split; [exact Ea|apply live_weaken; exact E2]).
  assert (Mono : forall a b x, not_decreasing x (a ++ b) -> not_decreasing x a) by (clear; induction a as [|z a IH]; cbn [app not_decreasing]; [auto|]; intros b x (A & B); split; [exact A|exact (IH _ _ B)]).
  destruct (session_ok c y [] Hf Hk l w (before c f) t2 Lv ltac:(lia) Hp (Mono _ _ _ M3) ltac:(intros x I0; apply Hl; right; right; apply in_or_app; left; exact I0)) as (w' & bs & T' & R1 & R2 & R3 & R4 & R5).
  assert (Hr : forall r, fst (runs c y (Halted f n) ((Start t1 t2, None) :: l ++ r)) = fst (runs c y (Running w') r)).
  { intros r. cbn [runs run]. rewrite E1. cbn [result_of]. clear - R1. revert w bs R1. induction l as [|e l IH]; intros w bs R1; cbn [app runs] in *.
    - injection R1 as -> _. destruct (runs c y (Running w') r). reflexivity.
    - destruct (run c y (Running w) e) as (m1, b1). destruct (runs c y m1 l) as (m2, b2) eqn:E2. injection R1 as -> _.
      assert (Hg : forall m1 b2, runs c y m1 l = (Running w', b2) -> fst (runs c y m1 (l ++ r)) = fst (runs c y (Running w') r)).
      { clear. induction l as [|e l IH]; intros m1 b2 E; cbn [app runs] in *; [injection E as -> _; reflexivity|]. destruct (run c y m1 e) as (m2, b3). destruct (runs c y m2 l) as (m3, b4) eqn:E3.
        injection E as -> _. specialize (IH m2 b4 E3). destruct (runs c y m2 (l ++ r)). exact IH. }
      specialize (Hg m1 b2 E2). destruct (runs c y m1 (l ++ r)). exact Hg. }
  unfold h. rewrite Hr. destruct Hs as [-> | (t3 & ->)].
  - cbn [runs fst]. apply (live_by_day c y [] Hf Er _ (flushing c) T' w'); auto.
  - cbn [runs run fst]. assert (HT : T' <= t3) by (apply R4; exact M3).
    destruct R3 as (gs1 & cur1 & L1 & Ea1 & R3). pose proof (live_same c [] true true _ _ _ _ _ w' (fresh_trace w') eq_refl eq_refl eq_refl eq_refl R3) as R3'.
    destruct (close_ok c y [] true true (fun _ => Hf) gs1 cur1 L1 (flushing c) T' t3 (fresh_trace w') HT R3') as (C1 & _ & C2 & _).
    apply (live_by_day c y [] Hf Er _ true t3 _ (fun _ => eq_refl)); [|exact C2]. exists gs1, cur1, L1. split; [exact Ea1|exact C1].
Qed.
Print Assumptions C58_archive_by_day.

(* Whatever the system does: a file is left alone if its name is neither that of the log file nor begins with it followed by a
   point, and does not begin with it when old files are deleted; without rotation every file but the log file is. *)
Theorem C58_other_files (c : config) (y : sys) (f : fsys) (n : nat) (l : list call) (name : str) :
  sorted f -> name <> base c ->
  (rotate c = true -> ~ begins_with (base c ++ $".") name /\ (begins_with (base c) name -> delete_days c = None \/ dir_ok c = false)) ->
  let m := fst (runs c y (Halted f n) l) in m = Wrong \/ map_get (directory m) name = map_get f name.
Proof. intros S0 N H. exact (runs_foreign c y name l (conj N H) (Halted f n) S0). Qed.
Print Assumptions C58_other_files.

(* Only outdated files disappear, also when operations fail or the process is killed. *)
Theorem C58_only_old_files_are_deleted (c : config) (y : sys) (m : machine) (e : event) (crash : option nat) (name : str) (x : node) :
  sorted (directory m) -> name <> base c -> name <> archive_name (base c) false (label c m) -> name <> archive_name (base c) true (label c m) ->
  0 <= time_of e -> 0 <= label c m < 2932897 -> (forall text t, map_get (directory m) (base c) = Some (File (mkF text t)) -> 0 <= t) ->
  map_get (directory m) name = Some x ->
  let m' := fst (run c y m (e, crash)) in
  m' = Wrong \/ map_get (directory m') name = Some x \/ (map_get (directory m') name = None /\ outdated c (time_of e) name x).
Proof. intros S0 N1 N2 N3 Ht Hl Hg Ex. exact (run_old c y name m e crash x S0 N1 N2 N3 Ht Hl Hg Ex). Qed.
Print Assumptions C58_only_old_files_are_deleted.

(* Without failures the first push of a day deletes all outdated files. *)
Theorem C58_old_files_are_deleted (c : config) (y : sys) (w : log) (t1 t2 : Z) (s : str) (name : str) (x : node) :
  (forall k, fails y k = false) -> sorted (fs w) -> name <> base c -> name <> archive_name (base c) false (last_rotation w) -> name <> archive_name (base c) true (last_rotation w) ->
  0 <= t1 -> 0 <= last_rotation w < 2932897 -> last_rotation w <> day_number_of t1 ->
  map_get (fs w) name = Some x -> outdated c t1 name x ->
  exists w', fst (run c y (Running w) (Push t1 t2 s, None)) = Running w' /\ map_get (fs w') name = None.
Proof.
  intros Hf S0 N1 N2 N3 H1 Hl Nl Ex (days & g & Er & Ed & Ek & -> & Hb & Ht).
  destruct (push_delete c y (fresh_trace w) t1 t2 s days Hf S0 Er Ed Ek H1 Hl Nl) as (w' & b & E1 & E2). exists w'. cbn [run]. rewrite E1. split; [reflexivity|].
  rewrite (E2 name N1 N2 N3). cbn [fs fresh_trace]. rewrite Ex. apply starts_spec in Hb. rewrite Hb. destruct (Z.ltb_spec (f_time g) (86400 * (day_number_of t1 - days))); [reflexivity|lia].
Qed.
Print Assumptions C58_old_files_are_deleted.

(* ---- examples ---- *)
Definition day1 : Z := 86400 + 100.
Definition day2 : Z := 2 * 86400 + 100.
Definition day3 : Z := 3 * 86400 + 100.
Definition quiet : sys := mkSys (fun _ => false) (fun _ => 0%nat).
Definition hello : str := $"hello".
Definition world : str := $"world".
Definition conf (h : mode) (d : option Z) (fl : bool) : config := mkC ($"log") true true d h fl.

(* two days, a kill in the middle of a line, a restart *)
Definition history : list call :=
  [(Start day1 day1, None); (Push day1 day1 hello, None); (Push day2 (day2 + 1) world, None); (Push (day2 + 1) (day2 + 2) ($"torn"), Some 1%nat);
   (Start (day2 + 3) (day2 + 3), None); (Push day3 day3 ($"last"), None)].
Example history_runs :
  let (m, bs) := runs (conf Plain None true) (mkSys (fun _ => false) (fun _ => 2%nat)) (Halted [] 0) history in
  written history bs = [(day1, hello); (day2, world); (day3, $"last")] /\ map fst (directory m) = [$"log"; $"log.1970-01-02"; $"log.1970-01-03"].
Proof. vm_compute. auto. Qed.
Example history_kept : kept (conf Plain None true) [$"torn"] [(day1, hello); (day2, world); (day3, $"last")] (fst (runs (conf Plain None true) (mkSys (fun _ => false) (fun _ => 2%nat)) (Halted [] 0) history)).
Proof.
  pose proof (C58_lines_are_kept (conf Plain None true) (mkSys (fun _ => false) (fun _ => 2%nat)) [] 0 history day1 (sorted_nil) ltac:(vm_compute; discriminate) Logic.I) as H.
  pose proof history_runs as R. destruct (runs (conf Plain None true) (mkSys (fun _ => false) (fun _ => 2%nat)) (Halted [] 0) history) as (m, bs). destruct R as (R & _).
  rewrite R in H. cbn [fst]. apply H.
  - vm_compute; repeat split; discriminate.
  - cbn. unfold day1, day2, day3. intros x Hx. repeat (destruct Hx as [<-|Hx]; [lia|]). destruct Hx.
  - cbn. auto 10.
  - left. reflexivity.
  - left. discriminate.
  - left. reflexivity.
Qed.
Example by_day_case : kept_by_day (conf Zip None false) [] [(day1, hello); (day2, world)]
  (fst (runs (conf Zip None false) quiet (Halted [] 0) ((Start day1 day1, None) :: [(Push day1 day1 hello, None); (Push day2 day2 world, None)] ++ [(Stop day3, None)]))).
Proof.
  apply (C58_archive_by_day (conf Zip None false) quiet [] 0 day1 day1 day1 [(Push day1 day1 hello, None); (Push day2 day2 world, None)] [(Stop day3, None)]).
  - constructor.
  - split; [reflexivity|discriminate].
  - vm_compute; discriminate.
  - exact Logic.I.
  - reflexivity.
  - left. reflexivity.
  - intros e [<-|[<-|[]]]; eauto.
  - right. eauto.
  - vm_compute; repeat split; discriminate.
  - cbn. unfold day1, day2, day3. intros x Hx. repeat (destruct Hx as [<-|Hx]; [lia|]). destruct Hx.
Qed.
Definition old_file : fsys := [($"log", File (mkF [] (20 * 86400))); ($"log.1970-01-05", File (mkF hello (4 * 86400 + 5))); ($"other", File (mkF [] 7))].
Example deletion_case : exists w', fst (run (conf Plain (Some 7) true) quiet (Running (mkLog old_file [] true [] 20 0)) (Push (21 * 86400) (21 * 86400) world, None)) = Running w' /\
  map_get (fs w') ($"log.1970-01-05") = None.
Proof.
  assert (S0 : sorted old_file).
  { unfold old_file. constructor; [constructor; [constructor; [constructor|]|]|]; cbn [In]; intros k v; [intros []|intros [Q|[]]|intros [Q|[Q|[]]]]; injection Q as <- <-; reflexivity. }
  assert (H1 : 0 <= 21 * 86400) by lia. assert (H2 : 0 <= 20 < 2932897) by lia. assert (H3 : 20 <> day_number_of (21 * 86400)) by (vm_compute; discriminate).
  assert (H4 : outdated (conf Plain (Some 7) true) (21 * 86400) ($"log.1970-01-05") (File (mkF hello (4 * 86400 + 5)))).
  { exists 7, (mkF hello (4 * 86400 + 5)). repeat (split; [reflexivity|]). split; [exists ($".1970-01-05"); reflexivity|]. vm_compute. reflexivity. }
  assert (N1 : $"log.1970-01-05" <> archive_name ($"log") false 20) by (vm_compute; discriminate).
  assert (N2 : $"log.1970-01-05" <> archive_name ($"log") true 20) by (vm_compute; discriminate).
  exact (C58_old_files_are_deleted (conf Plain (Some 7) true) quiet (mkLog old_file [] true [] 20 0) _ _ world ($"log.1970-01-05") _ (fun _ => eq_refl) S0 ltac:(discriminate) N1 N2 H1 H2 H3 eq_refl H4).
Qed.

(* ---- what does not hold ---- *)
(* when the zipped file cannot be written, all the lines of the day are deleted without a word *)
Theorem C58_zip_failure_refuted :
  exists y l, let (m, bs) := runs (conf Zip None true) y (Halted [] 0) l in orderly false l /\ ~ crashes l /\ not_decreasing 0 (times l) /\ In (day1, hello) (written l bs) /\
    lost hello (directory m).
Proof.
  exists (mkSys (fun k => (k =? 5)%nat) (fun _ => 0%nat)), [(Start day1 day1, None); (Push day1 day1 hello, None); (Push day2 day2 world, None)].
  pose proof (lost_ok hello (directory (fst (runs (conf Zip None true) (mkSys (fun k => (k =? 5)%nat) (fun _ => 0%nat)) (Halted [] 0)
    [(Start day1 day1, None); (Push day1 day1 hello, None); (Push day2 day2 world, None)]))) ltac:(vm_compute; reflexivity)) as H.
  assert (B : snd (runs (conf Zip None true) (mkSys (fun k => (k =? 5)%nat) (fun _ => 0%nat)) (Halted [] 0)
    [(Start day1 day1, None); (Push day1 day1 hello, None); (Push day2 day2 world, None)]) = [false; true; true]) by (vm_compute; reflexivity).
  destruct (runs (conf Zip None true) _ _ _) as (m, bs). cbn [fst snd] in H, B. subst bs.
  split; [cbn; auto|]. split; [intros (e & k & [Q|[Q|[Q|[]]]]); discriminate|]. split; [vm_compute; repeat split; discriminate|]. split; [left; reflexivity|exact H].
Qed.
Print Assumptions C58_zip_failure_refuted.
(* when the clock is set back a day, the archive of that day is overwritten *)
Theorem C58_clock_set_back_refuted :
  exists l, let (m, bs) := runs (conf Plain None true) quiet (Halted [] 0) l in orderly false l /\ ~ crashes l /\ In (day1, hello) (written l bs) /\ lost hello (directory m).
Proof.
  exists [(Start day1 day1, None); (Push day1 day1 hello, None); (Push day2 day2 world, None); (Push day1 day1 world, None); (Push day2 day2 world, None)].
  set (l := [(Start day1 day1, None); (Push day1 day1 hello, None); (Push day2 day2 world, None); (Push day1 day1 world, None); (Push day2 day2 world, None)]).
  pose proof (lost_ok hello (directory (fst (runs (conf Plain None true) quiet (Halted [] 0) l))) ltac:(vm_compute; reflexivity)) as H.
  assert (B : snd (runs (conf Plain None true) quiet (Halted [] 0) l) = [false; true; true; true; true]) by (vm_compute; reflexivity).
  destruct (runs (conf Plain None true) quiet (Halted [] 0) l) as (m, bs). cbn [fst snd] in H, B. subst bs. subst l.
  split; [cbn; auto 10|]. split; [intros (e & k & Q); repeat (destruct Q as [Q|Q]; [discriminate|]); destruct Q|]. split; [left; reflexivity|exact H].
Qed.
Print Assumptions C58_clock_set_back_refuted.
(* without flushing a kill loses lines *)
Theorem C58_kill_without_flush_refuted :
  exists l, let (m, bs) := runs (conf Plain None false) quiet (Halted [] 0) l in orderly false l /\ not_decreasing 0 (times l) /\ In (day1, hello) (written l bs) /\ lost hello (directory m).
Proof.
  exists [(Start day1 day1, None); (Push day1 day1 hello, None); (Push day1 day1 world, Some 0%nat)].
  pose proof (lost_ok hello (directory (fst (runs (conf Plain None false) quiet (Halted [] 0) [(Start day1 day1, None); (Push day1 day1 hello, None); (Push day1 day1 world, Some 0%nat)]))) ltac:(vm_compute; reflexivity)) as H.
  assert (B : snd (runs (conf Plain None false) quiet (Halted [] 0) [(Start day1 day1, None); (Push day1 day1 hello, None); (Push day1 day1 world, Some 0%nat)]) = [false; true; false]) by (vm_compute; reflexivity).
  destruct (runs (conf Plain None false) quiet (Halted [] 0) _) as (m, bs). cbn [fst snd] in H, B. subst bs.
  split; [cbn; auto|]. split; [vm_compute; repeat split; discriminate|]. split; [left; reflexivity|exact H].
Qed.
Print Assumptions C58_kill_without_flush_refuted.
(* with DeleteOlderThan 0 the lines of a day are deleted as soon as the next day begins; they are not older than a day *)
Theorem C58_delete_older_than_0_refuted :
  exists l, let (m, bs) := runs (conf Plain (Some 0) true) quiet (Halted [] 0) l in orderly false l /\ ~ crashes l /\ not_decreasing 0 (times l) /\
    In (day1, hello) (written l bs) /\ (forall t, In t (times l) -> t <= day1 + 86400) /\ lost hello (directory m).
Proof.
  exists [(Start day1 day1, None); (Push day1 day1 hello, None); (Push day2 day2 world, None)].
  pose proof (lost_ok hello (directory (fst (runs (conf Plain (Some 0) true) quiet (Halted [] 0) [(Start day1 day1, None); (Push day1 day1 hello, None); (Push day2 day2 world, None)]))) ltac:(vm_compute; reflexivity)) as H.
  assert (B : snd (runs (conf Plain (Some 0) true) quiet (Halted [] 0) [(Start day1 day1, None); (Push day1 day1 hello, None); (Push day2 day2 world, None)]) = [false; true; true]) by (vm_compute; reflexivity).
  destruct (runs (conf Plain (Some 0) true) quiet (Halted [] 0) _) as (m, bs). cbn [fst snd] in H, B. subst bs.
  split; [cbn; auto|]. split; [intros (e & k & [Q|[Q|[Q|[]]]]); discriminate|]. split; [vm_compute; repeat split; discriminate|]. split; [left; reflexivity|].
  split; [|exact H]. cbn. unfold day1, day2. intros t Hx. repeat (destruct Hx as [<-|Hx]; [lia|]). destruct Hx.
Qed.
Print Assumptions C58_delete_older_than_0_refuted.
(* the log file of another logger is deleted when its name begins in the same way *)
Theorem C58_file_of_another_logger_refuted :
  exists f l, sorted f /\ map_get f ($"logger") = Some (File (mkF hello 5)) /\ orderly false l /\ ~ crashes l /\ not_decreasing 5 (times l) /\
    lost hello (directory (fst (runs (conf Plain (Some 7) true) quiet (Halted f 0) l))).
Proof.
  exists [($"logger", File (mkF hello 5))], [(Start (9 * 86400) (9 * 86400), None); (Push (9 * 86400) (9 * 86400) world, None); (Push (10 * 86400) (10 * 86400) world, None)].
  split; [constructor; [constructor|intros ? ? []]|]. split; [reflexivity|]. split; [cbn; auto|]. split; [intros (e & k & [Q|[Q|[Q|[]]]]); discriminate|]. split; [vm_compute; repeat split; discriminate|].
  apply lost_ok. vm_compute. reflexivity.
Qed.
Print Assumptions C58_file_of_another_logger_refuted.
(* when opening fails - with a current zlib opening an online log always fails - all lines are dropped silently: no call throws *)
Theorem C58_failed_open_drops_lines_refuted :
  exists y l w, orderly false l /\ ~ crashes l /\ runs (conf Online None true) y (Halted [] 0) l = (Running w, [false; false]) /\ fs w = [] /\ pushed l = [(day1, hello)].
Proof.
  exists (mkSys (fun _ => true) (fun _ => 0%nat)), [(Start day1 day1, None); (Push day1 day1 hello, None)]. eexists.
  split; [cbn; auto|]. split; [intros (e & k & [Q|[Q|[]]]); discriminate|]. split; [vm_compute; reflexivity|]. split; reflexivity.
Qed.
Print Assumptions C58_failed_open_drops_lines_refuted.
(* when a file cannot be deleted the push throws and its line is lost *)
Theorem C58_failed_delete_throws_refuted :
  exists y w, push (conf Plain (Some 0) true) y (mkLog [($"log", File (mkF hello day1))] [] true [] 1 0) day2 day2 world = (Thrown w, false) /\ lost world (fs w) /\ is_open w = false.
Proof.
  exists (mkSys (fun k => (k =? 1)%nat) (fun _ => 0%nat)). eexists. split; [vm_compute; reflexivity|]. split; [|reflexivity]. apply lost_ok. vm_compute. reflexivity.
Qed.
Print Assumptions C58_failed_delete_throws_refuted.
