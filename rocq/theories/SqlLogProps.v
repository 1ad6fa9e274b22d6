(* C61: log databases. *)
From Verif Require Import Base Text SMap IsoModel IsoSpec SqlLogModel SqlLogSpec SqlLogProofs.
Local Open Scope Z_scope.

(* whatever fails, and whenever the process is killed: the rows that were inserted, and those of before, are all still there *)
Theorem C61_rows_are_kept : forall fails c f n l, sorted f -> timely 0 l -> orderly false l ->
  let (m, rs) := runs fails c (Halted f n) l in
  m <> Wrong /\ kept c (before c f ++ inserted l rs) m.
Proof. intros fails c f n l A B D. pose proof (all_runs fails c f n l A B D) as R. destruct (runs _ _ _ _). destruct R as (R1 & R2 & _). split; assumption. Qed.
Print Assumptions C61_rows_are_kept.

(* nothing fails: every message is inserted, with its own values *)
Theorem C61_every_message : forall fails c f n l, sorted f -> timely 0 l -> orderly false l ->
  (forall k, fails k = false) -> db_filename c <> [] ->
  Forall2 (fun e r => forall x, message_of e = Some x -> r = Some (row_of x)) l (snd (runs fails c (Halted f n) l)).
Proof. intros fails c f n l A B D E N. pose proof (all_runs fails c f n l A B D) as R. destruct (runs _ _ _ _). apply R; assumption. Qed.
Print Assumptions C61_every_message.

(* other files are left alone *)
Theorem C61_other_files : forall fails c f n l name, sorted f -> timely 0 l -> orderly false l ->
  name <> db_filename c -> (forall d, 0 <= d < 2932897 -> name <> archive c d) ->
  map_get (files (fst (runs fails c (Halted f n) l))) name = map_get f name.
Proof. intros fails c f n l name A B D N M. pose proof (all_runs fails c f n l A B D) as R. destruct (runs _ _ _ _). apply R; assumption. Qed.
Print Assumptions C61_other_files.

(* without a filename: nothing is written at all *)
Theorem C61_no_filename : forall fails rot f n l, sorted f -> timely 0 l -> orderly false l -> map_get f [] = None ->
  let (m, rs) := runs fails (mkC [] rot) (Halted f n) l in files m = f /\ Forall (fun r => r = None) rs.
Proof.
  intros fails rot f n l A B D N. pose proof (all_runs fails (mkC [] rot) f n l A B D) as R.
  pose proof (quiet_runs fails (mkC [] rot) eq_refl f N l (Halted f n) eq_refl) as Q. destruct (runs _ _ _ _) as [m rs]. destruct R as (R1 & _), Q as (Q1 & Q2).
  split; [|exact Q2]. destruct m as [w|g k|]; cbn [files QInv] in *; [exact (proj1 Q1)|exact Q1|destruct (R1 eq_refl)].
Qed.
Print Assumptions C61_no_filename.

(* ---- what does not hold ---- *)
Definition ex_c := mkC ($"log.db") true.
Definition ex_m (text : str) := Msg ($"1970-01-01 00:00:00") ($"Default") ($"Info") ($"a.cpp") 12 ($"Class") [] ($"fun") text.
Definition ex_never (_ : nat) := false.
Definition ex_day (d : Z) := d * 86400 + 36000.
Definition ex_push (d : Z) (text : string) : call := (Push (ex_day d) (ex_day d) (ex_m ($text)), None).

(* an archive is not named after the day of its lines *)
Definition ex_late := [(Start (ex_day 0), None); ex_push 0 "one"; ex_push 5 "two"].
Theorem C61_archive_of_the_day_refuted :
  ~ (forall fails c l, timely 0 l -> orderly false l -> forall d t r rows, 0 <= d < 2932897 ->
       map_get (files (fst (runs fails c (Halted [] 0) l))) (archive c d) = Some rows -> In r rows ->
       In (t, r) (inserted l (snd (runs fails c (Halted [] 0) l))) -> day_number_of t = d).
Proof.
  intros H. specialize (H ex_never ex_c ex_late). assert (A : timely 0 ex_late) by (vm_compute; intuition congruence).
  assert (B : orderly false ex_late) by (vm_compute; intuition congruence).
  specialize (H A B 5 (ex_day 0) (row_of (ex_m ($"one"))) [row_of (ex_m ($"one"))] ltac:(lia)).
  assert (E : day_number_of (ex_day 0) = 5); [|vm_compute in E; discriminate E].
  apply H; [vm_compute; reflexivity|left; reflexivity|vm_compute; left; reflexivity].
Qed.
Print Assumptions C61_archive_of_the_day_refuted.

(* midnight between the two readings of the clock: the next rotation overwrites the archive *)
Definition ex_midnight := [(Start (ex_day 0), None); ex_push 0 "one"; (Push 172799 172800 (ex_m ($"two")), None); ex_push 2 "three"].
Theorem C61_midnight_refuted :
  let (m, rs) := runs ex_never ex_c (Halted [] 0) ex_midnight in
  In (ex_day 0, row_of (ex_m ($"one"))) (inserted ex_midnight rs) /\ lost (row_of (ex_m ($"one"))) (files m) /\
  172800 = 2 * 86400 /\ orderly false ex_midnight.
Proof.
  vm_compute. split; [left; reflexivity|]. split; [|split; [reflexivity|intuition congruence]]. intros name rows [E|[E|[]]] I0; injection E as _ <-.
  - destruct I0 as [I0|[]]. discriminate I0.
  - destruct I0 as [I0|[]]. discriminate I0.
Qed.
Print Assumptions C61_midnight_refuted.

(* the clock is set back by a day: the same *)
Definition ex_back := [(Start (ex_day 0), None); ex_push 0 "one"; ex_push 2 "two"; ex_push 1 "three"; ex_push 2 "four"].
Theorem C61_clock_set_back_refuted :
  let (m, rs) := runs ex_never ex_c (Halted [] 0) ex_back in
  In (ex_day 0, row_of (ex_m ($"one"))) (inserted ex_back rs) /\ lost (row_of (ex_m ($"one"))) (files m) /\ orderly false ex_back.
Proof.
  vm_compute. split; [left; reflexivity|]. split; [|intuition congruence]. intros name rows [E|[E|[E|[]]]] I0; injection E as _ <-; destruct I0 as [I0|[]]; discriminate I0.
Qed.
Print Assumptions C61_clock_set_back_refuted.

(* a value that cannot be bound: the row has the value of the previous message instead *)
Definition ex_stale := [(Start (ex_day 0), None); ex_push 0 "one"; ex_push 0 "two"].
Theorem C61_own_values_refuted : exists fails l k x y,
  timely 0 l /\ orderly false l /\ nth_error (map message_of l) k = Some (Some x) /\
  nth_error (snd (runs fails ex_c (Halted [] 0) l)) k = Some (Some y) /\
  message_text x = $"two" /\ nth 9 y Null = Chars ($"one").
Proof.
  exists (fun k => Nat.eqb k 25), ex_stale, 2%nat, (ex_m ($"two")). eexists.
  split; [vm_compute; intuition congruence|]. split; [vm_compute; intuition congruence|]. split; [reflexivity|]. split; [vm_compute; reflexivity|].
  split; [reflexivity|]. vm_compute. reflexivity.
Qed.
Print Assumptions C61_own_values_refuted.

(* one failure of sqlite3_open, without rotation: no message is ever inserted *)
Theorem C61_opened_later_refuted : forall fails c f n t l, rotate c = false -> fails n = true -> (forall k, k <> n -> fails k = false) ->
  Forall (fun e => match e with (Push _ _ _, None) => True | _ => False end) l ->
  let (m, rs) := runs fails c (Halted f n) ((Start t, None) :: l) in files m = f /\ Forall (fun r => r = None) rs.
Proof.
  intros fails c f n t l R Fn _ H. cbn [runs run ended]. pose proof (closed_forever fails c l R (start fails c f n t)) as K.
  assert (A : is_open (start fails c f n t) = false /\ fs (start fails c f n t) = f).
  { unfold start, openDatabase. destruct (db_filename c); [split; reflexivity|]. unfold ask. cbn [tick]. rewrite Fn. split; reflexivity. }
  destruct A as [A1 A2]. specialize (K A1 H). rewrite A2 in K. destruct (runs _ _ _ _). destruct K as [K1 K2]. split; [exact K1|].
  apply Forall_cons; [reflexivity|exact K2].
Qed.
Print Assumptions C61_opened_later_refuted.

(* ---- an example: failures, two rotations, a kill between the renaming and the new table, a restart ---- *)
Definition ex_old : fsys := [($"a.txt", []); ($"log.db", [[Int 7]])].
Definition ex_fails (k : nat) := Nat.eqb k 14.
Definition ex_all : list call :=
  [(Start (ex_day 0), None); ex_push 0 "one"; ex_push 0 "two"; ex_push 3 "three"; (Push (ex_day 4) (ex_day 4) (ex_m ($"four")), Some 1%nat);
   (Start (ex_day 4), None); ex_push 4 "five"; (Stop, None)].
Example C61_example : sorted ex_old /\ timely 0 ex_all /\ orderly false ex_all.
Proof.
  split; [|split; vm_compute; intuition congruence]. apply sorted_cons; [apply sorted_cons; [apply sorted_nil|intros k v []]|].
  intros k v [E|[]]. injection E as <- <-. reflexivity.
Qed.
Example C61_example_result :
  let (m, rs) := runs ex_fails ex_c (Halted ex_old 0) ex_all in
  map (fun e => (fst e / 86400, nth 9 (snd e) Null)) (inserted ex_all rs) = [(0, Chars ($"two")); (3, Chars ($"three")); (4, Chars ($"five"))] /\
  map (fun kv => (fst kv, map (fun r => nth 9 r (nth 0 r Null)) (snd kv))) (files m) =
    [($"a.txt", []); ($"log.db", [Chars ($"five")]); ($"log.db.1970-01-04", [Int 7; Chars ($"two")]); ($"log.db.1970-01-05", [Chars ($"three")])].
Proof. vm_compute. split; reflexivity. Qed.
Example C61_example_other : $"a.txt" <> db_filename ex_c /\ forall d, $"a.txt" <> archive ex_c d.
Proof. split; [discriminate|]. intros d. unfold archive. cbv zeta. discriminate. Qed.
