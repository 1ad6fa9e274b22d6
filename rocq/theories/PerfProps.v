(* C59 and C60: the performance monitor. *)
From Coq Require Import Floats.SpecFloat Permutation Sorted.
From Verif Require Import Base Text SMap PerfModel PerfSpec PerfProofs PerfProofs2 PerfProofs3.
Local Open Scope Z_scope.

(* ==== C59: measuring and recording ==== *)

(* Whatever calls are made, every reply is the one the earlier calls determine. *)
Theorem C59_every_reply cs m rs : run cs = Ok (m, rs) ->
  length rs = length cs /\
  forall before c after, cs = before ++ c :: after ->
    exists r, nth_error rs (length before) = Some r /\ answers (rev before) c r.
Proof.
  intros E. destruct (run_replies cs m rs E) as [L H]. split; [exact L|]. intros a c b Q. destruct (H a c b Q) as (r & N & A & _). eauto.
Qed.
Print Assumptions C59_every_reply.

(* A program has defined behaviour exactly as long as each of its calls is allowed; nothing ever throws. *)
Theorem C59_defined cs : (exists m rs, run cs = Ok (m, rs)) <-> forall before c after, cs = before ++ c :: after -> allowed (rev before) c.
Proof. exact (run_defined cs). Qed.
Print Assumptions C59_defined.
Theorem C59_no_exception cs : run cs <> Throw.
Proof. exact (run_no_throw cs). Qed.
Print Assumptions C59_no_exception.

(* The timer keeps running: a measurement gives the time since the last start, however many measurements lie between. *)
Theorem C59_measures_since_start before between t t0 n p l now m rs :
  run (before ++ Start t t0 :: between ++ [Measurement t n p l now]) = Ok (m, rs) ->
  switched_on (rev before) = true -> Forall (fun c => sets t c = false) between ->
  active (rev between ++ Start t t0 :: rev before) p = true ->
  exists msgs, nth_error rs (length before + S (length between)) = Some (Reply (Some (millis t0 now)) msgs).
Proof.
  intros E On F0 Ac.
  replace (before ++ Start t t0 :: between ++ [Measurement t n p l now]) with ((before ++ Start t t0 :: between) ++ [Measurement t n p l now]) in E
    by (rewrite <- app_assoc; reflexivity).
  destruct (run_replies _ m rs E) as [_ H]. destruct (H (before ++ Start t t0 :: between) _ [] eq_refl) as (r & N & A & _).
  rewrite app_length in N. cbn [length] in N. cbn [answers] in A.
  rewrite rev_app_distr in A. cbn [rev] in A. rewrite <- app_assoc in A. cbn [app] in A. rewrite Ac in A.
  rewrite since_keeps in A by (apply Forall_rev; exact F0). cbn [since] in A. rewrite same_refl, On in A. cbn [andb] in A.
  unfold stopped in A. rewrite N, A. eexists. reflexivity.
Qed.
Print Assumptions C59_measures_since_start.
Definition work := [Initialize 2; Start $"t" 1000000000; Measurement $"t" $"a" [] Info 1002500000; AddData $"x" zero [];
                    Measurement $"t" $"b" [] Debug 1004000000].
Example C59_measures_since_start_ex : exists m, run work = Ok (m,
  [Reply None []; Reply None [];
   Reply (Some (S754_finite false 5629499534213120 (-51))) [(Info, [Txt $"::a"; Txt $": "; Num (S754_finite false 5629499534213120 (-51)); Txt $" ms"])];
   Reply None [];
   Reply (Some (S754_finite false 4503599627370496 (-50))) [(Debug, [Txt $"::b"; Txt $": "; Num (S754_finite false 4503599627370496 (-50)); Txt $" ms"])]]).
Proof. eexists. vm_compute. reflexivity. Qed.

(* startStop: the first call starts the timer and gives 0, each later one gives the lap since the one before. *)
Theorem C59_laps before between t n1 p1 l1 t1 n p l now m rs :
  run (before ++ StartStop t n1 p1 l1 t1 :: between ++ [StartStop t n p l now]) = Ok (m, rs) ->
  switched_on (rev before) = true -> active (rev before) p1 = true -> t1 <> 0 -> Forall (fun c => sets t c = false) between ->
  active (rev between ++ StartStop t n1 p1 l1 t1 :: rev before) p = true ->
  (since (rev before) t = 0 -> nth_error rs (length before) = Some (Reply (Some zero) [])) /\
  exists msgs, nth_error rs (length before + S (length between)) = Some (Reply (Some (millis t1 now)) msgs).
Proof.
  intros E On Ac1 NZ F0 Ac.
  split.
  - intros Z0. destruct (run_replies _ m rs E) as [_ H]. destruct (H before _ _ eq_refl) as (r & N & A & _). cbn [answers] in A.
    rewrite Ac1, Z0 in A. cbn in A. rewrite N, A. reflexivity.
  - replace (before ++ StartStop t n1 p1 l1 t1 :: between ++ [StartStop t n p l now]) with ((before ++ StartStop t n1 p1 l1 t1 :: between) ++ [StartStop t n p l now]) in E
      by (rewrite <- app_assoc; reflexivity).
    destruct (run_replies _ m rs E) as [_ H]. destruct (H (before ++ StartStop t n1 p1 l1 t1 :: between) _ [] eq_refl) as (r & N & A & _).
    rewrite app_length in N. cbn [length] in N. cbn [answers] in A.
    rewrite rev_app_distr in A. cbn [rev] in A. rewrite <- app_assoc in A. cbn [app] in A. rewrite Ac in A.
    rewrite since_keeps in A by (apply Forall_rev; exact F0). cbn [since] in A. rewrite same_refl, On, Ac1, orb_true_r in A. cbn [andb] in A.
    replace (t1 =? 0) with false in A by (symmetry; apply Z.eqb_neq; exact NZ). cbn [negb] in A.
    unfold stopped in A. rewrite N, A. eexists. reflexivity.
Qed.
Print Assumptions C59_laps.
Example C59_laps_ex : exists m, run [Initialize 0; SetPrintStop false; StartStop $"t" $"a" [] Info 5000000; StartStop $"t" $"a" [] Info 6000000; StartStop $"t" $"a" [] Info 9000000] =
  Ok (m, [Reply None []; Reply None []; Reply (Some zero) []; Reply (Some (S754_finite false 4503599627370496 (-52))) []; Reply (Some (S754_finite false 6755399441055744 (-51))) []]).
Proof. eexists. vm_compute. reflexivity. Qed.

(* The measured value is never NaN. *)
Theorem C59_measured_is_number a b : millis a b <> S754_nan.
Proof. exact (millis_number a b). Qed.
Print Assumptions C59_measured_is_number.

(* Documented "if set to false, the performance monitor will be non-operational": not after enableAll. *)
Theorem C59_switched_off_is_idle_refuted : exists m, run [SetEnabled false; EnableAll true; AddData $"x" zero $"p"; PrintSummary $"p" $"x" Info] =
  Ok (m, [Reply None []; Reply None []; Reply None []; Reply None [(Info,
    [Txt ($"Summary for p::x" ++ nl); Txt $"Called "; Cnt 1; Txt ($" times" ++ nl); Txt $"x_avg: "; Num zero; Txt ($" ms" ++ nl);
     Txt $"x_median: "; Num zero; Txt ($" ms" ++ nl); Txt $"x_min: "; Num zero; Txt ($" ms" ++ nl); Txt $"x_max: "; Num zero; Txt ($" ms" ++ nl); Txt nl])]]).
Proof. eexists. vm_compute. reflexivity. Qed.
Print Assumptions C59_switched_off_is_idle_refuted.

(* ... and in that state startStop never starts its timer ("If the given timer isn't started yet, it just will be started"). *)
Theorem C59_startstop_starts_refuted cs : Forall (fun c => exists t n p l now, c = StartStop t n p l now) cs ->
  exists m, run ([SetEnabled false; EnableAll true] ++ cs) = Ok (m, [Reply None []; Reply None []] ++ repeat (Reply (Some zero) []) (length cs)).
Proof.
  intros F0. unfold run. rewrite run_from_app. cbn [run_from step quiet bind].
  rewrite (idle_startstop cs (enableAll (with_enabled fresh false) true) eq_refl eq_refl eq_refl F0). cbn [bind]. eexists. reflexivity.
Qed.
Print Assumptions C59_startstop_starts_refuted.
Example C59_startstop_starts_ex : Forall (fun c => exists t n p l now, c = StartStop t n p l now) [StartStop $"t" $"a" [] Info 5; StartStop $"t" $"a" [] Info 6].
Proof. constructor; [|constructor; [|constructor]]; do 5 eexists; reflexivity. Qed.

(* A timer that was never started measures since 1970. *)
Theorem C59_unstarted_timer_refuted before t n p l now m rs : run (before ++ [Measurement t n p l now]) = Ok (m, rs) ->
  Forall (fun c => sets t c = false) before -> active (rev before) p = true ->
  exists msgs, nth_error rs (length before) = Some (Reply (Some (millis 0 now)) msgs).
Proof.
  intros E F0 Ac. destruct (run_replies _ m rs E) as [_ H]. destruct (H before _ [] eq_refl) as (r & N & A & _). cbn [answers] in A. rewrite Ac in A.
  rewrite <- (app_nil_r (rev before)) in A at 2. rewrite since_keeps in A by (apply Forall_rev; exact F0). cbn [since] in A.
  unfold stopped in A. rewrite N, A. eexists. reflexivity.
Qed.
Print Assumptions C59_unstarted_timer_refuted.
Example C59_unstarted_timer_ex : exists m, run [Initialize 0; SetPrintStop false; Measurement $"t" $"a" [] Info 1700000000000000000] =
  Ok (m, [Reply None []; Reply None []; Reply (Some (millis 0 1700000000000000000)) []]).
Proof. eexists. vm_compute. reflexivity. Qed.

(* ==== C60: summaries ==== *)

(* printSummary after any program: the values recorded since the last initialize under that label, their number, mean,
   median, minimum and maximum. It is undefined exactly if there is no such value, or NaN among different numbers. *)
Theorem C60_summary cs m rs p n l : run cs = Ok (m, rs) ->
  (recorded (rev cs) (label p n) <> [] -> ~ mixed (recorded (rev cs) (label p n)) ->
     exists m' msg, run (cs ++ [PrintSummary p n l]) = Ok (m', rs ++ [Reply None [(shown_at l, msg)]]) /\
       time_summary (recorded (rev cs) (label p n)) p n msg) /\
  (recorded (rev cs) (label p n) = [] \/ mixed (recorded (rev cs) (label p n)) -> run (cs ++ [PrintSummary p n l]) = UB).
Proof.
  intros E. pose proof (run_rel cs m rs E) as R. unfold run. rewrite run_from_app. unfold run in E. rewrite E. cbn [bind run_from].
  destruct (step_outcome _ _ (PrintSummary p n l) R) as [(m' & r & E' & A & Al)|[E' NA]]; rewrite E'; cbn [bind].
  - split.
    + intros _ _. destruct A as (msg & T & ->). exists m', msg. split; [reflexivity|exact T].
    + destruct Al as [A1 A2]. intros [X|X]; [destruct (A1 X)|destruct (A2 X)].
  - split; [|reflexivity]. intros X Y. destruct (NA (conj X Y)).
Qed.
Print Assumptions C60_summary.
Example C60_summary_ex : recorded (rev work) (label [] $"b") <> [] /\ ~ mixed (recorded (rev work) (label [] $"b")) /\ recorded (rev work) (label [] $"c") = [].
Proof. split; [vm_compute; discriminate|]. split; [|vm_compute; reflexivity]. intros [I0 _]. vm_compute in I0. destruct I0 as [X|[]]. discriminate X. Qed.

(* For values without NaN the figures are what their names say; the median is the upper one for an even number of values. *)
Theorem C60_figures l md mn mx : ~ In S754_nan l -> at_rank l (Nat.div (length l) 2) md -> least l mn -> greatest l mx ->
  In md l /\ (forall x, In x l -> SFleb mn x = true) /\ (forall x, In x l -> SFleb x mx = true) /\
  exists low high, Permutation l (low ++ md :: high) /\ length low = Nat.div (length l) 2 /\
    (forall x, In x low -> SFleb x md = true) /\ (forall x, In x high -> SFleb md x = true).
Proof. exact (summary_numbers l md mn mx). Qed.
Print Assumptions C60_figures.
Example C60_figures_ex : let l := [million; zero; whole 7; whole (-3)] in
  ~ In S754_nan l /\ at_rank l (Nat.div (length l) 2) (whole 7) /\ least l (whole (-3)) /\ greatest l million.
Proof.
  cbn zeta. split; [|split; [|split]].
  - intros [X|[X|[X|[X|[]]]]]; discriminate X.
  - exists [whole (-3); zero; whole 7; million]. split; [|split; [|reflexivity]].
    + apply Permutation_sym. apply (Permutation_trans (perm_skip (whole (-3)) (Permutation_trans (perm_skip zero (perm_swap million (whole 7) [])) (perm_swap million zero [whole 7])))).
      exact (Permutation_cons_append [million; zero; whole 7] (whole (-3))).
    + repeat constructor.
  - split; [right; right; right; left; reflexivity|]. intros x [<-|[<-|[<-|[<-|[]]]]]; reflexivity.
  - split; [left; reflexivity|]. intros x [<-|[<-|[<-|[<-|[]]]]]; reflexivity.
Qed.

(* If all prefixes given are plain, the report of a prefix shows exactly what was recorded under that prefix. *)
Theorem C60_report_of_plain_prefix cs m rs p l : run cs = Ok (m, rs) -> Forall plainly cs -> Forall number_given cs -> plain p ->
  exists m' msg, run (cs ++ [PrintSummaryFromPrefix p l]) = Ok (m', rs ++ [Reply None [(shown_at l, msg)]]) /\ plain_report (rev cs) p msg.
Proof.
  intros E F1 F2 P. pose proof (run_rel cs m rs E) as R. unfold run. rewrite run_from_app. unfold run in E. rewrite E. cbn [bind run_from].
  destruct (step_outcome _ _ (PrintSummaryFromPrefix p l) R) as [(m' & r & E' & A & _)|[_ NA]].
  - rewrite E'. cbn [bind]. destruct A as (msg & T & ->). exists m', msg. split; [reflexivity|]. apply plain_report_of; [exact P|apply Forall_rev; exact F1|exact T].
  - destruct (NA (presentable_numbers (rev cs) p (Forall_rev F2))).
Qed.
Print Assumptions C60_report_of_plain_prefix.
(* The report over all prefixes: one message for each enabled prefix, in ascending order. *)
Theorem C60_report_of_all cs m rs l : run cs = Ok (m, rs) -> Forall plainly cs -> Forall number_given cs ->
  (forall p, prefix_on (rev cs) p = true -> plain p) ->
  exists m' ps msgs, run (cs ++ [PrintSummaryAll l]) = Ok (m', rs ++ [Reply None (map (fun msg => (shown_at l, msg)) msgs)]) /\
    StronglySorted (fun a b => str_lt a b = true) ps /\ (forall p, In p ps <-> prefix_on (rev cs) p = true) /\ Forall2 (plain_report (rev cs)) ps msgs.
Proof.
  intros E F1 F2 P. pose proof (run_rel cs m rs E) as R. unfold run. rewrite run_from_app. unfold run in E. rewrite E. cbn [bind run_from].
  destruct (step_outcome _ _ (PrintSummaryAll l) R) as [(m' & r & E' & A & _)|[_ NA]].
  - rewrite E'. cbn [bind]. destruct A as (ps & msgs & S0 & I0 & T & ->). exists m', ps, msgs. split; [reflexivity|]. split; [exact S0|]. split; [exact I0|].
    assert (X : forall p, In p ps -> plain p) by (intros p Hp; apply P, I0, Hp). clear - T X F1.
    induction T as [|p msg ps msgs H T IH]; constructor.
    + apply plain_report_of; [apply X; left; reflexivity|apply Forall_rev; exact F1|exact H].
    + apply IH. intros q Hq. apply X. right; exact Hq.
  - exfalso. apply NA. intros p _. exact (presentable_numbers (rev cs) p (Forall_rev F2)).
Qed.
Print Assumptions C60_report_of_all.
Definition program := [Initialize 1; EnablePrefix $"io"; AddData $"read" (whole 4) $"io"; AddData $"x" (whole 1) $"off"; AddData $"read" (whole 2) $"io";
                       AddNonTimeData $"size" (whole 9) $"io"; AddStaticData $"threads" (whole 8) []].
Example C60_report_ex : Forall plainly program /\ Forall number_given program /\ plain $"io" /\ plain [] /\ exists m rs,
  run (program ++ [PrintSummaryAll Warning]) = Ok (m, rs ++ [Reply None
   [(Info, [Txt (nl ++ $"########## Begin of Summary for prefix  ##########" ++ nl); Txt ($"#### Static data: ####" ++ nl); Txt $"threads: "; Num (whole 8); Txt nl]);
    (Info, [Txt (nl ++ $"########## Begin of Summary for prefix io ##########" ++ nl); Txt ($"#### Time data: ####" ++ nl);
            Txt ($"Summary for io::read" ++ nl); Txt $"Called "; Cnt 2; Txt ($" times" ++ nl); Txt $"read_avg: "; Num (whole 3); Txt ($" ms" ++ nl);
            Txt $"read_median: "; Num (whole 4); Txt ($" ms" ++ nl); Txt $"read_min: "; Num (whole 2); Txt ($" ms" ++ nl); Txt $"read_max: "; Num (whole 4); Txt ($" ms" ++ nl); Txt nl;
            Txt ($"#### Non-time data: ####" ++ nl);
            Txt ($"Summary for io::size" ++ nl); Txt $"num entries: "; Cnt 1; Txt nl; Txt $"size_avg: "; Num (whole 9); Txt nl;
            Txt $"size_median: "; Num (whole 9); Txt nl; Txt $"size_min: "; Num (whole 9); Txt nl; Txt $"size_max: "; Num (whole 9); Txt nl; Txt nl])]]).
Proof.
  assert (P1 : plain $"io").
  { split; [intros [|a [|b [|c r]]] y X; discriminate X|intros [|a [|b [|c r]]] X; discriminate X]. }
  assert (P2 : plain []). { split; [intros [|a r] y X; discriminate X|intros [|a r] X; discriminate X]. }
  assert (P3 : plain $"off").
  { split; [intros [|a [|b [|c [|d r]]]] y X; discriminate X|intros [|a [|b [|c [|d r]]]] X; discriminate X]. }
  split; [unfold program; repeat (apply Forall_cons; [first [exact Logic.I|exact P1|exact P2|exact P3]|]); apply Forall_nil|].
  split; [unfold program; repeat (apply Forall_cons; [first [exact Logic.I|vm_compute; discriminate]|]); apply Forall_nil|]. split; [exact P1|]. split; [exact P2|].
  eexists _, [_; _; _; _; _; _; _]. vm_compute. reflexivity.
Qed.

(* As long as no NaN is handed in, the two reports are always defined. *)
Theorem C60_reports_defined cs m rs c : run cs = Ok (m, rs) -> Forall number_given cs ->
  (exists p l, c = PrintSummaryFromPrefix p l) \/ (exists l, c = PrintSummaryAll l) -> exists m' r, run (cs ++ [c]) = Ok (m', r).
Proof.
  intros E F2 D. pose proof (run_rel cs m rs E) as R. unfold run. rewrite run_from_app. unfold run in E. rewrite E. cbn [bind run_from].
  destruct (step_outcome _ _ c R) as [(m' & r & E' & _ & _)|[_ NA]].
  - rewrite E'. cbn [bind]. eexists _, _. reflexivity.
  - exfalso. apply NA. destruct D as [(p & l & ->)|(l & ->)]; [|intros p _]; exact (presentable_numbers (rev cs) p (Forall_rev F2)).
Qed.
Print Assumptions C60_reports_defined.
Example C60_reports_defined_ex : (exists m rs, run work = Ok (m, rs)) /\ Forall number_given work.
Proof. split; [eexists _, _; vm_compute; reflexivity|]. unfold work; repeat (apply Forall_cons; [first [exact Logic.I|vm_compute; discriminate]|]); apply Forall_nil. Qed.

(* A prefix with "::" in it does not get its data back: the data is reported under the part before the "::". *)
Theorem C60_every_prefix_reported_refuted : exists m, run [EnablePrefix $"a::b"; AddStaticData $"x" zero $"a::b"; PrintSummaryFromPrefix $"a::b" Info; PrintSummaryFromPrefix $"a" Info] =
  Ok (m, [Reply None []; Reply None [];
    Reply None [(Info, [Txt (nl ++ $"########## Begin of Summary for prefix a::b ##########" ++ nl)])];
    Reply None [(Info, [Txt (nl ++ $"########## Begin of Summary for prefix a ##########" ++ nl); Txt ($"#### Static data: ####" ++ nl); Txt $"b::x: "; Num zero; Txt nl])]]).
Proof. eexists. vm_compute. reflexivity. Qed.
Print Assumptions C60_every_prefix_reported_refuted.
(* Different prefix and name pairs share one label. *)
Theorem C60_labels_distinct_refuted : label $"a:" $"b" = label $"a" $":b" /\ label $"a::b" $"c" = label $"a" $"b::c".
Proof. split; reflexivity. Qed.
Print Assumptions C60_labels_distinct_refuted.

(* Documented "Print summary of everything: All prefixes": what enableAll let through is not in it. *)
Theorem C60_all_shows_everything_refuted : exists m, run [EnableAll true; AddData $"x" zero $"p"; PrintSummaryAll Info] =
  Ok (m, [Reply None []; Reply None []; Reply None []]).
Proof. eexists. vm_compute. reflexivity. Qed.
Print Assumptions C60_all_shows_everything_refuted.

(* initialize drops the recorded values but keeps static data: right after it a report shows the static data only. *)
Theorem C60_initialize cs m rs n p l : run cs = Ok (m, rs) ->
  exists m' b msg, run (cs ++ [Initialize n; PrintSummaryFromPrefix p l]) = Ok (m', rs ++ [Reply None []; Reply None [(shown_at l, msg)]]) /\
  blocks (fun n => filed p n /\ static (rev cs) (label p n) <> None)
         (fun n t => exists v, static (rev cs) (label p n) = Some v /\ t = [Txt (n ++ $": "); Num v; Txt nl]) b /\
  msg = Txt (nl ++ $"########## Begin of Summary for prefix " ++ p ++ $" ##########" ++ nl) :: titled ($"#### Static data: ####" ++ nl) b.
Proof.
  intros E. pose proof (run_rel cs m rs E) as R. pose proof (init_rel _ _ n R) as R1.
  unfold run. rewrite run_from_app. unfold run in E. rewrite E. cbn [bind run_from]. change (step m (Initialize n)) with (@Ok (mon * reply) (initialize m n, silent)). cbn [bind].
  destruct (step_outcome _ _ (PrintSummaryFromPrefix p l) R1) as [(m' & r & E' & A & _)|[_ NA]].
  - rewrite E'. cbn [bind]. destruct A as (msg & (b1 & b2 & b3 & B1 & (ns2 & _ & I2 & F2) & (ns3 & _ & I3 & F3) & Em) & ->).
    exists m', b1, msg. split; [reflexivity|]. split; [exact B1|].
    assert (X2 : b2 = []). { destruct ns2 as [|x ns2]; [inversion F2; reflexivity|]. destruct (proj1 (I2 x) (or_introl eq_refl)) as [_ X]. destruct (X eq_refl). }
    assert (X3 : b3 = []). { destruct ns3 as [|x ns3]; [inversion F3; reflexivity|]. destruct (proj1 (I3 x) (or_introl eq_refl)) as [_ X]. destruct (X eq_refl). }
    rewrite Em, X2, X3. cbn [titled]. rewrite !app_nil_r. reflexivity.
  - exfalso. apply NA. intros k _. split; intros [[] _].
Qed.
Print Assumptions C60_initialize.
Example C60_initialize_ex : exists m rs, run (program ++ [Initialize 4; PrintSummaryFromPrefix [] Trace]) = Ok (m, rs ++ [Reply None [(Trace,
  [Txt (nl ++ $"########## Begin of Summary for prefix  ##########" ++ nl); Txt ($"#### Static data: ####" ++ nl); Txt $"threads: "; Num (whole 8); Txt nl])]]).
Proof. eexists _, [_; _; _; _; _; _; _; _]. vm_compute. reflexivity. Qed.

(* printSummary for a name nothing was recorded under is undefined behaviour. *)
Theorem C60_unknown_name_refuted : run [Initialize 3; PrintSummary [] $"nothing" Info] = UB.
Proof. vm_compute. reflexivity. Qed.
Print Assumptions C60_unknown_name_refuted.
