(* C34, C35.  literal rx: the regex engine matches p(.-star-) on plain text as a prefix test. *)
From Verif Require Import Base Text SMap GetoptModel GetoptSpec GetoptProofs.

(* C34: a call returns true exactly if every argument can be accounted for, all required parameters are given and help is not
   asked for *)
Theorem C34_accepts_iff :
  forall rx g strict cleanup prog args, literal rx -> plain_registry g -> registered g ->
  (how (initialize rx g strict cleanup (prog :: args) no_args) = Returned true <->
   exists items, accounted g strict args items /\ complete g items).
Proof. intros rx g strict cleanup prog args L P R. exact (init_true rx g strict cleanup prog args L P R). Qed.
Print Assumptions C34_accepts_iff.

(* it returns false exactly if not every argument can be accounted for: in strict mode an unknown option, in both modes a
   short option without its value *)
Theorem C34_rejects_iff :
  forall rx g strict cleanup prog args, literal rx -> plain_registry g -> registered g ->
  (how (initialize rx g strict cleanup (prog :: args) no_args) = Returned false <->
   ~ exists items, accounted g strict args items).
Proof. intros rx g strict cleanup prog args L P R. exact (init_false rx g strict cleanup prog args L P R). Qed.
Print Assumptions C34_rejects_iff.

(* otherwise the process ends, with status 0 *)
Theorem C34_exits_iff :
  forall rx g strict cleanup prog args, literal rx -> plain_registry g -> registered g ->
  (how (initialize rx g strict cleanup (prog :: args) no_args) = Exited <->
   exists items, accounted g strict args items /\ ~ complete g items).
Proof. intros rx g strict cleanup prog args L P R. exact (init_exit rx g strict cleanup prog args L P R). Qed.
Print Assumptions C34_exits_iff.

(* there is only one way to account for the arguments *)
Theorem C34_accounting_unique :
  forall rx g strict args l1 l2, literal rx -> plain_registry g -> registered g ->
  accounted g strict args l1 -> accounted g strict args l2 -> l1 = l2.
Proof. intros rx g strict args l1 l2 L P R. exact (accounted_unique rx g strict args L P R l1 l2). Qed.
Print Assumptions C34_accounting_unique.

(* and what can be asked for afterwards: the last value of each option, all suffixes of a prefix option, the non-options and
   the extra parameters, in order *)
Theorem C34_results :
  forall rx g strict cleanup prog args items, literal rx -> plain_registry g -> registered g ->
  accounted g strict args items ->
  let st := state (initialize rx g strict cleanup (prog :: args) no_args) in
  (forall k, paramOptPresent st k = true <-> exists v, last_value k (map (assigns g) items) = Some v) /\
  (forall k v, last_value k (map (assigns g) items) = Some v -> paramOpt st k = v) /\
  (forall k, paramPrefixOpt st k = pairs_for k (map (adds_prefix g) items)) /\
  (forall i, (i < paramNonOptCount st)%nat -> nth_error (flat_map non_option items) i = Some (paramNonOpt st i)) /\
  paramNonOptCount st = length (flat_map non_option items) /\
  extra st = flat_map extra_of items.
Proof.
  intros rx g strict cleanup prog args items L P R A st.
  destruct (init_results rx g strict cleanup prog args L P R items A) as (H1 & H2 & H3 & H4). fold st in H1, H2, H3, H4.
  unfold paramOptPresent, paramOpt, paramNonOpt, paramNonOptCount. split; [|split; [|split; [|split; [|split]]]]; auto.
  - intros k. rewrite H1. destruct (last_value k _); [split; eauto|]. split; [discriminate|]. intros (v & Hv). discriminate.
  - intros k v Hv. rewrite H1, Hv. reflexivity.
  - intros i Hi. rewrite <- H3. destruct (Nat.ltb_spec i (length (non_opt st))); [|lia]. apply nth_error_nth'. auto.
  - rewrite H3. reflexivity.
Qed.
Print Assumptions C34_results.

(* registering: a trailing colon means that the option has a value and is not part of its name *)
Theorem C34_colon_means_value :
  forall o s b, make_param (o ++ $":") s b = mkP o s true b /\
  ((forall o', o <> o' ++ $":") -> make_param o s b = mkP o s false b).
Proof.
  intros o s b. unfold make_param. split.
  - rewrite app_length. replace (length o + length $":" =? 0)%nat with false by (symmetry; apply Nat.eqb_neq; cbn; lia).
    cbn [list_ascii_of_string]. rewrite last_last. cbn [negb andb Ascii.eqb].
    replace (length o + length [":"%char] - 1)%nat with (length o) by (cbn; lia).
    rewrite firstn_app, firstn_all, Nat.sub_diag. cbn. rewrite app_nil_r. reflexivity.
  - intros H. destruct (list_eq_dec ascii_dec o []) as [->|N]; [reflexivity|].
    destruct (exists_last N) as (l & x & E2). rewrite E2, last_last.
    destruct (Ascii.eqb_spec x ":"%char) as [->|N2]; [exfalso; apply (H l); exact E2|]. rewrite andb_false_r. reflexivity.
Qed.
Print Assumptions C34_colon_means_value.

(* in each of the two name spaces the first registration of a name wins *)
Theorem C34_first_registration_wins :
  forall g o s, registered g ->
  let p := make_param o s false in
  let g' := addParameter g p in
  (forall k, map_get (params g') k = match map_get (params g) k with Some q => Some q | None => if list_eq_dec ascii_dec k (p_option p) then Some p else None end) /\
  (s <> [] -> forall k, map_get (shorts g') k = match map_get (shorts g) k with Some q => Some q | None => if list_eq_dec ascii_dec k s then Some p else None end) /\
  prefixes g' = prefixes g /\ short_prefixes g' = short_prefixes g.
Proof.
  intros g o s R p g'. destruct (registered_well_formed g R) as (S1 & S2 & S3 & S4).
  assert (Hp : p_is_prefix p = false) by (unfold p, make_param; destruct (_ && _); reflexivity).
  assert (Hs : p_short p = s) by (unfold p, make_param; destruct (_ && _); reflexivity).
  assert (I : forall (m : list (str * param)) k k', sorted m -> map_get (map_insert m k' p) k =
     match map_get m k with Some q => Some q | None => if list_eq_dec ascii_dec k k' then Some p else None end).
  { intros m k k' S. unfold map_insert. destruct (map_get m k') eqn:E.
    - destruct (map_get m k) eqn:E2; auto. destruct (list_eq_dec ascii_dec k k'); congruence.
    - rewrite map_get_put by auto. destruct (list_eq_dec ascii_dec k k') as [->|]; [rewrite E; auto|]. destruct (map_get m k); auto. }
  unfold g', addParameter. rewrite Hp. cbn [params shorts prefixes short_prefixes]. repeat split.
  - intros k. apply I; auto.
  - intros Hn k. rewrite Hs. destruct s; [congruence|]. apply I; auto.
Qed.
Print Assumptions C34_first_registration_wins.

(* an option that requires a value is accepted without one when given in its long form: the value is empty *)
Theorem C34_missing_long_value_refuted :
  exists g, registered g /\ (exists q, map_get (params g) $"port" = Some q /\ p_has_value q = true) /\
  forall rx, let r := initialize rx g true false [$"prog"; $"--port"] no_args in
    how r = Returned true /\ paramOptPresent (state r) $"port" = true /\ paramOpt (state r) $"port" = [].
Proof.
  exists (addParameter new_getopt (make_param $"port:" $"p" false)). split; [repeat constructor|]. split.
  - eexists. split; [vm_compute; reflexivity|reflexivity].
  - intros rx. vm_compute. auto.
Qed.
Print Assumptions C34_missing_long_value_refuted.

(* the object is never marked as initialised: a second call reads the arguments again and adds to the lists *)
Theorem C34_second_call_refuted :
  forall rx, let r1 := initialize rx new_getopt true false [$"prog"; $"file"] no_args in
  let r2 := initialize rx new_getopt true false [$"prog"; $"file"] (state r1) in
  how r1 = Returned true /\ how r2 = Returned true /\ paramNonOptCount (state r1) = 1%nat /\ paramNonOptCount (state r2) = 2%nat.
Proof. intros rx. vm_compute. auto. Qed.
Print Assumptions C34_second_call_refuted.

(* the name of a prefix option is read as a regular expression *)
Theorem C34_prefix_is_regex_refuted :
  forall rx, rx $"a." $"abc" = Some $"c" ->   (* what Boost does: the dot matches any character *)
  exists g, registered g /\ let r := initialize rx g true false [$"prog"; $"--abc"] no_args in
    how r = Returned true /\ paramPrefixOpt (state r) $"a." = [($"c", $"yes")].
Proof.
  intros rx H. exists (addParameter new_getopt (make_param $"a." [] true)). split; [repeat constructor|].
  cbn in H. cbn. rewrite H. auto.
Qed.
Print Assumptions C34_prefix_is_regex_refuted.

(* an instance: long, short, prefix, positional, non-option and extra parameters *)
Definition demo : registry :=
  activateExtra (addPositional (addParameter (addParameter (addParameter new_getopt
    (make_param $"port:" $"p" false)) (make_param $"verbose" $"v" false)) (make_param $"conf-:" $"c" true)) $"input" false) $"--".
Example C34_instance :
  literal strip /\ plain_registry demo /\ registered demo /\
  exists items, accounted demo true [$"--port=80"; $"a"; $"-p"; $"81"; $"--conf-x=1"; $"b"; $"-cy"; $"2"; $"-v"; $"--"; $"-z"] items /\ complete demo items /\
    items = [ILong $"port" (Some $"80"); IPositional $"input" $"a"; IShort $"p" (Some $"81"); ILongPrefix $"conf-" $"x" (Some $"1"); INon $"b";
             IShortPrefix $"c" $"y" (Some $"2"); IShort $"v" None; IDelimiter; IExtra $"-z"].
Proof.
  assert (L : literal strip) by (intros p n _; reflexivity).
  assert (P : plain_registry demo).
  { split; intros p q H; vm_compute in H; destruct H as [[= <- <-]|[]]; intros c Hc K; vm_compute in Hc, K;
      repeat (destruct Hc as [<-|Hc]; [repeat (destruct K as [K|K]; [discriminate K|]); destruct K|]); destruct Hc. }
  assert (R : registered demo) by (unfold demo; repeat constructor).
  split; [exact L|]. split; [exact P|]. split; [exact R|].
  eexists. split; [|split; [|reflexivity]].
  - apply (accounted_items strip); [exact L|exact P|apply registered_well_formed; exact R|]. vm_compute. reflexivity.
  - vm_compute. auto.
Qed.

(* C35: cleanup keeps exactly the arguments whose text is that of a non-option argument, in their order, and counts them *)
Theorem C35_cleanup_keeps :
  forall rx g strict prog args st, let r := initialize rx g strict true (prog :: args) st in
  how r = Returned true ->
  let kept := filter (fun a => str_in a (non_opt (state r))) args in
  argc_after r = S (length kept) /\ firstn (argc_after r) (argv_after r) = map Some (prog :: kept) /\
  length (argv_after r) = S (S (length args)).
Proof.
  intros rx g strict prog args st r H kept. destruct (init_cleanup rx g strict prog args st H) as (junk & H1 & H2 & H3).
  fold r in H1, H2, H3. fold kept in H1, H2, H3. split; auto. split.
  - rewrite H1, H2, firstn_app, firstn_all2 by (rewrite map_length; cbn; lia). rewrite map_length. cbn [length].
    rewrite Nat.sub_diag. cbn. rewrite app_nil_r. reflexivity.
  - rewrite H2, !app_length, !map_length. cbn. lia.
Qed.
Print Assumptions C35_cleanup_keeps.

(* these are exactly the non-option arguments if and only if no argument that was read as something else has the same text as
   one of them *)
Theorem C35_cleanup_exact_iff :
  forall rx g strict prog args items, literal rx -> plain_registry g -> registered g ->
  accounted g strict args items -> complete g items ->
  let r := initialize rx g strict true (prog :: args) no_args in
  (firstn (argc_after r) (argv_after r) = map Some (prog :: flat_map non_option items) <->
   forall a, In a (flat_map (consumed g) items) -> ~ In a (flat_map non_option items)).
Proof.
  intros rx g strict prog args items L P R A C r.
  assert (H : how r = Returned true) by (apply C34_accepts_iff; eauto).
  destruct (C35_cleanup_keeps rx g strict prog args no_args H) as (_ & H2 & _). fold r in H2.
  destruct (init_results rx g strict true prog args L P R items A) as (_ & _ & H3 & _). fold r in H3.
  rewrite H2, H3. destruct A as [_ A2]. rewrite <- A2, <- cleanup_exact. split.
  - intros E. apply (f_equal (@tl _)) in E. cbn [map tl] in E.
    assert (MI : forall a b : list str, map Some a = map Some b -> a = b).
    { induction a as [|x a IH]; intros [|y b] Q; try discriminate; auto. cbn in Q. injection Q as -> Q. f_equal. auto. }
    apply MI. exact E.
  - intros ->. reflexivity.
Qed.
Print Assumptions C35_cleanup_exact_iff.

(* the null pointer that ends argv is not moved: afterwards argv[argc] is null only if nothing was removed *)
Theorem C35_null_terminator_iff :
  forall rx g strict prog args st, let r := initialize rx g strict true (prog :: args) st in
  how r = Returned true ->
  (nth_error (argv_after r) (argc_after r) = Some None <-> argc_after r = S (length args)).
Proof.
  intros rx g strict prog args st r H. destruct (init_cleanup rx g strict prog args st H) as (junk & H1 & H2 & H3).
  fold r in H1, H2, H3. rewrite H1, H2, cleanup_terminator. split.
  - intros ->. cbn [length] in H3. lia.
  - intros E. destruct junk; auto. cbn [length] in H3. lia.
Qed.
Print Assumptions C35_null_terminator_iff.

(* without cleanup, or if it does not return true, argc and argv stay *)
Theorem C35_untouched :
  forall rx g strict cleanup prog args st, let r := initialize rx g strict cleanup (prog :: args) st in
  cleanup = false \/ how r <> Returned true -> argc_after r = S (length args) /\ argv_after r = argv_of (prog :: args).
Proof. exact init_no_cleanup. Qed.
Print Assumptions C35_untouched.

(* a positional parameter with the text of a later non-option argument is not removed *)
Theorem C35_cleanup_refuted :
  exists g, registered g /\ forall rx, let r := initialize rx g true true [$"prog"; $"x"; $"x"] no_args in
  how r = Returned true /\ non_opt (state r) = [$"x"] /\ argc_after r = 3%nat /\
  firstn (argc_after r) (argv_after r) = [Some $"prog"; Some $"x"; Some $"x"].
Proof. exists (addPositional new_getopt $"file" false). split; [repeat constructor|]. intros rx. vm_compute. auto. Qed.
Print Assumptions C35_cleanup_refuted.

Theorem C35_terminator_refuted :
  forall rx, let r := initialize rx (addParameter new_getopt (make_param $"v" $"v" false)) true true [$"prog"; $"-v"; $"x"] no_args in
  how r = Returned true /\ argc_after r = 2%nat /\ argv_after r = [Some $"prog"; Some $"x"; Some $"x"; None].
Proof. intros rx. vm_compute. auto. Qed.
Print Assumptions C35_terminator_refuted.

(* help: every Getopt knows --help and -h, and neither can be registered as anything else *)
Theorem C34_help_is_always_there :
  forall g, registered g -> map_get (params g) $"help" = Some (mkP $"help" $"h" false false) /\
  map_get (shorts g) $"h" = Some (mkP $"help" $"h" false false).
Proof. exact help_known. Qed.
Print Assumptions C34_help_is_always_there.

(* the program does not go on when the first argument asks for help, whatever is registered and whatever follows; the process ends
   if nothing follows *)
Theorem C34_help_ends :
  forall rx g strict cleanup prog a rest, registered g -> a = $"--help" \/ a = $"-h" ->
  how (initialize rx g strict cleanup (prog :: a :: rest) no_args) <> Returned true /\
  how (initialize rx g strict cleanup [prog; a] no_args) = Exited.
Proof. exact help_ends. Qed.
Print Assumptions C34_help_ends.

Example C34_help_nonvacuous :
  registered (addPositional (addParameter new_getopt (make_param $"h:" $"h" false)) $"file" false) /\
  forall rx, how (initialize rx (addPositional (addParameter new_getopt (make_param $"h:" $"h" false)) $"file" false) true false
    [$"prog"; $"-h"; $"x"] no_args) = Exited.
Proof. split; [repeat constructor|]. intros rx. reflexivity. Qed.

(* without any word (argv is empty) nothing is read, and argc stays 0 *)
Theorem C34_no_words :
  forall rx g strict cleanup st, initialize rx g strict cleanup [] st = mkI (Returned false) st 0 [None].
Proof. reflexivity. Qed.
Print Assumptions C34_no_words.
