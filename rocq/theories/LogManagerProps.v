(* C51: the logging manager *)
From Verif Require Import Conc Text SMap LogTextModel LogManagerModel LogManagerSpec.
From Verif Require LogManagerProofs LogManagerProofs2 LogManagerProofs3 LogManagerProofs4 LogManagerProofs5 LogManagerProofs6 LogManagerProofs7.

(* No sequence of calls uses a deleted object.  The only calls that fail are configure and the creation of a stream before initialize,
   and they fail with an assertion. *)
Theorem C51_safety : forall config op cs,
  do_calls config op cs <> UB /\
  forall m, do_calls config op cs = Ok m ->
    forall c, (do_call config op m c = Throw <-> ~ In CInitialize cs /\ (c = CConfigure \/ exists n, c = CNewStream n)) /\ (do_call config op m c <> Throw -> exists m', do_call config op m c = Ok m').
Proof.
  intros config op cs. destruct (LogManagerProofs5.calls_inv config op cs) as [U I]. split; [exact U|]. intros m E c.
  pose proof (LogManagerProofs7.inited_iff _ _ _ _ E) as IN.
  destruct (LogManagerProofs5.call_inv config op m c (I _ E)) as [[T X]|(m' & T & X & _)]; rewrite X.
  - split; [|intros H; destruct (H eq_refl)]. split; [intros _|reflexivity]. rewrite <- IN.
    destruct c; cbn in T; try discriminate T; apply Bool.negb_true_iff in T; (split; [rewrite T; discriminate|eauto]).
  - split; [|eauto]. split; [discriminate|]. intros [H1 [->|[n ->]]]; cbn in T; apply Bool.negb_false_iff in T; destruct (H1 (proj1 IN T)).
Qed.
Print Assumptions C51_safety.

(* After any sequence of calls shutdown succeeds: it deletes every stream and every output exactly once (a second deletion would be UB) and leaves none. *)
Theorem C51_shutdown : forall config op cs m, do_calls config op cs = Ok m ->
  exists m', shutdown m = Ok m' /\ (forall a, sh m' a = None) /\ (forall o, oh m' o = None) /\ smap m' = [] /\ omap m' = [] /\ dflt m' = None /\ inited m' = false.
Proof.
  intros config op cs m E. destruct (LogManagerProofs5.shutdown_ok m (LogManagerProofs5.i_wf _ (LogManagerProofs7.reach_inv _ _ _ _ E))) as (m' & H). exists m'. tauto.
Qed.
Print Assumptions C51_shutdown.

(* A message of level l goes to exactly the connected outputs whose level, and the stream's, lets it pass. *)
Theorem C51_log : forall config op cs m, do_calls config op cs = Ok m -> forall n a s l, map_get (smap m) n = Some a -> sh m a = Some s ->
  exists r, log m a l = Ok r /\
  forall o, In o r <-> connected m n o /\ (rank (s_level s) <= rank l)%Z /\ exists x, oh m o = Some x /\ (rank (o_level x) <= rank l)%Z.
Proof.
  intros config op cs m E n a s l M S. pose proof (LogManagerProofs5.i_wf _ (LogManagerProofs7.reach_inv _ _ _ _ E)) as W.
  destruct (LogManagerProofs5.log_ok m a l s W S) as (r & R & H). exists r. split; [exact R|]. intros o. rewrite H. unfold connected, stream_of. rewrite M, S.
  split; [intros (A & B); split; [exists s; auto|exact B]|]. intros ((t & [= <-] & A) & B). auto.
Qed.
Print Assumptions C51_log.

(* The first initialize, after any registrations: the streams are the registered ones; the outputs are those of the configuration entries with a known
   kind, and one for --quick-debug under the first free name; there is a default output iff no outputs are configured or a valid --log-level is given.
   A stream is connected to the default output, to the outputs whose entry names it (or names no stream), and QuickDebug to the output of --quick-debug.
   Levels: --log-level, then the configuration, then Info.  Every output is running. *)
Theorem C51_initialize : forall config op cs, Forall registration cs -> exists m q, do_calls config op (cs ++ [CInitialize]) = Ok m /\
  match q with
  | None => quick_debug op = None
  | Some k => quick_debug op <> None /\ exists i, k = quick_name i /\ ~ created (known_outputs cs) (outputs_of config) k /\ forall j, j < i -> created (known_outputs cs) (outputs_of config) (quick_name j)
  end /\
  (forall n, has_stream m n <-> registered_stream cs n) /\
  (forall k, has_output m k <-> created (known_outputs cs) (outputs_of config) k \/ q = Some k) /\
  (dflt m <> None <-> outputs_of config = [] \/ option_level op <> None) /\
  (forall n o, connected m n o <-> registered_stream cs n /\
     (dflt m = Some o \/ exists k, map_get (omap m) k = Some o /\ (wired (fun _ => False) (known_outputs cs) (outputs_of config) n k \/ (q = Some k /\ n = $"QuickDebug")))) /\
  (forall n s, stream_of m n = Some s ->
     s_level s = if andb (str_eqb n $"QuickDebug") (match q with Some _ => true | None => false end) then Trace
                 else the_level op (match last_level (streams_of config) n with Some l => l | None => Info end)) /\
  (forall k x, output_of m k = Some x -> o_running x = true /\
     ((q = Some k /\ o_level x = Trace) \/
      exists l1 e c l2, outputs_of config = l1 ++ (e, c) :: l2 /\ the_name c = k /\ In (c_kind c) (known_outputs cs) /\ ~ created (known_outputs cs) l1 k /\ o_level x = the_level op (c_level c))) /\
  (forall d, dflt m = Some d -> oh m d = Some (mkO $"Default" (the_level op Info) true)).
Proof. exact LogManagerProofs7.initialize_fresh. Qed.
Print Assumptions C51_initialize.

(* The entries of the configuration: entry e has the values of the keys /IclCore/Logging/e/..., with level Trace if LogLevel is missing or wrong *)
Theorem C51_config : forall config e, NoDup (map fst config) ->
  (forall c, map_get (outputs_of config) e = Some c -> (exists a, e = $"OutputStream" ++ a) /\
    c_kind c = value config (key e $"OutputStreamName") /\ c_name c = value config (key e $"Name") /\ c_level c = level_or_trace (value config (key e $"LogLevel")) /\
    c_streams c = map snd (filter (fun kv => stream_key e (fst kv)) config)) /\
  (map_get (outputs_of config) e <> None <-> (exists a, e = $"OutputStream" ++ a) /\
    exists kv, In kv config /\ (fst kv = key e $"OutputStreamName" \/ fst kv = key e $"Name" \/ fst kv = key e $"LogLevel" \/ stream_key e (fst kv) = true)) /\
  (forall c, map_get (streams_of config) e = Some c -> (exists a, e = $"LogStream" ++ a) /\
    sc_name c = value config (key e $"Name") /\ sc_level c = level_or_trace (value config (key e $"LogLevel"))) /\
  (map_get (streams_of config) e <> None <-> (exists a, e = $"LogStream" ++ a) /\ exists kv, In kv config /\ (fst kv = key e $"Name" \/ fst kv = key e $"LogLevel")).
Proof.
  intros config e ND. destruct (LogManagerProofs6.config_good config ND) as [_ G]. destruct (LogManagerProofs6.sconfig_good config ND) as [_ SG]. specialize (G e). specialize (SG e).
  change (fold_left read_output config []) with (outputs_of config) in G. change (fold_left read_stream config []) with (streams_of config) in SG.
  split; [|split; [|split]].
  - intros c E. rewrite E in G. destruct G as (A & _ & B). auto.
  - destruct (map_get (outputs_of config) e) as [c|].
    + split; [|discriminate]. intros _. destruct G as (A & B & _). auto.
    + split; [congruence|]. intros [A (kv & I & K)]. destruct (G A kv I K).
  - intros c E. rewrite E in SG. destruct SG as (A & _ & B). auto.
  - destruct (map_get (streams_of config) e) as [c|].
    + split; [|discriminate]. intros _. destruct SG as (A & B & _). auto.
    + split; [congruence|]. intros [A (kv & I & K)]. destruct (SG A kv I K).
Qed.
Print Assumptions C51_config.

(* configure on an initialized manager, after any calls: it creates the missing streams and outputs, keeps every connection that is not to the default output,
   and adds those of the configuration. *)
Theorem C51_configure : forall config op cs m, do_calls config op cs = Ok m -> In CInitialize cs -> exists m', configure op m = Ok m' /\
  (forall n, has_stream m' n <-> has_stream m n \/ In n (map fst (sfac m))) /\
  (forall k, has_output m' k <-> has_output m k \/ created (ofac m) (ocfg m) k) /\
  (dflt m' <> None <-> ocfg m = [] \/ option_level op <> None) /\
  (forall n o, connected m' n o <-> (connected m n o /\ dflt m <> Some o) \/ (dflt m' = Some o /\ has_stream m' n) \/
    (has_stream m' n /\ exists k, map_get (omap m') k = Some o /\ wired (has_output m) (ofac m) (ocfg m) n k)) /\
  (forall n s, stream_of m' n = Some s ->
    s_level s = the_level op (match last_level (scfg m) n with Some l => l | None => match stream_of m n with Some s0 => s_level s0 | None => Info end end)) /\
  (forall k x, output_of m k = Some x -> output_of m' k = Some (mkO (o_name x) (the_level op (o_level x)) (o_running x))) /\
  (forall k x, output_of m k = None -> output_of m' k = Some x ->
    exists l1 e c l2, ocfg m = l1 ++ (e, c) :: l2 /\ the_name c = k /\ In (c_kind c) (ofac m) /\ ~ created (ofac m) l1 k /\ o_level x = the_level op (c_level c)).
Proof.
  intros config op cs m E IN. pose proof (LogManagerProofs7.reach_inv _ _ _ _ E) as I. apply (LogManagerProofs7.inited_iff _ _ _ _ E) in IN.
  destruct (LogManagerProofs5.configure_inv op m I IN) as (m' & E' & C & I'). exists m'. split; [exact E'|]. split; [apply C|]. split; [apply C|]. split; [apply C|]. split; [|split; [|split]].
  - intros n o. rewrite (LogManagerProofs3.f_conn _ _ _ C). assert (X : forall k, In (k, o) (omap m') <-> map_get (omap m') k = Some o) by (intros k; symmetry; apply LogManagerProofs7.map_get_iff; apply (LogManagerProofs.w_omap _ (LogManagerProofs5.i_wf _ I'))).
    split; (intros [A|[A|[A (k & B1 & B2)]]]; [left; exact A|right; left; exact A|right; right; split; [exact A|exists k; split; [apply X, B1|exact B2]]]).
  - intros n s. apply (LogManagerProofs3.f_slevel _ _ _ C).
  - intros k x. apply (LogManagerProofs3.f_old _ _ _ C).
  - intros k x N O. destruct (LogManagerProofs3.f_new _ _ _ C k x N O) as (l1 & e & c & l2 & A1 & A2 & A3 & A4 & ->). exists l1, e, c, l2. auto.
Qed.
Print Assumptions C51_configure.

(* A stream created after initialize has level Info and is connected to the default output only; the others are untouched. *)
Theorem C51_new_stream : forall config op cs m n, do_calls config op cs = Ok m -> In CInitialize cs -> ~ has_stream m n -> exists m',
  do_call config op m (CNewStream n) = Ok m' /\ omap m' = omap m /\ oh m' = oh m /\
  (exists s, stream_of m' n = Some s /\ s_level s = Info /\ forall o, In o (s_outs s) <-> dflt m = Some o) /\
  forall n', n' <> n -> stream_of m' n' = stream_of m n'.
Proof.
  intros config op cs m n E IN NS. pose proof (LogManagerProofs7.reach_inv _ _ _ _ E) as I. pose proof (LogManagerProofs5.i_wf _ I) as W. apply (LogManagerProofs7.inited_iff _ _ _ _ E) in IN.
  assert (M : map_get (smap m) n = None).
  { destruct (map_get (smap m) n) as [a|] eqn:M; [|reflexivity]. destruct NS. apply LogManagerProofs2.has_stream_iff; [exact W|]. exists a. apply SMap.map_get_in in M; [exact M|apply W]. }
  destruct (LogManagerProofs5.new_inv m n I IN M) as (m' & E' & I' & S & H). exists m'. cbn [do_call]. rewrite IN, M. cbn [new_stream fst snd] in *. split; [exact E'|].
  assert (OM : omap m' = omap m) by (rewrite S; reflexivity). assert (OH : oh m' = oh m) by (rewrite S; reflexivity). assert (SM : smap m' = map_put (smap m) n (sn m)) by (rewrite S; reflexivity).
  split; [exact OM|]. split; [exact OH|]. split.
  - exists (mkS n Info (LogManagerProofs.outs0 m)). unfold stream_of. rewrite SM, LogManagerProofs6.map_get_put' by apply W. rewrite LogManagerProofs6.eqb_refl', H, Nat.eqb_refl. split; [reflexivity|]. split; [reflexivity|].
    intros o. cbn. unfold LogManagerProofs.outs0. destruct (dflt m) as [d|]; cbn; split; try tauto; try discriminate; [intros [->|[]]; reflexivity|intros [= ->]; auto].
  - intros n' N. unfold stream_of. rewrite SM, LogManagerProofs6.map_get_put' by apply W. destruct (str_eqb n n') eqn:Q; [apply LogManagerProofs3.str_eqb_eq in Q; congruence|].
    destruct (map_get (smap m) n') as [a|] eqn:M'; [|reflexivity]. rewrite H. destruct (Nat.eqb_spec a (sn m)) as [->|]; [|reflexivity].
    apply SMap.map_get_in in M'; [|apply W]. destruct (LogManagerProofs.w_s _ W _ _ M') as (s & X & _). rewrite (LogManagerProofs.w_sn _ W) in X by apply le_n. discriminate X.
Qed.
Print Assumptions C51_new_stream.

(* setLogLevel sets the level of every stream and of every named output, and changes nothing else; the default output keeps its level. *)
Theorem C51_setLogLevel : forall config op cs m l, do_calls config op cs = Ok m -> exists m', setLogLevel l m = Ok m' /\
  (forall n, stream_of m' n = option_map (fun s => mkS (s_name s) l (s_outs s)) (stream_of m n)) /\
  (forall k, output_of m' k = option_map (fun x => mkO (o_name x) l (o_running x)) (output_of m k)) /\
  (forall k, map_get (omap m') k = map_get (omap m) k) /\
  dflt m' = dflt m /\ forall d, dflt m = Some d -> oh m' d = oh m d.
Proof.
  intros config op cs m l E. pose proof (LogManagerProofs5.i_wf _ (LogManagerProofs7.reach_inv _ _ _ _ E)) as W.
  destruct (LogManagerProofs5.setlevel_ok m l W) as (m' & E' & W' & (A1&A2&A3&A4&A5&A6&A7&A8&A9&A0) & S & O). exists m'. split; [exact E'|]. split; [|split; [|split; [|split]]].
  - intros n. unfold stream_of. rewrite A6. destruct (map_get (smap m) n); [apply S|reflexivity].
  - intros k. unfold output_of. rewrite A7. destruct (map_get (omap m) k) as [o|] eqn:M; [|reflexivity]. apply O. exists k. apply SMap.map_get_in in M; [exact M|apply W].
  - intros k. rewrite A7. reflexivity.
  - exact A8.
  - intros d D. apply O. intros [k I]. exact (proj2 (LogManagerProofs.w_d _ W _ D) _ I).
Qed.
Print Assumptions C51_setLogLevel.

(* It is false that setLogLevel l makes messages of level l visible: without configured outputs they stop at the default output. *)
Theorem C51_setLogLevel_refuted : exists m m' a, do_calls [] (mkOpts None None) [CInitialize] = Ok m /\ setLogLevel Trace m = Ok m' /\ map_get (smap m') $"Default" = Some a /\
  (exists o, connected m' $"Default" o) /\ log m' a Trace = Ok [].
Proof.
  assert (H : (match do_calls [] (mkOpts None None) [CInitialize] with
    | Ok m => match setLogLevel Trace m with
              | Ok m' => match map_get (smap m') $"Default", stream_of m' $"Default" with
                         | Some a, Some s => match s_outs s, log m' a Trace with _ :: _, Ok [] => true | _, _ => false end
                         | _, _ => false end
              | _ => false end
    | _ => false end) = true) by (vm_compute; reflexivity).
  destruct (do_calls _ _ _) as [m| |]; try discriminate H. destruct (setLogLevel Trace m) as [m'| |] eqn:E; try discriminate H.
  destruct (map_get (smap m') $"Default") as [a|] eqn:M; try discriminate H. destruct (stream_of m' $"Default") as [s|] eqn:S; try discriminate H.
  destruct (s_outs s) as [|o l] eqn:O; try discriminate H. destruct (log m' a Trace) as [[|p r]| |] eqn:L; try discriminate H.
  exists m, m', a. repeat split; try assumption. exists o, s. rewrite O. split; [exact S|left; reflexivity].
Qed.
Print Assumptions C51_setLogLevel_refuted.
(* It is false that logging can be initialized again after shutdown: the streams are deleted, but their classes still point to them. *)
Theorem C51_restart_refuted : exists m m', do_calls [] (mkOpts None None) [CInitialize] = Ok m /\ shutdown m = Ok m' /\ initialize [] (mkOpts None None) m' = UB.
Proof.
  assert (H : (match do_calls [] (mkOpts None None) [CInitialize] with
    | Ok m => match shutdown m with Ok m' => match initialize [] (mkOpts None None) m' with UB => true | _ => false end | _ => false end | _ => false end) = true) by (vm_compute; reflexivity).
  destruct (do_calls _ _ _) as [m| |]; try discriminate H. destruct (shutdown m) as [m'| |] eqn:E; try discriminate H. destruct (initialize _ _ m') eqn:I; try discriminate H. exists m, m'. auto.
Qed.
Print Assumptions C51_restart_refuted.
(* It is false that every output of an initialized manager runs: an output whose kind is registered after initialize is created by configure, but not started. *)
Theorem C51_running_refuted : exists m x, do_calls [(key $"OutputStream1" $"OutputStreamName", $"File")] (mkOpts None None) [CInitialize; CRegisterOutput $"File"; CConfigure] = Ok m /\
  output_of m $"File" = Some x /\ o_running x = false /\ (exists o, map_get (omap m) $"File" = Some o /\ connected m $"Default" o).
Proof.
  assert (H : (match do_calls [(key $"OutputStream1" $"OutputStreamName", $"File")] (mkOpts None None) [CInitialize; CRegisterOutput $"File"; CConfigure] with
    | Ok m => match output_of m $"File", map_get (omap m) $"File", stream_of m $"Default" with
              | Some x, Some o, Some s => andb (negb (o_running x)) (existsb (Nat.eqb o) (s_outs s)) | _, _, _ => false end
    | _ => false end) = true) by (vm_compute; reflexivity).
  destruct (do_calls _ _ _) as [m| |]; try discriminate H. destruct (output_of m $"File") as [x|] eqn:X; try discriminate H. destruct (map_get (omap m) $"File") as [o|] eqn:O; try discriminate H.
  destruct (stream_of m $"Default") as [s|] eqn:S; try discriminate H. apply andb_prop in H. destruct H as [H1 H2]. apply Bool.negb_true_iff in H1. apply existsb_exists in H2. destruct H2 as (p & I & Q). apply Nat.eqb_eq in Q. subst p.
  exists m, x. repeat split; try assumption. exists o. split; [exact O|]. exists s. auto.
Qed.
Print Assumptions C51_running_refuted.
(* It is false that a section of the configuration without LogLevel means the default level: the output takes every message. *)
Theorem C51_default_level_refuted : exists m x, do_calls [(key $"OutputStream1" $"OutputStreamName", $"File")] (mkOpts None None) [CRegisterOutput $"File"; CInitialize] = Ok m /\
  output_of m $"File" = Some x /\ o_level x <> Info.
Proof.
  assert (H : (match do_calls [(key $"OutputStream1" $"OutputStreamName", $"File")] (mkOpts None None) [CRegisterOutput $"File"; CInitialize] with
    | Ok m => match output_of m $"File" with Some x => match o_level x with Info => false | _ => true end | _ => false end
    | _ => false end) = true) by (vm_compute; reflexivity).
  destruct (do_calls _ _ _) as [m| |]; try discriminate H. destruct (output_of m $"File") as [x|] eqn:X; try discriminate H. exists m, x. repeat split; auto. intros L. rewrite L in H. discriminate H.
Qed.
Print Assumptions C51_default_level_refuted.

Example C51_ex :
  let config := [(key $"LogStream1" $"LogLevel", $"Debug"); (key $"LogStream1" $"Name", $"Mine");
                 (key $"OutputStream1" $"LogLevel", $"Warning"); (key $"OutputStream1" $"LogStream1", $"Mine"); (key $"OutputStream1" $"Name", $"A"); (key $"OutputStream1" $"OutputStreamName", $"File");
                 (key $"OutputStream2" $"OutputStreamName", $"Stdout"); (key $"OutputStream3" $"OutputStreamName", $"Nowhere")] in
  let cs := [CRegisterStream $"Mine"; CRegisterOutput $"File"; CRegisterOutput $"Stdout"] in
  match do_calls config (mkOpts None (Some $"f")) (cs ++ [CInitialize]) with
  | Ok m => (map fst (omap m), stream_of m $"Mine", stream_of m $"Default", output_of m $"A", option_map (fun a => (log m a Warning, log m a Debug, log m a Trace)) (map_get (smap m) $"Mine"))
    = ([$"A"; $"QuickDebug"; $"Stdout"], Some (mkS $"Mine" Debug [1; 0]), Some (mkS $"Default" Info [1]), Some (mkO $"A" Warning true), Some (Ok [1; 0], Ok [1], Ok []))
  | _ => False end /\ Forall registration cs /\ NoDup (map fst config).
Proof.
  cbv zeta. split; [vm_compute; reflexivity|]. split.
  - repeat constructor.
  - repeat constructor; cbn; intuition discriminate.
Qed.
