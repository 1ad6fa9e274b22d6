(* C56: reading many configuration values at once, and lists of records. *)
From Verif Require Import Base Text SMap KeyValueDirectoryModel StringHelperModel StringHelperSpec ConfigGetModel ConfigGetSpec ConfigGetProofs ConfigBatchModel ConfigBatchSpec ConfigBatchProofs.
Local Open Scope Z_scope.

(* get(prefix, list): true exactly if there is an entry and every entry is read; every entry is reported, in order, under
   its whole key, as an error only if it could not be read and report_error is set; the entries are deleted exactly if
   cleanup is set *)
Theorem C56_batch : forall rx d prefix p l cleanup report w, sorted d -> prefix_of prefix p -> batch_ready rx d p l w ->
  exists b, get_list rx d prefix l cleanup report w = Ok b /\
  (b_result b = true <-> l <> [] /\ forall o e, In (o, e) l -> succeeds rx d p e) /\
  map snd (b_log b) = map (fun oe => p ++ entry_key (snd oe)) l /\
  (forall i o e lv k, nth_error l i = Some (o, e) -> nth_error (b_log b) i = Some (lv, k) -> (lv = Error <-> report = true /\ ~ succeeds rx d p e)) /\
  b_deleted b = if cleanup then map fst l else [].
Proof.
  intros rx d prefix p l cleanup report w Sd P R. unfold get_list. rewrite (slash_prefix _ _ P).
  destruct (run_ok rx d p report Sd l w R) as (ok & w' & log & E & RU). rewrite E. cbn [bind].
  destruct R as (_ & _ & N). apply distinct_nodup in N. unfold clean_up. rewrite N.
  assert (D : (if cleanup then Ok (map fst l) else Ok []) = Ok (if cleanup then map fst l else [])) by (destruct cleanup; reflexivity).
  rewrite D. cbn [bind]. eexists. split; [reflexivity|]. cbn [b_result b_log b_deleted]. destruct (run_log _ _ _ _ _ _ _ _ _ RU) as (L1 & L2).
  split; [|auto]. rewrite andb_true_iff, (run_result _ _ _ _ _ _ _ _ _ RU). destruct l as [|x l]; [split; [intros (Q & _); discriminate|intros (Q & _); congruence]|].
  split; intros (A & B); split; auto; discriminate.
Qed.
Print Assumptions C56_batch.

(* what the entries leave in the caller's variables and lists, and that nothing else changes *)
Theorem C56_values : forall rx d prefix p l cleanup report w b, sorted d -> prefix_of prefix p -> batch_ready rx d p l w ->
  get_list rx d prefix l cleanup report w = Ok b ->
  (forall l1 o e l2, l = l1 ++ (o, e) :: l2 -> entry_done rx d p l1 l2 e w (b_world b)) /\
  (forall i, (forall o e, In (o, e) l -> ~ targets e i) -> vars (b_world b) i = vars w i) /\
  (forall i, (forall o e, In (o, e) l -> ~ outputs e i) -> outs (b_world b) i = outs w i).
Proof.
  intros rx d prefix p l cleanup report w b Sd P R. unfold get_list. rewrite (slash_prefix _ _ P).
  destruct (run_ok rx d p report Sd l w R) as (ok & w' & log & E & RU). rewrite E. cbn [bind].
  destruct (clean_up cleanup (map fst l)); cbn [bind]; try discriminate. intros Q. injection Q as <-. cbn [b_world].
  split; [|split].
  - intros l1 o e l2 ->. eapply run_entry; eauto.
  - intros i N. eapply run_var; eauto.
  - intros i N. eapply run_out; eauto.
Qed.
Print Assumptions C56_values.

(* get(array): the same with the prefix "", up to the terminating NULL; an array without entries is read successfully *)
Theorem C56_array : forall rx d l rest cleanup report w, sorted d -> batch_ready rx d [] l w ->
  exists b, get_array rx d (map Some l ++ None :: rest) cleanup report w = Ok b /\
  (b_result b = true <-> forall o e, In (o, e) l -> succeeds rx d [] e) /\
  map snd (b_log b) = map (fun oe => entry_key (snd oe)) l /\
  (forall i o e lv k, nth_error l i = Some (o, e) -> nth_error (b_log b) i = Some (lv, k) -> (lv = Error <-> report = true /\ ~ succeeds rx d [] e)) /\
  b_deleted b = (if cleanup then map fst l else []) /\
  (forall l1 o e l2, l = l1 ++ (o, e) :: l2 -> entry_done rx d [] l1 l2 e w (b_world b)) /\
  (forall i, (forall o e, In (o, e) l -> ~ targets e i) -> vars (b_world b) i = vars w i) /\
  (forall i, (forall o e, In (o, e) l -> ~ outputs e i) -> outs (b_world b) i = outs w i).
Proof.
  intros rx d l rest cleanup report w Sd R. unfold get_array. rewrite until_null_ok. cbn [bind].
  destruct (run_ok rx d [] report Sd l w R) as (ok & w' & log & E & RU). rewrite E. cbn [bind].
  destruct R as (_ & _ & N). apply distinct_nodup in N. unfold clean_up. rewrite N.
  assert (D : (if cleanup then Ok (map fst l) else Ok []) = Ok (if cleanup then map fst l else [])) by (destruct cleanup; reflexivity).
  rewrite D. cbn [bind]. eexists. split; [reflexivity|]. cbn [b_result b_log b_deleted b_world]. destruct (run_log _ _ _ _ _ _ _ _ _ RU) as (L1 & L2).
  split; [exact (run_result _ _ _ _ _ _ _ _ _ RU)|]. split; [exact L1|]. split; [exact L2|]. split; [reflexivity|].
  split; [|split].
  - intros l1 o e l2 ->. eapply run_entry; eauto.
  - intros i N'. eapply run_var; eauto.
  - intros i N'. eapply run_out; eauto.
Qed.
Print Assumptions C56_array.

(* every prefix is completed to one that ends in "/" *)
Theorem C56_prefix : forall prefix, exists p, prefix_of prefix p.
Proof. exact prefix_total. Qed.
Print Assumptions C56_prefix.

(* a text gives at most one value, and (blank texts of numbers and characters excepted) every text gives one or an error *)
Theorem C56_text : forall t s, (forall o o', gives (CValue t) s o -> gives (CValue t) s o' -> o = o') /\
  (t = TString \/ t = TBool \/ ~ blank s -> exists o, gives (CValue t) s o).
Proof. intros t s. split; [intros o o'; apply gives_fun|apply gives_total]. Qed.
Print Assumptions C56_text.

(* the keys of a list below a prefix without special characters *)
Theorem C56_query : forall p e suffix, e <> [] -> ~ In "/"%char e ->
  literal_match p (p ++ $"/" ++ e) = Some (e, []) /\
  (suffix <> [] -> literal_match p (p ++ $"/" ++ e ++ $"/" ++ suffix) = Some (e, suffix)).
Proof.
  intros p e suffix NE N. unfold literal_match. rewrite !strip_app. change ($"/" ++ e) with ("/"%char :: e).
  change ($"/" ++ e ++ $"/" ++ suffix) with ("/"%char :: e ++ "/"%char :: suffix). cbn match. rewrite Ascii.eqb_refl.
  split; [apply element_plain; auto|]. intros Nx. apply element_suffix; auto.
Qed.
Print Assumptions C56_query.
Theorem C56_query_only : forall p k e suffix, literal_match p k = Some (e, suffix) ->
  k = p ++ $"/" ++ e ++ (match suffix with [] => [] | _ => $"/" ++ suffix end) /\ e <> [] /\
  (forall e1 e2, e = e1 ++ "/"%char :: e2 -> e1 = [] \/ (e2 = [] /\ suffix = [])).
Proof.
  intros p k e suffix E. unfold literal_match in E. destruct (strip p k) as [[|c r]|] eqn:St; try discriminate.
  destruct (Ascii.eqb_spec c "/"%char) as [->|N]; [|discriminate]. apply strip_inv in St. apply element_inv in E. destruct E as (NE & Er & M).
  split; [|auto]. rewrite St. f_equal. change ($"/" ++ e ++ match suffix with [] => [] | _ :: _ => $"/" ++ suffix end) with ("/"%char :: e ++ match suffix with [] => [] | _ :: _ => $"/" ++ suffix end).
  f_equal. rewrite Er. destruct suffix; reflexivity.
Qed.
Print Assumptions C56_query_only.

(* two robots, with a name each and one with an axis count; and a plain value with a default *)
Definition robots : directory str :=
  [($"/robots/hal/axes", $"0x7"); ($"/robots/hal/name", $"Hal"); ($"/robots/r2", $"yes"); ($"/speed", $"12")].
Definition robot_members : list member := [mkMember ($"axes") 0 (MValue (TInt I32)); mkMember ($"name") 1 (MValue TString); mkMember [] 2 (MValue TBool)].
Definition no_robot : record := fun _ => VZ 0.
Definition robot_batch : list (nat * entry) :=
  [(0, Item ($"speed") (CValue (TInt U16)) 0 None); (1, Item ($"limit") (CValue (TInt U16)) 1 (Some 2)); (2, ListItem ($"robots") robot_members no_robot 0)]%nat.
Definition robot_world : world := mkW (fun i => VZ (Z.of_nat i + 100)) (fun _ => []) (fun _ => []).
Lemma robots_sorted : sorted robots.
Proof. unfold robots. repeat (constructor; [|intros k v I; cbn [In] in I; repeat (destruct I as [I|I]; [injection I as <- <-; vm_compute; reflexivity|]); destruct I]). constructor. Qed.
Lemma robots_plain (i : nat) s : In s [$"0x7"; $"Hal"; $"yes"; $"12"] -> ~ blank s.
Proof. intros I B. cbn [In] in I. destruct I as [<-|[<-|[<-|[<-|[]]]]]; inversion B as [|? ? Q _]; discriminate Q. Qed.
Example C56_nonvacuous :
  batch_ready literal_match robots ($"/") robot_batch robot_world /\ prefix_of ($"/") ($"/") /\
  (exists b, get_list literal_match robots ($"/") robot_batch true true robot_world = Ok b /\ b_result b = true /\
   vars (b_world b) 0 = VZ 12 /\ vars (b_world b) 1 = VZ 102 /\
   map (fun r => (r 0, r 1, r 2))%nat (outs (b_world b) 0%nat) = [(VZ 7, VS ($"Hal"), VZ 0); (VZ 0, VZ 0, VB true)] /\
   b_log b = [(Trace, $"/speed"); (Trace, $"/limit"); (Trace, $"/robots")] /\ b_deleted b = [0; 1; 2]%nat).
Proof.
  split; [|split].
  - split; [|split].
    + intros o e I. cbn [robot_batch In] in I. destruct I as [I|[I|[I|[]]]]; injection I as <- <-; cbn [readable].
      * unfold finds. change (map_get robots ($"/" ++ $"speed")) with (Some ($"12")). apply gives_total. right. right. apply (robots_plain 0). cbn [In]. auto 10.
      * exists None. reflexivity.
      * intros k s el m (I & suffix & _ & (l1 & l2 & E & _ & _)).
        assert (Im : In m robot_members) by (rewrite E; apply in_or_app; right; left; reflexivity).
        assert (NB : ~ blank s). { apply (robots_plain 0). cbn [robots In] in I |- *. destruct I as [I|[I|[I|[I|[]]]]]; injection I as _ <-; auto 10. }
        cbn [robot_members In] in Im. destruct Im as [<-|[<-|[<-|[]]]]; cbn [m_conv].
        { destruct (gives_total (TInt I32) s) as (o & G); [auto|]. exists o. constructor. exact G. }
        { destruct (gives_total TString s) as (o & G); [auto|]. exists o. constructor. exact G. }
        { destruct (gives_total TBool s) as (o & G); [auto|]. exists o. constructor. exact G. }
    + reflexivity.
    + apply distinct_nodup. reflexivity.
  - right. exists []. split; [reflexivity|]. left. reflexivity.
  - eexists. split; [reflexivity|]. vm_compute. auto 10.
Qed.

(* ---- what does not hold ---- *)
(* an empty list is "not read", an empty array is *)
Theorem C56_empty_refuted : ~ (forall rx d cleanup report w, exists b, get_list rx d [] [] cleanup report w = Ok b /\ b_result b = true).
Proof. intros H. destruct (H literal_match [] true true robot_world) as (b & E & R). injection E as <-. discriminate. Qed.
Print Assumptions C56_empty_refuted.
(* a default does not catch a number that cannot be read *)
Theorem C56_default_on_invalid_refuted :
  ~ (forall d key i s t x w b, map_get d key = Some s -> (forall neg n, ~ int_text s neg n) ->
     get_list literal_match d [] [(O, Item key (CValue (TInt t)) i (Some x))] true true w = Ok b -> vars (b_world b) i = vars w x).
Proof.
  intros H. assert (N : forall neg n, ~ int_text ($"twelve") neg n).
  { intros neg n T. pose proof (cast_int I32 _ _ _ T) as C. destruct T as (b & sign & t & E & B & U & Sg). destruct (unsigned_first _ _ U) as (c & r & v & -> & D).
    destruct b as [|y b]; [|injection E as <- _; inversion B as [|? ? Q _]; discriminate Q].
    destruct Sg as [([-> | ->] & _)|(-> & _)]; try discriminate E. injection E as <- _. apply digit_iff in D. destruct D as (_ & D). vm_compute in D. discriminate. }
  specialize (H [($"/a", $"twelve")] ($"/a") 0%nat ($"twelve") I32 1%nat robot_world _ eq_refl N eq_refl). vm_compute in H. discriminate.
Qed.
Print Assumptions C56_default_on_invalid_refuted.
(* a string is cut at the first blank *)
Theorem C56_string_whole_refuted :
  ~ (forall d key i s w b, map_get d key = Some s -> get_list literal_match d [] [(O, Item key (CValue TString) i None)] true true w = Ok b -> vars (b_world b) i = VS s).
Proof. intros H. specialize (H [($"/a", $"two words")] ($"/a") 0%nat ($"two words") robot_world _ eq_refl eq_refl). vm_compute in H. discriminate. Qed.
Print Assumptions C56_string_whole_refuted.
(* reading the same list object again delivers the records again *)
Theorem C56_list_once_refuted :
  ~ (forall d l w b b', get_list literal_match d [] l false true w = Ok b -> get_list literal_match d [] l false true (b_world b) = Ok b' ->
     forall i, length (outs (b_world b') i) = length (outs (b_world b) i)).
Proof.
  intros H. specialize (H robots [(O, ListItem ($"/robots") robot_members no_robot 0%nat)] robot_world _ _ eq_refl eq_refl 0%nat). vm_compute in H. discriminate.
Qed.
Print Assumptions C56_list_once_refuted.
(* the same entry twice in a batch with cleanup, and an array without NULL *)
Theorem C56_defined_refuted : ~ (forall rx d prefix l report w, get_list rx d prefix l true report w <> UB) /\
  (forall rx d l cleanup report w, get_array rx d (map Some l) cleanup report w = UB).
Proof.
  split; [|intros; unfold get_array; rewrite until_null_ub; reflexivity].
  intros H. apply (H literal_match robots [] [(O, Item ($"/speed") (CValue TString) 0 None); (O, Item ($"/speed") (CValue TString) 0 None)]%nat true robot_world). reflexivity.
Qed.
Print Assumptions C56_defined_refuted.
