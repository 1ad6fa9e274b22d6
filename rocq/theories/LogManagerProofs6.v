(* Proofs for C51: the configuration and the first initialize *)
From Verif Require Import Conc Text SMap LogTextModel LogManagerModel LogManagerSpec LogManagerProofs LogManagerProofs2 LogManagerProofs3 LogManagerProofs4 LogManagerProofs5.

Lemma strip_spec p : forall s r, strip p s = Some r <-> s = p ++ r.
Proof.
  induction p as [|x p IH]; intros s r; cbn; [split; congruence|]. destruct s as [|y s]; [split; discriminate|].
  destruct (Ascii.eqb_spec x y) as [->|N]; [rewrite IH; split; congruence|split; congruence].
Qed.
Lemma split_last_spec s : match split_last s with Some (a, b) => s = a ++ "/"%char :: b /\ ~ In "/"%char b | None => ~ In "/"%char s end.
Proof.
  induction s as [|c s IH]; cbn [split_last]; [auto|]. destruct (split_last s) as [[a b]|].
  - destruct IH as [-> H]. auto.
  - destruct (Ascii.eqb_spec c "/") as [->|N]; [auto|]. intros [H|H]; auto.
Qed.
Lemma slash_unique (a a' b b' : str) : a ++ "/"%char :: b = a' ++ "/"%char :: b' -> ~ In "/"%char b -> ~ In "/"%char b' -> a = a' /\ b = b'.
Proof.
  revert a'. induction a as [|x a IH]; intros [|y a'] E N N'; cbn in E.
  - split; congruence.
  - injection E as <- ->. exfalso. apply N. apply in_or_app. right. left. reflexivity.
  - injection E as -> <-. exfalso. apply N'. apply in_or_app. right. left. reflexivity.
  - injection E as -> E. destruct (IH _ E N N') as [-> ->]. auto.
Qed.
Lemma groups_spec kind k e v : groups kind k = Some (e, v) <-> k = key e v /\ ~ In "/"%char v /\ exists a, e = kind ++ a.
Proof.
  unfold groups, key. split.
  - destruct (strip _ k) as [r|] eqn:S; [|discriminate]. apply strip_spec in S. pose proof (split_last_spec r) as H. destruct (split_last r) as [[a b]|]; [|discriminate]. intros [= <- <-]. destruct H as [-> H].
    split; [|split; [exact H|eauto]]. rewrite S. cbn. rewrite <- !app_assoc. reflexivity.
  - intros (-> & N & a & ->). assert (S : strip ($"/IclCore/Logging/" ++ kind) ($"/IclCore/Logging/" ++ (kind ++ a) ++ $"/" ++ v) = Some (a ++ "/"%char :: v)).
    { apply strip_spec. rewrite <- !app_assoc. reflexivity. }
    rewrite S. pose proof (split_last_spec (a ++ "/"%char :: v)) as H. destruct (split_last _) as [[a' b]|].
    + destruct H as [E H]. destruct (slash_unique _ _ _ _ E N H) as [<- <-]. reflexivity.
    + exfalso. apply H. apply in_or_app. right. left. reflexivity.
Qed.
Lemma key_inj e v v' : key e v = key e v' -> v = v'.
Proof. unfold key. intros E. apply app_inv_head in E. apply app_inv_head in E. apply app_inv_head in E. exact E. Qed.
Lemma noslash s : negb (existsb (Ascii.eqb "/") s) = true <-> ~ In "/"%char s.
Proof.
  rewrite negb_true_iff. split.
  - intros H I. assert (existsb (Ascii.eqb "/") s = true) by (apply existsb_exists; exists "/"%char; auto). congruence.
  - intros H. destruct (existsb (Ascii.eqb "/") s) eqn:E; auto. apply existsb_exists in E. destruct E as (x & I & X). apply Ascii.eqb_eq in X. subst x. contradiction.
Qed.
Lemma stream_key_spec e k : stream_key e k = true <-> exists r, k = key e ($"LogStream" ++ r) /\ ~ In "/"%char r.
Proof.
  unfold stream_key. split.
  - destruct (strip _ k) as [r|] eqn:S; [|discriminate]. apply strip_spec in S. intros H. apply noslash in H. exists r. split; auto. rewrite S. unfold key. rewrite <- !app_assoc. reflexivity.
  - intros (r & -> & H). assert (S : strip (key e $"LogStream") (key e ($"LogStream" ++ r)) = Some r). { apply strip_spec. unfold key. rewrite <- !app_assoc. reflexivity. }
    rewrite S. apply noslash, H.
Qed.
Lemma logstream_prefix v : str_eqb (substr v 0 9) $"LogStream" = true <-> exists r, v = $"LogStream" ++ r.
Proof.
  rewrite str_eqb_eq. unfold substr. cbn [skipn]. split.
  - intros E. exists (skipn 9 v). rewrite <- E. symmetry. apply firstn_skipn.
  - intros [r ->]. reflexivity.
Qed.
Lemma value_snoc l k v k' : ~ In k (map fst l) -> value (l ++ [(k, v)]) k' = if str_eqb k k' then v else value l k'.
Proof.
  intros N. unfold value. induction l as [|[a b] l IH]; cbn.
  - destruct (str_eqb k k'); reflexivity.
  - destruct (str_eqb a k') eqn:E.
    + destruct (str_eqb k k') eqn:E'; auto. apply str_eqb_eq in E, E'. exfalso. apply N. left. cbn. congruence.
    + apply IH. intros H. apply N. right. exact H.
Qed.
Lemma value_none l k : ~ In k (map fst l) -> value l k = [].
Proof.
  intros N. unfold value. induction l as [|[a b] l IH]; cbn; auto. destruct (str_eqb a k) eqn:E; [|apply IH; intros H; apply N; right; exact H]. apply str_eqb_eq in E. exfalso. apply N. left. exact E.
Qed.
Lemma eqb_refl' s : str_eqb s s = true. Proof. apply str_eqb_eq. reflexivity. Qed.
Lemma eqb_key e v v' : str_eqb (key e v) (key e v') = str_eqb v v'.
Proof. destruct (str_eqb v v') eqn:E; [apply str_eqb_eq in E; subst; apply eqb_refl'|]. destruct (str_eqb (key e v) (key e v')) eqn:E'; auto. apply str_eqb_eq in E'. apply key_inj in E'. subst. rewrite eqb_refl' in E. discriminate E. Qed.

Definition entry_key (e k : str) : Prop := k = key e $"OutputStreamName" \/ k = key e $"Name" \/ k = key e $"LogLevel" \/ stream_key e k = true.
Definition good (config : list (str * str)) (e : str) (x : option outcfg) : Prop :=
  match x with
  | None => forall kv, In kv config -> ~ entry_key e (fst kv)
  | Some c => (exists kv, In kv config /\ entry_key e (fst kv)) /\
      c_kind c = value config (key e $"OutputStreamName") /\ c_name c = value config (key e $"Name") /\ c_level c = level_or_trace (value config (key e $"LogLevel")) /\
      c_streams c = map snd (filter (fun kv => stream_key e (fst kv)) config)
  end.
Lemma good_nil config e : (forall kv, In kv config -> ~ entry_key e (fst kv)) ->
  value config (key e $"OutputStreamName") = [] /\ value config (key e $"Name") = [] /\ value config (key e $"LogLevel") = [] /\ filter (fun kv => stream_key e (fst kv)) config = [].
Proof.
  intros H. repeat split.
  1-3: apply value_none; intros I; apply in_map_iff in I; destruct I as (kv & E & I); apply (H _ I); unfold entry_key; rewrite E; tauto.
  induction config as [|kv l IH]; cbn; auto. destruct (stream_key e (fst kv)) eqn:E; [exfalso; apply (H kv); [left; reflexivity|unfold entry_key; auto]|]. apply IH. intros x I. apply H. right. exact I.
Qed.
Lemma map_get_put' {T} (m : list (str * T)) k v k' : sorted m -> map_get (map_put m k v) k' = if str_eqb k k' then Some v else map_get m k'.
Proof. intros S. rewrite map_get_put by auto. unfold str_eqb. destruct (list_eq_dec ascii_dec k' k) as [E|N], (list_eq_dec ascii_dec k k') as [E'|N']; congruence. Qed.
Lemma good_at config e c : sorted c -> good config e (map_get c e) ->
  let x := at_key no_outcfg c e in
  c_kind x = value config (key e $"OutputStreamName") /\ c_name x = value config (key e $"Name") /\ c_level x = level_or_trace (value config (key e $"LogLevel")) /\
  c_streams x = map snd (filter (fun kv => stream_key e (fst kv)) config).
Proof.
  intros S G. unfold at_key. destruct (map_get c e) as [x|]; cbn [good] in G; cbn zeta; [tauto|]. destruct (good_nil _ _ G) as (-> & -> & -> & ->). auto.
Qed.
Lemma filter_snoc {A} (f : A -> bool) l x : filter f (l ++ [x]) = filter f l ++ (if f x then [x] else []).
Proof. rewrite filter_app. cbn. destruct (f x); reflexivity. Qed.
Lemma stream_key_of e v : stream_key e (key e v) = str_eqb (substr v 0 9) $"LogStream" && negb (existsb (Ascii.eqb "/") v).
Proof.
  destruct (stream_key e (key e v)) eqn:E; symmetry.
  - apply stream_key_spec in E. destruct E as (r & E & N). apply key_inj in E. subst v. apply andb_true_intro. split; [apply logstream_prefix; eauto|]. apply noslash. intros I. apply in_app_or in I. destruct I as [I|I]; auto. cbn in I. repeat (destruct I as [I|I]; [discriminate I|]). exact I.
  - destruct (str_eqb (substr v 0 9) $"LogStream") eqn:A; auto. cbn. destruct (negb _) eqn:B; auto. exfalso. apply logstream_prefix in A. destruct A as [r ->]. apply noslash in B.
    assert (stream_key e (key e ($"LogStream" ++ r)) = true); [|congruence]. apply stream_key_spec. exists r. split; auto. intros I. apply B. apply in_or_app. right. exact I.
Qed.
Lemma other_key e k : (forall v, ~ In "/"%char v -> k <> key e v) -> ~ entry_key e k.
Proof.
  intros H [K|[K|[K|K]]].
  - revert K. apply H. cbn. intuition discriminate.
  - revert K. apply H. cbn. intuition discriminate.
  - revert K. apply H. cbn. intuition discriminate.
  - apply stream_key_spec in K. destruct K as (r & K & N). revert K. apply H. intros I. apply in_app_or in I. destruct I as [I|I]; auto. cbn in I. repeat (destruct I as [I|I]; [discriminate I|]). exact I.
Qed.
Lemma entry_other config e k v x : ~ entry_key e k -> ~ In k (map fst config) -> good config e x -> good (config ++ [(k, v)]) e x.
Proof.
  intros NE NK G. assert (V : forall w, entry_key e (key e w) -> value (config ++ [(k, v)]) (key e w) = value config (key e w)).
  { intros w W. rewrite value_snoc by auto. destruct (str_eqb k (key e w)) eqn:E; auto. apply str_eqb_eq in E. subst k. contradiction. }
  destruct x as [c|]; cbn [good] in *.
  - destruct G as ((kv & I & K) & A1 & A2 & A3 & A4). split; [exists kv; split; auto; apply in_or_app; auto|]. rewrite !V by (unfold entry_key; tauto). split; auto. split; auto. split; auto.
    rewrite filter_snoc. cbn [fst]. destruct (stream_key e k) eqn:E; [exfalso; apply NE; unfold entry_key; auto|]. rewrite app_nil_r. exact A4.
  - intros kv I. apply in_app_or in I. destruct I as [I|[<-|[]]]; auto.
Qed.
Lemma config_good config : NoDup (map fst config) -> let c := fold_left read_output config [] in sorted c /\
  forall e, match map_get c e with None => (exists a, e = $"OutputStream" ++ a) -> good config e None | Some x => (exists a, e = $"OutputStream" ++ a) /\ good config e (Some x) end.
Proof.
  induction config as [|[k v] config IH] using rev_ind; intros ND; cbn zeta.
  - split; [constructor|]. intros e. cbn. intros _ kv [].
  - rewrite map_app in ND. cbn [map fst] in ND. apply NoDup_remove in ND. rewrite app_nil_r in ND. destruct ND as [ND NK]. specialize (IH ND). cbn zeta in IH. destruct IH as [S IH].
    rewrite fold_left_app. cbn [fold_left]. set (c := fold_left read_output config []) in *. split; [apply (sorted_read_output [(k, v)]), S|]. unfold read_output. cbn [fst snd].
    destruct (groups $"OutputStream" k) as [[e0 w]|] eqn:GR.
    + apply groups_spec in GR. destruct GR as (-> & NW & E0).
      assert (NE : forall e, (exists a, e = $"OutputStream" ++ a) -> e <> e0 -> ~ entry_key e (key e0 w)).
      { intros e _ N. apply other_key. intros v' N' E. apply N. unfold key in E. apply app_inv_head in E. cbn in E. destruct (slash_unique _ _ _ _ E NW N') as [-> _]. reflexivity. }
      assert (G0 : good config e0 (map_get c e0)). { specialize (IH e0). destruct (map_get c e0); [apply IH|apply IH, E0]. }
      destruct (good_at config e0 c S G0) as (A1 & A2 & A3 & A4). set (x := at_key no_outcfg c e0) in *.
      assert (P : forall y, good (config ++ [(key e0 w, v)]) e0 (Some y) -> forall e, match map_get (map_put c e0 y) e with None => (exists a, e = $"OutputStream" ++ a) -> good (config ++ [(key e0 w, v)]) e None | Some x => (exists a, e = $"OutputStream" ++ a) /\ good (config ++ [(key e0 w, v)]) e (Some x) end).
      { intros y G e. rewrite map_get_put' by auto. destruct (str_eqb e0 e) eqn:E; [apply str_eqb_eq in E; subst e; auto|]. assert (N : e <> e0) by (intros ->; rewrite eqb_refl' in E; discriminate E).
        specialize (IH e). destruct (map_get c e) as [z|]; [destruct IH as [I1 I2]; split; auto; apply entry_other; auto|]. intros I. apply entry_other; auto. }
      destruct (str_eqb w $"OutputStreamName") eqn:W1; [|destruct (str_eqb w $"Name") eqn:W2; [|destruct (str_eqb w $"LogLevel") eqn:W3; [|destruct (str_eqb (substr w 0 9) $"LogStream") eqn:W4]]].
      * apply str_eqb_eq in W1. subst w. apply P. split; [eexists; split; [apply in_or_app; right; left; reflexivity|cbn; unfold entry_key; auto]|]. cbn [c_kind c_name c_level c_streams].
        rewrite !value_snoc by auto. rewrite !eqb_key. rewrite filter_snoc. cbn [fst]. rewrite stream_key_of. cbn. rewrite app_nil_r. auto.
      * apply str_eqb_eq in W2. subst w. apply P. split; [eexists; split; [apply in_or_app; right; left; reflexivity|cbn; unfold entry_key; auto]|]. cbn [c_kind c_name c_level c_streams].
        rewrite !value_snoc by auto. rewrite !eqb_key. rewrite filter_snoc. cbn [fst]. rewrite stream_key_of. cbn. rewrite app_nil_r. auto.
      * apply str_eqb_eq in W3. subst w. apply P. split; [eexists; split; [apply in_or_app; right; left; reflexivity|cbn; unfold entry_key; auto]|].
        rewrite !value_snoc by auto. rewrite !eqb_key. rewrite filter_snoc. cbn [fst]. rewrite stream_key_of. cbn [map snd]. change (str_eqb $"LogLevel" $"OutputStreamName") with false. change (str_eqb $"LogLevel" $"Name") with false. change (str_eqb $"LogLevel" $"LogLevel") with true. change (str_eqb (substr $"LogLevel" 0 9) $"LogStream" && _) with false. rewrite app_nil_r.
        unfold level_or_trace in *. destruct (stringToLogLevel v) as [l|]; cbn [c_kind c_name c_level c_streams]; auto. split; auto. split; auto. split; auto. rewrite A3, value_none by auto. reflexivity.
      * apply P. assert (SK : stream_key e0 (key e0 w) = true). { rewrite stream_key_of, W4. apply noslash, NW. }
        split; [eexists; split; [apply in_or_app; right; left; reflexivity|cbn; unfold entry_key; auto]|]. cbn [c_kind c_name c_level c_streams]. rewrite !value_snoc by auto. rewrite !eqb_key, W1, W2, W3. rewrite filter_snoc. cbn [fst]. rewrite SK, map_app. cbn. rewrite A4. auto.
      * intros e. specialize (IH e). assert (NE' : (exists a, e = $"OutputStream" ++ a) -> ~ entry_key e (key e0 w)).
        { intros X. destruct (list_eq_dec ascii_dec e e0) as [->|N]; [|apply NE; auto]. unfold entry_key. rewrite stream_key_of, W4. intros [H|[H|[H|H]]]; [| | |discriminate H]; apply key_inj in H; subst w; rewrite eqb_refl' in *; discriminate. }
        destruct (map_get c e) as [z|]; [destruct IH as [I1 I2]; split; auto; apply entry_other; auto|]. intros I. apply entry_other; auto.
    + intros e. specialize (IH e). assert (NE' : (exists a, e = $"OutputStream" ++ a) -> ~ entry_key e k).
      { intros X. apply other_key. intros w NW ->. assert (groups $"OutputStream" (key e w) = Some (e, w)) by (apply groups_spec; auto). congruence. }
      destruct (map_get c e) as [z|]; [destruct IH as [I1 I2]; split; auto; apply entry_other; auto|]. intros I. apply entry_other; auto.
Qed.

Definition sentry_key (e k : str) : Prop := k = key e $"Name" \/ k = key e $"LogLevel".
Definition sgood (config : list (str * str)) (e : str) (x : option strcfg) : Prop :=
  match x with
  | None => forall kv, In kv config -> ~ sentry_key e (fst kv)
  | Some c => (exists kv, In kv config /\ sentry_key e (fst kv)) /\ sc_name c = value config (key e $"Name") /\ sc_level c = level_or_trace (value config (key e $"LogLevel"))
  end.
Lemma sgood_at config e c : sgood config e (map_get c e) ->
  sc_name (at_key no_strcfg c e) = value config (key e $"Name") /\ sc_level (at_key no_strcfg c e) = level_or_trace (value config (key e $"LogLevel")).
Proof.
  intros G. unfold at_key. destruct (map_get c e) as [x|]; cbn [sgood] in G; [tauto|].
  rewrite !value_none; [split; reflexivity| |]; intros I; apply in_map_iff in I; destruct I as (kv & E & I); apply (G _ I); unfold sentry_key; rewrite E; tauto.
Qed.
Lemma sentry_other config e k v x : ~ sentry_key e k -> ~ In k (map fst config) -> sgood config e x -> sgood (config ++ [(k, v)]) e x.
Proof.
  intros NE NK G. assert (V : forall w, sentry_key e (key e w) -> value (config ++ [(k, v)]) (key e w) = value config (key e w)).
  { intros w W. rewrite value_snoc by auto. destruct (str_eqb k (key e w)) eqn:E; auto. apply str_eqb_eq in E. subst k. contradiction. }
  destruct x as [c|]; cbn [sgood] in *.
  - destruct G as ((kv & I & K) & A1 & A2). split; [exists kv; split; auto; apply in_or_app; auto|]. rewrite !V by (unfold sentry_key; tauto). auto.
  - intros kv I. apply in_app_or in I. destruct I as [I|[<-|[]]]; auto.
Qed.
Lemma sconfig_good config : NoDup (map fst config) -> let c := fold_left read_stream config [] in sorted c /\
  forall e, match map_get c e with None => (exists a, e = $"LogStream" ++ a) -> sgood config e None | Some x => (exists a, e = $"LogStream" ++ a) /\ sgood config e (Some x) end.
Proof.
  induction config as [|[k v] config IH] using rev_ind; intros ND; cbn zeta.
  - split; [constructor|]. intros e. cbn. intros _ kv [].
  - rewrite map_app in ND. cbn [map fst] in ND. apply NoDup_remove in ND. rewrite app_nil_r in ND. destruct ND as [ND NK]. specialize (IH ND). cbn zeta in IH. destruct IH as [S IH].
    rewrite fold_left_app. cbn [fold_left]. set (c := fold_left read_stream config []) in *. split; [apply (sorted_read_stream [(k, v)]), S|]. unfold read_stream. cbn [fst snd].
    destruct (groups $"LogStream" k) as [[e0 w]|] eqn:GR.
    + apply groups_spec in GR. destruct GR as (-> & NW & E0).
      assert (NE : forall e, e <> e0 -> ~ sentry_key e (key e0 w)).
      { intros e N K. apply N. unfold key, sentry_key in K. destruct K as [E|E]; apply app_inv_head in E; cbn in E; destruct (slash_unique _ _ _ _ E NW ltac:(cbn; intuition discriminate)) as [-> _]; reflexivity. }
      assert (G0 : sgood config e0 (map_get c e0)). { specialize (IH e0). destruct (map_get c e0); [apply IH|apply IH, E0]. }
      destruct (sgood_at config e0 c G0) as (A2 & A3). set (x := at_key no_strcfg c e0) in *.
      assert (P : forall y, sgood (config ++ [(key e0 w, v)]) e0 (Some y) -> forall e, match map_get (map_put c e0 y) e with None => (exists a, e = $"LogStream" ++ a) -> sgood (config ++ [(key e0 w, v)]) e None | Some x => (exists a, e = $"LogStream" ++ a) /\ sgood (config ++ [(key e0 w, v)]) e (Some x) end).
      { intros y G e. rewrite map_get_put' by auto. destruct (str_eqb e0 e) eqn:E; [apply str_eqb_eq in E; subst e; auto|]. assert (N : e <> e0) by (intros ->; rewrite eqb_refl' in E; discriminate E).
        specialize (IH e). destruct (map_get c e) as [z|]; [destruct IH as [I1 I2]; split; auto; apply sentry_other; auto|]. intros I. apply sentry_other; auto. }
      destruct (str_eqb w $"Name") eqn:W2; [|destruct (str_eqb w $"LogLevel") eqn:W3].
      * apply str_eqb_eq in W2. subst w. apply P. split; [eexists; split; [apply in_or_app; right; left; reflexivity|cbn; unfold sentry_key; auto]|]. cbn [sc_name sc_level].
        rewrite !value_snoc by auto. rewrite !eqb_key. auto.
      * apply str_eqb_eq in W3. subst w. apply P. split; [eexists; split; [apply in_or_app; right; left; reflexivity|cbn; unfold sentry_key; auto]|].
        rewrite !value_snoc by auto. rewrite !eqb_key. change (str_eqb $"LogLevel" $"Name") with false. change (str_eqb $"LogLevel" $"LogLevel") with true.
        unfold level_or_trace in *. destruct (stringToLogLevel v) as [l|]; cbn [sc_name sc_level]; auto. split; auto. rewrite A3, value_none by auto. reflexivity.
      * intros e. specialize (IH e). assert (NE' : ~ sentry_key e (key e0 w)).
        { destruct (list_eq_dec ascii_dec e e0) as [->|N]; [|apply NE; auto]. unfold sentry_key. intros [H|H]; apply key_inj in H; subst w; rewrite eqb_refl' in *; discriminate. }
        destruct (map_get c e) as [z|]; [destruct IH as [I1 I2]; split; auto; apply sentry_other; auto|]. intros I. apply sentry_other; auto.
    + intros e. specialize (IH e). assert (NE' : (exists a, e = $"LogStream" ++ a) -> ~ sentry_key e k).
      { intros X [K|K]; subst k; (match type of GR with groups _ (key e ?w) = None => assert (groups $"LogStream" (key e w) = Some (e, w)) by (apply groups_spec; split; auto; split; auto; cbn; intuition discriminate) end); congruence. }
      destruct (map_get c e) as [z|]; [destruct IH as [I1 I2]; split; auto; apply sentry_other; auto|]. intros I. apply sentry_other; auto.
Qed.

(* only registrations *)
Lemma registered config op cs : Forall registration cs -> exists m, do_calls config op cs = Ok m /\ inv m /\ inited m = false /\
  (forall n, In n (map fst (sfac m)) <-> registered_stream cs n) /\ (forall n, In n (ofac m) <-> In n (known_outputs cs)).
Proof.
  induction cs as [|c cs IH] using rev_ind; intros F.
  - exists start_mgr. split; auto. split; [apply start_inv|]. split; auto. split; [|reflexivity]. intros n. split; [intros H; left; exact H|intros [H|[]]; exact H].
  - apply Forall_app in F. destruct F as [F1 F2]. apply Forall_inv in F2. destruct (IH F1) as (m & E & I & N & S & O).
    assert (DC : do_calls config op (cs ++ [c]) = do_call config op m c).
    { revert E. unfold do_calls. generalize start_mgr. clear. induction cs as [|d cs IH]; intros m0; cbn; [intros [= ->]; destruct (do_call config op m c); reflexivity|]. destruct (do_call config op m0 d); cbn; try discriminate. apply IH. }
    rewrite DC. destruct (call_inv config op m c I) as [[T _]|(m' & _ & E' & I')]; [destruct c; cbn in F2; try contradiction; discriminate T|]. exists m'. split; auto. split; auto.
    destruct c; cbn in F2; try contradiction; cbn [do_call] in E'.
    + destruct (i_fresh _ I N) as (_ & _ & SM & _). rewrite SM in E'. cbn in E'. unfold registered_stream, known_outputs in *.
      assert (O' : forall x, In x (ofac m') <-> In x (ofac m)) by (destruct (map_get (sfac m) n); injection E' as <-; reflexivity).
      assert (K : inited m' = false) by (destruct (map_get (sfac m) n); injection E' as <-; exact N).
      split; auto. split.
      * intros x. rewrite in_snoc. assert (X : In x (map fst (sfac m')) <-> In x (map fst (sfac m)) \/ x = n).
        { pose proof (w_sfac _ (i_wf _ I)) as SF. destruct (map_get (sfac m) n) as [v|] eqn:M; injection E' as <-.
          - split; auto. intros [H| ->]; auto. apply map_get_in in M; auto. apply keys_in. eauto.
          - cbn. rewrite !keys_in. split; [intros [v H]; apply map_put_in in H; auto; destruct H as [[-> _]|[_ H]]; eauto|].
            destruct (list_eq_dec ascii_dec x n) as [->|N']; [intros _; exists None; apply map_put_in; auto|]. intros [[v H]|H]; [|congruence]. exists v. apply map_put_in; auto. }
        rewrite X, S. unfold registered_stream. assert (CRegisterStream x = CRegisterStream n <-> x = n) by (split; congruence). tauto.
      * intros x. rewrite O', flat_map_app. cbn. rewrite app_nil_r. apply O.
    + injection E' as <-. split; auto. unfold registered_stream, known_outputs in *. split.
      * intros x. change (sfac (registerOutputFactory m n)) with (sfac m). rewrite S. unfold registered_stream. rewrite in_snoc. assert (CRegisterStream x = CRegisterOutput n <-> False) by (split; [discriminate|tauto]). tauto.
      * intros x. rewrite flat_map_app. cbn. rewrite in_snoc, O. intuition.
Qed.
Lemma created_ext (k1 k2 : list str) l k : (forall n, In n k1 <-> In n k2) -> (created k1 l k <-> created k2 l k).
Proof. intros H. unfold created. split; intros (e & c & A & B & C); exists e, c; (split; [exact A|split; [exact B|]]); apply H; exact C. Qed.
Lemma wired_ext there (k1 k2 : list str) l n k : (forall n, In n k1 <-> In n k2) -> (wired there k1 l n k <-> wired there k2 l n k).
Proof.
  intros H. unfold wired. split; intros (l1 & e & c & l2 & A & B & C & D); exists l1, e, c, l2; (split; [exact A|split; [exact B|split; [exact C|]]]);
  (destruct D as [D|D]; [left; exact D|right; revert D; apply created_ext; firstorder]).
Qed.
