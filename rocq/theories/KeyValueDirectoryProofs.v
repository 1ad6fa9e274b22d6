From Verif Require Import Base Text SMap KeyValueDirectoryModel KeyValueDirectorySpec.

Lemma after_sorted {T} (h : list (str * T)) : sorted (after h).
Proof. induction h as [|[k v] h IH]; cbn; [constructor|apply map_put_sorted; auto]. Qed.
Lemma after_latest {T} (h : list (str * T)) k : map_get (after h) k = latest h k.
Proof.
  induction h as [|[k' v] h IH]; cbn; auto. rewrite map_get_put by apply after_sorted.
  destruct (list_eq_dec ascii_dec k k'); auto.
Qed.

Lemma C24_directory_is_a_map_proof :
  forall T (h : list (str * T)) k (out : T),
  get (after h) k out = match latest h k with Some v => (true, v) | None => (false, out) end /\
  hasKey (after h) k = (match latest h k with Some _ => true | None => false end) /\
  (fst (insert (after h) k out) = true <-> latest h k = None) /\
  (latest h k = None <-> forall v, ~ In (k, v) h).
Proof.
  intros T h k out. unfold get, hasKey, insert. cbn [fst]. rewrite after_latest.
  split; [|split; [|split]]; try (destruct (latest h k); intuition congruence).
  induction h as [|[k' v] h IH]; cbn; [tauto|]. destruct (list_eq_dec ascii_dec k k') as [->|N].
  - split; [discriminate|]. intros H. exfalso. eapply H. left. reflexivity.
  - rewrite IH. split; intros H w; [intros [[= E _]|Q]; [congruence|eapply H; eauto]|intros Q; eapply H; right; eauto].
Qed.

Lemma entries_after_in {T} (d : directory T) k k' v : sorted d -> (In (k', v) (entries_after d k) <-> In (k', v) d /\ str_lt k k' = true).
Proof.
  intros S. induction S as [|k1 v1 r S IH HL]; cbn [entries_after].
  - cbn. tauto.
  - destruct (str_lt k k1) eqn:E.
    + split; [|tauto]. intros Q. split; auto. destruct Q as [[= <- <-]|Q]; auto. apply HL in Q. eapply str_lt_trans; eauto.
    + rewrite IH. cbn. split; [tauto|]. intros [[[= <- <-]|Q] Hlt]; [congruence|auto].
Qed.
Lemma entries_after_sorted {T} (d : directory T) k : sorted d -> sorted (entries_after d k).
Proof. intros S. induction S; cbn [entries_after]; [constructor|]. destruct (str_lt k k0); auto. constructor; auto. Qed.

Lemma skip_some {T} matches (d : directory T) k : sorted d -> skip_mismatches matches d = Some k ->
  matches k = true /\ (exists v, In (k, v) d) /\ forall k' v', In (k', v') d -> matches k' = true -> k' = k \/ str_lt k k' = true.
Proof.
  intros S. induction S as [|k1 v1 r S IH HL]; cbn; [discriminate|]. destruct (matches k1) eqn:E.
  - intros [= <-]. split; auto. split; eauto. intros k' v' [[= <- <-]|Q]; eauto.
  - intros Q. destruct (IH Q) as (H1 & (v & H2) & H3). split; auto. split; eauto. intros k' v' [[= <- <-]|Q'] M; [congruence|eauto].
Qed.
Lemma skip_none {T} matches (d : directory T) : skip_mismatches matches d = None -> forall k v, In (k, v) d -> matches k = false.
Proof.
  induction d as [|[k1 v1] r IH]; cbn; [tauto|]. destruct (matches k1) eqn:E; [discriminate|].
  intros Q k v [[= <- <-]|H]; eauto.
Qed.

Lemma C25_next_is_the_next_matching_key_proof :
  forall T (h : list (str * T)) matches i,
  (m_reset i = true \/ exists c, m_current_entry i = Some (Some c)) ->
  exists b i', next matches (after h) i = Ok (b, i') /\ m_reset i' = false /\
  if b then exists k v, key i' = Ok k /\ value (after h) i' = Ok v /\ latest h k = Some v /\ matches k = true /\ behind i k /\
            (forall k', latest h k' <> None -> matches k' = true -> behind i k' -> k' = k \/ str_lt k k' = true)
  else m_current_entry i' = Some None /\ forall k', latest h k' <> None -> matches k' = true -> ~ behind i k'.
Proof.
  intros T h matches i HI. set (d := after h). assert (SD : sorted d) by apply after_sorted. unfold next.
  assert (HR : exists rest, sorted rest /\ (if m_reset i then Ok d
          else match m_current_entry i with Some (Some k) => Ok (entries_after d k) | _ => UB end) = Ok rest /\
          forall k v, In (k, v) rest <-> In (k, v) d /\ behind i k).
  { destruct (m_reset i) eqn:R.
    - exists d. split; auto. split; auto. intros k v. split; [intros Q; split; auto; left; auto|tauto].
    - destruct HI as [HI|(c & E)]; [discriminate|]. rewrite E. exists (entries_after d c).
      split; [apply entries_after_sorted; auto|]. split; auto. intros k v. rewrite entries_after_in by auto.
      split; intros [Q Q']; split; auto.
      + right. eauto.
      + destruct Q' as [Q'|(c' & E' & Q')]; congruence. }
  destruct HR as (rest & SR & -> & HR). cbn [bind].
  assert (HL : forall k, latest h k <> None <-> exists v, In (k, v) d).
  { intros k. rewrite <- after_latest. fold d. split.
    - destruct (map_get d k) as [v|] eqn:E; [|congruence]. intros _. exists v. apply map_get_in; auto.
    - intros (v & Q). apply map_get_in in Q; auto. congruence. }
  destruct (skip_mismatches matches rest) as [k|] eqn:E; do 2 eexists; (split; [reflexivity|]); split; auto.
  - destruct (skip_some _ _ _ SR E) as (M & (v & Q) & LE). apply HR in Q. destruct Q as [Q B].
    exists k, v. unfold key, value. cbn [m_current_entry].
    apply map_get_in in Q; auto. rewrite Q. repeat split; auto.
    + rewrite <- after_latest. exact Q.
    + intros k' H1 H2 H3. apply HL in H1. destruct H1 as (v' & H1). eapply LE; eauto. apply HR. eauto.
  - split; auto. intros k' H1 H2 H3. apply HL in H1. destruct H1 as (v' & H1).
    rewrite (skip_none _ _ E k' v') in H2; [discriminate|]. apply HR. auto.
Qed.

(* C25: the loop "while (it.next()) visit" over an unchanged directory visits exactly the matching entries, each once, ascending. *)
Lemma visit_filter {T} matches (d : directory T) : sorted d -> forall suffix i n,
  (exists prefix, d = prefix ++ suffix) ->
  (m_reset i = true /\ suffix = d \/ m_reset i = false /\ exists c, m_current_entry i = Some (Some c) /\ entries_after d c = suffix) ->
  length suffix <= n -> visit matches d n i = Ok (filter (fun kv => matches (fst kv)) suffix).
Proof.
  intros SD suffix. remember (length suffix) as len. revert suffix Heqlen.
  induction len as [len IH] using lt_wf_ind. intros suffix Hlen i n (prefix & HP) HI Hn.
  assert (HN : next matches d i = Ok (match skip_mismatches matches suffix with Some _ => true | None => false end, It false (Some (skip_mismatches matches suffix)))).
  { unfold next. destruct HI as [[-> ->]|(-> & c & -> & ->)]; reflexivity. }
  assert (HS : match skip_mismatches matches suffix with
    | None => filter (fun kv => matches (fst kv)) suffix = []
    | Some k => exists pre v post, suffix = pre ++ (k, v) :: post /\ filter (fun kv => matches (fst kv)) suffix = (k, v) :: filter (fun kv => matches (fst kv)) post
    end).
  { clear. induction suffix as [|[k v] r IHr]; cbn; auto. destruct (matches k) eqn:M; [exists [], v, r; auto|].
    destruct (skip_mismatches matches r) as [k'|]; auto. destruct IHr as (pre & v' & post & -> & E). exists ((k, v) :: pre), v', post. auto. }
  assert (HV : visit matches d n i = bind (next matches d i) (fun bi => if fst bi then
      match n with O => Throw | S n' => bind (key (snd bi)) (fun k => bind (value d (snd bi)) (fun v =>
                bind (visit matches d n' (snd bi)) (fun l => Ok ((k, v) :: l)))) end else Ok [])) by (destruct n; reflexivity).
  rewrite HV, HN. clear HV HN. destruct (skip_mismatches matches suffix) as [k|]; cbn [bind fst snd]; [|rewrite HS; reflexivity].
  destruct HS as (pre & v & post & ES & EF). rewrite EF.
  assert (Hl : length suffix = length pre + S (length post)) by (rewrite ES, app_length; reflexivity).
  destruct n as [|n]; [lia|]. cbn [key m_current_entry bind]. unfold value. cbn [m_current_entry].
  assert (HIn : In (k, v) d) by (rewrite HP, ES; apply in_or_app; right; apply in_or_app; right; left; auto).
  rewrite (proj2 (map_get_in d k v SD) HIn). cbn [bind].
  rewrite (IH (length post)) with (suffix := post); auto; try lia.
  - exists (prefix ++ pre ++ [(k, v)]). rewrite HP, ES, <- !app_assoc. reflexivity.
  - right. split; auto. exists k. split; auto.
    assert (D : d = (prefix ++ pre) ++ (k, v) :: post) by (rewrite HP, ES, app_assoc; auto).
    clear -SD D. revert d SD D. induction (prefix ++ pre) as [|[k1 v1] q IHq]; intros d SD D; cbn in D; subst d.
    + cbn. rewrite str_lt_irrefl. inversion SD; subst. destruct post as [|[k2 v2] post]; auto. cbn. rewrite (H3 k2 v2) by (left; auto). auto.
    + cbn. inversion SD; subst. rewrite (str_lt_asym k1 k).
      * apply IHq; auto.
      * apply (H3 k v). apply in_or_app. right. left. auto.
Qed.

Lemma C25_query_enumerates_matches_proof :
  forall T (h : list (str * T)) matches i n, m_reset i = true -> length h <= n ->
  exists l, visit matches (after h) n i = Ok l /\ sorted l /\
  forall k v, In (k, v) l <-> latest h k = Some v /\ matches k = true.
Proof.
  intros T h matches i n Hr Hn. set (d := after h). assert (SD : sorted d) by apply after_sorted.
  exists (filter (fun kv => matches (fst kv)) d). split; [|split].
  - apply visit_filter; auto.
    + exists []. auto.
    + assert (length d <= length h); [|lia]. unfold d. clear. induction h as [|[k v] h IH]; cbn; auto.
      assert (P : forall m : directory T, length (map_put m k v) <= S (length m)).
      { induction m as [|[k1 v1] m IHm]; cbn; auto. destruct (str_lt k k1); cbn; [lia|]. destruct (str_lt k1 k); cbn; lia. }
      specialize (P (after h)). lia.
  - clear -SD. induction SD as [|k v r S IH HL]; cbn; [constructor|]. destruct (matches k); auto. constructor; auto.
    intros k' v' Q. apply filter_In in Q. eapply HL. apply Q.
  - intros k v. rewrite filter_In. cbn [fst]. rewrite <- map_get_in by auto. unfold d. rewrite after_latest. tauto.
Qed.

Lemma C25_next_after_the_end_is_UB_proof :
  forall T (d : directory T) matches i i', next matches d i = Ok (false, i') -> next matches d i' = UB.
Proof.
  intros T d matches i i' E. unfold next in *. destruct (if m_reset i then _ else _) as [rest| |]; cbn [bind] in E; try discriminate.
  injection E as E <-. destruct (skip_mismatches matches rest); [discriminate|]. reflexivity.
Qed.


(* ---- groups ---- *)
Lemma gskip_skip {T} rx (d : directory T) res :
  fst (gskip rx d res) = skip_mismatches (fun k => match rx k with Some _ => true | None => false end) d /\
  (forall k, fst (gskip rx d res) = Some k -> exists g, rx k = Some g /\ snd (gskip rx d res) = Some g).
Proof.
  revert res. induction d as [|(k, v) d IH]; intros res; cbn [gskip skip_mismatches].
  - split; [reflexivity|]. intros k H. discriminate H.
  - destruct (rx k) as [g|] eqn:E.
    + split; [reflexivity|]. intros k' H. cbn in H. injection H as <-. exists g. split; [exact E|reflexivity].
    + apply IH.
Qed.
Lemma gnext_next {T} rx (d : directory T) i :
  (forall b j, gnext rx d i = Ok (b, j) -> next (fun k => match rx k with Some _ => true | None => false end) d (g_iter i) = Ok (b, g_iter j)) /\
  (forall b j, next (fun k => match rx k with Some _ => true | None => false end) d (g_iter i) = Ok (b, j) -> exists i', gnext rx d i = Ok (b, i') /\ g_iter i' = j) /\
  (forall j, gnext rx d i = Ok (true, j) -> exists k g, key (g_iter j) = Ok k /\ rx k = Some g /\ m_current_results j = Some g).
Proof.
  unfold gnext, next. destruct (if m_reset (g_iter i) then Ok d else _) as [rest| |]; cbn [bind].
  2, 3: (split; [|split]; intros; discriminate).
  destruct (gskip_skip rx rest (m_current_results i)) as (A & B). destruct (gskip rx rest (m_current_results i)) as (e, res). cbn [fst snd] in *. rewrite <- A.
  split; [|split].
  - intros b j H. injection H as <- <-. reflexivity.
  - intros b j H. injection H as <- <-. eexists. split; reflexivity.
  - intros j H. destruct e as [k|]; [|discriminate H]. injection H as <-. destruct (B k eq_refl) as (g & R & ->). exists k, g. split; [reflexivity|]. split; [exact R|reflexivity].
Qed.
