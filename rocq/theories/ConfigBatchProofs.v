From Verif Require Import Base Text SMap KeyValueDirectoryModel StringHelperModel StringHelperSpec StringHelperProofs ConfigGetModel ConfigGetSpec ConfigGetProofs ConfigBatchModel ConfigBatchSpec.
Local Open Scope Z_scope.

(* ---- texts ---- *)
Lemma stored_ok i neg n z : 0 <= n -> stored i neg n z -> z = store_int i neg n.
Proof.
  intros P (R & A & B & C & D). unfold store_int, signed_value, in_range in *. change lowest with imin in *; change highest with imax in *; change signed_type with isigned in *. destruct (isigned i) eqn:Sg.
  - destruct (Z_lt_dec (if neg then - n else n) (imin i)) as [H|H]; [rewrite (B eq_refl H); lia|].
    destruct (Z_lt_dec (imax i) (if neg then - n else n)) as [K|K]; [rewrite (C K); lia|]. rewrite A by lia. lia.
  - destruct (imax i <? n) eqn:E; [apply C; lia|]. specialize (D eq_refl ltac:(lia)).
    assert (I0 : imin i = 0) by (destruct i; try discriminate; reflexivity).
    destruct neg; [|apply A; lia].
    assert (Q : z - - n = (imax i + 1) * ((z - - n) / (imax i + 1))) by (apply Z.div_exact; lia).
    apply (Z.mod_unique _ _ (- ((z - - n) / (imax i + 1)))); lia.
Qed.
Lemma store_stored i neg n : 0 <= n -> stored i neg n (store_int i neg n).
Proof.
  intros P. unfold stored, in_range. change lowest with imin in *; change highest with imax in *; change signed_type with isigned in *. destruct (isigned i) eqn:Sg.
  - unfold store_int, in_range, signed_value. rewrite Sg. assert (imin i <= imax i) by (destruct i; cbn; lia).
    split; [lia|]. split; [lia|]. split; [lia|]. split; [lia|]. discriminate.
  - assert (I0 : imin i = 0) by (destruct i; try discriminate; reflexivity). assert (0 < imax i) by (destruct i; cbn; lia).
    unfold store_int, in_range, signed_value. rewrite Sg, I0. destruct (imax i <? n) eqn:E.
    + split; [lia|]. split; [destruct neg; lia|]. split; [discriminate|]. split; [lia|]. lia.
    + destruct neg.
      * pose proof (Z.mod_pos_bound (- n) (imax i + 1) ltac:(lia)). split; [lia|].
        split; [intros Q; assert (n = 0) by lia; subst n; reflexivity|]. split; [discriminate|]. split; [lia|].
        intros _ _. rewrite Zminus_mod_idemp_l. replace (- n - - n) with 0 by lia. apply Z.mod_0_l. lia.
      * split; [lia|]. split; [lia|]. split; [discriminate|]. split; [lia|]. intros _ _. rewrite Z.sub_diag. apply Z.mod_0_l. lia.
Qed.
Lemma strict_ok s w : first_word s w ->
  (true_word w -> strict_bool_cast s = Ok true) /\ (false_word w -> strict_bool_cast s = Ok false) /\
  (~ true_word w -> ~ false_word w -> strict_bool_cast s = Throw).
Proof.
  intros W. apply word_first in W. unfold strict_bool_cast. rewrite W. split; [|split].
  - intros T. apply true_lower in T. rewrite T. reflexivity.
  - intros F. pose proof (fun T => true_not_false w T F) as NT. rewrite true_lower in NT. apply false_lower in F. rewrite F.
    destruct (one_of (map lower_byte w) [$"1"; $"yes"; $"true"]); [exfalso; apply NT; reflexivity|reflexivity].
  - rewrite true_lower, false_lower. intros T F.
    destruct (one_of (map lower_byte w) [$"1"; $"yes"; $"true"]); [congruence|].
    destruct (one_of (map lower_byte w) [$"0"; $"no"; $"false"]); [congruence|]. reflexivity.
Qed.
Lemma last_index_in s l i : last_index s l i -> In s l.
Proof. intros (H & _). eapply nth_error_In; eauto. Qed.
Lemma last_index_fun s l i j : last_index s l i -> last_index s l j -> i = j.
Proof. intros (A & B) (C & D). specialize (B j C). specialize (D i A). lia. Qed.
Lemma gives_convert c s o : gives c s o -> convert c s = Ok o.
Proof.
  intros G. destruct G as [i s neg n z T St|i s NB N|s w W T|s w W F|s w W T F|s w W|b c r B N|s l em rest i L M I|s l em rest L M I]; unfold convert.
  - rewrite (cast_int i s neg n T). rewrite (stored_ok i neg n z (int_text_nonneg _ _ _ T) St). reflexivity.
  - rewrite cast_none by auto. reflexivity.
  - destruct (strict_ok s w W) as (A & _). rewrite (A T). reflexivity.
  - destruct (strict_ok s w W) as (_ & A & _). rewrite (A F). reflexivity.
  - destruct (strict_ok s w W) as (_ & _ & A). rewrite (A T F). reflexivity.
  - apply word_first in W. unfold hexical_cast. destruct (skip_space s) as [|c r]; cbn [word] in W; [subst w; reflexivity|]. rewrite <- W. reflexivity.
  - unfold hexical_cast. rewrite skip_blank, skip_first by auto. reflexivity.
  - destruct (C23_arr_lemma s 0 l em rest L M) as [(N & E)|(j & J & E)].
    + exfalso. exact (N (last_index_in _ _ _ I)).
    + rewrite E. rewrite (last_index_fun _ _ _ _ I J). reflexivity.
  - destruct (C23_arr_lemma s 0 l em rest L M) as [(N & E)|(j & J & E)].
    + rewrite E. reflexivity.
    + exfalso. exact (I (last_index_in _ _ _ J)).
Qed.
Lemma bool_words w : (true_word w \/ ~ true_word w) /\ (false_word w \/ ~ false_word w).
Proof.
  rewrite true_lower, false_lower.
  destruct (one_of (map lower_byte w) [$"1"; $"yes"; $"true"]), (one_of (map lower_byte w) [$"0"; $"no"; $"false"]); split; auto; right; discriminate.
Qed.
Lemma gives_total t s : t = TString \/ t = TBool \/ ~ blank s -> exists o, gives (CValue t) s o.
Proof.
  intros H. destruct (first_word_exists s) as (w & W). destruct t as [i| | |].
  - destruct H as [H|[H|NB]]; try discriminate. destruct (int_text_total s NB) as [(neg & n & T)|(N & _)].
    + exists (Some (VZ (store_int i neg n))). eapply G_int; [exact T|]. apply store_stored. eapply int_text_nonneg; eauto.
    + exists (Some (VZ 0)). apply G_no_int; auto.
  - destruct (bool_words w) as ([T|T] & [F|F]).
    + exists (Some (VB true)). eapply G_true; eauto.
    + exists (Some (VB true)). eapply G_true; eauto.
    + exists (Some (VB false)). eapply G_false; eauto.
    + exists None. eapply G_no_bool; eauto.
  - exists (Some (VS w)). apply G_string. exact W.
  - destruct H as [H|[H|NB]]; try discriminate. destruct (skip_split s) as (b & B & E & N). destruct (skip_space s) as [|c r] eqn:Q.
    + exfalso. apply NB. rewrite E, app_nil_r. exact B.
    + rewrite E. exists (Some (VC c)). apply G_char; [exact B|]. exact (N c r eq_refl).
Qed.
Lemma mgives_convert c s o : mgives c s o -> mconvert c s = Ok o.
Proof.
  intros M. destruct M as [t s o G|l s i I|l s I]; unfold mconvert.
  - apply gives_convert. exact G.
  - destruct (C23_vec_lemma s 0 l) as [(N & E)|(j & J & E)].
    + exfalso. exact (N (last_index_in _ _ _ I)).
    + rewrite E, (last_index_fun _ _ _ _ I J). reflexivity.
  - destruct (C23_vec_lemma s 0 l) as [(N & E)|(j & J & E)].
    + rewrite E. reflexivity.
    + exfalso. exact (I (last_index_in _ _ _ J)).
Qed.
Lemma gives_fun c s o o' : gives c s o -> gives c s o' -> o = o'.
Proof. intros A B. apply gives_convert in A, B. congruence. Qed.
Lemma mgives_fun c s o o' : mgives c s o -> mgives c s o' -> o = o'.
Proof. intros A B. apply mgives_convert in A, B. congruence. Qed.
Lemma finds_fun d k c o o' : finds d k c o -> finds d k c o' -> o = o'.
Proof. unfold finds. destruct (map_get d k); [apply gives_fun|congruence]. Qed.

(* ---- the members ---- *)
Lemma str_is_eq a b : str_is a b = true <-> a = b.
Proof. unfold str_is. destruct (list_eq_dec ascii_dec a b); split; congruence. Qed.
Lemma find_first members suffix m : List.find (fun m => str_is suffix (m_suffix m)) members = Some m <-> first_member members suffix m.
Proof.
  unfold first_member. induction members as [|x members IH]; cbn.
  - split; [discriminate|]. intros (l1 & l2 & E & _). destruct l1; discriminate.
  - destruct (str_is suffix (m_suffix x)) eqn:Q.
    + apply str_is_eq in Q. split.
      * intros E. injection E as ->. exists [], members. split; [reflexivity|]. split; [auto|]. intros y [].
      * intros (l1 & l2 & E & S1 & N). destruct l1 as [|y l1]; [injection E as -> _; reflexivity|]. injection E as -> E. exfalso. apply (N y (or_introl eq_refl)). auto.
    + assert (NQ : m_suffix x <> suffix) by (intros K; subst suffix; assert (str_is (m_suffix x) (m_suffix x) = true) by (apply str_is_eq; reflexivity); congruence).
      rewrite IH. split.
      * intros (l1 & l2 & -> & S1 & N). exists (x :: l1), l2. split; [reflexivity|]. split; [auto|]. intros y [<-|Hy]; auto.
      * intros (l1 & l2 & E & S1 & N). destruct l1 as [|y l1]; injection E as -> E; [congruence|]. exists l1, l2. split; [auto|]. split; [auto|]. intros z Hz. apply N. right. exact Hz.
Qed.
(* one step of the loop *)
Definition hit (rx : matcher) (q : str) (members : list member) (k : str) : option (str * member) :=
  match rx q k with
  | None => None
  | Some (e, suffix) => match List.find (fun m => str_is suffix (m_suffix m)) members with Some m => Some (e, m) | None => None end
  end.
Lemma hit_key rx q d members k s e m : member_key rx q d members k s e m <-> In (k, s) d /\ hit rx q members k = Some (e, m).
Proof.
  unfold member_key, hit. split; intros (I & H); split; auto.
  - destruct H as (suffix & -> & F). apply find_first in F. rewrite F. reflexivity.
  - destruct (rx q k) as [(e', suffix)|]; [|discriminate]. destruct (List.find (fun m => str_is suffix (m_suffix m)) members) as [m'|] eqn:F; [|discriminate].
    injection H as -> ->. exists suffix. split; [reflexivity|]. apply find_first. exact F.
Qed.
Definition write (o : option value) (i : nat) (r : record) : record := match o with Some v => set_field r i v | None => r end.
(* the writes to the element e, in order *)
Fixpoint writes (rx : matcher) (q : str) (members : list member) (rest : directory str) (e : str) : list (nat * option value) :=
  match rest with
  | [] => []
  | (k, s) :: rest' =>
    match hit rx q members k with
    | Some (e', m) => if list_eq_dec ascii_dec e e'
                      then (m_field m, match mconvert (m_conv m) s with Ok o => o | _ => None end) :: writes rx q members rest' e
                      else writes rx q members rest' e
    | None => writes rx q members rest' e
    end
  end.
Definition apply_writes (l : list (nat * option value)) (r : record) : record := fold_left (fun r io => write (snd io) (fst io) r) l r.
Fixpoint outcome_of (rx : matcher) (q : str) (members : list member) (rest : directory str) : bool * bool := (* some read, some failed *)
  match rest with
  | [] => (false, false)
  | (k, s) :: rest' =>
    let '(f, e) := outcome_of rx q members rest' in
    match hit rx q members k with
    | Some (_, m) => match mconvert (m_conv m) s with Ok (Some _) => (true, e) | _ => (f, true) end
    | None => (f, e)
    end
  end.
Lemma loop_ok rx q d members fresh : forall rest em f0 e0,
  (forall k s, In (k, s) rest -> map_get d k = Some s) ->
  (forall k s e m, In (k, s) rest -> hit rx q members k = Some (e, m) -> exists o, mconvert (m_conv m) s = Ok o) ->
  sorted em ->
  exists em', list_loop rx q d rest members fresh em f0 e0 =
    Ok (f0 || fst (outcome_of rx q members rest), e0 || snd (outcome_of rx q members rest), em') /\ sorted em' /\
  forall e, map_get em' e = match writes rx q members rest e with
                            | [] => map_get em e
                            | l => Some (apply_writes l (match map_get em e with Some r => r | None => fresh end))
                            end.
Proof.
  induction rest as [|(k, s) rest IH]; intros em f0 e0 L R S0; cbn [list_loop].
  - exists em. cbn. rewrite !orb_false_r. auto.
  - assert (L' : forall k s, In (k, s) rest -> map_get d k = Some s) by (intros; apply L; right; auto).
    assert (R' : forall k s e m, In (k, s) rest -> hit rx q members k = Some (e, m) -> exists o, mconvert (m_conv m) s = Ok o) by (intros; eapply R; [right; eauto|eauto]).
    specialize (L k s (or_introl eq_refl)). specialize (fun e m => R k s e m (or_introl eq_refl)).
    cbn [writes outcome_of]. destruct (outcome_of rx q members rest) as (fr, er) eqn:OC.
    assert (Skip : hit rx q members k = None -> exists em' : list (str * record),
       list_loop rx q d rest members fresh em f0 e0 = Ok (f0 || fr, e0 || er, em') /\ sorted em' /\
       forall e, map_get em' e = match writes rx q members rest e with
                            | [] => map_get em e
                            | l => Some (apply_writes l (match map_get em e with Some r => r | None => fresh end)) end).
    { intros _. destruct (IH em f0 e0 L' R' S0) as (em' & E & S1 & G). exists em'. cbn [fst snd] in E. auto. }
    unfold hit in R, Skip |- *. destruct (rx q k) as [(e, suffix)|]; [|cbn [fst snd]; apply Skip; reflexivity].
    destruct (List.find (fun m => str_is suffix (m_suffix m)) members) as [m|]; [|cbn [fst snd]; apply Skip; reflexivity].
    clear Skip. destruct (R e m eq_refl) as (o & C). unfold member_get. rewrite L, C. cbn [bind].
    set (r0 := match map_get em e with Some r => r | None => fresh end).
    assert (Step : forall f1 e1, exists em' : list (str * record),
       list_loop rx q d rest members fresh (map_put em e (write o (m_field m) r0)) f1 e1 = Ok (f1 || fr, e1 || er, em') /\ sorted em' /\
       forall x, map_get em' x = match (if list_eq_dec ascii_dec x e then (m_field m, o) :: writes rx q members rest x else writes rx q members rest x) with
                            | [] => map_get em x
                            | l => Some (apply_writes l (match map_get em x with Some r => r | None => fresh end)) end).
    { intros f1 e1. destruct (IH (map_put em e (write o (m_field m) r0)) f1 e1 L' R' (map_put_sorted _ _ _ S0)) as (em' & E & S1 & G).
      exists em'. cbn [fst snd] in E. split; [exact E|]. split; [exact S1|]. intros x. rewrite G. rewrite map_get_put by exact S0.
      destruct (list_eq_dec ascii_dec x e) as [->|N]; [|reflexivity]. fold r0. destruct (writes rx q members rest e); reflexivity. }
    destruct o as [v|]; cbn [fst snd negb orb bind].
    + destruct (Step (f0 || true) (e0 || false)) as (em' & E & S1 & G). exists em'. split; [|split; [exact S1|exact G]].
      cbn [write] in E. rewrite E. f_equal. f_equal. f_equal; destruct f0, e0; reflexivity.
    + destruct (Step (f0 || false) (e0 || true)) as (em' & E & S1 & G). exists em'. split; [|split; [exact S1|exact G]].
      cbn [write] in E. rewrite E. f_equal. f_equal. f_equal; destruct f0, e0; reflexivity.
Qed.
Lemma sorted_lookup {T} (d : list (str * T)) : sorted d -> forall k s, In (k, s) d -> map_get d k = Some s.
Proof. intros S0 k s I. apply map_get_in; auto. Qed.
Lemma outcome_spec rx q members d : (forall k s e m, In (k, s) d -> hit rx q members k = Some (e, m) -> exists o, mconvert (m_conv m) s = Ok o) ->
  (fst (outcome_of rx q members d) = true <-> exists k s e m v, In (k, s) d /\ hit rx q members k = Some (e, m) /\ mconvert (m_conv m) s = Ok (Some v)) /\
  (snd (outcome_of rx q members d) = true <-> exists k s e m, In (k, s) d /\ hit rx q members k = Some (e, m) /\ mconvert (m_conv m) s = Ok None).
Proof.
  induction d as [|(k, s) d IH]; intros R; cbn [outcome_of].
  - split; (split; [discriminate|]); [intros (k & s & e & m & v & [] & _)|intros (k & s & e & m & [] & _)].
  - destruct IH as (F & E); [intros; eapply R; [right; eauto|eauto]|].
    specialize (fun e m => R k s e m (or_introl eq_refl)). destruct (outcome_of rx q members d) as (f, er). cbn [fst snd] in F, E.
    destruct (hit rx q members k) as [(e, m)|] eqn:Q.
    + destruct (R e m eq_refl) as (o & C). rewrite C. destruct o as [v|]; cbn [fst snd].
      * split.
        { split; [|auto]. intros _. exists k, s, e, m, v. split; [left; reflexivity|auto]. }
        { rewrite E. split; intros (k' & s' & e' & m' & I & H & C').
          - exists k', s', e', m'. split; [right; exact I|auto].
          - destruct I as [I|I]; [|exists k', s', e', m'; auto]. injection I as <- <-. rewrite Q in H. injection H as <- <-. congruence. }
      * split.
        { rewrite F. split; intros (k' & s' & e' & m' & v & I & H & C').
          - exists k', s', e', m', v. split; [right; exact I|auto].
          - destruct I as [I|I]; [|exists k', s', e', m', v; auto]. injection I as <- <-. rewrite Q in H. injection H as <- <-. congruence. }
        { split; [|auto]. intros _. exists k, s, e, m. split; [left; reflexivity|auto]. }
    + cbn [fst snd]. rewrite F, E. split; split.
      * intros (k' & s' & e' & m' & v & I & H & C'). exists k', s', e', m', v. split; [right; exact I|auto].
      * intros (k' & s' & e' & m' & v & [I|I] & H & C'); [injection I as <- <-; congruence|exists k', s', e', m', v; auto].
      * intros (k' & s' & e' & m' & I & H & C'). exists k', s', e', m'. split; [right; exact I|auto].
      * intros (k' & s' & e' & m' & [I|I] & H & C'); [injection I as <- <-; congruence|exists k', s', e', m'; auto].
Qed.
Lemma writes_nil rx q members d e : writes rx q members d e = [] <-> forall k s m, In (k, s) d -> hit rx q members k <> Some (e, m).
Proof.
  induction d as [|(k, s) d IH]; cbn [writes].
  - split; [intros _ k s m []|reflexivity].
  - destruct (hit rx q members k) as [(e', m)|] eqn:Q.
    + destruct (list_eq_dec ascii_dec e e') as [->|N].
      * split; [discriminate|]. intros H. exfalso. exact (H k s m (or_introl eq_refl) Q).
      * rewrite IH. split; intros H k' s' m' I.
        { destruct I as [I|I]; [injection I as <- <-; rewrite Q; congruence|]. exact (H k' s' m' I). }
        { apply (H k' s' m'). right. exact I. }
    + rewrite IH. split; intros H k' s' m' I.
      * destruct I as [I|I]; [injection I as <- <-; rewrite Q; congruence|]. exact (H k' s' m' I).
      * apply (H k' s' m'). right. exact I.
Qed.
Lemma apply_other i l : forall r, (forall o, ~ In (i, o) l) -> apply_writes l r i = r i.
Proof.
  unfold apply_writes. induction l as [|(j, o) l IH]; intros r H; cbn [fold_left]; [reflexivity|].
  rewrite IH by (intros o' Q; apply (H o'); right; exact Q). cbn [fst snd]. destruct o as [v|]; cbn [write]; [|reflexivity].
  unfold set_field. destruct (Nat.eqb_spec i j) as [->|N]; [|reflexivity]. exfalso. exact (H (Some v) (or_introl eq_refl)).
Qed.
Lemma writes_in rx q members d e i o : In (i, o) (writes rx q members d e) -> exists k s m, In (k, s) d /\ hit rx q members k = Some (e, m) /\ m_field m = i.
Proof.
  induction d as [|(k, s) d IH]; cbn [writes]; [intros []|].
  destruct (hit rx q members k) as [(e', m)|] eqn:Q.
  - destruct (list_eq_dec ascii_dec e e') as [<-|N].
    + intros [H|H].
      * injection H as <- <-. exists k, s, m. split; [left; reflexivity|auto].
      * destruct (IH H) as (k' & s' & m' & I & R). exists k', s', m'. split; [right; exact I|exact R].
    + intros H. destruct (IH H) as (k' & s' & m' & I & R). exists k', s', m'. split; [right; exact I|exact R].
  - intros H. destruct (IH H) as (k' & s' & m' & I & R). exists k', s', m'. split; [right; exact I|exact R].
Qed.
Lemma apply_last rx q members e : forall d r k s m v, sorted d -> In (k, s) d -> hit rx q members k = Some (e, m) -> mconvert (m_conv m) s = Ok (Some v) ->
  (forall k' s' m', In (k', s') d -> hit rx q members k' = Some (e, m') -> m_field m' = m_field m -> k' = k \/ str_lt k' k = true) ->
  apply_writes (writes rx q members d e) r (m_field m) = v.
Proof.
  induction d as [|(k0, s0) d IH]; intros r k s m v S0 I H C L; [destruct I|].
  inversion S0 as [|? ? ? S1 Lt]; subst.
  destruct I as [I|I].
  - injection I as -> ->. cbn [writes]. rewrite H. destruct (list_eq_dec ascii_dec e e) as [_|N]; [|congruence]. rewrite C.
    cbn. change (apply_writes (writes rx q members d e) (set_field r (m_field m) v) (m_field m) = v).
    rewrite apply_other.
    + unfold set_field. rewrite Nat.eqb_refl. reflexivity.
    + intros o Q. apply writes_in in Q. destruct Q as (k' & s' & m' & I' & H' & F'). pose proof (Lt _ _ I') as X.
      destruct (L k' s' m' (or_intror I') H' F') as [->|Y]; [rewrite str_lt_irrefl in X; discriminate|]. rewrite (str_lt_asym _ _ X) in Y. discriminate.
  - cbn [writes]. assert (G : forall r, apply_writes (writes rx q members d e) r (m_field m) = v).
    { intros r'. eapply IH; eauto. intros k' s' m' I'. apply (L k' s' m'). right. exact I'. }
    destruct (hit rx q members k0) as [(e', m')|]; [destruct (list_eq_dec ascii_dec e e')|]; [|apply G|apply G].
    apply G.
Qed.
Lemma sorted_ascending {T} (em : list (str * T)) : sorted em -> ascending (map fst em).
Proof.
  induction 1 as [|k v r S0 IH L]; cbn [map fst]; constructor; auto.
  intros y Hy. apply in_map_iff in Hy. destruct Hy as ((k', v') & <- & I). exact (L _ _ I).
Qed.
Lemma nth_sorted {T} (em : list (str * T)) i e r : nth_error (map fst em) i = Some e -> nth_error (map snd em) i = Some r -> In (e, r) em.
Proof.
  revert i. induction em as [|(k, v) em IH]; intros [|i]; cbn; try discriminate.
  - intros A B. injection A as ->. injection B as ->. left. reflexivity.
  - intros A B. right. exact (IH i A B).
Qed.
Lemma records_of rx q d members fresh em : sorted d -> sorted em ->
  (forall k s e m, In (k, s) d -> hit rx q members k = Some (e, m) -> exists o, mconvert (m_conv m) s = Ok o) ->
  (forall e, map_get em e = match writes rx q members d e with [] => None | l => Some (apply_writes l fresh) end) ->
  records rx q d members fresh (map snd em).
Proof.
  intros Sd Se R G. exists (map fst em). split; [rewrite !map_length; reflexivity|]. split; [apply sorted_ascending; exact Se|].
  assert (Dom : forall e, In e (map fst em) <-> exists k s m, member_key rx q d members k s e m).
  { intros e. split.
    - intros I. apply in_map_iff in I. destruct I as ((e', r) & <- & I). apply map_get_in in I; [|exact Se]. cbn [fst]. rewrite G in I.
      destruct (writes rx q members d e') as [|(i, o) l] eqn:W; [discriminate|].
      destruct (writes_in rx q members d e' i o) as (k & s & m & I1 & H & _); [rewrite W; left; reflexivity|].
      exists k, s, m. apply hit_key. auto.
    - intros (k & s & m & K). apply hit_key in K. destruct K as (I & H).
      destruct (writes rx q members d e) as [|x l] eqn:W.
      + exfalso. apply (proj1 (writes_nil rx q members d e) W k s m I H).
      + specialize (G e). rewrite W in G. apply map_get_in in G; [|exact Se]. apply in_map_iff. eexists. split; [|exact G]. reflexivity. }
  split; [exact Dom|]. intros i e r A B. pose proof (nth_sorted em i e r A B) as I. split; [apply Dom; apply in_map_iff; exists (e, r); auto|].
  apply map_get_in in I; [|exact Se]. rewrite G in I.
  assert (I' : r = apply_writes (writes rx q members d e) fresh).
  { destruct (writes rx q members d e); [discriminate|]. injection I as <-. reflexivity. }
  clear I. subst r. intros j. split.
  - intros N. apply apply_other. intros o Q. apply writes_in in Q. destruct Q as (k & s & m & I & H & F0). apply (N k s m); [apply hit_key; auto|exact F0].
  - intros k s m v K F0 M L. apply hit_key in K. destruct K as (I & H). subst j. apply mgives_convert in M. eapply apply_last; eauto.
    intros k' s' m' I' H' F'. apply (L k' s' m'); [apply hit_key; auto|exact F'].
Qed.

(* ---- one entry ---- *)
Definition effect (rx : matcher) (d : directory str) (p : str) (o : nat) (e : entry) (ok : bool) (w w' : world) : Prop :=
  (forall j, j <> o -> maps w' j = maps w j) /\
  match e with
  | Item key c i default =>
    (forall j, outs w' j = outs w j) /\ (forall j, maps w' j = maps w j) /\ (forall j, j <> i -> vars w' j = vars w j) /\
    (forall v, finds d (p ++ key) c (Some v) -> vars w' i = v) /\
    (finds d (p ++ key) c None -> vars w' i = match default with Some x => vars w x | None => vars w i end)
  | ListItem cp members fresh i =>
    (forall j, vars w' j = vars w j) /\ (forall j, j <> i -> outs w' j = outs w j) /\
    (ok = false -> outs w' i = outs w i) /\
    (ok = true -> exists l, records rx (p ++ cp) d members fresh l /\ outs w' i = outs w i ++ l)
  end.
Lemma entry_ok rx d p o e w : sorted d -> readable rx d p e -> (is_list e = true -> maps w o = []) ->
  exists ok w', entry_get rx d p o e w = Ok (ok, w') /\ (ok = true <-> succeeds rx d p e) /\ effect rx d p o e ok w w'.
Proof.
  intros Sd R Fr. destruct e as [key c i default|cp members fresh i]; cbn [entry_get readable succeeds is_list] in *.
  - destruct R as (ov & F0).
    assert (E : match map_get d (p ++ key) with None => Ok None | Some s => convert c s end = Ok ov).
    { unfold finds in F0. destruct (map_get d (p ++ key)); [apply gives_convert; exact F0|congruence]. }
    rewrite E. cbn [bind]. destruct ov as [v|].
    + exists true, (set_var w i v). split; [reflexivity|]. split; [split; [intros _; right; exists v; exact F0|auto]|].
      split; [reflexivity|]. cbn. split; [reflexivity|]. split; [reflexivity|]. split; [intros j N; destruct (Nat.eqb_spec j i); congruence|].
      rewrite Nat.eqb_refl. split; [intros v' F1; pose proof (finds_fun _ _ _ _ _ F0 F1); congruence|intros F1; pose proof (finds_fun _ _ _ _ _ F0 F1); discriminate].
    + destruct default as [x|].
      * exists true, (set_var w i (vars w x)). split; [reflexivity|]. split; [split; [intros _; left; discriminate|auto]|].
        split; [reflexivity|]. cbn. split; [reflexivity|]. split; [reflexivity|]. split; [intros j N; destruct (Nat.eqb_spec j i); congruence|].
        rewrite Nat.eqb_refl. split; [intros v' F1; pose proof (finds_fun _ _ _ _ _ F0 F1); discriminate|reflexivity].
      * exists false, w. split; [reflexivity|]. split.
        { split; [discriminate|]. intros [H|(v & F1)]; [congruence|]. pose proof (finds_fun _ _ _ _ _ F0 F1). discriminate. }
        split; [reflexivity|]. split; [reflexivity|]. split; [reflexivity|]. split; [reflexivity|].
        split; [intros v' F1; pose proof (finds_fun _ _ _ _ _ F0 F1); discriminate|reflexivity].
  - specialize (Fr eq_refl).
    assert (R' : forall k s e m, In (k, s) d -> hit rx (p ++ cp) members k = Some (e, m) -> exists o, mconvert (m_conv m) s = Ok o).
    { intros k s e m I H. destruct (R k s e m) as (ov & G); [apply hit_key; auto|]. exists ov. apply mgives_convert. exact G. }
    destruct (loop_ok rx (p ++ cp) d members fresh d (maps w o) false false (sorted_lookup d Sd) R') as (em & E & Se & G); [rewrite Fr; constructor|].
    unfold list_get. rewrite E. cbn [bind orb]. rewrite Fr in G. cbn [map_get] in G.
    destruct (outcome_spec rx (p ++ cp) members d R') as (OF & OE).
    set (found := fst (outcome_of rx (p ++ cp) members d)) in *. set (error := snd (outcome_of rx (p ++ cp) members d)) in *.
    pose proof (records_of rx (p ++ cp) d members fresh em Sd Se R' G) as RE.
    assert (SU : found && negb error = true <-> succeeds rx d p (ListItem cp members fresh i)).
    { cbn [succeeds]. split.
      - intros H. apply andb_true_iff in H. destruct H as (H1 & H2). apply negb_true_iff in H2. apply OF in H1.
        destruct H1 as (k & s & e & m & v & I & H & C). split; [exists k, s, e, m; apply hit_key; auto|].
        intros k' s' e' m' K. destruct (R k' s' e' m' K) as ([v'|] & M); [exists v'; exact M|]. exfalso.
        assert (error = true); [|congruence]. apply OE. apply hit_key in K. destruct K as (I' & K). exists k', s', e', m'. split; [exact I'|]. split; [exact K|]. apply mgives_convert. exact M.
      - intros ((k & s & e & m & K) & A). apply andb_true_iff. split.
        + apply OF. destruct (A k s e m K) as (v & M). apply hit_key in K. destruct K as (I & K). exists k, s, e, m, v. split; [exact I|]. split; [exact K|]. apply mgives_convert. exact M.
        + apply negb_true_iff. destruct error eqn:Q; [|reflexivity]. exfalso. destruct (proj1 OE eq_refl) as (k' & s' & e' & m' & I' & H' & C').
          destruct (A k' s' e' m') as (v & M); [apply hit_key; auto|]. apply mgives_convert in M. congruence. }
    destruct (found && negb error).
    + exists true, (set_out (set_map w o em) i (outs (set_map w o em) i ++ map snd em)). split; [reflexivity|]. split; [exact SU|].
      split; [intros j N; cbn; destruct (Nat.eqb_spec j o); congruence|]. split; [reflexivity|].
      split; [intros j N; cbn; destruct (Nat.eqb_spec j i); congruence|]. split; [discriminate|]. intros _. exists (map snd em). split; [exact RE|].
      cbn. rewrite Nat.eqb_refl. reflexivity.
    + exists false, (set_map w o em). split; [reflexivity|]. split; [exact SU|].
      split; [intros j N; cbn; destruct (Nat.eqb_spec j o); congruence|]. split; [reflexivity|]. split; [reflexivity|]. split; [reflexivity|]. discriminate.
Qed.

(* ---- the batch ---- *)
(* the worlds between the entries *)
Inductive run (rx : matcher) (d : directory str) (p : str) (report : bool) : list (nat * entry) -> world -> bool -> world -> list (level * str) -> Prop :=
| R_nil w : run rx d p report [] w true w []
| R_cons o e l w ok w1 okr w' log : (ok = true <-> succeeds rx d p e) -> effect rx d p o e ok w w1 ->
    run rx d p report l w1 okr w' log ->
    run rx d p report ((o, e) :: l) w (ok && okr) w' ((if ok then Trace else if report then Error else Trace, p ++ entry_key e) :: log).
Lemma ready_step rx d p o e l w ok w1 : batch_ready rx d p ((o, e) :: l) w -> effect rx d p o e ok w w1 -> batch_ready rx d p l w1.
Proof.
  intros (A & B & N) (E & _). split; [intros; eapply A; right; eauto|]. cbn [map fst] in N. inversion N as [|? ? N1 N2]; subst. split; [|exact N2].
  intros o' e' I L. rewrite E; [eapply B; [right; eauto|exact L]|]. intros ->. apply N1. apply in_map_iff. exists (o, e'). auto.
Qed.
Lemma run_ok rx d p report : sorted d -> forall l w, batch_ready rx d p l w ->
  exists ok w' log, batch_loop rx d p report l w = Ok (ok, w', log) /\ run rx d p report l w ok w' log.
Proof.
  intros Sd. induction l as [|(o, e) l IH]; intros w R; cbn [batch_loop].
  - exists true, w, []. split; [reflexivity|constructor].
  - pose proof R as (A & B & N). destruct (entry_ok rx d p o e w Sd (A o e (or_introl eq_refl)) (B o e (or_introl eq_refl))) as (ok & w1 & E & SU & EF).
    rewrite E. cbn [bind fst snd]. destruct (IH w1 (ready_step _ _ _ _ _ _ _ _ _ R EF)) as (okr & w' & log & E2 & RU). rewrite E2. cbn [bind].
    do 3 eexists. split; [reflexivity|]. econstructor; eauto.
Qed.
Lemma run_result rx d p report l w ok w' log : run rx d p report l w ok w' log -> (ok = true <-> forall o e, In (o, e) l -> succeeds rx d p e).
Proof.
  induction 1 as [|o e l w ok w1 okr w' log SU EF RU IH].
  - split; [intros _ o e []|reflexivity].
  - rewrite andb_true_iff, SU, IH. split.
    + intros (A & B) o' e' [Q|Q]; [injection Q as <- <-; exact A|exact (B o' e' Q)].
    + intros H. split; [exact (H o e (or_introl eq_refl))|]. intros o' e' Q. exact (H o' e' (or_intror Q)).
Qed.
Lemma run_log rx d p report l w ok w' log : run rx d p report l w ok w' log ->
  map snd log = map (fun oe => p ++ entry_key (snd oe)) l /\
  (forall i o e lv k, nth_error l i = Some (o, e) -> nth_error log i = Some (lv, k) -> (lv = Error <-> report = true /\ ~ succeeds rx d p e)).
Proof.
  induction 1 as [|o e l w ok w1 okr w' log SU EF RU (IH1 & IH2)].
  - split; [reflexivity|]. intros [|i]; discriminate.
  - split; [cbn [map snd]; rewrite IH1; reflexivity|]. intros [|i] o' e' lv k A B; cbn [nth_error] in A, B; [|exact (IH2 i o' e' lv k A B)].
    injection A as <- <-. injection B as <- <-. destruct ok.
    + split; [discriminate|]. intros (_ & N). exfalso. apply N. apply SU. reflexivity.
    + destruct report; [|split; [discriminate|intros (Q & _); discriminate]].
      split; [|reflexivity]. intros _. split; [reflexivity|]. intros K. apply SU in K. discriminate.
Qed.
Lemma run_app rx d p report l1 : forall l2 w ok w' log, run rx d p report (l1 ++ l2) w ok w' log ->
  exists ok1 w1 log1 ok2 log2, run rx d p report l1 w ok1 w1 log1 /\ run rx d p report l2 w1 ok2 w' log2.
Proof.
  induction l1 as [|(o, e) l1 IH]; intros l2 w ok w' log R.
  - exists true, w, [], ok, log. split; [constructor|exact R].
  - inversion R as [|? ? ? ? ok0 w1 okr ? log0 SU EF RU]; subst. destruct (IH _ _ _ _ _ RU) as (ok1 & w2 & log1 & ok2 & log2 & R1 & R2).
    do 5 eexists. split; [econstructor; eauto|exact R2].
Qed.
Lemma run_var rx d p report l w ok w' log i : run rx d p report l w ok w' log -> (forall o e, In (o, e) l -> ~ targets e i) -> vars w' i = vars w i.
Proof.
  induction 1 as [|o e l w ok w1 okr w' log SU EF RU IH]; intros N; [reflexivity|].
  rewrite IH by (intros o' e' I; apply (N o' e'); right; exact I). specialize (N o e (or_introl eq_refl)).
  destruct EF as (_ & EF). destruct e as [key c j default|cp members fresh j]; cbn [targets] in N.
  - destruct EF as (_ & _ & V & _). apply V. congruence.
  - destruct EF as (V & _). apply V.
Qed.
Lemma run_out rx d p report l w ok w' log i : run rx d p report l w ok w' log -> (forall o e, In (o, e) l -> ~ outputs e i) -> outs w' i = outs w i.
Proof.
  induction 1 as [|o e l w ok w1 okr w' log SU EF RU IH]; intros N; [reflexivity|].
  rewrite IH by (intros o' e' I; apply (N o' e'); right; exact I). specialize (N o e (or_introl eq_refl)).
  destruct EF as (_ & EF). destruct e as [key c j default|cp members fresh j]; cbn [outputs] in N.
  - destruct EF as (V & _). apply V.
  - destruct EF as (_ & V & _). apply V. congruence.
Qed.
Lemma run_entry rx d p report l1 o e l2 w ok w' log : run rx d p report (l1 ++ (o, e) :: l2) w ok w' log -> entry_done rx d p l1 l2 e w w'.
Proof.
  intros R. apply run_app in R. destruct R as (ok1 & w1 & log1 & ok2 & log2 & R1 & R2).
  inversion R2 as [|? ? ? ? ok0 w2 okr ? log0 SU EF RU]; subst. destruct EF as (_ & EF).
  destruct e as [key c i default|cp members fresh i]; cbn [entry_done].
  - intros N. rewrite (run_var _ _ _ _ _ _ _ _ _ i RU N). destruct EF as (_ & _ & _ & A & B). split; [exact A|]. split.
    + intros F0 x -> N1. rewrite (B F0). exact (run_var _ _ _ _ _ _ _ _ _ x R1 N1).
    + intros F0 -> N1. rewrite (B F0). exact (run_var _ _ _ _ _ _ _ _ _ i R1 N1).
  - intros N. rewrite (run_out _ _ _ _ _ _ _ _ _ i RU) by (intros o' e' I; apply (N o' e'); apply in_or_app; right; exact I).
    rewrite <- (run_out _ _ _ _ _ _ _ _ _ i R1) by (intros o' e' I; apply (N o' e'); apply in_or_app; left; exact I).
    destruct EF as (_ & _ & A & B). split.
    + intros K. apply SU in K. exact (B K).
    + intros K. apply A. destruct ok0; [|reflexivity]. exfalso. apply K. apply SU. reflexivity.
Qed.
Lemma distinct_nodup l : distinct l = true <-> NoDup l.
Proof.
  induction l as [|x l IH]; cbn [distinct]; [split; [constructor|reflexivity]|].
  rewrite andb_true_iff, negb_true_iff, IH. split.
  - intros (A & B). constructor; [|exact B]. intros I. assert (existsb (Nat.eqb x) l = true); [|congruence]. apply existsb_exists. exists x. rewrite Nat.eqb_refl. auto.
  - intros N. inversion N as [|? ? A B]; subst. split; [|exact B]. destruct (existsb (Nat.eqb x) l) eqn:E; [|reflexivity]. exfalso. apply A.
    apply existsb_exists in E. destruct E as (y & I & Q). apply Nat.eqb_eq in Q. subst y. exact I.
Qed.
Lemma slash_prefix prefix p : prefix_of prefix p -> with_slash prefix = p.
Proof.
  intros [(-> & ->)|(q & -> & [->|(-> & NE & N)])].
  - reflexivity.
  - unfold with_slash. destruct (q ++ $"/") as [|c r] eqn:E; [destruct q; discriminate|]. rewrite <- E. change $"/" with ["/"%char]. rewrite last_last. reflexivity.
  - unfold with_slash. destruct q as [|c r]; [congruence|]. set (s := c :: r) in *.
    destruct (Ascii.eqb_spec (last s "/"%char) "/"%char) as [Q|Q]; [|reflexivity]. exfalso.
    apply (N (removelast s)). rewrite (app_removelast_last "/"%char NE) at 1. rewrite Q. reflexivity.
Qed.
Lemma prefix_total prefix : exists p, prefix_of prefix p.
Proof.
  destruct prefix as [|c r]; [exists []; left; auto|]. set (s := c :: r). assert (NE : s <> []) by discriminate.
  destruct (ascii_dec (last s "/"%char) "/"%char) as [Q|Q].
  - exists s. right. exists (removelast s). split; [|left; reflexivity]. rewrite (app_removelast_last "/"%char NE) at 1. rewrite Q. reflexivity.
  - exists (s ++ $"/"). right. exists s. split; [reflexivity|]. right. split; [reflexivity|]. split; [exact NE|]. intros q E. apply Q. rewrite E. change $"/" with ["/"%char]. apply last_last.
Qed.
Lemma until_null_ok l r : until_null (map Some l ++ None :: r) = Ok l.
Proof. induction l as [|e l IH]; cbn [map app until_null]; [reflexivity|]. rewrite IH. reflexivity. Qed.
Lemma until_null_ub l : until_null (map Some l) = UB.
Proof. induction l as [|e l IH]; cbn [map until_null]; [reflexivity|]. rewrite IH. reflexivity. Qed.

(* ---- the query of a list ---- *)
Lemma strip_app p s : strip p (p ++ s) = Some s.
Proof. induction p as [|a p IH]; [reflexivity|]. cbn. rewrite Ascii.eqb_refl. exact IH. Qed.
Lemma strip_inv p : forall s r, strip p s = Some r -> s = p ++ r.
Proof.
  induction p as [|a p IH]; intros s r E; cbn in E; [injection E as ->; reflexivity|]. destruct s as [|b s]; [discriminate|].
  destruct (Ascii.eqb_spec a b) as [->|N]; [|discriminate]. cbn. f_equal. exact (IH _ _ E).
Qed.
Lemma element_cons c d r : element_of (c :: d :: r) =
  if Ascii.eqb d "/"%char && negb (match r with [] => true | _ => false end) then Some ([c], r)
  else match element_of (d :: r) with Some (e, x) => Some (c :: e, x) | None => None end.
Proof. reflexivity. Qed.
Lemma element_plain e : e <> [] -> ~ In "/"%char e -> element_of e = Some (e, []).
Proof.
  induction e as [|c e IH]; intros NE N; [congruence|]. destruct e as [|d e]; [reflexivity|]. rewrite element_cons.
  destruct (Ascii.eqb_spec d "/"%char) as [->|Nd]; [exfalso; apply N; right; left; reflexivity|]. cbn [andb].
  rewrite IH; [reflexivity|discriminate|]. intros Q. apply N. right. exact Q.
Qed.
Lemma element_suffix e x : e <> [] -> ~ In "/"%char e -> x <> [] -> element_of (e ++ "/"%char :: x) = Some (e, x).
Proof.
  induction e as [|c e IH]; intros NE N Nx; [congruence|]. destruct e as [|d e].
  - cbn [app]. rewrite element_cons. destruct x; [congruence|]. reflexivity.
  - cbn [app]. rewrite element_cons. destruct (Ascii.eqb_spec d "/"%char) as [->|Nd]; [exfalso; apply N; right; left; reflexivity|]. cbn [andb].
    change (d :: e ++ "/"%char :: x) with ((d :: e) ++ "/"%char :: x). rewrite IH; [reflexivity|discriminate| |exact Nx]. intros Q. apply N. right. exact Q.
Qed.
Lemma element_inv s : forall e x, element_of s = Some (e, x) -> e <> [] /\ s = e ++ (match x with [] => [] | _ => "/"%char :: x end) /\
  (forall e1 e2, e = e1 ++ "/"%char :: e2 -> e1 = [] \/ (e2 = [] /\ x = [])).
Proof.
  induction s as [|c s IH]; intros e x E; [discriminate|]. destruct s as [|d s].
  - injection E as <- <-. split; [discriminate|]. split; [reflexivity|]. intros e1 e2 Q. destruct e1 as [|a e1]; [auto|]. injection Q as _ Q. destruct e1; discriminate.
  - rewrite element_cons in E. destruct (Ascii.eqb_spec d "/"%char) as [->|Nd]; [destruct s as [|y s]|]; cbn [andb negb] in E.
    + cbn in E. injection E as <- <-. split; [discriminate|]. split; [reflexivity|]. intros e1 e2 Q. destruct e1 as [|a e1]; [auto|]. injection Q as _ Q.
      destruct e1 as [|b e1]; [injection Q as <-; auto|]. injection Q as _ Q. destruct e1; discriminate.
    + injection E as <- <-. split; [discriminate|]. split; [reflexivity|]. intros e1 e2 Q. destruct e1 as [|a e1]; [auto|]. injection Q as _ Q. destruct e1; discriminate.
    + destruct (element_of (d :: s)) as [(e', x')|] eqn:E'; [|discriminate]. injection E as <- <-. destruct (IH _ _ eq_refl) as (NE & Q & M).
      split; [discriminate|]. split; [cbn; rewrite Q; reflexivity|]. intros e1 e2 QQ. destruct e1 as [|a e1]; [auto|]. right. injection QQ as _ QQ.
      destruct (M e1 e2 QQ) as [-> |H]; [|exact H]. exfalso. rewrite QQ in Q. injection Q as -> _. congruence.
Qed.
