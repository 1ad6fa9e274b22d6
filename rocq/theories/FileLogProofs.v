From Verif Require Import Base Text SMap IsoModel IsoSpec IsoProofs FileLogModel FileLogSpec.
Local Open Scope Z_scope.

Ltac Z.to_euclidean_division_equations ::= Z.div_mod_to_equations.
Notation dy t := (day_number_of t).
Lemma day_of_dy t : 0 <= t -> day_of t = dy t.
Proof. intros H. unfold day_of, day_number_of. rewrite Z.quot_div_nonneg by lia. reflexivity. Qed.
Lemma dy_mono a b : a <= b -> dy a <= dy b.
Proof. intros H. unfold day_number_of. apply Z.div_le_mono; lia. Qed.
Lemma dy_nonneg a : 0 <= a -> 0 <= dy a.
Proof. intros H. unfold day_number_of. apply Z.div_pos; lia. Qed.
Lemma dy_limit a : a < 253402300800 -> dy a < 2932897.
Proof. intros H. unfold day_number_of. apply Z.div_lt_upper_bound; lia. Qed.
Lemma banner_reopened : banner = reopened.
Proof. reflexivity. Qed.

(* ---- names ---- *)
Lemma digits_inj k a b : 0 <= a < 10 ^ Z.of_nat k -> 0 <= b < 10 ^ Z.of_nat k -> digits k a = digits k b -> a = b.
Proof. intros A B E. rewrite <- (number_digits k a A), <- (number_digits k b B), E. reflexivity. Qed.
Lemma app_inj_l {T} (a a' b b' : list T) : length a = length a' -> a ++ b = a' ++ b' -> a = a' /\ b = b'.
Proof.
  revert a'. induction a as [|x a IH]; intros [|x' a']; cbn [length app]; intros L E; try discriminate; auto.
  injection E as -> E. destruct (IH a' ltac:(lia) E) as (-> & ->). auto.
Qed.
Lemma date_facts d : 0 <= d < 2932897 ->
  let x := Nat.iter (Z.to_nat d) next_day (D 1970 1 1) in vdate x /\ dnum x = d /\ 1970 <= year x <= 9999 /\ 1 <= month x <= 12 /\ 1 <= IsoModel.day x <= 31.
Proof.
  intros H x. destruct (iter_next (Z.to_nat d)) as (V & E). fold x in V, E. pose proof (year_bound (Z.to_nat d) ltac:(lia)) as B. fold x in B.
  split; [exact V|]. split; [lia|]. destruct V as (V1 & V2 & V3). pose proof (month_len_bounds (year x) (month x)). lia.
Qed.
Lemma archive_inj n z d d' : 0 <= d < 2932897 -> 0 <= d' < 2932897 -> archive_name n z d = archive_name n z d' -> d = d'.
Proof.
  intros H H' E. pose proof (date_facts d H) as Dx. pose proof (date_facts d' H') as Dy. unfold archive_name in E. cbv zeta in *.
  set (x := Nat.iter (Z.to_nat d) next_day (D 1970 1 1)) in *. set (x' := Nat.iter (Z.to_nat d') next_day (D 1970 1 1)) in *.
  destruct Dx as (Vx & Nx & Y & M & Dd). destruct Dy as (Vy & Ny & Y' & M' & Dd').
  apply app_inv_head in E. apply app_inv_head in E.
  apply app_inj_l in E; [|rewrite !digits_length; reflexivity]. destruct E as (Ey & E). apply app_inv_head in E.
  apply app_inj_l in E; [|rewrite !digits_length; reflexivity]. destruct E as (Em & E). apply app_inv_head in E.
  apply app_inj_l in E; [|rewrite !digits_length; reflexivity]. destruct E as (Ed & _).
  apply digits_inj in Ey; [|cbn; lia|cbn; lia]. apply digits_inj in Em; [|cbn; lia|cbn; lia]. apply digits_inj in Ed; [|cbn; lia|cbn; lia].
  rewrite <- Nx, <- Ny. destruct x as [a b e], x' as [a' b' e']. cbn [year month IsoModel.day] in *. congruence.
Qed.
Lemma archive_form n z d : exists ext, archive_name n z d = n ++ ext /\ ext <> [].
Proof. eexists. split; [reflexivity|]. discriminate. Qed.
Lemma archive_not_base n z d : archive_name n z d <> n.
Proof.
  destruct (archive_form n z d) as (ext & -> & N). intros E. apply N. apply (app_inv_head n). rewrite app_nil_r. exact E.
Qed.
Lemma time_str_ok d : 0 <= d < 2932897 -> exists ext, time_str d = Ok ext /\
  (forall n, n ++ ext = archive_name n false d) /\ (forall n, n ++ ext ++ $".gz" = archive_name n true d).
Proof.
  intros H. pose proof (date_facts d H) as Dx. unfold time_str, archive_name. replace (24 * 3600 * d / 86400) with d by (rewrite Z.mul_comm; change (24 * 3600) with 86400; rewrite Z.div_mul; lia).
  unfold date_of_day. destruct (Z.leb_spec 0 d); [|lia]. cbv zeta in *. set (x := Nat.iter (Z.to_nat d) next_day (D 1970 1 1)) in *.
  destruct Dx as (Vx & Nx & Y & M & Dd). rewrite (year_text_4 (year x)) by lia.
  rewrite !app_length, !digits_length. cbn [length list_ascii_of_string Nat.add Nat.ltb Nat.leb].
  eexists. split; [reflexivity|]. split; intros n; [|rewrite <- !app_assoc; reflexivity].
  do 6 f_equal.
Qed.

(* ---- maps ---- *)
Lemma remove_sorted {T} (m : list (str * T)) k : sorted m -> sorted (map_remove m k).
Proof.
  intros S0. unfold map_remove. induction S0 as [|k0 v r S0 IH L]; [constructor|]. cbn [filter fst].
  destruct (list_eq_dec ascii_dec k0 k); [exact IH|]. constructor; [exact IH|]. intros k' v' I. apply filter_In in I. exact (L _ _ (proj1 I)).
Qed.
Lemma get_remove {T} (m : list (str * T)) k k' : sorted m -> map_get (map_remove m k) k' = if list_eq_dec ascii_dec k' k then None else map_get m k'.
Proof.
  intros S0. pose proof (remove_sorted m k S0) as S1. destruct (map_get (map_remove m k) k') as [v|] eqn:E.
  - apply map_get_in in E; [|exact S1]. apply filter_In in E. destruct E as (I & N). cbn [fst] in N.
    destruct (list_eq_dec ascii_dec k' k); [discriminate|]. symmetry. apply map_get_in; auto.
  - destruct (list_eq_dec ascii_dec k' k) as [|N]; [reflexivity|]. symmetry. apply map_get_none; [exact S0|]. intros v I.
    apply (proj1 (map_get_none _ _ S1) E v). apply filter_In. split; [exact I|]. cbn [fst]. destruct (list_eq_dec ascii_dec k' k); [contradiction|reflexivity].
Qed.
Lemma get_put_ne {T} (m : list (str * T)) k v k' : sorted m -> k' <> k -> map_get (map_put m k v) k' = map_get m k'.
Proof. intros S0 N. rewrite map_get_put by exact S0. destruct (list_eq_dec ascii_dec k' k); congruence. Qed.
Lemma get_put_eq {T} (m : list (str * T)) k v : sorted m -> map_get (map_put m k v) k = Some v.
Proof. intros S0. rewrite map_get_put by exact S0. destruct (list_eq_dec ascii_dec k k); congruence. Qed.
Lemma get_remove_ne {T} (m : list (str * T)) k k' : sorted m -> k' <> k -> map_get (map_remove m k) k' = map_get m k'.
Proof. intros S0 N. rewrite get_remove by exact S0. destruct (list_eq_dec ascii_dec k' k); congruence. Qed.
Lemma get_remove_eq {T} (m : list (str * T)) k : sorted m -> map_get (map_remove m k) k = None.
Proof. intros S0. rewrite get_remove by exact S0. destruct (list_eq_dec ascii_dec k k); congruence. Qed.

Section Log.
Variables (c : config) (y : sys) (torn : list str) (clean exact : bool).
Hypothesis HC : clean = true -> forall k, fails y k = false.
Hypothesis HZ : how c = Zip -> clean = true.
Hypothesis HX : exact = true -> clean = true.

Definition nodir (f : fsys) : Prop := clean = true -> forall ext, map_get f (base c ++ ext) <> Some Dir.
Definition covered (ls : list line) (d : Z) : Prop := forall t s, In (t, s) ls -> s <> [] -> dy t <= d.
Definition exactly (ls : list line) (d : Z) : Prop := exact = true -> forall t s, In (t, s) ls -> dy t = d.
Definition group_ok (f : fsys) (L : Z) (d : Z) (ls : list line) : Prop :=
  0 <= d < L /\ (exists text, text_of f (archive c d) text /\ made_of torn (map snd ls) text) /\ covered ls d /\ exactly ls d.
Definition groups_ok (gs : list (Z * list line)) (L : Z) (f : fsys) : Prop :=
  ascending (map fst gs) /\ (rotate c = false -> gs = []) /\ forall d ls, In (d, ls) gs -> group_ok f L d ls.
Definition base_rest (f : fsys) (cur : list line) (L T : Z) : Prop :=
  match map_get f (base c) with
  | Some (File g) => made_of torn (map snd cur) (f_text g) /\ L <= dy (f_time g) /\ 0 <= f_time g <= T /\ covered cur (dy (f_time g)) /\ exactly cur (dy (f_time g))
  | _ => cur = []
  end.
Definition Rest (all : list line) (T : Z) (f : fsys) : Prop :=
  sorted f /\ nodir f /\ exists gs cur L, concat (map snd gs) ++ cur = all /\ groups_ok gs L f /\ 0 <= L <= dy T /\ base_rest f cur L T.

Definition base_live (f : fsys) (op : bool) (b : str) (cur : list line) (L T : Z) (q : bool) : Prop :=
  match map_get f (base c) with
  | Some (File g) =>
    made_of torn (map snd cur) (f_text g ++ b) /\ L <= dy (f_time g) /\ 0 <= f_time g <= T /\ (q = true \/ b = [] -> covered cur (dy (f_time g))) /\
    (q = true -> forall n, made_of torn (map snd cur) (f_text g ++ firstn n b))
  | _ => cur = [] /\ op = false
  end.
Definition LiveX (gs : list (Z * list line)) (cur : list line) (L : Z) (q : bool) (T : Z) (w : log) : Prop :=
  sorted (fs w) /\ nodir (fs w) /\ (is_open w = false -> buf w = []) /\ groups_ok gs L (fs w) /\ 0 <= L <= dy T /\ 0 <= T /\
  (rotate c = true -> L <= last_rotation w <= dy T /\ covered cur (last_rotation w) /\ exactly cur (last_rotation w)) /\ covered cur (dy T) /\
  base_live (fs w) (is_open w) (buf w) cur L T q.
Definition Tr (all : list line) (T : Z) (w : log) : Prop := exact = false -> Forall (Rest all T) (trace w).

Lemma rest_mono all T T' f : T <= T' -> Rest all T f -> Rest all T' f.
Proof.
  intros H (R1 & R2 & gs & cur & L & R3 & R4 & R5 & R6). split; [exact R1|]. split; [exact R2|]. exists gs, cur, L. pose proof (dy_mono _ _ H).
  repeat (split; [first [exact R3 | exact R4 | lia]|]). unfold base_rest in *. destruct (map_get f (base c)) as [[g|]|]; auto.
  destruct R6 as (A & B & C0 & D0). repeat (split; [first [exact A | lia]|]). exact D0.
Qed.
Lemma tr_mono all T T' w : T <= T' -> Tr all T w -> Tr all T' w.
Proof. intros H R E. apply (Forall_impl _ (fun f => rest_mono all T T' f H)). exact (R E). Qed.
Lemma live_rest gs cur L T w : exact = false -> LiveX gs cur L true T w -> Rest (concat (map snd gs) ++ cur) T (fs w).
Proof.
  intros X (A & B & C0 & D0 & E & E' & F0 & F1 & G). split; [exact A|]. split; [exact B|]. exists gs, cur, L.
  repeat (split; [first [reflexivity | exact D0 | exact E]|]). unfold base_live in G. unfold base_rest. destruct (map_get (fs w) (base c)) as [[g|]|]; try apply G.
  destruct G as (G1 & G2 & G3 & G4 & G5). specialize (G5 eq_refl 0%nat). cbn [firstn] in G5. rewrite app_nil_r in G5.
  repeat (split; [first [exact G5 | lia | exact (G4 (or_introl eq_refl))]|]). intros Q. congruence.
Qed.
(* one change of the directory *)
Lemma tr_step gs cur L T t w w' : T <= t -> LiveX gs cur L true t w' -> trace w' = trace w \/ trace w' = fs w' :: trace w ->
  Tr (concat (map snd gs) ++ cur) T w -> Tr (concat (map snd gs) ++ cur) t w'.
Proof.
  intros H A B R E. pose proof (tr_mono _ _ _ _ H R E) as R'. destruct B as [->| ->]; [exact R'|]. constructor; [|exact R']. apply live_rest with (L := L); auto.
Qed.
Lemma live_weaken gs cur L q T w : LiveX gs cur L true T w -> LiveX gs cur L q T w.
Proof.
  intros (A & B & C0 & D0 & E & E' & F0 & F1 & G). unfold LiveX. repeat (split; [assumption|]). unfold base_live in *.
  destruct (map_get (fs w) (base c)) as [[g|]|]; try apply G. destruct G as (G1 & G2 & G3 & G4 & G5).
  repeat (split; [assumption|]). split; [intros _; exact (G4 (or_introl eq_refl))|]. intros _. exact (G5 eq_refl).
Qed.
Lemma live_upgrade gs cur L q T w : buf w = [] -> LiveX gs cur L q T w -> LiveX gs cur L true T w.
Proof.
  intros Eb (A & B & C0 & D0 & E & E' & F0 & F1 & G). unfold LiveX. repeat (split; [assumption|]). unfold base_live in *. rewrite Eb in *.
  destruct (map_get (fs w) (base c)) as [[g|]|]; try apply G. destruct G as (G1 & G2 & G3 & G4 & G5).
  repeat (split; [assumption|]). split; [intros _; apply G4; right; reflexivity|]. intros _ n. rewrite firstn_nil. exact G1.
Qed.
Lemma live_mono gs cur L q T T' w : T <= T' -> LiveX gs cur L q T w -> LiveX gs cur L q T' w.
Proof.
  intros H (A & B & C0 & D0 & E & E' & F0 & F1 & G). pose proof (dy_mono _ _ H). unfold LiveX. split; [exact A|]. split; [exact B|]. split; [exact C0|].
  split; [exact D0|]. split; [lia|]. split; [lia|]. split; [intros R; specialize (F0 R); split; [lia|apply F0]|].
  split; [intros t s I N; specialize (F1 t s I N); lia|]. unfold base_live in *.
  destruct (map_get (fs w) (base c)) as [[g|]|]; try apply G. destruct G as (G1 & G2 & G3 & G4 & G5). repeat (split; [first [assumption|lia]|]). exact G5.
Qed.
Lemma live_same gs cur L q T w w' : fs w' = fs w -> is_open w' = is_open w -> buf w' = buf w -> last_rotation w' = last_rotation w ->
  LiveX gs cur L q T w -> LiveX gs cur L q T w'.
Proof. intros A B C0 D0. unfold LiveX. rewrite A, B, C0, D0. auto. Qed.

(* a directory in which only names without a group change *)
Lemma groups_other gs L f f' : (forall d, 0 <= d < L -> map_get f' (archive c d) = map_get f (archive c d)) -> groups_ok gs L f -> groups_ok gs L f'.
Proof.
  intros H (A & B & C0). split; [exact A|]. split; [exact B|]. intros d ls I. destruct (C0 d ls I) as (D0 & (x & (t & E) & M) & G).
  split; [exact D0|]. split; [|exact G]. exists x. split; [|exact M]. exists t. rewrite H by exact D0. exact E.
Qed.
Lemma groups_le gs L L' f : L <= L' -> groups_ok gs L f -> groups_ok gs L' f.
Proof. intros H (A & B & C0). split; [exact A|]. split; [exact B|]. intros d ls I. destruct (C0 d ls I) as (D0 & G). split; [lia|exact G]. Qed.

(* the log file changes *)
Lemma put_base gs L f g : sorted f -> nodir f -> groups_ok gs L f ->
  let f' := map_put f (base c) (File g) in sorted f' /\ nodir f' /\ groups_ok gs L f' /\ map_get f' (base c) = Some (File g).
Proof.
  intros A B D0 f'. split; [apply map_put_sorted; exact A|]. split.
  - intros X ext. unfold f'. rewrite map_get_put by exact A. destruct (list_eq_dec ascii_dec (base c ++ ext) (base c)); [discriminate|exact (B X ext)].
  - split; [|apply get_put_eq; exact A]. apply (groups_other gs L f); [|exact D0]. intros d _. apply get_put_ne; [exact A|apply archive_not_base].
Qed.

Lemma write_ok gs cur L q T t w n : T <= t -> is_open w = true -> LiveX gs cur L q T w ->
  let w' := write_out c w n t in
  LiveX gs cur L q t w' /\ (q = true -> Tr (concat (map snd gs) ++ cur) T w -> Tr (concat (map snd gs) ++ cur) t w') /\
  ((length (buf w) <= n)%nat -> buf w' = []) /\ is_open w' = true /\ last_rotation w' = last_rotation w.
Proof.
  intros HT Ho Lv. pose proof (live_mono _ _ _ _ _ _ _ HT Lv) as Lv'. unfold write_out.
  destruct (firstn n (buf w)) as [|a x] eqn:Ex.
  { cbv zeta. split; [exact Lv'|]. split; [intros -> R; apply (tr_mono _ _ _ _ HT R)|]. split; [|auto].
    intros Ln. rewrite firstn_all2 in Ex by exact Ln. exact Ex. }
  rewrite <- Ex. assert (Nb : buf w <> []) by (intros Q; rewrite Q, firstn_nil in Ex; discriminate).
  destruct Lv' as (A & B & C0 & D0 & E & E' & F0 & F1 & G). unfold base_live in G. destruct (map_get (fs w) (base c)) as [[g|]|] eqn:Eg.
  2-3: destruct G as (_ & G); congruence.
  destruct (put_base gs L (fs w) (mkF (f_text g ++ firstn n (buf w)) t) A B D0) as (P1 & P2 & P3 & P4).
  destruct G as (G1 & G2 & G3 & G4 & G5). cbv zeta.
  assert (LX : LiveX gs cur L q t (set_buf (set_fs w (map_put (fs w) (base c) (File (mkF (f_text g ++ firstn n (buf w)) t)))) (skipn n (buf w)))).
  { unfold LiveX. cbn [fs is_open buf last_rotation set_buf set_fs]. split; [exact P1|]. split; [exact P2|]. split; [congruence|]. split; [exact P3|].
    split; [exact E|]. split; [exact E'|]. split; [exact F0|]. split; [exact F1|]. unfold base_live. rewrite P4. cbn [f_text f_time].
    split; [rewrite <- app_assoc, firstn_skipn; exact G1|]. split; [lia|]. split; [lia|]. split; [intros _; exact F1|].
    intros Q k. rewrite <- app_assoc. replace (firstn n (buf w) ++ firstn k (skipn n (buf w))) with (firstn (n + k) (buf w)); [apply (G5 Q)|].
    rewrite <- (firstn_skipn n (firstn (n + k) (buf w))), firstn_firstn, firstn_skipn_comm. do 2 f_equal. lia. }
  split; [exact LX|]. split.
  - intros -> R. apply (tr_step gs cur L T t w); [exact HT|exact LX|right; reflexivity|exact R].
  - split; [|auto]. cbn [buf set_buf]. intros Ln. apply skipn_all2. exact Ln.
Qed.

(* text that is not counted *)
Lemma add_extra gs cur L q T w s : is_open w = true -> s = reopened \/ In s torn -> LiveX gs cur L q T w -> LiveX gs cur L q T (set_buf w (buf w ++ s)).
Proof.
  intros Ho Hs (A & B & C0 & D0 & E & E' & F0 & F1 & G). unfold LiveX. cbn [fs is_open buf last_rotation set_buf].
  repeat (split; [first [assumption|congruence]|]). unfold base_live in *.
  destruct (map_get (fs w) (base c)) as [[g|]|]; try apply G. destruct G as (G1 & G2 & G3 & G4 & G5).
  split; [rewrite app_assoc; apply (M_extra torn _ _ s s []); [exact G1|symmetry; apply app_nil_r|exact Hs]|]. split; [exact G2|]. split; [exact G3|].
  split; [intros [Q|Q]; [apply G4; auto|]; apply app_eq_nil in Q; apply G4; right; apply Q|].
  intros Q n. rewrite firstn_app, app_assoc. apply (M_extra torn _ _ s _ (skipn (n - length (buf w)) s)); [exact (G5 Q n)|symmetry; apply firstn_skipn|exact Hs].
Qed.
Lemma add_line gs cur L q T w t1 s : is_open w = true -> t1 <= T -> (rotate c = true -> last_rotation w = dy t1) -> LiveX gs cur L q T w ->
  LiveX gs (cur ++ [(t1, s)]) L false T (set_buf w (buf w ++ s)).
Proof.
  intros Ho Ht Hl (A & B & C0 & D0 & E & E' & F0 & F1 & G). unfold LiveX. cbn [fs is_open buf last_rotation set_buf]. pose proof (dy_mono _ _ Ht) as Hd.
  assert (Cv : forall d, covered cur d -> (s <> [] -> dy t1 <= d) -> covered (cur ++ [(t1, s)]) d).
  { intros d H H' t x I N. apply in_app_or in I. destruct I as [I|[I|[]]]; [exact (H t x I N)|]. injection I as <- <-. exact (H' N). }
  split; [exact A|]. split; [exact B|]. split; [congruence|]. split; [exact D0|]. split; [exact E|]. split; [exact E'|]. split.
  { intros R. destruct (F0 R) as (X1 & X2 & X3). split; [exact X1|]. split; [apply Cv; [exact X2|rewrite (Hl R); lia]|].
    intros X t x I. apply in_app_or in I. destruct I as [I|[I|[]]]; [exact (X3 X t x I)|]. injection I as <- <-. symmetry. exact (Hl R). }
  split; [apply Cv; [exact F1|lia]|]. unfold base_live in *.
  destruct (map_get (fs w) (base c)) as [[g|]|]; [|destruct G; congruence..]. destruct G as (G1 & G2 & G3 & G4 & G5).
  split; [rewrite map_app, app_assoc; apply M_line; exact G1|]. split; [exact G2|]. split; [exact G3|].
  split; [|discriminate]. intros [Q|Q]; [discriminate|]. apply app_eq_nil in Q. apply Cv; [apply G4; right; apply Q|]. intros N. destruct (N (proj2 Q)).
Qed.

Lemma emit_extra gs cur L q T t w s : T <= t -> is_open w = true -> s = reopened \/ In s torn -> LiveX gs cur L q T w ->
  let w' := emit c y w s t in
  LiveX gs cur L q t w' /\ (q = true -> Tr (concat (map snd gs) ++ cur) T w -> Tr (concat (map snd gs) ++ cur) t w') /\
  is_open w' = true /\ last_rotation w' = last_rotation w.
Proof.
  intros HT Ho Hs Lv. cbv zeta. unfold emit. pose proof (add_extra _ _ _ _ _ _ s Ho Hs Lv) as La.
  destruct (write_ok _ _ _ _ _ t (set_buf w (buf w ++ s)) (early y (tick (set_buf w (buf w ++ s)))) HT Ho La) as (A & B & _ & D0 & E).
  split; [exact (live_same _ _ _ _ _ _ _ eq_refl eq_refl eq_refl eq_refl A)|]. split; [exact B|]. split; [exact D0|exact E].
Qed.
Lemma flush_ok gs cur L q T t w : T <= t -> is_open w = true -> LiveX gs cur L q T w ->
  let w' := flush c w t in
  LiveX gs cur L true t w' /\ (q = true -> Tr (concat (map snd gs) ++ cur) T w -> Tr (concat (map snd gs) ++ cur) t w') /\
  buf w' = [] /\ is_open w' = true /\ last_rotation w' = last_rotation w.
Proof.
  intros HT Ho Lv. cbv zeta. unfold flush. destruct (write_ok _ _ _ _ _ t _ (length (buf w)) HT Ho Lv) as (A & B & C0 & D0 & E).
  specialize (C0 (le_n _)). split; [apply (live_upgrade _ _ _ q); assumption|auto].
Qed.
Lemma close_ok gs cur L q T t w : T <= t -> LiveX gs cur L q T w ->
  let w' := closeLogFile c w t in
  LiveX gs cur L true t w' /\ (q = true -> Tr (concat (map snd gs) ++ cur) T w -> Tr (concat (map snd gs) ++ cur) t w') /\
  buf w' = [] /\ is_open w' = false /\ last_rotation w' = last_rotation w.
Proof.
  intros HT Lv. cbv zeta. unfold closeLogFile. destruct (is_open w) eqn:Ho.
  - destruct (flush_ok _ _ _ _ _ t _ HT Ho Lv) as (A & B & C0 & D0 & E). split; [|split; [exact B|auto]].
    destruct A as (A1 & A2 & A3 & A4 & A5 & A6 & A7 & A8 & A9). unfold LiveX. cbn [fs is_open buf last_rotation set_open].
    repeat (split; [first [assumption|auto]|]). unfold base_live in *. destruct (map_get _ (base c)) as [[g|]|]; [exact A9|split; [apply A9|reflexivity]..].
  - assert (Eb : buf w = []) by (apply Lv; exact Ho). split; [apply (live_upgrade _ _ _ q); [exact Eb|apply (live_mono _ _ _ _ T); assumption]|].
    split; [intros _; apply tr_mono; exact HT|auto].
Qed.

Lemma append_ok gs cur L q T t w : T <= t -> LiveX gs cur L q T w ->
  let (w', ok) := open_append c y w t in
  LiveX gs cur L q t w' /\ (q = true -> Tr (concat (map snd gs) ++ cur) T w -> Tr (concat (map snd gs) ++ cur) t w') /\
  buf w' = buf w /\ is_open w' = is_open w /\ last_rotation w' = last_rotation w /\ (ok = true -> exists g, map_get (fs w') (base c) = Some (File g)) /\ (clean = true -> ok = true).
Proof.
  intros HT Lv. pose proof (live_mono _ _ _ _ _ _ _ HT Lv) as Lv'. assert (Lw : LiveX gs cur L q t (next w)) by exact (live_same _ _ _ _ _ w (next w) eq_refl eq_refl eq_refl eq_refl Lv').
  unfold open_append, ask. destruct (fails y (tick w)) eqn:Ef.
  { cbn [fs next buf is_open last_rotation]. split; [exact Lw|]. split; [intros _; exact (tr_mono _ T t w HT)|]. repeat (split; [reflexivity|]). split; [discriminate|].
    intros X. rewrite (HC X) in Ef. discriminate. }
  destruct (map_get (fs (next w)) (base c)) as [[g|]|] eqn:Eg.
  - split; [exact Lw|]. split; [intros _; exact (tr_mono _ T t w HT)|]. repeat (split; [reflexivity|]). split; [intros _; exists g; exact Eg|reflexivity].
  - split; [exact Lw|]. split; [intros _; exact (tr_mono _ T t w HT)|]. repeat (split; [reflexivity|]). split; [discriminate|].
    intros X. destruct Lv as (_ & B & _). specialize (B X []). rewrite app_nil_r in B. destruct (B Eg).
  - assert (LX : LiveX gs cur L q t (set_fs (next w) (map_put (fs (next w)) (base c) (File (mkF [] t))))).
    { destruct Lw as (A & B & C0 & D0 & E & E' & F0 & F1 & G). unfold base_live in G. rewrite Eg in G. destruct G as (Ec & Eo).
      destruct (put_base gs L (fs (next w)) (mkF [] t) A B D0) as (P1 & P2 & P3 & P4).
      unfold LiveX. cbn [fs is_open buf last_rotation set_fs next] in *. repeat (split; [assumption|]). unfold base_live. rewrite P4. cbn [f_text f_time]. rewrite (C0 Eo), Ec. cbn [app map].
      split; [constructor|]. split; [lia|]. split; [lia|]. split; [intros _ ? ? []|]. intros _ n. rewrite firstn_nil. constructor. }
    split; [exact LX|]. split; [intros -> R; apply (tr_step gs cur L T t (next w)); [exact HT|exact LX|right; reflexivity|exact R]|].
    repeat (split; [reflexivity|]). split; [|reflexivity]. intros _. eexists. cbn [fs set_fs]. apply get_put_eq. apply Lw.
Qed.
Lemma set_open_ok gs cur L q T w g : map_get (fs w) (base c) = Some (File g) -> LiveX gs cur L q T w -> LiveX gs cur L q T (set_open w true).
Proof.
  intros Eg (A & B & C0 & D0 & E & E' & F0 & F1 & G). unfold LiveX. cbn [fs is_open buf last_rotation set_open].
  repeat (split; [first [assumption|discriminate]|]). unfold base_live in *. rewrite Eg in *. exact G.
Qed.
Lemma drop_buf gs cur L T w : LiveX gs cur L true T w -> LiveX gs cur L true T (set_buf w []).
Proof.
  intros (A & B & C0 & D0 & E & E' & F0 & F1 & G). unfold LiveX. cbn [fs is_open buf last_rotation set_buf].
  repeat (split; [first [assumption|auto]|]). unfold base_live in *. destruct (map_get (fs w) (base c)) as [[g|]|]; try apply G.
  destruct G as (G1 & G2 & G3 & G4 & G5). specialize (G5 eq_refl 0%nat) as G6. cbn [firstn] in G6.
  split; [exact G6|]. split; [exact G2|]. split; [exact G3|]. split; [intros _; apply G4; left; reflexivity|]. intros _ n. rewrite firstn_nil. exact G6.
Qed.
Lemma open_ok gs cur L T t w : T <= t -> LiveX gs cur L true T w ->
  let w' := openLogFile c y w t in
  LiveX gs cur L true t w' /\ (Tr (concat (map snd gs) ++ cur) T w -> Tr (concat (map snd gs) ++ cur) t w') /\ last_rotation w' = last_rotation w /\
  (clean = true -> is_open w' = true).
Proof.
  intros HT Lv. cbv zeta. unfold openLogFile.
  assert (On : forall v, LiveX gs cur L true T v -> buf v = [] -> last_rotation v = last_rotation w -> trace v = trace w ->
    let (w1, ok) := open_append c y v t in
    (ok = true -> let w' := emit c y (set_open w1 true) banner t in
       LiveX gs cur L true t w' /\ (Tr (concat (map snd gs) ++ cur) T w -> Tr (concat (map snd gs) ++ cur) t w') /\ is_open w' = true /\ last_rotation w' = last_rotation w) /\
    (LiveX gs cur L true t w1 /\ (Tr (concat (map snd gs) ++ cur) T w -> Tr (concat (map snd gs) ++ cur) t w1) /\ buf w1 = [] /\ is_open w1 = is_open v /\ last_rotation w1 = last_rotation w) /\
    (clean = true -> ok = true)).
  { intros v Lb Eb El Et. pose proof (append_ok _ _ _ _ _ t _ HT Lb) as Ap. destruct (open_append c y v t) as (w1, ok).
    destruct Ap as (A & B & C0 & D0 & E & F0 & G). assert (Tv : Tr (concat (map snd gs) ++ cur) T w -> Tr (concat (map snd gs) ++ cur) T v) by (unfold Tr; rewrite Et; auto).
    split; [|split; [|exact G]].
    - intros Q. destruct (F0 Q) as (g & Eg). pose proof (set_open_ok _ _ _ _ _ _ g Eg A) as Lo.
      destruct (emit_extra _ _ _ _ _ t (set_open w1 true) banner (Z.le_refl t) eq_refl (or_introl banner_reopened) Lo) as (X1 & X2 & X3 & X4). cbv zeta.
      split; [exact X1|]. split; [intros R; apply (X2 eq_refl); exact (B eq_refl (Tv R))|]. split; [exact X3|]. rewrite X4. exact (eq_trans E El).
    - split; [exact A|]. split; [intros R; exact (B eq_refl (Tv R))|]. split; [congruence|]. split; [exact D0|congruence]. }
  destruct (how c).
  1, 2: destruct (is_open w) eqn:Eo; [split; [apply (live_mono _ _ _ _ T); assumption|]; split; [apply tr_mono; exact HT|auto]|].
  1, 2: assert (Eb : buf w = []) by (apply Lv; exact Eo); pose proof (On w Lv Eb eq_refl eq_refl) as O1;
    destruct (open_append c y w t) as (w1, ok); destruct O1 as (O1 & (A & B & D0 & E & F0) & G);
    destruct ok; [|split; [exact A|]; split; [exact B|]; split; [exact F0|]; intros X; discriminate (G X)];
    assert (Es : set_buf w1 [] = w1) by (clear - D0; destruct w1 as [? ? ? bb ? ?]; cbn in D0; subst bb; reflexivity); rewrite Es;
    destruct (O1 eq_refl) as (X1 & X2 & X3 & X4);
    destruct (flush_ok _ _ _ _ _ t _ (Z.le_refl t) X3 X1) as (Y1 & Y2 & Y3 & Y4 & Y5);
    split; [exact Y1|]; split; [intros R; apply (Y2 eq_refl); exact (X2 R)|]; split; [congruence|]; intros _; exact Y4.
  pose proof (On (set_buf w []) (drop_buf _ _ _ _ _ Lv) eq_refl eq_refl eq_refl) as O1.
  destruct (open_append c y (set_buf w []) t) as (w1, ok). destruct O1 as (O1 & (A & B & D0 & E & F0) & G). destruct ok.
  - destruct (O1 eq_refl) as (X1 & X2 & X3 & X4). split; [exact X1|]. split; [exact X2|]. split; [exact X4|]. intros _. exact X3.
  - split; [|split; [exact B|split; [exact F0|intros X; discriminate (G X)]]].
    destruct A as (A1 & A2 & A3 & A4 & A5 & A6 & A7 & A8 & A9). unfold LiveX. cbn [fs is_open buf last_rotation set_open].
    repeat (split; [first [assumption|auto]|]). unfold base_live in *. destruct (map_get _ (base c)) as [[g|]|]; [exact A9|split; [apply A9|reflexivity]..].
Qed.
(* ---- rotation ---- *)
Lemma archive_ne d d' : 0 <= d < d' -> d' < 2932897 -> archive c d <> archive c d'.
Proof. intros A B E. apply archive_inj in E; lia. Qed.
Lemma archive_ext d : exists ext, archive c d = base c ++ ext.
Proof. destruct (archive_form (base c) (zips c) d) as (ext & E & _). exists ext. exact E. Qed.
Lemma asc_snoc l d : ascending l -> (forall x, In x l -> x < d) -> ascending (l ++ [d]).
Proof.
  induction l as [|x l IH]; cbn [ascending app]; intros A B; [split; [intros ? []|exact I]|]. destruct A as (A1 & A2). split.
  - intros z I0. apply in_app_or in I0. destruct I0 as [I0|[<-|[]]]; [exact (A1 z I0)|]. apply B. left. reflexivity.
  - apply IH; [exact A2|]. intros z I0. apply B. right. exact I0.
Qed.
Lemma all_snoc (gs : list (Z * list line)) d cur : concat (map snd (gs ++ [(d, cur)])) ++ [] = concat (map snd gs) ++ cur.
Proof. rewrite map_app, concat_app. cbn [map snd concat]. rewrite !app_nil_r. reflexivity. Qed.
Lemma moved gs cur L T w w3 C1 g : LiveX gs cur L true T w -> is_open w = false -> rotate c = true -> map_get (fs w) (base c) = Some (File g) ->
  last_rotation w < C1 <= dy T -> sorted (fs w3) -> nodir (fs w3) -> is_open w3 = false -> buf w3 = [] -> last_rotation w3 = C1 ->
  map_get (fs w3) (base c) = None -> text_of (fs w3) (archive c (last_rotation w)) (f_text g) ->
  (forall d, 0 <= d < last_rotation w -> map_get (fs w3) (archive c d) = map_get (fs w) (archive c d)) ->
  LiveX (gs ++ [(last_rotation w, cur)]) [] C1 true T w3.
Proof.
  intros (A & B & C0 & D0 & E & E' & F0 & F1 & G) Eo Er Eg Hd S3 N3 O3 B3 L3 G3 T3 K3. destruct (F0 Er) as (F2 & F3 & F4).
  unfold LiveX. rewrite O3, B3, L3. split; [exact S3|]. split; [exact N3|]. split; [reflexivity|]. split.
  { assert (D0' : groups_ok gs (last_rotation w) (fs w)) by (apply (groups_le _ L); [lia|exact D0]). apply (groups_other _ _ _ (fs w3)) in D0'; [|exact K3]. destruct D0' as (D1 & D2 & D3).
    split; [|split; [rewrite Er; discriminate|]].
    - rewrite map_app. apply asc_snoc; [exact D1|]. intros x I0. apply in_map_iff in I0. destruct I0 as ((x', ls) & <- & I0). apply (D3 _ _ I0).
    - intros d ls I0. apply in_app_or in I0. destruct I0 as [I0|[I0|[]]].
      + destruct (D3 d ls I0) as (X1 & X2). split; [lia|exact X2].
      + injection I0 as <- <-. split; [lia|]. split; [|split; assumption]. exists (f_text g). split; [exact T3|].
        unfold base_live in G. rewrite Eg, (C0 Eo), app_nil_r in G. apply G. }
  split; [lia|]. split; [exact E'|]. split; [intros _; split; [lia|split; [intros ? ? []|intros ? ? ? []]]|]. split; [intros ? ? []|].
  unfold base_live. rewrite G3. auto.
Qed.
Lemma stayed gs cur L T w w3 C1 : LiveX gs cur L true T w -> is_open w = false -> rotate c = true ->
  last_rotation w < C1 <= dy T -> sorted (fs w3) -> nodir (fs w3) -> is_open w3 = false -> buf w3 = [] -> last_rotation w3 = C1 ->
  map_get (fs w3) (base c) = map_get (fs w) (base c) \/ (cur = [] /\ map_get (fs w3) (base c) = None) ->
  (forall d, 0 <= d < L -> map_get (fs w3) (archive c d) = map_get (fs w) (archive c d)) -> (exact = true -> cur = []) ->
  LiveX gs cur L true T w3.
Proof.
  intros (A & B & C0 & D0 & E & E' & F0 & F1 & G) Eo Er Hd S3 N3 O3 B3 L3 G3 K3 X3. destruct (F0 Er) as (F2 & F3 & F4).
  unfold LiveX. rewrite O3, B3, L3. split; [exact S3|]. split; [exact N3|]. split; [reflexivity|]. split; [exact (groups_other _ _ _ _ K3 D0)|].
  split; [exact E|]. split; [exact E'|]. split.
  { intros _. split; [lia|]. split; [intros t s I0 N; specialize (F3 t s I0 N); lia|]. intros X t s I0. rewrite (X3 X) in I0. destruct I0. }
  split; [exact F1|]. unfold base_live in *. destruct G3 as [->|(-> & ->)]; [|auto]. rewrite Eo, (C0 Eo) in G. exact G.
Qed.
Lemma put_foreign gs cur L q T w d g : L <= d < 2932897 -> LiveX gs cur L q T w -> LiveX gs cur L q T (set_fs w (map_put (fs w) (archive c d) (File g))).
Proof.
  intros Hd (A & B & C0 & D0 & E & E' & F0 & F1 & G). unfold LiveX. cbn [fs is_open buf last_rotation set_fs]. split; [apply map_put_sorted; exact A|].
  split; [intros X ext; rewrite map_get_put by exact A; destruct (list_eq_dec ascii_dec _ _); [discriminate|exact (B X ext)]|]. split; [exact C0|].
  split; [apply (groups_other gs L (fs w)); [|exact D0]; intros d' Hd'; apply get_put_ne; [exact A|apply archive_ne; lia]|].
  repeat (split; [assumption|]). unfold base_live in *. rewrite get_put_ne; [exact G|exact A|]. intros Q. symmetry in Q. exact (archive_not_base _ _ _ Q).
Qed.
Lemma live_sorted gs cur L q T w : LiveX gs cur L q T w -> sorted (fs w).
Proof. intros H. apply H. Qed.
Lemma live_nodir gs cur L q T w : LiveX gs cur L q T w -> nodir (fs w).
Proof. intros H. apply H. Qed.

Lemma rotate_dir gs cur L T w C1 ext : LiveX gs cur L true T w -> is_open w = false -> rotate c = true ->
  last_rotation w < C1 <= dy T -> dy T < 2932897 -> time_str (last_rotation w) = Ok ext ->
  let w3 := set_last (match how c with
                      | Zip => unlink y (zipFile y w (base c) (base c ++ ext ++ $".gz") T) (base c)
                      | _ => rename y w (base c) (base c ++ ext)
                      end) C1 in
  exists gs' cur' L', concat (map snd gs') ++ cur' = concat (map snd gs) ++ cur /\ LiveX gs' cur' L' true T w3 /\
    (Tr (concat (map snd gs) ++ cur) T w -> Tr (concat (map snd gs) ++ cur) T w3) /\ last_rotation w3 = C1.
Proof.
  intros Lv Eo Er Hd HT Ets. pose proof Lv as (A & B & C0 & D0 & E & E' & F0 & F1 & G). destruct (F0 Er) as (F2 & F3 & F4).
  destruct (time_str_ok (last_rotation w) ltac:(lia)) as (ext' & Ex & Ex1 & Ex2). assert (ext' = ext) by congruence. subst ext'. clear Ex.
  set (l := last_rotation w) in *.
  assert (Ren : how c <> Zip -> exists gs' cur' L', concat (map snd gs') ++ cur' = concat (map snd gs) ++ cur /\ LiveX gs' cur' L' true T (set_last (rename y w (base c) (base c ++ ext)) C1) /\
    (Tr (concat (map snd gs) ++ cur) T w -> Tr (concat (map snd gs) ++ cur) T (set_last (rename y w (base c) (base c ++ ext)) C1)) /\
    last_rotation (set_last (rename y w (base c) (base c ++ ext)) C1) = C1).
  { intros Nz. assert (Ea : base c ++ ext = archive c l) by (rewrite Ex1; unfold archive, zips; destruct (how c); congruence). rewrite Ea.
    assert (Same : (exact = true -> cur = []) -> exists gs' cur' L', concat (map snd gs') ++ cur' = concat (map snd gs) ++ cur /\ LiveX gs' cur' L' true T (set_last (next w) C1) /\
      (Tr (concat (map snd gs) ++ cur) T w -> Tr (concat (map snd gs) ++ cur) T (set_last (next w) C1)) /\ C1 = C1).
    { intros X. exists gs, cur, L. split; [reflexivity|]. split; [|split; [intros R; exact R|reflexivity]].
      apply (stayed gs cur L T w (set_last (next w) C1) C1 Lv Eo Er Hd A B Eo (C0 Eo) eq_refl (or_introl eq_refl)); auto. }
    unfold rename, ask. cbn [fs next]. destruct (fails y (tick w)) eqn:Ef; [apply Same; intros X; rewrite (HC (HX X)) in Ef; discriminate|].
    destruct (map_get (fs w) (base c)) as [n|] eqn:Eg.
    2: { apply Same. intros _. unfold base_live in G. rewrite Eg in G. apply G. }
    destruct (map_get (fs w) (archive c l)) as [[g'|]|] eqn:Et.
    2: { apply Same. intros X. destruct (archive_ext l) as (e & He). rewrite He in Et. destruct (B (HX X) e Et). }
    all: assert (Put : sorted (map_put (map_remove (fs w) (base c)) (archive c l) n)) by (apply map_put_sorted, remove_sorted; exact A);
      assert (Get : forall k, map_get (map_put (map_remove (fs w) (base c)) (archive c l) n) k =
         if list_eq_dec ascii_dec k (archive c l) then Some n else if list_eq_dec ascii_dec k (base c) then None else map_get (fs w) k)
        by (intros k; rewrite map_get_put by (apply remove_sorted; exact A); rewrite get_remove by exact A; reflexivity);
      assert (Ne : base c <> archive c l) by (intros Q; symmetry in Q; exact (archive_not_base _ _ _ Q));
      assert (Nd : nodir (map_put (map_remove (fs w) (base c)) (archive c l) n))
        by (intros X e; rewrite Get; destruct (list_eq_dec ascii_dec _ (archive c l)); [intros Q; injection Q as ->; specialize (B X []); rewrite app_nil_r in B; exact (B Eg)|];
            destruct (list_eq_dec ascii_dec _ (base c)); [discriminate|exact (B X e)]);
      assert (Gb : map_get (map_put (map_remove (fs w) (base c)) (archive c l) n) (base c) = None)
        by (rewrite Get; destruct (list_eq_dec ascii_dec (base c) (archive c l)); [contradiction|]; destruct (list_eq_dec ascii_dec (base c) (base c)); congruence);
      assert (Ga : map_get (map_put (map_remove (fs w) (base c)) (archive c l) n) (archive c l) = Some n)
        by (rewrite Get; destruct (list_eq_dec ascii_dec (archive c l) (archive c l)); congruence);
      assert (Gd : forall d, 0 <= d < l -> map_get (map_put (map_remove (fs w) (base c)) (archive c l) n) (archive c d) = map_get (fs w) (archive c d))
        by (intros d Hd'; rewrite Get; destruct (list_eq_dec ascii_dec (archive c d) (archive c l)) as [Q|]; [destruct (archive_ne d l) in Q; auto; lia|];
            destruct (list_eq_dec ascii_dec (archive c d) (base c)) as [Q|]; [destruct (archive_not_base _ _ _ Q)|reflexivity]);
      clear Get; set (f3 := map_put (map_remove (fs w) (base c)) (archive c l) n) in *;
      (destruct n as [g|];
       [assert (Lm : LiveX (gs ++ [(l, cur)]) [] C1 true T (set_last (set_fs (next w) f3) C1))
          by (apply (moved gs cur L T w (set_last (set_fs (next w) f3) C1) C1 g Lv Eo Er Eg Hd Put Nd Eo (C0 Eo) eq_refl Gb); [exists (f_time g); fold l; cbn [fs set_last set_fs]; destruct g; exact Ga|exact Gd]);
        exists (gs ++ [(l, cur)]), [], C1; split; [apply all_snoc|]; split; [exact Lm|]; split; [|reflexivity];
        intros R; rewrite <- (all_snoc gs l cur); apply (tr_step _ _ C1 T T (next w)); [lia|exact Lm|right; reflexivity|rewrite all_snoc; exact R]
       |assert (Ec : cur = []) by (unfold base_live in G; rewrite Eg in G; apply G);
        assert (Lm : LiveX gs cur L true T (set_last (set_fs (next w) f3) C1))
          by (apply (stayed gs cur L T w (set_last (set_fs (next w) f3) C1) C1 Lv Eo Er Hd Put Nd Eo (C0 Eo) eq_refl (or_intror (conj Ec Gb))); [intros d Hd'; apply Gd; lia|auto]);
        exists gs, cur, L; split; [reflexivity|]; split; [exact Lm|]; split; [|reflexivity];
        intros R; apply (tr_step _ _ L T T (next w)); [lia|exact Lm|right; reflexivity|exact R]]). }
  cbv zeta. destruct (how c) eqn:Eh; [apply Ren; discriminate| |apply Ren; discriminate]. clear Ren.
  specialize (HC (HZ eq_refl)) as Hf. assert (Cl : clean = true) by (apply HZ; reflexivity).
  assert (Ea : base c ++ ext ++ $".gz" = archive c l) by (rewrite Ex2; unfold archive, zips; rewrite Eh; reflexivity). rewrite Ea.
  assert (Nw : forall q' T' v, LiveX gs cur L q' T' v -> LiveX gs cur L q' T' (next v)) by (intros q' T' v; apply live_same; reflexivity).
  assert (Hl : L <= l < 2932897) by lia. assert (Ne : base c <> archive c l) by (intros Q; symmetry in Q; exact (archive_not_base _ _ _ Q)).
  set (all := concat (map snd gs) ++ cur) in *.
  assert (Pf : forall v x, LiveX gs cur L true T v -> LiveX gs cur L true T (set_fs v (map_put (fs v) (archive c l) (File x))) /\
     (Tr all T v -> Tr all T (set_fs v (map_put (fs v) (archive c l) (File x)))) /\
     map_get (fs (set_fs v (map_put (fs v) (archive c l) (File x)))) (archive c l) = Some (File x) /\
     forall k, k <> archive c l -> map_get (fs (set_fs v (map_put (fs v) (archive c l) (File x)))) k = map_get (fs v) k).
  { intros v x Lv0. pose proof (put_foreign _ _ _ _ _ _ l x Hl Lv0) as P. split; [exact P|].
    split; [intros R; apply (tr_step _ _ L T T v); [lia|exact P|right; reflexivity|exact R]|]. cbn [fs set_fs].
    split; [apply get_put_eq; apply Lv0|]. intros k N. apply get_put_ne; [apply Lv0|exact N]. }
  assert (Zf : forall g, map_get (fs w) (base c) = Some (File g) ->
    let v := zipFile y w (base c) (archive c l) T in LiveX gs cur L true T v /\ (Tr all T w -> Tr all T v) /\ is_open v = false /\ buf v = [] /\
    text_of (fs v) (archive c l) (f_text g) /\ forall k, k <> archive c l -> map_get (fs v) k = map_get (fs w) k).
  { intros g Eg. cbv zeta. unfold zipFile, ask. rewrite !Hf. cbn [fs next]. rewrite Eg.
    assert (Nd : map_get (fs w) (archive c l) <> Some Dir) by (destruct (archive_ext l) as (e & ->); apply (B Cl)).
    pose proof (Nw _ _ _ (Nw _ _ _ Lv)) as L2.
    destruct (Pf _ (mkF [] T) L2) as (P1 & P2 & P3 & P4). change (fs (next (next w))) with (fs w) in *.
    set (v1 := set_fs (next (next w)) (map_put (fs w) (archive c l) (File (mkF [] T)))) in *.
    change (map_put (fs w) (archive c l) (File (mkF [] T))) with (fs v1).
    destruct (Pf _ (mkF (firstn (early y (tick (next v1))) (f_text g)) T) (Nw _ _ _ P1)) as (Q1 & Q2 & Q3 & Q4). change (fs (next v1)) with (fs v1) in *.
    set (v2 := set_fs (next v1) (map_put (fs v1) (archive c l) (File (mkF (firstn (early y (tick (next v1))) (f_text g)) T)))) in *.
    destruct (Pf _ (mkF (f_text g) T) Q1) as (R1 & R2 & R3 & R4).
    assert (Goal : LiveX gs cur L true T (set_fs v2 (map_put (fs v2) (archive c l) (File (mkF (f_text g) T)))) /\
      (Tr all T w -> Tr all T (set_fs v2 (map_put (fs v2) (archive c l) (File (mkF (f_text g) T))))) /\
      is_open (set_fs v2 (map_put (fs v2) (archive c l) (File (mkF (f_text g) T)))) = false /\ buf (set_fs v2 (map_put (fs v2) (archive c l) (File (mkF (f_text g) T)))) = [] /\
      text_of (fs (set_fs v2 (map_put (fs v2) (archive c l) (File (mkF (f_text g) T))))) (archive c l) (f_text g) /\
      forall k, k <> archive c l -> map_get (fs (set_fs v2 (map_put (fs v2) (archive c l) (File (mkF (f_text g) T))))) k = map_get (fs w) k).
    { split; [exact R1|]. split; [intros R; apply R2, Q2; exact (P2 R)|]. split; [exact Eo|]. split; [exact (C0 Eo)|]. split; [exists T; exact R3|].
      intros k N. rewrite R4, Q4, P4 by exact N. reflexivity. }
    destruct (map_get (fs w) (archive c l)) as [[g'|]|]; [exact Goal|congruence|exact Goal]. }
  assert (Zn : map_get (fs w) (base c) = None ->
    let v := zipFile y w (base c) (archive c l) T in LiveX gs cur L true T v /\ (Tr all T w -> Tr all T v) /\ is_open v = false /\ buf v = [] /\
    forall k, k <> archive c l -> map_get (fs v) k = map_get (fs w) k).
  { intros Eg. cbv zeta. unfold zipFile, ask. rewrite !Hf. cbn [fs next]. rewrite Eg.
    assert (Nd : map_get (fs w) (archive c l) <> Some Dir) by (destruct (archive_ext l) as (e & ->); apply (B Cl)).
    pose proof (Nw _ _ _ (Nw _ _ _ Lv)) as L2.
    destruct (Pf _ (mkF [] T) L2) as (P1 & P2 & P3 & P4). change (fs (next (next w))) with (fs w) in *.
    set (v1 := set_fs (next (next w)) (map_put (fs w) (archive c l) (File (mkF [] T)))) in *.
    assert (Goal : LiveX gs cur L true T v1 /\ (Tr all T w -> Tr all T v1) /\ is_open v1 = false /\ buf v1 = [] /\
      forall k, k <> archive c l -> map_get (fs v1) k = map_get (fs w) k).
    { split; [exact P1|]. split; [exact P2|]. split; [exact Eo|]. split; [exact (C0 Eo)|]. exact P4. }
    destruct (map_get (fs w) (archive c l)) as [[g'|]|]; [exact Goal|congruence|exact Goal]. }
  destruct (map_get (fs w) (base c)) as [[g|]|] eqn:Eg.
  - destruct (Zf g eq_refl) as (Z1 & Z2 & Z3 & Z4 & Z5 & Z6). set (v := zipFile y w (base c) (archive c l) T) in *. clear Zf Zn Pf.
    unfold unlink, ask. rewrite Hf. cbn [fs next]. rewrite Z6 by exact Ne. rewrite Eg. pose proof (live_sorted _ _ _ _ _ _ Z1) as Sv.
    assert (Lm : LiveX (gs ++ [(l, cur)]) [] C1 true T (set_last (set_fs (next v) (map_remove (fs v) (base c))) C1)).
    { apply (moved gs cur L T w _ C1 g Lv Eo Er Eg Hd); cbn [fs set_last set_fs is_open buf last_rotation next]; auto.
      - apply remove_sorted. exact Sv.
      - intros X e. rewrite get_remove by exact Sv. destruct (list_eq_dec ascii_dec _ _); [discriminate|]. exact (live_nodir _ _ _ _ _ _ Z1 X e).
      - apply get_remove_eq. exact Sv.
      - destruct Z5 as (t & Z5). exists t. rewrite get_remove_ne; [exact Z5|exact Sv|]. intros Q. exact (Ne (eq_sym Q)).
      - intros d Hd'. rewrite get_remove_ne; [apply Z6; apply archive_ne; lia|exact Sv|apply archive_not_base]. }
    exists (gs ++ [(l, cur)]), [], C1. split; [apply all_snoc|]. split; [exact Lm|]. split; [|reflexivity]. intros R. specialize (Z2 R).
    unfold all. rewrite <- (all_snoc gs l cur). apply (tr_step _ _ C1 T T (next v)); [lia|exact Lm|right; reflexivity|rewrite all_snoc; exact Z2].
  - specialize (B Cl []). rewrite app_nil_r in B. destruct (B Eg).
  - destruct (Zn eq_refl) as (Z1 & Z2 & Z3 & Z4 & Z6). set (v := zipFile y w (base c) (archive c l) T) in *. clear Zf Zn Pf.
    unfold unlink, ask. rewrite Hf. cbn [fs next]. rewrite Z6 by exact Ne. rewrite Eg.
    exists gs, cur, L. split; [reflexivity|]. split; [|split; [intros R; exact (Z2 R)|reflexivity]].
    apply (stayed gs cur L T w _ C1 Lv Eo Er Hd); cbn [fs set_last is_open buf last_rotation next]; auto.
    + exact (live_sorted _ _ _ _ _ _ Z1).
    + exact (live_nodir _ _ _ _ _ _ Z1).
    + intros d Hd'. apply Z6. apply archive_ne; lia.
    + intros _. unfold base_live in G. rewrite Eg in G. apply G.
Qed.

(* ---- the functions of the class ---- *)
Hypothesis HK : delete_days c = None \/ dir_ok c = false.
Definition Live (all : list line) (q : bool) (T : Z) (w : log) : Prop := exists gs cur L, concat (map snd gs) ++ cur = all /\ LiveX gs cur L q T w.

Lemma rotate_ok all q T t1 t2 w : T <= t1 <= t2 -> t2 < 253402300800 -> Live all q T w ->
  exists w', rotateLogFile c y w t1 t2 = Fine w' /\ Live all q t2 w' /\ (q = true -> Tr all T w -> Tr all t2 w') /\
    (rotate c = true -> last_rotation w' = dy t1) /\ (clean = true -> is_open w = true -> is_open w' = true) /\ (is_open w = false -> is_open w' = false \/ buf w' = [] \/ q = true \/ Live all true t2 w').
Proof.
  intros Ht Hl (gs & cur & L & Ea & Lv). assert (H0 : 0 <= T) by apply Lv. unfold rotateLogFile.
  assert (Lm : Live all q t2 w) by (exists gs, cur, L; split; [exact Ea|apply (live_mono _ _ _ _ T); [lia|exact Lv]]).
  assert (Tm : Tr all T w -> Tr all t2 w) by (apply tr_mono; lia).
  destruct (rotate c) eqn:Er.
  2: { exists w. split; [reflexivity|]. split; [exact Lm|]. split; [intros _; exact Tm|]. split; [discriminate|]. auto. }
  rewrite day_of_dy by lia. destruct (Z.eqb_spec (last_rotation w) (dy t1)) as [El|Nl].
  { exists w. split; [reflexivity|]. split; [exact Lm|]. split; [intros _; exact Tm|]. split; [intros _; exact El|]. auto. }
  assert (Hd : L <= last_rotation w <= dy T) by (apply Lv; exact Er). assert (HL : 0 <= L) by apply Lv. pose proof (dy_mono T t1 ltac:(lia)). pose proof (dy_mono t1 t2 ltac:(lia)). pose proof (dy_limit t2 Hl).
  destruct (close_ok _ _ _ _ _ t2 _ (ltac:(lia) : T <= t2) Lv) as (A & B & C0 & D0 & E). set (w1 := closeLogFile c w t2) in *. rewrite Ea in B.
  destruct (time_str_ok (last_rotation w) ltac:(lia)) as (ext & Ex & _). rewrite Ex. rewrite <- E in Ex.
  destruct (rotate_dir gs cur L t2 w1 (dy t1) ext A D0 Er ltac:(lia) ltac:(lia) Ex) as (gs' & cur' & L' & F1 & F2 & F3 & F4).
  set (w2 := match how c with Zip => _ | _ => _ end) in *.
  replace (match delete_days c with Some n => if dir_ok c then delete_loop c y (24 * 3600 * (dy t1 - n)) (fs w2) w2 else (w2, true) | None => (w2, true) end) with (w2, true)
    by (destruct HK as [->| ->]; [reflexivity|destruct (delete_days c); reflexivity]).
  destruct (open_ok gs' cur' L' t2 t2 _ (Z.le_refl t2) F2) as (G1 & G2 & G3 & G4). rewrite F1, Ea in G2. rewrite Ea in F3. rewrite Ea in F1.
  eexists. split; [reflexivity|]. split; [exists gs', cur', L'; split; [exact F1|apply live_weaken; exact G1]|].
  split; [intros Q R; apply G2, F3; exact (B Q R)|]. split; [intros _; rewrite G3; exact F4|]. split; [intros X _; exact (G4 X)|].
  intros _. right. right. right. exists gs', cur', L'. split; [exact F1|exact G1].
Qed.

Lemma start_ok all T t1 t2 f n : 0 <= T -> T <= t1 <= t2 -> t2 < 253402300800 -> Rest all T f ->
  exists w, start c y f n t1 t2 = Fine w /\ Live all true t2 w /\ Tr all t2 w /\ (clean = true -> is_open w = true).
Proof.
  intros H0 Ht Hl Rs. pose proof Rs as (A & B & gs & cur & L & Ea & D0 & E & G). pose proof (dy_mono T t1 ltac:(lia)) as Hm. unfold start. cbv zeta.
  assert (T0 : forall w, trace w = [f] -> Tr all t1 w) by (intros w Ew X; rewrite Ew; constructor; [apply (rest_mono _ T); [lia|exact Rs]|constructor]).
  destruct (map_get f (base c)) as [[g|]|] eqn:Eg; unfold base_rest in G; rewrite Eg in G.
  2, 3: set (w := mkLog f [f] false [] (if rotate c then day_of t1 else 0) n);
    assert (Lv : LiveX gs cur L true t1 w) by
      (unfold LiveX; cbn [fs is_open buf last_rotation w]; split; [exact A|]; split; [exact B|]; split; [reflexivity|]; split; [exact D0|]; split; [lia|]; split; [lia|];
       split; [intros Er; rewrite Er, day_of_dy by lia; split; [lia|]; rewrite G; split; [intros ? ? []|intros ? ? ? []]|]; split; [rewrite G; intros ? ? []|];
       unfold base_live; rewrite Eg; auto);
    destruct (open_ok gs cur L t1 t2 w (ltac:(lia) : t1 <= t2) Lv) as (G1 & G2 & G3 & G4); rewrite Ea in G2;
    eexists; split; [reflexivity|]; split; [exists gs, cur, L; split; [exact Ea|exact G1]|]; split; [apply G2, T0; reflexivity|exact G4].
  destruct G as (G1 & G2 & G3 & G4 & G5). rewrite (day_of_dy (f_time g)) by lia.
  set (w := set_last (mkLog f [f] false [] (if rotate c then day_of t1 else 0) n) (dy (f_time g))). pose proof (dy_mono (f_time g) T ltac:(lia)) as Hg.
  assert (Lv : LiveX gs cur L true t1 w).
  { unfold LiveX; cbn [fs is_open buf last_rotation w set_last]. split; [exact A|]. split; [exact B|]. split; [reflexivity|]. split; [exact D0|]. split; [lia|]. split; [lia|].
    split; [intros _; split; [lia|]; split; assumption|]. split; [intros t s I0 N; specialize (G4 t s I0 N); lia|].
    unfold base_live. rewrite Eg, app_nil_r. split; [exact G1|]. split; [exact G2|]. split; [lia|]. split; [auto|]. intros _ k. rewrite firstn_nil, app_nil_r. exact G1. }
  destruct (rotate_ok all true t1 t1 t2 w ltac:(lia) Hl ltac:(exists gs, cur, L; split; [exact Ea|exact Lv])) as (w1 & R1 & (gs1 & cur1 & L1 & Ea1 & R2) & R3 & _).
  rewrite R1. destruct (open_ok gs1 cur1 L1 t2 t2 w1 (Z.le_refl t2) R2) as (X1 & X2 & X3 & X4). rewrite Ea1 in X2.
  eexists. split; [reflexivity|]. split; [exists gs1, cur1, L1; split; [exact Ea1|exact X1]|]. split; [apply X2, R3; [reflexivity|apply T0; reflexivity]|exact X4].
Qed.

(* a push: rotation and opening, then the line *)
Lemma push_open all q T t1 t2 w : T <= t1 <= t2 -> t2 < 253402300800 -> Live all q T w ->
  exists w', rotateLogFile c y w t1 t2 = Fine w' /\ let w2 := if is_open w' then w' else openLogFile c y w' t2 in
    Live all q t2 w2 /\ (q = true -> Tr all T w -> Tr all t2 w2) /\ (rotate c = true -> last_rotation w2 = dy t1) /\ (clean = true -> is_open w2 = true).
Proof.
  intros Ht Hl Lv. destruct (rotate_ok all q T t1 t2 w Ht Hl Lv) as (w' & R1 & R2 & R3 & R4 & _). exists w'. split; [exact R1|]. cbv zeta.
  destruct (is_open w') eqn:Eo; [split; [exact R2|]; split; [exact R3|]; split; [exact R4|auto]|].
  destruct R2 as (gs & cur & L & Ea & R2). assert (Eb : buf w' = []) by (apply R2; exact Eo).
  destruct (open_ok gs cur L t2 t2 w' (Z.le_refl t2) (live_upgrade _ _ _ _ _ _ Eb R2)) as (X1 & X2 & X3 & X4). rewrite Ea in X2.
  split; [exists gs, cur, L; split; [exact Ea|apply live_weaken; exact X1]|]. split; [intros Q R; apply X2; exact (R3 Q R)|].
  split; [intros Er; rewrite X3; exact (R4 Er)|exact X4].
Qed.
Lemma push_ok all T t1 t2 w s : T <= t1 <= t2 -> t2 < 253402300800 -> Live all (flushing c) T w ->
  exists w' b, push c y w t1 t2 s = (Fine w', b) /\ Live (if b then all ++ [(t1, s)] else all) (flushing c) t2 w' /\ (clean = true -> b = true) /\
    (In s torn -> flushing c = true -> exact = false -> Tr all T w -> Forall (Rest all t2) (trace w') /\ Rest all t2 (fs w')).
Proof.
  intros Ht Hl Lv. destruct (push_open all _ T t1 t2 w Ht Hl Lv) as (w' & R1 & P1 & P2 & P3 & P4). unfold push. rewrite R1.
  set (w2 := if is_open w' then w' else openLogFile c y w' t2) in *. destruct P1 as (gs & cur & L & Ea & P1). destruct (is_open w2) eqn:Eo.
  2: { exists w2, false. split; [reflexivity|]. split; [exists gs, cur, L; split; [exact Ea|exact P1]|]. split; [intros X; discriminate (P4 X)|].
       intros _ Q X R. rewrite Q in P1, P2. split; [exact (P2 eq_refl R X)|]. rewrite <- Ea. apply (live_rest gs cur L); assumption. }
  eexists _, true. split; [reflexivity|]. assert (El : emit c y w2 s t2 = next (write_out c (set_buf w2 (buf w2 ++ s)) (early y (tick w2)) t2)) by reflexivity. split; [|split; [reflexivity|]].
  - exists gs, (cur ++ [(t1, s)]), L. split; [rewrite app_assoc, Ea; reflexivity|].
    pose proof (add_line gs cur L _ t2 w2 t1 s Eo ltac:(lia) P3 P1) as La. rewrite El. clear El.
    destruct (write_ok gs _ L false t2 t2 (set_buf w2 (buf w2 ++ s)) (early y (tick w2)) (Z.le_refl t2) Eo La) as (W1 & _ & _ & W2 & _).
    set (w3 := write_out c (set_buf w2 (buf w2 ++ s)) (early y (tick w2)) t2) in *. destruct (flushing c) eqn:Ef.
    + apply (flush_ok gs _ L false t2 t2 (next w3) (Z.le_refl t2) W2). exact (live_same _ _ _ _ _ w3 (next w3) eq_refl eq_refl eq_refl eq_refl W1).
    + exact (live_same _ _ _ _ _ w3 (next w3) eq_refl eq_refl eq_refl eq_refl W1).
  - intros It Q X R. rewrite Q in *. clear El. specialize (P2 eq_refl R).
    destruct (emit_extra gs cur L true t2 t2 w2 s (Z.le_refl t2) Eo (or_intror It) P1) as (E1 & E2 & E3 & _).
    destruct (flush_ok gs cur L true t2 t2 _ (Z.le_refl t2) E3 E1) as (F1 & F2 & _). rewrite Ea in E2, F2. split; [exact (F2 eq_refl (E2 eq_refl P2) X)|].
    rewrite <- Ea. apply (live_rest gs cur L); assumption.
Qed.
Lemma stop_ok all T t w : exact = false -> T <= t -> Live all (flushing c) T w ->
  Rest all t (fs (closeLogFile c w t)) /\ (flushing c = true -> Tr all T w -> Forall (Rest all t) (trace (closeLogFile c w t))).
Proof.
  intros X Ht (gs & cur & L & Ea & Lv). destruct (close_ok _ _ _ _ _ t _ Ht Lv) as (A & B & _). rewrite Ea in B. split.
  - rewrite <- Ea. apply (live_rest gs cur L); assumption.
  - intros Q R. exact (B Q R X).
Qed.

Definition Inv (all : list line) (T : Z) (m : machine) : Prop :=
  match m with Running w => Live all (flushing c) T w | Halted f _ => Rest all T f | Wrong => False end.
Definition upm (m : machine) : bool := match m with Running _ => true | _ => false end.
Lemma killed_rest all T k w : Forall (Rest all T) (trace w) -> Rest all T (fs w) -> Inv all T (killed k w).
Proof.
  intros A B. unfold killed, Inv. destruct (nth_in_or_default k (rev (trace w)) (fs w)) as [I0| ->]; [|exact B].
  apply in_rev in I0. rewrite Forall_forall in A. exact (A _ I0).
Qed.
Lemma fresh_ok all T w : flushing c = true -> exact = false -> Live all (flushing c) T w -> Tr all T (fresh_trace w).
Proof. intros Q X (gs & cur & L & Ea & Lv) _. constructor; [|constructor]. rewrite Q in Lv. rewrite <- Ea. apply (live_rest gs cur L); assumption. Qed.
Lemma live_fresh all q T w : Live all q T w -> Live all q T (fresh_trace w).
Proof. intros (gs & cur & L & Ea & Lv). exists gs, cur, L. split; [exact Ea|]. exact (live_same _ _ _ _ _ w (fresh_trace w) eq_refl eq_refl eq_refl eq_refl Lv). Qed.

Lemma runs_ok l : forall m all T, exact = false -> 0 <= T -> Inv all T m -> orderly (upm m) l -> not_decreasing T (times l) ->
  (forall t, In t (times l) -> t < 253402300800) -> (flushing c = true \/ ~ crashes l) -> incl (torn_lines l) torn ->
  let (m', bs) := runs c y m l in
  exists T', Inv (all ++ written l bs) T' m' /\ (clean = true -> written l bs = pushed l) /\ length bs = length l.
Proof.
  induction l as [|(e, crash) l IH]; intros m all T X H0 Hi Ho Hm Hl Hc Ht; cbn [runs].
  { exists T. cbn [written]. rewrite app_nil_r. auto. }
  cbn [orderly] in Ho. destruct Ho as (Hu & Ho). unfold times in Hm, Hl. cbn [map concat fst] in Hm, Hl. fold (times l) in Hm, Hl.
  assert (Hc' : flushing c = true \/ ~ crashes l) by (destruct Hc as [Q|Q]; [auto|right; intros (e' & k & I0); apply Q; exists e', k; right; exact I0]).
  assert (Hcr : crash <> None -> flushing c = true) by (intros N; destruct Hc as [Q|Q]; [exact Q|]; destruct crash as [k|]; [|congruence]; destruct Q; exists e, k; left; reflexivity).
  assert (Ht' : incl (torn_lines l) torn) by (intros z I0; apply Ht; cbn [torn_lines]; destruct e, crash; try exact I0; right; exact I0).
  assert (Step : forall (T1 : Z) (b : bool), 0 <= T1 -> not_decreasing T1 (times l) -> (forall t, In t (times l) -> t < 253402300800) ->
     Inv (all ++ (if b then match e with Push t1 _ s => [(t1, s)] | _ => [] end else [])) T1 (fst (run c y m (e, crash))) -> snd (run c y m (e, crash)) = b ->
     upm (fst (run c y m (e, crash))) = match e, crash with Stop _, _ | _, Some _ => false | _, None => true end ->
     (clean = true -> match e, crash with Push _ _ _, None => b = true | _, _ => b = false end) ->
     let (m', bs) := (let (m1, b) := run c y m (e, crash) in let (m2, bs) := runs c y m1 l in (m2, b :: bs)) in
     exists T', Inv (all ++ written ((e, crash) :: l) bs) T' m' /\ (clean = true -> written ((e, crash) :: l) bs = pushed ((e, crash) :: l)) /\ length bs = length ((e, crash) :: l)).
  { intros T1 b H1 Hm1 Hl1 Hi1 Eb Eu Hp. destruct (run c y m (e, crash)) as (m1, b'). cbn [fst snd] in Hi1, Eb, Eu. subst b'.
    specialize (IH m1 _ T1 X H1 Hi1 ltac:(rewrite Eu; exact Ho) Hm1 Hl1 Hc' Ht'). destruct (runs c y m1 l) as (m2, bs). destruct IH as (T' & I1 & I2 & I3). exists T'.
    rewrite <- app_assoc in I1.
    assert (Ew : written ((e, crash) :: l) (b :: bs) = (if b then match e with Push t1 _ s => [(t1, s)] | _ => [] end else []) ++ written l bs)
      by (cbn [written]; destruct e, b; reflexivity).
    rewrite Ew. split; [exact I1|]. split; [|cbn [length]; rewrite I3; reflexivity]. intros Cl. rewrite (I2 Cl). specialize (Hp Cl). unfold pushed. cbn [map concat]. f_equal.
    destruct e, crash; rewrite Hp; reflexivity. }
  destruct m as [w|f n|]; [| |destruct Hi]; cbn [upm] in Hu; destruct e as [t1 t2|t1 t2 s|t2]; try discriminate Hu; cbn [times1 app not_decreasing] in Hm.
  - destruct Hm as (M1 & M2 & M3). assert (L2 : t2 < 253402300800) by (apply Hl; right; left; reflexivity).
    destruct (push_ok all T t1 t2 (fresh_trace w) s ltac:(lia) L2 (live_fresh _ _ _ _ Hi)) as (w' & b & E1 & E2 & E3 & E4).
    destruct crash as [k|].
    + assert (Fl : flushing c = true) by (apply Hcr; discriminate). destruct (E4 ltac:(apply Ht; left; reflexivity) Fl X (fresh_ok _ _ _ Fl X Hi)) as (F1 & F2).
      apply (Step t2 false); [lia|exact M3|intros t I0; apply Hl; right; right; exact I0|..]; unfold run; try rewrite E1; cbn [fst snd result_of]; auto.
      rewrite app_nil_r. apply killed_rest; assumption.
    + apply (Step t2 b); [lia|exact M3|intros t I0; apply Hl; right; right; exact I0|..]; unfold run; try rewrite E1; cbn [fst snd result_of]; auto.
      unfold Inv. destruct b; [exact E2|rewrite app_nil_r; exact E2].
  - destruct Hm as (M1 & M2). destruct (stop_ok all T t2 (fresh_trace w) X M1 (live_fresh _ _ _ _ Hi)) as (S1 & S2).
    destruct crash as [k|].
    + assert (Fl : flushing c = true) by (apply Hcr; discriminate).
      apply (Step t2 false); [lia|exact M2|intros t I0; apply Hl; right; exact I0|..]; unfold run; cbn [fst snd]; auto.
      rewrite app_nil_r. apply killed_rest; [apply S2; [exact Fl|exact (fresh_ok _ _ _ Fl X Hi)]|exact S1].
    + apply (Step t2 false); [lia|exact M2|intros t I0; apply Hl; right; exact I0|..]; unfold run; cbn [fst snd]; auto.
      rewrite app_nil_r. exact S1.
  - destruct Hm as (M1 & M2 & M3). assert (L2 : t2 < 253402300800) by (apply Hl; right; left; reflexivity).
    destruct (start_ok all T t1 t2 f n H0 ltac:(lia) L2 Hi) as (w & E1 & (gs & cur & L & Ea & E2) & E3 & _).
    destruct crash as [k|].
    + apply (Step t2 false); [lia|exact M3|intros t I0; apply Hl; right; right; exact I0|..]; unfold run; try rewrite E1; cbn [fst snd result_of]; auto.
      rewrite app_nil_r. apply killed_rest; [exact (E3 X)|]. rewrite <- Ea. apply (live_rest gs cur L); assumption.
    + apply (Step t2 false); [lia|exact M3|intros t I0; apply Hl; right; right; exact I0|..]; unfold run; try rewrite E1; cbn [fst snd result_of]; auto.
      rewrite app_nil_r. exists gs, cur, L. split; [exact Ea|apply live_weaken; exact E2].
Qed.

Lemma inv_kept all T m : Inv all T m -> m <> Wrong /\ kept c torn all m.
Proof.
  assert (Gr : forall gs L f, groups_ok gs L f -> ascending (map fst gs) /\ (rotate c = false -> gs = []) /\
    forall d ls, In (d, ls) gs -> (exists text, text_of f (archive c d) text /\ made_of torn (map snd ls) text) /\ forall t s, In (t, s) ls -> s <> [] -> dy t <= d).
  { intros gs L f (A & B & C0). split; [exact A|]. split; [exact B|]. intros d ls I0. destruct (C0 d ls I0) as (_ & E & F0 & _). split; [exact E|exact F0]. }
  destruct m as [w|f n|]; cbn [Inv]; [| |intros []].
  - intros (gs & cur & L & Ea & A & B & C0 & D0 & E & E' & F0 & F1 & G). split; [discriminate|]. exists gs, cur. split; [exact Ea|].
    destruct (Gr _ _ _ D0) as (X1 & X2 & X3). repeat (split; [assumption|]). unfold base_live in G. cbn [directory pending].
    destruct (map_get (fs w) (base c)) as [[[x t]|]|] eqn:Eg; [|left; apply G..]. right. exists x. cbn [f_text] in G. destruct G as (G1 & _ & _ & _ & G2).
    split; [exists t; exact Eg|]. split; [exact G1|]. intros Q. specialize (G2 Q 0%nat). cbn [firstn] in G2. rewrite app_nil_r in G2. exact G2.
  - intros (A & B & gs & cur & L & Ea & D0 & E & G). split; [discriminate|]. exists gs, cur. split; [exact Ea|].
    destruct (Gr _ _ _ D0) as (X1 & X2 & X3). repeat (split; [assumption|]). unfold base_rest in G. cbn [directory pending].
    destruct (map_get f (base c)) as [[[x t]|]|] eqn:Eg; [|left; apply G..]. right. exists x. cbn [f_text] in G. destruct G as (G1 & _).
    split; [exists t; exact Eg|]. rewrite app_nil_r. auto.
Qed.

Lemma initial T f : 0 <= T -> sorted f -> nodir f -> not_later c f T -> Rest (before c f) T f.
Proof.
  intros H0 A B N. split; [exact A|]. split; [exact B|]. exists [], (before c f). unfold before, not_later, base_rest in *.
  destruct (map_get f (base c)) as [[[x t]|]|]; cbn [f_text f_time map snd concat app] in *.
  - exists (dy t). split; [reflexivity|]. split; [split; [exact Logic.I|split; [reflexivity|intros ? ? []]]|]. pose proof (dy_nonneg t ltac:(lia)). pose proof (dy_mono t T ltac:(lia)).
    split; [lia|]. split; [apply (M_line torn [] [] x), M_nil|]. split; [lia|]. split; [lia|].
    split; [intros ? ? I0 _|intros _ ? ? I0]; destruct I0 as [I0|[]]; injection I0 as -> ->; lia.
  - exists 0. pose proof (dy_nonneg T H0). split; [reflexivity|]. split; [split; [exact Logic.I|split; [reflexivity|intros ? ? []]]|]. split; [lia|reflexivity].
  - exists 0. pose proof (dy_nonneg T H0). split; [reflexivity|]. split; [split; [exact Logic.I|split; [reflexivity|intros ? ? []]]|]. split; [lia|reflexivity].
Qed.
End Log.
