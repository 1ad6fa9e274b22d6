From Verif Require Import Base Text SMap IsoModel IsoSpec IsoProofs FileLogModel FileLogSpec FileLogProofs.
Local Open Scope Z_scope.

(* ---- one session without failures ---- *)
Section Session.
Variables (c : config) (y : sys) (torn : list str).
Hypothesis HC : forall k, fails y k = false.
Hypothesis Er : rotate c = true.
Hypothesis HK : delete_days c = None \/ dir_ok c = false.
Let HC' : true = true -> forall k, fails y k = false := fun _ => HC.
Let HZ' : how c = Zip -> true = true := fun _ => eq_refl.
Let HX' : true = true -> true = true := fun _ => eq_refl.

Lemma live_by_day all q T w : (flushing c = true -> q = true) -> Live c torn true true all q T w -> kept_by_day c torn all (Running w) /\ (buf w = [] -> forall n, kept_by_day c torn all (Halted (fs w) n)).
Proof.
  intros Hq (gs & cur & L & Ea & A & B & C0 & D0 & E & E' & F0 & F1 & G). destruct (F0 Er) as (F2 & F3 & F4). destruct D0 as (D1 & D2 & D3).
  assert (Asc : ascending (map fst gs ++ [last_rotation w])).
  { apply asc_snoc; [exact D1|]. intros x I0. apply in_map_iff in I0. destruct I0 as ((x', ls) & <- & I0). destruct (D3 _ _ I0) as (X & _). cbn [fst]. lia. }
  assert (Gr : forall d ls, In (d, ls) gs -> (exists text, text_of (fs w) (archive c d) text /\ made_of torn (map snd ls) text) /\ forall t s, In (t, s) ls -> day_number_of t = d).
  { intros d ls I0. destruct (D3 d ls I0) as (_ & X1 & _ & X2). split; [exact X1|exact (X2 eq_refl)]. }
  unfold base_live in G. split; [|intros Eb n]; exists gs, cur, (last_rotation w); (split; [exact Ea|]; split; [exact Asc|]; split; [exact Gr|]; split; [exact (F4 eq_refl)|]);
    cbn [directory pending]; (destruct (map_get (fs w) (base c)) as [[[x t]|]|] eqn:Eg; [|left; apply G..]); right; exists x; cbn [f_text] in G; destruct G as (G1 & _ & _ & _ & G2);
    (split; [exists t; exact Eg|]).
  - split; [exact G1|]. intros Q. specialize (G2 (Hq Q) 0%nat). cbn [firstn] in G2. rewrite app_nil_r in G2. exact G2.
  - rewrite Eb, app_nil_r in G1. rewrite app_nil_r. auto.
Qed.
Lemma session_ok l : forall w all T, Live c torn true true all (flushing c) T w -> 0 <= T -> only_pushes l -> not_decreasing T (times l) -> (forall t, In t (times l) -> t < 253402300800) ->
  exists w' bs T', runs c y (Running w) l = (Running w', bs) /\ bs = map (fun _ => true) l /\ Live c torn true true (all ++ pushed l) (flushing c) T' w' /\ (forall t, not_decreasing T (times l ++ [t]) -> T' <= t) /\ 0 <= T'.
Proof.
  induction l as [|e l IH]; intros w all T Lv H0 Hp Hm Hl.
  { exists w, [], T. cbn. rewrite app_nil_r. split; [reflexivity|]. split; [reflexivity|]. split; [exact Lv|]. split; [intros t (A & _); exact A|exact H0]. }
  destruct (Hp e (or_introl eq_refl)) as (t1 & t2 & s & ->). unfold times in Hm, Hl. cbn [map concat fst times1 app not_decreasing] in Hm, Hl. fold (times l) in Hm, Hl.
  destruct Hm as (M1 & M2 & M3). assert (L2 : t2 < 253402300800) by (apply Hl; right; left; reflexivity).
  destruct (push_ok c y torn true true HC' HZ' HX' HK all T t1 t2 (fresh_trace w) s ltac:(lia) L2 (live_fresh c torn true true _ _ _ _ Lv)) as (w' & b & E1 & E2 & E3 & _).
  rewrite (E3 eq_refl) in *. destruct (IH w' _ t2 E2 ltac:(lia) ltac:(intros e I0; apply Hp; right; exact I0) M3 ltac:(intros t I0; apply Hl; right; right; exact I0)) as (w2 & bs & T' & R1 & R2 & R3 & R4 & R5).
  exists w2, (true :: bs), T'. cbn [runs run]. rewrite E1. cbn [result_of]. rewrite R1. split; [reflexivity|]. split; [cbn [map]; rewrite R2; reflexivity|].
  split; [|split; [|exact R5]].
  - rewrite <- app_assoc in R3. exact R3.
  - intros t H. apply R4. unfold times in H. cbn [map concat fst times1 app not_decreasing] in H. apply H.
Qed.
End Session.

(* ---- other files ---- *)
Section Others.
Variables (c : config) (y : sys) (k : str) (n0 : option node) (G TR : Prop).
Hypothesis Nb : k <> base c.
Definition OKk (f : fsys) : Prop := sorted f /\ (map_get f k = n0 \/ (map_get f k = None /\ G)).
Definition W (w : log) : Prop := OKk (fs w) /\ (TR -> Forall OKk (trace w)).
Lemma W_same w w' : fs w' = fs w -> trace w' = trace w -> W w -> W w'.
Proof. unfold W. intros -> ->. auto. Qed.
Lemma W_set w f : OKk f -> W w -> W (set_fs w f).
Proof. intros A (B & D0). split; [exact A|]. cbn [trace set_fs]. intros X. constructor; [exact A|exact (D0 X)]. Qed.
Lemma put_k f j x : j <> k -> OKk f -> OKk (map_put f j x).
Proof. intros N (A & B). split; [apply map_put_sorted; exact A|]. rewrite get_put_ne by (auto; congruence). exact B. Qed.
Lemma remove_k f j : j <> k -> OKk f -> OKk (map_remove f j).
Proof. intros N (A & B). split; [apply remove_sorted; exact A|]. rewrite get_remove_ne by (auto; congruence). exact B. Qed.
Lemma W_write w n t : W w -> W (write_out c w n t).
Proof.
  intros H. unfold write_out. destruct (firstn n (buf w)); [exact H|]. destruct (map_get (fs w) (base c)) as [[g|]|]; try (apply (W_same w); auto; fail).
  apply (W_same (set_fs w (map_put (fs w) (base c) (File (mkF (f_text g ++ a :: l) t))))); auto. apply W_set; [|exact H]. apply put_k; [congruence|apply H].
Qed.
Lemma W_emit w s t : W w -> W (emit c y w s t).
Proof. intros H. unfold emit. apply (W_same (write_out c (set_buf w (buf w ++ s)) (early y (tick (set_buf w (buf w ++ s)))) t)); auto. apply W_write. apply (W_same w); auto. Qed.
Lemma W_close w t : W w -> W (closeLogFile c w t).
Proof. intros H. unfold closeLogFile. destruct (is_open w); [|exact H]. apply (W_same (flush c w t)); auto. apply W_write. exact H. Qed.
Lemma W_append w t : W w -> W (fst (open_append c y w t)).
Proof.
  intros H. unfold open_append, ask. assert (Hn : W (next w)) by (apply (W_same w); auto). destruct (fails y (tick w)); [exact Hn|].
  destruct (map_get (fs (next w)) (base c)) as [[g|]|]; cbn [fst]; auto. apply W_set; [|exact Hn]. apply put_k; [congruence|apply Hn].
Qed.
Lemma W_open w t : W w -> W (openLogFile c y w t).
Proof.
  intros H. unfold openLogFile. destruct (how c).
  1, 2: destruct (is_open w); [exact H|]; pose proof (W_append w t H) as A; destruct (open_append c y w t) as (w1, [|]); cbn [fst] in A; [|exact A];
    apply W_write; apply W_emit; apply (W_same w1); auto.
  pose proof (W_append (set_buf w []) t ltac:(apply (W_same w); auto)) as A. destruct (open_append c y (set_buf w []) t) as (w1, [|]); cbn [fst] in A.
  - apply W_emit. apply (W_same w1); auto.
  - apply (W_same w1); auto.
Qed.
Lemma W_next w : W w -> W (next w).
Proof. apply W_same; reflexivity. Qed.
Lemma W_rename w to : to <> k -> W w -> W (rename y w (base c) to).
Proof.
  intros N H. unfold rename, ask. pose proof (W_next w H) as Hn. destruct (fails y (tick w)); [exact Hn|].
  destruct (map_get (fs (next w)) (base c)) as [x|]; [|exact Hn].
  assert (P : W (set_fs (next w) (map_put (map_remove (fs (next w)) (base c)) to x))) by (apply W_set; [|exact Hn]; apply put_k; [exact N|]; apply remove_k; [congruence|apply Hn]).
  destruct (map_get (fs (next w)) to) as [[g|]|]; auto.
Qed.
Lemma W_unlink w : W w -> W (unlink y w (base c)).
Proof.
  intros H. unfold unlink, ask. pose proof (W_next w H) as Hn. destruct (fails y (tick w)); [exact Hn|].
  destruct (map_get (fs (next w)) (base c)) as [[g|]|]; auto. apply W_set; [|exact Hn]. apply remove_k; [congruence|apply Hn].
Qed.
Lemma W_zip w gz t : gz <> k -> W w -> W (zipFile y w (base c) gz t).
Proof.
  intros N H. assert (P : forall v x, W v -> W (set_fs v (map_put (fs v) gz x))) by (intros v x Hv; apply W_set; [|exact Hv]; apply put_k; [exact N|apply Hv]).
  unfold zipFile, ask. pose proof (W_next _ (W_next w H)) as Hn.
  set (w2 := next (next w)) in *.
  assert (Q : forall input, W (match input with None => set_fs w2 (map_put (fs w2) gz (File (mkF [] t)))
    | Some text => let (w4, bad_write) := ask y (set_fs w2 (map_put (fs w2) gz (File (mkF [] t)))) in
      let w5 := set_fs w4 (map_put (fs w4) gz (File (mkF (firstn (early y (tick w4)) text) t))) in
      if bad_write : bool then w5 else set_fs w5 (map_put (fs w5) gz (File (mkF text t))) end)).
  { intros [text|]; [|apply P; exact Hn]. unfold ask. cbv zeta. assert (Hx : W (next (set_fs w2 (map_put (fs w2) gz (File (mkF [] t)))))) by (apply W_next, P; exact Hn).
    destruct (fails y _); [apply P; exact Hx|]. apply P, P. exact Hx. }
  cbv zeta. destruct (fails y (tick (next w))); [exact Hn|]. destruct (map_get (fs w2) gz) as [[g|]|]; [apply Q|exact Hn|apply Q].
Qed.
Lemma W_delete limit l : forall w, W w -> (forall f, In (k, File f) l -> f_time f < limit -> starts_with (base c) k = true -> G) -> W (fst (delete_loop c y limit l w)).
Proof.
  induction l as [|(j, [f|]) l IH]; intros w H Hg; cbn [delete_loop]; [exact H| |apply IH; [exact H|]; intros f I0; apply Hg; right; exact I0].
  assert (Hg' : forall f0, In (k, File f0) l -> f_time f0 < limit -> starts_with (base c) k = true -> G) by (intros f0 I0; apply Hg; right; exact I0).
  destruct ((f_time f <? limit) && starts_with (base c) j) eqn:Ec; [|apply IH; assumption]. unfold ask. destruct (fails y (tick w)); [apply W_next; exact H|].
  apply IH; [|exact Hg']. apply W_set; [|apply W_next; exact H]. cbn [fs next]. destruct (list_eq_dec ascii_dec j k) as [->|N]; [|apply remove_k; [exact N|apply H]].
  apply andb_true_iff in Ec. destruct Ec as (E1 & E2). apply Z.ltb_lt in E1. destruct H as ((S0 & _) & _). split; [apply remove_sorted; exact S0|].
  right. split; [apply get_remove_eq; exact S0|]. exact (Hg f (or_introl eq_refl) E1 E2).
Qed.
Definition Wo (x : outcome) : Prop := match x with Fine w | Thrown w => W w | Undefined => True end.
Lemma W_rotate w t1 t2 : W w -> (rotate c = true -> last_rotation w <> day_of t1 -> forall ext, time_str (last_rotation w) = Ok ext -> k <> base c ++ ext /\ k <> base c ++ ext ++ $".gz") ->
  (forall f days, rotate c = true -> delete_days c = Some days -> dir_ok c = true -> n0 = Some (File f) -> f_time f < 24 * 3600 * (day_of t1 - days) -> starts_with (base c) k = true -> G) ->
  Wo (rotateLogFile c y w t1 t2).
Proof.
  intros H He Hg. unfold rotateLogFile. destruct (rotate c) eqn:Er; [|exact H]. destruct (Z.eqb_spec (last_rotation w) (day_of t1)) as [|Nl]; [exact H|].
  destruct (time_str (last_rotation w)) as [ext| |] eqn:Et; [|exact Logic.I..]. destruct (He eq_refl Nl ext eq_refl) as (N1 & N2).
  pose proof (W_close w t2 H) as H1. set (w1 := closeLogFile c w t2) in *.
  set (w2 := match how c with Zip => _ | _ => _ end).
  assert (H2 : W w2) by (unfold w2; destruct (how c); [apply W_rename; congruence|apply W_unlink, W_zip; congruence|apply W_rename; congruence]).
  assert (H3 : W (fst (match delete_days c with Some n => if dir_ok c then delete_loop c y (24 * 3600 * (day_of t1 - n)) (fs w2) w2 else (w2, true) | None => (w2, true) end))).
  { destruct (delete_days c) as [n|] eqn:Ed; [|exact H2]. destruct (dir_ok c) eqn:Ek; [|exact H2]. apply W_delete; [exact H2|]. intros f I0 Hf Hs.
    destruct H2 as ((S0 & [Q|(Q & Gq)]) & _); [|exact Gq]. apply map_get_in in I0; [|exact S0]. rewrite Q in I0. exact (Hg f n eq_refl eq_refl eq_refl I0 Hf Hs). }
  destruct (match delete_days c with Some n => if dir_ok c then delete_loop c y (24 * 3600 * (day_of t1 - n)) (fs w2) w2 else (w2, true) | None => (w2, true) end) as (w3, [|]); cbn [fst] in H3; cbn [Wo].
  - apply W_open. apply (W_same w3); auto.
  - exact H3.
Qed.
Lemma W_killed j w : TR -> W w -> OKk (directory (killed j w)).
Proof.
  intros X (A & B). specialize (B X). unfold killed, directory. destruct (nth_in_or_default j (rev (trace w)) (fs w)) as [I0| ->]; [|exact A]. apply in_rev in I0. rewrite Forall_forall in B. exact (B _ I0).
Qed.
Lemma W_result crash x h : TR -> Wo x -> (forall w, directory (h w) = fs w) -> result_of crash x h = Wrong \/ OKk (directory (result_of crash x h)).
Proof.
  intros X H Hh. destruct x as [w|w|], crash as [j|]; cbn [result_of]; auto; right; try (apply W_killed; [exact X|exact H]).
  - apply H.
  - rewrite Hh. apply H.
Qed.
(* the days of a rotation and the name under which the log file is put aside *)
Definition lab (m : machine) : Z :=
  match m with
  | Running w => last_rotation w
  | Halted f _ => match map_get f (base c) with Some (File g) => day_of (f_time g) | _ => 0 end
  | Wrong => 0
  end.
Definition avoids (m : machine) (t : Z) : Prop :=
  rotate c = true -> lab m <> day_of t -> forall ext, time_str (lab m) = Ok ext -> k <> base c ++ ext /\ k <> base c ++ ext ++ $".gz".
Lemma run_others m e crash : TR -> OKk (directory m) -> avoids m (time_of e) ->
  (forall f days, rotate c = true -> delete_days c = Some days -> dir_ok c = true -> n0 = Some (File f) -> f_time f < 24 * 3600 * (day_of (time_of e) - days) -> starts_with (base c) k = true -> G) ->
  fst (run c y m (e, crash)) = Wrong \/ OKk (directory (fst (run c y m (e, crash)))).
Proof.
  intros X H Ha Hg. destruct m as [w|f n|]; destruct e as [t1 t2|t1 t2 s|t2]; cbn [run fst]; auto; cbn [directory time_of] in *.
  - assert (Hw : W (fresh_trace w)) by (split; [exact H|]; intros _; constructor; [exact H|constructor]).
    assert (Hp : Wo (fst (push c y (fresh_trace w) t1 t2 s))).
    { unfold push. pose proof (W_rotate (fresh_trace w) t1 t2 Hw Ha Hg) as R. destruct (rotateLogFile c y (fresh_trace w) t1 t2) as [w1|w1|]; cbn [fst]; auto.
      cbn [Wo] in R. assert (R2 : W (if is_open w1 then w1 else openLogFile c y w1 t2)) by (destruct (is_open w1); [exact R|apply W_open; exact R]).
      set (w2 := if is_open w1 then w1 else openLogFile c y w1 t2) in *. destruct (is_open w2); cbn [fst Wo]; [|exact R2].
      destruct (flushing c); [apply W_write|]; apply W_emit; exact R2. }
    destruct (push c y (fresh_trace w) t1 t2 s) as (x, b). cbn [fst] in *. apply W_result; [exact X|exact Hp|reflexivity].
  - assert (Hw : W (closeLogFile c (fresh_trace w) t2)) by (apply W_close; split; [exact H|]; intros _; constructor; [exact H|constructor]). right.
    destruct crash as [j|]; [apply W_killed; [exact X|exact Hw]|]. apply Hw.
  - apply W_result; [exact X| |reflexivity]. unfold start. cbv zeta.
    assert (Hw : forall d, W (mkLog f [f] false [] d n)) by (intros d; split; [exact H|]; intros _; constructor; [exact H|constructor]).
    destruct (map_get f (base c)) as [[g|]|] eqn:Eg; [|apply W_open, Hw..].
    pose proof (W_rotate (set_last (mkLog f [f] false [] (if rotate c then day_of t1 else 0) n) (day_of (f_time g))) t1 t2 (Hw _)) as R. cbn [set_last last_rotation fs trace is_open buf tick] in R.
    unfold set_last. cbn [fs trace is_open buf tick].
    assert (R' : Wo (rotateLogFile c y (mkLog f [f] false [] (day_of (f_time g)) n) t1 t2)).
    { apply R; [|exact Hg]. unfold avoids, lab in Ha. rewrite Eg in Ha. exact Ha. }
    destruct (rotateLogFile c y (mkLog f [f] false [] (day_of (f_time g)) n) t1 t2) as [w1|w1|]; auto. apply W_open. exact R'.
Qed.
End Others.

(* ---- consequences ---- *)
Lemma starts_spec p s : starts_with p s = true <-> begins_with p s.
Proof.
  unfold starts_with, begins_with. destruct (list_eq_dec ascii_dec (firstn (length p) s) p) as [E|N]; split; try congruence.
  - intros _. exists (skipn (length p) s). rewrite <- E at 1. symmetry. apply firstn_skipn.
  - intros (r & ->). destruct N. rewrite firstn_app, Nat.sub_diag, firstn_all. cbn [firstn]. apply app_nil_r.
Qed.

(* names that are never touched *)
Definition foreign (c : config) (k : str) : Prop :=
  k <> base c /\ (rotate c = true -> ~ begins_with (base c ++ $".") k /\ (begins_with (base c) k -> delete_days c = None \/ dir_ok c = false)).
Lemma time_str_dot d ext : time_str d = Ok ext -> exists r, ext = $"." ++ r.
Proof. unfold time_str. destruct (_ <? _)%nat; [|discriminate]. intros Q. injection Q as <-. eexists. reflexivity. Qed.
Lemma runs_foreign c y k l : foreign c k -> forall m, sorted (directory m) ->
  fst (runs c y m l) = Wrong \/ map_get (directory (fst (runs c y m l))) k = map_get (directory m) k.
Proof.
  intros (Nb & Hf). assert (Ho : forall l m n0, OKk k n0 False (directory m) -> fst (runs c y m l) = Wrong \/ OKk k n0 False (directory (fst (runs c y m l)))).
  { clear l. induction l as [|(e, crash) l IH]; intros m n0 H; cbn [runs]; [right; exact H|].
    assert (R : fst (run c y m (e, crash)) = Wrong \/ OKk k n0 False (directory (fst (run c y m (e, crash))))).
    { apply (run_others c y k n0 False True); [exact Nb|exact Logic.I|exact H|..].
      - intros Er _ ext Et. destruct (Hf Er) as (H1 & _). destruct (time_str_dot _ _ Et) as (r & ->).
        split; intros ->; apply H1; eexists; rewrite <- !app_assoc; reflexivity.
      - intros f days Er Ed Ek _ _ Es. destruct (Hf Er) as (_ & H2). apply starts_spec in Es. destruct (H2 Es); congruence. }
    destruct (run c y m (e, crash)) as (m1, b). cbn [fst] in R. destruct R as [->|R].
    - assert (Wr : forall l, fst (runs c y Wrong l) = Wrong) by (clear; induction l as [|a l IH]; cbn [runs run]; [reflexivity|]; destruct (runs c y Wrong l) as (m2, bs); exact IH).
      specialize (Wr l). destruct (runs c y Wrong l) as (m2, bs). left. exact Wr.
    - specialize (IH m1 n0 R). destruct (runs c y m1 l) as (m2, bs). exact IH. }
  intros m S0. destruct (Ho l m (map_get (directory m) k) (conj S0 (or_introl eq_refl))) as [Q|(_ & [Q|(_ & [])])]; auto.
Qed.
Lemma avoid_archive c k d ext : 0 <= d < 2932897 -> time_str d = Ok ext -> k <> archive_name (base c) false d -> k <> archive_name (base c) true d -> k <> base c ++ ext /\ k <> base c ++ ext ++ $".gz".
Proof. intros H E A B. destruct (time_str_ok d H) as (e & E1 & E2 & E3). assert (e = ext) by congruence. subst e. rewrite E2, E3. auto. Qed.
Lemma run_old c y k m e crash n : sorted (directory m) -> k <> base c -> k <> archive_name (base c) false (label c m) -> k <> archive_name (base c) true (label c m) ->
  0 <= time_of e -> 0 <= label c m < 2932897 -> (forall t g, map_get (directory m) (base c) = Some (File (mkF t g)) -> 0 <= g) ->
  map_get (directory m) k = Some n -> fst (run c y m (e, crash)) = Wrong \/ map_get (directory (fst (run c y m (e, crash)))) k = Some n \/
  (map_get (directory (fst (run c y m (e, crash)))) k = None /\ outdated c (time_of e) k n).
Proof.
  intros S0 Nb N1 N2 Ht Hl Hg Ek. destruct (run_others c y k (Some n) (outdated c (time_of e) k n) True Nb m e crash Logic.I) as [Q|(_ & Q)]; auto.
  - split; [exact S0|]. left. exact Ek.
  - intros Er _ ext Et. assert (El : lab c m = label c m).
    { destruct m as [w|f j|]; cbn [lab label]; try reflexivity. cbn [directory] in Hg. destruct (map_get f (base c)) as [[[x g]|]|] eqn:Eg; auto. apply day_of_dy. cbn [f_time]. exact (Hg x g eq_refl). }
    rewrite El in Et. exact (avoid_archive c k _ ext Hl Et N1 N2).
  - intros f days Er Ed Eo En Hf Hs. exists days, f. rewrite day_of_dy in Hf by exact Ht. injection En as ->.
    repeat (split; [first [assumption|reflexivity]|]). split; [apply starts_spec; exact Hs|]. lia.
Qed.

(* without failures exactly the outdated files are removed *)
Lemma delete_exact c y limit : (forall j, fails y j = false) -> forall l w, sorted (fs w) -> (forall k n, In (k, n) l -> map_get (fs w) k = Some n) -> NoDup (map fst l) ->
  let (w', ok) := delete_loop c y limit l w in ok = true /\ sorted (fs w') /\ is_open w' = is_open w /\ last_rotation w' = last_rotation w /\
  forall k, map_get (fs w') k = match map_get (fs w) k with
    | Some (File f) => if (f_time f <? limit) && starts_with (base c) k && (if in_dec (list_eq_dec ascii_dec) k (map fst l) then true else false) then None else Some (File f)
    | x => x end.
Proof.
  intros Hf. induction l as [|(j, [f|]) l IH]; intros w S0 Hin Nd; cbn [delete_loop].
  - repeat (split; [first [reflexivity|exact S0]|]). intros k. destruct (map_get (fs w) k) as [[f|]|]; auto. cbn. rewrite andb_false_r. reflexivity.
  - inversion Nd as [|? ? N1 N2]; subst. cbn [map fst] in *.
    assert (Hj : map_get (fs w) j = Some (File f)) by (apply Hin; left; reflexivity).
    destruct ((f_time f <? limit) && starts_with (base c) j) eqn:Ec.
    + unfold ask. rewrite Hf. specialize (IH (set_fs (next w) (map_remove (fs (next w)) j))). cbn [fs set_fs next] in IH |- *.
      specialize (IH (remove_sorted _ _ S0)). assert (Hin' : forall k n, In (k, n) l -> map_get (map_remove (fs w) j) k = Some n).
      { intros k n I0. rewrite get_remove_ne; [apply Hin; right; exact I0|exact S0|]. intros ->. apply N1. apply in_map_iff. exists (j, n). auto. }
      specialize (IH Hin' N2). destruct (delete_loop c y limit l _) as (w', ok). destruct IH as (I1 & I2 & I3 & I4 & I5).
      repeat (split; [assumption|]). intros k. rewrite I5, get_remove by exact S0. destruct (list_eq_dec ascii_dec k j) as [->|N].
      * rewrite Hj, Ec. destruct (in_dec _ j (j :: map fst l)) as [_|X]; [reflexivity|]. destruct X. left. reflexivity.
      * destruct (map_get (fs w) k) as [[g|]|]; auto. f_equal. destruct (in_dec _ k (map fst l)) as [Q|Q], (in_dec _ k (j :: map fst l)) as [Q'|Q']; auto.
        -- destruct Q'. right. exact Q.
        -- destruct Q' as [Q'|Q']; congruence.
    + specialize (IH w S0 ltac:(intros k n I0; apply Hin; right; exact I0) N2). destruct (delete_loop c y limit l w) as (w', ok). destruct IH as (I1 & I2 & I3 & I4 & I5).
      repeat (split; [assumption|]). intros k. rewrite I5. destruct (map_get (fs w) k) as [[g|]|] eqn:Ek; auto.
      destruct (in_dec _ k (map fst l)) as [Q|Q], (in_dec _ k (j :: map fst l)) as [Q'|Q']; auto.
      * destruct Q'. right. exact Q.
      * destruct Q' as [Q'|Q']; [subst k|congruence]. rewrite Ek in Hj. injection Hj as ->. rewrite Ec. reflexivity.
  - inversion Nd as [|? ? N1 N2]; subst. cbn [map fst] in *. specialize (IH w S0 ltac:(intros k n I0; apply Hin; right; exact I0) N2).
    assert (Hj : map_get (fs w) j = Some Dir) by (apply Hin; left; reflexivity).
    destruct (delete_loop c y limit l w) as (w', ok). destruct IH as (I1 & I2 & I3 & I4 & I5).
    repeat (split; [assumption|]). intros k. rewrite I5. destruct (map_get (fs w) k) as [[g|]|] eqn:Ek; auto.
    destruct (in_dec _ k (map fst l)) as [Q|Q], (in_dec _ k (j :: map fst l)) as [Q'|Q']; auto.
    + destruct Q'. right. exact Q.
    + destruct Q' as [Q'|Q']; [subst k; congruence|congruence].
Qed.
Lemma sorted_keys_nodup {T} (m : list (str * T)) : sorted m -> NoDup (map fst m).
Proof.
  induction 1 as [|k v r S0 IH L]; cbn [map fst]; constructor; [|exact IH]. intros I0. apply in_map_iff in I0. destruct I0 as ((k', v') & E & I0). cbn [fst] in E. subst k'.
  apply L in I0. rewrite str_lt_irrefl in I0. discriminate.
Qed.

Lemma push_delete c y w t1 t2 s days : (forall j, fails y j = false) -> sorted (fs w) -> rotate c = true -> delete_days c = Some days -> dir_ok c = true -> 0 <= t1 ->
  0 <= last_rotation w < 2932897 -> last_rotation w <> day_number_of t1 ->
  exists w' b, push c y w t1 t2 s = (Fine w', b) /\ forall k, k <> base c -> k <> archive_name (base c) false (last_rotation w) -> k <> archive_name (base c) true (last_rotation w) ->
    map_get (fs w') k = match map_get (fs w) k with
      | Some (File f) => if (f_time f <? 86400 * (day_number_of t1 - days)) && starts_with (base c) k then None else Some (File f)
      | x => x end.
Proof.
  intros Hf S0 Er Ed Ek H1 Hl Nl. unfold push, rotateLogFile. rewrite Er, Ed, Ek, day_of_dy by exact H1.
  destruct (Z.eqb_spec (last_rotation w) (day_number_of t1)); [contradiction|]. destruct (time_str_ok _ Hl) as (ext & Et & E1 & E2). rewrite Et, E1, E2.
  set (w1 := closeLogFile c w t2). set (w2 := match how c with Zip => _ | _ => _ end).
  set (l := last_rotation w) in *.
  assert (H2 : forall k, k <> base c -> k <> archive_name (base c) false l -> k <> archive_name (base c) true l -> sorted (fs w2) /\ map_get (fs w2) k = map_get (fs w) k).
  { intros k N1 N2 N3. assert (X : W k (map_get (fs w) k) False False w2).
    { assert (X1 : W k (map_get (fs w) k) False False w1) by (apply W_close; [exact N1|]; split; [split; [exact S0|left; reflexivity]|intros []]).
      unfold w2. destruct (how c); [apply W_rename; auto|apply W_unlink; [auto|apply W_zip; auto]|apply W_rename; auto]. }
    destruct X as ((X1 & [X2|(_ & [])]) & _). auto. }
  assert (S2 : sorted (fs w2)).
  { destruct (H2 (base c ++ $"+")) as (X & _); [..|exact X].
    - intros Q. apply (f_equal (@length ascii)) in Q. rewrite app_length in Q. cbn [length list_ascii_of_string] in Q. lia.
    - unfold archive_name. intros Q. apply app_inv_head in Q. discriminate.
    - unfold archive_name. intros Q. apply app_inv_head in Q. discriminate. }
  pose proof (delete_exact c y (24 * 3600 * (day_number_of t1 - days)) Hf (fs w2) w2 S2 ltac:(intros k j I0; apply map_get_in; assumption) (sorted_keys_nodup _ S2)) as De.
  destruct (delete_loop c y (24 * 3600 * (day_number_of t1 - days)) (fs w2) w2) as (w3, ok). destruct De as (-> & S3 & _ & _ & De).
  set (w4 := openLogFile c y (set_last w3 (day_number_of t1)) t2).
  set (w5 := if is_open w4 then w4 else openLogFile c y w4 t2).
  assert (Fin : forall k, k <> base c -> let v := if is_open w5 then (if flushing c then flush c (emit c y w5 s t2) t2 else emit c y w5 s t2) else w5 in map_get (fs v) k = map_get (fs w3) k).
  { intros k N. cbv zeta. assert (X4 : W k (map_get (fs w3) k) False False w4) by (apply W_open; [exact N|]; split; [split; [exact S3|left; reflexivity]|intros []]).
    assert (X5 : W k (map_get (fs w3) k) False False w5) by (unfold w5; destruct (is_open w4); [exact X4|apply W_open; assumption]).
    assert (X6 : W k (map_get (fs w3) k) False False (if is_open w5 then (if flushing c then flush c (emit c y w5 s t2) t2 else emit c y w5 s t2) else w5)).
    { destruct (is_open w5); [|exact X5]. destruct (flushing c); [apply W_write; [exact N|]|]; apply W_emit; assumption. }
    destruct X6 as ((_ & [X6|(_ & [])]) & _). exact X6. }
  exists (if is_open w5 then (if flushing c then flush c (emit c y w5 s t2) t2 else emit c y w5 s t2) else w5), (is_open w5). split; [destruct (is_open w5); reflexivity|].
  intros k N1 N2 N3. rewrite (Fin k N1), De. destruct (H2 k N1 N2 N3) as (_ & ->). destruct (map_get (fs w) k) as [[f|]|] eqn:E; auto.
  destruct (in_dec _ k (map fst (fs w2))) as [Q|Q].
  - rewrite andb_true_r. reflexivity.
  - destruct Q. destruct (H2 k N1 N2 N3) as (_ & X). rewrite E in X. apply map_get_in in X; [|exact S2]. apply in_map_iff. exists (k, File f). auto.
Qed.

(* ---- searching ---- *)
Fixpoint contains (s text : str) : bool := starts_with s text || match text with [] => false | _ :: r => contains s r end.
Lemma contains_complete s text : (exists a b, text = a ++ s ++ b) -> contains s text = true.
Proof.
  intros (a & b & ->). induction a as [|x a IH].
  - assert (E : starts_with s (s ++ b) = true) by (apply starts_spec; exists b; reflexivity). cbn [app]. destruct (s ++ b); cbn [contains]; rewrite E; reflexivity.
  - cbn [app contains]. rewrite IH. apply orb_true_r.
Qed.
Definition lostb (s : str) (f : fsys) : bool := forallb (fun kv => match snd kv with File g => negb (contains s (f_text g)) | Dir => true end) f.
Lemma lost_ok s f : lostb s f = true -> lost s f.
Proof.
  intros H name text t I0 E. unfold lostb in H. rewrite forallb_forall in H. specialize (H _ I0). cbn [snd f_text] in H. rewrite (contains_complete _ _ E) in H. discriminate.
Qed.
