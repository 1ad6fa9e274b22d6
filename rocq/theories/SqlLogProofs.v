(* Proofs about log databases (C61). *)
From Verif Require Import Base BaseLemmas Text SMap IsoModel IsoSpec IsoProofs SqlLogModel SqlLogSpec.
From Verif Require FileLogModel FileLogSpec FileLogProofs.
Local Open Scope Z_scope.

Ltac Z.to_euclidean_division_equations ::= Z.div_mod_to_equations.
Notation dy t := (day_number_of t).
Lemma days_dy t : 0 <= t -> days t = dy t.
Proof. intros H. unfold days, day_number_of. rewrite Z.quot_div_nonneg by lia. reflexivity. Qed.
Lemma dy_mono a b : a <= b -> dy a <= dy b.
Proof. intros H. unfold day_number_of. apply Z.div_le_mono; lia. Qed.
Lemma dy_range a : 0 <= a < 253402300800 -> 0 <= dy a < 2932897.
Proof. intros H. unfold day_number_of. split; [apply Z.div_pos; lia|apply Z.div_lt_upper_bound; lia]. Qed.

Lemma archive_is c d : archive c d = FileLogSpec.archive_name (db_filename c) false d.
Proof. unfold archive, FileLogSpec.archive_name. cbv zeta. rewrite app_nil_r. reflexivity. Qed.
Lemma archive_inj c d d' : 0 <= d < 2932897 -> 0 <= d' < 2932897 -> archive c d = archive c d' -> d = d'.
Proof. intros H H' E. rewrite !archive_is in E. exact (FileLogProofs.archive_inj _ _ _ _ H H' E). Qed.
Lemma archive_not_base c d : archive c d <> db_filename c.
Proof. rewrite archive_is. apply FileLogProofs.archive_not_base. Qed.
Lemma time_str_ok c t : 0 <= t < 253402300800 -> exists ext, time_str t = Ok ext /\ db_filename c ++ $"." ++ ext = archive c (dy t).
Proof.
  intros H. pose proof (dy_range t H) as Hd. pose proof (FileLogProofs.date_facts (dy t) Hd) as Dx. unfold time_str, archive.
  change (t / 86400) with (dy t). unfold date_of_day. destruct (Z.leb_spec 0 (dy t)); [|lia]. cbv zeta in *.
  set (x := Nat.iter (Z.to_nat (dy t)) next_day (D 1970 1 1)) in *. destruct Dx as (Vx & Nx & Y & M & Dd). rewrite (year_text_4 (year x)) by lia.
  rewrite !app_length, !digits_length. cbn [length list_ascii_of_string Nat.add Nat.ltb Nat.leb]. eexists. split; [reflexivity|].
  rewrite <- ?app_assoc. reflexivity.
Qed.

Lemma remove_sorted {T} (m : list (str * T)) k : sorted m -> sorted (map_remove m k).
Proof. exact (FileLogProofs.remove_sorted m k). Qed.
Lemma get_remove {T} (m : list (str * T)) k k' : sorted m -> map_get (map_remove m k) k' = if list_eq_dec ascii_dec k' k then None else map_get m k'.
Proof. exact (FileLogProofs.get_remove m k k'). Qed.
Lemma get_put_eq {T} (m : list (str * T)) k v : sorted m -> map_get (map_put m k v) k = Some v.
Proof. intros S0. rewrite map_get_put by exact S0. destruct (list_eq_dec ascii_dec k k); congruence. Qed.
Lemma get_put_ne {T} (m : list (str * T)) k v k' : sorted m -> k' <> k -> map_get (map_put m k v) k' = map_get m k'.
Proof. intros S0 N. rewrite map_get_put by exact S0. destruct (list_eq_dec ascii_dec k' k); congruence. Qed.

Lemma ascending_snoc l d : ascending l -> (forall x, In x l -> x < d) -> ascending (l ++ [d]).
Proof.
  induction l as [|a l IH]; cbn [ascending app]; intros A H.
  - split; [intros d' []|exact Logic.I].
  - destruct A as [A1 A2]. split.
    + intros d' I0. apply in_app_or in I0. destruct I0 as [I0|[<-|[]]]; [exact (A1 d' I0)|apply H; left; reflexivity].
    + apply IH; [exact A2|]. intros x Hx. apply H. right; exact Hx.
Qed.

Section P.
Variable fails : nat -> bool.
Variable c : config.
Notation base := (db_filename c).

(* the files hold these rows *)
Record Good (gs : list (Z * list entry)) (cur : list entry) (f : fsys) : Prop := MkGood {
  g_sorted : sorted f;
  g_archives : forall d es, In (d, es) gs -> 0 <= d < 2932897 /\ map_get f (archive c d) = Some (map snd es);
  g_base : map_get f base = Some (map snd cur) \/ map_get f base = None /\ cur = []
}.
Definition agree (f g : fsys) : Prop := forall k, k <> base -> (forall d, 0 <= d < 2932897 -> k <> archive c d) -> map_get g k = map_get f k.

Lemma good_create gs f : Good gs [] f -> map_get f base = None -> Good gs [] (map_put f base []).
Proof.
  intros [A B C0] N. constructor.
  - apply map_put_sorted. exact A.
  - intros d es I0. destruct (B d es I0) as [R E]. split; [exact R|]. rewrite get_put_ne; [exact E|exact A|apply archive_not_base].
  - left. apply get_put_eq. exact A.
Qed.
Lemma good_insert gs cur f rows t r : Good gs cur f -> map_get f base = Some rows -> Good gs (cur ++ [(t, r)]) (map_put f base (rows ++ [r])).
Proof.
  intros [A B C0] E. constructor.
  - apply map_put_sorted. exact A.
  - intros d es I0. destruct (B d es I0) as [R X]. split; [exact R|]. rewrite get_put_ne; [exact X|exact A|apply archive_not_base].
  - left. rewrite get_put_eq by exact A. rewrite map_app. destruct C0 as [C0|[C0 _]]; [|congruence]. rewrite E in C0. injection C0 as ->. reflexivity.
Qed.
Lemma good_rename gs cur f rows d : Good gs cur f -> map_get f base = Some rows -> 0 <= d < 2932897 -> (forall x es, In (x, es) gs -> x < d) ->
  Good (gs ++ [(d, cur)]) [] (map_put (map_remove f base) (archive c d) rows).
Proof.
  intros [A B C0] E Hd L. pose proof (remove_sorted f base A) as A'. constructor.
  - apply map_put_sorted. exact A'.
  - intros x es I0. apply in_app_or in I0. destruct I0 as [I0|[I0|[]]].
    + destruct (B x es I0) as [R X]. split; [exact R|]. rewrite get_put_ne.
      * rewrite get_remove by exact A. destruct (list_eq_dec ascii_dec _ _) as [Q|_]; [destruct (archive_not_base c x Q)|exact X].
      * exact A'.
      * intros Q. apply archive_inj in Q; try assumption. specialize (L x es I0). lia.
    + injection I0 as <- <-. split; [exact Hd|]. rewrite get_put_eq by exact A'. destruct C0 as [C0|[C0 _]]; [|congruence]. congruence.
  - right. split; [|reflexivity]. rewrite get_put_ne; [|exact A'|intros Q; symmetry in Q; destruct (archive_not_base c d Q)].
    rewrite get_remove by exact A. destruct (list_eq_dec ascii_dec base base); congruence.
Qed.

(* ---- opening ---- *)
Lemma prepare_facts w : let w' := prepare_insert fails c w in
  fs w' = fs w /\ trace w' = trace w /\ last_rotation w' = last_rotation w /\
  (is_open w' = true -> map_get (fs w) base <> None /\ bound w' = repeat Null 10) /\
  (fails (tick w) = false -> map_get (fs w) base <> None -> is_open w' = true).
Proof.
  unfold prepare_insert, ask. destruct (fails (tick w)); cbn [next fs].
  - cbn. split; [reflexivity|]. split; [reflexivity|]. split; [reflexivity|]. split; [discriminate|]. discriminate.
  - destruct (map_get (fs w) base) as [rows|] eqn:E; cbn.
    + split; [reflexivity|]. split; [reflexivity|]. split; [reflexivity|]. split; [intros _; split; [discriminate|reflexivity]|auto].
    + split; [reflexivity|]. split; [reflexivity|]. split; [reflexivity|]. split; [discriminate|]. intros _ N. destruct (N eq_refl).
Qed.

Definition openable (w : log) : Prop := is_open w = true -> map_get (fs w) base <> None /\ length (bound w) = 10%nat.

Lemma open_facts w : is_open w = false -> sorted (fs w) -> let w' := openDatabase fails c w in
  last_rotation w' = last_rotation w /\ openable w' /\
  ((fs w' = fs w /\ trace w' = trace w) \/
   (map_get (fs w) base = None /\ fs w' = map_put (fs w) base [] /\ trace w' = fs w' :: trace w)) /\
  (base <> [] -> (forall k, fails k = false) -> is_open w' = true).
Proof.
  intros Op So. unfold openDatabase. destruct base as [|c0 cs] eqn:Eb.
  { cbn zeta. split; [reflexivity|]. split; [unfold openable; congruence|]. split; [left; split; reflexivity|]. intros N; destruct (N eq_refl). }
  unfold ask. destruct (fails (tick w)) eqn:F1.
  { cbn. split; [reflexivity|]. split; [unfold openable; discriminate|]. split; [left; split; reflexivity|]. intros _ H. rewrite H in F1. discriminate. }
  cbn [next tick]. destruct (fails (S (tick w))) eqn:F2.
  { cbn. split; [reflexivity|]. split; [unfold openable; discriminate|]. split; [left; split; reflexivity|]. intros _ H. rewrite H in F2. discriminate. }
  cbn [next tick fs]. set (w3 := next (next (next w))).
  assert (W3 : fs w3 = fs w /\ trace w3 = trace w /\ last_rotation w3 = last_rotation w) by (repeat split; reflexivity).
  destruct W3 as (W1 & W2 & W4).
  assert (Plain : let w' := prepare_insert fails c w3 in last_rotation w' = last_rotation w /\ openable w' /\ fs w' = fs w /\ trace w' = trace w /\
     ((forall k, fails k = false) -> map_get (fs w) base <> None -> is_open w' = true)).
  { destruct (prepare_facts w3) as (P1 & P2 & P3 & P4 & P5). cbn zeta. rewrite W1 in *. split; [congruence|]. split; [|split; [congruence|split; [congruence|]]].
    - intros O. destruct (P4 O) as [Q1 Q2]. rewrite P1. split; [exact Q1|]. rewrite Q2. reflexivity.
    - intros H N. apply P5; [apply H|exact N]. }
  cbn zeta in Plain. destruct Plain as (Q1 & Q2 & Q3 & Q4 & Q5).
  assert (Lift : base <> [] -> map_get (fs w) base <> None -> (forall k, fails k = false) -> is_open (prepare_insert fails c w3) = true) by auto.
  rewrite <- Eb in *. destruct (fails (S (S (tick w)))) eqn:F3.
  { split; [exact Q1|]. split; [exact Q2|]. split; [left; split; assumption|]. intros _ H. rewrite H in F3. discriminate. }
  destruct (map_get (fs w) base) as [rows|] eqn:E.
  { split; [exact Q1|]. split; [exact Q2|]. split; [left; split; assumption|]. intros _ H. apply Q5; [exact H|discriminate]. }
  clear Q1 Q2 Q3 Q4 Q5 Lift. change (tick w3) with (S (S (S (tick w)))). destruct (fails (S (S (S (tick w))))) eqn:F4.
  { cbn. split; [reflexivity|]. split; [unfold openable; discriminate|]. split; [left; split; reflexivity|]. intros _ H. rewrite H in F4. discriminate. }
  set (w5 := set_fs (next w3) (map_put (fs (next w3)) base [])).
  destruct (prepare_facts w5) as (P1 & P2 & P3 & P4 & P5). cbn zeta in *.
  assert (F5 : fs w5 = map_put (fs w) base []) by reflexivity.
  assert (T5 : trace w5 = fs w5 :: trace w) by reflexivity.
  change (set_fs (next w3) (map_put (fs w) base [])) with w5; split; [exact P3|]. split; [|split].
  - intros O. destruct (P4 O) as [Q1 Q2]. rewrite P1. split; [exact Q1|]. rewrite Q2. reflexivity.
  - right. split; [reflexivity|]. rewrite P1, P2. split; [exact F5|exact T5].
  - intros _ H. apply P5; [apply H|]. rewrite F5, get_put_eq by exact So. discriminate.
Qed.

(* ---- binding ---- *)
Definition same_but_bound (w w' : log) : Prop :=
  fs w' = fs w /\ trace w' = trace w /\ is_open w' = is_open w /\ last_rotation w' = last_rotation w /\ length (bound w') = length (bound w).
Lemma bind_value_same w i v : same_but_bound w (bind_value fails w i v).
Proof.
  unfold bind_value, ask. destruct (fails (tick w)); cbn; repeat split; try reflexivity. apply list_set_length.
Qed.
Lemma same_trans w1 w2 w3 : same_but_bound w1 w2 -> same_but_bound w2 w3 -> same_but_bound w1 w3.
Proof. intros (A1 & A2 & A3 & A4 & A5) (B1 & B2 & B3 & B4 & B5). repeat split; congruence. Qed.
Lemma bind_all_same w m : same_but_bound w (bind_all fails w m).
Proof.
  unfold bind_all. cbv zeta. repeat (eapply same_trans; [|apply bind_value_same]). repeat split; reflexivity.
Qed.
Lemma bind_value_good w i v : (forall k, fails k = false) -> bound (bind_value fails w i v) = list_set (bound w) (i - 1) v.
Proof. intros H. unfold bind_value, ask. rewrite H. reflexivity. Qed.
Lemma int32_ok z : to_int z = int32 z.
Proof. unfold to_int, int32. change (2 ^ 32) with 4294967296. change (2 ^ 31) with 2147483648. destruct (Z.ltb_spec (z mod 4294967296) 2147483648); lia. Qed.
Lemma bind_all_good w m : (forall k, fails k = false) -> length (bound w) = 10%nat -> bound (bind_all fails w m) = row_of m.
Proof.
  intros H L. unfold bind_all. cbv zeta. rewrite !bind_value_good by exact H. unfold row_of. rewrite <- int32_ok.
  destruct (bound w) as [|b1 [|b2 [|b3 [|b4 [|b5 [|b6 [|b7 [|b8 [|b9 [|b10 [|]]]]]]]]]]]; try discriminate. reflexivity.
Qed.

(* ---- what is in the files ---- *)
Variable f00 : fsys.
(* the files hold the rows of all; archives of days up to L *)
Definition St (L : Z) (all : list entry) (f : fsys) : Prop :=
  exists gs cur, Good gs cur f /\ concat (map snd gs) ++ cur = all /\ ascending (map fst gs) /\ (rotate c = false -> gs = []) /\
    (forall d es, In (d, es) gs -> d <= L /\ forall t r, In (t, r) es -> dy t < d) /\
    (rotate c = true -> forall t r, In (t, r) all -> dy t <= L) /\ agree f00 f.
Lemma st_mono L L' all f : L <= L' -> St L all f -> St L' all f.
Proof.
  intros H (gs & cur & G & Ea & As & R & Ls & Rs & Ag). exists gs, cur. split; [exact G|]. split; [exact Ea|]. split; [exact As|]. split; [exact R|].
  split; [|split; [|exact Ag]].
  - intros d es I0. destruct (Ls d es I0) as [A B]. split; [lia|exact B].
  - intros Rt t r I0. specialize (Rs Rt t r I0). lia.
Qed.
Lemma st_sorted L all f : St L all f -> sorted f.
Proof. intros (gs & cur & G & _). exact (g_sorted _ _ _ G). Qed.
Lemma st_create L all f : St L all f -> map_get f base = None -> St L all (map_put f base []).
Proof.
  intros (gs & cur & G & Ea & As & R & Ls & Rs & Ag) N. destruct (g_base _ _ _ G) as [X|[_ ->]]; [congruence|].
  exists gs, []. split; [exact (good_create gs f G N)|]. split; [exact Ea|]. split; [exact As|]. split; [exact R|]. split; [exact Ls|]. split; [exact Rs|].
  intros k K1 K2. rewrite get_put_ne; [exact (Ag k K1 K2)|exact (g_sorted _ _ _ G)|exact K1].
Qed.
Lemma st_insert L all f rows t r : St L all f -> map_get f base = Some rows -> (rotate c = true -> dy t <= L) ->
  St L (all ++ [(t, r)]) (map_put f base (rows ++ [r])).
Proof.
  intros (gs & cur & G & Ea & As & R & Ls & Rs & Ag) E H. exists gs, (cur ++ [(t, r)]).
  split; [exact (good_insert gs cur f rows t r G E)|]. split; [rewrite app_assoc, Ea; reflexivity|]. split; [exact As|]. split; [exact R|]. split; [exact Ls|]. split.
  - intros Rt t' r' I0. apply in_app_or in I0. destruct I0 as [I0|[I0|[]]]; [exact (Rs Rt t' r' I0)|]. injection I0 as <- <-. auto.
  - intros k K1 K2. rewrite get_put_ne; [exact (Ag k K1 K2)|exact (g_sorted _ _ _ G)|exact K1].
Qed.
Lemma st_rename L d all f rows : rotate c = true -> St L all f -> L < d -> 0 <= d < 2932897 -> map_get f base = Some rows ->
  St d all (map_put (map_remove f base) (archive c d) rows).
Proof.
  intros Rt (gs & cur & G & Ea & As & R & Ls & Rs & Ag) Hd Rd E. exists (gs ++ [(d, cur)]), [].
  split; [apply good_rename; try assumption; intros x es I0; destruct (Ls x es I0); lia|].
  split; [rewrite map_app, concat_app; cbn [map concat snd]; rewrite !app_nil_r; exact Ea|].
  split.
  { rewrite map_app. cbn [map fst]. apply ascending_snoc; [exact As|]. intros x I0. apply in_map_iff in I0. destruct I0 as ([x' es] & <- & I0).
    cbn [fst]. destruct (Ls x' es I0). lia. }
  split; [rewrite Rt; discriminate|]. split; [|split].
  - intros x es I0. apply in_app_or in I0. destruct I0 as [I0|[I0|[]]].
    + destruct (Ls x es I0) as [A B]. split; [lia|exact B].
    + injection I0 as <- <-. split; [lia|]. intros t r I0. assert (dy t <= L); [|lia]. apply (Rs Rt t r). rewrite <- Ea. apply in_or_app. right; exact I0.
  - intros _ t r I0. specialize (Rs Rt t r I0). lia.
  - pose proof (g_sorted _ _ _ G) as So. intros k K1 K2. rewrite get_put_ne; [|exact (remove_sorted f base So)|exact (K2 d Rd)].
    rewrite get_remove by exact So. destruct (list_eq_dec ascii_dec k base) as [Q|_]; [destruct (K1 Q)|exact (Ag k K1 K2)].
Qed.

(* the states on the way *)
Definition Way (L : Z) (all : list entry) (w : log) : Prop := (exists tr, trace w = fs w :: tr) /\ Forall (St L all) (trace w).
Lemma way_fs L all w : Way L all w -> St L all (fs w).
Proof. intros [[tr E] A]. rewrite E in A. inversion A; assumption. Qed.
Lemma way_mono L L' all w : L <= L' -> Way L all w -> Way L' all w.
Proof. intros H [E A]. split; [exact E|]. revert A. apply Forall_impl. intros f. apply st_mono. exact H. Qed.
Lemma way_same L all w w' : fs w' = fs w -> trace w' = trace w -> Way L all w -> Way L all w'.
Proof. intros E1 E2 [[tr E] A]. unfold Way. rewrite E1, E2. split; [exists tr; exact E|exact A]. Qed.
Lemma way_cons L all w f : Way L all w -> St L all f -> Way L all (set_fs w f).
Proof. intros [[tr E] A] S0. split; [exists (trace w); reflexivity|]. cbn [set_fs trace]. apply Forall_cons; assumption. Qed.

Lemma open_way L all w : is_open w = false -> Way L all w -> let w' := openDatabase fails c w in
  last_rotation w' = last_rotation w /\ openable w' /\ Way L all w' /\ (base <> [] -> (forall k, fails k = false) -> is_open w' = true).
Proof.
  intros Op W. pose proof (way_fs _ _ _ W) as S0. destruct (open_facts w Op (st_sorted _ _ _ S0)) as (A & B & C0 & D0). cbn zeta in *.
  split; [exact A|]. split; [exact B|]. split; [|exact D0]. destruct C0 as [[E1 E2]|(N & E1 & E2)].
  - exact (way_same _ _ _ _ E1 E2 W).
  - destruct W as [_ W]. split; [exists (trace w); exact E2|]. rewrite E2. apply Forall_cons; [|exact W]. rewrite E1. apply st_create; assumption.
Qed.

Definition in_time (t : Z) : Prop := 0 <= t < 253402300800.
Lemma rename_way L d all w : rotate c = true -> Way L all w -> L < d -> 0 <= d < 2932897 ->
  let w' := rename fails w base (archive c d) in Way d all w' /\ is_open w' = is_open w /\ last_rotation w' = last_rotation w.
Proof.
  intros Rt W H Hd. cbn zeta. unfold rename, ask. cbn [next fs]. assert (W' : Way d all w) by (apply (way_mono L); [lia|exact W]).
  destruct (fails (tick w)); [split; [exact W'|split; reflexivity]|].
  destruct (map_get (fs w) base) as [rows|] eqn:E; [|split; [exact W'|split; reflexivity]].
  split; [|split; reflexivity]. apply (way_cons d all (next w)); [exact W'|]. apply (st_rename L); try assumption. exact (way_fs _ _ _ W).
Qed.

Lemma rotate_way all w t1 t2 : Way (last_rotation w) all w -> openable w -> in_time t1 -> in_time t2 -> dy t1 = dy t2 -> last_rotation w <= dy t1 ->
  exists w', rotateDatabase fails c w t1 t2 = Ok w' /\ Way (last_rotation w') all w' /\ openable w' /\ last_rotation w' <= dy t1 /\
    (rotate c = true -> last_rotation w' = dy t1) /\
    (is_open w = true -> base <> [] -> (forall k, fails k = false) -> is_open w' = true).
Proof.
  intros W O I1 I2 Ed Hl. unfold rotateDatabase. destruct (rotate c) eqn:Rt.
  2:{ exists w. split; [reflexivity|]. split; [exact W|]. split; [exact O|]. split; [exact Hl|]. split; [discriminate|auto]. }
  rewrite days_dy by apply I1. destruct (Z.eqb_spec (last_rotation w) (dy t1)) as [El|Nl].
  { exists w. split; [reflexivity|]. split; [exact W|]. split; [exact O|]. split; [exact Hl|]. split; [auto|auto]. }
  cbv zeta. destruct (time_str_ok c t2 I2) as (ext & E & Ea). rewrite E. cbn [bind]. rewrite Ea, <- Ed.
  set (w1 := closeDatabase (set_last w (dy t1))).
  destruct (rename_way (last_rotation w) (dy t1) all w1 Rt W ltac:(lia) (dy_range t1 I1)) as (Wr & Or & Lr). cbn zeta in *.
  destruct (open_way (dy t1) all _ Or Wr) as (A & B & C0 & D0). cbn zeta in *. rewrite Lr in A. cbn [w1 closeDatabase set_open set_last last_rotation] in A.
  eexists. split; [reflexivity|]. rewrite A. split; [exact C0|]. split; [exact B|]. split; [lia|]. split; [reflexivity|]. intros _. exact D0.
Qed.

(* before the last change, and after it *)
Definition Ended (L : Z) (all : list entry) (t : Z) (r : option row) (w : log) : Prop :=
  match r with
  | None => Way L all w
  | Some x => exists tr, trace w = fs w :: tr /\ Forall (St L all) tr /\ St L (all ++ [(t, x)]) (fs w)
  end.
Lemma write_way all w t1 t2 m : Way (last_rotation w) all w -> openable w -> in_time t1 -> in_time t2 -> dy t1 = dy t2 -> last_rotation w <= dy t1 ->
  exists w' r, writeLogLine fails c w t1 t2 m = Ok (w', r) /\ Ended (last_rotation w') all t1 r w' /\ openable w' /\ last_rotation w' <= dy t1 /\
    (is_open w = true -> base <> [] -> (forall k, fails k = false) -> is_open w' = true /\ r = Some (row_of m)).
Proof.
  intros W O I1 I2 Ed Hl. destruct (rotate_way all w t1 t2 W O I1 I2 Ed Hl) as (w1 & E & W1 & O1 & L1 & R1 & D1).
  unfold writeLogLine. rewrite E. cbn [bind]. destruct (is_open w1) eqn:Op.
  2:{ exists w1, None. split; [reflexivity|]. split; [exact W1|]. split; [exact O1|]. split; [exact L1|]. intros A B C0. specialize (D1 A B C0). discriminate. }
  destruct (O1 Op) as [Nb Lb]. destruct (bind_all_same w1 m) as (B1 & B2 & B3 & B4 & B5). set (w2 := bind_all fails w1 m) in *.
  unfold insert_row, ask. cbn [next fs]. rewrite B1. destruct (map_get (fs w1) base) as [rows|] eqn:Eg; [|destruct (Nb eq_refl)].
  destruct (fails (tick w2)) eqn:Fl.
  - exists (next w2), None. split; [reflexivity|]. cbn [next last_rotation]. rewrite B4. split; [exact (way_same _ _ w1 (next w2) B1 B2 W1)|].
    split; [|split; [exact L1|intros _ _ H; rewrite H in Fl; discriminate]]. intros _. cbn [next fs bound]. rewrite B1, B5, Eg. split; [discriminate|exact Lb].
  - eexists _, _. split; [reflexivity|]. cbn [set_fs next last_rotation trace fs bound is_open Ended]. rewrite B4. split; [|split; [|split; [exact L1|]]].
    + exists (trace w1). rewrite B2. split; [reflexivity|]. split; [exact (proj2 W1)|]. apply st_insert; [exact (way_fs _ _ _ W1)|exact Eg|].
      intros Rt. rewrite (R1 Rt). lia.
    + intros _. cbn [set_fs next fs bound]. rewrite get_put_eq by exact (st_sorted _ _ _ (way_fs _ _ _ W1)). split; [discriminate|congruence].
    + intros A B H. split; [congruence|]. f_equal. unfold w2. apply bind_all_good; assumption.
Qed.

(* ---- histories ---- *)
Definition MInv (T : Z) (all : list entry) (m : machine) : Prop :=
  match m with
  | Running w => St (last_rotation w) all (fs w) /\ last_rotation w <= dy T /\ openable w
  | Halted f _ => St (dy T) all f
  | Wrong => False
  end.
Definition up_of (m : machine) : bool := match m with Running _ => true | _ => false end.
Definition no_fail_open (m : machine) : Prop :=
  match m with Running w => base <> [] -> (forall k, fails k = false) -> is_open w = true | _ => True end.

Lemma nth_rev_head (tr : list fsys) (f d : fsys) k : d = f ->
  nth k (rev (f :: tr)) d = if (S k <? length (f :: tr))%nat then nth k (rev tr) d else f.
Proof.
  intros ->. cbn [rev length]. destruct (Nat.ltb_spec (S k) (S (length tr))).
  - rewrite app_nth1 by (rewrite rev_length; lia). reflexivity.
  - destruct (Nat.eq_dec k (length tr)) as [->|N].
    + rewrite app_nth2 by (rewrite rev_length; lia). rewrite rev_length, Nat.sub_diag. reflexivity.
    + apply nth_overflow. rewrite app_length, rev_length. cbn [length]. lia.
Qed.
Lemma way_kill L all w k : Way L all w -> St L all (nth k (rev (trace w)) (fs w)).
Proof.
  intros W. pose proof (way_fs _ _ _ W) as S0. destruct W as [_ A]. destruct (nth_in_or_default k (rev (trace w)) (fs w)) as [I0|E].
  - rewrite Forall_forall in A. apply A. apply in_rev. exact I0.
  - rewrite E. exact S0.
Qed.

Definition time_after (T : Z) (e : event) : Z := match e with Start t => t | Push _ t2 _ => t2 | Stop => T end.
Definition gained (e : event) (r : option row) : list entry := match e, r with Push t1 _ _, Some x => [(t1, x)] | _, _ => [] end.
Lemma run_inv T all m e cr : in_time T -> MInv T all m -> no_fail_open m -> timely T [(e, cr)] -> up_of m = match e with Start _ => false | _ => true end ->
  let (m', r) := run fails c m (e, cr) in
  in_time (time_after T e) /\ MInv (time_after T e) (all ++ gained e r) m' /\ no_fail_open m' /\
  up_of m' = match e, cr with Stop, _ | _, Some _ => false | _, None => true end /\
  (base <> [] -> (forall k, fails k = false) -> forall x, message_of (e, cr) = Some x -> r = Some (row_of x)) /\
  (base = [] -> is_open (match m with Running w => w | _ => mkLog [] [] false [] 0 0 end) = false -> True).
Proof.
  intros IT M NF Ti Up. destruct e as [t|t1 t2 msg|]; destruct m as [w|f n|]; try discriminate; try contradiction.
  - (* Start *)
    cbn [timely] in Ti. destruct Ti as [[Ta Tb] _]. cbn [run time_after gained]. rewrite app_nil_r.
    assert (It : in_time t) by (unfold in_time in *; lia). split; [exact It|].
    assert (W0 : Way (dy t) all (mkLog f [f] false [] (days t) n)).
    { split; [exists []; reflexivity|]. cbn [trace]. apply Forall_cons; [|apply Forall_nil]. apply (st_mono (dy T)); [apply dy_mono; lia|exact M]. }
    destruct (open_way (dy t) all (mkLog f [f] false [] (days t) n) eq_refl W0) as (A & B & C0 & D0). cbn zeta in *. cbn [last_rotation] in A.
    fold (start fails c f n t) in *. set (w := start fails c f n t) in *.
    assert (Hw : last_rotation w = dy t). { rewrite <- days_dy by apply It. exact A. }
    unfold ended. destruct cr as [k|].
    + split; [exact (way_kill _ _ w k C0)|]. split; [exact Logic.I|]. split; [reflexivity|]. split; [cbn; discriminate|auto].
    + split; [|split; [exact D0|split; [reflexivity|split; [cbn; discriminate|auto]]]]. cbn [MInv]. rewrite Hw.
      split; [exact (way_fs _ _ _ C0)|]. split; [lia|exact B].
  - (* Push *)
    destruct M as (S0 & Hl & Ho). cbn [timely] in Ti. destruct Ti as ([Ta Tb] & Tc & Td & _). cbn [run time_after].
    assert (I1 : in_time t1) by (unfold in_time in *; lia). assert (I2 : in_time t2) by (unfold in_time in *; lia).
    assert (W0 : Way (last_rotation w) all (fresh_trace w)).
    { split; [exists []; reflexivity|]. cbn [fresh_trace trace]. apply Forall_cons; [exact S0|apply Forall_nil]. }
    destruct (write_way all (fresh_trace w) t1 t2 msg W0 Ho I1 I2 Td) as (w1 & r & E & En & O1 & L1 & Dd).
    { cbn [fresh_trace last_rotation]. pose proof (dy_mono T t1 Ta). lia. }
    rewrite E. split; [exact I2|]. unfold ended. destruct cr as [k|].
    + assert (K : MInv t2 (all ++ gained (Push t1 t2 msg) (if (S k <? length (trace w1))%nat then None else r)) (Halted (nth k (rev (trace w1)) (fs w1)) (tick w1))).
      { cbn [MInv]. apply (st_mono (last_rotation w1)); [lia|]. destruct r as [x|]; cbn [Ended] in En.
        - destruct En as (tr & Et & Ef & Ex). rewrite Et, nth_rev_head by reflexivity. destruct (Nat.ltb_spec (S k) (length (fs w1 :: tr))) as [Lk|Lk].
          + cbn [gained]. rewrite app_nil_r. rewrite Forall_forall in Ef. apply Ef. apply in_rev. apply nth_In. rewrite rev_length. cbn [length] in Lk. lia.
          + exact Ex.
        - replace (gained _ _) with (@nil entry) by (destruct (S k <? length (trace w1))%nat; reflexivity). rewrite app_nil_r. exact (way_kill _ _ w1 k En). }
      split; [exact K|]. split; [exact Logic.I|]. split; [reflexivity|]. split; [cbn; discriminate|auto].
    + split; [|split; [intros A B; apply Dd; auto|split; [reflexivity|split; [|auto]]]].
      * cbn [MInv]. split; [|split; [lia|exact O1]]. destruct r as [x|]; cbn [Ended gained] in *.
        -- destruct En as (tr & Et & Ef & Ex). exact Ex.
        -- rewrite app_nil_r. exact (way_fs _ _ _ En).
      * intros A B x Hx. cbn [message_of] in Hx. injection Hx as <-. apply Dd; auto.
  - (* Stop *)
    destruct M as (S0 & Hl & Ho). cbn [run time_after gained]. rewrite app_nil_r. split; [exact IT|].
    unfold ended. destruct cr as [k|].
    + split; [|split; [exact Logic.I|split; [reflexivity|split; [cbn; discriminate|auto]]]]. cbn [MInv closeDatabase set_open fresh_trace trace fs rev app].
      apply (st_mono (last_rotation w)); [lia|]. destruct k as [|[|k]]; exact S0.
    + split; [|split; [exact Logic.I|split; [reflexivity|split; [cbn; discriminate|auto]]]]. cbn [MInv closeDatabase set_open fresh_trace fs].
      apply (st_mono (last_rotation w)); [lia|exact S0].
Qed.

Lemma timely_cons T e cr l : timely T ((e, cr) :: l) -> timely T [(e, cr)] /\ timely (time_after T e) l.
Proof. destruct e; cbn [timely time_after]; tauto. Qed.
Lemma inserted_cons e cr l r rs : inserted ((e, cr) :: l) (r :: rs) = gained e r ++ inserted l rs.
Proof. destruct e, r; reflexivity. Qed.
Lemma runs_inv l : forall T all m, in_time T -> MInv T all m -> no_fail_open m -> timely T l -> orderly (up_of m) l ->
  let (m', rs) := runs fails c m l in
  (exists T', MInv T' (all ++ inserted l rs) m') /\
  (base <> [] -> (forall k, fails k = false) -> Forall2 (fun e r => forall x, message_of e = Some x -> r = Some (row_of x)) l rs).
Proof.
  induction l as [|[e cr] l IH]; intros T all m IT M NF Ti Or.
  - cbn [runs inserted]. rewrite app_nil_r. split; [exists T; exact M|]. intros _ _. constructor.
  - cbn [orderly] in Or. destruct Or as [Up Or]. apply timely_cons in Ti. destruct Ti as [Ti Ts]. cbn [runs].
    pose proof (run_inv T all m e cr IT M NF Ti Up) as R. destruct (run fails c m (e, cr)) as [m1 r]. destruct R as (It1 & M1 & NF1 & Up1 & Ev & _).
    rewrite <- Up1 in Or. specialize (IH _ _ _ It1 M1 NF1 Ts Or). destruct (runs fails c m1 l) as [m2 rs]. destruct IH as [K1 K2].
    rewrite inserted_cons, app_assoc. split; [exact K1|]. intros A B. constructor; [|exact (K2 A B)]. intros x Hx. exact (Ev A B x Hx).
Qed.
End P.

Lemma st_start c f : sorted f -> St c f (dy 0) (before c f) f.
Proof.
  intros So. exists [], (before c f). split; [|split; [reflexivity|split; [exact Logic.I|split; [reflexivity|split; [intros d es []|split; [|intros k _ _; reflexivity]]]]]].
  - constructor; [exact So|intros d es []|]. unfold before. destruct (map_get f (db_filename c)) as [rows|]; [left|right; split; reflexivity].
    rewrite map_map. cbn [snd]. rewrite map_id. reflexivity.
  - intros _ t r I0. unfold before in I0. destruct (map_get f (db_filename c)); [|destruct I0]. apply in_map_iff in I0. destruct I0 as (r' & E & _).
    injection E as <- _. lia.
Qed.
Lemma st_kept c f00 L all m : m <> Wrong -> St c f00 L all (files m) -> kept c all m /\ agree c f00 (files m).
Proof.
  intros _ (gs & cur & G & Ea & As & R & Ls & Rs & Ag). split; [|exact Ag]. exists gs, cur. split; [exact Ea|]. split; [exact As|]. split; [exact R|]. split.
  - intros d es I0. split; [exact (proj2 (g_archives _ _ _ _ G d es I0))|exact (proj2 (Ls d es I0))].
  - exact (g_base _ _ _ _ G).
Qed.
Lemma all_runs fails c f n l : sorted f -> timely 0 l -> orderly false l ->
  let (m, rs) := runs fails c (Halted f n) l in
  m <> Wrong /\ kept c (before c f ++ inserted l rs) m /\ agree c f (files m) /\
  (db_filename c <> [] -> (forall k, fails k = false) -> Forall2 (fun e r => forall x, message_of e = Some x -> r = Some (row_of x)) l rs).
Proof.
  intros So Ti Or. pose proof (runs_inv fails c f l 0 (before c f) (Halted f n)) as R. destruct (runs fails c (Halted f n) l) as [m rs].
  destruct R as [[T M] Ev]; try assumption.
  - unfold in_time. lia.
  - cbn [MInv]. apply st_start. exact So.
  - exact Logic.I.
  - assert (N : m <> Wrong) by (destruct m; [discriminate|discriminate|destruct M]).
    assert (S0 : exists L, St c f L (before c f ++ inserted l rs) (files m)).
    { destruct m as [w|g k|]; cbn [MInv files] in *; [eexists; exact (proj1 M)|eexists; exact M|destruct M]. }
    destruct S0 as [L S0]. destruct (st_kept c f L _ m N S0) as [K A]. split; [exact N|]. split; [exact K|]. split; [exact A|exact Ev].
Qed.

(* ---- no filename ---- *)
Section NoName.
Variable fails : nat -> bool.
Variable c : config.
Hypothesis Nb : db_filename c = [].
Variable f : fsys.
Hypothesis Nf : map_get f [] = None.
Definition Quiet (w : log) : Prop := fs w = f /\ is_open w = false /\ Forall (fun g => g = f) (trace w).
Definition QInv (m : machine) : Prop := match m with Running w => fs w = f /\ is_open w = false | Halted g _ => g = f | Wrong => True end.
Lemma quiet_open w : openDatabase fails c w = w.
Proof. unfold openDatabase. rewrite Nb. reflexivity. Qed.
Lemma quiet_kill w k : Quiet w -> nth k (rev (trace w)) (fs w) = f.
Proof.
  intros (A & _ & B). destruct (nth_in_or_default k (rev (trace w)) (fs w)) as [I0|E].
  - rewrite Forall_forall in B. apply B. apply in_rev. exact I0.
  - rewrite E. exact A.
Qed.
Lemma quiet_rotate w t1 t2 : Quiet w -> match rotateDatabase fails c w t1 t2 with Ok w' => Quiet w' | _ => True end.
Proof.
  intros (A & B & C0). unfold rotateDatabase. destruct (rotate c); [|repeat split; assumption]. destruct (_ =? _); [repeat split; assumption|]. cbv zeta.
  destruct (time_str t2) as [ext| |]; cbn [bind]; try exact Logic.I. rewrite quiet_open. unfold rename, ask.
  cbn [closeDatabase set_open set_last next fs]. rewrite A. rewrite Nb at 1. rewrite Nf. destruct (fails _); (split; [exact A|split; [reflexivity|exact C0]]).
Qed.
Lemma quiet_run m e : QInv m -> QInv (fst (run fails c m e)) /\ snd (run fails c m e) = None.
Proof.
  intros Q. destruct e as [e cr], m as [w|g n|], e as [t|t1 t2 x|]; cbn [run]; try (split; [exact Logic.I|reflexivity]).
  - destruct Q as [A B]. pose proof (quiet_rotate (fresh_trace w) t1 t2) as R. unfold writeLogLine. destruct (rotateDatabase fails c (fresh_trace w) t1 t2) as [w1| |];
      cbn [bind]; try (split; [exact Logic.I|reflexivity]).
    assert (Q1 : Quiet w1). { apply R. split; [exact A|]. split; [exact B|]. cbn [fresh_trace trace]. apply Forall_cons; [exact A|apply Forall_nil]. }
    pose proof Q1 as (A1 & B1 & C1). rewrite B1. cbn [fst snd]. destruct cr as [k|]; cbn [ended QInv].
    + split; [exact (quiet_kill w1 k Q1)|]. destruct (S k <? length (trace w1))%nat; reflexivity.
    + split; [split; [exact A1|exact B1]|reflexivity].
  - destruct Q as [A B]. cbn [fst snd]. split; [|reflexivity]. destruct cr as [k|]; cbn [ended QInv closeDatabase set_open fresh_trace trace fs rev app].
    + destruct k as [|[|k]]; exact A.
    + exact A.
  - cbn [QInv] in Q. subst g. unfold start. rewrite quiet_open. cbn [fst snd]. split; [|reflexivity]. destruct cr as [k|]; cbn [ended QInv trace fs is_open rev app].
    + destruct k as [|[|k]]; reflexivity.
    + split; reflexivity.
Qed.
Lemma quiet_runs l : forall m, QInv m -> let (m', rs) := runs fails c m l in QInv m' /\ Forall (fun r => r = None) rs.
Proof.
  induction l as [|e l IH]; intros m Q; cbn [runs]; [split; [exact Q|apply Forall_nil]|].
  destruct (quiet_run m e Q) as [Q1 R1]. destruct (run fails c m e) as [m1 r]. cbn [fst snd] in *. specialize (IH m1 Q1). destruct (runs fails c m1 l) as [m2 rs].
  destruct IH as [Q2 R2]. split; [exact Q2|]. apply Forall_cons; assumption.
Qed.
End NoName.

Lemma closed_forever fails c l : rotate c = false -> forall w, is_open w = false ->
  Forall (fun e => match e with (Push _ _ _, None) => True | _ => False end) l ->
  let (m, rs) := runs fails c (Running w) l in files m = fs w /\ Forall (fun r => r = None) rs.
Proof.
  intros R. induction l as [|[e cr] l IH]; intros w O H; cbn [runs]; [split; [reflexivity|apply Forall_nil]|].
  inversion H as [|? ? H1 H2]; subst. destruct e as [|t1 t2 x|]; try contradiction. destruct cr as [k|]; try contradiction.
  cbn [run]. unfold writeLogLine, rotateDatabase. rewrite R. cbn [bind fresh_trace is_open]. rewrite O. cbn [ended].
  specialize (IH (fresh_trace w) O H2). destruct (runs fails c _ l) as [m rs]. destruct IH as [A B]. split; [exact A|]. apply Forall_cons; [reflexivity|exact B].
Qed.
