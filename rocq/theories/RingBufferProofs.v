From Verif Require Import Base BaseLemmas RingBufferModel RingBufferSpec.
Ltac Zify.zify_post_hook ::= Z.div_mod_to_equations.

Section P.
Context {T : Type}.
Implicit Types (b : rb T) (l q : list T).

Definition wrap (n k : nat) : nat := if n <=? k then k - n else k.

Definition Inv b : Prop := m_read b < bsize b /\ m_write b < bsize b.

Definition Rep b c l : Prop :=
  Inv b /\ bsize b = c + 1 /\ length l = size b /\
  forall i, i < length l -> nth_error l i = nth_error (m_buffer b) (wrap (bsize b) (m_read b + i)).

Ltac cs :=
  repeat match goal with
  | |- context [if ?x <=? ?y then _ else _] => destruct (Nat.leb_spec x y)
  | |- context [if ?x <? ?y then _ else _] => destruct (Nat.ltb_spec x y)
  | |- context [if ?x =? ?y then _ else _] => destruct (Nat.eqb_spec x y)
  | H : context [if ?x <=? ?y then _ else _] |- _ => destruct (Nat.leb_spec x y)
  | H : context [if ?x <? ?y then _ else _] |- _ => destruct (Nat.ltb_spec x y)
  | H : context [if ?x =? ?y then _ else _] |- _ => destruct (Nat.eqb_spec x y)
  end.

Lemma size_lt b : Inv b -> size b < bsize b.
Proof. unfold Inv, size; intros [H1 H2]; cs; lia. Qed.

Lemma mod_wrap n k : k < 2 * n -> k mod n = wrap n k.
Proof.
  unfold wrap; intros H. destruct (Nat.leb_spec n k).
  - rewrite <- (Nat.mod_small (k - n) n) by lia.
    replace k with (k - n + 1 * n) at 1 by lia. apply Nat.mod_add. lia.
  - apply Nat.mod_small; lia.
Qed.

Lemma Rep_construct (d : T) c : Rep (construct d c) c [].
Proof.
  unfold Rep, Inv, construct, bsize, size; cbn. rewrite repeat_length.
  repeat split; try lia. 
Qed.

Lemma Rep_clear b c l : Rep b c l -> Rep (clear b) c [].
Proof.
  intros (HI & HC & HL & HN). unfold Rep, Inv, clear, bsize, size in *; cbn.
  repeat split; try lia.
Qed.

Lemma Rep_empty b c l : Rep b c l -> empty b = (length l =? 0).
Proof.
  intros ((H1 & H2) & HC & HL & _). rewrite HL. unfold empty, size.
  destruct (Nat.eqb_spec (m_write b) (m_read b)); symmetry; [apply Nat.eqb_eq|apply Nat.eqb_neq]; cs; lia.
Qed.

Lemma Rep_full b c l : Rep b c l -> full b = (length l =? c).
Proof.
  intros ((H1 & H2) & HC & HL & _). rewrite HL. unfold full, size. rewrite mod_wrap by lia. unfold wrap.
  destruct (Nat.eqb_spec (if bsize b <=? m_write b + 1 then m_write b + 1 - bsize b else m_write b + 1) (m_read b));
  symmetry; [apply Nat.eqb_eq|apply Nat.eqb_neq]; cs; lia.
Qed.

Lemma Rep_capacity b c l : Rep b c l -> capacity b = c.
Proof. intros (_ & HC & _). unfold capacity; lia. Qed.

Lemma Rep_reserve b c l : Rep b c l -> reserve b = c - length l.
Proof. intros H. unfold reserve. rewrite (Rep_capacity _ _ _ H). destruct H as (_ & _ & HL & _). lia. Qed.

Lemma Rep_len b c l : Rep b c l -> length l <= c.
Proof. intros (HI & HC & HL & _). pose proof (size_lt _ HI). lia. Qed.

(* dropping k elements *)
Lemma Rep_drop b c l k : Rep b c l -> k <= length l ->
  Rep (RB (m_buffer b) (m_write b) (wrap (bsize b) (m_read b + k))) c (skipn k l).
Proof.
  intros (HI & HC & HL & HN) Hk. pose proof (size_lt _ HI) as HS. destruct HI as [H1 H2].
  unfold Rep, Inv; cbn [m_buffer m_write m_read bsize].
  change (bsize (RB (m_buffer b) (m_write b) (wrap (bsize b) (m_read b + k)))) with (bsize b).
  repeat split; auto.
  - unfold wrap; cs; lia.
  - rewrite skipn_length, HL. rewrite HL in Hk. unfold size in *; cbn [m_buffer m_write m_read].
    change (bsize (RB (m_buffer b) (m_write b) (wrap (bsize b) (m_read b + k)))) with (bsize b).
    unfold wrap; cs; lia.
  - intros i Hi. rewrite skipn_length in Hi. rewrite nth_error_skipn, HN by lia. f_equal.
    rewrite HL in Hk, Hi. unfold size, wrap in *; cs; lia.
Qed.

Lemma skip_Ok b c l x : Rep b c (x :: l) -> exists b', skip b = Ok b' /\ Rep b' c l /\
   m_buffer b' = m_buffer b /\ m_write b' = m_write b.
Proof.
  intros H. pose proof (Rep_drop _ _ _ 1 H ltac:(cbn; lia)) as HD. cbn [skipn] in HD.
  pose proof (Rep_empty _ _ _ H) as HE. unfold empty in HE. cbn [length Nat.eqb] in HE.
  unfold skip. rewrite HE. eexists; split; [reflexivity|]. split; [|auto].
  replace (if bsize b <=? m_read b + 1 then 0 else m_read b + 1) with (wrap (bsize b) (m_read b + 1)); auto.
  destruct H as ((H1 & H2) & _). unfold wrap; cs; lia.
Qed.

Lemma skip_Throw b c : Rep b c [] -> skip b = Throw.
Proof. intros H. unfold skip. pose proof (Rep_empty _ _ _ H) as HE. unfold empty in HE. cbn in HE. rewrite HE. auto. Qed.

Lemma read_Ok b c l x : Rep b c (x :: l) -> exists b', read b = Ok (b', x) /\ Rep b' c l.
Proof.
  intros H. destruct (skip_Ok _ _ _ _ H) as (b' & HS & HR & _).
  exists b'; split; auto. unfold read. unfold skip in HS.
  destruct (m_write b =? m_read b); [discriminate|]. injection HS as <-.
  destruct H as ((H1 & H2) & HC & HL & HN). specialize (HN 0 ltac:(cbn; lia)). cbn in HN.
  rewrite Nat.add_0_r in HN. unfold wrap in HN. cs; try lia; rewrite (vec_get_Ok _ _ x) by congruence; reflexivity.
Qed.

Lemma read_Throw b c : Rep b c [] -> read b = Throw.
Proof. intros H. unfold read. pose proof (Rep_empty _ _ _ H) as HE. unfold empty in HE. cbn in HE. rewrite HE. auto. Qed.

Lemma skip_n_Rep b c l n : Rep b c l -> Rep (skip_n b n) c (skipn n l).
Proof.
  intros H. unfold skip_n. assert (HL : length l = size b) by apply H.
  destruct (Nat.leb_spec (size b) n).
  - rewrite skipn_all2 by lia. eapply Rep_clear; eauto.
  - rewrite mod_wrap. + apply Rep_drop; auto; lia.
    + destruct H as (HI & _). pose proof (size_lt _ HI). destruct HI. lia.
Qed.

Lemma at_Ok b c l i x : Rep b c l -> nth_error l i = Some x -> at_ b i = Ok x.
Proof.
  intros (HI & HC & HL & HN) Hx. unfold at_, at_pos. pose proof (nth_error_lt _ _ _ Hx).
  destruct (Nat.ltb_spec i (size b)); [|lia]. cbn [bind].
  rewrite HN in Hx by auto. apply vec_get_Ok. rewrite <- Hx. unfold wrap. rewrite (Nat.add_comm i). reflexivity.
Qed.

Lemma at_Throw b c l i : Rep b c l -> length l <= i -> at_ b i = Throw.
Proof.
  intros (HI & HC & HL & HN) Hi. unfold at_, at_pos. destruct (Nat.ltb_spec i (size b)); [lia|]. reflexivity.
Qed.

Lemma wrap_inj b i j : Inv b -> i < bsize b -> j < bsize b ->
  wrap (bsize b) (m_read b + i) = wrap (bsize b) (m_read b + j) -> i = j.
Proof. unfold Inv, wrap; intros [H1 H2] Hi Hj; cs; lia. Qed.

Lemma wrap_lt b i : Inv b -> i < bsize b -> wrap (bsize b) (m_read b + i) < bsize b.
Proof. unfold Inv, wrap; intros [H1 H2] Hi; cs; lia. Qed.

Lemma at_assign_Ok b c l i v : Rep b c l -> i < length l ->
  exists b', at_assign b i v = Ok b' /\ Rep b' c (firstn i l ++ v :: skipn (S i) l).
Proof.
  intros (HI & HC & HL & HN) Hi. pose proof (size_lt _ HI) as HS. unfold at_assign, at_pos.
  destruct (Nat.ltb_spec i (size b)); [|lia]. cbn [bind].
  assert (HW : wrap (bsize b) (m_read b + i) < bsize b) by (apply wrap_lt; auto; lia).
  fold (wrap (bsize b) (i + m_read b)). rewrite (Nat.add_comm i).
  rewrite vec_set_Ok by exact HW. cbn [bind]. eexists; split; [reflexivity|].
  assert (HB : bsize (RB (list_set (m_buffer b) (wrap (bsize b) (m_read b + i)) v) (m_write b) (m_read b)) = bsize b)
    by (unfold bsize; cbn; apply list_set_length).
  assert (HLL : length (firstn i l ++ v :: skipn (S i) l) = length l)
    by (rewrite app_length, firstn_length; cbn [length]; rewrite skipn_length; lia).
  split; [|split; [|split]].
  - destruct HI. split; rewrite HB; cbn; auto.
  - rewrite HB; auto.
  - rewrite HLL, HL. unfold size. rewrite HB. reflexivity.
  - intros j Hj. rewrite HLL in Hj. rewrite HB. cbn [m_buffer m_read].
    rewrite nth_error_app, firstn_length, Nat.min_l by lia.
    destruct (Nat.ltb_spec j i).
    + rewrite nth_error_firstn. destruct (Nat.ltb_spec j i); [|lia].
      rewrite nth_error_list_set_ne; [apply HN; lia|].
      intros E. apply wrap_inj in E; auto; lia.
    + destruct (Nat.eq_dec j i) as [->|Hne].
      * rewrite Nat.sub_diag. cbn. rewrite nth_error_list_set_eq; auto.
      * replace (j - i) with (S (j - i - 1)) by lia. cbn [nth_error]. rewrite nth_error_skipn.
        replace (S i + (j - i - 1)) with j by lia.
        rewrite nth_error_list_set_ne; [apply HN; lia|].
        intros E. apply wrap_inj in E; auto; lia.
Qed.

Lemma at_assign_Throw b c l i v : Rep b c l -> length l <= i -> at_assign b i v = Throw.
Proof.
  intros (HI & HC & HL & HN) Hi. unfold at_assign, at_pos. destruct (Nat.ltb_spec i (size b)); [lia|]. reflexivity.
Qed.

(* storing one value in the cell at m_write and advancing *)
Lemma push_Rep b c l v : Rep b c l -> length l < c ->
  Rep (RB (list_set (m_buffer b) (m_write b) v) (wrap (bsize b) (m_write b + 1)) (m_read b)) c (l ++ [v]).
Proof.
  intros (HI & HC & HL & HN) Hlt. pose proof (size_lt _ HI) as HS.
  assert (HB : bsize (RB (list_set (m_buffer b) (m_write b) v) (wrap (bsize b) (m_write b + 1)) (m_read b)) = bsize b)
    by (unfold bsize; cbn; apply list_set_length).
  assert (HWR : m_write b = wrap (bsize b) (m_read b + length l)).
  { rewrite HL. destruct HI. unfold wrap, size in *. cs; lia. }
  split; [|split; [|split]].
  - destruct HI. split; rewrite HB; cbn; unfold wrap; cs; lia.
  - rewrite HB; auto.
  - rewrite app_length, HL. unfold size. rewrite HB. cbn [m_read m_write length]. 
    rewrite HL in Hlt. destruct HI. unfold size, wrap in *. cs; lia.
  - intros i Hi. rewrite HB. cbn [m_buffer m_read]. rewrite app_length in Hi; cbn in Hi.
    rewrite nth_error_app. destruct (Nat.ltb_spec i (length l)).
    + rewrite nth_error_list_set_ne; [apply HN; auto|].
      rewrite HWR. intros E. apply wrap_inj in E; auto; lia.
    + replace i with (length l) by lia. rewrite Nat.sub_diag, <- HWR. cbn.
      rewrite nth_error_list_set_eq; auto. apply HI.
Qed.

Lemma write_room b c l v ow : Rep b c l -> length l < c ->
  exists b', write b v ow = Ok b' /\ Rep b' c (l ++ [v]).
Proof.
  intros H Hlt. pose proof (push_Rep _ _ _ v H Hlt) as HP.
  destruct H as (HI & HC & HL & HN).
  eexists; split; [|exact HP].
  unfold write. rewrite vec_set_Ok by apply HI. cbn [bind].
  assert (E : (if bsize b <=? m_write b + 1 then 0 else m_write b + 1) = wrap (bsize b) (m_write b + 1)).
  { destruct HI. unfold wrap; cs; lia. }
  rewrite E. destruct (Nat.eqb_spec (wrap (bsize b) (m_write b + 1)) (m_read b)) as [Hf|Hf]; auto.
  exfalso. rewrite HL in Hlt. destruct HI. unfold wrap, size in *. cs; lia.
Qed.

Lemma full_cond b c l : Rep b c l -> length l = c ->
  (if bsize b <=? m_write b + 1 then 0 else m_write b + 1) = m_read b.
Proof. intros ((H1 & H2) & HC & HL & HN) E. rewrite HL in E. unfold size in *. cs; lia. Qed.

Lemma write_full_no b c l v : Rep b c l -> length l = c -> write b v false = Throw.
Proof. intros H E. unfold write. rewrite (full_cond _ _ _ H E), Nat.eqb_refl. reflexivity. Qed.

Lemma write_full_ow b c l x v : Rep b c (x :: l) -> length (x :: l) = c ->
  exists b', write b v true = Ok b' /\ Rep b' c (l ++ [v]).
Proof.
  intros H E. unfold write. pose proof (full_cond _ _ _ H E) as HF. rewrite HF, Nat.eqb_refl.
  destruct (skip_Ok _ _ _ _ H) as (b' & HS & HR & HB & HW). rewrite HS; cbn [bind].
  assert (Hlt : length l < c) by (cbn in E; lia).
  pose proof (push_Rep _ _ _ v HR Hlt) as HP.
  rewrite vec_set_Ok by apply HR. cbn [bind]. eexists; split; [reflexivity|].
  replace (m_read b) with (wrap (bsize b') (m_write b' + 1)); auto.
  rewrite <- HF, HW. unfold bsize; rewrite HB. fold (bsize b). 
  destruct H as ((H1 & H2) & _). unfold wrap. cs; lia.
Qed.

Lemma write_cap0 b v ow : Rep b 0 [] -> write b v ow = Throw.
Proof.
  intros H. unfold write. rewrite (full_cond _ _ _ H eq_refl), Nat.eqb_refl.
  destruct ow; auto. rewrite (skip_Throw _ _ H). reflexivity.
Qed.

Lemma fakeWrite_Rep b c l n : Rep b c l ->
  exists xs, length xs = Nat.min n (c - length l) /\ Rep (fakeWrite b n) c (l ++ xs) /\
  (forall i, i < length xs -> nth_error xs i = nth_error (m_buffer b) (wrap (bsize b) (m_write b + i))).
Proof.
  intros H. pose proof (Rep_reserve _ _ _ H) as HR. pose proof (Rep_len _ _ _ H) as HLE.
  destruct H as (HI & HC & HL & HN). pose proof (size_lt _ HI) as HS.
  unfold fakeWrite. rewrite HR.
  replace (if c - length l <? n then c - length l else n) with (Nat.min n (c - length l))
    by (destruct (Nat.ltb_spec (c - length l) n); lia).
  set (k := Nat.min n (c - length l)).
  assert (Hk : k <= c - length l) by (unfold k; lia).
  rewrite mod_wrap by (destruct HI; lia).
  assert (HB : bsize (RB (m_buffer b) (wrap (bsize b) (m_write b + k)) (m_read b)) = bsize b) by reflexivity.
  assert (Hcell : forall i, i < k -> wrap (bsize b) (m_write b + i) < bsize b).
  { intros i Hi. destruct HI. unfold wrap; cs; lia. }
  assert (exists xs, length xs = k /\ forall i, i < k -> nth_error xs i = nth_error (m_buffer b) (wrap (bsize b) (m_write b + i))) as (xs & Hxl & Hxn).
  { clear -Hcell. induction k as [|k IH].
    - exists []; split; auto. lia.
    - destruct IH as (xs & E & Hn). { intros; apply Hcell; lia. }
      destruct (nth_error_Some_lt (m_buffer b) _ (Hcell k ltac:(lia))) as [x Hx].
      exists (xs ++ [x]). split. { rewrite app_length; cbn; lia. }
      intros i Hi. rewrite nth_error_app. destruct (Nat.ltb_spec i (length xs)).
      + apply Hn; lia.
      + replace i with k by lia. rewrite E, Nat.sub_diag. cbn. congruence. }
  exists xs. split; [auto|]. split; [|rewrite Hxl; auto].
  split; [|split; [|split]].
  - destruct HI. split; rewrite HB; cbn; unfold wrap; cs; lia.
  - rewrite HB; auto.
  - rewrite app_length, Hxl, HL. rewrite HL in Hk, HLE. destruct HI. unfold size in *. rewrite HB. cbn [m_write m_read].
    unfold wrap. cs; lia.
  - intros i Hi. rewrite app_length in Hi. rewrite nth_error_app, HB. cbn [m_buffer m_read].
    destruct (Nat.ltb_spec i (length l)).
    + apply HN; auto.
    + rewrite Hxn by lia. f_equal. rewrite HL in *. destruct HI. unfold wrap, size in *. cs; lia.
Qed.

Lemma copy_loop_Ok (old : list T) todo : forall buf i r,
  i + todo <= length buf -> todo <= length old -> r < length old ->
  exists buf', copy_loop old buf i r todo = Ok buf' /\ length buf' = length buf /\
   (forall j, j < i -> nth_error buf' j = nth_error buf j) /\
   (forall j, j < todo -> nth_error buf' (i + j) = nth_error old (wrap (length old) (r + j))).
Proof.
  induction todo as [|todo IH]; intros buf i r Hb Ho Hr; cbn [copy_loop].
  - exists buf. repeat split; auto. lia.
  - destruct (nth_error_Some_lt old r Hr) as [x Hx]. rewrite (vec_get_Ok _ _ _ Hx); cbn [bind].
    rewrite vec_set_Ok by lia. cbn [bind].
    set (r' := if length old <=? r + 1 then 0 else r + 1).
    assert (Hr' : r' < length old) by (unfold r'; cs; lia).
    destruct (IH (list_set buf i x) (i + 1) r') as (buf' & HE & HL & HP & HQ).
    { rewrite list_set_length; lia. } { lia. } { auto. }
    exists buf'. split; [exact HE|]. split. { rewrite HL, list_set_length; auto. }
    split.
    + intros j Hj. rewrite HP by lia. apply nth_error_list_set_ne; lia.
    + intros [|j] Hj.
      * rewrite Nat.add_0_r. rewrite HP by lia. rewrite nth_error_list_set_eq by lia.
        rewrite Nat.add_0_r. unfold wrap. cs; try lia. congruence.
      * replace (i + S j) with (i + 1 + j) by lia. rewrite HQ by lia. f_equal.
        unfold r', wrap. cs; lia.
Qed.

Lemma setCapacity_Rep d b c l c' : Rep b c l ->
  exists b', setCapacity d b c' = Ok b' /\ Rep b' c' (skipn (length l - c') l).
Proof.
  intros (HI & HC & HL & HN). pose proof (size_lt _ HI) as HS. unfold setCapacity.
  set (ns := if c' <? size b then c' else size b).
  assert (Hns : ns = Nat.min c' (size b)) by (unfold ns; destruct (Nat.ltb_spec c' (size b)); lia).
  set (r := if length (m_buffer b) <=? _ then _ else _).
  assert (Hr : r = wrap (bsize b) (m_read b + (size b - ns))) by reflexivity.
  assert (Hvl : length (vec_resize d (m_buffer b) (c' + 1)) = c' + 1).
  { unfold vec_resize. rewrite app_length, firstn_length, repeat_length. lia. }
  destruct (copy_loop_Ok (m_buffer b) ns (vec_resize d (m_buffer b) (c' + 1)) 0 r) as (buf' & HE & HL' & _ & HQ).
  { lia. } { fold (bsize b); lia. } { fold (bsize b). rewrite Hr. apply wrap_lt; auto; lia. }
  rewrite HE; cbn [bind]. eexists; split; [reflexivity|].
  assert (HB : bsize (RB buf' ns 0) = c' + 1) by (unfold bsize; cbn; lia).
  assert (HSL : length (skipn (length l - c') l) = ns) by (rewrite skipn_length; lia).
  split; [|split; [|split]].
  - split; rewrite HB; cbn; lia.
  - auto.
  - rewrite HSL. unfold size; cbn. lia.
  - intros i Hi. rewrite HSL in Hi. rewrite HB. cbn [m_buffer m_read]. rewrite nth_error_skipn, HN by lia.
    replace (wrap (c' + 1) (0 + i)) with (0 + i) by (unfold wrap; cs; lia).
    rewrite HQ by auto. f_equal. fold (bsize b). rewrite Hr. rewrite HL. 
    rewrite Hns in *. destruct HI. clear -H H0 HS Hi HC. unfold wrap, size in *. cs; lia.
Qed.

Lemma client_store_Ok (xs : list T) : forall buf s, s + length xs <= length buf ->
  exists buf', client_store buf s xs = Ok buf' /\ length buf' = length buf /\
   forall j, nth_error buf' j = if (s <=? j) && (j <? s + length xs) then nth_error xs (j - s) else nth_error buf j.
Proof.
  induction xs as [|x xs IH]; intros buf s H; cbn [client_store length] in *.
  - exists buf. repeat split; auto. intros j. destruct (_ && _) eqn:E; auto.
    apply andb_prop in E. destruct E as [E1 E2]. apply Nat.leb_le in E1. apply Nat.ltb_lt in E2. lia.
  - rewrite vec_set_Ok by lia. cbn [bind].
    destruct (IH (list_set buf s x) (s + 1)) as (buf' & HE & HL & HN). { rewrite list_set_length; lia. }
    exists buf'; split; auto. split. { rewrite HL, list_set_length; auto. }
    intros j. rewrite HN.
    destruct (Nat.leb_spec (s + 1) j); cbn [andb].
    + destruct (Nat.leb_spec s j); [|lia]; cbn [andb].
      replace (s + 1 + length xs) with (s + S (length xs)) by lia.
      destruct (Nat.ltb_spec j (s + S (length xs))).
      * replace (j - s) with (S (j - (s + 1))) by lia. reflexivity.
      * apply nth_error_list_set_ne; lia.
    + destruct (Nat.leb_spec s j); cbn [andb].
      * replace j with s by lia. destruct (Nat.ltb_spec s (s + S (length xs))); [|lia].
        rewrite Nat.sub_diag. cbn. apply nth_error_list_set_eq. lia.
      * apply nth_error_list_set_ne; lia.
Qed.

Lemma client_fill_Rep b c l xs : Rep b c l ->
  exists b', client_fill b xs = Ok b' /\ Rep b' c (l ++ firstn (c - length l) xs).
Proof.
  intros H. pose proof (Rep_len _ _ _ H) as HLE. pose proof (Rep_reserve _ _ _ H) as HRS.
  destruct H as (HI & HC & HL & HN). pose proof (size_lt _ HI) as HS.
  unfold client_fill.
  destruct (emptyArrayOne b) as [s1 n1] eqn:E1. destruct (emptyArrayTwo b) as [s2 n2] eqn:E2.
  assert (HA : s1 = m_write b /\ s1 + n1 <= bsize b /\ s2 + n2 <= bsize b /\ n1 + n2 = c - length l /\
               (n2 = 0 \/ (s2 = 0 /\ s1 + n1 = bsize b)) /\ (n2 = 0 \/ n2 < m_read b) /\
               (m_write b < m_read b -> s1 + n1 < m_read b)).
  { rewrite HL. destruct HI. unfold emptyArrayOne, emptyArrayTwo, size in *.
    destruct (Nat.leb_spec (m_read b) (m_write b)); [destruct (Nat.eqb_spec (m_read b) 0)|];
    injection E1 as <- <-; injection E2 as <- <-; try destruct (Nat.ltb_spec 0 (m_read b)); lia. }
  destruct HA as (Hs1 & Hb1 & Hb2 & Hn & Hcase & Hn2 & Hwr).
  destruct (client_store_Ok (firstn n1 xs) (m_buffer b) s1) as (buf1 & HE1 & HL1 & HN1).
  { rewrite firstn_length. fold (bsize b). lia. }
  rewrite HE1; cbn [bind].
  destruct (client_store_Ok (firstn n2 (skipn n1 xs)) buf1 s2) as (buf2 & HE2 & HL2 & HN2).
  { rewrite firstn_length, HL1. fold (bsize b). lia. }
  rewrite HE2; cbn [bind]. eexists; split; [reflexivity|].
  set (b2 := RB buf2 (m_write b) (m_read b)).
  assert (HB2 : bsize b2 = bsize b) by (unfold bsize, b2; cbn; lia).
  assert (HN2' : forall j, nth_error buf2 j = 
     if (s2 <=? j) && (j <? s2 + Nat.min n2 (length xs - n1)) then nth_error xs (n1 + (j - s2)) else
     if (s1 <=? j) && (j <? s1 + Nat.min n1 (length xs)) then nth_error xs (j - s1) else nth_error (m_buffer b) j).
  { intros j. rewrite HN2, HN1, !firstn_length, skipn_length.
    destruct (Nat.leb_spec s2 j), (Nat.ltb_spec j (s2 + Nat.min n2 (length xs - n1))); cbn [andb].
    { rewrite nth_error_firstn. destruct (Nat.ltb_spec (j - s2) n2); [|lia]. apply nth_error_skipn. }
    all: destruct (Nat.leb_spec s1 j), (Nat.ltb_spec j (s1 + Nat.min n1 (length xs))); cbn [andb]; auto;
         rewrite nth_error_firstn; destruct (Nat.ltb_spec (j - s1) n1); auto; lia. }
  assert (HR2 : Rep b2 c l).
  { split; [|split; [|split]].
    - destruct HI; split; rewrite HB2; cbn; auto.
    - lia.
    - rewrite HL. unfold size. rewrite HB2. reflexivity.
    - intros i Hi. rewrite HN by auto. rewrite HB2. cbn [m_buffer m_read b2]. rewrite HN2'.
      rewrite HL in Hi. destruct HI as [Hr Hw].
      set (p := wrap (bsize b) (m_read b + i)).
      assert (Hp : (m_read b <= m_write b -> m_read b <= p < m_write b) /\ 
                   (m_write b < m_read b -> p < m_write b \/ m_read b <= p < bsize b)).
      { unfold p, wrap, size in *. cs; lia. }
      destruct (Nat.leb_spec s2 p), (Nat.ltb_spec p (s2 + Nat.min n2 (length xs - n1))); cbn [andb]; try (exfalso; lia);
      destruct (Nat.leb_spec s1 p), (Nat.ltb_spec p (s1 + Nat.min n1 (length xs))); cbn [andb]; auto; exfalso; lia. }
  destruct (fakeWrite_Rep b2 c l (length xs) HR2) as (ys & Hyl & HYR & Hyn).
  replace (firstn (c - length l) xs) with ys; auto.
  apply nth_error_ext_len. { rewrite firstn_length; lia. }
  intros i Hi. rewrite Hyn by auto. rewrite HB2. cbn [m_buffer m_write b2]. rewrite nth_error_firstn.
  destruct (Nat.ltb_spec i (c - length l)); [|lia].
  rewrite HN2'. rewrite HL in *. destruct HI as [Hr Hw].
  destruct (Nat.lt_ge_cases i n1) as [C|C].
  - assert (Ep : wrap (bsize b) (m_write b + i) = m_write b + i) by (unfold wrap; cs; lia).
    rewrite Ep.
    destruct (Nat.leb_spec s2 (m_write b + i)), (Nat.ltb_spec (m_write b + i) (s2 + Nat.min n2 (length xs - n1))); cbn [andb]; try (exfalso; unfold size in *; cs; lia);
    destruct (Nat.leb_spec s1 (m_write b + i)), (Nat.ltb_spec (m_write b + i) (s1 + Nat.min n1 (length xs))); cbn [andb]; try (exfalso; lia);
    f_equal; lia.
  - assert (Hn2p : n2 <> 0) by lia. destruct Hcase as [|[Hs2 Hs1n]]; [lia|].
    assert (Ep : wrap (bsize b) (m_write b + i) = i - n1) by (unfold wrap; cs; lia).
    rewrite Ep. subst s2.
    destruct (Nat.leb_spec 0 (i - n1)), (Nat.ltb_spec (i - n1) (0 + Nat.min n2 (length xs - n1))); cbn [andb]; try (exfalso; lia).
    f_equal. lia.
Qed.

Lemma client_read_Ok b s n l : s + n <= bsize b -> length l = n ->
  (forall i, i < n -> nth_error l i = nth_error (m_buffer b) (s + i)) -> client_read b (s, n) = Ok l.
Proof.
  intros H HL HN. unfold client_read. destruct (Nat.leb_spec (s + n) (bsize b)); [|lia]. f_equal.
  apply nth_error_ext_len. { rewrite firstn_length, skipn_length. fold (bsize b); lia. }
  intros i Hi. rewrite firstn_length in Hi. rewrite nth_error_firstn. destruct (Nat.ltb_spec i n); [|lia].
  rewrite nth_error_skipn. symmetry. apply HN; lia.
Qed.

Lemma arrays_Ok b c l : Rep b c l -> exists l1 l2,
  client_read b (arrayOne b) = Ok l1 /\ client_read b (arrayTwo b) = Ok l2 /\ l1 ++ l2 = l.
Proof.
  intros (HI & HC & HL & HN). pose proof (size_lt _ HI) as HS. destruct HI as [Hr Hw]. unfold arrayOne, arrayTwo, size in *.
  destruct (Nat.leb_spec (m_read b) (m_write b)).
  - exists l, []. split; [|split].
    + apply client_read_Ok; [lia|auto|]. intros i Hi. rewrite HN by lia. f_equal. unfold wrap; cs; lia.
    + apply client_read_Ok; [lia|auto|]. lia.
    + apply app_nil_r.
  - exists (firstn (bsize b - m_read b) l), (skipn (bsize b - m_read b) l). split; [|split].
    + apply client_read_Ok; [lia| rewrite firstn_length; lia|]. intros i Hi.
      rewrite nth_error_firstn. destruct (Nat.ltb_spec i (bsize b - m_read b)); [|lia].
      rewrite HN by lia. f_equal. unfold wrap; cs; lia.
    + apply client_read_Ok; [lia| rewrite skipn_length; lia|]. intros i Hi.
      rewrite nth_error_skipn. rewrite HN by lia. f_equal. unfold wrap; cs; lia.
    + apply firstn_skipn.
Qed.

(* ---------- iterators ---------- *)
Local Open Scope Z_scope.

Definition pos_iter base b (i : nat) : iter :=
  It (base + Z.of_nat (wrap (bsize b) (m_read b + i))) base (base + Z.of_nat (bsize b)) (base + Z.of_nat (m_read b)).

Ltac zcs :=
  repeat match goal with
  | |- context [if ?x <=? ?y then _ else _] => destruct (Z.leb_spec x y)
  | |- context [if ?x <? ?y then _ else _] => destruct (Z.ltb_spec x y)
  | |- context [if ?x =? ?y then _ else _] => destruct (Z.eqb_spec x y)
  end.

Lemma begin_pos base b : Inv b -> begin_ base b = pos_iter base b 0.
Proof. intros [H1 H2]. unfold begin_, pos_iter, wrap. rewrite Nat.add_0_r. cs; [lia|auto]. Qed.

Lemma end_pos base b : Inv b -> end_ base b = pos_iter base b (size b).
Proof.
  intros [H1 H2]. unfold end_, pos_iter. f_equal. f_equal. unfold wrap, size. cs; lia.
Qed.

Lemma it_add_pos base b i k : Inv b -> (i < bsize b)%nat -> 0 <= Z.of_nat i + k < Z.of_nat (bsize b) ->
  it_add (pos_iter base b i) k = pos_iter base b (Z.to_nat (Z.of_nat i + k)).
Proof.
  intros [H1 H2] Hi Hk. unfold it_add, pos_iter, with_cur, wrap; cbn [m_current m_cend m_cbegin m_begin].
  f_equal. cs; zcs; lia.
Qed.

Lemma it_incr_pos base b i : Inv b -> (S i < bsize b)%nat -> it_incr (pos_iter base b i) = pos_iter base b (S i).
Proof.
  intros [H1 H2] Hi. unfold it_incr, pos_iter, with_cur, wrap; cbn [m_current m_cend m_cbegin m_begin].
  f_equal. cs; zcs; lia.
Qed.

Lemma it_decr_pos base b i : Inv b -> (S i < bsize b)%nat -> it_decr (pos_iter base b (S i)) = pos_iter base b i.
Proof.
  intros [H1 H2] Hi. unfold it_decr, pos_iter, with_cur, wrap; cbn [m_current m_cend m_cbegin m_begin].
  f_equal. cs; zcs; lia.
Qed.

Lemma it_diff_pos base b i j : Inv b -> (i < bsize b)%nat -> (j < bsize b)%nat ->
  it_diff (pos_iter base b i) (pos_iter base b j) = Z.of_nat i - Z.of_nat j.
Proof.
  intros [H1 H2] Hi Hj. unfold it_diff, pos_iter; cbn [m_current m_cend m_cbegin m_begin].
  unfold wrap. cs;
  repeat match goal with
  | |- context [?x <=? ?y] => destruct (Z.leb_spec x y)
  | |- context [?x <? ?y] => destruct (Z.ltb_spec x y)
  end; cbn [andb orb]; lia.
Qed.

Lemma it_eq_pos base b i j : Inv b -> (i < bsize b)%nat -> (j < bsize b)%nat ->
  it_eq (pos_iter base b i) (pos_iter base b j) = (i =? j)%nat.
Proof.
  intros [H1 H2] Hi Hj. unfold it_eq, pos_iter; cbn [m_current].
  destruct (Nat.eqb_spec i j) as [->|]; [apply Z.eqb_refl|]. apply Z.eqb_neq. unfold wrap. cs; lia.
Qed.

Lemma it_deref_pos base b c l i : Rep b c l -> (i < length l)%nat -> 
  it_deref base b (pos_iter base b i) = match nth_error l i with Some x => Ok x | None => UB end.
Proof.
  intros (HI & HC & HL & HN) Hi. pose proof (size_lt _ HI) as HS. unfold it_deref, pos_iter; cbn [m_current].
  pose proof (wrap_lt b i HI ltac:(lia)).
  replace (base + Z.of_nat (wrap (bsize b) (m_read b + i)) - base) with (Z.of_nat (wrap (bsize b) (m_read b + i))) by lia.
  destruct (Z.leb_spec 0 (Z.of_nat (wrap (bsize b) (m_read b + i)))); [|lia].
  destruct (Z.ltb_spec (Z.of_nat (wrap (bsize b) (m_read b + i))) (Z.of_nat (bsize b))); [|lia]. cbn [andb].
  rewrite Nat2Z.id. rewrite HN by auto. reflexivity.
Qed.

Lemma it_collect_pos base b c l : Rep b c l -> forall k i fuel, (i + k = length l)%nat -> (k <= fuel)%nat ->
  it_collect base b (pos_iter base b i) (pos_iter base b (length l)) fuel = Some (Ok (skipn i l)).
Proof.
  intros H. pose proof H as (HI & HC & HL & HN). pose proof (size_lt _ HI) as HS.
  induction k as [|k IH]; intros i fuel Hi Hf; destruct fuel as [|fuel]; cbn [it_collect]; try lia;
  rewrite it_eq_pos by (auto; lia).
  - destruct (Nat.eqb_spec i (length l)); [|lia]. rewrite skipn_all2 by lia. auto.
  - destruct (Nat.eqb_spec i (length l)); [|lia]. rewrite skipn_all2 by lia. auto.
  - destruct (Nat.eqb_spec i (length l)); [lia|].
    rewrite (it_deref_pos _ _ _ _ _ H) by lia.
    destruct (nth_error_Some_lt l i ltac:(lia)) as [x Hx]. rewrite Hx.
    rewrite it_incr_pos by (auto; lia). rewrite IH by lia.
    f_equal. f_equal. clear -Hx. revert i Hx; induction l as [|y l IHl]; intros [|i] Hx; cbn in *; try discriminate; auto. congruence.
Qed.
Local Close Scope Z_scope.

Lemma traverse_Ok base b c l : Rep b c l -> it_collect base b (begin_ base b) (end_ base b) (bsize b) = Some (Ok l).
Proof.
  intros H. pose proof H as (HI & HC & HL & HN). pose proof (size_lt _ HI) as HS.
  rewrite begin_pos, end_pos by auto. rewrite <- HL. rewrite (it_collect_pos _ _ _ _ H (length l)); auto. lia.
Qed.

(* ---------- refinement ---------- *)
Lemma step_refines d b c l o b' x : Rep b c l -> step d b o = (b', x) ->
  exists c' l', spec_step (Q c l) o (Q c' l') x /\ Rep b' c' l'.
Proof.
  intros H HS. pose proof (Rep_len _ _ _ H) as HLE. assert (HL : length l = size b) by apply H.
  destruct o; cbn [step] in HS.
  - (* Write *)
    destruct (Nat.eq_dec (length l) c) as [Efull|Nfull].
    + destruct overwrite.
      * destruct l as [|y l].
        -- cbn in Efull; subst c. rewrite (write_cap0 _ _ _ H) in HS. cbn in HS. injection HS as <- <-.
           do 2 eexists; split; [constructor|auto].
        -- destruct (write_full_ow _ _ _ _ v H Efull) as (b1 & E & HR). rewrite E in HS; cbn in HS. injection HS as <- <-.
           do 2 eexists; split; [apply S_write_overwrite; auto|auto].
      * rewrite (write_full_no _ _ _ v H Efull) in HS; cbn in HS. injection HS as <- <-.
        do 2 eexists; split; [apply S_write_full; auto|auto].
    + destruct (write_room _ _ _ v overwrite H ltac:(lia)) as (b1 & E & HR). rewrite E in HS; cbn in HS. injection HS as <- <-.
      do 2 eexists; split; [apply S_write_room; lia|auto].
  - (* Read *) destruct l as [|y l].
    + rewrite (read_Throw _ _ H) in HS; cbn in HS; injection HS as <- <-. do 2 eexists; split; [constructor|auto].
    + destruct (read_Ok _ _ _ _ H) as (b1 & E & HR). rewrite E in HS; cbn in HS; injection HS as <- <-.
      do 2 eexists; split; [constructor|auto].
  - (* Skip *) destruct l as [|y l].
    + rewrite (skip_Throw _ _ H) in HS; cbn in HS; injection HS as <- <-. do 2 eexists; split; [constructor|auto].
    + destruct (skip_Ok _ _ _ _ H) as (b1 & E & HR & _). rewrite E in HS; cbn in HS; injection HS as <- <-.
      do 2 eexists; split; [constructor|auto].
  - (* SkipN *) injection HS as <- <-. do 2 eexists; split; [constructor|apply skip_n_Rep; auto].
  - (* Clear *) injection HS as <- <-. do 2 eexists; split; [constructor|eapply Rep_clear; eauto].
  - (* SetCapacity *) destruct (setCapacity_Rep d _ _ _ n H) as (b1 & E & HR). rewrite E in HS; cbn in HS; injection HS as <- <-.
    do 2 eexists; split; [constructor|auto].
  - (* FakeWrite *) injection HS as <- <-. destruct (fakeWrite_Rep _ _ _ n H) as (xs & Hx & HR & _).
    do 2 eexists; split; [apply S_fakewrite; exact Hx|auto].
  - (* Fill *) destruct (client_fill_Rep _ _ _ xs H) as (b1 & E & HR). rewrite E in HS; cbn in HS; injection HS as <- <-.
    do 2 eexists; split; [constructor|auto].
  - injection HS as <- <-. rewrite <- HL. do 2 eexists; split; [constructor|auto].
  - injection HS as <- <-. rewrite (Rep_reserve _ _ _ H). do 2 eexists; split; [constructor|auto].
  - injection HS as <- <-. rewrite (Rep_capacity _ _ _ H). do 2 eexists; split; [constructor|auto].
  - injection HS as <- <-. rewrite (Rep_empty _ _ _ H). do 2 eexists; split; [constructor|auto].
  - injection HS as <- <-. rewrite (Rep_full _ _ _ H). do 2 eexists; split; [constructor|auto].
  - (* At *) destruct (nth_error l i) as [y|] eqn:E.
    + rewrite (at_Ok _ _ _ _ _ H E) in HS; cbn in HS; injection HS as <- <-. do 2 eexists; split; [constructor; eauto|auto].
    + apply nth_error_None in E. rewrite (at_Throw _ _ _ _ H E) in HS; cbn in HS; injection HS as <- <-.
      do 2 eexists; split; [apply S_at_out; auto|auto].
  - (* AtAssign *) destruct (Nat.lt_ge_cases i (length l)) as [C|C].
    + destruct (at_assign_Ok _ _ _ _ v H C) as (b1 & E & HR). rewrite E in HS; cbn in HS; injection HS as <- <-.
      do 2 eexists; split; [constructor; auto|auto].
    + rewrite (at_assign_Throw _ _ _ _ v H C) in HS; cbn in HS; injection HS as <- <-.
      do 2 eexists; split; [apply S_assign_out; auto|auto].
  - (* Front *) unfold front in HS. destruct l as [|y l].
    + rewrite (at_Throw _ _ _ 0 H) in HS by (cbn; lia); cbn in HS; injection HS as <- <-.
      do 2 eexists; split; [constructor|auto].
    + rewrite (at_Ok _ _ _ 0 y H) in HS by reflexivity; cbn in HS; injection HS as <- <-.
      do 2 eexists; split; [constructor|auto].
  - (* Traverse *) rewrite (traverse_Ok _ _ _ _ H) in HS; cbn in HS; injection HS as <- <-.
    do 2 eexists; split; [constructor|auto].
  - (* Arrays *) destruct (arrays_Ok _ _ _ H) as (l1 & l2 & E1 & E2 & E3). rewrite E1, E2 in HS; cbn in HS; injection HS as <- <-.
    rewrite E3. do 2 eexists; split; [constructor|auto].
Qed.

Lemma run_refines d ops : forall b c l b' xs, Rep b c l -> run d b ops = (b', xs) ->
  exists c' l', spec_run (Q c l) ops xs (Q c' l') /\ Rep b' c' l'.
Proof.
  induction ops as [|o ops IH]; intros b c l b' xs H HR; cbn [run] in HR.
  - injection HR as <- <-. do 2 eexists; split; [constructor|auto].
  - destruct (step d b o) as [b1 x] eqn:E1. destruct (run d b1 ops) as [b2 ys] eqn:E2. injection HR as <- <-.
    destruct (step_refines _ _ _ _ _ _ _ H E1) as (c1 & l1 & HS & HR1).
    destruct (IH _ _ _ _ _ HR1 E2) as (c2 & l2 & HS2 & HR2).
    do 2 eexists; split; [econstructor; eauto|auto].
Qed.

Lemma run_from_construct d c ops b' xs : run d (construct d c) ops = (b', xs) ->
  exists c' l', spec_run (Q c []) ops xs (Q c' l') /\ Rep b' c' l'.
Proof. apply run_refines. apply Rep_construct. Qed.

(* the spec is deterministic except for the values exposed by FakeWrite *)
Lemma spec_step_det (q q1 q2 : queue T) o x1 x2 : (forall n, o <> FakeWrite n) ->
  length (q_items q) <= q_cap q ->
  spec_step q o q1 x1 -> spec_step q o q2 x2 -> q1 = q2 /\ x1 = x2.
Proof.
  intros HN HL H1 H2; destruct H1; inversion H2; subst; cbn [q_items q_cap length] in *; auto; try lia; try congruence;
  try (exfalso; eapply HN; reflexivity).
  - split; congruence.
  - match goal with H : nth_error _ _ = Some _ |- _ => pose proof (nth_error_lt _ _ _ H) end; lia.
  - match goal with H : nth_error _ _ = Some _ |- _ => pose proof (nth_error_lt _ _ _ H) end; lia.
Qed.

End P.

Section Reach.
Context {T : Type}.
Implicit Types (b : rb T) (l : list T).

Lemma reachable_Rep (d : T) b : reachable d b -> exists c l, Rep b c l.
Proof.
  intros (c & ops & ->). destruct (run d (construct d c) ops) as [b' xs] eqn:E.
  destruct (run_from_construct _ _ _ _ _ E) as (c' & l' & _ & H). eauto.
Qed.

Lemma Rep_contents b c l : Rep b c l -> contents b l.
Proof. intros H. split; [symmetry; apply H|]. intros i x Hx. eapply at_Ok; eauto. Qed.

Lemma contents_Rep (d : T) b l : reachable d b -> contents b l -> Rep b (capacity b) l.
Proof.
  intros HR [HL HA]. destruct (reachable_Rep _ _ HR) as (c & l' & H).
  rewrite (Rep_capacity _ _ _ H). replace l with l'; auto.
  assert (length l' = length l) by (rewrite <- HL; apply H).
  apply nth_error_ext_len; auto. intros i Hi.
  destruct (nth_error_Some_lt l i ltac:(lia)) as [x Hx]. destruct (nth_error_Some_lt l' i Hi) as [x' Hx'].
  pose proof (at_Ok _ _ _ _ _ H Hx') as E1. rewrite (HA _ _ Hx) in E1. congruence.
Qed.

Lemma reachable_contents (d : T) b : reachable d b -> exists l, contents b l.
Proof. intros H. destruct (reachable_Rep _ _ H) as (c & l & HR). exists l. eapply Rep_contents; eauto. Qed.

Lemma C02_lemma (d : T) b l v : reachable d b -> contents b l ->
  (length l < capacity b -> forall ow, exists b', write b v ow = Ok b' /\
     contents b' (l ++ [v]) /\ capacity b' = capacity b) /\
  (length l = capacity b -> write b v false = Throw) /\
  (forall x r, l = x :: r -> length l = capacity b -> exists b', write b v true = Ok b' /\
     contents b' (r ++ [v]) /\ capacity b' = capacity b) /\
  (capacity b = 0 -> forall ow, write b v ow = Throw).
Proof.
  intros HR HC. pose proof (contents_Rep _ _ _ HR HC) as H. split; [|split; [|split]].
  - intros Hlt ow. destruct (write_room _ _ _ v ow H Hlt) as (b' & E & H').
    exists b'; split; auto. split; [eapply Rep_contents; eauto|]. erewrite Rep_capacity by eauto. auto.
  - intros E. eapply write_full_no; eauto.
  - intros x r -> E. destruct (write_full_ow _ _ _ _ v H E) as (b' & E' & H').
    exists b'; split; auto. split; [eapply Rep_contents; eauto|]. erewrite Rep_capacity by eauto. auto.
  - intros E ow. rewrite E in H. pose proof (Rep_len _ _ _ H). destruct l; [|cbn in *; lia]. apply write_cap0; auto.
Qed.

Lemma C03_lemma (d : T) base b l : reachable d b -> contents b l ->
  it_collect base b (begin_ base b) (end_ base b) (bsize b) = Some (Ok l) /\
  it_diff (end_ base b) (begin_ base b) = Z.of_nat (length l) /\
  it_eq (it_add (begin_ base b) (Z.of_nat (length l))) (end_ base b) = true /\
  (forall i, i < length l -> it_deref base b (it_add (begin_ base b) (Z.of_nat i)) = at_ b i) /\
  (forall i j, i <= length l -> j <= length l ->
     it_diff (it_add (begin_ base b) (Z.of_nat i)) (it_add (begin_ base b) (Z.of_nat j)) = (Z.of_nat i - Z.of_nat j)%Z /\
     it_eq (it_add (begin_ base b) (Z.of_nat i)) (it_add (begin_ base b) (Z.of_nat j)) = (i =? j) /\
     it_add (it_add (begin_ base b) (Z.of_nat i)) (Z.of_nat j - Z.of_nat i) = it_add (begin_ base b) (Z.of_nat j) /\
     it_sub (it_add (begin_ base b) (Z.of_nat i)) (Z.of_nat i - Z.of_nat j) = it_add (begin_ base b) (Z.of_nat j)) /\
  (forall i, i < length l -> it_incr (it_add (begin_ base b) (Z.of_nat i)) = it_add (begin_ base b) (Z.of_nat (S i)) /\
     it_decr (it_add (begin_ base b) (Z.of_nat (S i))) = it_add (begin_ base b) (Z.of_nat i)).
Proof.
  intros HR HC. pose proof (contents_Rep _ _ _ HR HC) as H.
  pose proof H as (HI & HB & HL & HN). pose proof (size_lt _ HI) as HS.
  assert (HP : forall i, i <= length l -> it_add (begin_ base b) (Z.of_nat i) = pos_iter base b i).
  { intros i Hi. rewrite begin_pos by auto. rewrite it_add_pos by (auto; lia). f_equal. lia. }
  split; [|split; [|split; [|split; [|split]]]].
  - apply (traverse_Ok _ _ _ _ H).
  - rewrite begin_pos, end_pos by auto. rewrite it_diff_pos by (auto; lia). lia.
  - rewrite HP by lia. rewrite end_pos by auto. rewrite it_eq_pos by (auto; lia). apply Nat.eqb_eq; auto.
  - intros i Hi. rewrite HP by lia. rewrite (it_deref_pos _ _ _ _ _ H) by auto.
    destruct (nth_error_Some_lt l i Hi) as [x Hx]. rewrite Hx. symmetry. eapply at_Ok; eauto.
  - intros i j Hi Hj. rewrite !HP by lia. split; [|split; [|split]].
    + apply it_diff_pos; auto; lia.
    + apply it_eq_pos; auto; lia.
    + rewrite it_add_pos by (auto; lia). f_equal. lia.
    + unfold it_sub. rewrite it_add_pos by (auto; lia). f_equal. lia.
  - intros i Hi. rewrite !HP by lia. split; [apply it_incr_pos|apply it_decr_pos]; auto; lia.
Qed.

Lemma C04_lemma (d : T) b l : reachable d b -> contents b l ->
  (exists l1 l2, client_read b (arrayOne b) = Ok l1 /\ client_read b (arrayTwo b) = Ok l2 /\ l = l1 ++ l2) /\
  snd (emptyArrayOne b) + snd (emptyArrayTwo b) = reserve b /\
  (forall k, in_range k (emptyArrayOne b) \/ in_range k (emptyArrayTwo b) ->
     k < bsize b /\ ~ in_range k (arrayOne b) /\ ~ in_range k (arrayTwo b)) /\
  (forall k, ~ (in_range k (emptyArrayOne b) /\ in_range k (emptyArrayTwo b))) /\
  (forall xs, length xs <= reserve b -> exists b', client_fill b xs = Ok b' /\
     contents b' (l ++ xs) /\ capacity b' = capacity b).
Proof.
  intros HR HC. pose proof (contents_Rep _ _ _ HR HC) as H.
  pose proof H as ([Hr Hw] & HB & HL & HN). pose proof (size_lt _ (conj Hr Hw)) as HS.
  split; [|split; [|split; [|split]]].
  - destruct (arrays_Ok _ _ _ H) as (l1 & l2 & E1 & E2 & E3). eauto.
  - unfold reserve, capacity, emptyArrayOne, emptyArrayTwo, size in *.
    destruct (Nat.leb_spec (m_read b) (m_write b)); [destruct (Nat.eqb_spec (m_read b) 0)|];
    try destruct (Nat.ltb_spec 0 (m_read b)); cbn [snd]; lia.
  - unfold in_range, emptyArrayOne, emptyArrayTwo, arrayOne, arrayTwo. intros k.
    destruct (Nat.leb_spec (m_read b) (m_write b)); [destruct (Nat.eqb_spec (m_read b) 0)|];
    try destruct (Nat.ltb_spec 0 (m_read b)); cbn [fst snd]; lia.
  - unfold in_range, emptyArrayOne, emptyArrayTwo. intros k.
    destruct (Nat.leb_spec (m_read b) (m_write b)); [destruct (Nat.eqb_spec (m_read b) 0)|];
    try destruct (Nat.ltb_spec 0 (m_read b)); cbn [fst snd]; lia.
  - intros xs Hx. destruct (client_fill_Rep _ _ _ xs H) as (b' & E & H').
    rewrite (Rep_reserve _ _ _ H) in Hx. rewrite firstn_all2 in H' by auto.
    exists b'; split; auto. split; [eapply Rep_contents; eauto|]. erewrite Rep_capacity by eauto; auto.
Qed.

Lemma C05_lemma (d : T) b l c : reachable d b -> contents b l ->
  exists b', setCapacity d b c = Ok b' /\ capacity b' = c /\ 
    exists dropped kept, l = dropped ++ kept /\ length kept = Nat.min c (length l) /\ contents b' kept.
Proof.
  intros HR HC. pose proof (contents_Rep _ _ _ HR HC) as H.
  destruct (setCapacity_Rep d _ _ _ c H) as (b' & E & H'). exists b'. split; auto.
  split; [eapply Rep_capacity; eauto|]. exists (firstn (length l - c) l), (skipn (length l - c) l).
  split; [symmetry; apply firstn_skipn|]. split; [rewrite skipn_length; lia|]. eapply Rep_contents; eauto.
Qed.

Lemma C01_lemma (d : T) c ops : exists q', spec_run (Q c []) ops (snd (run d (construct d c) ops)) q'.
Proof.
  destruct (run d (construct d c) ops) as [b' xs] eqn:E. destruct (run_from_construct _ _ _ _ _ E) as (c' & l' & H & _). eauto.
Qed.
End Reach.
