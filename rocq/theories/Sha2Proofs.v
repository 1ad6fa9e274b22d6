From Verif Require Import Text BaseLemmas Sha2Model Sha2Spec Sha2Rounds.
Local Open Scope Z_scope.
Local Ltac Zify.zify_post_hook ::= idtac.

Section Linked.
Variables (p : impl) (f : fips) (L : linked p f).

(* ---- cutting ---------------------------------------------------------------------------------- *)

Let Bpos : (0 < block f)%nat. Proof. pose proof (lk_wb4 p f L). unfold block. lia. Qed.

Lemma cut_one (b : list Z) : length b = block f -> cut (block f) b = [b].
Proof.
  intros H. unfold cut. rewrite H, Nat.div_same by lia. cbn [seq map]. rewrite Nat.mul_0_l. cbn [skipn].
  rewrite <- H, firstn_all. reflexivity.
Qed.

Lemma cut_app (d e : list Z) : (length d mod block f = 0)%nat -> cut (block f) (d ++ e) = cut (block f) d ++ cut (block f) e.
Proof.
  intros Hd. unfold cut. set (B := block f) in *.
  assert (Ed : (length d = (length d / B) * B)%nat).
  { pose proof (Nat.div_mod (length d) B ltac:(lia)). lia. }
  set (q := (length d / B)%nat) in *.
  assert (E : ((length (d ++ e)) / B = q + length e / B)%nat).
  { rewrite app_length, Ed, Nat.add_comm, Nat.div_add by lia. lia. }
  rewrite E, seq_app, map_app. f_equal.
  - apply map_ext_in. intros i Hi. apply in_seq in Hi.
    rewrite skipn_app, firstn_app, skipn_length.
    replace (B - (length d - i * B))%nat with 0%nat by nia.
    cbn [firstn]. apply app_nil_r.
  - cbn [Nat.add]. 
    assert (S : forall k a, map (fun i => firstn B (skipn (i * B) (d ++ e))) (seq (q + a) k)
                = map (fun i => firstn B (skipn (i * B) e)) (seq a k)).
    { induction k as [|k IH]; intros a; cbn [seq map]; [reflexivity|]. f_equal.
      - rewrite skipn_app. rewrite skipn_all2 by nia. cbn [app]. do 2 f_equal. nia.
      - replace (S (q + a)) with (q + S a)%nat by lia. apply IH. }
    specialize (S (length e / B)%nat 0%nat). rewrite Nat.add_0_r in S. exact S.
Qed.

Definition run (H : list Z) (d : list Z) : list Z := fold_left (compress f) (cut (block f) d) H.

Lemma run_app H d b : (length d mod block f = 0)%nat -> length b = block f ->
  run H (d ++ b) = compress f (run H d) b.
Proof. intros Hd Hb. unfold run. rewrite cut_app, fold_left_app, (cut_one b) by auto. reflexivity. Qed.

Lemma run_nil H : run H [] = H.
Proof. unfold run, cut. cbn [length]. rewrite Nat.div_0_l by lia. reflexivity. Qed.

Lemma run_ok H d : digest_ok f H -> digest_ok f (run H d).
Proof.
  unfold run. generalize (cut (block f) d). intros l. revert H. induction l as [|b l IH]; intros H HH; cbn [fold_left]; auto.
  apply IH. apply (compress_ok p f L). auto.
Qed.

(* ---- the buffer protocol ------------------------------------------------------------------------ *)

(* The object has consumed the message m since it was in state (digest H, size s0, empty buffer). *)
Record Inv (H : list Z) (s0 : Z) (m : list Z) (o : obj) : Prop := {
  iv_len : length (m_buffer o) = block f;
  iv_bytes : byte_list (m_buffer o);
  iv_H : digest_ok f H;
  iv_fill : (m_buffer_fill o <= block f)%nat;
  iv_size : m_message_size o = (s0 + Z.of_nat (length m)) mod 2 ^ 64;
  iv_m : exists d, m = d ++ firstn (m_buffer_fill o) (m_buffer o) /\ (length d mod block f = 0)%nat
                   /\ m_digest o = run H d
}.

Lemma Inv_digest H s0 m o : Inv H s0 m o -> digest_ok f (m_digest o).
Proof. intros I. destruct (iv_m _ _ _ _ I) as (d & _ & _ & ->). apply run_ok. apply (iv_H _ _ _ _ I). Qed.

Lemma pb_eq o : digest_ok f (m_digest o) -> byte_list (m_buffer o) -> length (m_buffer o) = block f ->
  processBuffer p o = mkObj (compress f (m_digest o) (m_buffer o)) (m_message_size o) (m_buffer o) (m_buffer_fill o).
Proof. apply processBuffer_digest. exact L. Qed.

(* flushing a full buffer *)
Lemma flush_Inv H s0 m o : Inv H s0 m o -> m_buffer_fill o = block f ->
  Inv H s0 m (set_fill (processBuffer p o) 0).
Proof.
  intros I Hf. pose proof (Inv_digest _ _ _ _ I) as HD.
  rewrite pb_eq by (try apply (iv_bytes _ _ _ _ I); try apply (iv_len _ _ _ _ I); auto).
  unfold set_fill. cbn [m_digest m_message_size m_buffer m_buffer_fill].
  destruct (iv_m _ _ _ _ I) as (d & Em & Ed & EH).
  constructor; cbn [m_digest m_message_size m_buffer m_buffer_fill]; try apply I; [lia|].
  exists (d ++ m_buffer o). rewrite Hf, <- (iv_len _ _ _ _ I), firstn_all in Em.
  split; [cbn [firstn]; rewrite app_nil_r; exact Em|]. split.
  - rewrite app_length, (iv_len _ _ _ _ I), <- Nat.add_mod_idemp_r, Nat.mod_same, Nat.add_0_r by lia. exact Ed.
  - rewrite run_app by (auto; apply (iv_len _ _ _ _ I)). congruence.
Qed.

Lemma firstn_list_set {A} (l : list A) n x : (n < length l)%nat -> firstn (S n) (list_set l n x) = firstn n l ++ [x].
Proof.
  revert n; induction l as [|y l IH]; intros n Hn; cbn [length] in Hn; [lia|].
  destruct n as [|n]; [reflexivity|]. cbn [list_set]. rewrite !firstn_cons. rewrite IH by lia. reflexivity.
Qed.

Lemma byte_list_set l i x : byte_list l -> 0 <= x < 256 -> byte_list (list_set l i x).
Proof.
  unfold byte_list. intros H Hx. revert i; induction H; intros [|i]; cbn [list_set]; constructor; auto.
Qed.

Lemma set_byte_Ok o i x : (i < length (m_buffer o))%nat ->
  set_byte o i x = Ok (mkObj (m_digest o) (m_message_size o) (list_set (m_buffer o) i x) (m_buffer_fill o)).
Proof. intros H. unfold set_byte. rewrite vec_set_Ok by auto. reflexivity. Qed.

Lemma process_cstr_ok H s0 data : byte_list data -> In 0 data -> forall m o, Inv H s0 m o ->
  exists o', process_cstr p o data = Ok o' /\ Inv H s0 (m ++ cstr_bytes data) o'.
Proof.
  induction data as [|c data IH]; intros HB HI m o I; [destruct HI|].
  inversion HB as [|? ? Hc HB']; subst. cbn [process_cstr cstr_bytes].
  destruct (Z.eqb_spec c 0) as [->|Hc0].
  - exists o. rewrite app_nil_r. auto.
  - set (o1 := if (m_buffer_fill o =? blk p)%nat then _ else o).
    assert (I1 : Inv H s0 m o1 /\ (m_buffer_fill o1 < block f)%nat).
    { unfold o1. rewrite (lk_blk p f L). destruct (Nat.eqb_spec (m_buffer_fill o) (block f)) as [E|E].
      - split; [apply flush_Inv; auto|]. exact Bpos.
      - split; [auto|]. pose proof (iv_fill _ _ _ _ I). lia. }
    destruct I1 as (I1 & F1). clearbody o1. clear I.
    pose proof (iv_len _ _ _ _ I1) as BL.
    rewrite set_byte_Ok by lia. cbn [bind].
    replace (m ++ c :: cstr_bytes data) with ((m ++ [c]) ++ cstr_bytes data) by (rewrite <- app_assoc; reflexivity).
    apply IH; auto. { destruct HI; [lia|auto]. }
    unfold add_size, set_fill. cbn [m_digest m_message_size m_buffer m_buffer_fill].
    constructor; cbn [m_digest m_message_size m_buffer m_buffer_fill].
    + rewrite list_set_length. auto.
    + apply byte_list_set; auto. apply I1.
    + apply I1.
    + lia.
    + rewrite (iv_size _ _ _ _ I1), app_length. cbn [length].
      rewrite Z.add_mod_idemp_l by lia. f_equal. lia.
    + destruct (iv_m _ _ _ _ I1) as (d & Em & Ed & EH). exists d.
      rewrite firstn_list_set by lia. split; [|auto]. rewrite Em at 1. rewrite app_assoc. reflexivity.
Qed.

Lemma firstn_mid {A} (l b : list A) n : (n + length b <= length l)%nat ->
  firstn (n + length b) (firstn n l ++ b ++ skipn (n + length b) l) = firstn n l ++ b.
Proof.
  intros H. rewrite app_assoc.
  replace (n + length b)%nat with (length (firstn n l ++ b)) at 1 by (rewrite app_length, firstn_length; lia).
  rewrite firstn_app, Nat.sub_diag, firstn_all. cbn [firstn]. apply app_nil_r.
Qed.

Lemma memcpy_Inv H s0 m o b : Inv H s0 m o -> byte_list b -> (m_buffer_fill o + length b <= block f)%nat ->
  exists o', memcpy o (m_buffer_fill o) b = Ok o' /\
   Inv H s0 (m ++ b) (set_fill (add_size o' (Z.of_nat (length b))) (m_buffer_fill o + length b))
   /\ m_buffer_fill o' = m_buffer_fill o /\ m_digest o' = m_digest o /\ m_message_size o' = m_message_size o.
Proof.
  intros I Hb Hf. unfold memcpy. pose proof (iv_len _ _ _ _ I) as BL.
  destruct (Nat.leb_spec (m_buffer_fill o + length b) (length (m_buffer o))); [|lia].
  eexists; split; [reflexivity|]. split; [|cbn; auto].
  unfold add_size, set_fill. cbn [m_digest m_message_size m_buffer m_buffer_fill].
  constructor; cbn [m_digest m_message_size m_buffer m_buffer_fill].
  - rewrite !app_length, firstn_length, skipn_length. lia.
  - apply Forall_app; split; [apply Forall_firstn', I|]. apply Forall_app; split; [auto|apply Forall_skipn', I].
  - apply I.
  - lia.
  - rewrite (iv_size _ _ _ _ I), app_length, Z.add_mod_idemp_l by lia. f_equal. lia.
  - destruct (iv_m _ _ _ _ I) as (d & Em & Ed & EH). exists d.
    rewrite firstn_mid by lia. split; [|auto]. rewrite Em at 1. rewrite app_assoc. reflexivity.
Qed.

Lemma process_loop_ok H s0 fuel : forall data m o, byte_list data -> Inv H s0 m o ->
  (length data + (if (m_buffer_fill o =? block f)%nat then 1 else 0) < fuel)%nat ->
  exists o', process_loop p fuel o data = Ok o' /\ Inv H s0 (m ++ data) o'.
Proof.
  induction fuel as [|fuel IH]; intros data m o HB I Hfu; [lia|].
  cbn [process_loop]. rewrite (lk_blk p f L).
  pose proof (iv_fill _ _ _ _ I) as Hf.
  destruct (Nat.leb_spec (block f - m_buffer_fill o) (length data)) as [C|C].
  - set (am := (block f - m_buffer_fill o)%nat).
    assert (La : length (firstn am data) = am) by (rewrite firstn_length; lia).
    destruct (memcpy_Inv H s0 m o (firstn am data)) as (o1 & E1 & I1 & F1 & D1 & S1); auto.
    { apply Forall_firstn'; auto. } { lia. }
    rewrite E1. cbn [bind].
    rewrite La in I1. replace (m_buffer_fill o + am)%nat with (block f) in I1 by lia.
    assert (I2 : Inv H s0 (m ++ firstn am data) (set_fill (add_size (processBuffer p o1) (Z.of_nat am)) 0)).
    { pose proof (flush_Inv _ _ _ _ I1 eq_refl) as I2.
      pose proof (Inv_digest _ _ _ _ I1) as HD.
      rewrite pb_eq in I2 by (try apply (iv_bytes _ _ _ _ I1); try apply (iv_len _ _ _ _ I1); auto).
      rewrite pb_eq by (try apply (iv_bytes _ _ _ _ I1); try apply (iv_len _ _ _ _ I1); auto).
      exact I2. }
    destruct (IH (skipn am data) _ _ (Forall_skipn' _ _ _ HB) I2) as (o' & E' & I').
    { cbn [m_buffer_fill set_fill]. rewrite skipn_length. destruct (Nat.eqb_spec 0 (block f)); [lia|].
      destruct (Nat.eqb_spec (m_buffer_fill o) (block f)); lia. }
    exists o'. split; [exact E'|]. rewrite <- app_assoc, firstn_skipn in I'. exact I'.
  - destruct (memcpy_Inv H s0 m o data) as (o1 & E1 & I1 & F1 & D1 & S1); auto; [lia|].
    rewrite E1. cbn [bind]. eexists; split; [reflexivity|].
    unfold set_fill, add_size in *. cbn [m_digest m_message_size m_buffer m_buffer_fill] in *.
    rewrite F1. exact I1.
Qed.

Lemma process_mem_ok H s0 data m o : byte_list data -> Inv H s0 m o ->
  exists o', process_mem p o data = Ok o' /\ Inv H s0 (m ++ data) o'.
Proof. intros HB I. apply process_loop_ok; auto. destruct (_ =? _)%nat; lia. Qed.

(* ---- padding ---------------------------------------------------------------------------------- *)

Fixpoint wr (o : obj) (pos : nat) (l : list Z) : result obj :=
  match l with
  | [] => Ok o
  | x :: r => bind (set_byte o pos x) (fun o => wr o (S pos) r)
  end.

Lemma list_set_app {A} (a : list A) y c x : list_set (a ++ y :: c) (length a) x = a ++ x :: c.
Proof. induction a; cbn [app length list_set]; congruence. Qed.

Lemma wr_ok l : forall o a mid c, m_buffer o = a ++ mid ++ c -> length mid = length l ->
  wr o (length a) l = Ok (mkObj (m_digest o) (m_message_size o) (a ++ l ++ c) (m_buffer_fill o)).
Proof.
  induction l as [|x l IH]; intros o a mid c Hb Hl; cbn [wr].
  - destruct mid; [|discriminate]. destruct o; cbn in *; subst; reflexivity.
  - destruct mid as [|y mid]; [discriminate|].
    assert (Q : (length a < length (m_buffer o))%nat) by (rewrite Hb, !app_length; cbn [length]; lia).
    rewrite set_byte_Ok, Hb by exact Q. cbn [bind app]. rewrite list_set_app.
    specialize (IH (mkObj (m_digest o) (m_message_size o) (a ++ x :: mid ++ c) (m_buffer_fill o)) (a ++ [x]) mid c).
    rewrite app_length in IH. cbn [length m_buffer m_digest m_message_size m_buffer_fill] in IH.
    rewrite Nat.add_1_r in IH. rewrite IH; [|rewrite <- app_assoc; reflexivity|cbn [length] in Hl; lia].
    rewrite <- app_assoc. reflexivity.
Qed.

Lemma zero_from_wr n : forall o from, zero_from o from n = wr o from (repeat 0 n).
Proof.
  induction n as [|n IH]; intros o from; cbn [zero_from repeat wr]; [reflexivity|].
  destruct (set_byte o from 0); cbn [bind]; auto.
Qed.

Lemma wr_at o pos l : (pos + length l <= length (m_buffer o))%nat ->
  wr o pos l = Ok (mkObj (m_digest o) (m_message_size o)
                     (firstn pos (m_buffer o) ++ l ++ skipn (pos + length l) (m_buffer o)) (m_buffer_fill o)).
Proof.
  intros H. set (b := m_buffer o) in *.
  assert (La : length (firstn pos b) = pos) by (rewrite firstn_length; lia).
  rewrite <- La at 1. apply wr_ok with (mid := firstn (length l) (skipn pos b)).
  - fold b. replace (skipn (pos + length l) b) with (skipn (length l) (skipn pos b)).
    + rewrite firstn_skipn, firstn_skipn. reflexivity.
    + apply nth_error_ext. intros i. rewrite !nth_error_skipn. f_equal. lia.
  - rewrite firstn_length, skipn_length. lia.
Qed.

Lemma land255 z : Z.land z 255 = z mod 256.
Proof. exact (Z.land_ones z 8 ltac:(lia)). Qed.

Lemma put_length_eq o bits : length (m_buffer o) = block f ->
  put_length p o bits = Ok (mkObj (m_digest o) (m_message_size o)
                     (firstn (block f - 8) (m_buffer o) ++ be 8 bits) (m_buffer_fill o)).
Proof.
  intros HL. assert (B8 : (8 <= block f)%nat) by (pose proof (lk_wb4 p f L); unfold block; lia).
  transitivity (wr o (block f - 8) (be 8 bits)).
  - unfold put_length. rewrite (lk_blk p f L).
    replace (block f - 7)%nat with (S (block f - 8)) by lia.
    replace (block f - 6)%nat with (S (S (block f - 8))) by lia.
    replace (block f - 5)%nat with (S (S (S (block f - 8)))) by lia.
    replace (block f - 4)%nat with (S (S (S (S (block f - 8))))) by lia.
    replace (block f - 3)%nat with (S (S (S (S (S (block f - 8)))))) by lia.
    replace (block f - 2)%nat with (S (S (S (S (S (S (block f - 8))))))) by lia.
    replace (block f - 1)%nat with (S (S (S (S (S (S (S (block f - 8)))))))) by lia.
    rewrite !land255, !Z.shiftr_div_pow2 by lia.
    cbn [be app wr]. rewrite !Z.div_div by lia.
    rewrite Z.div_1_r. change (2 ^ 8) with 256.
    change (256 * (256 * (256 * (256 * (256 * (256 * 256)))))) with (2 ^ 56).
    change (256 * (256 * (256 * (256 * (256 * 256))))) with (2 ^ 48).
    change (256 * (256 * (256 * (256 * 256)))) with (2 ^ 40).
    change (256 * (256 * (256 * 256))) with (2 ^ 32).
    change (256 * (256 * 256)) with (2 ^ 24).
    change (256 * 256) with (2 ^ 16).
    repeat match goal with |- bind ?a _ = bind ?a _ => destruct a; cbn [bind]; auto end.
    destruct (set_byte _ _ _); reflexivity.
  - rewrite wr_at.
    + rewrite skipn_all2, app_nil_r; [reflexivity|]. cbn [be app length]. lia.
    + cbn [be app length]. lia.
Qed.

Lemma be_length n : forall z, length (be n z) = n.
Proof. induction n as [|n IH]; intros z; cbn [be]; [auto|]. rewrite app_length, IH. cbn. lia. Qed.

Lemma be_bytes n : forall z, byte_list (be n z).
Proof.
  induction n as [|n IH]; intros z; cbn [be]; [constructor|].
  apply Forall_app; split; [apply IH|]. constructor; [|constructor]. apply Z.mod_pos_bound; lia.
Qed.

Lemma be_zeros k n : forall z, 0 <= z < 256 ^ Z.of_nat n -> be (k + n) z = repeat 0 k ++ be n z.
Proof.
  induction n as [|n IH]; intros z Hz.
  - cbn [Z.of_nat Z.pow] in Hz. assert (z = 0) by lia. subst z. rewrite Nat.add_0_r, app_nil_r. clear Hz.
    induction k as [|k IHk]; [reflexivity|]. cbn [be]. rewrite Z.div_0_l, IHk, Z.mod_0_l by lia.
    rewrite <- repeat_cons. reflexivity.
  - rewrite Nat.add_succ_r. cbn [be]. rewrite IH, app_assoc; [reflexivity|].
    rewrite Nat2Z.inj_succ, Z.pow_succ_r in Hz by lia.
    split; [apply Z.div_pos; lia|]. apply Z.div_lt_upper_bound; lia.
Qed.

Lemma padding_zeros_eq len k : (k < block f)%nat -> (exists j, len + 1 + 2 * wbytes f + k = j * block f)%nat ->
  padding_zeros f len = k.
Proof.
  intros Hk [j Hj]. unfold padding_zeros. set (B := block f) in *. set (x := (len + 1 + 2 * wbytes f)%nat) in *.
  pose proof (Nat.div_mod x B ltac:(lia)) as Ex. pose proof (Nat.mod_upper_bound x B ltac:(lia)) as Hx.
  set (q := (x / B)%nat) in *. set (r := (x mod B)%nat) in *.
  assert (T : (j <= q \/ j = q + 1 \/ q + 2 <= j)%nat) by lia.
  assert (T' : (j * B <= q * B \/ j * B = q * B + B \/ q * B + 2 * B <= j * B)%nat) by nia.
  rewrite (Nat.mul_comm B q) in Ex. generalize dependent (q * B)%nat. generalize dependent (j * B)%nat. intros.
  destruct (Nat.eq_dec r 0) as [E|E].
  - rewrite E, Nat.sub_0_r, Nat.mod_same by lia. lia.
  - rewrite Nat.mod_small by lia. lia.
Qed.

Lemma repeat_bytes n : byte_list (repeat 0 n).
Proof. apply Forall_forall. intros x Hx. apply repeat_spec in Hx. lia. Qed.

Lemma skipn_firstn_app {A} n (b c : list A) : (n <= length b)%nat -> firstn n (firstn n b ++ c) = firstn n b.
Proof.
  intros H. rewrite firstn_app, firstn_length. replace (n - Nat.min n (length b))%nat with 0%nat by lia.
  cbn [firstn]. rewrite app_nil_r, firstn_firstn. f_equal. lia.
Qed.

Lemma firstn_pre {A} n (pre c : list A) : length pre = n -> firstn n (pre ++ c) = pre.
Proof. intros <-. rewrite firstn_app, Nat.sub_diag, firstn_all. apply app_nil_r. Qed.

Lemma finalize_gen H s0 m o : Inv H s0 m o ->
  exists o', finalize p o = Ok o' /\
    m_digest o' = run H (m ++ [128] ++ repeat 0 (padding_zeros f (length m) + (2 * wbytes f - 8))
                          ++ be 8 ((m_message_size o * 8) mod 2 ^ 64)) /\
    byte_list (m_buffer o') /\ length (m_buffer o') = block f /\
    m_buffer_fill o' = m_buffer_fill o /\ m_message_size o' = m_message_size o.
Proof.
  intros I. unfold finalize, finalizeBuffer. rewrite (lk_blk p f L), (lk_pad p f L).
  pose proof (lk_wb4 p f L) as W4. pose proof (Inv_digest _ _ _ _ I) as HD.
  pose proof (iv_len _ _ _ _ I) as BL. pose proof (iv_bytes _ _ _ _ I) as BB. pose proof (iv_fill _ _ _ _ I) as BF.
  destruct (iv_m _ _ _ _ I) as (d & Em & Ed & EH).
  set (bits := (m_message_size o * 8) mod 2 ^ 64) in *.
  assert (EP : m ++ [128] ++ repeat 0 (padding_zeros f (length m) + (2 * wbytes f - 8)) ++ be 8 bits
     = d ++ (firstn (m_buffer_fill o) (m_buffer o) ++ [128] ++
     repeat 0 (padding_zeros f (length m) + (2 * wbytes f - 8)) ++ be 8 bits)).
  { rewrite Em at 1. rewrite <- app_assoc. reflexivity. }
  rewrite EP. clear EP.
  assert (Eq : exists q, length d = (q * block f)%nat).
  { exists (length d / block f)%nat. pose proof (Nat.div_mod (length d) (block f) ltac:(lia)). lia. }
  destruct Eq as (q & Eq).
  set (n := m_buffer_fill o) in *. set (b := m_buffer o) in *.
  assert (Lm : length m = (q * block f + n)%nat).
  { rewrite Em, app_length, firstn_length. lia. }
  assert (Hb16 : block f = (16 * wbytes f)%nat) by reflexivity.
  destruct (Nat.ltb_spec n (block f)) as [C|C].
  - rewrite set_byte_Ok by (fold b; lia). cbn [bind]. fold b.
    set (b1 := list_set b n 128).
    assert (L1 : length b1 = block f) by (unfold b1; rewrite list_set_length; auto).
    assert (B1 : byte_list b1) by (apply byte_list_set; auto; lia).
    assert (F1 : firstn (S n) b1 = firstn n b ++ [128]) by (apply firstn_list_set; lia).
    destruct (Nat.leb_spec (S n) (block f - 2 * wbytes f)) as [D|D].
    + (* one block *)
      unfold zero_range. rewrite zero_from_wr.
      rewrite wr_at by (cbn [m_buffer]; rewrite repeat_length; lia). cbn [bind m_buffer m_digest m_message_size m_buffer_fill].
      rewrite repeat_length. replace (S n + (block f - 8 - S n))%nat with (block f - 8)%nat by lia.
      rewrite F1.
      set (b2 := (firstn n b ++ [128]) ++ repeat 0 (block f - 8 - S n) ++ skipn (block f - 8) b1).
      assert (L2 : length b2 = block f).
      { unfold b2. rewrite !app_length, repeat_length, firstn_length, skipn_length. cbn [length]. lia. }
      rewrite put_length_eq by exact L2. cbn [bind m_buffer m_digest m_message_size m_buffer_fill].
      assert (E3 : firstn (block f - 8) b2 = firstn n b ++ [128] ++ repeat 0 (block f - 8 - S n)).
      { unfold b2. rewrite app_assoc.
        set (pre := ((firstn n b ++ [128]) ++ repeat 0 (block f - 8 - S n))).
        assert (Lp : length pre = (block f - 8)%nat).
        { unfold pre. rewrite !app_length, repeat_length, firstn_length. cbn [length]. lia. }
        rewrite firstn_pre by exact Lp.
        unfold pre. rewrite <- app_assoc. reflexivity. }
      rewrite E3.
      set (b3 := (firstn n b ++ [128] ++ repeat 0 (block f - 8 - S n)) ++ be 8 bits).
      assert (L3 : length b3 = block f).
      { unfold b3. rewrite !app_length, be_length, repeat_length, firstn_length. cbn [length]. lia. }
      assert (B3 : byte_list b3).
      { unfold b3, byte_list. repeat (apply Forall_app; split); try apply be_bytes; try apply repeat_bytes.
        all: try (apply Forall_firstn'; exact BB); repeat (constructor; [lia|]); constructor. }
      rewrite pb_eq by auto. cbn [m_buffer m_digest m_message_size m_buffer_fill].
      eexists; split; [reflexivity|]. cbn [m_digest m_buffer]. split; [|auto].
      rewrite EH. rewrite (padding_zeros_eq (length m) (block f - 2 * wbytes f - S n)).
      * replace (block f - 2 * wbytes f - S n + (2 * wbytes f - 8))%nat with (block f - 8 - S n)%nat by lia.
        rewrite <- run_app by auto. unfold b3. rewrite <- !app_assoc. reflexivity.
      * lia.
      * exists (q + 1)%nat. rewrite Lm. lia.
    + (* two blocks, 0x80 in the first *)
      unfold zero_range. rewrite zero_from_wr.
      rewrite wr_at by (cbn [m_buffer]; rewrite repeat_length; lia). cbn [bind m_buffer m_digest m_message_size m_buffer_fill].
      rewrite repeat_length. replace (S n + (block f - S n))%nat with (block f) by lia.
      rewrite F1, (skipn_all2 b1) by lia. rewrite app_nil_r.
      set (b2 := (firstn n b ++ [128]) ++ repeat 0 (block f - S n)).
      assert (L2 : length b2 = block f).
      { unfold b2. rewrite !app_length, repeat_length, firstn_length. cbn [length]. lia. }
      assert (B2 : byte_list b2).
      { unfold b2, byte_list. repeat (apply Forall_app; split); try apply repeat_bytes.
        all: try (apply Forall_firstn'; exact BB); repeat (constructor; [lia|]); constructor. }
      rewrite pb_eq by auto. cbn [m_buffer m_digest m_message_size m_buffer_fill].
      rewrite zero_from_wr.
      rewrite wr_at by (cbn [m_buffer]; rewrite repeat_length; lia). cbn [bind m_buffer m_digest m_message_size m_buffer_fill].
      rewrite repeat_length, Nat.sub_0_r. cbn [firstn app Nat.add].
      rewrite put_length_eq.
      2:{ cbn [m_buffer]. rewrite app_length, repeat_length, skipn_length. lia. }
      cbn [bind m_buffer m_digest m_message_size m_buffer_fill].
      assert (E3 : firstn (block f - 8) (repeat 0 (block f - 8) ++ skipn (block f - 8) b2) = repeat 0 (block f - 8)).
      { apply firstn_pre. apply repeat_length. }
      rewrite E3. set (b3 := repeat 0 (block f - 8) ++ be 8 bits).
      assert (L3 : length b3 = block f).
      { unfold b3. rewrite !app_length, be_length, repeat_length. lia. }
      assert (B3 : byte_list b3).
      { unfold b3, byte_list. apply Forall_app; split; [apply repeat_bytes|apply be_bytes]. }
      rewrite pb_eq by (cbn [m_digest m_buffer]; auto; apply (compress_ok p f L); auto).
      cbn [m_buffer m_digest m_message_size m_buffer_fill].
      eexists; split; [reflexivity|]. cbn [m_digest m_buffer]. split; [|auto].
      rewrite EH. rewrite (padding_zeros_eq (length m) (2 * block f - 2 * wbytes f - S n)).
      * replace (2 * block f - 2 * wbytes f - S n + (2 * wbytes f - 8))%nat
          with ((block f - S n) + (block f - 8))%nat by lia.
        rewrite repeat_app, <- !app_assoc.
        transitivity (run H ((d ++ b2) ++ b3));
          [|f_equal; unfold b2, b3; rewrite <- !app_assoc; reflexivity].
        rewrite (run_app H (d ++ b2) b3), (run_app H d b2); auto.
        rewrite app_length, Eq, L2, Nat.add_comm, Nat.mod_add, Nat.mod_same by lia; reflexivity.
      * lia.
      * exists (q + 2)%nat. rewrite Lm. lia.
  - (* the buffer is full *)
    assert (n = block f) by lia.
    rewrite pb_eq by auto. rewrite set_byte_Ok by (cbn [m_buffer]; fold b; lia).
    cbn [bind m_buffer m_digest m_message_size m_buffer_fill]. fold b.
    destruct (Nat.leb_spec 1 (block f - 2 * wbytes f)); [|lia].
    set (b1 := list_set b 0 128).
    assert (L1 : length b1 = block f) by (unfold b1; rewrite list_set_length; auto).
    assert (F1 : firstn 1 b1 = [128]) by (unfold b1; rewrite firstn_list_set by lia; reflexivity).
    unfold zero_range. rewrite zero_from_wr.
    rewrite wr_at by (cbn [m_buffer]; rewrite repeat_length; lia). cbn [bind m_buffer m_digest m_message_size m_buffer_fill].
    rewrite repeat_length. replace (1 + (block f - 8 - 1))%nat with (block f - 8)%nat by lia.
    rewrite F1.
    rewrite put_length_eq.
    2:{ cbn [m_buffer]. rewrite !app_length, repeat_length, skipn_length. cbn [length]. lia. }
    cbn [bind m_buffer m_digest m_message_size m_buffer_fill].
    assert (E3 : firstn (block f - 8) ([128] ++ repeat 0 (block f - 8 - 1) ++ skipn (block f - 8) b1)
                 = [128] ++ repeat 0 (block f - 8 - 1)).
    { rewrite app_assoc. set (pre := [128] ++ repeat 0 (block f - 8 - 1)).
      assert (Lp : length pre = (block f - 8)%nat).
      { unfold pre. rewrite !app_length, repeat_length. cbn [length]. lia. }
      apply firstn_pre. exact Lp. }
    rewrite E3. set (b3 := ([128] ++ repeat 0 (block f - 8 - 1)) ++ be 8 bits).
    assert (L3 : length b3 = block f).
    { unfold b3. rewrite !app_length, be_length, repeat_length. cbn [length]. lia. }
    assert (B3 : byte_list b3).
    { unfold b3, byte_list. repeat (apply Forall_app; split); try apply be_bytes; try apply repeat_bytes.
      all: repeat (constructor; [lia|]); constructor. }
    rewrite pb_eq by (cbn [m_digest m_buffer]; auto; apply (compress_ok p f L); auto).
    cbn [m_buffer m_digest m_message_size m_buffer_fill].
    eexists; split; [reflexivity|]. cbn [m_digest m_buffer]. split; [|auto].
    rewrite EH. rewrite (padding_zeros_eq (length m) (block f - 2 * wbytes f - 1)).
    + replace (block f - 2 * wbytes f - 1 + (2 * wbytes f - 8))%nat with (block f - 8 - 1)%nat by lia.
      rewrite (firstn_all2 b) by lia.
      transitivity (run H ((d ++ b) ++ b3));
        [|f_equal; unfold b3; rewrite <- !app_assoc; reflexivity].
      rewrite (run_app H (d ++ b) b3), (run_app H d b); auto.
      rewrite app_length, Eq, BL, Nat.add_comm, Nat.mod_add, Nat.mod_same by lia; reflexivity.
    + lia.
    + exists (q + 2)%nat. rewrite Lm. lia.
Qed.

Lemma finalize_ok H m o : Inv H 0 m o -> Z.of_nat (length m) < 2 ^ 61 ->
  exists o', finalize p o = Ok o' /\ m_digest o' = run H (pad f m).
Proof.
  intros I Hlen. destruct (finalize_gen _ _ _ _ I) as (o' & E & D & _). exists o'. split; [exact E|].
  rewrite D. f_equal. unfold pad. f_equal. f_equal. pose proof (lk_wb4 p f L) as W4.
  assert (Es : (m_message_size o * 8) mod 2 ^ 64 = 8 * Z.of_nat (length m)).
  { rewrite (iv_size _ _ _ _ I), Z.add_0_l. rewrite (Z.mod_small (Z.of_nat _)) by lia.
    rewrite Z.mod_small by lia. lia. }
  rewrite Es, repeat_app, <- app_assoc. f_equal.
  replace (2 * wbytes f)%nat with ((2 * wbytes f - 8) + 8)%nat at 2 by lia.
  symmetry. apply be_zeros. change (256 ^ Z.of_nat 8) with (2 ^ 64). lia.
Qed.

(* ---- histories ----------------------------------------------------------------------------------- *)

(* what every object satisfies between calls *)
Record sane (o : obj) : Prop := {
  sn_len : length (m_buffer o) = block f;
  sn_bytes : byte_list (m_buffer o);
  sn_dig : digest_ok f (m_digest o);
  sn_fill : (m_buffer_fill o <= block f)%nat;
  sn_size : 0 <= m_message_size o < 2 ^ 64
}.

Lemma sane_Inv o : sane o ->
  Inv (m_digest o) (m_message_size o - Z.of_nat (m_buffer_fill o)) (firstn (m_buffer_fill o) (m_buffer o)) o.
Proof.
  intros S. constructor; try apply S.
  - rewrite firstn_length, (sn_len _ S). pose proof (sn_fill _ S).
    replace (Nat.min (m_buffer_fill o) (block f)) with (m_buffer_fill o) by lia.
    replace (_ - _ + _) with (m_message_size o) by lia. symmetry. apply Z.mod_small. apply S.
  - exists []. split; [reflexivity|]. cbn [length]. rewrite Nat.mod_0_l, run_nil by lia. auto.
Qed.

Lemma Inv_sane H s0 m o : Inv H s0 m o -> sane o.
Proof.
  intros I. constructor; try apply I.
  - eapply Inv_digest; eauto.
  - rewrite (iv_size _ _ _ _ I). apply Z.mod_pos_bound. lia.
Qed.

End Linked.

(* ---- hexadecimal --------------------------------------------------------------------------------- *)

Fixpoint nib (n : nat) (z : Z) : str :=
  match n with O => [] | S n => nib n (z / 16) ++ [hexdigit (z mod 16)] end.

Lemma nib_length n : forall z, length (nib n z) = n.
Proof. induction n as [|n IH]; intros z; cbn [nib]; [auto|]. rewrite app_length, IH. cbn. lia. Qed.

Lemma nib_0 n : nib n 0 = repeat "0"%char n.
Proof.
  induction n as [|n IH]; [reflexivity|]. cbn [nib]. rewrite Z.div_0_l, IH, Z.mod_0_l by lia.
  rewrite <- repeat_cons. reflexivity.
Qed.

Lemma hex_digits_nib fuel : forall z, 0 <= z < 16 ^ Z.of_nat fuel -> (0 < fuel)%nat ->
  exists k, (1 <= k <= fuel)%nat /\ hex_digits fuel z = nib k z /\ z < 16 ^ Z.of_nat k.
Proof.
  induction fuel as [|fuel IH]; intros z Hz Hf; [lia|].
  cbn [hex_digits]. rewrite Nat2Z.inj_succ, Z.pow_succ_r in Hz by lia.
  destruct (Z.eqb_spec (z / 16) 0) as [E|E].
  - exists 1%nat. split; [lia|]. split.
    + cbn [nib app]. reflexivity.
    + change (16 ^ Z.of_nat 1) with 16. pose proof (Z.div_mod z 16 ltac:(lia)). pose proof (Z.mod_pos_bound z 16 ltac:(lia)). lia.
  - assert (0 <= z / 16) by (apply Z.div_pos; lia).
    assert (fuel <> 0)%nat.
    { intros ->. change (16 ^ Z.of_nat 0) with 1 in Hz. apply E. apply Z.div_small. lia. }
    destruct (IH (z / 16)) as (k & Hk & Ek & Bk); [|lia|].
    + split; [lia|]. apply Z.div_lt_upper_bound; lia.
    + exists (S k). split; [lia|]. split.
      * rewrite Ek. reflexivity.
      * rewrite Nat2Z.inj_succ, Z.pow_succ_r by lia.
        pose proof (Z.div_mod z 16 ltac:(lia)). pose proof (Z.mod_pos_bound z 16 ltac:(lia)). lia.
Qed.

Lemma nib_pad a k : forall z, 0 <= z < 16 ^ Z.of_nat k -> nib (a + k) z = repeat "0"%char a ++ nib k z.
Proof.
  induction k as [|k IH]; intros z Hz.
  - change (16 ^ Z.of_nat 0) with 1 in Hz. assert (z = 0) by lia. subst z.
    rewrite Nat.add_0_r, app_nil_r. apply nib_0.
  - rewrite Nat.add_succ_r. cbn [nib]. rewrite IH, app_assoc; [reflexivity|].
    rewrite Nat2Z.inj_succ, Z.pow_succ_r in Hz by lia.
    split; [apply Z.div_pos; lia|]. apply Z.div_lt_upper_bound; lia.
Qed.

Lemma pow16_le a b : 0 <= a -> a < b -> 16 ^ a < 16 ^ b.
Proof. intros. apply Z.pow_lt_mono_r; lia. Qed.

Lemma setw_nib n z : (1 <= n <= 16)%nat -> 0 <= z < 16 ^ Z.of_nat n -> setw0 n (hex_digits 16 z) = nib n z.
Proof.
  intros Hn Hz.
  assert (E : exists k, (1 <= k <= n)%nat /\ hex_digits 16 z = nib k z /\ z < 16 ^ Z.of_nat k).
  { replace 16%nat with (n + (16 - n))%nat by lia. revert z Hz.
    generalize (16 - n)%nat. intros x.
    assert (G : forall m y z, (1 <= m)%nat -> 0 <= z < 16 ^ Z.of_nat m -> hex_digits (m + y) z = hex_digits m z).
    { induction m as [|m IH]; intros y z Hm Hz; [lia|]. cbn [hex_digits Nat.add].
      destruct (Z.eqb_spec (z / 16) 0) as [E|E]; [reflexivity|].
      rewrite Nat2Z.inj_succ, Z.pow_succ_r in Hz by lia.
      assert (0 <= z / 16) by (apply Z.div_pos; lia).
      rewrite IH; [reflexivity| |split; [lia|apply Z.div_lt_upper_bound; lia]].
      destruct m; [|lia]. exfalso. apply E. apply Z.div_small. change (16 ^ Z.of_nat 0) with 1 in Hz. lia. }
    intros z Hz. rewrite G by (auto; lia). apply hex_digits_nib; auto; lia. }
  destruct E as (k & Hk & -> & Bk). unfold setw0. rewrite nib_length.
  replace n with ((n - k) + k)%nat at 2 by lia. rewrite nib_pad; [reflexivity|lia].
Qed.

Lemma hexdigit_hexchar z : 0 <= z < 16 -> hexdigit z = hexchar z.
Proof.
  intros H. assert (z = 0 \/ z = 1 \/ z = 2 \/ z = 3 \/ z = 4 \/ z = 5 \/ z = 6 \/ z = 7 \/ z = 8 \/ z = 9 \/ z = 10
   \/ z = 11 \/ z = 12 \/ z = 13 \/ z = 14 \/ z = 15) as D by lia.
  repeat destruct D as [->|D]; try subst z; reflexivity.
Qed.

Lemma hex_app a b : hex (a ++ b) = hex a ++ hex b.
Proof. unfold hex. rewrite map_app, concat_app. reflexivity. Qed.

Lemma nib_be n : forall z, nib (2 * n) z = hex (be n z).
Proof.
  induction n as [|n IH]; intros z; [reflexivity|].
  replace (2 * S n)%nat with (S (S (2 * n))) by lia. cbn [nib be].
  rewrite hex_app, Z.div_div by lia. change (16 * 16) with 256. rewrite IH, <- app_assoc. f_equal.
  unfold hex. cbn [map concat app].
  pose proof (Z.mod_pos_bound z 256 ltac:(lia)).
  rewrite <- !hexdigit_hexchar.
  - f_equal; [|f_equal].
    + f_equal. replace 256 with (16 * 16) by reflexivity. rewrite Z.rem_mul_r by lia.
      rewrite (Z.mul_comm 16 ((z / 16) mod 16)), Z.div_add by lia.
      rewrite (Z.div_small (z mod 16)) by (apply Z.mod_pos_bound; lia). lia.
    + f_equal. replace 256 with (16 * 16) by reflexivity. rewrite Z.rem_mul_r by lia.
      rewrite (Z.mul_comm 16 ((z / 16) mod 16)), Z.mod_add, Z.mod_mod by lia. reflexivity.
  - apply Z.mod_pos_bound; lia.
  - split; [apply Z.div_pos; lia|]. apply Z.div_lt_upper_bound; lia.
Qed.

Lemma hex_concat l : hex (concat l) = concat (map hex l).
Proof. induction l as [|x l IH]; [reflexivity|]. cbn [concat map]. rewrite hex_app, IH. reflexivity. Qed.

Section Alg.
Variables (g : alg) (f : fips) (L : linked (aimpl g) f).
Variables (LH : t_h g = H0 f) (HOK : digest_ok f (H0 f)) (Lout : t_len g = outwords f) (Lout8 : (outwords f <= 8)%nat).

Lemma getHexDigest_eq o : digest_ok f (m_digest o) ->
  getHexDigest g o = hex (concat (map (be (wbytes f)) (firstn (outwords f) (m_digest o)))).
Proof.
  intros [DL DF]. unfold getHexDigest. rewrite (lk_hex _ f L), Lout, hex_concat, map_map. f_equal.
  pose proof (lk_wb _ f L) as W8. pose proof (lk_wb4 _ f L) as W4.
  assert (E : firstn (outwords f) (m_digest o) = map (get (m_digest o)) (seq 0 (outwords f))).
  { apply nth_error_ext_len.
    - rewrite firstn_length, map_length, seq_length. lia.
    - intros i Hi. rewrite firstn_length in Hi. rewrite nth_error_firstn.
      destruct (Nat.ltb_spec i (outwords f)); [|lia].
      rewrite nth_error_map. rewrite (nth_error_nth' (seq 0 (outwords f)) 0%nat) by (rewrite seq_length; lia).
      rewrite seq_nth by lia. cbn [option_map Nat.add]. apply nth_error_nth'. lia. }
  rewrite E, map_map. apply map_ext_in. intros i Hi. apply in_seq in Hi.
  rewrite <- nib_be. apply setw_nib; [lia|].
  pose proof (nth_word _ f L (m_digest o) i DF) as Hx. unfold word in Hx. fold (get (m_digest o) i) in Hx.
  replace (w f) with (4 * Z.of_nat (2 * wbytes f)) in Hx by lia.
  rewrite Z.pow_mul_r in Hx by lia. exact Hx.
Qed.

Lemma clear_Inv o : length (m_buffer o) = block f -> byte_list (m_buffer o) -> Inv f (H0 f) 0 [] (clear g o).
Proof.
  intros HL HB. unfold clear. constructor; cbn [m_digest m_message_size m_buffer m_buffer_fill]; auto.
  - lia.
  - exists []. split; [reflexivity|]. split.
    + cbn [length]. apply Nat.mod_0_l. pose proof (lk_wb4 _ f L). unfold block. lia.
    + rewrite (run_nil _ f L). exact LH.
Qed.

Lemma do_call_sane c o : legal c -> sane f o -> exists o', do_call g o c = Ok o' /\ sane f o'.
Proof.
  intros Hc S. pose proof (sane_Inv _ f L _ S) as I. destruct c as [d|d| |]; cbn [do_call legal] in *.
  - destruct Hc as [Hb H0'].
    destruct (process_cstr_ok _ f L _ _ d Hb H0' _ _ I) as (o' & E & I'). eauto using Inv_sane.
  - destruct (process_mem_ok _ f L _ _ d _ _ Hc I) as (o' & E & I'). eauto using Inv_sane.
  - eexists; split; [reflexivity|]. eapply Inv_sane; eauto. apply clear_Inv; apply S.
  - destruct (finalize_gen _ f L _ _ _ _ I) as (o' & E & D & B & Le & F & Sz).
    exists o'. split; [exact E|]. constructor; auto.
    + rewrite D. apply (run_ok _ f L). apply S.
    + rewrite F. apply S.
    + rewrite Sz. apply S.
Qed.

Lemma do_calls_sane cs : Forall legal cs -> forall o, sane f o -> exists o', do_calls g o cs = Ok o' /\ sane f o'.
Proof.
  induction 1 as [|c cs Hc Hcs IH]; intros o S; cbn [do_calls]; [eauto|].
  destruct (do_call_sane c o Hc S) as (o1 & E & S1). rewrite E. cbn [bind]. auto.
Qed.

Lemma do_calls_app cs1 cs2 : forall o, do_calls g o (cs1 ++ cs2) = bind (do_calls g o cs1) (fun o => do_calls g o cs2).
Proof.
  induction cs1 as [|c cs1 IH]; intros o; cbn [do_calls app]; [reflexivity|].
  destruct (do_call g o c); cbn [bind]; auto.
Qed.

Lemma processes_Inv cs : Forall legal cs -> forallb is_process cs = true -> forall H s0 m o, Inv f H s0 m o ->
  exists o', do_calls g o cs = Ok o' /\ Inv f H s0 (m ++ concat (map call_bytes cs)) o'.
Proof.
  induction 1 as [|c cs Hc Hcs IH]; intros HP H s0 m o I; cbn [do_calls map concat].
  - exists o. rewrite app_nil_r. auto.
  - cbn [forallb] in HP. apply andb_prop in HP as [HP1 HP2].
    assert (exists o1, do_call g o c = Ok o1 /\ Inv f H s0 (m ++ call_bytes c) o1) as (o1 & E1 & I1).
    { destruct c as [d|d| |]; try discriminate HP1; cbn [do_call legal call_bytes] in *.
      - apply (process_cstr_ok _ f L); tauto.
      - apply (process_mem_ok _ f L); auto. }
    rewrite E1. cbn [bind]. destruct (IH HP2 _ _ _ _ I1) as (o' & E' & I').
    exists o'. rewrite app_assoc. auto.
Qed.

Lemma digest_main garbage pre ps : length (m_buffer garbage) = block f -> byte_list (m_buffer garbage) ->
  Forall legal pre -> Forall legal ps -> forallb is_process ps = true ->
  Z.of_nat (length (concat (map call_bytes ps))) < 2 ^ 61 ->
  (pre = [] \/ exists pre', pre = pre' ++ [Clear]) ->
  exists o, do_calls g (construct g garbage) (pre ++ ps ++ [Finalize]) = Ok o /\
    getHexDigest g o = hex (digest f (concat (map call_bytes ps))).
Proof.
  intros GL GB Hpre Hps HP Hlen Hcl.
  assert (exists o1, do_calls g (construct g garbage) pre = Ok o1 /\ Inv f (H0 f) 0 [] o1) as (o1 & E1 & I1).
  { pose proof (clear_Inv garbage GL GB) as I0. destruct Hcl as [->|(pre' & ->)].
    - eexists; split; [reflexivity|]. exact I0.
    - apply Forall_app in Hpre as [Hpre _].
      destruct (do_calls_sane pre' Hpre (construct g garbage)) as (o' & E & S); [eapply Inv_sane; eauto|].
      rewrite do_calls_app, E. cbn [bind do_calls do_call]. eexists; split; [reflexivity|].
      apply clear_Inv; apply S. }
  rewrite do_calls_app, E1. cbn [bind].
  destruct (processes_Inv ps Hps HP _ _ _ _ I1) as (o2 & E2 & I2). cbn [app] in I2.
  rewrite do_calls_app, E2. cbn [bind do_calls do_call].
  destruct (finalize_ok _ f L _ _ _ I2 Hlen) as (o3 & E3 & D3). rewrite E3. cbn [bind].
  exists o3. split; [reflexivity|]. rewrite getHexDigest_eq, D3.
  - reflexivity.
  - rewrite D3. apply (run_ok _ f L). exact HOK.
Qed.
End Alg.

(* ---- constants ------------------------------------------------------------------------------------- *)

Lemma pow_root_unique e x r r' : 0 < e -> 0 <= r -> 0 <= r' ->
  r ^ e <= x < (r + 1) ^ e -> r' ^ e <= x < (r' + 1) ^ e -> r = r'.
Proof.
  intros He Hr Hr' [A B] [C D].
  assert (r < r' + 1) by (apply (Z.pow_lt_mono_l_iff r (r' + 1) e); lia).
  assert (r' < r + 1) by (apply (Z.pow_lt_mono_l_iff r' (r + 1) e); lia).
  lia.
Qed.

Lemma cbrt_unique n q a b : cbrt_bits n q a -> cbrt_bits n q b -> a = b.
Proof.
  intros (r & Hr & E & ->) (r' & Hr' & E' & ->). f_equal. eapply pow_root_unique with (e := 3); eauto; lia.
Qed.
Lemma sqrt_unique n q a b : sqrt_bits n q a -> sqrt_bits n q b -> a = b.
Proof.
  intros (r & Hr & E & ->) (r' & Hr' & E' & ->). f_equal. eapply pow_root_unique with (e := 2); eauto; lia.
Qed.
Lemma sqrt32_unique q a b : sqrt_second32 q a -> sqrt_second32 q b -> a = b.
Proof. intros (r & Hr & ->) (r' & Hr' & ->). f_equal. eapply sqrt_unique; eauto. Qed.

Lemma Forall2_unique {A B} (R : A -> B -> Prop) l : (forall x a b, R x a -> R x b -> a = b) ->
  forall l1 l2, Forall2 R l l1 -> Forall2 R l l2 -> l1 = l2.
Proof.
  intros U. induction l as [|x l IH]; intros l1 l2 F1 F2; inversion F1; inversion F2; subst; auto.
  f_equal; eauto.
Qed.

(* checkers: given the integer part, the root is determined *)
Definition chk_root (e : Z) (n : Z) (q : nat) (k : Z) : bool :=
  existsb (fun i => let r := Z.of_nat i * 2 ^ n + k in
      (r ^ e <=? Z.of_nat q * 2 ^ (e * n)) && (Z.of_nat q * 2 ^ (e * n) <? (r + 1) ^ e))
    (seq 0 25) && (0 <=? k) && (k <? 2 ^ n).

Lemma chk_root_ok e n q k : 0 <= n -> chk_root e n q k = true ->
  exists r, 0 <= r /\ r ^ e <= Z.of_nat q * 2 ^ (e * n) < (r + 1) ^ e /\ k = r mod 2 ^ n.
Proof.
  intros Hn H. unfold chk_root in H. apply andb_prop in H as [H H3]. apply andb_prop in H as [H H2].
  apply existsb_exists in H as (i & _ & H). cbv zeta in H. apply andb_prop in H as [H0 H1].
  apply Z.leb_le in H0, H2. apply Z.ltb_lt in H1, H3.
  assert (0 < 2 ^ n) by (apply Z.pow_pos_nonneg; lia).
  exists (Z.of_nat i * 2 ^ n + k). split; [nia|]. split; [lia|].
  rewrite Z.add_comm, Z.mod_add, Z.mod_small by lia. reflexivity.
Qed.

Fixpoint all2 (c : nat -> Z -> bool) (l : list nat) (ks : list Z) : bool :=
  match l, ks with
  | [], [] => true
  | q :: l, k :: ks => c q k && all2 c l ks
  | _, _ => false
  end.
Lemma all2_ok c (R : nat -> Z -> Prop) : (forall q k, c q k = true -> R q k) ->
  forall l ks, all2 c l ks = true -> Forall2 R l ks.
Proof.
  intros HR. induction l as [|q l IH]; intros [|k ks] H; cbn [all2] in H; try discriminate; constructor;
  apply andb_prop in H as [H1 H2]; auto.
Qed.

Lemma k256_ok : Forall2 (cbrt_bits 32) (first_primes 64) k256.
Proof.
  apply all2_ok with (c := chk_root 3 32). { intros q k H. apply chk_root_ok in H; [exact H|lia]. }
  vm_compute. reflexivity.
Qed.
Lemma k512_ok : Forall2 (cbrt_bits 64) (first_primes 80) k512.
Proof.
  apply all2_ok with (c := chk_root 3 64). { intros q k H. apply chk_root_ok in H; [exact H|lia]. }
  vm_compute. reflexivity.
Qed.
Lemma h256_ok : Forall2 (sqrt_bits 32) (first_primes 8) (t_h Sha256).
Proof.
  apply all2_ok with (c := chk_root 2 32). { intros q k H. apply chk_root_ok in H; [exact H|lia]. }
  vm_compute. reflexivity.
Qed.
Lemma h512_ok : Forall2 (sqrt_bits 64) (first_primes 8) (t_h Sha512).
Proof.
  apply all2_ok with (c := chk_root 2 64). { intros q k H. apply chk_root_ok in H; [exact H|lia]. }
  vm_compute. reflexivity.
Qed.
Lemma h384_ok : Forall2 (sqrt_bits 64) (skipn 8 (first_primes 16)) (t_h Sha384).
Proof.
  apply all2_ok with (c := chk_root 2 64). { intros q k H. apply chk_root_ok in H; [exact H|lia]. }
  vm_compute. reflexivity.
Qed.
Lemma h224_ok : Forall2 sqrt_second32 (skipn 8 (first_primes 16)) (t_h Sha224).
Proof.
  assert (E : t_h Sha224 = map (fun k => k mod 2 ^ 32) (t_h Sha384)) by (vm_compute; reflexivity).
  rewrite E. generalize h384_ok. generalize (skipn 8 (first_primes 16)) (t_h Sha384).
  induction 1; cbn [map]; constructor; auto. exists y. auto.
Qed.

Lemma primes_spec n : is_prime n = true <-> (1 < n)%nat /\ forall d, (1 < d < n)%nat -> ~ (exists c, n = d * c)%nat.
Proof.
  unfold is_prime. rewrite andb_true_iff, Nat.leb_le, forallb_forall. split.
  - intros [H1 H2]. split; [lia|]. intros d Hd (c & Hc). specialize (H2 d).
    rewrite in_seq in H2. specialize (H2 ltac:(lia)).
    rewrite Hc, Nat.mul_comm, Nat.mod_mul in H2 by lia. discriminate.
  - intros [H1 H2]. split; [lia|]. intros d Hd. apply in_seq in Hd.
    destruct (Nat.eqb_spec (n mod d) 0) as [E|E]; [|reflexivity]. exfalso.
    apply (H2 d); [lia|]. exists (n / d)%nat. pose proof (Nat.div_mod n d ltac:(lia)). lia.
Qed.

(* ---- the four functions ------------------------------------------------------------------------------ *)

Lemma wb32 f : w f = 32 -> wbytes f = 4%nat.
Proof. intros E. unfold wbytes. rewrite E. reflexivity. Qed.
Lemma wb64 f : w f = 64 -> wbytes f = 8%nat.
Proof. intros E. unfold wbytes. rewrite E. reflexivity. Qed.

Lemma linked32 f : family32 f -> linked impl32 f.
Proof.
  intros (Hw & Hn & A & B & C & D & HK). pose proof (wb32 f Hw) as Hwb.
  constructor; rewrite ?A, ?B, ?C, ?D, ?Hw, ?Hn; unfold block; rewrite ?Hwb; cbn -[k256 rounds256]; try reflexivity; try lia.
  eapply Forall2_unique; [apply cbrt_unique|apply k256_ok|exact HK].
Qed.
Lemma linked64 f : family64 f -> linked impl64 f.
Proof.
  intros (Hw & Hn & A & B & C & D & HK). pose proof (wb64 f Hw) as Hwb.
  constructor; rewrite ?A, ?B, ?C, ?D, ?Hw, ?Hn; unfold block; rewrite ?Hwb; cbn -[k512 rounds512]; try reflexivity; try lia.
  eapply Forall2_unique; [apply cbrt_unique|apply k512_ok|exact HK].
Qed.

Lemma digest_ok_dec f h n : w f = n -> length h = 8%nat -> forallb (fun x => (0 <=? x) && (x <? 2 ^ n)) h = true ->
  digest_ok f h.
Proof.
  intros E HL H. split; [auto|]. rewrite forallb_forall in H. apply Forall_forall. intros x Hx.
  specialize (H x Hx). rewrite E. apply andb_prop in H as [H1 H2]. unfold word.
  apply Z.leb_le in H1. apply Z.ltb_lt in H2. lia.
Qed.

Definition conforms (g : alg) (f : fips) : Prop :=
  linked (aimpl g) f /\ t_h g = H0 f /\ digest_ok f (H0 f) /\ t_len g = outwords f /\ (outwords f <= 8)%nat.

Lemma conf224 f : is_sha224 f -> conforms Sha224 f.
Proof.
  intros (F & O & H). pose proof (proj1 F) as Hw.
  assert (E : t_h Sha224 = H0 f) by (eapply Forall2_unique; [apply sqrt32_unique|apply h224_ok|exact H]).
  split; [apply linked32; auto|]. split; [exact E|]. split; [|rewrite O; split; [reflexivity|lia]].
  rewrite <- E. apply (digest_ok_dec f _ 32); auto.
Qed.
Lemma conf256 f : is_sha256 f -> conforms Sha256 f.
Proof.
  intros (F & O & H). pose proof (proj1 F) as Hw.
  assert (E : t_h Sha256 = H0 f) by (eapply Forall2_unique; [apply sqrt_unique|apply h256_ok|exact H]).
  split; [apply linked32; auto|]. split; [exact E|]. split; [|rewrite O; split; [reflexivity|lia]].
  rewrite <- E. apply (digest_ok_dec f _ 32); auto.
Qed.
Lemma conf384 f : is_sha384 f -> conforms Sha384 f.
Proof.
  intros (F & O & H). pose proof (proj1 F) as Hw.
  assert (E : t_h Sha384 = H0 f) by (eapply Forall2_unique; [apply sqrt_unique|apply h384_ok|exact H]).
  split; [apply linked64; auto|]. split; [exact E|]. split; [|rewrite O; split; [reflexivity|lia]].
  rewrite <- E. apply (digest_ok_dec f _ 64); auto.
Qed.
Lemma conf512 f : is_sha512 f -> conforms Sha512 f.
Proof.
  intros (F & O & H). pose proof (proj1 F) as Hw.
  assert (E : t_h Sha512 = H0 f) by (eapply Forall2_unique; [apply sqrt_unique|apply h512_ok|exact H]).
  split; [apply linked64; auto|]. split; [exact E|]. split; [|rewrite O; split; [reflexivity|lia]].
  rewrite <- E. apply (digest_ok_dec f _ 64); auto.
Qed.

Definition f256 : fips := mkFips 32 64 (2, 13, 22) (6, 11, 25) (7, 18, 3) (17, 19, 10) k256 (t_h Sha256) 8.
Definition f224 : fips := mkFips 32 64 (2, 13, 22) (6, 11, 25) (7, 18, 3) (17, 19, 10) k256 (t_h Sha224) 7.
Definition f512 : fips := mkFips 64 80 (28, 34, 39) (14, 18, 41) (1, 8, 7) (19, 61, 6) k512 (t_h Sha512) 8.
Definition f384 : fips := mkFips 64 80 (28, 34, 39) (14, 18, 41) (1, 8, 7) (19, 61, 6) k512 (t_h Sha384) 6.
Lemma f256_ok : is_sha256 f256.
Proof. unfold is_sha256, family32. cbn [f256 w nrounds Sig0 Sig1 sig0 sig1 K H0 outwords]. auto 10 using k256_ok, h256_ok. Qed.
Lemma f224_ok : is_sha224 f224.
Proof. unfold is_sha224, family32. cbn [f224 w nrounds Sig0 Sig1 sig0 sig1 K H0 outwords]. auto 10 using k256_ok, h224_ok. Qed.
Lemma f512_ok : is_sha512 f512.
Proof. unfold is_sha512, family64. cbn [f512 w nrounds Sig0 Sig1 sig0 sig1 K H0 outwords]. auto 10 using k512_ok, h512_ok. Qed.
Lemma f384_ok : is_sha384 f384.
Proof. unfold is_sha384, family64. cbn [f384 w nrounds Sig0 Sig1 sig0 sig1 K H0 outwords]. auto 10 using k512_ok, h384_ok. Qed.

Lemma conforms_digest g f mem pre ps m : conforms g f -> raw_memory g mem ->
  Forall legal pre -> ends_clean pre -> Forall legal ps -> forallb is_process ps = true ->
  m = concat (map call_bytes ps) -> Z.of_nat (length m) < 2 ^ 61 ->
  exists o, do_calls g (construct g mem) (pre ++ ps ++ [Finalize]) = Ok o /\ getHexDigest g o = hex (digest f m).
Proof.
  intros (A & B & C & D & E) (G1 & G2) P1 P2 P3 P4 -> P5.
  apply digest_main; auto. rewrite <- (lk_blk _ _ A). exact G1.
Qed.

Lemma conforms_one g f mem m : conforms g f -> raw_memory g mem -> byte_list m -> Z.of_nat (length m) < 2 ^ 61 ->
  exists o, do_calls g (construct g mem) [Pmem m; Finalize] = Ok o /\ getHexDigest g o = hex (digest f m).
Proof.
  intros Hc Hm HB HL. apply (conforms_digest g f mem [] [Pmem m] m); auto.
  - left; reflexivity.
  - cbn [map concat call_bytes]. rewrite app_nil_r. reflexivity.
Qed.

Definition four (g : alg) : Prop := g = Sha224 \/ g = Sha256 \/ g = Sha384 \/ g = Sha512.

Lemma four_conforms g : four g -> exists f, conforms g f.
Proof.
  intros [->|[->|[->| ->]]].
  - exists f224. apply conf224, f224_ok.
  - exists f256. apply conf256, f256_ok.
  - exists f384. apply conf384, f384_ok.
  - exists f512. apply conf512, f512_ok.
Qed.

Lemma chunking g mem1 mem2 pre ps m : four g -> raw_memory g mem1 -> raw_memory g mem2 ->
  Forall legal pre -> ends_clean pre -> Forall legal ps -> forallb is_process ps = true ->
  m = concat (map call_bytes ps) -> Z.of_nat (length m) < 2 ^ 61 ->
  exists o1 o2,
    do_calls g (construct g mem1) (pre ++ ps ++ [Finalize]) = Ok o1 /\
    do_calls g (construct g mem2) [Pmem m; Finalize] = Ok o2 /\
    getHexDigest g o1 = getHexDigest g o2.
Proof.
  intros Hg M1 M2 P1 P2 P3 P4 P5 P6. destruct (four_conforms g Hg) as (f & Hf).
  destruct (conforms_digest g f mem1 pre ps m) as (o1 & E1 & D1); auto.
  destruct (conforms_one g f mem2 m) as (o2 & E2 & D2); auto.
  - subst m. clear - P3. induction P3 as [|c cs Hc Hcs IH]; [constructor|]. cbn [map concat].
    apply Forall_app; split; [|exact IH].
    destruct c as [d|d| |]; cbn [legal call_bytes] in *; try constructor; auto.
    destruct Hc as [Hb _]. clear - Hb. induction Hb as [|x d Hx Hd IH]; [constructor|].
    cbn [cstr_bytes]. destruct (x =? 0); [constructor|]. constructor; auto.
  - exists o1, o2. split; [exact E1|]. split; [exact E2|]. congruence.
Qed.

(* memory safety: no sequence of legal calls, however long the messages, has undefined behaviour *)
Lemma always_ok g mem cs : four g -> raw_memory g mem -> Forall legal cs ->
  exists o, do_calls g (construct g mem) cs = Ok o.
Proof.
  intros Hg (G1 & G2) Hcs. destruct (four_conforms g Hg) as (f & A & B & C & D & E).
  destruct (do_calls_sane g f A B C D E cs Hcs (construct g mem)) as (o & Eo & _); eauto.
  eapply Inv_sane; eauto. apply clear_Inv; auto. rewrite <- (lk_blk _ _ A). exact G1.
Qed.
