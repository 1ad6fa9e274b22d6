From Verif Require Import Conc Text LogTextModel LogStreamModel LogStreamSpec.

Lemma level_eqb_eq a b : level_eqb a b = true <-> a = b.
Proof. destruct a, b; cbn; split; congruence. Qed.
Lemma level_eqb_refl a : level_eqb a a = true. Proof. apply level_eqb_eq. auto. Qed.
Lemma level_neq a b : a <> b -> level_eqb a b = false.
Proof. intros H. destruct (level_eqb a b) eqn:E; auto. apply level_eqb_eq in E. congruence. Qed.

(* specification functions on lists extended at the end *)
Definition pend1 (m : stmt) (l : level) (p : str) : str := if level_eqb (s_level m) l then if s_ends m then [] else p ++ concat (s_pieces m) else p.
Lemma pending_snoc h m l : forall p, pending (h ++ [m]) l p = pend1 m l (pending h l p).
Proof. induction h as [|x h IH]; intros p; cbn; [reflexivity|apply IH]. Qed.
Lemma ended_snoc h m : forall b, ended b (h ++ [m]) = ended b h ++ (if s_ends m then [(b ++ h, m)] else []).
Proof.
  induction h as [|x h IH]; intros b; cbn.
  - rewrite !app_nil_r. destruct (s_ends m); reflexivity.
  - rewrite IH, <- !app_assoc. reflexivity.
Qed.
Lemma cstring_until s : cstring s = until_nul s.
Proof. induction s as [|c s IH]; cbn; [reflexivity|]. rewrite IH. reflexivity. Qed.
Lemma until_nul_at a r : until_nul (a ++ nul :: r) = until_nul a.
Proof. induction a as [|c a IH]; cbn; [reflexivity|]. rewrite IH. reflexivity. Qed.
Lemma has_nul_at s i : nth_error s i = Some nul -> has_nul s = true.
Proof. revert i. induction s as [|c s IH]; intros [|i] H; cbn in *; try discriminate; [injection H as ->; reflexivity|]. rewrite (IH _ H). apply orb_true_r. Qed.
Lemma list_set_spec {A} (l : list A) i x : i < length l -> list_set l i x = firstn i l ++ x :: skipn (S i) l.
Proof. revert i. induction l as [|y l IH]; intros [|i] H; cbn in *; try lia; [reflexivity|]. rewrite IH by lia. reflexivity. Qed.
Lemma list_set_len {A} (l : list A) i x : length (list_set l i x) = length l.
Proof. revert i. induction l; intros [|i]; cbn; auto. Qed.
Lemma list_set_nth {A} (l : list A) i j x : nth_error (list_set l i x) j = if Nat.eqb i j && (j <? length l) then Some x else nth_error l j.
Proof.
  revert i j. induction l as [|y l IH]; intros [|i] [|j]; cbn; auto; [rewrite andb_false_r; auto|].
  rewrite IH. destruct (Nat.eqb i j); cbn; auto.
Qed.

Lemma nth_error_skipn {A} n : forall (l : list A) k, nth_error (skipn n l) k = nth_error l (n + k).
Proof. induction n as [|n IH]; intros [|x l] k; cbn; auto. destruct k; reflexivity. Qed.

Section P.
  Context (SIZE POOL : nat) (outs : list nat) (HS : 2 <= SIZE) (ND : NoDup outs).
  Notation tstep := (tstep SIZE outs). Notation init := (init SIZE POOL). Notation step := (step SIZE outs).

  (* the text in a buffer after some writes *)
  Definition clip (p : str) (w : str * nat) : str := p ++ firstn (amount SIZE (length p) (fst w) (snd w)) (fst w).
  Definition clips (p : str) (l : list (str * nat)) : str := fold_left clip l p.
  Lemma amount_min i x p : amount SIZE i x p = Nat.min (length x) (SIZE - i - 1 - p).
  Proof.
    unfold amount. destruct (Nat.ltb_spec (SIZE - i - 1) (length x + p)); [|lia]. destruct (Nat.ltb_spec p (SIZE - i - 1)); lia.
  Qed.
  Lemma clips_pieces l : forall p, length p <= SIZE - 2 -> clips p (map (fun x => (x, 1)) l) = firstn (SIZE - 2) (p ++ concat l).
  Proof.
    induction l as [|x l IH]; intros p H; cbn [map clips fold_left concat].
    - rewrite app_nil_r, firstn_all2; auto.
    - fold (clips (clip p (x, 1)) (map (fun x => (x, 1)) l)). unfold clip. cbn [fst snd]. rewrite amount_min. rewrite IH.
      2: { rewrite app_length, firstn_length. lia. }
      set (n := Nat.min _ _). destruct (Nat.le_gt_cases (length x) (SIZE - length p - 1 - 1)) as [L|L].
      + replace (firstn n x) with x by (symmetry; apply firstn_all2; lia). rewrite <- app_assoc. reflexivity.
      + rewrite (firstn_app _ (p ++ firstn n x)), (firstn_app _ p (x ++ concat l)), app_length, firstn_length.
        replace (SIZE - 2 - (length p + Nat.min n (length x))) with 0 by lia. cbn [firstn]. rewrite app_nil_r.
        rewrite (firstn_all2 (p ++ firstn n x)) by (rewrite app_length, firstn_length; lia). rewrite (firstn_all2 p) by lia. f_equal.
        rewrite firstn_app. replace (SIZE - 2 - length p - length x) with 0 by lia. cbn [firstn]. rewrite app_nil_r. f_equal. lia.
  Qed.
  Lemma clips_app p a b : clips p (a ++ b) = clips (clips p a) b. Proof. apply fold_left_app. Qed.
  Lemma clips_ended m p : length p <= SIZE - 2 -> s_ends m = true ->
    clips p (writes m) = firstn (SIZE - 2) (p ++ concat (s_pieces m)) ++ newline.
  Proof.
    intros H E. unfold writes. rewrite E, clips_app, clips_pieces by auto. cbn [clips fold_left]. unfold clip. cbn [fst snd].
    rewrite amount_min, firstn_length. change newline1 with newline. f_equal. apply firstn_all2. cbn [newline length list_ascii_of_string]. lia.
  Qed.
  Lemma clip_len p w : length (clip p w) <= SIZE - 1 \/ length (clip p w) <= length p.
  Proof. unfold clip. rewrite app_length, firstn_length, amount_min. lia. Qed.

  Definition base (h : list stmt) (l : level) : str := firstn (SIZE - 2) (pending h l []).
  Lemma base_len h l : length (base h l) <= SIZE - 2. Proof. unfold base. rewrite firstn_length. lia. Qed.
  Lemma base_snoc h m l : base (h ++ [m]) l = if level_eqb (s_level m) l then if s_ends m then [] else firstn (SIZE - 2) (base h l ++ concat (s_pieces m)) else base h l.
  Proof.
    unfold base. rewrite pending_snoc. unfold pend1. destruct (level_eqb (s_level m) l); [|reflexivity]. destruct (s_ends m); [apply firstn_nil|].
    set (p := pending h l []). rewrite !firstn_app, firstn_length, firstn_firstn. destruct (Nat.le_gt_cases (length p) (SIZE - 2)) as [L|L].
    - rewrite Nat.min_id. f_equal. f_equal. lia.
    - rewrite Nat.min_id. replace (SIZE - 2 - Nat.min (SIZE - 2) (length p)) with 0 by lia. replace (SIZE - 2 - length p) with 0 by lia. reflexivity.
  Qed.

  (* which slot a thread works on *)
  Definition at_slot (p : pc) : option nat := match p with F138 _ i => Some i | _ => uses p end.
  Definition in_mutex (p : pc) : bool := match p with A97 _ | A148 _ _ | F130 _ _ | F138 _ _ | F140 _ _ => true | _ => false end.
  Definition has (x : slot) (q : str) : Prop := idx x = length q /\ firstn (idx x) (buf x) = q.
  Definition wf (x : slot) : Prop := length (buf x) = SIZE + 1 /\ idx x <= SIZE - 1 /\ nth_error (buf x) SIZE = Some nul.
  Definition owned (s : st) (t : tid) (i : nat) (m : stmt) : Prop := owner (slots s i) = Some t /\ slevel (slots s i) = s_level m /\ i < nslots s.
  Definition tok (s : st) (t : tid) (p : pc) : Prop :=
    match p with
    | Idle | A94 _ | A97 _ => True
    | A148 m i | MSet m i => owned s t i m
    | MPut m i l => owned s t i m /\ info (slots s i) = s_meta m
    | W95 m i n x l => owned s t i m /\ info (slots s i) = s_meta m /\ n <= length x /\ idx (slots s i) + n <= SIZE - 1
    | W97 m i n l => owned s t i m /\ info (slots s i) = s_meta m /\ idx (slots s i) + n <= SIZE - 1
    | F127 m i | F128 m i | F130 m i => owned s t i m /\ info (slots s i) = s_meta m /\ s_ends m = true
    | F138 m i => owned s t i m /\ s_ends m = true
    | F140 m i | F146 m i => In t (resets (slots s i)) /\ s_ends m = true /\ forall j, owner (slots s j) = Some t -> slevel (slots s j) <> s_level m
    end.
  (* what a slot owned by a thread at p contains *)
  Definition content (h : list stmt) (p : pc) (i : nat) (x : slot) : Prop :=
    let b := base h (slevel x) in
    if match at_slot p with Some j => Nat.eqb j i | None => false end then
      match p with
      | MPut m _ r => exists d, writes m = d ++ r /\ has x (clips b d)
      | W95 m _ n y r => exists d pr, writes m = d ++ (y, pr) :: r /\ has x (clips b d) /\ n = amount SIZE (idx x) y pr
      | W97 m _ n r => exists d y pr, writes m = d ++ (y, pr) :: r /\ idx x = length (clips b d) /\ n = amount SIZE (idx x) y pr /\
                       firstn (idx x + n) (buf x) = clips b d ++ firstn n y
      | F127 m _ => has x (clips b (writes m))
      | F128 m _ | F130 m _ => cstring (buf x) = until_nul (clips b (writes m))
      | F138 _ _ => True
      | _ => has x b
      end
    else has x b.
  Arguments content : simpl never.
  Definition inflight (h : list stmt) (p : pc) : list (list stmt * stmt) := match p with F138 m _ | F140 m _ | F146 m _ => [(h, m)] | _ => [] end.

  Record Inv (s : st) : Prop := mkInv {
    i_crash : crashed s = false;
    i_below : forall t, below s t = [];
    i_mutex : forall t, mutex s = Some t <-> in_mutex (pcs s t) = true;
    i_wf : forall i, wf (slots s i) /\ (owner (slots s i) <> None \/ resets (slots s i) <> [] -> i < nslots s);
    i_tok : forall t, tok s t (pcs s t);
    i_uniq : forall i j t, owner (slots s i) = Some t -> owner (slots s j) = Some t -> slevel (slots s i) = slevel (slots s j) -> i = j;
    i_r1 : forall i t, In t (resets (slots s i)) -> resetting (pcs s t) i;
    i_r2 : forall i, owner (slots s i) <> None -> raced (slots s i) = false -> resets (slots s i) = [];
    i_r3 : forall i, owner (slots s i) = None -> resets (slots s i) = [] -> idx (slots s i) = 0;
    i_cont : forall i t, owner (slots s i) = Some t -> raced (slots s i) = false -> content (hist s t) (pcs s t) i (slots s i);
    i_pend : forall t l, (forall i, owner (slots s i) = Some t -> slevel (slots s i) <> l) ->
             pending (hist s t) l [] = [] \/ exists m i, (pcs s t = F140 m i \/ pcs s t = F146 m i) /\ s_level m = l /\ s_ends m = true;
    i_deliv : forall t o, In o outs -> Forall2 (right SIZE) (ended [] (hist s t) ++ inflight (hist s t) (pcs s t)) (handed s o t)
  }.

  Lemma inv_init : Inv init.
  Proof.
    constructor; cbn; try tauto; try discriminate; try (intros; discriminate).
    - intros t. split; discriminate.
    - intros i. split; [|intros [H|H]; congruence]. split; [cbn; apply repeat_length|]. split; [cbn; lia|]. cbn. rewrite nth_error_repeat by lia. reflexivity.
    - intros t o H. constructor.
  Qed.

  (* steps that move one thread and change at most the slot it works on *)
  Lemma inv_move s s' t i p' :
    Inv s -> crashed s' = false -> (forall u, below s' u = below s u) -> (forall u, hist s' u = hist s u) -> nslots s' = nslots s ->
    (forall u, pcs s' u = upd (pcs s) t p' u) ->
    (forall j, j <> i -> slots s' j = slots s j) ->
    owner (slots s' i) = owner (slots s i) -> slevel (slots s' i) = slevel (slots s i) -> resets (slots s' i) = resets (slots s i) -> raced (slots s' i) = raced (slots s i) ->
    (slots s' i = slots s i \/ owner (slots s i) = Some t) -> wf (slots s' i) -> (owner (slots s i) = None -> slots s' i = slots s i) ->
    (at_slot (pcs s t) = None \/ at_slot (pcs s t) = Some i) -> (at_slot p' = None \/ at_slot p' = Some i) ->
    (forall u, mutex s' = Some u <-> in_mutex (upd (pcs s) t p' u) = true) ->
    tok s' t p' ->
    (forall j, resetting (pcs s t) j -> resetting p' j) ->
    (owner (slots s i) = Some t -> raced (slots s i) = false -> content (hist s t) (pcs s t) i (slots s i) -> content (hist s t) p' i (slots s' i)) ->
    ((exists m j, pcs s t = F140 m j) -> exists m j, p' = F146 m j /\ pcs s t = F140 m j) -> (forall m j, pcs s t <> F146 m j) ->
    (exists l, log s' = log s ++ l /\ (forall d, In d l -> d_tid d = t) /\
      forall o, In o outs -> exists x, inflight (hist s t) p' = inflight (hist s t) (pcs s t) ++ x /\ Forall2 (right SIZE) x (filter (fun d => Nat.eqb (d_out d) o && Nat.eqb (d_tid d) t) l)) ->
    Inv s'.
  Proof.
    intros I HC HB HH HN HP HJ HO HL HR HD HT HW HF HA HA' HM HK HX HCt HQ HQ2 HG.
    assert (Ow : forall j, owner (slots s' j) = owner (slots s j)) by (intros j; destruct (Nat.eq_dec j i) as [->|N]; [auto|rewrite HJ; auto]).
    assert (Lv : forall j, slevel (slots s' j) = slevel (slots s j)) by (intros j; destruct (Nat.eq_dec j i) as [->|N]; [auto|rewrite HJ; auto]).
    assert (Rs : forall j, resets (slots s' j) = resets (slots s j)) by (intros j; destruct (Nat.eq_dec j i) as [->|N]; [auto|rewrite HJ; auto]).
    assert (Rc : forall j, raced (slots s' j) = raced (slots s j)) by (intros j; destruct (Nat.eq_dec j i) as [->|N]; [auto|rewrite HJ; auto]).
    assert (Same : forall j u, u <> t -> owner (slots s j) = Some u -> slots s' j = slots s j).
    { intros j u N E. destruct (Nat.eq_dec j i) as [->|M]; [|auto]. destruct HT as [H|H]; [auto|congruence]. }
    assert (Pt : pcs s' t = p') by (rewrite HP; apply upd_same).
    assert (Pu : forall u, u <> t -> pcs s' u = pcs s u) by (intros u N; rewrite HP; apply upd_other; auto).
    constructor.
    - exact HC.
    - intros u. rewrite HB. apply (i_below s I).
    - intros u. rewrite HP. apply HM.
    - intros j. rewrite Ow, Rs, HN. split; [|apply (i_wf s I)]. destruct (Nat.eq_dec j i) as [->|N]; [auto|]. rewrite HJ by auto. apply (i_wf s I).
    - intros u. destruct (Nat.eq_dec u t) as [->|N]; [rewrite Pt; exact HK|]. rewrite Pu by auto. pose proof (i_tok s I u) as K.
      assert (Od : forall j m, owned s u j m -> owned s' u j m /\ slots s' j = slots s j).
      { intros j m (A & B & C). split; [|eauto]. unfold owned. rewrite Ow, Lv, HN. auto. }
      assert (Rd : forall j m, In u (resets (slots s j)) /\ s_ends m = true /\ (forall k, owner (slots s k) = Some u -> slevel (slots s k) <> s_level m) ->
                   In u (resets (slots s' j)) /\ s_ends m = true /\ (forall k, owner (slots s' k) = Some u -> slevel (slots s' k) <> s_level m)).
      { intros j m (A & B & C). rewrite Rs. split; [auto|]. split; [auto|]. intros k. rewrite Ow, Lv. auto. }
      destruct (pcs s u) as [|m|m|m j|m j|m j l|m j n x l|m j n l|m j|m j|m j|m j|m j|m j]; cbn [tok] in K |- *; auto;
        try (apply Rd; exact K); try (apply Od in K; exact (proj1 K));
        try (destruct K as (K1 & K2); apply Od in K1; destruct K1 as (K1 & E); try rewrite E; auto).
    - intros j k u. rewrite !Ow, !Lv. apply (i_uniq s I).
    - intros j u H. rewrite Rs in H. apply (i_r1 s I) in H. destruct (Nat.eq_dec u t) as [->|N]; [rewrite Pt; auto|rewrite Pu; auto].
    - intros j. rewrite Ow, Rc, Rs. apply (i_r2 s I).
    - intros j. rewrite Ow, Rs. intros H1 H2. pose proof (i_r3 s I j H1 H2) as H3. destruct (Nat.eq_dec j i) as [->|N]; [rewrite HF; auto|rewrite HJ; auto].
    - intros j u. rewrite Ow, Rc, HH. intros H1 H2. pose proof (i_cont s I j u H1 H2) as H3.
      destruct (Nat.eq_dec u t) as [->|N].
      2: { rewrite Pu by auto. rewrite (Same j u) by auto. exact H3. }
      rewrite Pt. destruct (Nat.eq_dec j i) as [->|M]; [auto|]. rewrite HJ by auto. unfold content in *.
      replace (match at_slot p' with Some k => Nat.eqb k j | None => false end) with false.
      2: { destruct HA' as [-> | ->]; [auto|]. symmetry. apply Nat.eqb_neq. auto. }
      replace (match at_slot (pcs s t) with Some k => Nat.eqb k j | None => false end) with false in H3; auto.
      destruct HA as [-> | ->]; [auto|]. symmetry. apply Nat.eqb_neq. auto.
    - intros u l H. rewrite HH. destruct (i_pend s I u l) as [E|(m & j & E & F)].
      { intros k. rewrite <- Ow, <- Lv. apply H. }
      { auto. }
      right. destruct (Nat.eq_dec u t) as [->|N].
      + rewrite Pt. destruct E as [E|E]; [|exfalso; eapply HQ2; eauto]. destruct HQ as (m' & j' & E1 & E2); [eauto|]. assert (m' = m) by congruence. subst m'.
        exists m, j'. split; [right; auto|auto].
      + exists m, j. rewrite Pu by auto. auto.
    - intros u o Ho. rewrite HH. destruct HG as (l & GL & GT & GO). unfold handed. rewrite GL, filter_app. fold (handed s o u). pose proof (i_deliv s I u o Ho) as D.
      destruct (Nat.eq_dec u t) as [->|N].
      + rewrite Pt. destruct (GO o Ho) as (x & -> & F). rewrite app_assoc. apply Forall2_app; auto.
      + rewrite Pu by auto. replace (filter _ l) with (@nil delivery); [rewrite app_nil_r; exact D|].
        clear - GT N. induction l as [|d l IH]; cbn; [auto|]. rewrite (GT d) by (left; auto). replace (Nat.eqb t u) with false by (symmetry; apply Nat.eqb_neq; auto).
        rewrite andb_false_r. apply IH. intros x Hx. apply GT. right. auto.
  Qed.

  Lemma m_keep s t p' : Inv s -> in_mutex p' = in_mutex (pcs s t) -> forall u, mutex s = Some u <-> in_mutex (upd (pcs s) t p' u) = true.
  Proof. intros I H u. unfold upd. destruct (Nat.eqb_spec u t) as [->|N]; [rewrite H|]; apply (i_mutex s I). Qed.
  Lemma m_lock s t p' : Inv s -> mutex s = None -> in_mutex p' = true -> forall u, Some t = Some u <-> in_mutex (upd (pcs s) t p' u) = true.
  Proof.
    intros I M H u. unfold upd. destruct (Nat.eqb_spec u t) as [->|N]; [tauto|]. rewrite <- (i_mutex s I), M. split; congruence.
  Qed.
  Lemma m_unlock s t p' : Inv s -> in_mutex (pcs s t) = true -> in_mutex p' = false -> forall u, None = Some u <-> in_mutex (upd (pcs s) t p' u) = true.
  Proof.
    intros I H H' u. unfold upd. destruct (Nat.eqb_spec u t) as [->|N]; [rewrite H'; split; discriminate|].
    rewrite <- (i_mutex s I) in H |- *. rewrite H. split; congruence.
  Qed.
  Lemma no_log s t p' : inflight (hist s t) p' = inflight (hist s t) (pcs s t) -> exists l, log s = log s ++ l /\ (forall d, In d l -> d_tid d = t) /\
      forall o, In o outs -> exists x, inflight (hist s t) p' = inflight (hist s t) (pcs s t) ++ x /\ Forall2 (right SIZE) x (filter (fun d => Nat.eqb (d_out d) o && Nat.eqb (d_tid d) t) l).
  Proof. intros H. exists []. rewrite app_nil_r. split; auto. split; [intros d []|]. intros o Ho. exists []. rewrite app_nil_r. split; auto. constructor. Qed.

  (* moves that leave all slots alone *)
  Lemma inv_goto s t p' mx i : Inv s ->
    (at_slot (pcs s t) = None \/ at_slot (pcs s t) = Some i) -> (at_slot p' = None \/ at_slot p' = Some i) ->
    (forall u, mx = Some u <-> in_mutex (upd (pcs s) t p' u) = true) -> tok s t p' -> (forall j, resetting (pcs s t) j -> resetting p' j) ->
    (owner (slots s i) = Some t -> raced (slots s i) = false -> content (hist s t) (pcs s t) i (slots s i) -> content (hist s t) p' i (slots s i)) ->
    ((exists m j, pcs s t = F140 m j) -> exists m j, p' = F146 m j /\ pcs s t = F140 m j) -> (forall m j, pcs s t <> F146 m j) ->
    inflight (hist s t) p' = inflight (hist s t) (pcs s t) -> Inv (goto (set_mutex s mx) t p').
  Proof.
    intros I A A' M K R C Q Q2 F. apply (inv_move s _ t i p' I); cbn; auto; try apply I; try (apply no_log; auto).
  Qed.
  (* moves that change the slot of the thread *)
  Lemma inv_own s t p' i x : Inv s -> at_slot (pcs s t) = Some i -> at_slot p' = Some i -> in_mutex p' = in_mutex (pcs s t) ->
    owner (slots s i) = Some t -> owner x = Some t -> slevel x = slevel (slots s i) -> resets x = resets (slots s i) -> raced x = raced (slots s i) -> wf x ->
    tok (goto (set_slot s i x) t p') t p' ->
    (raced (slots s i) = false -> content (hist s t) (pcs s t) i (slots s i) -> content (hist s t) p' i x) ->
    inflight (hist s t) p' = inflight (hist s t) (pcs s t) -> Inv (goto (set_slot s i x) t p').
  Proof.
    intros I A A' M O OX LX RX DX W K C F.
    assert (NR : forall j, ~ resetting (pcs s t) j) by (intros j; destruct (pcs s t); cbn in *; try discriminate; auto).
    apply (inv_move s _ t i p' I); cbn; rewrite ?upd_same; auto; try apply I.
    - intros j N. apply upd_other. auto.
    - congruence.
    - congruence.
    - apply m_keep; auto.
    - intros j H. destruct (NR j H).
    - intros (m & j & E). exfalso. apply (NR j). rewrite E. reflexivity.
    - intros m j E. apply (NR j). rewrite E. reflexivity.
    - apply no_log; auto.
  Qed.

  Lemma inv_take s t m i x n : Inv s -> pcs s t = A97 m -> (forall j, owner (slots s j) = Some t -> slevel (slots s j) <> s_level m) ->
    owner (slots s i) = None -> nslots s <= n -> i < n -> owner x = Some t -> slevel x = s_level m -> resets x = resets (slots s i) -> wf x ->
    (raced x = false -> resets x = [] /\ idx x = 0) -> Inv (goto (set_slot (set_n s n) i x) t (A148 m i)).
  Proof.
    intros I E NO O LN LI OX LX RX W C.
    assert (Oth : forall j u, owner (upd (slots s) i x j) = Some u -> (j = i /\ u = t) \/ (j <> i /\ owner (slots s j) = Some u)).
    { intros j u. unfold upd. destruct (Nat.eqb_spec j i) as [->|N]; [rewrite OX; intros H; injection H as <-; auto|auto]. }
    assert (Sl : forall j, j <> i -> upd (slots s) i x j = slots s j) by (intros j N; apply upd_other; auto).
    assert (Si : upd (slots s) i x i = x) by apply upd_same.
    assert (Rs : forall j, resets (upd (slots s) i x j) = resets (slots s j)) by (intros j; unfold upd; destruct (Nat.eqb_spec j i) as [->|N]; auto).
    constructor; cbn.
    - apply (i_crash s I).
    - apply (i_below s I).
    - apply m_keep; auto. rewrite E. reflexivity.
    - intros j. rewrite Rs. destruct (Nat.eq_dec j i) as [->|N]; [rewrite Si; auto|]. rewrite Sl by auto. destruct (i_wf s I j) as [A B]. split; auto. intros H. apply B in H. lia.
    - intros u. destruct (Nat.eq_dec u t) as [->|N].
      { rewrite upd_same. cbn [tok]. unfold owned. cbn. rewrite Si. auto. }
      rewrite upd_other by auto. pose proof (i_tok s I u) as K.
      assert (Od : forall j m', owned s u j m' -> owned (goto (set_slot (set_n s n) i x) t (A148 m i)) u j m' /\ upd (slots s) i x j = slots s j).
      { intros j m' (A1 & A2 & A3). assert (j <> i) by congruence. unfold owned. cbn. rewrite Sl by auto. repeat split; auto; lia. }
      assert (Rd : forall j m', In u (resets (slots s j)) /\ s_ends m' = true /\ (forall k, owner (slots s k) = Some u -> slevel (slots s k) <> s_level m') ->
         In u (resets (upd (slots s) i x j)) /\ s_ends m' = true /\ (forall k, owner (upd (slots s) i x k) = Some u -> slevel (upd (slots s) i x k) <> s_level m')).
      { intros j m' (A1 & A2 & A3). rewrite Rs. split; auto. split; auto. intros k H. destruct (Oth _ _ H) as [[-> ->]|[H1 H2]]; [congruence|]. rewrite Sl; auto. }
      destruct (pcs s u) as [|m'|m'|m' j|m' j|m' j l|m' j k y l|m' j k l|m' j|m' j|m' j|m' j|m' j|m' j]; cbn [tok] in K |- *; auto;
        try (apply Rd; exact K); try (apply Od in K; exact (proj1 K));
        try (destruct K as (K1 & K2); apply Od in K1; destruct K1 as (K1 & F); cbn; try rewrite F; auto).
    - intros j k u H1 H2. destruct (Oth _ _ H1) as [[-> ->]|[A1 A2]]; destruct (Oth _ _ H2) as [[-> U]|[B1 B2]]; auto; rewrite ?Si, ?(Sl j), ?(Sl k) by auto; intros H.
      + exfalso. apply (NO k B2). congruence.
      + subst u. exfalso. apply (NO j A2). congruence.
      + eapply (i_uniq s I); eauto.
    - intros j u H. rewrite Rs in H. apply (i_r1 s I) in H. unfold upd. destruct (Nat.eqb_spec u t) as [->|N]; [rewrite E in H; destruct H|auto].
    - intros j. destruct (Nat.eq_dec j i) as [->|N]; [rewrite Si; intros _ H; apply C; auto|rewrite Sl by auto; apply (i_r2 s I)].
    - intros j. destruct (Nat.eq_dec j i) as [->|N]; [rewrite Si; congruence|rewrite Sl by auto; apply (i_r3 s I)].
    - intros j u H. destruct (Oth _ _ H) as [[-> ->]|[A1 A2]].
      + rewrite Si, upd_same. intros R. destruct (C R) as [_ C2]. unfold content. cbn [at_slot uses]. rewrite Nat.eqb_refl. unfold has, base. rewrite C2, LX.
        destruct (i_pend s I t (s_level m) NO) as [-> |(m' & k & [F|F] & _)]; [|congruence|congruence]. rewrite firstn_nil. auto.
      + rewrite Sl by auto. intros R. pose proof (i_cont s I j u A2 R) as H3. destruct (Nat.eq_dec u t) as [->|N]; [|rewrite upd_other by auto; auto].
        rewrite upd_same. rewrite E in H3. unfold content in *. cbn [at_slot uses] in *. replace (Nat.eqb i j) with false by (symmetry; apply Nat.eqb_neq; auto). auto.
    - intros u l H. destruct (i_pend s I u l) as [F|(m' & k & F & G)].
      { intros j H1. destruct (Nat.eq_dec j i) as [->|N]; [congruence|]. specialize (H j). rewrite Sl in H by auto. auto. }
      { auto. }
      right. exists m', k. split; auto. rewrite upd_other; auto. intros ->. rewrite E in F. destruct F; discriminate.
    - intros u o Ho. change (handed _ o u) with (handed s o u). pose proof (i_deliv s I u o Ho) as D. destruct (Nat.eq_dec u t) as [->|N]; [rewrite upd_same; rewrite E in D; exact D|rewrite upd_other; auto].
  Qed.

  Lemma inv_release s t m i : Inv s -> pcs s t = F138 m i -> Inv (goto (set_slot s i (set_resets (set_owner (slots s i) None) (t :: resets (slots s i)))) t (F140 m i)).
  Proof.
    intros I E. pose proof (i_tok s I t) as K. rewrite E in K. cbn [tok] in K. destruct K as ((O & L & LI) & Ends).
    set (x := set_resets _ _).
    assert (Oth : forall j u, owner (upd (slots s) i x j) = Some u -> j <> i /\ owner (slots s j) = Some u).
    { intros j u. unfold upd. destruct (Nat.eqb_spec j i) as [->|N]; [discriminate|auto]. }
    assert (Sl : forall j, j <> i -> upd (slots s) i x j = slots s j) by (intros j N; apply upd_other; auto).
    assert (Si : upd (slots s) i x i = x) by apply upd_same.
    assert (Rs : forall j u, In u (resets (slots s j)) -> In u (resets (upd (slots s) i x j))).
    { intros j u. unfold upd. destruct (Nat.eqb_spec j i) as [->|N]; cbn; auto. }
    constructor; cbn.
    - apply (i_crash s I).
    - apply (i_below s I).
    - apply m_keep; auto. rewrite E. reflexivity.
    - intros j. destruct (Nat.eq_dec j i) as [->|N]; [rewrite Si; split; [apply (i_wf s I)|auto]|]. rewrite Sl by auto. apply (i_wf s I).
    - intros u. destruct (Nat.eq_dec u t) as [->|N].
      { rewrite upd_same. cbn. rewrite Si. split; [left; auto|]. split; auto. intros j H. destruct (Oth _ _ H) as [H1 H2]. rewrite Sl by auto.
        intros F. apply H1. eapply (i_uniq s I); eauto. congruence. }
      rewrite upd_other by auto. pose proof (i_tok s I u) as K.
      assert (Od : forall j m', owned s u j m' -> owned (goto (set_slot s i x) t (F140 m i)) u j m' /\ upd (slots s) i x j = slots s j).
      { intros j m' (A1 & A2 & A3). assert (j <> i) by congruence. unfold owned. cbn. rewrite Sl by auto. repeat split; auto; lia. }
      assert (Rd : forall j m', In u (resets (slots s j)) /\ s_ends m' = true /\ (forall k, owner (slots s k) = Some u -> slevel (slots s k) <> s_level m') ->
         In u (resets (upd (slots s) i x j)) /\ s_ends m' = true /\ (forall k, owner (upd (slots s) i x k) = Some u -> slevel (upd (slots s) i x k) <> s_level m')).
      { intros j m' (A1 & A2 & A3). split; auto. split; auto. intros k H. destruct (Oth _ _ H) as [H1 H2]. rewrite Sl; auto. }
      destruct (pcs s u) as [|m'|m'|m' j|m' j|m' j l|m' j k y l|m' j k l|m' j|m' j|m' j|m' j|m' j|m' j]; cbn [tok] in K |- *; auto;
        try (apply Rd; exact K); try (apply Od in K; exact (proj1 K));
        try (destruct K as (K1 & K2); apply Od in K1; destruct K1 as (K1 & F); cbn; try rewrite F; auto).
    - intros j k u H1 H2. destruct (Oth _ _ H1) as [A1 A2]. destruct (Oth _ _ H2) as [B1 B2]. rewrite !Sl by auto. apply (i_uniq s I) with (t := u); auto.
    - intros j u H. unfold upd at 1. destruct (Nat.eqb_spec u t) as [->|N].
      + cbn. destruct (Nat.eq_dec j i) as [->|M]; [auto|]. rewrite Sl in H by auto. apply (i_r1 s I) in H. rewrite E in H. destruct H.
      + destruct (Nat.eq_dec j i) as [->|M]; [|rewrite Sl in H by auto; apply (i_r1 s I); auto]. rewrite Si in H. destruct H as [H|H]; [congruence|]. apply (i_r1 s I); auto.
    - intros j. destruct (Nat.eq_dec j i) as [->|N]; [rewrite Si; cbn; congruence|rewrite Sl by auto; apply (i_r2 s I)].
    - intros j. destruct (Nat.eq_dec j i) as [->|N]; [rewrite Si; cbn; discriminate|rewrite Sl by auto; apply (i_r3 s I)].
    - intros j u H. destruct (Oth _ _ H) as [A1 A2]. rewrite Sl by auto. intros R. pose proof (i_cont s I j u A2 R) as H3. destruct (Nat.eq_dec u t) as [->|N]; [|rewrite upd_other by auto; auto].
      rewrite upd_same. rewrite E in H3. unfold content in *. cbn [at_slot uses] in *. replace (Nat.eqb i j) with false in H3 by (symmetry; apply Nat.eqb_neq; auto). auto.
    - intros u l H. destruct (Nat.eq_dec u t) as [->|N].
      + rewrite upd_same. destruct (level_eqb (s_level m) l) eqn:EL.
        { apply level_eqb_eq in EL. right. exists m, i. auto. }
        destruct (i_pend s I t l) as [F|(m' & k & F & G)]; [|auto|rewrite E in F; destruct F; discriminate].
        intros j H1 H2. destruct (Nat.eq_dec j i) as [->|M].
        { assert (s_level m = l) by congruence. apply level_eqb_eq in H0. congruence. }
        { specialize (H j). rewrite Sl in H by auto. exact (H H1 H2). }
      + rewrite upd_other by auto. apply (i_pend s I). intros j H1. destruct (Nat.eq_dec j i) as [->|M]; [congruence|]. specialize (H j). rewrite Sl in H by auto. auto.
    - intros u o Ho. change (handed _ o u) with (handed s o u). pose proof (i_deliv s I u o Ho) as D. destruct (Nat.eq_dec u t) as [->|N]; [rewrite upd_same; rewrite E in D; exact D|rewrite upd_other; auto].
  Qed.

  Lemma inv_reset s t m i : Inv s -> pcs s t = F146 m i -> Inv (finish (set_slot s i (set_resets (set_idx (slots s i) 0) (remove Nat.eq_dec t (resets (slots s i))))) t m).
  Proof.
    intros I E. pose proof (i_tok s I t) as K. rewrite E in K. cbn [tok] in K. destruct K as (Ht & Ends & NO).
    set (x := set_resets _ _).
    assert (Ow : forall j, owner (upd (slots s) i x j) = owner (slots s j)) by (intros j; unfold upd; destruct (Nat.eqb_spec j i) as [->|N]; auto).
    assert (Lv : forall j, slevel (upd (slots s) i x j) = slevel (slots s j)) by (intros j; unfold upd; destruct (Nat.eqb_spec j i) as [->|N]; auto).
    assert (In_ : forall j, info (upd (slots s) i x j) = info (slots s j)) by (intros j; unfold upd; destruct (Nat.eqb_spec j i) as [->|N]; auto).
    assert (Rc : forall j, raced (upd (slots s) i x j) = raced (slots s j)) by (intros j; unfold upd; destruct (Nat.eqb_spec j i) as [->|N]; auto).
    assert (Ix : forall j, idx (upd (slots s) i x j) <= idx (slots s j)) by (intros j; unfold upd; destruct (Nat.eqb_spec j i) as [->|N]; [cbn; lia|auto]).
    assert (Sl : forall j, j <> i -> upd (slots s) i x j = slots s j) by (intros j N; apply upd_other; auto).
    assert (Si : upd (slots s) i x i = x) by apply upd_same.
    assert (Rs : forall j u, In u (resets (upd (slots s) i x j)) <-> In u (resets (slots s j)) /\ (u = t -> j <> i)).
    { intros j u. unfold upd. destruct (Nat.eqb_spec j i) as [->|N]; [|tauto]. cbn. split; [intros H; apply in_remove in H; split; tauto|].
      intros [H1 H2]. apply in_in_remove; auto. intros ->. apply H2; auto. }
    assert (B : below s t = []) by apply (i_below s I).
    unfold finish. cbn. rewrite B. cbn [tl].
    constructor; cbn.
    - apply (i_crash s I).
    - intros u. unfold upd. destruct (u =? t); [auto|apply (i_below s I)].
    - apply m_keep; auto. rewrite E. reflexivity.
    - intros j. rewrite Ow. destruct (i_wf s I j) as [(W1 & W2 & W3) W4]. split.
      + unfold upd. destruct (Nat.eqb_spec j i) as [->|N]; [|split; auto]. split; [exact W1|]. split; [cbn; lia|exact W3].
      + intros [H|H]; [auto|]. apply W4. right. intros F. apply H. unfold upd. destruct (Nat.eqb_spec j i) as [->|N]; [cbn; rewrite F; reflexivity|auto].
    - intros u. destruct (Nat.eq_dec u t) as [->|N]; [rewrite upd_same; exact Logic.I|]. rewrite upd_other by auto. pose proof (i_tok s I u) as K.
      assert (Od : forall j m', owned s u j m' -> owner (upd (slots s) i x j) = Some u /\ slevel (upd (slots s) i x j) = s_level m' /\ j < nslots s).
      { intros j m' (A1 & A2 & A3). rewrite Ow, Lv. auto. }
      assert (Rd : forall j m', In u (resets (slots s j)) /\ s_ends m' = true /\ (forall k, owner (slots s k) = Some u -> slevel (slots s k) <> s_level m') ->
         In u (resets (upd (slots s) i x j)) /\ s_ends m' = true /\ (forall k, owner (upd (slots s) i x k) = Some u -> slevel (upd (slots s) i x k) <> s_level m')).
      { intros j m' (A1 & A2 & A3). split; [apply Rs; split; auto; intros; congruence|]. split; auto. intros k. rewrite Ow, Lv. auto. }
      destruct (pcs s u) as [|m'|m'|m' j|m' j|m' j l|m' j k y l|m' j k l|m' j|m' j|m' j|m' j|m' j|m' j]; cbn [tok] in K |- *; auto;
        try (apply Rd; exact K); try (apply Od in K; exact K);
        try (destruct K as (K1 & K2); apply Od in K1; cbn; rewrite ?In_; split; [exact K1|]; auto).
      + destruct K2 as (K2 & K3 & K4). split; [auto|]. split; [auto|]. specialize (Ix j). lia.
      + destruct K2 as (K2 & K3). split; [auto|]. specialize (Ix j). lia.
    - intros j k u. rewrite !Ow, !Lv. apply (i_uniq s I).
    - intros j u H. apply Rs in H. destruct H as [H1 H2]. apply (i_r1 s I) in H1. unfold upd. destruct (Nat.eqb_spec u t) as [->|N]; [|auto].
      rewrite E in H1. cbn in H1. exfalso. apply H2; auto.
    - intros j. rewrite Ow, Rc. intros H1 H2. pose proof (i_r2 s I j H1 H2) as H3. destruct (Nat.eq_dec j i) as [->|N]; [rewrite H3 in Ht; destruct Ht|rewrite Sl; auto].
    - intros j. rewrite Ow. destruct (Nat.eq_dec j i) as [->|N]; [rewrite Si; auto|rewrite Sl by auto; apply (i_r3 s I)].
    - intros j u. rewrite Ow, Rc. intros H1 H2. assert (N : j <> i).
      { intros ->. rewrite (i_r2 s I i) in Ht; [destruct Ht|congruence|auto]. }
      rewrite Sl by auto. pose proof (i_cont s I j u H1 H2) as H3. destruct (Nat.eq_dec u t) as [->|M]; [|rewrite !upd_other by auto; auto].
      rewrite !upd_same. rewrite E in H3. unfold content in *. cbn [at_slot uses] in *. rewrite base_snoc, level_neq; [auto|]. intros F. apply (NO j H1). auto.
    - intros u l H. destruct (Nat.eq_dec u t) as [->|M].
      + rewrite !upd_same, pending_snoc. unfold pend1. destruct (level_eqb (s_level m) l) eqn:EL; [rewrite Ends; auto|].
        destruct (i_pend s I t l) as [F|(m' & k & F & G & _)]; [intros j; rewrite <- Ow, <- Lv; apply H|auto|].
        rewrite E in F. destruct F as [F|F]; [discriminate|]. injection F as -> ->. apply level_eqb_eq in G. congruence.
      + rewrite !upd_other by auto. apply (i_pend s I). intros j. rewrite <- Ow, <- Lv. apply H.
    - intros u o Ho. change (handed _ o u) with (handed s o u). pose proof (i_deliv s I u o Ho) as D. destruct (Nat.eq_dec u t) as [->|M]; [|rewrite !upd_other by auto; auto].
      rewrite !upd_same. rewrite ended_snoc, Ends. rewrite E in D. cbn [inflight app] in *. rewrite app_nil_r. exact D.
  Qed.

  Lemma inv_stop s t m i : Inv s -> pcs s t = MPut m i [] -> s_ends m = false -> Inv (finish s t m).
  Proof.
    intros I E Ends. pose proof (i_tok s I t) as K. rewrite E in K. cbn [tok] in K. destruct K as ((O & L & LI) & Inf).
    assert (B : below s t = []) by apply (i_below s I).
    unfold finish. rewrite B. cbn [tl].
    constructor; cbn.
    - apply (i_crash s I).
    - intros u. unfold upd. destruct (u =? t); [auto|apply (i_below s I)].
    - apply m_keep; auto. rewrite E. reflexivity.
    - apply (i_wf s I).
    - intros u. destruct (Nat.eq_dec u t) as [->|N]; [rewrite upd_same; exact Logic.I|]. rewrite upd_other by auto. exact (i_tok s I u).
    - apply (i_uniq s I).
    - intros j u H. apply (i_r1 s I) in H. unfold upd. destruct (Nat.eqb_spec u t) as [->|N]; [|auto]. rewrite E in H. destruct H.
    - apply (i_r2 s I).
    - apply (i_r3 s I).
    - intros j u H1 H2. pose proof (i_cont s I j u H1 H2) as H3. destruct (Nat.eq_dec u t) as [->|M]; [|rewrite !upd_other by auto; auto].
      rewrite !upd_same. rewrite E in H3. unfold content in *. cbn [at_slot uses] in *. rewrite base_snoc. destruct (Nat.eqb_spec i j) as [<-|N].
      + destruct H3 as (d & W & H3). rewrite app_nil_r in W. subst d. rewrite L, level_eqb_refl, Ends. rewrite L in H3.
        unfold writes in H3. rewrite Ends, app_nil_r, clips_pieces in H3 by apply base_len. exact H3.
      + rewrite level_neq; auto. intros F. apply N. eapply (i_uniq s I); eauto. congruence.
    - intros u l H. destruct (Nat.eq_dec u t) as [->|M]; [|rewrite !upd_other by auto; apply (i_pend s I); auto].
      rewrite !upd_same, pending_snoc. unfold pend1. rewrite level_neq by (intros F; apply (H i); congruence).
      destruct (i_pend s I t l H) as [F|(m' & k & F & G)]; [auto|]. rewrite E in F. destruct F; discriminate.
    - intros u o Ho. change (handed _ o u) with (handed s o u). pose proof (i_deliv s I u o Ho) as D. destruct (Nat.eq_dec u t) as [->|M]; [|rewrite !upd_other by auto; auto].
      rewrite !upd_same. rewrite ended_snoc, Ends, app_nil_r. rewrite E in D. exact D.
  Qed.

  Lemma content_at h p i x : at_slot p = Some i -> content h p i x ->
      match p with
      | MPut m _ r => exists d, writes m = d ++ r /\ has x (clips (base h (slevel x)) d)
      | W95 m _ n y r => exists d pr, writes m = d ++ (y, pr) :: r /\ has x (clips (base h (slevel x)) d) /\ n = amount SIZE (idx x) y pr
      | W97 m _ n r => exists d y pr, writes m = d ++ (y, pr) :: r /\ idx x = length (clips (base h (slevel x)) d) /\ n = amount SIZE (idx x) y pr /\
                       firstn (idx x + n) (buf x) = clips (base h (slevel x)) d ++ firstn n y
      | F127 m _ => has x (clips (base h (slevel x)) (writes m))
      | F128 m _ | F130 m _ => cstring (buf x) = until_nul (clips (base h (slevel x)) (writes m))
      | F138 _ _ => True
      | _ => has x (base h (slevel x))
      end.
  Proof. intros A H. unfold content in H. rewrite A, Nat.eqb_refl in H. exact H. Qed.
  Lemma at_content h p i x : at_slot p = Some i ->
      match p with
      | MPut m _ r => exists d, writes m = d ++ r /\ has x (clips (base h (slevel x)) d)
      | W95 m _ n y r => exists d pr, writes m = d ++ (y, pr) :: r /\ has x (clips (base h (slevel x)) d) /\ n = amount SIZE (idx x) y pr
      | W97 m _ n r => exists d y pr, writes m = d ++ (y, pr) :: r /\ idx x = length (clips (base h (slevel x)) d) /\ n = amount SIZE (idx x) y pr /\
                       firstn (idx x + n) (buf x) = clips (base h (slevel x)) d ++ firstn n y
      | F127 m _ => has x (clips (base h (slevel x)) (writes m))
      | F128 m _ | F130 m _ => cstring (buf x) = until_nul (clips (base h (slevel x)) (writes m))
      | F138 _ _ => True
      | _ => has x (base h (slevel x))
      end -> content h p i x.
  Proof. intros A H. unfold content. rewrite A, Nat.eqb_refl. exact H. Qed.
  Lemma content_none h p i x : at_slot p = None -> content h p i x <-> has x (base h (slevel x)).
  Proof. intros A. unfold content. rewrite A. tauto. Qed.

  Lemma own_slot_spec s t l : Inv s -> match own_slot s t l with
    | Some i => owner (slots s i) = Some t /\ slevel (slots s i) = l /\ i < nslots s
    | None => forall j, owner (slots s j) = Some t -> slevel (slots s j) <> l end.
  Proof.
    intros I. unfold own_slot. set (f := fun i => _). destruct (find f (seq 0 (nslots s))) as [i|] eqn:E.
    - apply find_some in E. destruct E as [E1 E2]. apply in_seq in E1. unfold f in E2. destruct (owner (slots s i)) as [u|]; [|discriminate].
      apply andb_prop in E2. destruct E2 as [A B]. apply Nat.eqb_eq in A. apply level_eqb_eq in B. subst. repeat split; auto; lia.
    - intros j O L. assert (Lj : j < nslots s) by (apply (i_wf s I j); left; congruence). assert (X := find_none _ _ E j). unfold f in X. rewrite O, L, Nat.eqb_refl, level_eqb_refl in X.
      cbn in X. discriminate X. apply in_seq. lia.
  Qed.
  Lemma free_slot_spec s : match free_slot s with Some i => owner (slots s i) = None /\ i < nslots s | None => True end.
  Proof.
    unfold free_slot. set (f := fun i => _). destruct (find f (seq 0 (nslots s))) as [i|] eqn:E; auto. apply find_some in E. destruct E as [E1 E2].
    apply in_seq in E1. unfold f in E2. destruct (owner (slots s i)); [discriminate|]. split; auto. lia.
  Qed.
  Lemma wf_new o l : wf (new_slot SIZE o l).
  Proof. split; [apply repeat_length|]. split; [cbn; lia|]. cbn. rewrite nth_error_repeat by lia. reflexivity. Qed.

  Lemma inv_tstep s t s' : Inv s -> tstep t s = Some s' -> Inv s'.
  Proof.
    intros I H. unfold LogStreamModel.tstep in H. pose proof (i_tok s I t) as K.
    assert (G : forall p', goto s t p' = goto (set_mutex s (mutex s)) t p') by (intros p'; reflexivity).
    destruct (pcs s t) as [|m|m|m i|m i|m i l|m i n x l|m i n l|m i|m i|m i|m i|m i|m i] eqn:E; cbn [tok] in K.
    - discriminate.
    - destruct (mutex s) as [u|] eqn:M; [discriminate|]. injection H as <-. apply (inv_goto s t _ _ 0 I); rewrite ?E; cbn; auto; try discriminate.
      + apply m_lock; auto.
      + intros (a & b & F). discriminate.
    - pose proof (own_slot_spec s t (s_level m) I) as O. destruct (own_slot s t (s_level m)) as [i|].
      + injection H as <-. rewrite G. destruct O as (O1 & O2 & O3). apply (inv_goto s t _ _ i I); rewrite ?E; cbn; auto; try discriminate.
        * apply m_keep; auto. rewrite E. reflexivity.
        * repeat split; auto.
        * intros _ R C. rewrite content_none in C by auto. apply at_content; [reflexivity|exact C].
        * intros (a & b & F). discriminate.
      + pose proof (free_slot_spec s) as F. destruct (free_slot s) as [i|].
        * injection H as <-. destruct F as [F1 F2]. apply (inv_take s t m i _ (nslots s) I E O F1 (le_n _) F2); cbn; auto.
          { apply (i_wf s I). }
          { destruct (resets (slots s i)) eqn:R; [|discriminate]. intros _. split; auto. apply (i_r3 s I); auto. }
        * assert (F1 : owner (slots s (nslots s)) = None).
          { destruct (owner (slots s (nslots s))) eqn:F1; auto. assert (nslots s < nslots s) by (apply (i_wf s I); left; congruence). lia. }
          assert (F2 : resets (slots s (nslots s)) = []).
          { destruct (resets (slots s (nslots s))) eqn:F2; auto. assert (nslots s < nslots s) by (apply (i_wf s I); right; congruence). lia. }
          injection H as <-. apply (inv_take s t m (nslots s) _ (S (nslots s)) I E O F1); cbn; auto. apply wf_new.
    - injection H as <-. apply (inv_goto s t _ _ i I); rewrite ?E; cbn; auto; try discriminate.
      + apply m_unlock; auto. rewrite E. reflexivity.
      + intros (a & b & F). discriminate.
    - injection H as <-. destruct K as (O & L & LI). apply (inv_own s t _ i _ I); rewrite ?E; cbn; auto.
      + apply (i_wf s I).
      + unfold owned. cbn. rewrite !upd_same. cbn. repeat split; auto.
      + intros R C. apply content_at in C; [|reflexivity]. apply at_content; [reflexivity|]. exists []. split; auto.
    - destruct K as ((O & L & LI) & Inf). destruct l as [|[x pr] l].
      + destruct (s_ends m) eqn:Ends; injection H as <-; [|eapply inv_stop; eauto]. rewrite G. apply (inv_goto s t _ _ i I); rewrite ?E; cbn; auto; try discriminate.
        * apply m_keep; auto. rewrite E. reflexivity.
        * repeat split; auto.
        * intros _ R C. apply content_at in C; [|reflexivity]. apply at_content; [reflexivity|]. destruct C as (d & W & C). rewrite app_nil_r in W. rewrite W. exact C.
        * intros (a & b & F). discriminate.
      + destruct (i_wf s I i) as [(W1 & W2 & W3) _]. replace (idx (slots s i) <? SIZE) with true in H by (symmetry; apply Nat.ltb_lt; lia). injection H as <-.
        rewrite G. apply (inv_goto s t _ _ i I); rewrite ?E; cbn; auto; try discriminate.
        * apply m_keep; auto. rewrite E. reflexivity.
        * rewrite amount_min. repeat split; auto; lia.
        * intros _ R C. apply content_at in C; [|reflexivity]. apply at_content; [reflexivity|]. destruct C as (d & W & C). exists d, pr. auto.
        * intros (a & b & F). discriminate.
    - destruct K as ((O & L & LI) & Inf & Ln & Lx). destruct (i_wf s I i) as [(W1 & W2 & W3) _].
      replace ((n <=? length x) && (idx (slots s i) + n <=? length (buf (slots s i)))) with true in H.
      2: { symmetry. apply andb_true_intro. split; apply Nat.leb_le; lia. }
      injection H as <-. set (k := idx (slots s i)) in *. set (b := buf (slots s i)) in *.
      assert (LB : length (firstn k b ++ firstn n x) = k + n) by (rewrite app_length, !firstn_length; lia).
      apply (inv_own s t _ i _ I); rewrite ?E; cbn; auto.
      + split; [|split; [exact W2|]]; cbn [set_buf buf]; fold k b.
        * rewrite app_assoc, app_length, LB, skipn_length. lia.
        * rewrite app_assoc, nth_error_app2 by lia. rewrite LB. rewrite nth_error_skipn. replace (k + n + (SIZE - (k + n))) with SIZE by lia. exact W3.
      + unfold owned. cbn. rewrite !upd_same. cbn. repeat split; auto.
      + intros R C. apply content_at in C; [|reflexivity]. apply at_content; [reflexivity|]. destruct C as (d & pr & W & (C1 & C2) & C3).
        exists d, x, pr. cbn [set_buf slevel buf idx]. fold k b in C1, C2, C3 |- *. split; auto. split; auto. split; auto.
        rewrite app_assoc, firstn_app, LB, Nat.sub_diag. cbn [firstn]. rewrite app_nil_r, firstn_all2 by lia. rewrite <- C2 at 1. reflexivity.
    - injection H as <-. destruct K as ((O & L & LI) & Inf & Lx). destruct (i_wf s I i) as [(W1 & W2 & W3) _]. apply (inv_own s t _ i _ I); rewrite ?E; cbn; auto.
      + split; [exact W1|]. split; [cbn; lia|exact W3].
      + unfold owned. cbn. rewrite !upd_same. cbn. repeat split; auto.
      + intros R C. apply content_at in C; [|reflexivity]. apply at_content; [reflexivity|]. destruct C as (d & x & pr & W & C1 & C2 & C3).
        exists (d ++ [(x, pr)]). cbn [set_idx slevel]. split; [rewrite <- app_assoc; exact W|]. rewrite clips_app. cbn [clips fold_left]. unfold clip. cbn [fst snd].
        fold (clips (base (hist s t) (slevel (slots s i))) d). rewrite <- C1, <- C2. split; cbn [set_idx idx buf]; [|exact C3].
        rewrite app_length, firstn_length, <- C1. rewrite amount_min in C2. lia.
    - destruct K as ((O & L & LI) & Inf & Ends). destruct (i_wf s I i) as [(W1 & W2 & W3) _].
      replace (idx (slots s i) <? length (buf (slots s i))) with true in H by (symmetry; apply Nat.ltb_lt; lia). injection H as <-.
      apply (inv_own s t _ i _ I); rewrite ?E; cbn; auto.
      + split; [cbn; rewrite list_set_len; exact W1|]. split; [exact W2|]. cbn. rewrite list_set_nth. destruct (_ && _); auto.
      + unfold owned. cbn. rewrite !upd_same. cbn. repeat split; auto.
      + intros R C. apply content_at in C; [|reflexivity]. apply at_content; [reflexivity|]. cbn [set_buf slevel buf]. destruct C as [C1 C2].
        rewrite list_set_spec by lia. rewrite C2, cstring_until. apply until_nul_at.
    - destruct (mutex s) as [u|] eqn:M; [discriminate|]. injection H as <-. apply (inv_goto s t _ _ i I); rewrite ?E; cbn; auto; try discriminate.
      + apply m_lock; auto.
      + intros (a & b & F). discriminate.
    - destruct K as ((O & L & LI) & Inf & Ends). destruct (i_wf s I i) as [(W1 & W2 & W3) _]. rewrite (has_nul_at _ _ W3) in H. injection H as <-.
      apply (inv_move s _ t i (F138 m i) I); rewrite ?E; cbn; auto; try discriminate; try apply I.
      + intros u. apply m_keep; auto. rewrite E. reflexivity.
      + repeat split; auto.
      + intros _ R C. apply at_content; [reflexivity|exact Logic.I].
      + intros (a & b & F). discriminate.
      + eexists. split; [reflexivity|]. split.
        { intros d Hd. apply in_map_iff in Hd. destruct Hd as (o & <- & _). reflexivity. }
        intros o Ho. exists [(hist s t, m)]. split; auto.
        assert (F : filter (fun d => Nat.eqb (d_out d) o && Nat.eqb (d_tid d) t) (map (fun o => mkD o t (info (slots s i)) (cstring (buf (slots s i))) (raced (slots s i))) outs)
                    = [mkD o t (info (slots s i)) (cstring (buf (slots s i))) (raced (slots s i))]).
        { clear - ND Ho. induction outs as [|a r IH]; [destruct Ho|]. apply NoDup_cons_iff in ND. destruct ND as [N1 N2]. cbn [map filter d_out d_tid]. rewrite Nat.eqb_refl, andb_true_r.
          destruct (Nat.eqb_spec a o) as [->|N].
          - f_equal. clear - N1. induction r as [|b r IH]; [reflexivity|]. cbn [map filter d_out d_tid]. rewrite Nat.eqb_refl, andb_true_r.
            destruct (Nat.eqb_spec b o) as [->|M]; [exfalso; apply N1; left; auto|]. apply IH. intros X. apply N1. right. auto.
          - apply IH; auto. destruct Ho; [congruence|auto]. }
        rewrite F. constructor; [|constructor]. split; cbn; [auto|]. intros R. pose proof (i_cont s I i t O R) as C. rewrite E in C. apply content_at in C; [|reflexivity].
        rewrite C. unfold expected. f_equal. rewrite L, clips_ended by (auto; apply base_len). f_equal. unfold base. set (p := pending _ _ _).
        rewrite !firstn_app, firstn_length, firstn_firstn, Nat.min_id. f_equal. destruct (Nat.le_gt_cases (length p) (SIZE - 2)); [f_equal; lia|].
        replace (SIZE - 2 - Nat.min (SIZE - 2) (length p)) with 0 by lia. replace (SIZE - 2 - length p) with 0 by lia. reflexivity.
    - injection H as <-. apply inv_release; auto.
    - injection H as <-. apply (inv_goto s t _ _ i I); rewrite ?E; cbn; auto; try discriminate.
      + apply m_unlock; auto. rewrite E. reflexivity.
      + intros _. exists m, i. auto.
    - injection H as <-. apply inv_reset; auto.
  Qed.

  Lemma inv_start s t m : Inv s -> pcs s t = Idle -> Inv (goto s t (A94 m)).
  Proof.
    intros I E. change (goto s t (A94 m)) with (goto (set_mutex s (mutex s)) t (A94 m)). apply (inv_goto s t _ _ 0 I); rewrite ?E; cbn; auto; try discriminate.
    - apply m_keep; auto. rewrite E. reflexivity.
    - intros (a & b & F). discriminate.
  Qed.
  Lemma inv_step t s s' : Inv s -> step false t s s' -> Inv s'.
  Proof. intros I H. destruct H as [t s s' C H|t s m C H|t s m' i l m N]; [eapply inv_tstep; eauto|apply inv_start; auto|discriminate]. Qed.
  Lemma inv_reach s : reach init (any SIZE outs false) s -> Inv s.
  Proof. apply reach_invariant; [apply inv_init|]. intros x y _ I [t H]. eapply inv_step; eauto. Qed.

  Lemma uses_owner s t i : Inv s -> uses (pcs s t) = Some i -> owner (slots s i) = Some t.
  Proof.
    intros I H. pose proof (i_tok s I t) as K. destruct (pcs s t); cbn in H; try discriminate; injection H as <-; cbn [tok] in K; unfold owned in K; tauto.
  Qed.
  Lemma exclusive s t u i : Inv s -> t <> u -> uses (pcs s t) = Some i -> uses (pcs s u) <> Some i.
  Proof. intros I N H1 H2. apply (uses_owner s t i I) in H1. apply (uses_owner s u i I) in H2. congruence. Qed.

  (* one thread *)
  Lemma alone_reach t s : reach init (among SIZE outs (eq t)) s -> reach init (any SIZE outs false) s.
  Proof. intros R. induction R as [|s s' R IH H]; [constructor|]. eapply reach_step; eauto. destruct H as (u & _ & H). exists u. auto. Qed.
  Definition quiet (t : tid) (s : st) : Prop :=
    (forall u, u <> t -> pcs s u = Idle) /\ (forall i, raced (slots s i) = false) /\ (forall d, In d (log s) -> d_raced d = false).
  Lemma alone_quiet t s : reach init (among SIZE outs (eq t)) s -> quiet t s.
  Proof.
    intros R. pattern s. eapply reach_invariant; [| |exact R].
    - split; [auto|]. split; [auto|]. intros d [].
    - clear s R. intros s s' R (Q1 & Q2 & Q3) (u & <- & H). pose proof (inv_reach s (alone_reach t s R)) as I.
      destruct H as [t s s' C H|t s m C H|t s m' i l m N]; [|split; [intros u N; cbn; rewrite upd_other; auto|split; auto]|discriminate].
      assert (RS : forall m i, pcs s t = A97 m -> resets (slots s i) = []).
      { intros m i E. destruct (resets (slots s i)) as [|v r] eqn:F; [auto|]. assert (X : resetting (pcs s v) i) by (apply (i_r1 s I); rewrite F; left; auto).
        destruct (Nat.eq_dec v t) as [->|N]; [rewrite E in X; destruct X|rewrite Q1 in X by auto; destruct X]. }
      assert (B : below s t = []) by apply (i_below s I).
      assert (U : forall (f : tid -> pc) v p, (forall u, u <> t -> f u = Idle) -> v <> t -> upd f t p v = Idle) by (intros f v p HF N; rewrite upd_other; auto).
      assert (V : forall i x, raced x = false -> forall j, raced (upd (slots s) i x j) = false) by (intros i x Hx j; unfold upd; destruct (j =? i); auto).
      unfold LogStreamModel.tstep in H. destruct (pcs s t) as [|m|m|m i|m i|m i l|m i n x l|m i n l|m i|m i|m i|m i|m i|m i] eqn:E.
      + discriminate.
      + destruct (mutex s); [discriminate|]. injection H as <-. split; [cbn; auto|]. split; auto.
      + specialize (RS m). destruct (own_slot s t (s_level m)) as [i|]; [injection H as <-; split; [cbn; auto|split; auto]|].
        destruct (free_slot s) as [i|]; injection H as <-; (split; [cbn; auto|split; [cbn; apply V|auto]]).
        * cbn. rewrite RS; auto.
        * reflexivity.
      + injection H as <-. split; [cbn; auto|]. split; auto.
      + injection H as <-. split; [cbn; auto|]. split; [cbn; apply V; cbn; auto|auto].
      + destruct l as [|[x p] l]; injection H as <-; [destruct (s_ends m)|destruct (_ <? _)].
        * split; [cbn; auto|]. split; auto.
        * split; [cbn; rewrite B; auto|]. split; auto.
        * split; [cbn; auto|]. split; auto.
        * split; auto.
      + injection H as <-. destruct (_ && _); [|split; auto]. split; [cbn; auto|]. split; [cbn; apply V; cbn; auto|auto].
      + injection H as <-. split; [cbn; auto|]. split; [cbn; apply V; cbn; auto|auto].
      + injection H as <-. destruct (_ <? _); [|split; auto]. split; [cbn; auto|]. split; [cbn; apply V; cbn; auto|auto].
      + destruct (mutex s); [discriminate|]. injection H as <-. split; [cbn; auto|]. split; auto.
      + injection H as <-. destruct (has_nul _); [|split; auto]. split; [cbn; auto|]. split; [auto|]. cbn. intros d Hd. apply in_app_or in Hd. destruct Hd as [Hd|Hd]; auto.
        apply in_map_iff in Hd. destruct Hd as (o & <- & _). cbn. auto.
      + injection H as <-. split; [cbn; auto|]. split; [cbn; apply V; cbn; auto|auto].
      + injection H as <-. split; [cbn; auto|]. split; auto.
      + injection H as <-. split; [cbn; rewrite B; auto|]. split; [cbn; apply V; cbn; auto|auto].
  Qed.

  (* progress *)
  Definition dist (p : pc) : nat :=
    match p with
    | Idle => 0
    | F146 _ _ => 1 | F140 _ _ => 2 | F138 _ _ => 3 | F130 _ _ => 4 | F128 _ _ => 5 | F127 _ _ => 6
    | MPut _ _ l => 7 + 3 * length l | W97 _ _ _ l => 8 + 3 * length l | W95 _ _ _ _ l => 9 + 3 * length l
    | MSet m _ => 8 + 3 * length (writes m) | A148 m _ => 9 + 3 * length (writes m) | A97 m => 10 + 3 * length (writes m) | A94 m => 11 + 3 * length (writes m)
    end.
  Lemma tstep_progress s t : Inv s -> pcs s t <> Idle -> (mutex s = None \/ mutex s = Some t) ->
    exists s', tstep t s = Some s' /\ dist (pcs s' t) < dist (pcs s t) /\ (forall u, u <> t -> pcs s' u = pcs s u).
  Proof.
    intros I N M. assert (B : below s t = []) by apply (i_below s I). pose proof (i_tok s I t) as K.
    assert (NM : in_mutex (pcs s t) = false -> mutex s = None).
    { intros F. destruct M as [M|M]; auto. apply (i_mutex s I) in M. congruence. }
    unfold LogStreamModel.tstep. destruct (pcs s t) as [|m|m|m i|m i|m i l|m i n x l|m i n l|m i|m i|m i|m i|m i|m i] eqn:E; cbn [in_mutex] in NM; cbn [tok] in K.
    - congruence.
    - rewrite NM by auto. eexists. split; [reflexivity|]. cbn. rewrite upd_same. split; [cbn; lia|intros u Hu; rewrite upd_other; auto].
    - destruct (own_slot s t (s_level m)); [|destruct (free_slot s)]; (eexists; split; [reflexivity|]; cbn; rewrite upd_same; split; [cbn; lia|intros u Hu; rewrite upd_other; auto]).
    - eexists. split; [reflexivity|]. cbn. rewrite upd_same. split; [cbn; lia|intros u Hu; rewrite upd_other; auto].
    - eexists. split; [reflexivity|]. cbn. rewrite upd_same. split; [cbn; lia|intros u Hu; rewrite upd_other; auto].
    - destruct l as [|[x p] l].
      + destruct (s_ends m); (eexists; split; [reflexivity|]; cbn; rewrite ?B, upd_same; split; [cbn; lia|intros u Hu; rewrite upd_other; auto]).
      + destruct (i_wf s I i) as [(W1 & W2 & W3) _]. replace (idx (slots s i) <? SIZE) with true by (symmetry; apply Nat.ltb_lt; lia).
        eexists; split; [reflexivity|]; cbn; rewrite upd_same; split; [cbn; lia|intros u Hu; rewrite upd_other; auto].
    - destruct K as ((O & L & LI) & Inf & Ln & Lx). destruct (i_wf s I i) as [(W1 & W2 & W3) _].
      replace ((n <=? length x) && (idx (slots s i) + n <=? length (buf (slots s i)))) with true by (symmetry; apply andb_true_intro; split; apply Nat.leb_le; lia).
      eexists; split; [reflexivity|]; cbn; rewrite upd_same; split; [cbn; lia|intros u Hu; rewrite upd_other; auto].
    - eexists; split; [reflexivity|]; cbn; rewrite upd_same; split; [cbn; lia|intros u Hu; rewrite upd_other; auto].
    - destruct (i_wf s I i) as [(W1 & W2 & W3) _]. replace (idx (slots s i) <? length (buf (slots s i))) with true by (symmetry; apply Nat.ltb_lt; lia).
      eexists; split; [reflexivity|]; cbn; rewrite upd_same; split; [cbn; lia|intros u Hu; rewrite upd_other; auto].
    - rewrite NM by auto. eexists. split; [reflexivity|]. cbn. rewrite upd_same. split; [cbn; lia|intros u Hu; rewrite upd_other; auto].
    - destruct (i_wf s I i) as [(W1 & W2 & W3) _]. rewrite (has_nul_at _ _ W3).
      eexists; split; [reflexivity|]; cbn; rewrite upd_same; split; [cbn; lia|intros u Hu; rewrite upd_other; auto].
    - eexists; split; [reflexivity|]; cbn; rewrite upd_same; split; [cbn; lia|intros u Hu; rewrite upd_other; auto].
    - eexists; split; [reflexivity|]; cbn; rewrite upd_same; split; [cbn; lia|intros u Hu; rewrite upd_other; auto].
    - eexists; split; [reflexivity|]; cbn; rewrite B, upd_same; split; [cbn; lia|intros u Hu; rewrite upd_other; auto].
  Qed.
  Lemma step_of s t s' : Inv s -> tstep t s = Some s' -> any SIZE outs false s s'.
  Proof. intros I H. exists t. constructor; auto. apply (i_crash s I). Qed.
  (* the holder of the mutex leaves it *)
  Lemma holder_leaves t : forall n s u, Inv s -> mutex s = Some u -> u <> t -> dist (pcs s u) <= n ->
    exists s', steps (any SIZE outs false) s s' /\ Inv s' /\ mutex s' = None /\ pcs s' t = pcs s t.
  Proof.
    induction n as [|n IH]; intros s u I M N D; assert (IM := proj1 (i_mutex s I u) M).
    - destruct (pcs s u); cbn in *; try discriminate; lia.
    - destruct (tstep_progress s u I) as (s1 & H & L & P); [intros F; rewrite F in IM; discriminate|auto|].
      pose proof (inv_tstep s u s1 I H) as I1. destruct (mutex s1) as [v|] eqn:M1.
      + assert (v = u).
        { unfold LogStreamModel.tstep in H. destruct (pcs s u); cbn in IM; try discriminate.
          - destruct (own_slot s u (s_level m)); [|destruct (free_slot s)]; injection H as <-; cbn in M1; congruence.
          - injection H as <-. discriminate.
          - injection H as <-. destruct (has_nul _); cbn in M1; congruence.
          - injection H as <-. cbn in M1. congruence.
          - injection H as <-. discriminate. }
        subst v. destruct (IH s1 u I1 M1 N ltac:(lia)) as (s2 & S2 & I2 & M2 & P2). exists s2. split; [eapply steps_more; [eapply step_of; eauto|auto]|]. split; auto. split; auto. rewrite P2. apply P. auto.
      + exists s1. split; [eapply steps_one; eapply step_of; eauto|]. split; auto.
  Qed.
  Lemma finishes t : forall n s, Inv s -> dist (pcs s t) <= n -> exists s', steps (any SIZE outs false) s s' /\ pcs s' t = Idle.
  Proof.
    induction n as [|n IH]; intros s I D.
    - exists s. split; [constructor|]. destruct (pcs s t); cbn in D; try lia. reflexivity.
    - destruct (pcs s t) eqn:E; [exists s; split; [constructor|auto]|..];
      (assert (A : exists s1, steps (any SIZE outs false) s s1 /\ Inv s1 /\ (mutex s1 = None \/ mutex s1 = Some t) /\ pcs s1 t = pcs s t);
       [destruct (mutex s) as [u|] eqn:M; [destruct (Nat.eq_dec u t) as [->|N]; [exists s; split; [constructor|auto]|
          destruct (holder_leaves t _ s u I M N (le_n _)) as (s1 & S1 & I1 & M1 & P1); exists s1; auto]|exists s; split; [constructor|auto]]|
        destruct A as (s1 & S1 & I1 & M1 & P1); destruct (tstep_progress s1 t I1) as (s2 & H & L & _); [congruence|auto|];
        destruct (IH s2 (inv_tstep s1 t s2 I1 H)) as (s3 & S3 & P3); [rewrite P1, E in L; cbn in L, D; cbn; lia|];
        exists s3; split; [eapply steps_app; [exact S1|]; eapply steps_more; [eapply step_of; eauto|exact S3]|exact P3]]).
  Qed.

  (* running a schedule *)
  Fixpoint run (sched : list tid) (s : st) : option st :=
    match sched with [] => Some s | t :: r => if crashed s then None else match tstep t s with Some s' => run r s' | None => None end end.
  Lemma run_reach nest sched : forall s s', reach init (any SIZE outs nest) s -> run sched s = Some s' -> reach init (any SIZE outs nest) s'.
  Proof.
    induction sched as [|t r IH]; intros s s' R H; cbn in H; [injection H as <-; auto|]. destruct (crashed s) eqn:C; [discriminate|].
    destruct (tstep t s) as [s1|] eqn:E; [|discriminate]. eapply IH; [|exact H]. eapply reach_step; [exact R|]. exists t. constructor; auto.
  Qed.
End P.
