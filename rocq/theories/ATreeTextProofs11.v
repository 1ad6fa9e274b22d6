(* Texts that are never read to the end. *)
From Verif Require Import Base Text StringHelperModel LogTextModel ATreeModel ATreeSpec ATreeProofs ATreeProofs2 ATreeTextModel ATreeTextSpec ATreeTextProofs ATreeTextProofs9 ATreeTextProofs10 ATreeExamples ATreeTextExamples.
From Verif Require FilePathModel.

(* after a line that does not fit into the buffer, failbit is set and eofbit is not *)
Lemma stuck strict w this fp inc comments r : forall fuel h at_ n, get_loop fuel strict w this fp inc comments h at_ n [] (mkStream r false true) = Running.
Proof. induction fuel as [|fuel IH]; intros h at_ n; [reflexivity|]. cbn [get_loop skip_space get_step cut eof negb andb obind]. unfold readNextLine, getline. cbn [eof failed orb rest until_nul strip_cr rev]. apply IH. Qed.
Lemma span_long k : forall s, k <= length s -> ~ In newline (firstn k s) -> span_line k s = (firstn k s, skipn k s).
Proof.
  induction k as [|k IH]; intros s L N; [reflexivity|]. destruct s as [|c s]; [cbn in L; lia|]. cbn [span_line firstn skipn] in *. destruct (Ascii.eqb_spec c newline) as [->|D]; [exfalso; apply N; now left|].
  rewrite IH; [reflexivity|cbn in L; lia|]. intros I. apply N. now right.
Qed.
Lemma last_app {A} (a : list A) x y : match rev (a ++ [x]) with c :: r => Some (c, rev r) | [] => y end = Some (x, a).
Proof. rewrite rev_app_distr. cbn. now rewrite rev_involutive. Qed.
Lemma nul_id s : ~ In "000"%char s -> until_nul s = s.
Proof. induction s as [|c s IH]; intros N; [reflexivity|]. cbn [until_nul]. destruct (Ascii.eqb_spec c "000") as [->|D]; [exfalso; apply N; now left|]. rewrite IH; [reflexivity|]. intros I. apply N. now right. Qed.
Definition size : nat := Z.to_nat 1997.
Lemma nul_colon a : until_nul (":"%char :: a) = ":"%char :: until_nul a.
Proof. reflexivity. Qed.
Lemma cr_colon a : exists b, strip_cr (":"%char :: a) = ":"%char :: b.
Proof.
  unfold strip_cr. destruct (rev (":"%char :: a)) as [|c r] eqn:E; [apply (f_equal (@length _)) in E; rewrite rev_length in E; discriminate|]. destruct (Ascii.eqb_spec c creturn) as [->|D]; [|eexists; reflexivity].
  apply (f_equal (@rev _)) in E. rewrite rev_involutive in E. cbn [rev] in E. destruct (rev r) as [|k q]; [discriminate E|]. injection E as <- _. eexists. reflexivity.
Qed.
Lemma long_line strict w inc comments fp h p a r : live h p -> ~ In newline a -> (1997 <= Z.of_nat (length a))%Z ->
  forall fuel, get fuel strict w h p (open ($":" ++ a ++ r)) inc comments fp = Running.
Proof.
  intros L N LE fuel. unfold get. change ($":" ++ a ++ r) with (":"%char :: a ++ r). unfold readNextLine, getline. cbn [open eof failed orb rest]. change (1998 - 1)%Z with 1997%Z. fold size.
  assert (SZ : size <= length a) by (unfold size; lia). assert (PS : exists k, size = S k) by (exists (Z.to_nat 1996); unfold size; lia). destruct PS as [k SK].
  assert (FN : firstn (S k) (":"%char :: a ++ r) = ":"%char :: firstn k a) by (cbn [firstn]; rewrite firstn_app; replace (k - length a) with 0 by lia; now rewrite firstn_O, app_nil_r).
  assert (SN : skipn (S k) (":"%char :: a ++ r) = skipn k a ++ r) by (cbn [skipn]; rewrite skipn_app; replace (k - length a) with 0 by lia; reflexivity).
  rewrite SK, (span_long (S k)); [|cbn [length]; rewrite app_length; lia|rewrite FN; intros [E|I]; [discriminate E|]; apply N; rewrite <- (firstn_skipn k a); apply in_or_app; now left].
  rewrite FN, SN. assert (NE : exists c q, skipn k a = c :: q /\ c <> newline).
  { destruct (skipn k a) as [|c q] eqn:E; [apply (f_equal (@length _)) in E; rewrite skipn_length in E; cbn in E; lia|]. exists c, q. split; [reflexivity|]. intros ->. apply N. rewrite <- (firstn_skipn k a), E. apply in_elt. }
  destruct NE as (c & q & -> & D). cbn [app]. apply Ascii.eqb_neq in D. rewrite D. cbv iota beta. rewrite nul_colon. destruct (cr_colon (until_nul (firstn k a))) as [b ->].
  destruct fuel as [|fuel]; [reflexivity|]. cbn [get_loop]. change (skip_space (":"%char :: b)) with (":"%char :: b). cbn [get_step cut]. change (Ascii.eqb ":" ":") with true. cbv iota. cbn [obind].
  apply live_ex in L. destruct L as [n E]. unfold setOwnAttribute, update, deref. destruct (_ : outcome heap) as [h1| |] eqn:U; cbn [obind]; try discriminate U.
  - unfold readNextLine, getline. cbn [eof failed orb rest until_nul strip_cr rev]. apply stuck.
  - exfalso. revert U. rewrite E. cbn [obind]. discriminate.
  - reflexivity.
Qed.

(* a comment that is not closed *)
Lemma open_comment : forall fuel h n r, comment_loop fuel h None n (mkStream [] true r) = Running.
Proof. induction fuel as [|fuel IH]; intros h n r; [reflexivity|]. cbn [comment_loop]. unfold readNextLine, getline. cbn [eof failed orb rest until_nul strip_cr rev]. change (trimmed []) with (@nil ascii). change (occurs comment_end_str []) with false. cbv iota. cbn [obind]. apply IH. Qed.
Lemma open_comment_get strict w inc fp h p fuel : get fuel strict w h p (open ($"_COMMENT_{" ++ [newline])) inc false fp = Running.
Proof.
  unfold get. change (readNextLine (open ($"_COMMENT_{" ++ [newline]))) with ($"_COMMENT_{", mkStream [] false false). cbv iota beta. destruct fuel as [|fuel]; [reflexivity|]. cbn [get_loop].
  change (skip_space $"_COMMENT_{") with $"_COMMENT_{".
  assert (X : forall ld m, get_step ld fuel strict w p fp inc false h p m $"_COMMENT_{" (mkStream [] false false) = Running).
  { intros ld m. unfold get_step. change (cut ":" $"_COMMENT_{") with (@None (str * str)). change (cut "{" $"_COMMENT_{") with (Some ($"_COMMENT_", @nil ascii)). cbv iota. change (str_eqb $"_COMMENT_" comment_str) with true. cbv iota. cbn [obind fst snd].
    destruct fuel as [|fuel]; [reflexivity|]. cbn [comment_loop]. change (readNextLine (mkStream [] false false)) with (@nil ascii, mkStream [] true true). cbv iota. change (trimmed []) with (@nil ascii). change (occurs comment_end_str []) with false. cbv iota. cbn [obind].
    now rewrite open_comment. }
  change (match $"_COMMENT_{" with "#"%char :: _ => true | _ => false end) with false in *. rewrite X. reflexivity.
Qed.

(* a file that includes itself *)
Definition own : str := $"_INCLUDE_:/t" ++ [newline].
Definition own_world : world := one_file $"/t" own.
Lemma own_include fuel strict w h p fp e : include_name fuel strict (mkW (fun _ => None) w) h p fp $"/t" = Done e -> e = $"/t".
Proof. unfold include_name. destruct fuel; vm_compute; intros [= <-]; reflexivity. Qed.
Lemma own_init fuel fp : FilePathModel.init fuel None $"/t" = Some fp -> FilePathModel.m_file fp = $"/t".
Proof. destruct fuel; vm_compute; intros [= <-]; reflexivity. Qed.
Lemma obind_done {A B} (o : outcome A) (f : A -> outcome B) b : (let* a := o in f a) = Done b -> exists a, o = Done a /\ f a = Done b.
Proof. destruct o; cbn [obind]; try discriminate. eauto. Qed.
Lemma own_step ld fuel strict p fp comments h at_ m s h1 r : get_step ld fuel strict own_world p fp true comments h at_ m $"_INCLUDE_:/t" s = Done r -> (forall g q r, ld g q $"/t" <> Done r) -> h1 = r -> False.
Proof.
  unfold get_step. change (cut ":" $"_INCLUDE_:/t") with (Some ($"_INCLUDE_", $"/t")). cbv iota. change (str_eqb $"_INCLUDE_" include_str) with true. cbv iota. intros E N _. apply obind_done in E. destruct E as (e & Ee & E). unfold own_world, one_file in Ee. apply own_include in Ee. subst e.
  apply obind_done in E. destruct E as (x & Ex & _). exact (N _ _ _ Ex).
Qed.
Lemma load_with_done get fuel strict p h um order r : load_with get fuel strict own_world h p $"/t" um order = Done r -> (forall g fp x, get g fp (open own) <> Done x) -> False.
Proof.
  intros E N. unfold load_with in E. change $"/t" with ("/"%char :: $"t") in E. cbv iota in E. change ("/"%char :: $"t") with $"/t" in E. apply obind_done in E. destruct E as (fp & Ef & E).
  assert (EF : FilePathModel.m_file fp = $"/t"). { change (getenv own_world $"PWD") with (@None str) in Ef. destruct (FilePathModel.init fuel None $"/t") as [f|] eqn:I; [|discriminate Ef]. cbn [o_of] in Ef. injection Ef as ->. now apply own_init in I. }
  apply obind_done in E. destruct E as (q & _ & E). apply obind_done in E. destruct E as (h1 & _ & E). rewrite EF in E. change (files own_world $"/t") with (Some own) in E. cbv iota in E. apply obind_done in E. destruct E as (g & G & _). exact (N _ _ _ G).
Qed.
Lemma own_loop strict comments : forall fuel this fp h at_ n r, get_loop fuel strict own_world this fp true comments h at_ n $"_INCLUDE_:/t" (mkStream [] false false) <> Done r.
Proof.
  induction fuel as [|fuel IH]; intros this fp h at_ n r E; [discriminate E|]. cbn [get_loop] in E. change (skip_space $"_INCLUDE_:/t") with $"_INCLUDE_:/t" in E. apply obind_done in E. destruct E as (x & E & _).
  eapply own_step; [exact E| |reflexivity]. intros g q z L. cbv beta in L. eapply load_with_done; [exact L|]. intros g1 fp1 y G. change (readNextLine (open own)) with ($"_INCLUDE_:/t", mkStream [] false false) in G. cbv iota beta in G. exact (IH _ _ _ _ _ _ G).
Qed.
Lemma own_never comments um order h p : forest h -> live h p -> forall fuel, load fuel false own_world h p $"/t" um true comments order = Running.
Proof.
  intros F L fuel. destruct (get_load_safe own_world true comments fuel h p $"/t" um order F L) as [U _]. destruct (load fuel false own_world h p $"/t" um true comments order) as [r| |] eqn:E; [|contradiction|reflexivity]. exfalso.
  unfold load in E. eapply load_with_done; [exact E|]. intros g fp x G. unfold get in G. change (readNextLine (open own)) with ($"_INCLUDE_:/t", mkStream [] false false) in G. cbv iota beta in G. exact (own_loop _ _ _ _ _ _ _ _ _ G).
Qed.
