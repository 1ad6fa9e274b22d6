(* C54: trees as texts: save, get and load. *)
From Verif Require Import Base Text StringHelperModel LogTextModel ATreeModel ATreeSpec ATreeProofs ATreeProofs2 ATreeProofs5 ATreeProofs7 ATreeTextModel ATreeTextSpec ATreeTextProofs ATreeTextProofs6 ATreeTextProofs7 ATreeTextProofs8 ATreeTextProofs9 ATreeTextProofs10 ATreeExamples ATreeTextExamples ATreeTextProofs11.
From Verif Require FilePathModel.

(* ---- what a text means ---- *)
(* get() does what the lines of the text say, one after the other, until the text ends, the bracket of the tree itself is
   closed, or a line says nothing. Nothing outside of the tree is touched. *)
Theorem C54_get : forall b h par t strict w inc comments fp text_lines commands fuel, text_history b h -> repr h par t ->
  Forall good_line text_lines -> Forall2 (means comments) text_lines commands -> length text_lines < fuel ->
  exists h' t', get fuel strict w h (tid t) (open (lines text_lines)) inc comments fp = Done (h', snd (run commands 1 (content_of t) [])) /\
    became h h' par t t' /\ content_of t' = fst (run commands 1 (content_of t) []).
Proof. intros b h par t strict w inc comments fp xs cmds fuel H R G M L. apply text_forest in H. now apply (get_run strict w fp inc comments xs cmds fuel h par t). Qed.
Print Assumptions C54_get.
(* Every line has a meaning, but for those that include a file or begin a comment of several lines, and only one. *)
Theorem C54_line_meaning : forall comments x, (exists c, means comments x c) \/
  (exists b r, blanks b /\ x = b ++ include_str ++ $":" ++ r) \/ (exists b r, blanks b /\ without $":" r /\ x = b ++ comment_str ++ $"{" ++ r).
Proof. exact meaning_exists. Qed.
Print Assumptions C54_line_meaning.
Theorem C54_line_meaning_unique : forall comments x c1 c2, means comments x c1 -> means comments x c2 -> c1 = c2.
Proof. exact means_unique. Qed.
Print Assumptions C54_line_meaning_unique.
Example C54_get_ex : Forall2 (means false) [$"# x"; $"a{"; $" :1"; $"  b.c:2"; $"}"; $"oops"; $"d:3"] [Skip; Open [$"a"]; Own $"1"; Assign [$"b"; $"c"] $"2"; Close; Malformed; Assign [$"d"] $"3"] /\
  run [Skip; Open [$"a"]; Own $"1"; Assign [$"b"; $"c"] $"2"; Close; Malformed; Assign [$"d"] $"3"] 1 (C None None []) [] = (C None None [C (Some $"a") (Some $"1") [C (Some $"b") None [C (Some $"c") (Some $"2") []]]], 7%Z).
Proof.
  split; [|vm_compute; reflexivity].
  assert (P1 : forall d, ~ In "."%char d -> d <> [] -> path_in d [d]).
  { intros d N E. exists [d]. split; [|destruct d; [contradiction|reflexivity]]. split; [discriminate|]. split; [intros x [<-|[]]; exact N|reflexivity]. }
  assert (B0 : blanks []) by (intros c []). assert (B2 : blanks $"  ") by (intros c [<-|[<-|[]]]; reflexivity).
  constructor; [change $"# x" with ([] ++ $"#" ++ $" x"); now constructor|].
  constructor; [change $"a{" with ([] ++ $"a" ++ $"{" ++ []); apply m_open; auto; [split; [reflexivity|discriminate]| | |discriminate|apply P1; [|discriminate]];
    try (intros c I [<-|[]]; cbn in I; intuition discriminate); [intros c _ []|intros [X|[]]; discriminate X]|].
  constructor; [change $" :1" with ($" " ++ $":" ++ $"1"); apply m_own; intros c [<-|[]]; reflexivity|].
  constructor; [change $"  b.c:2" with ($"  " ++ $"b.c" ++ $":" ++ $"2"); apply m_assign; auto; [split; [reflexivity|discriminate]|discriminate| |discriminate| | ]|].
  { intros c [<-|[]] I. cbn in I. intuition discriminate. }
  { right. intros (x & y & E). apply (f_equal (@length _)) in E. rewrite !app_length in E. cbn in E. lia. }
  { exists [$"b"; $"c"]. split; [|reflexivity]. split; [discriminate|]. split; [|reflexivity]. intros x [<-|[<-|[]]] [X|[]]; discriminate X. }
  constructor; [change $"}" with ([] ++ [] ++ $"}" ++ []); apply m_close; auto; try (intros c _ []); exact I|].
  constructor; [change $"oops" with ([] ++ $"oops"); apply m_malformed; auto; [split; [reflexivity|discriminate]|discriminate|]; intros c I J; cbn in I, J; intuition (subst; discriminate)|].
  constructor; [|constructor]. change $"d:3" with ([] ++ $"d" ++ $":" ++ $"3"). apply m_assign; auto; [split; [reflexivity|discriminate]|discriminate| |discriminate| |apply P1; [|discriminate]].
  - intros c [<-|[]] [X|[]]; discriminate X.
  - right. intros (x & y & E). apply (f_equal (@length _)) in E. rewrite !app_length in E. cbn in E. lia.
  - intros [X|[]]; discriminate X.
Qed.

(* ---- safety ---- *)
(* Whatever is in the text, and whatever it includes, get() and load() have no undefined behaviour; all nodes stay alive, and
   they form trees. (If a null pointer may be the object of a call of getAttribute etc.; for get() without includes anyway.) *)
Theorem C54_get_safe : forall b h strict w p s inc comments fp fuel, text_history b h -> live h p -> strict = false \/ inc = false ->
  get fuel strict w h p s inc comments fp <> Undef /\
  forall h' k, get fuel strict w h p s inc comments fp = Done (h', k) -> forest h' /\ forall x, live h x -> live h' x.
Proof. intros b h strict w p s inc comments fp fuel H L B. apply text_forest in H. exact (get_safe strict w inc comments B fuel h p s fp H L). Qed.
Print Assumptions C54_get_safe.
Theorem C54_load_safe : forall b h w p filename um inc comments order fuel, text_history b h -> live h p ->
  load fuel false w h p filename um inc comments order <> Undef /\
  forall h' k, load fuel false w h p filename um inc comments order = Done (h', k) -> forest h' /\ forall x, live h x -> live h' x.
Proof. intros b h w p filename um inc comments order fuel H L. apply text_forest in H. exact (get_load_safe w inc comments fuel h p filename um order H L). Qed.
Print Assumptions C54_load_safe.
Theorem C54_forest : forall b h, text_history b h -> forest h.
Proof. exact text_forest. Qed.
Print Assumptions C54_forest.
(* printing is defined if every comment has an attribute *)
Theorem C54_print_defined : forall b h par t csd upper fuel, text_history b h -> repr h par t -> (forall y, In y (nodes t) -> tdesc y = Some comment_str -> tattr y <> None) -> next h <= fuel ->
  exists s, printSubTree fuel h (tid t) csd upper = Done s.
Proof. intros b h par t csd upper fuel H R N L. apply text_forest in H. apply (print_defined csd t h par); auto. pose proof (height_bound h par t H R). lia. Qed.
Print Assumptions C54_print_defined.
(* Without a file, load() fails. *)
Theorem C54_load_missing : forall strict w h p filename um inc comments order fuel h' k fp, load fuel strict w h p filename um inc comments order = Done (h', k) ->
  filename = [] \/ FilePathModel.init fuel (getenv w $"PWD") filename = Some fp /\ files w (FilePathModel.m_file fp) = None -> k = eFILE_LOAD_ERROR.
Proof.
  intros strict w h p filename um inc comments order fuel h' k fp L [->|[I FN]]; [injection L as <- <-; reflexivity|]. unfold load, load_with in L. destruct filename; [injection L as <- <-; reflexivity|].
  rewrite I in L. cbn [o_of obind] in L. apply obind_done in L. destruct L as (r & _ & L). apply obind_done in L. destruct L as (h1 & _ & L). rewrite FN in L. now injection L as _ <-.
Qed.
Print Assumptions C54_load_missing.

(* ---- saving and loading ---- *)
(* What save() writes for a root, get() reads: every sub tree that has attributes is back, with all below, in front of those
   that are there and in reversed order; so is the attribute of the root. *)
Theorem C54_save_get : forall b h par t a l csd comments um fuel, text_history b h -> repr h par t -> content_of t = C None a l -> root_ok csd comments a l -> next h <= fuel ->
  exists h1 text, save fuel h (tid t) csd um = Done (h1, text) /\ (um = false -> h1 = h) /\ (um = true -> unmarkChanges fuel h (tid t) = Done h1) /\
  forall b2 h2 par2 t2 strict w inc fp, text_history b2 h2 -> repr h2 par2 t2 -> fresh_in (listed l) (content_of t2) -> fits text ->
    exists k, forall fuel2, k <= fuel2 -> exists h' t', get fuel2 strict w h2 (tid t2) (open text) inc comments fp = Done (h', (-1)%Z) /\ became h2 h' par2 t2 t' /\
      content_of t' = C (tdesc t2) (nonempty a) (map reversed (rev (flat_map (fun x => if shown csd x then [kept csd x] else []) (listed l))) ++ map content_of (tsubs t2)).
Proof.
  intros b h par t a l csd comments um fuel H R E O L. apply text_forest in H. pose proof (print_root csd comments h par t a l fuel H R E O L) as P.
  destruct (save_total fuel h (tid t) _ csd um _ H (repr_cell _ _ _ R) L P) as [h1 SV]. exists h1. eexists. split; [exact SV|].
  assert (X : (um = false -> h1 = h) /\ (um = true -> unmarkChanges fuel h (tid t) = Done h1)).
  { unfold save in SV. rewrite P in SV. cbn [obind] in SV. split; intros ->; cbn [obind] in SV; [now injection SV as <-|]. apply obind_done in SV. destruct SV as (g & G & SV). now injection SV as <-. }
  split; [apply X|]. split; [apply X|]. intros b2 h2 par2 t2 strict w inc fp H2 R2 FR FI. apply text_forest in H2. exists (S (length (plines csd [] (C None a l)))). intros fuel2 L2. apply get_root; auto.
Qed.
Print Assumptions C54_save_get.
(* The same for one sub tree with a description. *)
Theorem C54_save_get_sub : forall b h par t csd comments um fuel, text_history b h -> repr h par t -> printable csd comments (content_of t) -> (csd <= Z.of_nat (attributes (content_of t)))%Z -> next h <= fuel ->
  exists h1 text, save fuel h (tid t) csd um = Done (h1, text) /\
  forall b2 h2 par2 t2 strict w inc fp, text_history b2 h2 -> repr h2 par2 t2 -> fresh_in [content_of t] (content_of t2) -> fits text ->
    exists k, forall fuel2, k <= fuel2 -> exists h' t', get fuel2 strict w h2 (tid t2) (open text) inc comments fp = Done (h', (-1)%Z) /\ became h2 h' par2 t2 t' /\
      content_of t' = C (tdesc t2) (tattr t2) (reversed (kept csd (content_of t)) :: map content_of (tsubs t2)).
Proof.
  intros b h par t csd comments um fuel H R PR LE L. apply text_forest in H. pose proof (height_bound h par t H R) as HB.
  assert (P : printSubTree fuel h (tid t) csd [] = Done (lines (plines csd [] (content_of t)))) by (apply (print_lines csd t h par); [exact R|eapply printable_simple; eauto|lia]).
  destruct (save_total fuel h (tid t) _ csd um _ H (repr_cell _ _ _ R) L P) as [h1 SV]. exists h1. eexists. split; [exact SV|].
  intros b2 h2 par2 t2 strict w inc fp H2 R2 FR FI. apply text_forest in H2. exists (S (length (plines csd [] (content_of t)))). intros fuel2 L2. apply get_named; auto.
Qed.
Print Assumptions C54_save_get_sub.
(* save() and then load() into an empty root with preserve_order: what was saved, in the same order, and the name of the file *)
Theorem C54_save_load : forall b h par t a l csd comments um fuel, text_history b h -> repr h par t -> content_of t = C None a l -> root_ok csd comments a l -> next h <= fuel ->
  exists h1 text, save fuel h (tid t) csd um = Done (h1, text) /\
  forall b2 h2 p d v ch w filename fp inc unmark, text_history b2 h2 -> cell h2 p = Some (mkN d v ch None []) -> filename <> [] -> fits text -> files w (FilePathModel.m_file fp) = Some text ->
    exists k, forall fuel2, k <= fuel2 -> FilePathModel.init fuel2 (getenv w $"PWD") filename = Some fp ->
    exists h' t', load fuel2 false w h2 p filename unmark inc comments true = Done (h', eOK) /\ forest h' /\ repr h' None t' /\ tid t' = p /\
      content_of t' = C d (nonempty a) ([C (Some file_path_str) (Some (FilePathModel.path fp)) []; C (Some file_name_str) (Some (FilePathModel.name fp)) []] ++
                                        flat_map (fun x => if shown csd x then [kept csd x] else []) (listed l)) /\
      (forall x, live h2 x -> x <> p -> cell h' x = cell h2 x).
Proof.
  intros b h par t a l csd comments um fuel H R E O L. apply text_forest in H. pose proof (print_root csd comments h par t a l fuel H R E O L) as P.
  destruct (save_total fuel h (tid t) _ csd um _ H (repr_cell _ _ _ R) L P) as [h1 SV]. exists h1. eexists. split; [exact SV|].
  intros b2 h2 p d v ch w filename fp inc unmark H2 E2 NF FI FW. apply text_forest in H2. exact (load_root w comments inc csd a l h2 p d v ch fp filename _ unmark H2 E2 O eq_refl FI NF FW).
Qed.
Print Assumptions C54_save_load.
(* so nothing is lost if every node without sub trees has an attribute *)
Theorem C54_nothing_lost : forall csd l, Forall complete l -> flat_map (fun x => if shown csd x then [kept csd x] else []) l = l.
Proof. exact complete_list. Qed.
Print Assumptions C54_nothing_lost.
Example C54_save_ex : text_history true ex3 /\ repr ex3 None (tree_at 9 ex3 0) /\ tid (tree_at 9 ex3 0) = 0 /\
  content_of (tree_at 9 ex3 0) = C None None [C (Some $"a") None [C (Some $"c") (Some $"2") []; C (Some $"b") (Some $"1") []]] /\
  root_ok 2 false None [C (Some $"a") None [C (Some $"c") (Some $"2") []; C (Some $"b") (Some $"1") []]] /\ fits (saved 9 ex3 0 2) /\
  saved 9 ex3 0 2 = lines [$"{"; $" a{"; $"  c:2"; $"  b:1"; $" }a"; $"}"].
Proof.
  split; [apply history_text, ex3_history|]. split; [repeat split; vm_compute; reflexivity|]. split; [reflexivity|]. split; [vm_compute; reflexivity|]. split; [|split].
  - assert (CL : forall x, In x [$"a"; $"b"; $"c"] -> clean false x).
    { intros x I. assert (L1 : exists k, x = [k] /\ In k $"abc") by (cbn in I; destruct I as [<-|[<-|[<-|[]]]]; eexists; split; [reflexivity|cbn; tauto|reflexivity|cbn; tauto|reflexivity|cbn; tauto]). destruct L1 as (k & -> & Ik). split.
      - exists k, []. cbn in Ik. destruct Ik as [<-|[<-|[<-|[]]]]; repeat split; discriminate.
      - intros y [<-|[]]. cbn in Ik. destruct Ik as [<-|[<-|[<-|[]]]]; (split; [cbn; intuition discriminate|repeat split; discriminate]).
      - intros r E. change $" " with [" "%char] in E. destruct r as [|z [|]]; try discriminate. injection E as ->. cbn in Ik. intuition discriminate.
      - repeat split; discriminate.
      - intros _ (u & v & E). apply (f_equal (@length _)) in E. rewrite !app_length in E. cbn in E. lia. }
    assert (CV : forall v, In v [$"1"; $"2"] -> clean_value v).
    { intros v [<-|[<-|[]]]; (repeat split; [intros [E|[]]; discriminate E|intros [E|[]]; discriminate E|intros [|? [|]] E; discriminate E]). }
    assert (LF : forall x v, In x [$"a"; $"b"; $"c"] -> In v [$"1"; $"2"] -> printable 2 false (C (Some x) (Some v) [])).
    { intros x v I J. cbn [printable]. split; [exists x; split; [reflexivity|]; split; [now apply CL|discriminate]|]. split; [intros ? [= <-]; now apply CV|]. split; [intros X; exfalso; apply X; reflexivity|]. split; [constructor|exact Logic.I]. }
    split; [constructor; [right|constructor]|repeat constructor; intros []|discriminate|now vm_compute].
    cbn [printable]. fold printable. split; [exists $"a"; split; [reflexivity|]; split; [apply CL; now left|discriminate]|]. split; [discriminate|]. split; [split; discriminate|].
    split; [cbn [map name_of]; repeat constructor; [intros [E|[]]; discriminate E|intros []]|]. split; [apply LF; cbn; tauto|]. split; [apply LF; cbn; tauto|exact I].
  - intros x y z E _. apply (f_equal (@length _)) in E. rewrite !app_length in E. change (length (saved 9 ex3 0 2)) with 24 in E. lia.
  - vm_compute. reflexivity.
Qed.
Example C54_load_ex : let w := one_file $"/x/t" (saved 9 ex3 0 2) in
  content_at 9 (heap_of (load 20 false w ex1 0 $"/x/t" true false false true)) 0 =
  C None None [C (Some file_path_str) (Some $"/x/") []; C (Some file_name_str) (Some $"t") []; C (Some $"a") None [C (Some $"c") (Some $"2") []; C (Some $"b") (Some $"1") []]].
Proof. vm_compute. reflexivity. Qed.

(* ---- what does not hold ---- *)
(* "Error in line %i while reading AttributeTree" (AttributeTree.cpp:1269): the number is one more than that of the line *)
Theorem C54_error_line_refuted : exists x, means false x Malformed /\ snd_of (get 9 true no_file ex1 0 (open (lines [x])) false false None) 0%Z = 2%Z.
Proof.
  exists $"x". split; [|vm_compute; reflexivity]. change $"x" with ([] ++ $"x"). apply m_malformed; [intros c []|split; [reflexivity|discriminate]|discriminate|]. intros c I J. cbn in I, J. intuition (subst; discriminate).
Qed.
Print Assumptions C54_error_line_refuted.
(* A root with fewer than change_style_depth attributes is saved, but its text is about the root itself: its sub trees are lost,
   and it gets an attribute that it did not have. *)
Theorem C54_small_root_refuted : exists k, text_history true ex3 /\ content_at k ex3 0 = C None None [C (Some $"a") None [C (Some $"c") (Some $"2") []; C (Some $"b") (Some $"1") []]] /\
  is_done (save k ex3 0 3 false) = true /\ saved k ex3 0 3 = lines [$"..a.c:2"; $"..a.b:1"] /\ after k (saved k ex3 0 3) false = C None (Some $"1") [].
Proof. exists 20. split; [apply history_text, ex3_history|]. repeat split; vm_compute; reflexivity. Qed.
Print Assumptions C54_small_root_refuted.
(* the same for a sub tree that is saved on its own *)
Theorem C54_small_sub_refuted : exists k, content_at k ex3 2 = C (Some $"b") (Some $"1") [] /\ saved k ex3 2 3 = lines [$".b:1"] /\ after k (saved k ex3 2 3) false = C None (Some $"1") [].
Proof. exists 20. repeat split; vm_compute; reflexivity. Qed.
Print Assumptions C54_small_sub_refuted.
(* the last line is not read if no newline follows *)
Theorem C54_last_line_refuted : exists k, after k (lines [$"a:1"] ++ $"b:2") false = C None None [C (Some $"a") (Some $"1") []].
Proof. exists 20. vm_compute. reflexivity. Qed.
Print Assumptions C54_last_line_refuted.
(* opening the bracket of a tree that exists erases its attribute *)
Theorem C54_open_erases_refuted : exists k, after k (lines [$"a:1"; $"a{"; $" b:2"; $"}a"]) false = C None None [C (Some $"a") None [C (Some $"b") (Some $"2") []]].
Proof. exists 20. vm_compute. reflexivity. Qed.
Print Assumptions C54_open_erases_refuted.
(* a description that ends in a blank takes the point of the description below it *)
Theorem C54_blank_refuted : exists k h, text_history true h /\ content_at k h 0 = C None None [C (Some $"b") (Some $"2") []; C (Some $"a ") None [C (Some $"b") (Some $"1") []]] /\
  after k (saved k h 0 2) false = C None None [C (Some $"a b") (Some $"1") []; C (Some $"b") (Some $"2") []].
Proof.
  exists 20, (heap_of (setAttribute (heap_of (setAttribute ex1 0 (Some $"a .b") (Some $"1"))) 0 (Some $"b") (Some $"2"))). split; [|split; vm_compute; reflexivity].
  assert (H1 : text_history true (heap_of (setAttribute ex1 0 (Some $"a .b") (Some $"1")))).
  { eapply t_operation; [apply history_text, ex1_history|]. eapply o_attribute with (p := 0); [now apply alive_live|]. refine (heap_done _ 0 _). vm_compute. reflexivity. }
  eapply t_operation; [exact H1|]. eapply o_attribute with (p := 0); [now apply alive_live|]. refine (heap_done _ 0 _). vm_compute. reflexivity.
Qed.
Print Assumptions C54_blank_refuted.
(* an empty attribute is lost in the style with brackets *)
Theorem C54_empty_refuted : exists k h, text_history true h /\ content_at k h 0 = C None None [C (Some $"a") (Some []) []] /\ after k (saved k h 0 1) false = C None None [C (Some $"a") None []].
Proof.
  exists 20, (heap_of (setAttribute ex1 0 (Some $"a") (Some []))). split; [|split; vm_compute; reflexivity].
  eapply t_operation; [apply history_text, ex1_history|]. eapply o_attribute with (p := 0); [now apply alive_live|]. refine (heap_done _ 0 _). vm_compute. reflexivity.
Qed.
Print Assumptions C54_empty_refuted.
(* A comment without an attribute: printing is undefined, strchr of a null pointer. *)
Theorem C54_print_refuted : exists k h, text_history true h /\ live h 0 /\ printSubTree k h 0 3 [] = Undef.
Proof.
  exists 9, (heap_of (new_tree ex1 (Some comment_str) (Some 0))). split; [|split; [apply alive_live|]; vm_compute; reflexivity].
  eapply t_operation; [apply history_text, ex1_history|]. eapply o_new with (par := Some 0); [intros q [= <-]; now apply alive_live|]. refine (heap_done _ 0 _). vm_compute. reflexivity.
Qed.
Print Assumptions C54_print_refuted.
(* load() into a tree without sub trees calls a member function of a null pointer *)
Theorem C54_load_refuted : exists k h w f, text_history true h /\ live h 0 /\ load k true w h 0 f false false false true = Undef.
Proof. exists 20, ex1, no_file, $"/x/t". split; [apply history_text, ex1_history|]. split; [now apply alive_live|]. vm_compute. reflexivity. Qed.
Print Assumptions C54_load_refuted.
(* "the path stored in here is the one of the last loaded file": it is the one of the first; and the second load() with
   preserve_order reverses what the first one has loaded *)
Theorem C54_second_load_refuted : exists k, let w1 := one_file $"/x/t" (lines [$"a:1"; $"b:2"]) in let w2 := one_file $"/y/u" (lines [$"c:3"]) in
  let h1 := heap_of (load k false w1 ex1 0 $"/x/t" false false false true) in let h2 := heap_of (load k false w2 h1 0 $"/y/u" false false false true) in
  content_at k h1 0 = C None None [C (Some file_path_str) (Some $"/x/") []; C (Some file_name_str) (Some $"t") []; C (Some $"a") (Some $"1") []; C (Some $"b") (Some $"2") []] /\
  content_at k h2 0 = C None None [C (Some $"b") (Some $"2") []; C (Some $"a") (Some $"1") []; C (Some file_name_str) (Some $"t") []; C (Some file_path_str) (Some $"/x/") []; C (Some $"c") (Some $"3") []].
Proof. exists 20. split; vm_compute; reflexivity. Qed.
Print Assumptions C54_second_load_refuted.
(* a line that does not fit into the buffer: get() never returns *)
Theorem C54_long_line_refuted : forall b h p strict w inc comments fp a r, text_history b h -> live h p -> ~ In newline a -> (1997 <= Z.of_nat (length a))%Z ->
  forall fuel, get fuel strict w h p (open ($":" ++ a ++ r)) inc comments fp = Running.
Proof. intros b h p strict w inc comments fp a r _ L N LE. now apply long_line. Qed.
Print Assumptions C54_long_line_refuted.
(* a comment that is not closed: get() never returns *)
Theorem C54_open_comment_refuted : forall strict w h p inc fp fuel, get fuel strict w h p (open (lines [$"_COMMENT_{"])) inc false fp = Running.
Proof. intros. apply open_comment_get. Qed.
Print Assumptions C54_open_comment_refuted.
(* a file that includes itself: load() never returns *)
Theorem C54_own_include_refuted : exists w f, files w f = Some (lines [include_str ++ $":" ++ f]) /\
  forall b h p um comments order fuel, text_history b h -> live h p -> load fuel false w h p f um true comments order = Running.
Proof. exists own_world, $"/t". split; [vm_compute; reflexivity|]. intros b h p um comments order fuel H L. apply text_forest in H. now apply own_never. Qed.
Print Assumptions C54_own_include_refuted.
Example C54_long_line_ex : ~ In newline (repeat "x"%char (Z.to_nat 1997)) /\ Z.of_nat (length (repeat "x"%char (Z.to_nat 1997))) = 1997%Z.
Proof. split; [|rewrite repeat_length; lia]. intros I. apply repeat_spec in I. discriminate. Qed.
