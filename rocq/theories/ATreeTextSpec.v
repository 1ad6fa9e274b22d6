(* What a user relies on when trees are saved and loaded. *)
From Verif Require Import Base Text StringHelperModel LogTextModel ATreeModel ATreeSpec ATreeTextModel.

(* every line of the text fits into the buffer of get() *)
Definition fits (text : str) : Prop := forall a b c, text = a ++ b ++ c -> ~ In newline b -> (Z.of_nat (length b) <= 1997)%Z.
Definition part_of (t s : str) : Prop := exists a b, s = a ++ t ++ b.
(* the number of attributes *)
Fixpoint attributes (c : content) : nat :=
  match c with C _ a l => (match a with Some _ => 1 | None => 0 end) + fold_right (fun x k => attributes x + k) 0 l end.
Definition name_of (c : content) : option str := match c with C d _ _ => d end.

(* Descriptions and attributes that the text format can hold. *)
Record clean (comments : bool) (d : str) : Prop := {
  c_first : exists x r, d = x :: r /\ is_space x = false /\ x <> "#"%char;
  c_chars : forall x, In x d -> ~ In x $".:{}" /\ x <> newline /\ x <> creturn /\ x <> "000"%char;
  c_last : forall r, d <> r ++ $" ";
  c_names : d <> include_str /\ d <> file_path_str /\ d <> file_name_str;
  c_comment : comments = false -> ~ part_of comment_str d }.
Definition clean_value (a : str) : Prop := ~ In newline a /\ ~ In "000"%char a /\ forall b, a <> b ++ [creturn].
(* The sub trees of a tree: clean, and different descriptions in every list. An empty attribute must be in the style with
   points, i.e. in a tree with fewer than change_style_depth attributes, and so must a comment, which has an attribute. *)
Fixpoint printable (csd : Z) (comments : bool) (c : content) : Prop :=
  match c with
  | C d a l =>
    (exists x, d = Some x /\ clean comments x /\ (x = comment_str -> a <> None)) /\
    (forall v, a = Some v -> clean_value v) /\
    ((csd <= Z.of_nat (attributes c))%Z -> a <> Some [] /\ d <> Some comment_str) /\
    NoDup (map name_of l) /\ (fix all l := match l with [] => True | x :: r => printable csd comments x /\ all r end) l
  end.
(* without the sub trees that have no attributes (they are not printed if change_style_depth is positive) *)
Definition shown (csd : Z) (c : content) : bool := (csd <=? 0)%Z || (0 <? attributes c).
Fixpoint kept (csd : Z) (c : content) : content :=
  match c with C d a l => C d a (flat_map (fun x => if shown csd x then [kept csd x] else []) l) end.
Definition subs_of (c : content) : list content := match c with C _ _ l => l end.
Definition all_different (l : list content) : Prop := NoDup (map name_of l).
(* the sub trees of a root: not those with the name of the file *)
Definition about_file (c : content) : bool := opt_is (name_of c) file_path_str || opt_is (name_of c) file_name_str.

(* ---- what a line of a text says ---- *)
(* c, with the attribute a at the end of the path; what is missing is made, in front of what is there *)
Definition named (d : str) (c : content) : bool := opt_is (name_of c) d.
Fixpoint first_with (f : content -> bool) (g : content -> content) (l : list content) : option (list content) :=
  match l with
  | [] => None
  | x :: r => if f x then Some (g x :: r) else option_map (cons x) (first_with f g r)
  end.
Fixpoint assign (c : content) (p : list str) (a : option str) : content :=
  match p with
  | [] => match c with C d _ l => C d a l end
  | x :: r => match c with
              | C d b l => match first_with (named x) (fun y => assign y r a) l with
                           | Some l' => C d b l'
                           | None => C d b (assign (C (Some x) None []) r a :: l)
                           end
              end
  end.
(* a path ends at the first empty component of a description *)
Fixpoint until_empty (l : list str) : list str := match l with [] | [] :: _ => [] | d :: r => d :: until_empty r end.
Definition path_in (d : str) (p : list str) : Prop := exists l, components d l /\ p = until_empty l.

Inductive command := Skip | Own (a : str) | Assign (p : list str) (a : str) | Open (p : list str) | Close | Malformed.
Definition blanks (s : str) : Prop := forall c, In c s -> is_space c = true.
Definition starts (d : str) : Prop := match d with [] => True | x :: _ => is_space x = false /\ x <> "#"%char end.
Definition without (chars d : str) : Prop := forall c, In c chars -> ~ In c d.
(* [comments]: the parameter load_comments *)
Inductive means (comments : bool) : str -> command -> Prop :=
| m_blank b : blanks b -> means comments b Skip
| m_hash b r : blanks b -> means comments (b ++ $"#" ++ r) Skip
| m_own b a : blanks b -> means comments (b ++ $":" ++ a) (Own a)
| m_assign b d p a : blanks b -> starts d -> d <> [] -> without $":" d -> d <> include_str -> comments = true \/ ~ part_of comment_str d ->
    path_in d p -> means comments (b ++ d ++ $":" ++ a) (Assign p a)
| m_comment b d a : blanks b -> starts d -> d <> [] -> without $":" d -> d <> include_str -> comments = false -> part_of comment_str d ->
    means comments (b ++ d ++ $":" ++ a) Skip
| m_open b d p r : blanks b -> starts d -> without $":{" d -> without $":" r -> d <> comment_str -> path_in d p ->
    means comments (b ++ d ++ $"{" ++ r) (Open p)
| m_close b d r : blanks b -> starts d -> without $":{}" d -> without $":{" r -> means comments (b ++ d ++ $"}" ++ r) Close
| m_malformed b d : blanks b -> starts d -> d <> [] -> without $":{}" d -> means comments (b ++ d) Malformed.
(* What the lines do to a tree, from the node at the end of [pos]; [n]: the number of the first line. The result is the
   tree and the number that get() returns. *)
Fixpoint run (l : list command) (n : Z) (c : content) (pos : list str) : content * Z :=
  match l with
  | [] => (c, (-1)%Z)
  | Skip :: r => run r (n + 1)%Z c pos
  | Own a :: r => run r (n + 1)%Z (assign c pos (Some a)) pos
  | Assign p a :: r => run r (n + 1)%Z (assign c (pos ++ p) (Some a)) pos
  | Open p :: r => run r (n + 1)%Z (assign c (pos ++ p) None) (pos ++ p)
  | Close :: r => match pos with [] => (c, (-1)%Z) | _ :: _ => run r (n + 1)%Z c (removelast pos) end
  | Malformed :: _ => (c, (n + 1)%Z)
  end.
(* a line of a text *)
Record good_line (x : str) : Prop := { g_nl : ~ In newline x; g_nul : ~ In "000"%char x; g_cr : forall b, x <> b ++ [creturn]; g_len : (Z.of_nat (length x) <= 1997)%Z }.
Definition lines (l : list str) : str := flat_map (fun x => x ++ [newline]) l.

(* ---- trees before and after ---- *)
(* The tree t in h has become t' in h': what is not in t is as before, and what is in t' was in t or is new. *)
Record became (h h' : heap) (par : option nat) (t t' : tree) : Prop := {
  be_forest : forest h'; be_repr : repr h' par t'; be_id : tid t' = tid t; be_next : next h <= next h';
  be_frame : forall x, x < next h -> ~ In x (ids t) -> cell h' x = cell h x;
  be_ids : forall x, In x (ids t') -> In x (ids t) \/ next h <= x }.
(* an attribute of a printed root: an empty one is not printed *)
Definition nonempty (a : option str) : option str := match a with Some [] => None | _ => a end.
(* the sub trees of a root that are printed *)
Definition listed (l : list content) : list content := filter (fun x => negb (about_file x)) l.
(* no sub tree of x has a description of one in l *)
Definition fresh_in (l : list content) (x : content) : Prop := forall e, In (Some e) (map name_of l) -> ~ In (Some e) (map name_of (subs_of x)).
(* a root that can be saved: its sub trees, but for those with the name of the file, are printable and have different
   descriptions, and it has at least change_style_depth attributes *)
Record root_ok (csd : Z) (comments : bool) (a : option str) (l : list content) : Prop := {
  ro_subs : Forall (fun c => about_file c = true \/ printable csd comments c) l;
  ro_names : all_different (listed l);
  ro_attr : forall v, a = Some v -> clean_value v;
  ro_size : (csd <= Z.of_nat (attributes (C None a l)))%Z }.

(* ---- histories with texts ---- *)
(* everything that can be done with trees, including get() and load() *)
Inductive text_history (strict : bool) : heap -> Prop :=
| t_start : text_history strict empty_heap
| t_operation h h' : text_history strict h -> operation strict h h' -> text_history strict h'
| t_get h h' k fuel w p s inc comments fp : text_history strict h -> live h p -> strict = false \/ inc = false ->
    get fuel strict w h p s inc comments fp = Done (h', k) -> text_history strict h'
| t_load h h' k fuel w p f um inc comments order : text_history strict h -> live h p -> strict = false ->
    load fuel strict w h p f um inc comments order = Done (h', k) -> text_history strict h'.
(* every node without sub trees has an attribute *)
Fixpoint complete (c : content) : Prop :=
  match c with C _ a l => (l = [] -> a <> None) /\ (fix all l := match l with [] => True | x :: r => complete x /\ all r end) l end.
