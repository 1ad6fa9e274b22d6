(* What a user of AttributeTree relies on, in terms of the nodes, their parents and their lists of sub trees. *)
From Verif Require Import Base Text LogTextModel ATreeModel.

(* ---- the structure ---- *)
Definition live (h : heap) (p : nat) : Prop := cell h p <> None.
Definition parent_of (h : heap) (c p : nat) : Prop := exists n, cell h c = Some n /\ parent n = Some p.
Definition is_root (h : heap) (p : nat) : Prop := exists n, cell h p = Some n /\ parent n = None.
(* the way up from p ends at a root *)
Inductive rooted (h : heap) : nat -> Prop :=
| at_root p : is_root h p -> rooted h p
| below_parent c p : parent_of h c p -> rooted h p -> rooted h c.
(* x is p or below p *)
Inductive below (h : heap) (p : nat) : nat -> Prop :=
| below_self : below h p p
| below_child x c : below h p x -> parent_of h c x -> below h p c.

(* The nodes form trees: the lists of sub trees and the parent pointers say the same, every sub tree is in exactly one
   list, exactly once, and nothing is above itself. *)
Record forest (h : heap) : Prop := {
  f_fresh : forall p, live h p -> p < next h;
  f_lists : forall p n, cell h p = Some n -> NoDup (subs n) /\ forall c, In c (subs n) <-> parent_of h c p;
  f_parents : forall c p, parent_of h c p -> live h p;
  f_rooted : forall p, live h p -> rooted h p }.

(* ---- the tree below a node, as a value ---- *)
Inductive tree := T (id : nat) (d a : option str) (ch : bool) (l : list tree).
Definition tid (t : tree) : nat := match t with T i _ _ _ _ => i end.
Definition tdesc (t : tree) : option str := match t with T _ d _ _ _ => d end.
Definition tattr (t : tree) : option str := match t with T _ _ a _ _ => a end.
Definition tchanged (t : tree) : bool := match t with T _ _ _ c _ => c end.
Definition tsubs (t : tree) : list tree := match t with T _ _ _ _ l => l end.
(* all nodes, in the order of a printed tree *)
Fixpoint nodes (t : tree) : list tree := match t with T _ _ _ _ l => t :: flat_map nodes l end.
Definition ids (t : tree) : list nat := map tid (nodes t).
Fixpoint height (t : tree) : nat := match t with T _ _ _ _ l => S (fold_right (fun x k => max (height x) k) 0 l) end.

(* the heap holds t, and the parent pointer of its root is par *)
Fixpoint repr (h : heap) (par : option nat) (t : tree) : Prop :=
  match t with
  | T i d a ch l =>
    cell h i = Some (mkN d a ch par (map tid l)) /\
    (fix all l := match l with [] => True | x :: r => repr h (Some i) x /\ all r end) l
  end.
(* the sub tree with the description, and the node at the end of a path *)
Fixpoint child (l : list tree) (d : str) : option tree :=
  match l with [] => None | t :: r => if opt_is (tdesc t) d then Some t else child r d end.
Fixpoint lookup (t : tree) (path : list str) : option tree :=
  match path with [] => Some t | d :: r => match child (tsubs t) d with Some c => lookup c r | None => None end end.
(* descriptions and attributes without the identity of the nodes *)
Inductive content := C (d a : option str) (l : list content).
Fixpoint content_of (t : tree) : content := match t with T _ d a _ l => C d a (map content_of l) end.
Fixpoint reversed (c : content) : content := match c with C d a l => C d a (rev (map reversed l)) end.

(* all nodes but those of l are as before *)
Definition same_but (h h' : heap) (l : list nat) : Prop := forall p, ~ In p l -> cell h' p = cell h p.

(* ---- paths ---- *)
Definition described (h : heap) (d : str) (c : nat) : Prop := exists n, cell h c = Some n /\ desc n = Some d.
(* c is the first sub tree of p with the description d *)
Definition sub_named (h : heap) (p : nat) (d : str) (c : nat) : Prop :=
  exists n before after, cell h p = Some n /\ subs n = before ++ c :: after /\ described h d c /\ forall x, In x before -> ~ described h d x.
Inductive path (h : heap) : nat -> list str -> nat -> Prop :=
| path_end p : path h p [] p
| path_sub p d c l x : sub_named h p d c -> path h c l x -> path h p (d :: l) x.
(* the node at the end of the path has the attribute a *)
Definition stored (h : heap) (p : nat) (l : list str) (c : nat) (a : str) : Prop :=
  path h p l c /\ exists n, cell h c = Some n /\ attr n = Some a.
(* the components of a description are what is between the points *)
Fixpoint join_dots (l : list str) : str := match l with [] => [] | [x] => x | x :: r => x ++ $"." ++ join_dots r end.
Definition components (s : str) (l : list str) : Prop := l <> [] /\ (forall x, In x l -> ~ In "."%char x) /\ join_dots l = s.
(* descriptions without empty components that are not about the name of the file *)
Definition special (s : str) : Prop := exists b, s = b ++ file_path_str \/ s = b ++ file_name_str.
Definition ordinary (s : str) : Prop := ~ special s.
Definition proper (l : list str) : Prop := ~ In [] l.

(* the attribute of the sub tree d of the nearest node, upwards from p, that has such a sub tree *)
Inductive nearest (h : heap) (d : str) : nat -> option nat -> Prop :=
| near_here p c : sub_named h p d c -> nearest h d p (Some c)
| near_up p q r : (forall c, ~ sub_named h p d c) -> parent_of h p q -> nearest h d q r -> nearest h d p r
| near_top p : (forall c, ~ sub_named h p d c) -> is_root h p -> nearest h d p None.

(* what setAttribute(..., a) does to a heap: the node c holds a, and apart from new nodes and c all is as before *)
Record only_wrote (h h' : heap) (c : nat) (a : option str) : Prop := {
  w_here : exists n, cell h' c = Some n /\ attr n = a;
  w_old : forall x n, cell h x = Some n -> exists n', cell h' x = Some n' /\ desc n' = desc n /\ parent n' = parent n /\
            (x <> c -> attr n' = attr n /\ changed n' = changed n) /\
            exists new, subs n' = new ++ subs n /\ forall y, In y new -> ~ live h y }.

(* x, the description of a sub tree of n, is taken; base1, base2, ...: the first that is not *)
Definition taken (h : heap) (n : node) (x : str) : Prop := exists c, In c (subs n) /\ described h x c.
Definition digit (c : ascii) : Prop := 48 <= nat_of_ascii c <= 57.
Definition ends_in_digit (s : str) : Prop := exists b c, s = b ++ [c] /\ digit c.
Definition first_number (h : heap) (n : node) (base : str) (k : nat) : Prop :=
  1 <= k /\ ~ taken h n (base ++ dec (Z.of_nat k)) /\ forall j, 1 <= j < k -> taken h n (base ++ dec (Z.of_nat j)).

(* t, with the description d, is now a sub tree of p, whose list is l; nothing else differs *)
Definition joined (h h' : heap) (p t : nat) (d : option str) (l : list nat) : Prop :=
  exists n m, cell h p = Some n /\ cell h t = Some m /\ next h' = next h /\
  cell h' t = Some (mkN d (attr m) (changed m) (Some p) (subs m)) /\ cell h' p = Some (mkN (desc n) (attr n) (changed n) (parent n) l) /\
  forall x, x <> t -> x <> p -> cell h' x = cell h x.

(* ---- operations ---- *)
(* p and t are alive, t has no parent and p is not inside t *)
Definition may_add (h : heap) (p t : nat) : Prop := live h p /\ is_root h t /\ ~ below h t p.

Inductive operation (strict : bool) (h h' : heap) : Prop :=
| o_new d par p : (forall q, par = Some q -> live h q) -> new_tree h d par = Done (h', p) -> operation strict h h'
| o_copy fuel src par p : (forall q, par = Some q -> live h q) -> copy_tree fuel h src par = Done (h', p) -> next h <= fuel -> operation strict h h'
| o_delete fuel p : delete_tree fuel h p = Done h' -> next h <= fuel -> operation strict h h'
| o_unlink p : unlink h p = Done h' -> operation strict h h'
| o_unlinkSub p : unlinkSub h p = Done h' -> operation strict h h'
| o_description p d : setDescription h p d = Done h' -> operation strict h h'
| o_attribute p d a c : live h p -> setAttribute h p d a = Done (h', c) -> operation strict h h'
| o_subTree p d c : live h p -> subTree h p d = Done (h', c) -> operation strict h h'
| o_default fuel p d a v : live h p -> getOrSetDefault fuel strict h p d a = Done (h', v) -> operation strict h h'
| o_addNew fuel p c : live h p -> addNewSubTree fuel strict h p = Done (h', c) -> operation strict h h'
| o_add fuel p t : may_add h p t -> addSubTree fuel strict h p t = Done h' -> operation strict h h'
| o_addNext fuel p t q : parent_of h p q -> may_add h q t -> addNextTree fuel strict h p t = Done (Some h') -> operation strict h h'
| o_append p s sep : appendAttribute h p s sep = Done h' -> operation strict h h'
| o_appendDescription p s sep : appendDescription h p s sep = Done h' -> operation strict h h'
| o_comment p c x : live h p -> setComment h p c = Done (h', x) -> operation strict h h'
| o_unmark fuel p : unmarkChanges fuel h p = Done h' -> next h <= fuel -> operation strict h h'
| o_revert fuel p : revertOrder fuel h p = Done h' -> next h <= fuel -> operation strict h h'.
Inductive history (strict : bool) : heap -> Prop :=
| start : history strict empty_heap
| more h h' : history strict h -> operation strict h h' -> history strict h'.
