(* AttributeTree and SubTreeList, the tree itself: src/icl_core/src/icl_core_config/AttributeTree.{h,cpp}.
   (The text format is in ATreeTextModel.v.)

   A pointer to an AttributeTree is a number. The heap says which nodes are alive. The SubTreeList of a node is the list
   of the pointers in it (the cells of the list are not modelled; no cell ever holds a null sub tree outside
   SubTreeList::unlink). Not modelled: memory exhaustion, the overflow of contains() at 2^31 attributes, and C strings
   that a caller passes although they live inside the tree (setAttribute frees the old attribute before it copies). *)
From Verif Require Import Base Text StringHelperModel LogTextModel.
From Verif Require Conc.

(* Outcome of a call: it returns, it has undefined behaviour (dead or null pointer, buffer overrun),
   or it is still running after [fuel] nested calls or iterations. *)
Inductive outcome (A : Type) := Done (a : A) | Undef | Running.
Arguments Done {A} a.
Arguments Undef {A}.
Arguments Running {A}.
Definition obind {A B} (r : outcome A) (f : A -> outcome B) : outcome B :=
  match r with Done a => f a | Undef => Undef | Running => Running end.
Notation "'let*' x := e 'in' k" := (obind e (fun x => k)) (at level 200, x pattern, k at level 200).
Fixpoint ofold {A S} (f : S -> A -> outcome S) (l : list A) (s : S) : outcome S :=
  match l with [] => Done s | a :: r => let* s' := f s a in ofold f r s' end.

(* AttributeTree.h:980-986: m_this_description, m_this_attribute, m_changed, m_parent, m_subtree_list (AttributeTree.h:277-278) *)
Record node := mkN { desc : option str; attr : option str; changed : bool; parent : option nat; subs : list nat }.
Record heap := mkH { cell : nat -> option node; next : nat }.
Definition empty_heap : heap := mkH (fun _ => None) 0.

Definition deref (h : heap) (p : nat) : outcome node := match cell h p with Some n => Done n | None => Undef end.
Definition put (h : heap) (p : nat) (n : node) : heap := mkH (Conc.upd (cell h) p (Some n)) (next h).
Definition alloc (h : heap) (n : node) : heap * nat := (mkH (Conc.upd (cell h) (next h) (Some n)) (S (next h)), next h).
Definition free (h : heap) (p : nat) : heap := mkH (Conc.upd (cell h) p None) (next h).
Definition update (h : heap) (p : nat) (f : node -> node) : outcome heap := let* n := deref h p in Done (put h p (f n)).

Definition set_desc (d : option str) (n : node) := mkN d (attr n) (changed n) (parent n) (subs n).
Definition set_parent (q : option nat) (n : node) := mkN (desc n) (attr n) (changed n) q (subs n).
Definition set_subs (l : list nat) (n : node) := mkN (desc n) (attr n) (changed n) (parent n) l.
Definition set_changed (b : bool) (n : node) := mkN (desc n) (attr n) b (parent n) (subs n).

Definition str_eqb (a b : str) : bool := if list_eq_dec ascii_dec a b then true else false.
Definition opt_is (o : option str) (s : str) : bool := match o with Some x => str_eqb x s | None => false end.

(* AttributeTree.cpp:680-702 *)
Definition new_tree (h : heap) (d : option str) (par : option nat) : outcome (heap * nat) :=
  let (h1, p) := alloc h (mkN d None false par []) in
  match par with
  | None => Done (h1, p)
  | Some q => let* h2 := update h1 q (fun m => set_subs (p :: subs m) m) in Done (h2, p)
  end.

(* AttributeTree.cpp:743-785 (with a null parent: 704-741) and SubTreeList::copy, 486-497 *)
Fixpoint copy_tree (fuel : nat) (h : heap) (src : nat) (par : option nat) : outcome (heap * nat) :=
  match fuel with
  | O => Running
  | S f =>
    let* n := deref h src in
    let (h1, p) := alloc h (mkN (desc n) (attr n) false par []) in
    let* h2 := ofold (fun g c => let* r := copy_tree f g c (Some p) in Done (fst r)) (subs n) h1 in
    match par with
    | None => Done (h2, p)
    | Some q => let* h3 := update h2 q (fun m => set_subs (p :: subs m) m) in Done (h3, p)
    end
  end.

(* SubTreeList::unlink, AttributeTree.cpp:512-533: the first entry with this sub tree is removed *)
Fixpoint remove_first (p : nat) (l : list nat) : list nat :=
  match l with [] => [] | x :: r => if x =? p then r else x :: remove_first p r end.

(* AttributeTree.cpp:825-839; 829-830 read through a null list pointer if the parent has no sub trees *)
Definition unlink (h : heap) (p : nat) : outcome heap :=
  let* n := deref h p in
  match parent n with
  | None => Done h
  | Some q =>
    let* m := deref h q in
    match subs m with
    | [] => Undef
    | _ :: _ => let* h1 := update h q (fun m => set_changed true (set_subs (remove_first p (subs m)) m)) in
                update h1 p (set_parent None)
    end
  end.

(* AttributeTree.cpp:787-812 and SubTreeList::~SubTreeList, 475-484 *)
Fixpoint delete_tree (fuel : nat) (h : heap) (p : nat) : outcome heap :=
  match fuel with
  | O => Running
  | S f =>
    let* n := deref h p in
    let* h1 := ofold (fun g c => let* g1 := update g c (set_parent None) in delete_tree f g1 c) (subs n) h in
    let* h2 := update h1 p (set_subs []) in
    let* h3 := unlink h2 p in
    Done (free h3 p)
  end.

(* AttributeTree.cpp:814-823 and SubTreeList::unlinkParent, 499-510 *)
Definition unlinkSub (h : heap) (p : nat) : outcome heap :=
  let* n := deref h p in
  let* h1 := ofold (fun g c => update g c (set_parent None)) (subs n) h in
  update h1 p (set_subs []).

(* AttributeTree.cpp:842-853 *)
Definition setDescription (h : heap) (p : nat) (d : option str) : outcome heap := update h p (set_desc d).

(* AttributeTree.cpp:855-871 *)
Definition set_attr (a : option str) (n : node) : node :=
  match a, attr n with
  | Some x, Some y => if str_eqb x y then n else mkN (desc n) a true (parent n) (subs n)
  | _, _ => mkN (desc n) a true (parent n) (subs n)
  end.
Definition setOwnAttribute (h : heap) (p : nat) (a : option str) : outcome heap := update h p (set_attr a).

(* SubTreeList::subTree, AttributeTree.cpp:535-548; [None]: strcmp with a null pointer *)
Fixpoint find_sub (h : heap) (l : list nat) (d : option str) : outcome (option nat) :=
  match l with
  | [] => Done None
  | c :: r =>
    let* n := deref h c in
    match desc n, d with
    | None, _ => find_sub h r d
    | Some _, None => Undef
    | Some x, Some y => if str_eqb x y then Done (Some c) else find_sub h r d
    end
  end.

(* m_subtree_list->subTree(d) without a check of m_subtree_list: for a node without sub trees this calls a member
   function on a null pointer. [strict]: that is undefined behaviour (as in the C++ standard; GCC 6 and later drop the
   null test in SubTreeList::subTree); otherwise the function sees this == 0 and returns 0 (older compilers,
   -fno-delete-null-pointer-checks). *)
Definition list_sub (strict : bool) (h : heap) (n : node) (d : option str) : outcome (option nat) :=
  match subs n with [] => if strict then Undef else Done None | l => find_sub h l d end.

(* AttributeTree.cpp:889-903 *)
Definition getSubTree (h : heap) (p : nat) (d : str) : outcome (option nat) :=
  let* n := deref h p in
  match subs n with [] => Done None | l => find_sub h l (Some d) end.
(* AttributeTree.cpp:874-887 *)
Definition subTree (h : heap) (p : nat) (d : str) : outcome (heap * nat) :=
  let* s := getSubTree h p d in
  match s with Some c => Done (h, c) | None => new_tree h (Some d) (Some p) end.

(* The components of a description: split() (AttributeTree.cpp:1436-1444) at the first point, then the remainder. *)
Fixpoint split_dots (s : str) : list str :=
  match s with
  | [] => [[]]
  | c :: r => match split_dots r with
              | [] => [[c]]
              | x :: l => if Ascii.eqb c "."%char then [] :: x :: l else (c :: x) :: l
              end
  end.

(* AttributeTree.cpp:924-956, with the components of description and subdescription *)
Fixpoint set_path (h : heap) (p : nat) (l : list str) (a : option str) : outcome (heap * nat) :=
  match l with
  | [] | [] :: _ => let* h1 := setOwnAttribute h p a in Done (h1, p)
  | d :: r =>
    let* s := getSubTree h p d in
    match s with
    | Some c => set_path h c r a
    | None => let* hp := new_tree h (Some d) (Some p) in set_path (fst hp) (snd hp) r a
    end
  end.
(* AttributeTree.cpp:906-922 *)
Definition setAttribute (h : heap) (p : nat) (d : option str) (a : option str) : outcome (heap * nat) :=
  match d with Some s => set_path h p (split_dots s) a | None => set_path h p [] a end.

(* AttributeTree.cpp:55-56 *)
Definition file_path_str : str := $"_ATTRIBUTE_TREE_FILE_PATH_".
Definition file_name_str : str := $"_ATTRIBUTE_TREE_FILE_NAME_".

(* AttributeTree.cpp:964-968 *)
Fixpoint special_loop (fuel : nat) (strict : bool) (h : heap) (at_parent : option nat) (found : option nat) (d : str)
  : outcome (option nat) :=
  match at_parent, found with
  | Some q, None =>
    match fuel with
    | O => Running
    | S f => let* m := deref h q in
             let* s := list_sub strict h m (Some d) in
             special_loop f strict h (parent m) s d
    end
  | _, _ => Done found
  end.
(* AttributeTree.cpp:959-982; the result is the node and its attribute *)
Definition getSpecialAttribute (fuel : nat) (strict : bool) (h : heap) (p : nat) (d : str) : outcome (option (nat * str)) :=
  let* n := deref h p in
  let* s := list_sub strict h n (Some d) in
  let* f := special_loop fuel strict h (Some p) s d in
  match f with
  | None => Done None
  | Some c => let* m := deref h c in Done (option_map (fun a => (c, a)) (attr m))
  end.

(* AttributeTree.cpp:996-997, 1001-1002: description ends with the string *)
Definition ends_with (t s : str) : bool := (length t <=? length s) && str_eqb (skipn (length s - length t) s) t.

(* AttributeTree.cpp:1012-1024 *)
Fixpoint walk (strict : bool) (h : heap) (p : nat) (l : list str) : outcome (option nat) :=
  match l with
  | [] => Done (Some p)
  | d :: r =>
    let* n := deref h p in
    let* s := list_sub strict h n (Some d) in
    match s with Some c => walk strict h c r | None => Done None end
  end.

(* AttributeTree.cpp:984-1053 with a null default: the node ( *subtree ) and its attribute *)
Definition find_attribute (fuel : nat) (strict : bool) (h : heap) (p : nat) (d : option str) : outcome (option (nat * str)) :=
  match d with
  | None => Done None
  | Some s =>
    let* special :=
      (if ends_with file_path_str s then getSpecialAttribute fuel strict h p file_path_str
       else if ends_with file_name_str s then getSpecialAttribute fuel strict h p file_name_str
       else Done None) in
    match special with
    | Some r => Done (Some r)
    | None =>
      let* w := walk strict h p (split_dots s) in
      match w with
      | None => Done None
      | Some c => let* m := deref h c in Done (option_map (fun a => (c, a)) (attr m))
      end
    end
  end.
(* AttributeTree.cpp:984-1053: the value returned and *subtree *)
Definition getAttribute (fuel : nat) (strict : bool) (h : heap) (p : nat) (d : option str) (default : option str)
  : outcome (option str * option nat) :=
  let* r := find_attribute fuel strict h p d in
  Done (match r with Some (c, a) => (Some a, Some c) | None => (default, None) end).

(* AttributeTree.cpp:1055-1064 *)
Definition getOrSetDefault (fuel : nat) (strict : bool) (h : heap) (p : nat) (d : option str) (default : option str)
  : outcome (heap * option str) :=
  let* r := getAttribute fuel strict h p d None in
  match fst r with
  | Some a => Done (h, Some a)
  | None => let* hp := setAttribute h p d default in Done (fst hp, default)
  end.

(* AttributeTree.cpp:1463-1479 *)
Definition isAttribute (fuel : nat) (strict : bool) (h : heap) (p : nat) (d a : option str) : outcome bool :=
  let* r := getAttribute fuel strict h p d None in
  Done (match a, fst r with
        | Some x, Some y => str_eqb y x
        | Some _, None => false
        | None, Some _ => true
        | None, None => false
        end).

(* sscanf(s, "%i", &i), for the C locale; [None]: not a number, [Some z]: the value, which may not fit an int *)
Definition digit_of (base : Z) (c : ascii) : option Z :=
  let k := Z.of_nat (nat_of_ascii c) in
  let v := (if (48 <=? k) && (k <=? 57) then k - 48
            else if (65 <=? k) && (k <=? 70) then k - 55
            else if (97 <=? k) && (k <=? 102) then k - 87 else 99)%Z in
  if (v <? base)%Z then Some v else None.
Fixpoint scan_digits (base : Z) (s : str) (acc : option Z) : option Z :=
  match s with
  | [] => acc
  | c :: r => match digit_of base c with
              | Some v => scan_digits base r (Some (match acc with Some a => a * base + v | None => v end)%Z)
              | None => acc
              end
  end.
Fixpoint skip_space (s : str) : str := match s with c :: r => if is_space c then skip_space r else s | [] => [] end.
Definition scan_unsigned (s : str) : option Z :=
  match s with
  | "0"%char :: "x"%char :: r | "0"%char :: "X"%char :: r => scan_digits 16 r None
  | "0"%char :: _ => scan_digits 8 s None
  | _ => scan_digits 10 s None
  end.
Definition scan_i (s : str) : option Z :=
  match skip_space s with
  | "-"%char :: r => option_map Z.opp (scan_unsigned r)
  | "+"%char :: r => scan_unsigned r
  | r => scan_unsigned r
  end.
Definition int_max : Z := 2147483647.

(* AttributeTree.cpp:1078-1082; j = base_len: description[-1] is read *)
Fixpoint number_loop (fuel : nat) (base : str) (i : Z) (j : nat) : outcome (Z * nat) :=
  match fuel with
  | O => Running
  | S f =>
    if (length base <=? j)%nat then Undef
    else match scan_i (skipn (length base - j - 1) base) with
         | Some z => if ((- int_max - 1 <=? z) && (z <=? int_max))%Z then number_loop f base z (S j) else Undef
         | None => Done (i, j)
         end
  end.
(* AttributeTree.cpp:1089, 1094: the buffer holds base_len + 6 bytes *)
Definition with_number (base : str) (i : Z) (j : nat) : outcome str :=
  if (length (dec i) <=? j + 5)%nat then Done (firstn (length base - j) base ++ dec i) else Undef.
(* AttributeTree.cpp:1091-1096 *)
Fixpoint unused_loop (fuel : nat) (strict : bool) (h : heap) (n : node) (base d : str) (i : Z) (j : nat) : outcome str :=
  let* s := list_sub strict h n (Some d) in
  match s with
  | Some _ => if (i <? 100000)%Z
              then match fuel with
                   | O => Running
                   | S f => let* d1 := with_number base (i + 1) j in unused_loop f strict h n base d1 (i + 1)%Z j
                   end
              else Done d
  | None => Done d
  end.
(* AttributeTree.cpp:1066-1097 *)
Definition newSubNodeDescription (fuel : nat) (strict : bool) (h : heap) (p : nat) (base : str) : outcome str :=
  let* n := deref h p in
  let* ij := (match base with
              | [] => Done (1%Z, 0)
              | _ :: _ => let* r := number_loop fuel base 1 0 in
                          let (i, j) := r in
                          match j with O => Done (i, j) | S _ => if (i <? int_max)%Z then Done ((i + 1)%Z, j) else Undef end
              end) in
  let (i, j) := ij : Z * nat in
  let* d := with_number base i j in
  unused_loop fuel strict h n base d i j.
(* AttributeTree.cpp:1100-1106 *)
Definition addNewSubTree (fuel : nat) (strict : bool) (h : heap) (p : nat) : outcome (heap * nat) :=
  let* d := newSubNodeDescription fuel strict h p [] in setAttribute h p (Some d) None.

(* SubTreeList::newSubTreeList, AttributeTree.cpp:643-651: behind the first entry with [after], or behind the last entry *)
Fixpoint insert_after (p after : nat) (l : list nat) : list nat :=
  match l with
  | [] => []
  | x :: r => match r with
              | [] => [x; p]
              | _ :: _ => if x =? after then x :: p :: r else x :: insert_after p after r
              end
  end.
(* AttributeTree.cpp:1109-1136; 1126 is a null pointer access for a node without sub trees *)
Definition addSubTree_after (fuel : nat) (strict : bool) (h : heap) (p t : nat) (after : option nat) : outcome heap :=
  let* n := deref h p in
  let* m := deref h t in
  let* s := list_sub strict h n (desc m) in
  let* h1 := (match s with
              | None => Done h
              | Some _ => match desc m with
                          | None => Undef   (* not reached: no sub tree is found for a null description *)
                          | Some d => let* d' := newSubNodeDescription fuel strict h p d in setDescription h t (Some d')
                          end
              end) in
  let* n1 := deref h1 p in
  let* h2 := (match after with
              | None => Done (put h1 p (set_subs (t :: subs n1) n1))
              | Some a => match subs n1 with [] => Undef | l => Done (put h1 p (set_subs (insert_after t a l) n1)) end
              end) in
  update h2 t (set_parent (Some p)).
(* AttributeTree.h:532-554 *)
Definition addSubTree (fuel : nat) (strict : bool) (h : heap) (p t : nat) : outcome heap := addSubTree_after fuel strict h p t None.
Definition addNextTree (fuel : nat) (strict : bool) (h : heap) (p t : nat) : outcome (option heap) :=
  let* n := deref h p in
  match parent n with None => Done None | Some q => let* h1 := addSubTree_after fuel strict h q t (Some p) in Done (Some h1) end.

(* AttributeTree.h:492-517 and SubTreeList::next, AttributeTree.cpp:601-616 *)
Definition firstSubTree (h : heap) (p : nat) : outcome (option nat) := let* n := deref h p in Done (hd_error (subs n)).
Fixpoint next_in (l : list nat) (prev : nat) : option nat :=
  match l with
  | [] => None
  | x :: r => match r with
              | y :: _ => if x =? prev then Some y else next_in r prev
              | [] => None
              end
  end.
Definition nextSubTree (h : heap) (p prev : nat) : outcome (option nat) := let* n := deref h p in Done (next_in (subs n) prev).
(* AttributeTree.h:591-596 *)
Fixpoint root (fuel : nat) (h : heap) (p : nat) : outcome nat :=
  match fuel with
  | O => Running
  | S f => let* n := deref h p in match parent n with Some q => root f h q | None => Done p end
  end.

(* AttributeTree.cpp:1446-1461 and SubTreeList::search, 572-585; [d]: not null *)
Fixpoint search (fuel : nat) (h : heap) (p : nat) (d : str) (a : option str) : outcome (option nat) :=
  match fuel with
  | O => Running
  | S f =>
    let* n := deref h p in
    if opt_is (desc n) d && (match a with None => true | Some x => opt_is (attr n) x end) then Done (Some p)
    else (fix go l := match l with
                      | [] => Done None
                      | c :: r => let* s := search f h c d a in match s with Some x => Done (Some x) | None => go r end
                      end) (subs n)
  end.

(* AttributeTree.cpp:1481-1492 and SubTreeList::changed, 587-599 *)
Fixpoint is_changed (fuel : nat) (h : heap) (p : nat) : outcome bool :=
  match fuel with
  | O => Running
  | S f =>
    let* n := deref h p in
    if changed n then Done true
    else (fix go l := match l with
                      | [] => Done false
                      | c :: r => let* b := is_changed f h c in if b : bool then Done true else go r
                      end) (subs n)
  end.
(* AttributeTree.cpp:1494-1501 and SubTreeList::unmarkChanges, 618-626 *)
Fixpoint unmarkChanges (fuel : nat) (h : heap) (p : nat) : outcome heap :=
  match fuel with
  | O => Running
  | S f =>
    let* h1 := update h p (set_changed false) in
    let* n := deref h1 p in
    ofold (fun g c => unmarkChanges f g c) (subs n) h1
  end.
(* AttributeTree.cpp:1503-1515 and SubTreeList::contains, 550-560 *)
Fixpoint contains (fuel : nat) (h : heap) (p : nat) : outcome nat :=
  match fuel with
  | O => Running
  | S f =>
    let* n := deref h p in
    ofold (fun k c => let* m := contains f h c in Done (k + m)) (subs n) (match attr n with Some _ => 1 | None => 0 end)
  end.
(* AttributeTree.h:648-654 and SubTreeList::revertOrder, AttributeTree.cpp:628-641 *)
Fixpoint revertOrder (fuel : nat) (h : heap) (p : nat) : outcome heap :=
  match fuel with
  | O => Running
  | S f =>
    let* n := deref h p in
    let* h1 := ofold (fun g c => revertOrder f g c) (subs n) h in
    update h1 p (set_subs (rev (subs n)))
  end.

(* AttributeTree.cpp:1517-1545; [src]: not null *)
Definition append_string (dest : option str) (src sep : str) : option str :=
  match dest with Some x => Some (x ++ sep ++ src) | None => Some src end.
(* AttributeTree.h:631-644 *)
Definition appendAttribute (h : heap) (p : nat) (s sep : str) : outcome heap :=
  update h p (fun n => mkN (desc n) (append_string (attr n) s sep) true (parent n) (subs n)).
Definition appendDescription (h : heap) (p : nat) (s sep : str) : outcome heap :=
  update h p (fun n => mkN (append_string (desc n) s sep) (attr n) true (parent n) (subs n)).

(* AttributeTree.cpp:52-53 *)
Definition comment_str : str := $"_COMMENT_".
(* AttributeTree.cpp:1561-1564 *)
Definition is_comment (n : node) : bool := opt_is (desc n) comment_str.
(* AttributeTree.cpp:1547-1559: the first sub tree that is a comment with an attribute
   (nextSubTree enumerates the list if no sub tree is in it twice) *)
Fixpoint comment_in (h : heap) (l : list nat) : outcome (option (nat * str)) :=
  match l with
  | [] => Done None
  | c :: r => let* n := deref h c in
              match attr n with Some a => if is_comment n then Done (Some (c, a)) else comment_in h r | None => comment_in h r end
  end.
Definition commentAttributeTree (h : heap) (p : nat) : outcome (option (nat * str)) :=
  let* n := deref h p in comment_in h (subs n).
(* AttributeTree.cpp:1571-1582 *)
Definition comment (h : heap) (p : nat) : outcome str :=
  let* c := commentAttributeTree h p in Done (match c with Some (_, a) => a | None => [] end).
(* AttributeTree.cpp:1589-1592 *)
Definition setComment (h : heap) (p : nat) (c : option str) : outcome (heap * nat) := setAttribute h p (Some comment_str) c.
