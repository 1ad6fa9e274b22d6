(* Model of src/icl_core/src/icl_core/UnionFind.h.
   Simplification: std::size_t is nat (no wrap of m_parent.size()+n). *)
From Verif Require Import Base.

(* UnionFind.h:104-105 *)
Record uf := UF { m_parent : list nat; m_rank : list nat }.

(* UnionFind.h:37-44 (the loop stores i in cell i) *)
Definition construct (n : nat) : uf := UF (seq 0 n) (repeat 0 n).

(* UnionFind.h:47-56 *)
Definition grow (u : uf) (n : nat) : uf :=
  UF (m_parent u ++ seq (length (m_parent u)) n) (m_rank u ++ repeat 0 n).

(* Outcome of find: the new m_parent and the returned value, std::out_of_range,
   or more nested recursive calls than the fuel allows. *)
Inductive find_result := Found (p : list nat) (r : nat) | FThrow | TooDeep.

(* UnionFind.h:88-99; [fuel] is the number of nested recursive calls allowed below this one *)
Fixpoint find_rec (fuel : nat) (p : list nat) (x : nat) : find_result :=
  match nth_error p x with
  | None => FThrow                                  (* x >= m_parent.size() *)
  | Some y =>
    if y =? x then Found p y
    else match fuel with
         | O => TooDeep
         | S f => match find_rec f p y with
                  | Found p' r => Found (list_set p' x r) r
                  | o => o
                  end
         end
  end.

(* The call find(x): recursion unbounded, modelled with fuel = number of elements;
   C07 shows much less is always enough. *)
Definition find (u : uf) (x : nat) : find_result := find_rec (length (m_parent u)) (m_parent u) x.

(* UnionFind.h:61-86 *)
Inductive merge_result := Merged (u : uf) | MThrow | MTooDeep.
Definition merge (u : uf) (x y : nat) : merge_result :=
  if (length (m_parent u) <=? x) || (length (m_parent u) <=? y) then MThrow
  else
    match find u x with
    | Found p1 rx =>
      match find (UF p1 (m_rank u)) y with
      | Found p2 ry =>
        let rk := m_rank u in
        if rx =? ry then Merged (UF p2 rk)
        else if nth rx rk 0 <? nth ry rk 0 then Merged (UF (list_set p2 rx ry) rk)
        else if nth ry rk 0 <? nth rx rk 0 then Merged (UF (list_set p2 ry rx) rk)
        else Merged (UF (list_set p2 ry rx) (list_set rk rx (nth rx rk 0 + 1)))
      | FThrow => MThrow
      | TooDeep => MTooDeep
      end
    | FThrow => MThrow
    | TooDeep => MTooDeep
    end.

(* UnionFind.h:101 *)
Definition size (u : uf) : nat := length (m_parent u).

Inductive op := Grow (n : nat) | Merge (x y : nat) | Find (x : nat).

(* The object after one call; a call that throws leaves m_parent and m_rank as they were
   (the bounds check precedes every write). *)
Definition step (u : uf) (o : op) : uf :=
  match o with
  | Grow n => grow u n
  | Merge x y => match merge u x y with Merged u' => u' | _ => u end
  | Find x => match find u x with Found p _ => UF p (m_rank u) | _ => u end
  end.

Definition after (n : nat) (ops : list op) : uf := fold_left step ops (construct n).
