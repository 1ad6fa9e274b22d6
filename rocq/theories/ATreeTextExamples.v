(* Concrete texts and files for the examples and the refuted claims. *)
From Verif Require Import Base Text StringHelperModel LogTextModel ATreeModel ATreeSpec ATreeTextModel ATreeTextSpec ATreeExamples.

(* one file, no environment *)
Definition one_file (f text : str) : world := mkW (fun _ => None) (fun x => if str_eqb x f then Some text else None).
Definition no_file : world := mkW (fun _ => None) (fun _ => None).
Definition saved (k : nat) (h : heap) (p : nat) (csd : Z) : str := match save k h p csd false with Done (_, s) => s | _ => [] end.
(* the tree below p as a value *)
Fixpoint content_at (k : nat) (h : heap) (p : nat) : content :=
  match k with
  | O => C None None []
  | S j => match cell h p with Some n => C (desc n) (attr n) (map (content_at j h) (subs n)) | None => C None None [] end
  end.
Fixpoint tree_at (k : nat) (h : heap) (p : nat) : tree :=
  match k with
  | O => T p None None false []
  | S j => match cell h p with Some n => T p (desc n) (attr n) (changed n) (map (tree_at j h) (subs n)) | None => T p None None false [] end
  end.
(* what get(text) makes of an empty root *)
Definition after (k : nat) (text : str) (comments : bool) : content := content_at k (heap_of (get k true no_file ex1 0 (open text) false comments None)) 0.
