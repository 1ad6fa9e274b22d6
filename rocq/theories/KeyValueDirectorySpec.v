(* Specification vocabulary for KeyValueDirectory. *)
From Verif Require Import Base Text SMap KeyValueDirectoryModel.

(* The value of the latest insert for k in a history (latest first). *)
Fixpoint latest {T} (h : list (str * T)) (k : str) : option T :=
  match h with
  | [] => None
  | (k', v) :: r => if list_eq_dec ascii_dec k k' then Some v else latest r k
  end.

(* C25, one step, also when the directory has been changed by inserts since the last step: next() moves to the
   least matching key behind the current one (from the start after construction or reset()), or reports
   that there is none.  Calling it again at the end is undefined. *)
Definition behind (i : iter) (k : str) : Prop :=
  m_reset i = true \/ exists c, m_current_entry i = Some (Some c) /\ str_lt c k = true.

