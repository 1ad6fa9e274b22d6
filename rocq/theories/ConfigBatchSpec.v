(* Vocabulary of C56: what an entry of a batch stands for. *)
From Verif Require Import Base Text SMap KeyValueDirectoryModel StringHelperModel StringHelperSpec ConfigGetModel ConfigGetSpec ConfigBatchModel.
Local Open Scope Z_scope.

(* the integer a type has for a text with this sign and magnitude *)
Definition stored (i : ity) (neg : bool) (n z : Z) : Prop :=
  in_range i z /\
  (in_range i (signed_value neg n) -> z = signed_value neg n) /\
  (signed_type i = true -> signed_value neg n < lowest i -> z = lowest i) /\
  (highest i < (if signed_type i then signed_value neg n else n) -> z = highest i) /\
  (signed_type i = false -> n <= highest i -> (z - signed_value neg n) mod (highest i + 1) = 0).

(* what a text gives: a value, or (None) an error *)
Inductive gives : conv -> str -> option value -> Prop :=
| G_int i s neg n z : int_text s neg n -> stored i neg n z -> gives (CValue (TInt i)) s (Some (VZ z))
| G_no_int i s : ~ blank s -> (forall neg n, ~ int_text s neg n) -> gives (CValue (TInt i)) s (Some (VZ 0))
| G_true s w : first_word s w -> true_word w -> gives (CValue TBool) s (Some (VB true))
| G_false s w : first_word s w -> false_word w -> gives (CValue TBool) s (Some (VB false))
| G_no_bool s w : first_word s w -> ~ true_word w -> ~ false_word w -> gives (CValue TBool) s None
| G_string s w : first_word s w -> gives (CValue TString) s (Some (VS w))
| G_char b c r : blank b -> is_space c = false -> gives (CValue TChar) (b ++ c :: r) (Some (VC c))
| G_enum s l em rest i : Z.of_nat (length l) < 2 ^ 31 -> (forall m, em = Some m -> ~ In m l) ->
    last_index (c_str s) l i -> gives (CEnum (map Some l ++ em :: rest) em) s (Some (VZ (Z.of_nat i)))
| G_no_enum s l em rest : Z.of_nat (length l) < 2 ^ 31 -> (forall m, em = Some m -> ~ In m l) ->
    ~ In (c_str s) l -> gives (CEnum (map Some l ++ em :: rest) em) s None.

(* what an entry finds: nothing, if the key is not there *)
Definition finds (d : directory str) (key : str) (c : conv) (o : option value) : Prop :=
  match map_get d key with None => o = None | Some s => gives c s o end.

(* the members of a record *)
Inductive mgives : mconv -> str -> option value -> Prop :=
| M_value t s o : gives (CValue t) s o -> mgives (MValue t) s o
| M_enum l s i : last_index s l i -> mgives (MEnum l) s (Some (VZ (Z.of_nat i)))
| M_no_enum l s : ~ In s l -> mgives (MEnum l) s None.
Definition first_member (members : list member) (suffix : str) (m : member) : Prop :=
  exists l1 l2, members = l1 ++ m :: l2 /\ m_suffix m = suffix /\ forall x, In x l1 -> m_suffix x <> suffix.
(* the key [k] with text [s] is member [m] of the element [e] *)
Definition member_key (rx : matcher) (query : str) (d : directory str) (members : list member) (k s e : str) (m : member) : Prop :=
  In (k, s) d /\ exists suffix, rx query k = Some (e, suffix) /\ first_member members suffix m.

(* the entries as they can be written in a batch: their texts are readable without undefined behaviour *)
Definition readable (rx : matcher) (d : directory str) (prefix : str) (e : entry) : Prop :=
  match e with
  | Item key c _ _ => exists o, finds d (prefix ++ key) c o
  | ListItem p members _ _ => forall k s el m, member_key rx (prefix ++ p) d members k s el m -> exists o, mgives (m_conv m) s o
  end.
(* when an entry counts as read *)
Definition succeeds (rx : matcher) (d : directory str) (prefix : str) (e : entry) : Prop :=
  match e with
  | Item key c _ default => default <> None \/ exists v, finds d (prefix ++ key) c (Some v)
  | ListItem p members _ _ =>
    (exists k s el m, member_key rx (prefix ++ p) d members k s el m) /\
    (forall k s el m, member_key rx (prefix ++ p) d members k s el m -> exists v, mgives (m_conv m) s (Some v))
  end.
Definition is_list (e : entry) : bool := match e with ListItem _ _ _ _ => true | Item _ _ _ _ => false end.
Definition targets (e : entry) (i : nat) : Prop := match e with Item _ _ t _ => t = i | ListItem _ _ _ _ => False end.
Definition outputs (e : entry) (i : nat) : Prop := match e with ListItem _ _ _ o => o = i | Item _ _ _ _ => False end.

(* a prefix of keys, ending in "/" *)
Definition prefix_of (prefix p : str) : Prop :=
  (prefix = [] /\ p = []) \/ (exists q, p = q ++ $"/" /\ (prefix = p \/ prefix = q /\ q <> [] /\ (forall r, q <> r ++ $"/"))).

(* the records of a list *)
Definition is_record (rx : matcher) (query : str) (d : directory str) (members : list member) (fresh : record) (e : str) (r : record) : Prop :=
  (exists k s m, member_key rx query d members k s e m) /\
  forall i,
    ((forall k s m, member_key rx query d members k s e m -> m_field m <> i) -> r i = fresh i) /\
    (forall k s m v, member_key rx query d members k s e m -> m_field m = i -> mgives (m_conv m) s (Some v) ->
      (forall k' s' m', member_key rx query d members k' s' e m' -> m_field m' = i -> k' = k \/ str_lt k' k = true) -> r i = v).
Inductive ascending : list str -> Prop :=
| A_nil : ascending []
| A_cons x l : ascending l -> (forall y, In y l -> str_lt x y = true) -> ascending (x :: l).
(* all the records, in the order of the names of the elements *)
Definition records (rx : matcher) (query : str) (d : directory str) (members : list member) (fresh : record) (l : list record) : Prop :=
  exists names, length names = length l /\ ascending names /\
  (forall e, In e names <-> exists k s m, member_key rx query d members k s e m) /\
  (forall i e r, nth_error names i = Some e -> nth_error l i = Some r -> is_record rx query d members fresh e r).

(* a batch: readable entries, at different addresses, and the list entries not used before *)
Definition batch_ready (rx : matcher) (d : directory str) (p : str) (l : list (nat * entry)) (w : world) : Prop :=
  (forall o e, In (o, e) l -> readable rx d p e) /\ (forall o e, In (o, e) l -> is_list e = true -> maps w o = []) /\ NoDup (map fst l).
(* what the entry e, between the entries l1 and l2 of a batch, leaves: w before the batch, w' after it *)
Definition entry_done (rx : matcher) (d : directory str) (p : str) (l1 l2 : list (nat * entry)) (e : entry) (w w' : world) : Prop :=
  match e with
  | Item key c i default =>
    (forall o e', In (o, e') l2 -> ~ targets e' i) ->
    (forall v, finds d (p ++ key) c (Some v) -> vars w' i = v) /\
    (finds d (p ++ key) c None -> forall x, default = Some x -> (forall o e', In (o, e') l1 -> ~ targets e' x) -> vars w' i = vars w x) /\
    (finds d (p ++ key) c None -> default = None -> (forall o e', In (o, e') l1 -> ~ targets e' i) -> vars w' i = vars w i)
  | ListItem cp members fresh i =>
    (forall o e', In (o, e') (l1 ++ l2) -> ~ outputs e' i) ->
    (succeeds rx d p e -> exists r, records rx (p ++ cp) d members fresh r /\ outs w' i = outs w i ++ r) /\
    (~ succeeds rx d p e -> outs w' i = outs w i)
  end.
