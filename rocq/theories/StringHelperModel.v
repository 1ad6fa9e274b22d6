(* Model of src/icl_core/src/icl_core/StringHelper.{h,cpp} (not modelled: stringify and the numeric padLeft/padRight
   templates, which go through ostream) and of string2Enum in EnumHelper.cpp. *)
From Verif Require Import Base CInt Text.

(* d is a prefix of s *)
Fixpoint is_prefix (d s : str) : bool :=
  match d, s with
  | [], _ => true
  | c :: d', x :: s' => Ascii.eqb c x && is_prefix d' s'
  | _ :: _, [] => false
  end.

(* std::string::find(d): position of the leftmost occurrence, None = npos *)
Fixpoint str_find (d s : str) : option nat :=
  if is_prefix d s then Some 0
  else match s with [] => None | _ :: s' => option_map S (str_find d s') end.

(* StringHelper.cpp:37-41, at most [fuel] iterations: pieces pushed and the final s; None = still running *)
Fixpoint split_loop (fuel : nat) (s d : str) : option (list str * str) :=
  match str_find d s with
  | None => Some ([], s)
  | Some pos =>
    match fuel with
    | O => None
    | S f => match split_loop f (skipn (pos + length d) s) d with
             | Some (ps, r) => Some (firstn pos s :: ps, r)
             | None => None
             end
    end
  end.

(* StringHelper.cpp:27-47; [fuel] iterations *)
Definition split_fuel (fuel : nat) (s d : str) : option (list str) :=
  match s with
  | [] => Some [[]]
  | _ => match split_loop fuel s d with
         | Some (ps, r) => Some (match r with [] => ps | _ => ps ++ [r] end)
         | None => None
         end
  end.
(* enough fuel unless the loop is infinite (C20_split_total, C20_split_empty_delimiter_diverges) *)
Definition split (s d : str) : option (list str) := split_fuel (length s) s d.

(* StringHelper.cpp:49-61; [first] is it == begin() *)
Fixpoint join_loop (first : bool) (l : list str) (d acc : str) : str :=
  match l with
  | [] => acc
  | x :: r => join_loop false r d ((if first then acc else acc ++ d) ++ x)
  end.
Definition join (l : list str) (d : str) : str := join_loop true l d [].

(* isspace in the C locale *)
Definition is_space (c : ascii) : bool :=
  let n := nat_of_ascii c in ((9 <=? n) && (n <=? 13)) || (n =? 32).

(* str[i] on a const std::string: the terminating NUL at the end, undefined beyond *)
Definition char_at (s : str) (i : Z) : result ascii :=
  (if (0 <=? i) && (i <? Z.of_nat (length s)) then
     match nth_error s (Z.to_nat i) with Some c => Ok c | None => UB end
   else if i =? Z.of_nat (length s) then Ok zero else UB)%Z.

(* StringHelper.cpp:70-73: front loop, fuel = characters left *)
Fixpoint trim_front (fuel : nat) (s : str) (i : Z) : result Z :=
  match fuel with
  | O => Ok i
  | S f => if (i <? Z.of_nat (length s))%Z
           then bind (char_at s i) (fun c => if is_space c then trim_front f s (to_u64 (i + 1)) else Ok i)
           else Ok i
  end.
(* StringHelper.cpp:76-79: end loop *)
Fixpoint trim_end (fuel : nat) (s : str) (front i : Z) : result Z :=
  match fuel with
  | O => Ok i
  | S f => if (front <? i)%Z
           then bind (char_at s i) (fun c => if is_space c then trim_end f s front (to_u64 (i - 1)) else Ok i)
           else Ok i
  end.
(* StringHelper.cpp:63-91; size_type is 64 bit.  Fuel length+1 always suffices (C21). *)
Definition trim (s : str) : result str :=
  let n := Z.of_nat (length s) in
  bind (trim_front (length s + 1) s 0) (fun front =>
  bind (trim_end (length s + 1) s front (to_u64 (n - 1))) (fun e =>
  if (front =? n)%Z then Ok []
  else if (front <=? n)%Z then Ok (substr s (Z.to_nat front) (Z.to_nat (to_u64 (e - front + 1)))) else Throw)).

(* StringHelper.h:105-117 *)
Definition padLeft (s : str) (width : nat) (pad : ascii) : str :=
  if length s <? width then repeat pad (width - length s) ++ s else s.
(* StringHelper.h:125-137 *)
Definition padRight (s : str) (width : nat) (pad : ascii) : str :=
  if length s <? width then s ++ repeat pad (width - length s) else s.

(* ::tolower / ::toupper of a char in the C locale.  char is signed on the supported platforms, so the argument
   of a byte >= 128 is negative: undefined behaviour (C11 7.4.1). *)
Definition tolower (c : ascii) : result ascii :=
  let n := nat_of_ascii c in
  if 128 <=? n then UB else Ok (if (65 <=? n) && (n <=? 90) then ascii_of_nat (n + 32) else c).
Definition toupper (c : ascii) : result ascii :=
  let n := nat_of_ascii c in
  if 128 <=? n then UB else Ok (if (97 <=? n) && (n <=? 122) then ascii_of_nat (n - 32) else c).
Fixpoint transform (f : ascii -> result ascii) (s : str) : result str :=
  match s with
  | [] => Ok []
  | c :: r => bind (f c) (fun c' => bind (transform f r) (fun r' => Ok (c' :: r')))
  end.
(* StringHelper.h:86-96 *)
Definition toLower (s : str) : result str := transform tolower s.
Definition toUpper (s : str) : result str := transform toupper s.

(* ---- EnumHelper.cpp ---- *)
Definition str_eqb (a b : str) : bool := if list_eq_dec ascii_dec a b then true else false.
(* str.c_str() as read by strcmp: up to the first NUL *)
Fixpoint c_str (s : str) : str :=
  match s with [] => [] | c :: r => if Ascii.eqb c zero then [] else c :: c_str r end.

(* EnumHelper.cpp:28-47.  The array holds C strings (None = NULL pointer); None as end_marker is NULL.
   Reading behind the array or strcmp(NULL) is UB.  value: in/out parameter; index is int32_t. *)
Fixpoint enum_loop (descs : list (option str)) (em : option str) (s : str) (index : Z) (value : Z) (found : bool)
  : result (bool * Z) :=
  match descs with
  | [] => UB
  | d :: r =>
    let go (text : str) :=
      bind (if str_eqb (c_str s) text then Ok (index, true) else Ok (value, found)) (fun vf =>
      match r with
      | [] => UB
      | _ => bind (chk32 (index + 1)) (fun i' => enum_loop r em s i' (fst vf) (snd vf))
      end) in
    match em, d with
    | None, None => Ok (found, value)
    | None, Some text => go text
    | Some _, None => UB
    | Some m, Some text => if str_eqb text m then Ok (found, value) else go text
    end
  end.
Definition string2Enum_array (s : str) (value : Z) (descs : list (option str)) (em : option str) : result (bool * Z) :=
  enum_loop descs em s 0 value false.

(* EnumHelper.cpp:49-80; the vector is shorter than the range of T *)
Fixpoint enum_vec_loop (l : list str) (s : str) (index : Z) (value : Z) (found : bool) : bool * Z :=
  match l with
  | [] => (found, value)
  | d :: r => if str_eqb s d then enum_vec_loop r s (index + 1) index true
              else enum_vec_loop r s (index + 1) value found
  end.
Definition string2Enum_vector (s : str) (value : Z) (l : list str) : bool * Z := enum_vec_loop l s 0 value false.
