(* SchemeParser: src/icl_core/src/icl_core/SchemeParser.{h,cpp}.

   The boost::spirit::classic combinators are modelled by their documented behaviour: recursive descent without
   backtracking into a parser that has succeeded; an optional or a repetition puts the input position back when its
   operand fails; semantic actions take effect at once and are never undone.  Character classes are those of the
   "C" locale.  a - b on single characters is a character class. *)
From Verif Require Import Base Text.

(* SchemeParser.h:55-79 *)
Inductive scheme_type_t := FileScheme | HttpScheme | CameraScheme | GpsScheme | OtherScheme.
Record query := mkQ { q_name : str; q_value : str }.
Record scheme := mkS {
  scheme_type : scheme_type_t;
  scheme_name : str;
  specifier : str;
  anchor : str;
  queries : list query
}.
(* SchemeParser.cpp:121-124: a new SchemeParser; the strings are empty *)
Definition new_scheme : scheme := mkS OtherScheme [] [] [] [].

Definition code (c : ascii) : nat := nat_of_ascii c.
Definition between (a b : nat) (c : ascii) : bool := (a <=? code c) && (code c <=? b).
Definition is_alpha (c : ascii) : bool := between 65 90 c || between 97 122 c.
Definition is_alnum (c : ascii) : bool := is_alpha c || between 48 57 c.
Definition is_space (c : ascii) : bool := between 9 13 c || (code c =? 32).
Definition is_char (x : ascii) (c : ascii) : bool := Ascii.eqb c x.
Definition tolower (c : ascii) : ascii := if between 65 90 c then ascii_of_nat (code c + 32) else c.

(* A parser: from the state of the actions and the input to the new state and, on success, the matched text and
   the rest of the input. *)
Definition parser : Type := scheme -> str -> scheme * option (str * str).
Definition chr (f : ascii -> bool) : parser := fun st s =>
  match s with c :: r => if f c then (st, Some ([c], r)) else (st, None) | [] => (st, None) end.
(* a >> b *)
Definition cat (a b : parser) : parser := fun st s =>
  match a st s with
  | (st1, Some (m1, r1)) => match b st1 r1 with (st2, Some (m2, r2)) => (st2, Some (m1 ++ m2, r2)) | (st2, None) => (st2, None) end
  | (st1, None) => (st1, None)
  end.
(* a | b *)
Definition alt (a b : parser) : parser := fun st s =>
  match a st s with (st1, Some x) => (st1, Some x) | (st1, None) => b st1 s end.
(* !a *)
Definition opt (a : parser) : parser := fun st s =>
  match a st s with (st1, Some x) => (st1, Some x) | (st1, None) => (st1, Some ([], s)) end.
(* *a: at most [fuel] times; here every a consumes input, so the length of the input is enough *)
Fixpoint star_ (fuel : nat) (a : parser) : parser := fun st s =>
  match fuel with
  | O => (st, Some ([], s))
  | S f => match a st s with
           | (st1, Some (m1, r1)) =>
             match star_ f a st1 r1 with (st2, Some (m2, r2)) => (st2, Some (m1 ++ m2, r2)) | (st2, None) => (st2, None) end
           | (st1, None) => (st1, Some ([], s))
           end
  end.
Definition star (a : parser) : parser := fun st s => star_ (length s) a st s.
(* +a *)
Definition plus (a : parser) : parser := cat a (star a).
(* a[f] *)
Definition act (a : parser) (f : scheme -> str -> scheme) : parser := fun st s =>
  match a st s with (st1, Some (m, r)) => (f st1 m, Some (m, r)) | (st1, None) => (st1, None) end.
(* str_p *)
Fixpoint strp (t : str) : parser :=
  match t with [] => fun st s => (st, Some ([], s)) | c :: t' => cat (chr (is_char c)) (strp t') end.

Definition str_eqb (a b : str) : bool := if list_eq_dec ascii_dec a b then true else false.

(* SchemeParser.cpp:57-85 *)
Definition addScheme (st : scheme) (m : str) : scheme :=
  let name := map tolower m in
  let ty := if str_eqb name $"file://" then FileScheme
            else if str_eqb name $"http://" then HttpScheme
            else if str_eqb name $"camera://" then CameraScheme
            else if str_eqb name $"gps://" then GpsScheme
            else OtherScheme in
  mkS ty name (specifier st) (anchor st) (queries st).
(* SchemeParser.cpp:87-91 *)
Definition addSpecifier (st : scheme) (m : str) : scheme := mkS (scheme_type st) (scheme_name st) m (anchor st) (queries st).
(* SchemeParser.cpp:93-97 *)
Definition addAnchor (st : scheme) (m : str) : scheme := mkS (scheme_type st) (scheme_name st) (specifier st) m (queries st).
(* SchemeParser.cpp:99-105 *)
Definition addName (st : scheme) (m : str) : scheme :=
  mkS (scheme_type st) (scheme_name st) (specifier st) (anchor st) (queries st ++ [mkQ m []]).
(* SchemeParser.cpp:107-119 *)
Definition addValue (st : scheme) (m : str) : scheme :=
  let q := match queries st with [] => [mkQ [] []] | _ :: _ => queries st end in
  mkS (scheme_type st) (scheme_name st) (specifier st) (anchor st)
      (removelast q ++ [mkQ (q_name (last q (mkQ [] []))) m]).

(* the rules, SchemeParser.cpp:173-194 (extword_p, 172, is not used) *)
Definition anchor_word : parser := cat (plus (chr is_alnum)) (opt (cat (chr (is_char "-")) (plus (chr is_alnum)))).
Definition scheme_p : parser :=
  cat (cat (plus (chr is_alpha)) (star (cat (chr (is_char "+")) (plus (chr is_alpha))))) (strp $"://").
Definition specifier_p : parser := plus (chr (fun c => negb (is_char "?" c) && negb (is_char "#" c))).
Definition anchor_p : parser := cat (chr (is_char "#")) (act anchor_word addAnchor).
Definition query_key : parser :=
  cat (plus (chr is_alnum)) (star (alt (chr is_alnum) (cat (chr (is_char "_")) (chr is_alnum)))).
Definition query_value : parser :=
  plus (chr (fun c => negb (is_char "?" c || is_char "&" c || is_space c))).
Definition query_pair : parser := cat (cat (act query_key addName) (chr (is_char "="))) (act query_value addValue).
Definition query_p : parser :=
  cat (cat (chr (is_char "?")) query_pair) (star (cat (chr (is_char "&")) query_pair)).
Definition scheme_rule : parser :=
  cat (cat (cat (opt (act scheme_p addScheme)) (act specifier_p addSpecifier)) (opt anchor_p)) (opt query_p).

(* std::string::c_str() seen as a NUL-terminated string *)
Fixpoint cstr (s : str) : str :=
  match s with [] => [] | c :: r => if (code c =? 0)%nat then [] else c :: cstr r end.

(* SchemeParser.cpp:145-200: the returned info.full and the scheme handler afterwards *)
Definition parseScheme (s : str) (h : scheme) : bool * scheme :=
  let h0 := mkS (scheme_type h) (scheme_name h) (specifier h) (anchor h) [] in
  match scheme_rule h0 (cstr s) with
  | (h1, Some (_, [])) => (true, h1)
  | (h1, _) => (false, h1)
  end.

(* SchemeParser.cpp:29-54 *)
Fixpoint print_queries (first : bool) (l : list query) : str :=
  match l with
  | [] => []
  | q :: r => (if first then $"?" else $"&") ++ q_name q ++ $"=" ++ q_value q ++ print_queries false r
  end.
Definition print (s : scheme) : str :=
  scheme_name s ++ specifier s ++ print_queries true (queries s) ++
  match anchor s with [] => [] | _ :: _ => $"#" ++ anchor s end.
