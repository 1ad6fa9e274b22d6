(* The grammar of C32, independent of the parser. *)
From Verif Require Import Base Text SchemeModel.

Definition all (f : ascii -> bool) (w : str) : Prop := Forall (fun c => f c = true) w.
Definition word (f : ascii -> bool) (w : str) : Prop := w <> [] /\ all f w.

(* alpha+ ('+' alpha+)* "://" *)
Inductive plus_words : str -> Prop :=
| pw_one : forall w, word is_alpha w -> plus_words w
| pw_more : forall w v, word is_alpha w -> plus_words v -> plus_words (w ++ $"+" ++ v).
Definition scheme_text (a : str) : Prop := exists w, plus_words w /\ a = w ++ $"://".

(* everything up to '?' or '#', not empty *)
Definition specifier_text (w : str) : Prop := w <> [] /\ ~ In "?"%char w /\ ~ In "#"%char w.

(* alnum+ or alnum+ '-' alnum+ *)
Definition anchor_text (w : str) : Prop :=
  word is_alnum w \/ exists a b, word is_alnum a /\ word is_alnum b /\ w = a ++ $"-" ++ b.

(* alphanumerical; underscores only between other characters *)
Inductive key_rest : str -> Prop :=
| kr_nil : key_rest []
| kr_alnum : forall c w, is_alnum c = true -> key_rest w -> key_rest (c :: w)
| kr_under : forall c w, is_alnum c = true -> key_rest w -> key_rest ("_"%char :: c :: w).
Definition key_text (w : str) : Prop := exists c v, is_alnum c = true /\ key_rest v /\ w = c :: v.
Definition value_char (c : ascii) : bool := negb (is_char "?" c) && negb (is_char "&" c) && negb (is_space c).
Definition value_text (w : str) : Prop := word value_char w.
Definition query_ok (q : query) : Prop := key_text (q_name q) /\ value_text (q_value q).
(* k=v&k=v... *)
Fixpoint query_text (l : list query) : str :=
  match l with
  | [] => []
  | [q] => q_name q ++ $"=" ++ q_value q
  | q :: r => q_name q ++ $"=" ++ q_value q ++ $"&" ++ query_text r
  end.

(* s = [scheme]specifier[#anchor][?queries]; an absent part is empty; the scheme is absent only if s does not begin
   with one *)
Record grammar (s sch spec anc : str) (qs : list query) : Prop := {
  g_text : s = sch ++ spec ++ (match anc with [] => [] | _ => $"#" ++ anc end)
                 ++ (match qs with [] => [] | _ => $"?" ++ query_text qs end);
  g_sch : scheme_text sch \/ (sch = [] /\ forall a b, scheme_text a -> s <> a ++ b);
  g_spec : specifier_text spec;
  g_anc : anc = [] \/ anchor_text anc;
  g_qs : Forall query_ok qs
}.

(* the name is reported in lower case *)
Definition lower (s : str) : str := map tolower s.
Definition classify (name : str) : scheme_type_t :=
  if str_eqb name $"file://" then FileScheme else if str_eqb name $"http://" then HttpScheme
  else if str_eqb name $"camera://" then CameraScheme else if str_eqb name $"gps://" then GpsScheme else OtherScheme.
(* the Scheme a new parser reports for such a decomposition *)
Definition report (sch spec anc : str) (qs : list query) : scheme :=
  mkS (classify (lower sch)) (lower sch) spec anc qs.
Definition no_nul (s : str) : Prop := forall c, In c s -> code c <> 0%nat.
(* the Scheme a used parser reports: h is what it held before *)
Definition report_on (h : scheme) (sch spec anc : str) (qs : list query) : scheme :=
  mkS (match sch with [] => scheme_type h | _ => classify (lower sch) end)
      (match sch with [] => scheme_name h | _ => lower sch end)
      spec
      (match anc with [] => anchor h | _ => anc end)
      qs.

(* the classes of characters, spelled out *)
Definition lower_letters : str := $"abcdefghijklmnopqrstuvwxyz".
Definition upper_letters : str := $"ABCDEFGHIJKLMNOPQRSTUVWXYZ".
Definition digits : str := $"0123456789".
Definition white_space : str := map ascii_of_nat [9; 10; 11; 12; 13; 32].   (* \t \n \v \f \r and the space *)
Fixpoint position (c : ascii) (l : str) : option nat :=
  match l with [] => None | x :: r => if Ascii.eqb c x then Some 0 else option_map S (position c r) end.
