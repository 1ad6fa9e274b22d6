(* Log messages by UDP: src/icl_core/src/icl_core_logging/UdpLogOutput.cpp:97-130 and the server that stores them,
   src/icl_core/src/uls/UdpLoggingServer.cpp.
   SQL is modelled for statements "INSERT INTO log_entries VALUES ..." (SQLite 3.7.11 or newer): its tokens, and the rows of
   literals that such a statement inserts. Where the statement is something else the model does not say what happens.
   Not modelled: the sockets, the encoding of bytes above 127 (Unsure below), datagrams that are too long to be sent. *)
From Verif Require Import Base Text LogTextModel.
Local Open Scope Z_scope.

(* the contents of a LogOutputStream::LogMessage; stamp: timestamp.formatIso8601(), nsec: timestamp.tsNSec() *)
Record record := Rec {
  r_stamp : str; r_nsec : Z; r_level : level; r_stream : str; r_file : str; r_line : Z;
  r_class : str; r_object : str; r_function : str; r_text : str
}.

Definition apostrophe : ascii := "'"%char.

(* boost::regex_replace, the format string in its default (Perl) syntax: a backslash before a character that is neither a
   letter nor a digit stands for that character *)
Fixpoint expand (format : str) : str :=
  match format with
  | [] => []
  | a :: r =>
    match r with
    | b :: r' => if Ascii.eqb a "\"%char then b :: expand r' else a :: expand r
    | [] => [a]
    end
  end.
(* UdpLogOutput.cpp:121-128 *)
Definition escape (s : str) : str := flat_map (fun ch => if Ascii.eqb ch apostrophe then expand ($"\'") else [ch]) s.

(* UdpLogOutput.cpp:101-112 *)
Definition quoted (s : str) : str := $"'" ++ s ++ $"'".
Definition datagram (system_name : str) (m : record) : str :=
  quoted system_name ++ $"," ++
  quoted (r_stamp m) ++ $"," ++ dec (r_nsec m) ++ $"," ++
  quoted (logLevelDescription (r_level m)) ++ $"," ++
  quoted (r_stream m) ++ $"," ++
  quoted (r_file m) ++ $"," ++ dec (r_line m) ++ $"," ++
  quoted (r_class m) ++ $"," ++
  quoted (escape (r_object m)) ++ $"," ++
  quoted (r_function m) ++ $"," ++
  quoted (escape (r_text m)).

(* ---- SQL ---- *)
Inductive token := TText (s : str) | TInt (z : Z) | TWord (w : str) | TComma | TOpen | TClose | TOther.
(* between tokens; in a word; in a string literal; after an apostrophe in a string literal; in a blob literal; a token that
   is not allowed was seen *)
Inductive lexer := Between | Word (w : str) | Text (t : str) | Quote (t : str) | Blob (h : str) | Bad.

Definition code_in (c : ascii) (a b : nat) : bool := ((a <=? nat_of_ascii c) && (nat_of_ascii c <=? b))%nat.
Definition is_blank (c : ascii) : bool := (code_in c 9 10 || code_in c 12 13 || code_in c 32 32)%bool.
Definition is_word (c : ascii) : bool := (code_in c 65 90 || code_in c 97 122 || code_in c 48 57 || code_in c 95 95)%bool.
Definition is_hex (c : ascii) : bool := (code_in c 48 57 || code_in c 65 70 || code_in c 97 102)%bool.
(* operators of which no part of a comment, a variable or a quoted name is made: ! % & * + . < = > ? | ~ *)
Definition is_operator (c : ascii) : bool :=
  (code_in c 33 33 || code_in c 37 38 || code_in c 42 43 || code_in c 46 46 || code_in c 60 63 || code_in c 124 124 || code_in c 126 126)%bool.
(* an integer that fits 64 bits *)
Definition word_token (w : str) : token :=
  if (forallb is_digit w && (number w <? 9223372036854775808))%bool then TInt (number w) else TWord w.

(* the next character between tokens: None where the model does not follow *)
Definition begin (ch : ascii) : option (list token * lexer) :=
  if is_blank ch then Some ([], Between)
  else if is_word ch then Some ([], Word [ch])
  else if Ascii.eqb ch apostrophe then Some ([], Text [])
  else if Ascii.eqb ch ","%char then Some ([TComma], Between)
  else if Ascii.eqb ch "("%char then Some ([TOpen], Between)
  else if Ascii.eqb ch ")"%char then Some ([TClose], Between)
  else if is_operator ch then Some ([TOther], Between)
  else None.
Definition after (t : token) (r : option (list token * lexer)) : option (list token * lexer) :=
  match r with Some (ts, st) => Some (t :: ts, st) | None => None end.
Definition step (st : lexer) (ch : ascii) : option (list token * lexer) :=
  match st with
  | Between => begin ch
  | Word w =>
    if is_word ch then Some ([], Word (w ++ [ch]))
    else if (Ascii.eqb ch apostrophe && (str_eqb w ($"x") || str_eqb w ($"X")))%bool then Some ([], Blob [])
    else after (word_token w) (begin ch)
  | Text t => if Ascii.eqb ch apostrophe then Some ([], Quote t) else if code_in ch 1 127 then Some ([], Text (t ++ [ch])) else None
  | Quote t => if Ascii.eqb ch apostrophe then Some ([], Text (t ++ [ch])) else after (TText t) (begin ch)
  | Blob h =>
    if Ascii.eqb ch apostrophe then
      if (forallb is_hex h && Nat.even (length h))%bool then Some ([TOther], Between) else Some ([], Bad)
    else Some ([], Blob (h ++ [ch]))
  | Bad => Some ([], Bad)
  end.
(* the end of the statement: None is a token that is not allowed *)
Definition finish (st : lexer) : option (list token) :=
  match st with
  | Between => Some []
  | Word w => Some [word_token w]
  | Quote t => Some [TText t]
  | Text _ | Blob _ | Bad => None
  end.
(* the token that ends before a character which the model does not follow (unless that can be a part of the word) *)
Definition complete (st : lexer) (ch : ascii) : list token :=
  match st with
  | Word w => if (code_in ch 1 127 && negb (Ascii.eqb ch "$"%char))%bool then [word_token w] else []
  | Quote t => [TText t]
  | _ => []
  end.
(* the tokens, and what comes after them: the end, a token that is not allowed, or something the model does not follow *)
Inductive rest := Done | Illegal | Unsure.
Fixpoint lex (st : lexer) (s : str) : list token * rest :=
  match s with
  | [] => match finish st with Some ts => (ts, Done) | None => ([], Illegal) end
  | ch :: r =>
    match step st ch with
    | None => (complete st ch, Unsure)
    | Some (ts, st') => let (ts', e) := lex st' r in (ts ++ ts', e)
    end
  end.

(* a literal *)
Inductive literal := LText (s : str) | LInt (z : Z).
(* words that can go on with an expression after a literal *)
Definition keywords : list str :=
  map list_ascii_of_string ["AND"; "OR"; "IS"; "NOT"; "LIKE"; "GLOB"; "REGEXP"; "MATCH"; "BETWEEN"; "IN"; "ISNULL"; "NOTNULL"; "COLLATE"; "ESCAPE"]%string.
Definition upper (ch : ascii) : ascii := if code_in ch 97 122 then ascii_of_nat (nat_of_ascii ch - 32) else ch.
Definition is_keyword (w : str) : bool := existsb (str_eqb (map upper w)) keywords.
(* rows of literals, or a syntax error, or something the model does not follow *)
Inductive parsed := Rows (l : list (list literal)) | SyntaxError | Other.
Definition add_row (r : list literal) (p : parsed) : parsed := match p with Rows l => Rows (r :: l) | x => x end.
(* needed next: "(" of a row; a literal; "," or ")" after it; "," or the end after a row *)
Inductive parser := NeedOpen | NeedValue (l : list literal) | NeedSep (l : list literal) | NeedNext.
Fixpoint parse (st : parser) (ts : list token) (e : rest) : parsed :=
  match st, ts with
  | NeedOpen, TOpen :: r => parse (NeedValue []) r e
  | NeedValue l, TText s :: r => parse (NeedSep (l ++ [LText s])) r e
  | NeedValue l, TInt z :: r => parse (NeedSep (l ++ [LInt z])) r e
  | NeedSep l, TComma :: r => parse (NeedValue l) r e
  | NeedSep l, TClose :: r => add_row l (parse NeedNext r e)
  | NeedSep _, TText _ :: _ | NeedSep _, TInt _ :: _ => SyntaxError
  | NeedSep _, TWord w :: _ => if is_keyword w then Other else SyntaxError
  | NeedNext, TComma :: r => parse NeedOpen r e
  | NeedNext, [] => match e with Done => Rows [] | Illegal => SyntaxError | Unsure => Other end
  | _, _ :: _ => Other
  | _, [] => match e with Unsure => Other | _ => SyntaxError end
  end.

(* UdpLoggingServer.cpp:56-61: system_name TEXT, timestamp TEXT, timestamp_ns INTEGER, log_level TEXT, log_stream TEXT, file TEXT,
   line INTEGER, class TEXT, object TEXT, function TEXT, message TEXT *)
Definition integer_column (i : nat) : bool := (Nat.eqb i 2 || Nat.eqb i 6)%bool.
Fixpoint fits (i : nat) (l : list literal) : bool :=
  match l with
  | [] => true
  | LText _ :: r => negb (integer_column i) && fits (S i) r
  | LInt _ :: r => integer_column i && fits (S i) r
  end.
(* what the statement does: these rows are inserted; nothing is inserted; the model does not say (a literal that is converted
   for its column included) *)
Inductive answer := Stored (rows : list (list literal)) | Refused | Unknown.
Definition insert_into (values : str) : answer :=
  let (ts, e) := lex Between values in
  match parse NeedOpen ts e with
  | SyntaxError => Refused
  | Other => Unknown
  | Rows rows =>
    if forallb (fun r => Nat.eqb (length r) 11) rows then
      if forallb (fits 0) rows then Stored rows else Unknown
    else Refused
  end.

(* up to the first NUL: QString::append(const char* ) *)
Fixpoint c_string (s : str) : str := match s with [] => [] | ch :: r => if Ascii.eqb ch nul then [] else ch :: c_string r end.
(* UdpLoggingServer.cpp:70-82 *)
Definition received (data : str) : answer := insert_into ($"(" ++ c_string data ++ $")").

(* the table after the datagrams in the order of their arrival, as far as it is known *)
Fixpoint serve (table : list (list literal)) (l : list str) : option (list (list literal)) :=
  match l with
  | [] => Some table
  | d :: r =>
    match received d with
    | Stored rows => serve (table ++ rows) r
    | Refused => serve table r
    | Unknown => None
    end
  end.
