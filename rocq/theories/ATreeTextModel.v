(* The text format of AttributeTree: printSubTree, save, get and load of
   src/icl_core/src/icl_core_config/AttributeTree.cpp.

   Files are the strings in them. Not modelled: what is printed on the console, errors while a file is read or written
   after it has been opened, isspace() of bytes above 127, and the overflow of int at 2^31 lines or attributes.
   CR in front of a line end is modelled. *)
From Verif Require Import Base Text StringHelperModel LogTextModel ATreeModel.
From Verif Require FilePathModel.

Definition newline : ascii := "010"%char.
Definition creturn : ascii := "013"%char.
Definition has_newline (s : str) : bool := existsb (Ascii.eqb newline) s.

(* ---- writing ---- *)
(* AttributeTree.cpp:1566-1569: strchr(attribute(), ...) with a null pointer is undefined *)
Definition isMultilineComment (n : node) : outcome bool :=
  if is_comment n then match attr n with Some a => Done (has_newline a) | None => Undef end else Done false.
(* AttributeTree.cpp:1193 *)
Definition ends_in_blank (s : str) : bool := match rev s with " "%char :: _ => true | _ => false end.
(* AttributeTree.cpp:1138-1216 and SubTreeList::printSubTree, 562-570; hasMultilineComment: 1584-1587 *)
Fixpoint printSubTree (fuel : nat) (h : heap) (p : nat) (change_style_depth : Z) (upper : str) : outcome str :=
  match fuel with
  | O => Running
  | S f =>
    let* n := deref h p in
    if opt_is (desc n) file_path_str || opt_is (desc n) file_name_str then Done []
    else
      let t := match desc n with Some d => d | None => [] end in
      let subtrees u := ofold (fun acc c => let* s := printSubTree f h c change_style_depth u in Done (acc ++ s)) (subs n) [] in
      let* m := isMultilineComment n in
      if m : bool then
        Done (upper ++ comment_str ++ $"{" ++ [newline] ++ (match attr n with Some a => a | None => [] end) ++ [newline] ++
              upper ++ $"}" ++ comment_str ++ [newline])
      else
        let* contents := contains fuel h p in
        let* c := comment h p in
        if (change_style_depth <=? Z.of_nat contents)%Z || has_newline c then
          let* s := subtrees (upper ++ $" ") in
          Done (upper ++ t ++ $"{" ++ [newline] ++
                (match attr n with Some (x :: a) => upper ++ $":" ++ (x :: a) ++ [newline] | _ => [] end) ++
                s ++ upper ++ $"}" ++ t ++ [newline])
        else
          let d := if ends_in_blank upper then upper ++ t else upper ++ $"." ++ t in
          let* s := subtrees d in
          Done ((match attr n with Some a => d ++ $":" ++ a ++ [newline] | None => [] end) ++ s)
  end.
(* AttributeTree.cpp:1218-1237, for a file that can be written: the new heap and the contents of the file *)
Definition save (fuel : nat) (h : heap) (p : nat) (change_style_depth : Z) (unmark_changes : bool) : outcome (heap * str) :=
  let* s := printSubTree fuel h p change_style_depth [] in
  let* h1 := (if unmark_changes then unmarkChanges fuel h p else Done h) in
  Done (h1, s).

(* ---- reading ---- *)
(* an istream: what is not read yet, eofbit, failbit *)
Record stream := mkStream { rest : str; eof : bool; failed : bool }.
Definition open (text : str) : stream := mkStream text false false.
(* the characters up to the first newline, at most k, and what follows *)
Fixpoint span_line (k : nat) (s : str) : str * str :=
  match k, s with
  | S k', c :: r => if Ascii.eqb c newline then ([], s) else let (a, b) := span_line k' r in (c :: a, b)
  | _, _ => ([], s)
  end.
(* std::istream::getline(buffer, n) *)
Definition getline (n : Z) (s : stream) : str * stream :=
  if eof s || failed s then ([], mkStream (rest s) (eof s) true)
  else match span_line (Z.to_nat (n - 1)) (rest s) with
       | (a, []) => (a, mkStream [] true (match a with [] => true | _ => false end))
       | (a, c :: r) => if Ascii.eqb c newline then (a, mkStream r false false) else (a, mkStream (c :: r) false true)
       end.
Fixpoint until_nul (s : str) : str := match s with [] => [] | c :: r => if Ascii.eqb c "000"%char then [] else c :: until_nul r end.
Definition strip_cr (s : str) : str := match rev s with c :: r => if Ascii.eqb c creturn then rev r else s | [] => [] end.
(* AttributeTree.cpp:63-72: the string in the buffer *)
Definition readNextLine (s : stream) : str * stream := let (a, s') := getline 1998 s in (strip_cr (until_nul a), s').

(* strchr(s, c): what is before the first c and what is behind it *)
Fixpoint cut (c : ascii) (s : str) : option (str * str) :=
  match s with
  | [] => None
  | x :: r => if Ascii.eqb x c then Some ([], r) else match cut c r with Some (a, b) => Some (x :: a, b) | None => None end
  end.
(* strstr(s, t) != 0 *)
Definition occurs (t s : str) : bool := match str_find t s with Some _ => true | None => false end.
(* AttributeTree.cpp:54, 52 *)
Definition include_str : str := $"_INCLUDE_".
Definition comment_end_str : str := $"}_COMMENT_".
(* AttributeTree.cpp:1374-1384 *)
Definition trimmed (s : str) : str := rev (skip_space (rev (skip_space s))).

(* AttributeTree.cpp:1369-1392 *)
Fixpoint comment_loop (fuel : nat) (h : heap) (at_c : option nat) (lineno : Z) (s : stream) : outcome (heap * Z * stream) :=
  match fuel with
  | O => Running
  | S f =>
    let (b, s') := readNextLine s in
    let line := trimmed b in
    if occurs comment_end_str line then Done (h, (lineno + 1)%Z, s')
    else let* h1 := (match at_c with Some c => appendAttribute h c line [newline] | None => Done h end) in
         comment_loop f h1 at_c (lineno + 1)%Z s'
  end.

(* the environment: variables (getenv) and the files that can be opened, by their absolute names *)
Record world := mkW { getenv : str -> option str; files : str -> option str }.
Definition o_of {A} (o : option A) : outcome A := match o with Some a => Done a | None => Running end.
(* AttributeTree.h:667-676 *)
Definition getFilePath (fuel : nat) (strict : bool) (h : heap) (p : nat) : outcome str :=
  let* r := root fuel h p in
  let* a := getSpecialAttribute fuel strict h r file_path_str in
  Done (match a with Some (_, x) => x | None => [] end).
(* AttributeTree.cpp:1327-1334 *)
Definition include_name (fuel : nat) (strict : bool) (w : world) (h : heap) (this : nat) (fp : option FilePathModel.filepath) (s : str) : outcome str :=
  let* e := o_of (FilePathModel.replaceEnvironment fuel (getenv w) s) in
  let i := FilePathModel.exchangeSeparators e in
  if FilePathModel.isRelativePath i
  then let* d := (match fp with Some f => Done (FilePathModel.path f) | None => getFilePath fuel strict h this end) in
       o_of (FilePathModel.normalizePath fuel (d ++ i))
  else Done i.

(* results of load: eOK and eFILE_LOAD_ERROR, AttributeTree.h:313-319 *)
Inductive loaded := eOK | eFILE_LOAD_ERROR.
(* AttributeTree.cpp:1242-1286; [get]: the call of get() in line 1266 *)
Definition load_with (get : heap -> FilePathModel.filepath -> stream -> outcome (heap * Z))
  (fuel : nat) (strict : bool) (w : world) (h : heap) (p : nat) (filename : str) (unmark preserve_order : bool) : outcome (heap * loaded) :=
  match filename with
  | [] => Done (h, eFILE_LOAD_ERROR)
  | _ :: _ =>
    let* fp := o_of (FilePathModel.init fuel (getenv w $"PWD") filename) in
    let* r := root fuel h p in
    let* h1 := (if r =? p
                then let* a := getAttribute fuel strict h p (Some file_path_str) None in
                     match fst a with
                     | Some _ => Done h
                     | None => let* h2 := setAttribute h p (Some file_path_str) (Some (FilePathModel.path fp)) in
                               let* h3 := setAttribute (fst h2) p (Some file_name_str) (Some (FilePathModel.name fp)) in
                               Done (fst h3)
                     end
                else Done h) in
    match files w (FilePathModel.m_file fp) with
    | None => Done (h1, eFILE_LOAD_ERROR)
    | Some text =>
      let* g := get h1 fp (open text) in
      let (h2, code) := g : heap * Z in
      if (0 <=? code)%Z then Done (h2, eFILE_LOAD_ERROR)
      else let* h3 := (if unmark then unmarkChanges fuel h2 p else Done h2) in
           let* h4 := (if preserve_order then revertOrder fuel h3 p else Done h3) in
           Done (h4, eOK)
    end
  end.

(* one line of get(): the call returns, or goes on at a node, with a line number and a stream *)
Inductive step_result := Return (h : heap) (code : Z) | Next (h : heap) (at_ : nat) (lineno : Z) (s : stream).
(* AttributeTree.cpp:1303-1429; [line]: without leading space; [load]: the call of load() in line 1335 *)
Definition get_step (load : heap -> nat -> str -> outcome (heap * loaded)) (fuel : nat) (strict : bool) (w : world) (this : nat)
  (fp : option FilePathModel.filepath) (process_include load_comments : bool) (h : heap) (at_ : nat) (lineno : Z) (line : str) (s : stream)
  : outcome step_result :=
  if (match line with "#"%char :: _ => true | _ => false end) then Done (Next h at_ lineno s)
  else match cut ":"%char line with
  | Some ([], a) => let* h1 := setOwnAttribute h at_ (Some a) in Done (Next h1 at_ lineno s)
  | Some (d, a) =>
    if str_eqb d include_str then
      if process_include then
        let* i := include_name fuel strict w h this fp a in
        let* r := load h at_ i in
        Done (Next (fst r) at_ lineno s)
      else
        let* hp := new_tree h (Some include_str) (Some at_) in
        let* h1 := setOwnAttribute (fst hp) (snd hp) (Some a) in
        Done (Next h1 at_ lineno s)
    else if negb (occurs comment_str d) || load_comments then
      let* hp := setAttribute h at_ (Some d) (Some a) in Done (Next (fst hp) at_ lineno s)
    else Done (Next h at_ lineno s)
  | None =>
    match cut "{"%char line with
    | Some (d, _) =>
      if str_eqb d comment_str then
        let* hc := (if load_comments then let* hp := new_tree h (Some comment_str) (Some at_) in Done (fst hp, Some (snd hp)) else Done (h, None)) in
        let* r := comment_loop fuel (fst hc) (snd hc) lineno s in
        let '(h1, n, s1) := r in
        Done (Next h1 at_ n s1)
      else let* hp := setAttribute h at_ (Some d) None in Done (Next (fst hp) (snd hp) lineno s)
    | None =>
      match cut "}"%char line with
      | Some _ =>
        if at_ =? this then Done (Return h (-1))
        else let* n := deref h at_ in
             match parent n with Some q => Done (Next h q lineno s) | None => Done (Return h lineno) end
      | None => if negb (eof s) && (match line with [] => false | _ => true end) then Done (Return h lineno) else Done (Next h at_ lineno s)
      end
    end
  end.
(* AttributeTree.cpp:1300-1433; [b]: the string in the buffer; the result is -1 or the number of a line *)
Fixpoint get_loop (fuel : nat) (strict : bool) (w : world) (this : nat) (fp : option FilePathModel.filepath)
  (process_include load_comments : bool) (h : heap) (at_ : nat) (lineno : Z) (b : str) (s : stream) : outcome (heap * Z) :=
  match fuel with
  | O => Running
  | S f =>
    let load h p i := load_with (fun g fp1 t => let (b1, t1) := readNextLine t in get_loop f strict w p (Some fp1) process_include load_comments g p 1 b1 t1)
                                f strict w h p i false false in
    let* r := get_step load f strict w this fp process_include load_comments h at_ (lineno + 1)%Z (skip_space b) s in
    match r with
    | Return h1 code => Done (h1, code)
    | Next h1 at1 n1 s1 =>
      let (b1, s2) := readNextLine s1 in
      if eof s2 then Done (h1, (-1)%Z) else get_loop f strict w this fp process_include load_comments h1 at1 n1 b1 s2
    end
  end.
(* AttributeTree.cpp:1288-1298 *)
Definition get (fuel : nat) (strict : bool) (w : world) (h : heap) (this : nat) (s : stream) (process_include load_comments : bool)
  (fp : option FilePathModel.filepath) : outcome (heap * Z) :=
  let (b, s1) := readNextLine s in get_loop fuel strict w this fp process_include load_comments h this 1 b s1.
(* AttributeTree.cpp:1239-1286 *)
Definition load (fuel : nat) (strict : bool) (w : world) (h : heap) (p : nat) (filename : str)
  (unmark_changes process_include load_comments preserve_order : bool) : outcome (heap * loaded) :=
  load_with (fun g fp s => get fuel strict w g p s process_include load_comments (Some fp)) fuel strict w h p filename unmark_changes preserve_order.
