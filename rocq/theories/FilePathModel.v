(* FilePath: src/icl_core/src/icl_core_config/AttributeTree.{h,cpp}, on POSIX systems (DSEP = '/', DSEP_OTHER = '\').
   Strings without NUL bytes.  The C++ loops run on positions in a string; None for a position is npos. *)
From Verif Require Import Base Text StringHelperModel.

(* std::string::find(d, pos) for a non-empty d *)
Definition find_from (d s : str) (pos : nat) : option nat := option_map (fun i => pos + i) (str_find d (skipn pos s)).
(* the last occurrence of c in s *)
Fixpoint last_char (c : ascii) (s : str) : option nat :=
  match s with
  | [] => None
  | x :: r => match last_char c r with Some i => Some (S i) | None => if Ascii.eqb x c then Some 0 else None end
  end.
(* std::string::rfind(c, pos): the last occurrence at or before pos *)
Definition rfind (c : ascii) (s : str) (pos : option nat) : option nat :=
  last_char c (match pos with None => s | Some p => firstn (S p) s end).
(* s[i]; s[s.size()] is NUL *)
Definition at_ (s : str) (i : nat) : ascii := nth i s "000"%char.
(* pos - 1 in size_type *)
Definition pred_pos (d : nat) : option nat := match d with O => None | S d' => Some d' end.

(* AttributeTree.cpp:118-124 and 253-259: every '\' becomes '/' *)
Definition exchangeSeparators (s : str) : str := map (fun c => if Ascii.eqb c "\"%char then "/"%char else c) s.

(* AttributeTree.cpp:130-136 and 214-220: while the string begins with ./ its first two characters are removed *)
Fixpoint strip_dots (s : str) : str :=
  match s with
  | a :: ((b :: r) as t) => if Ascii.eqb a "."%char && Ascii.eqb b "/"%char then strip_dots r else s
  | _ => s
  end.

(* AttributeTree.cpp:152-162; dot_start: [ds] *)
Fixpoint single_dots (fuel : nat) (s : str) (ds : option nat) : option str :=
  match ds with
  | None => Some s
  | Some d =>
    match fuel with
    | O => None
    | S f => let s' := firstn d s ++ skipn (d + 2) s in single_dots f s' (find_from $"/./" s' d)
    end
  end.

(* AttributeTree.cpp:176-177, with C++'s precedence: the conjunction is the condition of the conditional expression *)
Definition may_shorten (s : str) (slash : nat) : bool :=
  if negb (Ascii.eqb (at_ s (slash + 1)) "/"%char) && negb (Ascii.eqb (at_ s (slash + 1)) "."%char) && (1 <=? slash)
  then negb (Ascii.eqb (at_ s (slash - 1)) ":"%char) else true.

(* AttributeTree.cpp:167-211 *)
Fixpoint double_dots (fuel : nat) (s : str) (ds : option nat) : option str :=
  match ds with
  | None => Some s
  | Some d =>
    match fuel with
    | O => None
    | S f =>
      match rfind "/"%char s (pred_pos d) with
      | Some slash =>
        if may_shorten s slash
        then let s' := firstn slash s ++ skipn (d + 3) s in double_dots f s' (find_from $"/../" s' slash)
        else Some s
      | None =>
        if 0 <? d
        then let s' := skipn (d + 2) s in double_dots f s' (find_from $"/../" s' 0)
        else Some s
      end
    end
  end.

(* AttributeTree.cpp:104-241; None: a loop is still running after [fuel] iterations *)
Definition normalizePath (fuel : nat) (filename : str) : option str :=
  match filename with
  | [] => Some []
  | _ =>
    let s1 := strip_dots (exchangeSeparators filename) in
    match single_dots fuel s1 (find_from $"/./" s1 0) with
    | None => None
    | Some s2 =>
      match double_dots fuel s2 (find_from $"/../" s2 0) with
      | None => None
      | Some s3 => Some (strip_dots s3)
      end
    end
  end.

(* AttributeTree.cpp:89-102 *)
Definition isRelativePath (s : str) : bool :=
  match s with [] => true | c :: _ => negb (Ascii.eqb c "/"%char) end.
(* AttributeTree.cpp:78-87 *)
Definition absolutePath (fuel : nat) (pwd filename : str) : option str :=
  if isRelativePath filename then normalizePath fuel (pwd ++ $"/" ++ filename) else normalizePath fuel filename.

(* AttributeTree.h:215-218 *)
Record filepath := mkFP { m_pwd : str; m_file : str; path_name_split : nat; name_extension_split : option nat }.
(* AttributeTree.cpp:417-463; [env_pwd]: getenv("PWD") *)
Definition init (fuel : nat) (env_pwd : option str) (filename : str) : option filepath :=
  match normalizePath fuel (match env_pwd with Some p => p | None => [] end) with
  | None => None
  | Some pwd =>
    match absolutePath fuel pwd (exchangeSeparators filename) with
    | None => None
    | Some a =>
      match normalizePath fuel a with
      | None => None
      | Some file =>
        Some (mkFP pwd file (match rfind "/"%char file None with Some i => if i <? length file then i + 1 else 0 | None => 0 end)
                   (rfind "."%char file None))
      end
    end
  end.
(* AttributeTree.h:62-96; extension() throws std::out_of_range (None) if the split position is npos *)
Definition path (f : filepath) : str := firstn (path_name_split f) (m_file f).
Definition name (f : filepath) : str := skipn (path_name_split f) (m_file f).
Definition extension (f : filepath) : option str :=
  match name_extension_split f with Some i => Some (skipn i (m_file f)) | None => None end.

(* AttributeTree.cpp:264-275; [env]: the environment *)
Definition getEnvironment (env : str -> option str) (v : str) : str := match env v with Some x => x | None => v end.
(* AttributeTree.cpp:287-307; Some None: no closing bracket *)
Fixpoint env_loop (fuel : nat) (env : str -> option str) (s : str) (ds : option nat) : option (option str) :=
  match ds with
  | None => Some (Some s)
  | Some d0 =>
    match fuel with
    | O => None
    | S f =>
      let d := d0 + 2 in
      match find_from $"}" s d with
      | None => Some None
      | Some e =>
        let s' := firstn (d - 2) s ++ getEnvironment env (substr s d (e - d)) ++ skipn (e + 1) s in
        env_loop f env s' (find_from $"${" s' 0)
      end
    end
  end.
(* AttributeTree.cpp:277-311; None: the loop is still running after [fuel] iterations *)
Definition replaceEnvironment (fuel : nat) (env : str -> option str) (filename : str) : option str :=
  match filename with
  | [] => Some []
  | _ => match env_loop fuel env filename (find_from $"${" filename 0) with
         | None => None
         | Some (Some r) => Some r
         | Some None => Some filename
         end
  end.
