(* The typed access to the configuration and to the command line:
   src/icl_core/src/icl_core_config/Config.h:78-147, 168-220, 240-357, 383-514, Util.h:42-107, ConfigValue.h:49-130,
   ConfigValueDefault.h:42-74, ConfigEnum.h:41-105, ConfigEnumDefault.h:42-76, ConfigList.h:55-142,
   MemberValue.h:71-158, MemberEnum.h:73-137, ConfigManager.h:132-145.

   Not modelled: floating point types, the DDS string types, stringValue() and the text of the log messages (only which
   key is reported, and as what), and the address of a default value: the object a default refers to lives as long as the
   entry (a literal is modelled as a variable of its own). *)
From Verif Require Import Base Text SMap KeyValueDirectoryModel StringHelperModel GetoptModel ConfigModel.
From Verif Require LogTextModel ATreeModel.
Local Open Scope Z_scope.

(* the value types of the templates; long is 64 bits wide, char 8 bits *)
Inductive ity := I16 | U16 | I32 | U32 | I64 | U64.
Inductive cty := TInt (i : ity) | TBool | TString | TChar.
Inductive value := VZ (z : Z) | VB (b : bool) | VS (s : str) | VC (c : ascii).

Definition imin (i : ity) : Z := match i with I16 => -(2^15) | I32 => -(2^31) | I64 => -(2^63) | _ => 0 end.
Definition imax (i : ity) : Z :=
  match i with I16 => 2^15 - 1 | U16 => 2^16 - 1 | I32 => 2^31 - 1 | U32 => 2^32 - 1 | I64 => 2^63 - 1 | U64 => 2^64 - 1 end.
Definition isigned (i : ity) : bool := match i with I16 | I32 | I64 => true | _ => false end.

(* ---- Util.h ---- *)
Definition skip_space (s : str) : str := ATreeModel.skip_space s.
(* operator>>(istream&, std::string&) after the blanks: up to the next blank *)
Fixpoint word (s : str) : str :=
  match s with c :: r => if is_space c then [] else c :: word r | [] => [] end.
Definition hexval (c : ascii) : option Z :=
  let n := Z.of_nat (nat_of_ascii c) in
  if (48 <=? n) && (n <=? 57) then Some (n - 48)
  else if (97 <=? n) && (n <=? 102) then Some (n - 87)
  else if (65 <=? n) && (n <=? 70) then Some (n - 55)
  else None.
Definition digit_of (base : Z) (c : ascii) : option Z :=
  match hexval c with Some v => if v <? base then Some v else None | None => None end.
Fixpoint scan_number (base : Z) (s : str) (acc : Z) : Z :=
  match s with
  | c :: r => match digit_of base c with Some v => scan_number base r (acc * base + v) | None => acc end
  | [] => acc
  end.
(* std::num_get with the base field cleared (Util.h:46): the base is that of the prefix; no digits at all give 0 *)
Definition unsigned_text (s : str) : Z :=
  match s with
  | c :: r =>
    if Ascii.eqb c "0"%char then
      match r with
      | x :: r' => if Ascii.eqb x "x"%char || Ascii.eqb x "X"%char then scan_number 16 r' 0 else scan_number 8 s 0
      | [] => 0
      end
    else scan_number 10 s 0
  | [] => 0
  end.
Definition num_get (s : str) : bool * Z :=
  match s with
  | c :: r =>
    if Ascii.eqb c "-"%char then (true, unsigned_text r)
    else if Ascii.eqb c "+"%char then (false, unsigned_text r)
    else (false, unsigned_text s)
  | [] => (false, 0)
  end.
(* out of range: std::num_get stores the nearest bound and sets failbit (short and int are read as long and then
   bounded); an unsigned type takes the magnitude and negates it in its own arithmetic *)
Definition store_int (i : ity) (neg : bool) (m : Z) : Z :=
  if isigned i then Z.max (imin i) (Z.min (imax i) (if neg then - m else m))
  else if imax i <? m then imax i
  else if neg then (- m) mod (imax i + 1) else m.
(* Util.h:42-51: the state of the stream is not looked at; T result is uninitialised, and it stays so when there is
   nothing but blanks (a std::string is empty) *)
Definition hexical_cast (t : cty) (s : str) : result value :=
  match skip_space s with
  | [] => match t with TString => Ok (VS []) | _ => UB end
  | (c :: _) as s' =>
    match t with
    | TInt i => let '(neg, m) := num_get s' in Ok (VZ (store_int i neg m))
    | TBool => Ok (VB (negb (snd (num_get s') =? 0)))    (* operator>>(bool&) without boolalpha: 0, or anything else *)
    | TChar => Ok (VC c)
    | TString => Ok (VS (word s'))
    end
  end.
(* boost::algorithm::to_lower in the classic locale: every byte is fine *)
Definition lower_byte (c : ascii) : ascii :=
  let n := nat_of_ascii c in if ((65 <=? n) && (n <=? 90))%nat then ascii_of_nat (n + 32) else c.
Definition str_is (a b : str) : bool := if list_eq_dec ascii_dec a b then true else false.
Definition one_of (s : str) (l : list str) : bool := existsb (str_is s) l.
(* Util.h:59-76 *)
Definition bool_cast (s : str) : bool :=
  one_of (map lower_byte (word (skip_space s))) [$"1"; $"yes"; $"true"].
(* Util.h:86-107 *)
Definition strict_bool_cast (s : str) : result bool :=
  let w := map lower_byte (word (skip_space s)) in
  if one_of w [$"1"; $"yes"; $"true"] then Ok true
  else if one_of w [$"0"; $"no"; $"false"] then Ok false
  else Throw.

(* ---- Config.h: single values; the returned flag and the referenced value afterwards ---- *)
(* try { value = cast; return true; } catch (...) { return false; } *)
Definition tried (r : result value) (old : value) : result (bool * value) :=
  match r with Ok v => Ok (true, v) | Throw => Ok (false, old) | UB => UB end.
(* Config.h:168-190 after the lookup; raw_value is only used when the text was found *)
Definition enum_value (s : str) (old : value) (descs : list (option str)) (em : option str) : result (bool * value) :=
  bind (string2Enum_array s 0 descs em) (fun bz => if fst bz then Ok (true, VZ (snd bz)) else Ok (false, old)).
(* Config.h:78-147: the generic version, String, bool *)
Definition get (d : directory str) (t : cty) (key : str) (old : value) : result (bool * value) :=
  match map_get d key with
  | None => Ok (false, old)
  | Some s =>
    match t with
    | TString => Ok (true, VS s)
    | TBool => bind (toLower s) (fun s' =>
               if one_of s' [$"0"; $"no"; $"false"] then Ok (true, VB false)
               else if one_of s' [$"1"; $"yes"; $"true"] then Ok (true, VB true)
               else Ok (false, old))
    | _ => tried (hexical_cast t s) old
    end
  end.
(* Config.h:168-190 *)
Definition get_enum (d : directory str) (key : str) (old : value) (descs : list (option str)) (em : option str)
  : result (bool * value) :=
  match map_get d key with None => Ok (false, old) | Some s => enum_value s old descs em end.
(* Config.h:199-220 *)
Definition getDefault (d : directory str) (t : cty) (key : str) (default : value) : result value :=
  bind (get d t key default) (fun bv => Ok (snd bv)).
(* boost::lexical_cast<String>(value) *)
Definition to_text (v : value) : str :=
  match v with
  | VZ z => LogTextModel.dec z
  | VB b => if b then $"1" else $"0"
  | VS s => s
  | VC c => [c]
  end.
(* Config.h:359-375, ConfigManager.h:132-145 *)
Definition setValue_of (fuel : nat) (fs : files) (k : str) (v : value) (m : manager) : option (bool * manager) :=
  setValue fuel fs k (to_text v) m.
(* Config.h:383-403 *)
Definition paramOpt_as (p : parsed) (t : cty) (name : str) (old : value) : result (bool * value) :=
  if paramOptPresent p name then tried (hexical_cast t (paramOpt p name)) old else Ok (false, old).
(* Config.h:410-433 *)
Definition paramOpt_enum (p : parsed) (name : str) (old : value) (descs : list (option str)) (em : option str)
  : result (bool * value) :=
  if paramOptPresent p name then enum_value (paramOpt p name) old descs em else Ok (false, old).
(* Config.h:442-461 *)
Definition paramOptDefault (p : parsed) (t : cty) (name : str) (default : value) : result value :=
  if paramOptPresent p name then
    match hexical_cast t (paramOpt p name) with Throw => Ok default | x => x end
  else Ok default.
(* Config.h:469-489 *)
Definition paramNonOpt_as (p : parsed) (t : cty) (index : nat) (old : value) : result (bool * value) :=
  if (index <? paramNonOptCount p)%nat then tried (hexical_cast t (paramNonOpt p index)) old else Ok (false, old).
(* Config.h:491-514 *)
Definition paramNonOpt_enum (p : parsed) (index : nat) (old : value) (descs : list (option str)) (em : option str)
  : result (bool * value) :=
  if (index <? paramNonOptCount p)%nat then enum_value (paramNonOpt p index) old descs em else Ok (false, old).
