(* Specification of log files (C58). *)
From Verif Require Import Base Text SMap IsoModel IsoSpec FileLogModel.
Local Open Scope Z_scope.

(* a line, and the time when it was pushed *)
Definition line := (Z * str)%type.
Definition day_number_of (t : Z) : Z := t / (24 * 60 * 60).
Definition reopened : str := "010"%char :: "010"%char :: ($"-------------FILE (RE-)OPENED------------------" ++ ["010"%char]).

(* the text consists of the lines in their order; in between there are (parts of) the banner and parts of lines that were
   being written when the process was killed *)
Inductive made_of (torn : list str) : list str -> str -> Prop :=
| M_nil : made_of torn [] []
| M_line ls text s : made_of torn ls text -> made_of torn (ls ++ [s]) (text ++ s)
| M_extra ls text s a b : made_of torn ls text -> s = a ++ b -> s = reopened \/ In s torn -> made_of torn ls (text ++ a).

(* BASE.YYYY-MM-DD *)
Definition archive_name (name : str) (zip : bool) (d : Z) : str :=
  let x := Nat.iter (Z.to_nat d) next_day (D 1970 1 1) in
  name ++ $"." ++ digits 4 (year x) ++ $"-" ++ digits 2 (month x) ++ $"-" ++ digits 2 (day x) ++ (if zip then $".gz" else $"").
Definition zips (c : config) : bool := match how c with Zip => true | _ => false end.
Definition archive (c : config) (d : Z) : str := archive_name (base c) (zips c) d.

Definition text_of (f : fsys) (name : str) (text : str) : Prop := exists t, map_get f name = Some (File (mkF text t)).
Definition directory (m : machine) : fsys := match m with Running w => fs w | Halted f _ => f | Wrong => [] end.
(* what the stream has not yet written *)
Definition pending (m : machine) : str := match m with Running w => buf w | _ => [] end.

Fixpoint ascending (l : list Z) : Prop := match l with [] => True | d :: r => (forall d', In d' r -> d < d') /\ ascending r end.

(* all the lines, in their order, are in the archives of ascending days and then in the log file itself; a line is not in the
   archive of a day before the line *)
Definition kept (c : config) (torn : list str) (all : list line) (m : machine) : Prop :=
  exists (groups : list (Z * list line)) (current : list line),
    concat (map snd groups) ++ current = all /\
    ascending (map fst groups) /\
    (rotate c = false -> groups = []) /\
    (forall d ls, In (d, ls) groups ->
       (exists text, text_of (directory m) (archive c d) text /\ made_of torn (map snd ls) text) /\
       forall t s, In (t, s) ls -> s <> [] -> day_number_of t <= d) /\
    (current = [] \/
     exists text, text_of (directory m) (base c) text /\
                  made_of torn (map snd current) (text ++ pending m) /\
                  (flushing c = true -> made_of torn (map snd current) text)).
(* ... and every line is in the archive of exactly its day, the lines in the log file are of one day *)
Definition kept_by_day (c : config) (torn : list str) (all : list line) (m : machine) : Prop :=
  exists (groups : list (Z * list line)) (current : list line) (today : Z),
    concat (map snd groups) ++ current = all /\
    ascending (map fst groups ++ [today]) /\
    (forall d ls, In (d, ls) groups ->
       (exists text, text_of (directory m) (archive c d) text /\ made_of torn (map snd ls) text) /\
       forall t s, In (t, s) ls -> day_number_of t = d) /\
    (forall t s, In (t, s) current -> day_number_of t = today) /\
    (current = [] \/
     exists text, text_of (directory m) (base c) text /\
                  made_of torn (map snd current) (text ++ pending m) /\
                  (flushing c = true -> made_of torn (map snd current) text)).

(* ---- histories ---- *)
Definition times1 (e : event) : list Z := match e with Start t1 t2 | Push t1 t2 _ => [t1; t2] | Stop t2 => [t2] end.
Definition times (l : list call) : list Z := concat (map (fun e => times1 (fst e)) l).
Fixpoint not_decreasing (t : Z) (l : list Z) : Prop := match l with [] => True | x :: r => t <= x /\ not_decreasing x r end.
(* a logger is started, used and then stopped or killed, and so on *)
Fixpoint orderly (up : bool) (l : list call) : Prop :=
  match l with
  | [] => True
  | (e, crash) :: r =>
    up = match e with Start _ _ => false | _ => true end /\
    orderly (match e, crash with Stop _, _ | _, Some _ => false | _, None => true end) r
  end.
Definition crashes (l : list call) : Prop := exists e k, In (e, Some k) l.
Fixpoint torn_lines (l : list call) : list str :=
  match l with
  | [] => []
  | (Push _ _ s, Some _) :: r => s :: torn_lines r
  | _ :: r => torn_lines r
  end.
(* the lines that are reported as written *)
Fixpoint written (l : list call) (bs : list bool) : list line :=
  match l, bs with
  | (Push t1 _ s, _) :: r, b :: bs' => if b then (t1, s) :: written r bs' else written r bs'
  | _ :: r, _ :: bs' => written r bs'
  | _, _ => []
  end.
Definition pushed (l : list call) : list line :=
  concat (map (fun e => match e with (Push t1 _ s, None) => [(t1, s)] | _ => [] end) l).

Definition only_pushes (l : list call) : Prop := forall e, In e l -> exists t1 t2 s, e = (Push t1 t2 s, None).

(* what is there before the first start counts as a line of the time of the last write *)
Definition before (c : config) (f : fsys) : list line :=
  match map_get f (base c) with Some (File g) => [(f_time g, f_text g)] | _ => [] end.
Definition not_later (c : config) (f : fsys) (t : Z) : Prop :=
  match map_get f (base c) with Some (File g) => 0 <= f_time g <= t | _ => True end.
(* no operation of the system fails and no directory has a name that begins with that of the log file *)
Definition smooth (c : config) (y : sys) (f : fsys) : Prop :=
  (forall k, fails y k = false) /\ (forall ext, map_get f (base c ++ ext) <> Some Dir).

(* ---- deletion ---- *)
(* the day under which the log file will be archived *)
Definition label (c : config) (m : machine) : Z :=
  match m with
  | Running w => last_rotation w
  | Halted f _ => match map_get f (base c) with Some (File g) => day_number_of (f_time g) | _ => 0 end
  | Wrong => 0
  end.
Definition begins_with (p s : str) : Prop := exists r, s = p ++ r.
(* at time t: a regular file whose name begins with that of the log file and that was last written more than n days before today *)
Definition outdated (c : config) (t : Z) (name : str) (n : node) : Prop :=
  exists days g, rotate c = true /\ delete_days c = Some days /\ dir_ok c = true /\ n = File g /\ begins_with (base c) name /\
    f_time g < 24 * 60 * 60 * (day_number_of t - days).
Definition time_of (e : event) : Z := match e with Start t1 _ | Push t1 _ _ => t1 | Stop t2 => t2 end.

(* the line is in no file of the directory *)
Definition lost (s : str) (f : fsys) : Prop := forall name text t, In (name, File (mkF text t)) f -> ~ exists a b, text = a ++ s ++ b.
