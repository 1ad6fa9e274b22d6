(* Vocabulary: the printed configuration as a text made of lists. *)
From Verif Require Import Conc Text SMap LogTextModel LogManagerModel LogManagerSpec.

Definition nl : str := [ascii_of_nat 10].
(* strictly ascending names, so each at most once *)
Definition ascending (l : list str) : Prop := forall a x b y c, l = a ++ x :: b ++ y :: c -> str_lt x y = true.
Definition factory_line (n : str) : str := $"    " ++ n ++ nl.
Definition output_line (e : str * level) : str := $"    " ++ fst e ++ $" : " ++ logLevelDescription (snd e) ++ nl.
Definition stream_line (e : str * list str) : str := $"    " ++ fst e ++ $" -> " ++ concat (map (fun w => w ++ $" ") (snd e)) ++ nl.
Definition report (factories : list str) (outputs : list (str * level)) (streams : list (str * list str)) : str :=
  $"LoggingManager configuration:" ++ nl ++ $"  Log output stream factories:" ++ nl ++ concat (map factory_line factories) ++
  $"  Log output streams:" ++ nl ++ concat (map output_line outputs) ++ $"  Log streams:" ++ nl ++ concat (map stream_line streams).
