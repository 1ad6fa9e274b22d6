(* Vocabulary of C72. *)
From Verif Require Import Base Text CInt StampedModel.
From Verif Require LogTextSpec CalendarSpec.
Local Open Scope Z_scope.

(* a time that to_simple_string can print: a date of the years Boost knows and a time of the day *)
Definition proper (t : ptime) : Prop :=
  match t with At y m d us => 1400 <= y <= 9999 /\ 1 <= m <= 12 /\ 1 <= d <= 31 /\ 0 <= us < 86400 * 1000000 | _ => True end.
Definition short_month (m : Z) (s : str) : Prop :=
  In (m, s) [(1, $"Jan"); (2, $"Feb"); (3, $"Mar"); (4, $"Apr"); (5, $"May"); (6, $"Jun");
             (7, $"Jul"); (8, $"Aug"); (9, $"Sep"); (10, $"Oct"); (11, $"Nov"); (12, $"Dec")].
(* 2002-Jan-01 10:00:01.123456, without the fraction if it is zero *)
Inductive time_text : ptime -> str -> Prop :=
| text_not : time_text NotADate $"not-a-date-time"
| text_pos : time_text PosInf $"+infinity"
| text_neg : time_text NegInf $"-infinity"
| text_at y m d us hh mi ss ff ty tm td th ti ts tf :
    0 <= hh < 24 -> 0 <= mi < 60 -> 0 <= ss < 60 -> 0 <= ff < 1000000 -> us = ((hh * 60 + mi) * 60 + ss) * 1000000 + ff ->
    LogTextSpec.numeral y ty -> short_month m tm -> CalendarSpec.two d td -> CalendarSpec.two hh th -> CalendarSpec.two mi ti -> CalendarSpec.two ss ts ->
    (ff = 0 /\ tf = [] \/ ff <> 0 /\ exists f, tf = $"." ++ f /\ length f = 6%nat /\ forallb is_digit f = true /\ number f = ff) ->
    time_text (At y m d us) (ty ++ $"-" ++ tm ++ $"-" ++ td ++ $" " ++ th ++ $":" ++ ti ++ $":" ++ ts ++ tf).
(* the whole line *)
Definition line_text (n : Z) (t : ptime) (d : Z) (f x s : str) : Prop :=
  exists tn tt td, LogTextSpec.numeral n tn /\ time_text t tt /\ LogTextSpec.numeral d td /\
  s = $"[seq: " ++ tn ++ $", timestamp: " ++ tt ++ $", DSIN: " ++ td ++ $", Frame: " ++ f ++ $"; " ++ x ++ $"]".

(* how a stamped value comes to be, and the values its parts got there *)
Section Made.
  Context {D : Type}.
  Inductive making := Empty | OfData (d : D) | OfHeader (h : header) | OfBoth (d : D) (h : header).
  Definition made (initial : option D) (k : making) : stamped D :=
    match k with Empty => stamped_new initial | OfData d => stamped_data d | OfHeader h => stamped_header initial h | OfBoth d h => stamped_both d h end.
  (* the last of the writes that say something about a part *)
  Fixpoint last_said {A} (f : write D -> option A) (l : list (write D)) (start : A) : A :=
    match l with [] => start | w :: r => last_said f r (match f w with Some a => a | None => start end) end.
  Definition says_data (w : write D) : option (option D) := match w with WData d => Some (Some d) | _ => None end.
  Definition says_frame (w : write D) : option str := match w with WFrame f => Some f | WHeader h => Some (frame h) | _ => None end.
  Definition says_time (w : write D) : option ptime := match w with WTime t => Some t | WHeader h => Some (time h) | _ => None end.
  Definition says_seq (w : write D) : option Z := match w with WSeq n => Some (n mod 2 ^ 32) | WHeader h => Some (seq h) | _ => None end.
  Definition says_dsin (w : write D) : option (option Z) := match w with WDsin n => Some (Some (n mod 2 ^ 64)) | WHeader h => Some (dsin h) | _ => None end.
  Definition from_data (k : making) (i : option D) : option D := match k with OfData d | OfBoth d _ => Some d | _ => i end.
  Definition from_header (k : making) : header := match k with OfHeader h | OfBoth _ h => h | _ => mkH [] NotADate 0 None end.
End Made.
Arguments making : clear implicits.
