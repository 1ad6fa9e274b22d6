(* Stamped<DataType>, DataHeader: icl_core/DataHeader.h:61-97, 136-155, 162-278; icl_core/DataHeader.cpp:27-33.

   The time stamp is a boost::posix_time::ptime with microseconds (the default configuration of Boost), printed by
   to_simple_string (boost/date_time/posix_time/time_formatters.hpp, gregorian/formatters.hpp): not code of this
   library, modelled here from its documentation.  Streams are in their default state (decimal, no width).
   DataType is a parameter: what its default constructor leaves (None: nothing, as for arithmetic types), its size, and what its operator<<
   writes (None: it has none).  A variable that was never written is None; reading it is undefined (simplification: copying a header whose item number was never written copies that, and is not counted as reading).  Shared pointers are not modelled. *)
From Verif Require Import Base Text CInt LogTextModel.
Local Open Scope Z_scope.

(* special values, or a date and the microseconds since midnight *)
Inductive ptime := NotADate | PosInf | NegInf | At (y m d us : Z).

(* DataHeader.h:61-97 *)
Record header := mkH { frame : str; time : ptime; seq : Z; dsin : option Z }.
(* DataHeader.h:66-70; ptime() is not_a_date_time *)
Definition new_header : header := mkH [] NotADate 0 None.
(* DataHeader.h:73-79 *)
Definition new_header_of (f : str) (t : ptime) (n : Z) : header := mkH f t (to_u32 n) None.

(* to_simple_string(ptime): as_short_string of the months *)
Definition month_name (m : Z) : str :=
  nth (Z.to_nat (m - 1)) [$"Jan"; $"Feb"; $"Mar"; $"Apr"; $"May"; $"Jun"; $"Jul"; $"Aug"; $"Sep"; $"Oct"; $"Nov"; $"Dec"] [].
Definition to_simple_string (t : ptime) : str :=
  match t with
  | NotADate => $"not-a-date-time"
  | PosInf => $"+infinity"
  | NegInf => $"-infinity"
  | At y m d us =>
    dec y ++ $"-" ++ month_name m ++ $"-" ++ digits 2 d ++ $" " ++
    digits 2 (us / 3600000000) ++ $":" ++ digits 2 (us / 60000000 mod 60) ++ $":" ++ digits 2 (us / 1000000 mod 60) ++
    (if us mod 1000000 =? 0 then [] else $"." ++ digits 6 (us mod 1000000))
  end.

Section Stamped.
  Context {D : Type} (initial : option D) (size : Z) (shift : option (D -> str)).

  (* DataHeader.h:162-172 *)
  Record stamped := mkS { data : option D; head : header }.
  (* DataHeader.h:188-207 *)
  Definition stamped_new : stamped := mkS initial new_header.
  Definition stamped_data (d : D) : stamped := mkS (Some d) new_header.
  Definition stamped_header (h : header) : stamped := mkS initial h.
  Definition stamped_both (d : D) (h : header) : stamped := mkS (Some d) h.

  (* what can be written through get(), operator*, operator-> (DataHeader.h:220-239) and header() (213) *)
  Inductive write :=
  | WData (d : D)
  | WHeader (h : header)
  | WFrame (f : str)
  | WTime (t : ptime)
  | WSeq (n : Z)                         (* a uint32_t *)
  | WDsin (n : Z).                       (* a size_t of 64 bits *)
  Definition set_head (s : stamped) (h : header) : stamped := mkS (data s) h.
  Definition written (s : stamped) (w : write) : stamped :=
    let h := head s in
    match w with
    | WData d => mkS (Some d) h
    | WHeader h' => set_head s h'
    | WFrame f => set_head s (mkH f (time h) (seq h) (dsin h))
    | WTime t => set_head s (mkH (frame h) t (seq h) (dsin h))
    | WSeq n => set_head s (mkH (frame h) (time h) (to_u32 n) (dsin h))
    | WDsin n => set_head s (mkH (frame h) (time h) (seq h) (Some (to_u64 n)))
    end.
  (* DataHeader.h:210, 224, 229, 234: the value read *)
  Definition cget (s : stamped) : result D := match data s with Some d => Ok d | None => UB end.

  (* DataHeader.h:136-155 *)
  Definition to_stream (d : option D) : result str :=
    match shift with
    | Some f => match d with Some x => Ok (f x) | None => UB end
    | None => Ok (dec size ++ $" data bytes")
    end.
  (* DataHeader.h:262-277; operator<< (DataHeader.cpp:29-33) calls it *)
  Definition print (s : stamped) : result str :=
    let h := head s in
    match dsin h with
    | None => UB
    | Some n =>
      bind (to_stream (data s)) (fun x =>
        Ok ($"[seq: " ++ dec (seq h) ++ $", timestamp: " ++ to_simple_string (time h) ++ $", DSIN: " ++ dec n ++
            $", Frame: " ++ frame h ++ $"; " ++ x ++ $"]"))
    end.
End Stamped.
Arguments stamped : clear implicits.
Arguments write : clear implicits.
