(* C51: the printed configuration *)
From Verif Require Import Conc Text SMap LogTextModel LogManagerModel LogManagerSpec LogPrintModel LogPrintSpec.
From Verif Require LogPrintProofs.

(* After any calls printConfiguration touches no deleted object and writes: the registered factories of outputs, each once, in ascending order; the
   default output if there is one; every output once, ascending, with its level; every stream once, ascending, with the names of exactly the outputs it
   is connected to - in whatever order the set of pointers has. *)
Theorem C51_print : forall config op cs m order, do_calls config op cs = Ok m -> (forall l o, In o (order l) <-> In o l) ->
  exists fs d os ss, printConfiguration order m = Ok (report fs (d ++ os) ss) /\
  ascending fs /\ (forall n, In n fs <-> In (CRegisterOutput n) cs) /\
  match dflt m with Some o => exists x, oh m o = Some x /\ d = [(o_name x, o_level x)] | None => d = [] end /\
  ascending (map fst os) /\ (forall k l, In (k, l) os <-> exists x, output_of m k = Some x /\ o_level x = l) /\
  ascending (map fst ss) /\ (forall n, In n (map fst ss) <-> has_stream m n) /\
  forall n ws, In (n, ws) ss -> forall w, In w ws <-> exists o x, connected m n o /\ oh m o = Some x /\ o_name x = w.
Proof. exact LogPrintProofs.printed_calls. Qed.
Print Assumptions C51_print.

Definition printed_after config op cs : result str := bind (do_calls config op cs) (printConfiguration (fun l => l)).
Definition sample : list (str * str) := [(key $"OutputStream1" $"OutputStreamName", $"File"); (key $"OutputStream1" $"Name", $"log"); (key $"OutputStream1" $"LogStream1", $"Net");
  (key $"OutputStream1" $"LogLevel", $"Debug")].
Definition sample_calls : list call := [CRegisterOutput $"Stdout"; CRegisterOutput $"File"; CRegisterStream $"Net"; CInitialize].
Example C51_print_nonvacuous :
  printed_after sample (mkOpts (Some $"Error") None) sample_calls = Ok (report [$"File"; $"Stdout"] [($"Default", Error); ($"log", Error)]
    [($"Default", [$"Default"]); ($"Net", [$"Default"; $"log"]); ($"Nirwana", [$"Default"]); ($"QuickDebug", [$"Default"])]).
Proof. vm_compute. reflexivity. Qed.
