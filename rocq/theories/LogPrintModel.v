(* Model of LoggingManager::printConfiguration (LoggingManager.cpp:377-406), LogOutputStream::printConfiguration
   (LogOutputStream.cpp:303-306) and LogStream::printConfiguration (LogStream.cpp:156-163): the text written to std::cerr.
   The outputs of a stream are a set ordered by address: [order] is any ordering. *)
From Verif Require Import Conc Text SMap LogTextModel LogManagerModel.

Definition endl : str := [ascii_of_nat 10].
(* LogOutputStream.cpp:303-306 *)
Definition print_output (m : mgr) (o : addr) : result str :=
  bind (output m o) (fun x => Ok ($"    " ++ o_name x ++ $" : " ++ logLevelDescription (o_level x) ++ endl)).
(* LogStream.cpp:156-163 *)
Definition print_stream (order : list addr -> list addr) (m : mgr) (a : addr) : result str :=
  bind (stream m a) (fun s => foldM (fun t o => bind (output m o) (fun x => Ok (t ++ o_name x ++ $" "))) (order (s_outs s)) []).
(* LoggingManager.cpp:382-386; the factories are a map: LogManagerModel keeps the registrations *)
Definition factory_map (m : mgr) : list (str * unit) := fold_right (fun n f => map_put f n tt) [] (ofac m).
(* LoggingManager.cpp:377-406 *)
Definition printConfiguration (order : list addr -> list addr) (m : mgr) : result str :=
  let t := $"LoggingManager configuration:" ++ endl ++ $"  Log output stream factories:" ++ endl in
  let t := fold_left (fun t e => t ++ $"    " ++ fst e ++ endl) (factory_map m) t in
  let t := t ++ $"  Log output streams:" ++ endl in
  bind (match dflt m with Some o => bind (print_output m o) (fun u => Ok (t ++ u)) | None => Ok t end) (fun t =>
  bind (foldM (fun t e => bind (print_output m (snd e)) (fun u => Ok (t ++ u))) (omap m) t) (fun t =>
  let t := t ++ $"  Log streams:" ++ endl in
  foldM (fun t e => let t := t ++ $"    " ++ fst e ++ $" -> " in
                    bind (print_stream order m (snd e)) (fun u => Ok (t ++ u ++ endl))) (smap m) t)).
