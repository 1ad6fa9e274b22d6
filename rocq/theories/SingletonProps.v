(* C31 *)
From Verif Require Import Conc SingletonModel SingletonSpec SingletonProofs.

(* C31: for every lifetime policy, every number of threads and every schedule of the locked variant
   whose destruction at exit happens while no thread is inside instance(): two live objects are the same *)
Theorem C31_at_most_one_live :
  forall c s x y, locking c = true -> reach init (step c Quiescent) s -> live s x -> live s y -> x = y.
Proof. exact (fun c s x y HL => one_live c HL s x y). Qed.
Print Assumptions C31_at_most_one_live.

(* the object returned by a call is alive, and is the stored instance, at the moment of the return *)
Theorem C31_returned_object_is_the_live_instance :
  forall c s s' t x, locking c = true -> reach init (step c Quiescent) s ->
  tstep c t s = Some s' -> pcs s' t = Done (ROk x) -> live s' x /\ m_instance s' = Some x.
Proof. exact (fun c s s' t x HL => returns_live c HL s s' t x). Qed.
Print Assumptions C31_returned_object_is_the_live_instance.

(* no call dereferences a null pointer *)
Theorem C31_never_null :
  forall c s t, locking c = true -> reach init (step c Quiescent) s -> pcs s t <> Done RNull.
Proof. exact (fun c s t HL => no_null c HL s t). Qed.
Print Assumptions C31_never_null.

(* while a call is in progress some thread can move *)
Theorem C31_no_deadlock :
  forall c s t, locking c = true -> reach init (step c Quiescent) s -> ~ resting (pcs s t) ->
  exists u s', tstep c u s = Some s'.
Proof. exact (fun c s t HL => progress c HL s t). Qed.
Print Assumptions C31_no_deadlock.

(* with the default lifetime policy the constructor runs at most once in the life of the process *)
Theorem C31_default_created_once :
  forall c s, locking c = true -> phoenix c = false -> reach init (step c Quiescent) s -> created s <= 1.
Proof. exact (fun c s HL => default_once c HL s). Qed.
Print Assumptions C31_default_created_once.

(* with the default lifetime policy a call that starts after the destruction throws; "after the destruction" is the
   flag that the call finds, and the flag is set as soon as an object has been destroyed *)
Theorem C31_destruction_is_remembered :
  forall c s x, locking c = true -> phoenix c = false -> reach init (step c Quiescent) s -> In x (dead s) ->
  m_destroyed s = true.
Proof. exact (fun c s x HL => died_destroyed c HL s x). Qed.
Print Assumptions C31_destruction_is_remembered.
Theorem C31_throws_after_destruction :
  forall c s t r, locking c = true -> phoenix c = false -> reach init (step c Quiescent) s ->
  late s t = true -> pcs s t = Done r -> r = RThrow.
Proof. exact (fun c s t r HL => late_throws c HL s t r). Qed.
Print Assumptions C31_throws_after_destruction.

(* destroySingleton(), statement by statement: the object is deleted, the pointer cleared and the flag set *)
Theorem C31_destroySingleton :
  forall c s t, pcs s t = L66 -> exists s1 s2 s3,
  tstep c t s = Some s1 /\ tstep c t s1 = Some s2 /\ tstep c t s2 = Some s3 /\
  pcs s3 t = Idle /\ (forall u, u <> t -> pcs s3 u = pcs s u) /\
  m_instance s3 = None /\ m_destroyed s3 = true /\ created s3 = created s /\ m_lock s3 = m_lock s /\
  dead s3 = match m_instance s with Some x => x :: dead s | None => dead s end.
Proof. exact destroy_steps. Qed.
Print Assumptions C31_destroySingleton.

(* destruction while another thread is between the check and the return: the call returns *NULL *)
Theorem C31_concurrent_destroy_refuted :
  ~ (forall s t, reach init (step default_mt Anytime) s -> pcs s t <> Done RNull).
Proof. exact (fun H => match destroy_race with ex_intro _ s (conj R E) => H s 1 R E end). Qed.
Print Assumptions C31_concurrent_destroy_refuted.

(* the single-threaded threading model used by two threads creates two live objects *)
Theorem C31_without_lock_refuted :
  ~ (forall s x y, reach init (step (mkConfig false false true) Quiescent) s -> live s x -> live s y -> x = y).
Proof. exact (fun H => match unlocked_two with ex_intro _ s (conj R (conj L0 L1)) => O_S 0 (H s 0 1 R L0 L1) end). Qed.
Print Assumptions C31_without_lock_refuted.

Example C31_nonvacuous :
  (exists s, reach init (step default_mt Quiescent) s /\
     pcs s 0 = Done (ROk 0) /\ pcs s 1 = Done (ROk 0) /\ live s 0 /\ atexits s = 1) /\
  (exists s, reach init (step default_mt Quiescent) s /\ late s 1 = true /\ pcs s 1 = Done RThrow).
Proof. exact (conj example_run example_late). Qed.
