(* C18, C19: SHA-2. *)
From Verif Require Import Text Sha2Model Sha2Spec Sha2Proofs.
Local Open Scope Z_scope.

(* C18: whatever the object's memory held before, one process call with the message and finalize()
   give the hex digest of FIPS 180-3. *)
Theorem C18_sha224_conforms : forall f, is_sha224 f -> forall mem m,
  raw_memory Sha224 mem -> byte_list m -> Z.of_nat (length m) < 2 ^ 61 ->
  exists o, do_calls Sha224 (construct Sha224 mem) [Pmem m; Finalize] = Ok o /\
            getHexDigest Sha224 o = hex (digest f m).
Proof. intros f Hf mem m. exact (conforms_one Sha224 f mem m (conf224 f Hf)). Qed.
Print Assumptions C18_sha224_conforms.

Theorem C18_sha256_conforms : forall f, is_sha256 f -> forall mem m,
  raw_memory Sha256 mem -> byte_list m -> Z.of_nat (length m) < 2 ^ 61 ->
  exists o, do_calls Sha256 (construct Sha256 mem) [Pmem m; Finalize] = Ok o /\
            getHexDigest Sha256 o = hex (digest f m).
Proof. intros f Hf mem m. exact (conforms_one Sha256 f mem m (conf256 f Hf)). Qed.
Print Assumptions C18_sha256_conforms.

Theorem C18_sha384_conforms : forall f, is_sha384 f -> forall mem m,
  raw_memory Sha384 mem -> byte_list m -> Z.of_nat (length m) < 2 ^ 61 ->
  exists o, do_calls Sha384 (construct Sha384 mem) [Pmem m; Finalize] = Ok o /\
            getHexDigest Sha384 o = hex (digest f m).
Proof. intros f Hf mem m. exact (conforms_one Sha384 f mem m (conf384 f Hf)). Qed.
Print Assumptions C18_sha384_conforms.

Theorem C18_sha512_conforms : forall f, is_sha512 f -> forall mem m,
  raw_memory Sha512 mem -> byte_list m -> Z.of_nat (length m) < 2 ^ 61 ->
  exists o, do_calls Sha512 (construct Sha512 mem) [Pmem m; Finalize] = Ok o /\
            getHexDigest Sha512 o = hex (digest f m).
Proof. intros f Hf mem m. exact (conforms_one Sha512 f mem m (conf512 f Hf)). Qed.
Print Assumptions C18_sha512_conforms.

(* the specification's primes are the primes *)
Theorem C18_primes : forall n, is_prime n = true <->
  (1 < n)%nat /\ forall d, (1 < d < n)%nat -> ~ (exists c, n = d * c)%nat.
Proof. exact primes_spec. Qed.
Print Assumptions C18_primes.

(* C19: chunking, mixing of overloads, reuse after clear() *)
Theorem C19_chunking : forall g mem1 mem2 pre ps m,
  four g -> raw_memory g mem1 -> raw_memory g mem2 ->
  Forall legal pre -> ends_clean pre -> Forall legal ps -> forallb is_process ps = true ->
  m = concat (map call_bytes ps) -> Z.of_nat (length m) < 2 ^ 61 ->
  exists o1 o2,
    do_calls g (construct g mem1) (pre ++ ps ++ [Finalize]) = Ok o1 /\
    do_calls g (construct g mem2) [Pmem m; Finalize] = Ok o2 /\
    getHexDigest g o1 = getHexDigest g o2.
Proof. exact chunking. Qed.
Print Assumptions C19_chunking.

(* no history of legal calls writes outside the buffer or loops *)
Theorem C19_no_undefined_behaviour : forall g mem cs, four g -> raw_memory g mem -> Forall legal cs ->
  exists o, do_calls g (construct g mem) cs = Ok o.
Proof. exact always_ok. Qed.
Print Assumptions C19_no_undefined_behaviour.

(* ---- the hypotheses are met ----------------------------------------------------------------------- *)
Definition bytes_of (s : string) : list Z := map (fun c => Z.of_nat (nat_of_ascii c)) $s.

Example C18_nonvacuous :
  (exists f, is_sha224 f) /\ (exists f, is_sha256 f) /\ (exists f, is_sha384 f) /\ (exists f, is_sha512 f) /\
  raw_memory Sha256 (mkObj [] 0 (repeat 7 64) 0) /\ byte_list (bytes_of "abc") /\
  length (first_primes 80) = 80%nat /\ firstn 8 (first_primes 80) = [2; 3; 5; 7; 11; 13; 17; 19]%nat.
Proof.
  split; [exists f224; exact f224_ok|]. split; [exists f256; exact f256_ok|].
  split; [exists f384; exact f384_ok|]. split; [exists f512; exact f512_ok|].
  split; [split; [reflexivity|repeat constructor; lia]|]. split; [repeat constructor; vm_compute; try discriminate; reflexivity|].
  split; vm_compute; reflexivity.
Qed.

Example C18_abc : hex (digest f256 (bytes_of "abc")) =
  $"ba7816bf8f01cfea414140de5dae2223b00361a396177a9cb410ff61f20015ad".
Proof. vm_compute. reflexivity. Qed.

Example C19_nonvacuous :
  let ps := [Pcstr (bytes_of "ab" ++ [0; 9]); Pmem []; Pmem (bytes_of "c")] in
  Forall legal ps /\ forallb is_process ps = true /\ concat (map call_bytes ps) = bytes_of "abc" /\
  ends_clean [Pmem (bytes_of "junk"); Finalize; Clear].
Proof.
  cbv zeta. split; [|split; [reflexivity|split; [reflexivity|]]].
  - assert (B : forall l, forallb (fun b => (0 <=? b) && (b <? 256)) l = true -> byte_list l).
    { intros l H. apply Forall_forall. intros x Hx. rewrite forallb_forall in H. specialize (H x Hx). lia. }
    constructor; [split; [apply B; reflexivity|cbn; auto 10]|].
    constructor; [apply B; reflexivity|]. constructor; [apply B; reflexivity|constructor].
  - right. exists [Pmem (bytes_of "junk"); Finalize]. reflexivity.
Qed.
