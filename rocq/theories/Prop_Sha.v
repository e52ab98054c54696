(** Properties C14-C18, C21, C46 and the hash parts of C19 and C20.
    Specifications: [Spec_Sha] (FIPS 180-4) and [Spec_Hash] (call histories, overloads).
    [cx] is the host byte order and whether the call is evaluated at compile time; [milo_hash a] is the
    public hash class of algorithm [a]; [hash_stream] constructs an object and updates it chunk by chunk. *)
From Verif Require Import Base BaseLemmas Spec_Bytes Spec_Sha Model_Memory Model_Container Model_Sha Spec_Hash
  Proof_Sha Proof_ShaHist Proof_ShaApi.
Local Open Scope N_scope.

(** A concrete context, for the examples. *)
Definition host : ctx := {| cx_big := false; cx_ce := false |}.
(** "abc" in three chunks. *)
Definition abc : list (list N) := [[97]; []; [98; 99]].
Lemma abc_chunks : Forall chunk abc.
Proof. unfold abc, chunk, bytes, is_byte. repeat constructor; lia. Qed.

(** *** C14: feeding chunks gives what feeding the concatenation gives. *)
Theorem C14_split_independent : forall cx a ms dst size,
  Forall chunk ms -> chunk (concat ms) -> bytes dst -> (size <= length dst)%nat ->
  exists p q p' q' r, hash_stream cx (milo_hash a) ms = Some p /\
    hash_stream cx (milo_hash a) [concat ms] = Some q /\
    hapie_digest cx (milo_hash a) p dst size = Some (p', fst r, snd r) /\
    hapie_digest cx (milo_hash a) q dst size = Some (q', fst r, snd r).
Proof. exact split_independent. Qed.
Print Assumptions C14_split_independent.
Example C14_case : Forall chunk abc /\ chunk (concat abc) /\ bytes (repeat 0 20) /\ (20 <= length (repeat 0%N 20))%nat.
Proof. split; [apply abc_chunks|]. unfold chunk, bytes, is_byte. cbn. repeat constructor; lia. Qed.

(** *** C15-C17.  [be_enc] writes the bit length modulo 2^64 (2^128), so the equations need no bound on
    the message; FIPS 180-4 itself covers messages below [sha_limit a] bytes.  Every chunk is below 2^64
    bytes (size_t); their total is unbounded. *)
Theorem C15_sha1 : forall cx ms, Forall chunk ms ->
  returns cx (milo_hash SHA1) ms (fips SHA1 (concat ms)).
Proof. exact (fun cx => sha_correct cx SHA1). Qed.
Print Assumptions C15_sha1.
Theorem C15_sha1_free : forall cx msg, chunk msg -> free_returns cx (milo_hash SHA1) msg (fips SHA1 msg).
Proof. exact (fun cx => sha_free_correct cx SHA1). Qed.
Print Assumptions C15_sha1_free.
Example C15_case : Forall chunk abc /\
  (p <- hash_stream host (milo_hash SHA1) abc ;;
   '(_, d, n) <- hapie_digest host (milo_hash SHA1) p (repeat 7 22) 64 ;; Some (be_dec (firstn 20 d), skipn 20 d, n))
  = Some (0xa9993e364706816aba3e25717850c26c9cd0d89d, [7; 7], 20%nat).
Proof. split; [apply abc_chunks|vm_compute; reflexivity]. Qed.

Theorem C16_sha2_256 : forall cx a ms, a = SHA224 \/ a = SHA256 -> Forall chunk ms ->
  returns cx (milo_hash a) ms (fips a (concat ms)).
Proof. exact (fun cx a ms _ => sha_correct cx a ms). Qed.
Print Assumptions C16_sha2_256.
Theorem C16_sha2_256_free : forall cx a msg, a = SHA224 \/ a = SHA256 -> chunk msg ->
  free_returns cx (milo_hash a) msg (fips a msg).
Proof. exact (fun cx a m _ => sha_free_correct cx a m). Qed.
Print Assumptions C16_sha2_256_free.
Example C16_case : Forall chunk abc /\
  (p <- hash_stream host (milo_hash SHA224) abc ;;
   '(_, d) <- hapie_digest_new host (milo_hash SHA224) p 100 ;; Some (be_dec d, length d))
  = Some (0x23097d223405d8228642a477bda255b32aadbce4bda0b3f7e36c9da7, 28%nat).
Proof. split; [apply abc_chunks|vm_compute; reflexivity]. Qed.

Theorem C17_sha2_512 : forall cx a ms,
  a = SHA384 \/ a = SHA512 \/ a = SHA512_224 \/ a = SHA512_256 -> Forall chunk ms ->
  returns cx (milo_hash a) ms (fips a (concat ms)).
Proof. exact (fun cx a ms _ => sha_correct cx a ms). Qed.
Print Assumptions C17_sha2_512.
Theorem C17_sha2_512_free : forall cx a msg,
  a = SHA384 \/ a = SHA512 \/ a = SHA512_224 \/ a = SHA512_256 -> chunk msg ->
  free_returns cx (milo_hash a) msg (fips a msg).
Proof. exact (fun cx a m _ => sha_free_correct cx a m). Qed.
Print Assumptions C17_sha2_512_free.
Example C17_case : Forall chunk abc /\
  (p <- hash_stream host (milo_hash SHA512_256) abc ;;
   '(_, d) <- hapie_digest_new host (milo_hash SHA512_256) p 100 ;; Some (be_dec d, length d))
  = Some (0x53048e2681941ef99b2e29b76b4c7dabe4c2d0c634fc6d46e0e2f13107e7af23, 32%nat).
Proof. split; [apply abc_chunks|vm_compute; reflexivity]. Qed.
(** The digest has the size FIPS 180-4 names. *)
Theorem C17_sizes : forall a msg, bytes msg -> length (fips a msg) = sha_digest_size a.
Proof. exact fips_length. Qed.
Print Assumptions C17_sizes.

(** *** C18: after any history, all digest calls answer with prefixes of one value [D]. *)
Theorem C18_repeatable : forall cx a before calls,
  Forall (hcall_ok (milo_hash a)) before -> Forall is_digest calls -> Forall (hcall_ok (milo_hash a)) calls ->
  exists p outs D p', hash_run cx (milo_hash a) (hapie_new (milo_hash a)) before = Some (p, outs) /\
    length D = sha_digest_size a /\
    hash_run cx (milo_hash a) p calls = Some (p', map (hprefix D) calls).
Proof. exact milo_digests_after. Qed.
Print Assumptions C18_repeatable.
Example C18_case :
  Forall (hcall_ok (milo_hash SHA256)) [HUpdate [1; 2]; HInit; HUpdate [97; 98; 99]] /\
  Forall is_digest [HDigest [9; 9; 9] 2; HDigestC (Dynamic []) 3] /\
  hash_run host (milo_hash SHA256) (hapie_new (milo_hash SHA256))
    ([HUpdate [1; 2]; HInit; HUpdate [97; 98; 99]] ++ [HDigest [9; 9; 9] 2; HDigestC (Dynamic []) 3])
  <> None.
Proof.
  split; [|split].
  - unfold hcall_ok, chunk, bytes, is_byte. repeat constructor; cbn; lia.
  - repeat constructor.
  - vm_compute. discriminate.
Qed.

(** *** C19 (hash): [initialize] makes the past unobservable. *)
Theorem C19_hash : forall cx a before later,
  Forall (hcall_ok (milo_hash a)) before -> Forall (hcall_ok (milo_hash a)) later ->
  exists p outs0 p' p'' outs,
    hash_run cx (milo_hash a) (hapie_new (milo_hash a)) before = Some (p, outs0) /\
    hash_run cx (milo_hash a) (hapie_initialize (milo_hash a) p) later = Some (p', outs) /\
    hash_run cx (milo_hash a) (hapie_new (milo_hash a)) later = Some (p'', outs).
Proof. exact milo_run_init. Qed.
Print Assumptions C19_hash.

(** *** C20 (hash): no history reads or writes out of bounds. *)
Theorem C20_hash : forall cx a calls, Forall (hcall_ok (milo_hash a)) calls ->
  exists r, hash_run cx (milo_hash a) (hapie_new (milo_hash a)) calls = Some r.
Proof. exact milo_run_total. Qed.
Print Assumptions C20_hash.
Example C19_C20_case :
  Forall (hcall_ok (milo_hash SHA1))
    [HUpdate (repeat 5 130); HDigest (repeat 0 20) 99; HUpdate [1]; HInit; HDigestC (Static [1; 2]) 7].
Proof. unfold hcall_ok, chunk, bytes, is_byte. repeat constructor; cbn; lia. Qed.

(** *** C21: a [digest_size] option up to the size of the state works ... *)
Theorem C21_option_partial : forall cx a dsz ms,
  (dsz <= length (fips_full a []))%nat -> Forall chunk ms ->
  returns cx (milo_hash_opt a dsz) ms (firstn dsz (fips_full a (concat ms))).
Proof. exact digest_size_option. Qed.
Print Assumptions C21_option_partial.
Example C21_case : (16 <= length (fips_full SHA1 []))%nat /\ Forall chunk abc.
Proof. split; [vm_compute; lia|apply abc_chunks]. Qed.
(** ... and any larger one makes [digest] read past the state, although nothing rejects it. *)
Theorem C21_option_refuted : forall cx a dsz ms dst size,
  (length (fips_full a []) < dsz)%nat -> Forall chunk ms -> (dsz <= size)%nat ->
  exists p, hash_stream cx (milo_hash_opt a dsz) ms = Some p /\
    hapie_digest cx (milo_hash_opt a dsz) p dst size = None.
Proof. exact digest_size_overread. Qed.
Print Assumptions C21_option_refuted.
Example C21_refuted_case : (length (fips_full SHA1 []) < 24)%nat.
Proof. vm_compute. lia. Qed.

(** *** C46: for every history that follows the documented rule (doc/reference_hash.md:159: an object "must be re-initialized before
    reuse", so no [update] between a [digest] and the next [initialize]), every digest is the hash of the bytes fed since the last
    [initialize] ... *)
Theorem C46_hash : forall cx a calls,
  Forall (hcall_ok (milo_hash a)) calls -> orderly false calls = true ->
  exists p, hash_run cx (milo_hash a) (hapie_new (milo_hash a)) calls = Some (p, expected (fips a) [] calls).
Proof. exact milo_orderly. Qed.
Print Assumptions C46_hash.
Example C46_case : Forall (hcall_ok (milo_hash SHA512))
    [HUpdate [1]; HUpdate [2]; HDigest (repeat 0 64) 64; HDigest [] 0; HInit; HUpdate [3]; HDigestC (Dynamic []) 9] /\
  orderly false [HUpdate [1]; HUpdate [2]; HDigest (repeat 0 64) 64; HDigest [] 0; HInit; HUpdate [3]; HDigestC (Dynamic []) 9] = true.
Proof. split; [|reflexivity]. unfold hcall_ok, chunk, bytes, is_byte. repeat constructor; cbn; lia. Qed.

(** ... and the rule is needed: an update after a digest is accepted and silently not included. *)
Theorem C46_hash_needed : exists a calls,
  Forall (hcall_ok (milo_hash a)) calls /\
  ~ exists p, hash_run host (milo_hash a) (hapie_new (milo_hash a)) calls = Some (p, expected (fips a) [] calls).
Proof.
  exists SHA256, [HUpdate [1]; HDigestC (Dynamic []) 32; HUpdate [2]; HDigestC (Dynamic []) 32].
  split.
  - unfold hcall_ok, chunk, bytes, is_byte. repeat constructor; cbn; lia.
  - intros [p H].
    assert (E : option_map snd (hash_run host (milo_hash SHA256) (hapie_new (milo_hash SHA256))
      [HUpdate [1]; HDigestC (Dynamic []) 32; HUpdate [2]; HDigestC (Dynamic []) 32])
      = Some (expected (fips SHA256) [] [HUpdate [1]; HDigestC (Dynamic []) 32; HUpdate [2]; HDigestC (Dynamic []) 32]))
      by (rewrite H; reflexivity).
    vm_compute in E. discriminate E.
Qed.
Print Assumptions C46_hash_needed.
