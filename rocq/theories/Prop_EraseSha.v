(** Property C42 for the portable SHA code: the local array [schedule] is not erased. *)
From Verif Require Import Base Spec_Bytes Spec_Sha Spec_Hash Spec_Hmac Model_Memory Model_Sha Model_Mac Model_Hmac Model_EraseSha
  Proof_ShaApi Proof_EraseSha.
Local Open Scope N_scope.

(** A call of the block function with at least one block, on any state: the first sixteen words of the array are the last
    block of the message, so its bytes can be read off. *)
Theorem C42_hash_block_left_refuted : forall a cx n st garbage src,
  length st = (match a with SHA1 => 5 | _ => 8 end)%nat -> Forall (fun x => x < 2 ^ bits (sha_word_size a)) st ->
  bytes src -> length src = (S n * sha_block_size a)%nat ->
  exists st' schedule, sha_blocks_f a cx (S n) st garbage src = Some (st', schedule) /\
    ha_blocks (milo_hash a) cx (S n) st src = Some st' /\
    flat_map (be_enc (sha_word_size a)) (firstn 16 schedule) = skipn (n * sha_block_size a) src.
Proof. exact sha_last_block_read. Qed.
Print Assumptions C42_hash_block_left_refuted.

(** HMAC: after [initialize] the array holds the (padded, or hashed and padded) key, XORed with the constant 0x36: a key of
    at most a block can be read off, whatever it is. *)
Theorem C42_hmac_key_left_refuted : forall cx a garbage key, chunk key ->
  exists o schedule, hmac_initialize_f cx a (hmac_new (milo_hash a)) garbage key = Some (o, schedule) /\
    hmac_initialize cx (milo_hash a) (hmac_new (milo_hash a)) key = Some o /\
    let read := map (N.lxor 0x36) (flat_map (be_enc (sha_word_size a)) (firstn 16 schedule)) in
    read = hmac_key (fips a) (sha_block_size a) key /\
    ((length key <= sha_block_size a)%nat -> firstn (length key) read = key).
Proof.
  intros cx a g key Hk. destruct (hmac_key_read cx a g key Hk) as (o & fr & E1 & E2 & E3).
  exists o, fr. split; [exact E1|]. split; [exact E2|]. cbv zeta. rewrite E3. split; [reflexivity|apply hmac_key_short].
Qed.
Print Assumptions C42_hmac_key_left_refuted.

(** The frame versions are the modelled functions. *)
Theorem C42_sha_frames :
  (forall a cx n st garbage src, ha_blocks (milo_hash a) cx n st src = ('(st, _) <- sha_blocks_f a cx n st garbage src ;; Some st)) /\
  (forall cx a o garbage msg, hash_update cx (milo_hash a) o msg = ('(o, _) <- hash_update_f cx a o garbage msg ;; Some o)) /\
  (forall cx a o garbage key, hmac_initialize cx (milo_hash a) o key = ('(o, _) <- hmac_initialize_f cx a o garbage key ;; Some o)).
Proof. split; [exact sha_blocks_proj|]. split; [exact hash_update_proj|exact hmac_initialize_proj]. Qed.
Print Assumptions C42_sha_frames.

(** A key of five bytes, read from the schedule that HMAC with SHA-256 leaves. *)
Example C42_sha_case : exists o schedule,
  hmac_initialize_f {| cx_big := false; cx_ce := false |} SHA256 (hmac_new (milo_hash SHA256)) [] [104; 101; 108; 108; 111] = Some (o, schedule) /\
  length schedule = 64%nat /\ firstn 2 schedule = [0x5e535a5a; 0x59363636].
Proof.
  remember (hmac_initialize_f {| cx_big := false; cx_ce := false |} SHA256 (hmac_new (milo_hash SHA256)) [] [104; 101; 108; 108; 111]) as r eqn:E.
  vm_compute in E. subst r. eexists. eexists. split; [reflexivity|]. split; reflexivity.
Qed.
