(** Property C22 and the HMAC parts of C18, C19, C20, C45 and C46.
    Specifications: [Spec_Hmac] (RFC 2104) over [Spec_Sha] (FIPS 180-4), [Spec_Mac] (call histories, overloads).
    [mac_hmac (milo_hash a) dsz] is milo::primitive::mac::hmac over hash [a] with digest_size option [dsz]
    (default: the digest size of [a]). *)
From Verif Require Import Base BaseLemmas Spec_Bytes Spec_Sha Spec_Hmac Model_Memory Model_Container Model_Sha
  Model_Mac Model_Hmac Spec_Hash Spec_Mac Proof_Mac Proof_Hmac Prop_Sha.
Local Open Scope N_scope.

(** *** C22: every overload, every key length, every partition of the text. *)
Theorem C22_hmac : forall cx a dsz key ms,
  (dsz <= sha_digest_size a)%nat -> chunk key -> Forall chunk ms ->
  mreturns cx (mac_hmac (milo_hash a) dsz) key ms
    (firstn dsz (hmac (fips a) (sha_block_size a) key (concat ms))).
Proof. exact hmac_correct. Qed.
Print Assumptions C22_hmac.
Theorem C22_hmac_free : forall cx a dsz key msg,
  (dsz <= sha_digest_size a)%nat -> chunk key -> chunk msg ->
  mfree_returns cx (mac_hmac (milo_hash a) dsz) key msg
    (firstn dsz (hmac (fips a) (sha_block_size a) key msg)).
Proof. exact hmac_free_correct. Qed.
Print Assumptions C22_hmac_free.
Theorem C22_size : forall a key msg, bytes key -> bytes msg ->
  length (hmac (fips a) (sha_block_size a) key msg) = sha_digest_size a.
Proof. exact hmac_length. Qed.
Print Assumptions C22_size.
(** RFC 4231 test case 6: a key longer than the block. *)
Example C22_case : chunk (repeat 0xaa 131) /\ Forall chunk [[84; 101]; []; [115; 116]] /\
  be_dec (hmac (fips SHA256) (sha_block_size SHA256) (repeat 0xaa 131)
    [84; 101; 115; 116; 32; 85; 115; 105; 110; 103; 32; 76; 97; 114; 103; 101; 114; 32; 84; 104; 97; 110; 32; 66;
     108; 111; 99; 107; 45; 83; 105; 122; 101; 32; 75; 101; 121; 32; 45; 32; 72; 97; 115; 104; 32; 75; 101; 121;
     32; 70; 105; 114; 115; 116])
  = 0x60e431591ee0b67f0d8a26aacbf5b77f8e0bc6213728c5140546040f0ee37f54.
Proof.
  split; [|split].
  - split; [apply (Forall_forall is_byte); intros x Hx; apply repeat_spec in Hx; subst; unfold is_byte; lia|vm_compute; reflexivity].
  - unfold chunk, bytes, is_byte. repeat constructor; cbn; lia.
  - vm_compute. reflexivity.
Qed.

(** *** C18 (HMAC) *)
Theorem C18_hmac : forall cx a dsz key before calls,
  (dsz <= sha_digest_size a)%nat -> chunk key ->
  Forall (mcall_ok chunk dsz) before -> Forall mis_digest calls -> Forall (mcall_ok chunk dsz) calls ->
  let M := mac_hmac (milo_hash a) dsz in
  exists p p1 outs D p2, mapie_new cx M key = Some p /\ mac_run cx M p before = Some (p1, outs) /\
    length D = dsz /\ mac_run cx M p1 calls = Some (p2, map (mprefix D) calls).
Proof. exact (fun cx a dsz k b c H => mdigests_after (milo_hmac_ok cx a dsz H) k b c). Qed.
Print Assumptions C18_hmac.

(** *** C19 (HMAC): re-initialising with a key equals constructing with it. *)
Theorem C19_hmac : forall cx a dsz key before key' later,
  (dsz <= sha_digest_size a)%nat -> chunk key -> chunk key' ->
  Forall (mcall_ok chunk dsz) before -> Forall (mcall_ok chunk dsz) later ->
  let M := mac_hmac (milo_hash a) dsz in
  exists p p1 outs0 p2 p3 p4 p5 outs,
    mapie_new cx M key = Some p /\ mac_run cx M p before = Some (p1, outs0) /\
    mapie_initialize cx M p1 key' = Some p2 /\ mac_run cx M p2 later = Some (p3, outs) /\
    mapie_new cx M key' = Some p4 /\ mac_run cx M p4 later = Some (p5, outs).
Proof. exact (fun cx a dsz k b k' l H => mrun_init (milo_hmac_ok cx a dsz H) k b k' l). Qed.
Print Assumptions C19_hmac.

(** *** C20 (HMAC) *)
Theorem C20_hmac : forall cx a dsz key calls,
  (dsz <= sha_digest_size a)%nat -> chunk key -> Forall (mcall_ok chunk dsz) calls ->
  let M := mac_hmac (milo_hash a) dsz in
  exists p r, mapie_new cx M key = Some p /\ mac_run cx M p calls = Some r.
Proof.
  intros cx a dsz k c H Hk Hc M.
  destruct (mrun_total (milo_hmac_ok cx a dsz H) k c Hk Hc) as (p & r & E & R & _). exists p, r. exact (conj E R).
Qed.
Print Assumptions C20_hmac.
Example C18_C19_C20_hmac_case : (32 <= sha_digest_size SHA256)%nat /\ chunk (repeat 1 65) /\
  Forall (mcall_ok chunk 32)
    [MUpdate (repeat 5 130); MDigest (repeat 0 32) 99; MUpdate [1]; MInit [2]; MDigestC (Static [1; 2]) 7].
Proof. split; [cbn; lia|]. unfold mcall_ok, chunk, bytes, is_byte. repeat constructor; cbn; lia. Qed.

(** *** C46 (HMAC), under the rule of doc/reference_mac.md:167, 285 *)
Theorem C46_hmac : forall cx a dsz key calls,
  (dsz <= sha_digest_size a)%nat -> chunk key -> Forall (mcall_ok chunk dsz) calls -> morderly false calls = true ->
  let M := mac_hmac (milo_hash a) dsz in
  exists p p', mapie_new cx M key = Some p /\
    mac_run cx M p calls
    = Some (p', mexpected (fun k m => firstn dsz (hmac (fips a) (sha_block_size a) k m)) key [] calls).
Proof. exact (fun cx a dsz k c H => morderly_new (milo_hmac_ok cx a dsz H) k c). Qed.
Print Assumptions C46_hmac.
Example C46_hmac_case : Forall (mcall_ok chunk 20)
    [MUpdate [1]; MDigest (repeat 0 64) 64; MDigest [] 0; MInit [4]; MUpdate [3]; MDigestC (Dynamic []) 9] /\
  morderly false [MUpdate [1]; MDigest (repeat 0 64) 64; MDigest [] 0; MInit [4]; MUpdate [3]; MDigestC (Dynamic []) 9] = true.
Proof. split; [|reflexivity]. unfold mcall_ok, chunk, bytes, is_byte. repeat constructor; cbn; lia. Qed.

(** The rule is needed: an update after a digest is accepted and not included. *)
Theorem C46_hmac_needed : exists a key calls,
  let M := mac_hmac (milo_hash a) (sha_digest_size a) in
  chunk key /\ Forall (mcall_ok chunk (sha_digest_size a)) calls /\
  ~ exists p p', mapie_new host M key = Some p /\
      mac_run host M p calls
      = Some (p', mexpected (fun k m => hmac (fips a) (sha_block_size a) k m) key [] calls).
Proof.
  exists SHA1, [1], [MUpdate [1]; MDigestC (Dynamic []) 32; MUpdate [2]; MDigestC (Dynamic []) 32].
  cbv zeta. split; [|split].
  - unfold chunk, bytes, is_byte. repeat constructor; cbn; lia.
  - unfold mcall_ok, chunk, bytes, is_byte. repeat constructor; cbn; lia.
  - intros (p & p' & E & H).
    assert (F : option_map snd (p <- mapie_new host (mac_hmac (milo_hash SHA1) (sha_digest_size SHA1)) [1] ;;
       mac_run host (mac_hmac (milo_hash SHA1) (sha_digest_size SHA1)) p
         [MUpdate [1]; MDigestC (Dynamic []) 32; MUpdate [2]; MDigestC (Dynamic []) 32])
      = Some (mexpected (fun k m => hmac (fips SHA1) (sha_block_size SHA1) k m) [1] []
         [MUpdate [1]; MDigestC (Dynamic []) 32; MUpdate [2]; MDigestC (Dynamic []) 32]))
      by (rewrite E; cbn [bind]; rewrite H; reflexivity).
    vm_compute in F. discriminate F.
Qed.
Print Assumptions C46_hmac_needed.

(** *** C21 (HMAC): an HMAC digest_size option above the digest size of the hash is accepted; the vector
    then has the option's size, but its tail was never computed and the returned size says so. *)
Theorem C21_hmac_option_refuted : exists a dsz key msg,
  chunk key /\ chunk msg /\ (sha_digest_size a < dsz)%nat /\
  mac_free_digest_c host (mac_hmac (milo_hash a) dsz) key msg (Dynamic []) dsz
  = Some (Dynamic (hmac (fips a) (sha_block_size a) key msg ++ repeat 0 (dsz - sha_digest_size a)), sha_digest_size a).
Proof.
  exists SHA256, 40%nat, [1], [2]. unfold chunk, bytes, is_byte.
  split; [repeat constructor; cbn; lia|]. split; [repeat constructor; cbn; lia|]. split; [cbn; lia|].
  vm_compute. reflexivity.
Qed.
Print Assumptions C21_hmac_option_refuted.
