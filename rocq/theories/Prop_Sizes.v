(** C45: every call of every history leaves the object it fills with the documented size, and nothing else of it changed.
    Specification: [Spec_Sizes].  For a text, a fixed-size container must have room (doc/reference.md:137-139; [ccall_ok] and
    [acall_ok] say so); that this is needed is shown by [C45_codec_room_needed], [C45_cipher_room_needed] and [C45_aead_room_needed] in
    Prop_Codec, Prop_Cipher and Prop_Aead. *)
From Verif Require Import Base BaseLemmas BytesLemmas Spec_Bytes Spec_ChaCha Spec_Sha Spec_Hmac Spec_Hash Spec_Mac Spec_Cipher Spec_Aead Spec_Kdf Spec_Sizes Spec_Codec
  Model_Memory Model_Container Model_Codec Model_Sha Model_Mac Model_Hmac Model_Poly Model_Cipher Model_Aead Model_Kdf
  Proof_Mac Proof_Hmac Proof_Poly Proof_ChaCha Proof_Kdf Proof_Kdf2 Proof_Kdf3 Proof_Sizes Prop_Sha Prop_Cipher Prop_Kdf.
Local Open Scope N_scope.

(** Hashes: any calls in any order; requests above the digest size get a whole digest. *)
Theorem C45_hash : forall cx a calls, Forall (hcall_ok (milo_hash a)) calls ->
  exists p outs, hash_run cx (milo_hash a) (hapie_new (milo_hash a)) calls = Some (p, outs) /\
    Forall2 (hsized (sha_digest_size a)) calls outs.
Proof. exact hash_sized. Qed.
Print Assumptions C45_hash.

Theorem C45_hmac : forall cx a dsz key calls, (dsz <= sha_digest_size a)%nat -> chunk key -> Forall (mcall_ok chunk dsz) calls ->
  exists p p' outs, mapie_new cx (mac_hmac (milo_hash a) dsz) key = Some p /\
    mac_run cx (mac_hmac (milo_hash a) dsz) p calls = Some (p', outs) /\ Forall2 (msized dsz) calls outs.
Proof. exact (fun cx a dsz key calls H => mac_sized (milo_hmac_ok cx a dsz H) key calls). Qed.
Print Assumptions C45_hmac.

Theorem C45_poly1305 : forall cx dsz key calls, (dsz <= 16)%nat -> bytes key -> Forall (mcall_ok bytes dsz) calls ->
  exists p p' outs, mapie_new cx (mac_poly dsz) key = Some p /\
    mac_run cx (mac_poly dsz) p calls = Some (p', outs) /\ Forall2 (msized dsz) calls outs.
Proof. exact (fun cx dsz key calls Hd => mac_sized (poly_host true cx dsz Hd) key calls). Qed.
Print Assumptions C45_poly1305.

(** ChaCha20: a container given for the output has at least the size of the text if it cannot be resized. *)
Theorem C45_cipher_room : forall cx B key iv calls, backend_ok cx B -> bytes key -> bytes iv -> Forall ccall_ok calls ->
  exists o o' outs, capie_new cx key iv = Some o /\ cipher_run B cx o calls = Some (o', outs) /\ Forall2 csized calls outs.
Proof.
  intros cx B key iv calls BO Hk Hv Hc. destruct (cipher_history cx B key iv calls BO Hk Hv Hc) as (o & o' & E & R).
  exists o, o', (cexpected key iv 0 calls). split; [exact E|]. split; [exact R|]. exact (cexpected_sized calls key iv 0 Hc).
Qed.
Print Assumptions C45_cipher_room.

Theorem C45_aead_room : forall cx B dsz key iv calls, backend_ok cx B -> (dsz <= 16)%nat -> bytes key -> bytes iv ->
  Forall (acall_ok dsz) calls ->
  exists p p' outs, aapie_new B cx key iv = Some p /\ aead_run B cx dsz p calls = Some (p', outs) /\ Forall2 (asized dsz) calls outs.
Proof. exact (fun cx B dsz key iv calls BO Hd => aead_sized cx B BO dsz Hd key iv calls). Qed.
Print Assumptions C45_aead_room.

(** KDFs: for any number of bytes, also beyond the limit of RFC 5869 (C37). *)
Theorem C45_hkdf : forall cx a dsz env r calls, (1 <= dsz <= sha_digest_size a)%nat -> arg3 env r -> Forall (kcall_ok (arg3 env)) calls ->
  exists o o' outs, kapie_new cx (HKDF a dsz) env r = Some o /\ kdf_run cx (HKDF a dsz) env o calls = Some (o', outs) /\ Forall2 ksized calls outs.
Proof.
  intros cx a dsz env r calls Hd A Hc.
  assert (Q : forall q, arg3 env q -> argok (K := HKDF a dsz) (argv := hargv) env q).
  { intros q (i & s & f & H). exists (i, s, f). exact (h3 _ _ _ _ _ H). }
  apply (kdf_sized (hok cx a dsz Hd) env r calls (Q _ A)).
  revert Hc. apply Forall_impl. intros [x|k s|c s]; cbn [kcall_ok]; [apply Q|auto|auto].
Qed.
Print Assumptions C45_hkdf.
Theorem C45_pbkdf2 : forall cx a dsz env r calls, (1 <= dsz <= sha_digest_size a)%nat -> arg2 env r -> Forall (kcall_ok (arg2 env)) calls ->
  exists o o' outs, kapie_new cx (PBKDF2 a dsz) env r = Some o /\ kdf_run cx (PBKDF2 a dsz) env o calls = Some (o', outs) /\ Forall2 ksized calls outs.
Proof.
  intros cx a dsz env r calls Hd A Hc.
  assert (Q : forall q, arg2 env q -> argok (K := PBKDF2 a dsz) (argv := pargv) env q).
  { intros q (p & s & H). exists (p, s, snd q). exact (h2 _ _ _ _ H). }
  apply (kdf_sized (pok cx a dsz Hd) env r calls (Q _ A)).
  revert Hc. apply Forall_impl. intros [x|k s|c s]; cbn [kcall_ok]; [apply Q|auto|auto].
Qed.
Print Assumptions C45_pbkdf2.

(** Codecs: encoding, into a resizable container or with enough room (decoding: C10). *)
Theorem C45_codec_room : forall sg from c, bytes from -> N.of_nat (length from) < 2 ^ 62 ->
  (match c with Dynamic _ => True | Static l => (2 * length from <= length l)%nat end ->
   exists c' n, apie_encode (base_16 sg) from c = Some (c', n) /\ filled (2 * length from) c c' n) /\
  (match c with Dynamic _ => True | Static l => (length (spec_b64 from) <= length l)%nat end ->
   exists c' n, apie_encode (base_64 sg) from c = Some (c', n) /\ filled (length (spec_b64 from)) c c' n).
Proof. exact codec_sized. Qed.
Print Assumptions C45_codec_room.

Example C45_case :
  Forall (hcall_ok (milo_hash SHA256)) [HUpdate [97; 98; 99]; HDigestC (Static (repeat 7 40)) 99; HDigestC (Dynamic [1]) 5; HDigest [9; 9; 9] 2] /\
  (exists p outs, hash_run host (milo_hash SHA256) (hapie_new (milo_hash SHA256))
     [HUpdate [97; 98; 99]; HDigestC (Static (repeat 7 40)) 99; HDigestC (Dynamic [1]) 5; HDigest [9; 9; 9] 2] = Some (p, outs) /\
   exists l, outs = [ONone; ODigestC (Static (l ++ repeat 7 8)) 32; ODigestC (Dynamic [186; 120; 22; 191; 143]) 5; ODigest [186; 120; 9] 2]) /\
  Forall (kcall_ok (arg3 mem9)) [KDeriveC (Dynamic [1]) 3; KDeriveC (Static [1; 2]) 9; KInit r9; KDerive [4; 5] 1] /\
  ~ filled 4 (Static [1; 2]) (Static [1; 2; 3; 4]) 4 /\ ~ filled 1 (Static [1; 2]) (Static [5; 6]) 1.
Proof.
  split; [unfold hcall_ok, chunk, bytes, is_byte; repeat constructor; cbn; lia|]. split.
  - eexists. eexists. split; [vm_compute; reflexivity|]. exists (firstn 32 [186; 120; 22; 191; 143; 1; 207; 234; 65; 65; 64; 222; 93; 174; 34; 35; 176; 3; 97; 163; 150; 23; 122; 156; 180; 16; 255; 97; 242; 0; 21; 173]).
    vm_compute. reflexivity.
  - split; [|split; [intros (_ & H & _); discriminate H|intros (_ & _ & H); discriminate H]].
    unfold kcall_ok, bytes, is_byte. constructor; [repeat constructor; cbn; lia|]. constructor; [repeat constructor; cbn; lia|].
    constructor; [exists [1; 2; 3], [4; 5], [6; 7; 8; 9]; exact has9|]. constructor; [split; [repeat constructor; lia|cbn; lia]|constructor].
Qed.
