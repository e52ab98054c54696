(** C67: objects used before they were initialized.  Specification: [Spec_Default].

    [Plain] is the declaration [T o;] and [Braces] the declaration [T o{};].  [backend_ok], [host] and the algorithms are those of
    Prop_Cipher, Prop_Hmac, Prop_Poly, Prop_Aead and Prop_Kdf. *)
From Verif Require Import Base BaseLemmas BytesLemmas Spec_Bytes Spec_ChaCha Spec_Sha Spec_Hash Spec_Hmac Spec_Poly Spec_Kdf Spec_Mac Spec_Cipher Spec_Aead
  Model_Memory Model_Update Model_Container Model_Sha Model_Mac Model_Hmac Model_Poly Model_Cipher Model_Aead Model_Kdf Model_Default Spec_Default
  Proof_Memory Proof_Memory2 Proof_Memory3 Proof_CodecApi Proof_Soak Proof_Mac Proof_Hmac Proof_PolyCore Proof_Poly Proof_ChaChaCore Proof_ChaCha Proof_Aead Proof_Kdf Proof_Kdf2 Proof_Kdf3 Proof_Default Proof_Default2 Prop_Cipher Prop_Kdf.
Local Open Scope N_scope.

(** *** What holds: an object may be declared first, either way, and be given its key later.  Every history that begins with
    [initialize] - copies of the object included - gives the answers of an object constructed with that key. *)
Theorem C67_hmac_initialize_first_partial : forall cx a dsz d k us,
  (dsz <= sha_digest_size a)%nat -> chunk k -> Forall (use_ok (mcall_ok chunk dsz)) us ->
  let M := mac_hmac (milo_hash a) dsz in
  exists q q' os p, dmac_run cx M (dmac_new M d) (Call (MInit k) :: us) = Some (q, ONone :: with_copies ONone us os) /\
    mapie_new cx M k = Some p /\ mac_run cx M p (plain_calls us) = Some (q', os).
Proof. exact (fun cx a dsz d k us H => dmac_init_first (milo_hmac_ok cx a dsz H) d k us). Qed.
Print Assumptions C67_hmac_initialize_first_partial.
Theorem C67_poly1305_initialize_first_partial : forall cx dsz d k us,
  (dsz <= 16)%nat -> bytes k -> Forall (use_ok (mcall_ok bytes dsz)) us ->
  let M := mac_poly dsz in
  exists q q' os p, dmac_run cx M (dmac_new M d) (Call (MInit k) :: us) = Some (q, ONone :: with_copies ONone us os) /\
    mapie_new cx M k = Some p /\ mac_run cx M p (plain_calls us) = Some (q', os).
Proof. exact (fun cx dsz d k us H => dmac_init_first (M := mac_poly dsz) (eqv := peq) (poly_host true cx dsz H) d k us). Qed.
Print Assumptions C67_poly1305_initialize_first_partial.
Theorem C67_aead_initialize_first_partial : forall cx B dsz d key nonce us,
  backend_ok cx B -> (dsz <= 16)%nat -> bytes key -> bytes nonce -> Forall (use_ok (acall_ok dsz)) us ->
  exists q q' os p, daead_run B cx dsz (daead_new d) (Call (AInit key nonce) :: us) = Some (q, ANone :: with_copies ANone us os) /\
    aapie_new B cx key nonce = Some p /\ aead_run B cx dsz p (plain_calls us) = Some (q', os).
Proof. exact (fun cx B dsz d k v us BO H => daead_init_first cx B BO dsz H d k v us). Qed.
Print Assumptions C67_aead_initialize_first_partial.

(** *** Refuted: an object declared as [T o;] and used before [initialize].  Exactly the histories in which something other than
    [update] comes before the first [initialize] are undefined for the MACs, copying the object among them ... *)
Theorem C67_hmac_plain_refuted : forall cx a dsz us,
  (dsz <= sha_digest_size a)%nat -> Forall (use_ok (mcall_ok chunk dsz)) us ->
  let M := mac_hmac (milo_hash a) dsz in
  (dmac_run cx M (dmac_new M Plain) us = None <-> early_mac us) /\
  (~ early_mac us -> exists p p' os,
     dmac_run cx M (dmac_new M Plain) us = Some (p, os) /\ dmac_run cx M (dmac_new M Braces) us = Some (p', os)).
Proof. exact (fun cx a dsz us H => dmac_plain (milo_hmac_ok cx a dsz H) us). Qed.
Print Assumptions C67_hmac_plain_refuted.
Theorem C67_poly1305_plain_refuted : forall cx dsz us,
  (dsz <= 16)%nat -> Forall (use_ok (mcall_ok bytes dsz)) us ->
  let M := mac_poly dsz in
  (dmac_run cx M (dmac_new M Plain) us = None <-> early_mac us) /\
  (~ early_mac us -> exists p p' os,
     dmac_run cx M (dmac_new M Plain) us = Some (p, os) /\ dmac_run cx M (dmac_new M Braces) us = Some (p', os)).
Proof. exact (fun cx dsz us H => dmac_plain (M := mac_poly dsz) (eqv := peq) (poly_host true cx dsz H) us). Qed.
Print Assumptions C67_poly1305_plain_refuted.
(** ... and every history that does not begin with [initialize] for the AEAD. *)
Theorem C67_aead_plain_refuted : forall cx B dsz us,
  backend_ok cx B -> (dsz <= 16)%nat -> Forall (use_ok (acall_ok dsz)) us ->
  (daead_run B cx dsz (daead_new Plain) us = None <-> early_aead us).
Proof. exact (fun cx B dsz us BO H => daead_plain cx B BO dsz H us). Qed.
Print Assumptions C67_aead_plain_refuted.

(** *** Refuted: an object declared as [T o{};] and used without [initialize] works without an error.  Every tag of Poly1305 is
    zero, whatever the message ... *)
Theorem C67_poly1305_zero_refuted : forall cx dsz us,
  (dsz <= 16)%nat -> Forall (use_ok (mcall_ok bytes dsz)) us -> Forall no_key (plain_calls us) ->
  let M := mac_poly dsz in
  exists p, dmac_run cx M (dmac_new M Braces) us = Some (p, with_copies ONone us (map (zanswer dsz) (plain_calls us))).
Proof. exact (fun cx dsz us H => poly_braces cx dsz H us). Qed.
Print Assumptions C67_poly1305_zero_refuted.
(** ... the AEAD answers text xored with a public stream, and zero tags, so that [verify] accepts every text with a zero tag ... *)
Theorem C67_aead_zero_refuted : forall cx B dsz us,
  backend_ok cx B -> (dsz <= 16)%nat -> Forall (use_ok (acall_ok dsz)) us -> Forall no_init (plain_calls us) ->
  exists p, daead_run B cx dsz (daead_new Braces) us = Some (p, with_copies ANone us (zexpected dsz 0 (plain_calls us))).
Proof. exact (fun cx B dsz us BO H => daead_braces cx B BO dsz H us). Qed.
Print Assumptions C67_aead_zero_refuted.
Theorem C67_aead_forged_refuted : forall cx B dsz ct junk,
  backend_ok cx B -> (dsz <= 16)%nat -> chunk ct -> bytes junk -> length junk = dsz ->
  exists p text, daead_run B cx dsz (daead_new Braces) [Call (ACryptC Decrypt ct (Dynamic [])); Call (AVerify junk (repeat 0 dsz))]
                 = Some (p, [ACon (Dynamic text) (length ct); AErr err_none]) /\
    firstn 64 text = firstn 64 ct.
Proof.
  intros cx B dsz ct junk BO Hd Hc Hj Lj.
  destruct (daead_braces cx B BO dsz Hd [Call (ACryptC Decrypt ct (Dynamic [])); Call (AVerify junk (repeat 0 dsz))]) as (p & E).
  - constructor; [|constructor; [|constructor]]; cbn [use_ok acall_ok cdata].
    + split; [exact Hc|split; [constructor|exact I]].
    + split; [exact Hj|split; [exact Lj|apply bytes_zeros]].
  - repeat constructor.
  - exists p, (xor_with zero_byte 0 ct). split; [|apply zero_clear]. rewrite E.
    cbn [with_copies plain_calls zexpected is_tag_call atext_in atext_out atag_out]. rewrite xor_with_length.
    destruct (list_eq_dec N.eq_dec (repeat 0 dsz) (repeat 0 dsz)) as [_|Q]; [reflexivity|contradiction Q; reflexivity].
Qed.
Print Assumptions C67_aead_forged_refuted.
(** ... and so does every ChaCha20 object, either way declared (all its members have initialisers): the first block of every text
    comes out in the clear. *)
Theorem C67_cipher_clear_refuted : forall cx B dir texts,
  backend_ok cx B -> Forall bytes texts ->
  exists o' rs, crypt_pieces dir B cx cc_new texts = Some (o', rs) /\ map (@length N) rs = map (@length N) texts /\
    concat rs = xor_with zero_byte 0 (concat texts) /\ firstn 64 (concat rs) = firstn 64 (concat texts).
Proof.
  intros cx B dir ts BO H. destruct (cipher_default cx B dir ts BO H) as (o' & rs & E & C & L). exists o', rs.
  repeat split; try assumption. rewrite C. apply zero_clear.
Qed.
Print Assumptions C67_cipher_clear_refuted.

(** The key derivations, either way declared: HKDF expands a key of zero bytes; PBKDF2 answers the key of the empty password with the
    empty salt and one iteration. *)
Theorem C67_hkdf_refuted : forall cx a dsz env key n,
  (1 <= dsz <= sha_digest_size a)%nat -> bytes key -> (n <= length key)%nat ->
  exists o, ka_derive (HKDF a dsz) cx env (ka_new (HKDF a dsz)) key n
            = Some (o, hkdf_expand (prf a dsz) dsz (repeat 0 dsz) [] n ++ skipn n key, n).
Proof.
  intros cx a dsz env key n Hd. exact (hk_default (milo_hmac_ok cx a dsz (proj2 Hd)) (hmac_es a dsz Hd) (hmac_tag_ok a dsz (proj2 Hd)) env key n).
Qed.
Print Assumptions C67_hkdf_refuted.
Theorem C67_pbkdf2_refuted : forall cx a dsz env sizes,
  (1 <= dsz <= sha_digest_size a)%nat ->
  exists o ps, derive_pieces cx (PBKDF2 a dsz) env (ka_new (PBKDF2 a dsz)) sizes = Some (o, ps) /\
    map (@length N) ps = sizes /\ concat ps = pbkdf2 (prf a dsz) dsz [] [] 1 (total sizes).
Proof.
  intros cx a dsz env sizes Hd. exact (pb_default (milo_hmac_ok cx a dsz (proj2 Hd)) (hmac_es a dsz Hd) (hmac_tag_ok a dsz (proj2 Hd)) env sizes).
Qed.
Print Assumptions C67_pbkdf2_refuted.

(** Cases. *)
Example C67_case : early_mac [Call (MUpdate [1]); Copy; Call (MInit [2])] /\ ~ early_mac [Call (MUpdate [1]); Call (MInit [2]); Copy] /\
  Forall (use_ok (mcall_ok chunk 20)) [Call (MUpdate [1]); Copy; Call (MInit [2]); Call (MDigest (repeat 0 20) 20)] /\
  early_aead [Copy; Call (AInit [] [])] /\
  Forall (use_ok (acall_ok 16)) [Call (AAad [1]); Copy; Call (ACryptC Encrypt [1; 2] (Dynamic [])); Call (ADigest (repeat 0 16) 16)].
Proof.
  repeat split.
  - exists [Call (MUpdate [1])], Copy, [Call (MInit [2])]. repeat split; repeat constructor.
  - intros (b & u & a & E & F & I & U). destruct b as [|x b]; [inversion E; subst; discriminate U|].
    inversion E as [[X E1]]. destruct b as [|y b]; [inversion E1; subst; discriminate I|]. inversion E1 as [[Y E2]].
    inversion F as [|? ? _ F1]; subst. inversion F1 as [|? ? F2 _]; subst. discriminate F2.
  - repeat constructor; cbn; lia.
  - exists Copy, [Call (AInit [] [])]. repeat split.
  - repeat constructor; cbn; lia.
Qed.
