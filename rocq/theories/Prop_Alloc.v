(** C64: a failed allocation is reported by an exception and loses nothing. *)
From Verif Require Import Base BaseLemmas BytesLemmas Spec_Bytes Spec_Codec Spec_Sha Spec_ChaCha Spec_Poly Spec_Range Spec_Cipher Spec_Hash Spec_Hmac Spec_Mac Spec_Aead Spec_Kdf
  Model_Memory Model_Container Model_Codec Model_Sha Model_Mac Model_Hmac Model_Poly Model_Kdf Model_Cipher Model_Aead
  Proof_Codec16 Proof_CodecApi Proof_ShaApi Proof_Mac Proof_Hmac Proof_Poly Proof_ChaChaCore Proof_ChaCha Proof_Aead
  Prop_Codec Prop_Sha Prop_Hmac Prop_Poly Prop_Kdf Prop_Cipher Prop_Aead Model_Alloc Spec_Alloc Proof_Alloc Proof_Alloc2 Proof_Alloc3.
Local Open Scope N_scope.

(** *** Histories: every allocator failure is one exception, leaves the container as it was, and the object goes on as
    if the failed calls had been made with other containers (digests) or not at all (derivations, encryptions). *)
Theorem C64_hash : forall cx a calls h, Forall (hcall_ok (milo_hash a)) calls ->
  explained (fun _ => true) (hash_target (ha_digest_size (milo_hash a))) (hash_run cx (milo_hash a)) (hash_step_a cx (milo_hash a)) (hapie_new (milo_hash a)) calls h.
Proof.
  intros cx a calls h Hc.
  apply (explained_all (hash_step cx (milo_hash a)) (hash_step_a cx (milo_hash a)) (hash_run cx (milo_hash a)))
    with (good := reached (hash_run cx (milo_hash a)) (hcall_ok (milo_hash a)) (hapie_new (milo_hash a))) (ok := hcall_ok (milo_hash a)); try reflexivity.
  - apply (reached_total (hash_step cx (milo_hash a)) (hash_run cx (milo_hash a))); try reflexivity. intros cs H. exact (C20_hash cx a cs H).
  - intros o c o' x _ _ E. exact (hash_one _ _ _ _ _ _ E).
  - exact Hc.
  - apply reached_start. reflexivity.
Qed.
Print Assumptions C64_hash.
Theorem C64_hmac : forall cx a dsz key calls h, (dsz <= sha_digest_size a)%nat -> chunk key -> Forall (mcall_ok chunk dsz) calls ->
  let M := mac_hmac (milo_hash a) dsz in
  exists p, mapie_new cx M key = Some p /\ explained (fun _ => true) (mac_target dsz) (mac_run cx M) (mac_step_a cx M) p calls h.
Proof.
  intros cx a dsz key calls h Hd Hk Hc M. destruct (C20_hmac cx a dsz key [] Hd Hk (Forall_nil _)) as (p & _ & E & _).
  exists p. split; [exact E|].
  apply (explained_all (mac_step cx M) (mac_step_a cx M) (mac_run cx M))
    with (good := reached (mac_run cx M) (mcall_ok chunk dsz) p) (ok := mcall_ok chunk dsz); try reflexivity.
  - apply (reached_total (mac_step cx M) (mac_run cx M)); try reflexivity. intros cs H.
    destruct (C20_hmac cx a dsz key cs Hd Hk H) as (p1 & r & E1 & R). fold M in E, E1, R. assert (p1 = p) by (rewrite E in E1; injection E1 as ->; reflexivity). subst p1. exists r. exact R.
  - intros o c o' x _ _ T. exact (mac_one _ _ _ _ _ _ T).
  - exact Hc.
  - apply reached_start. reflexivity.
Qed.
Print Assumptions C64_hmac.
Theorem C64_poly : forall cx dsz key calls h, (dsz <= 16)%nat -> bytes key -> Forall (mcall_ok bytes dsz) calls ->
  let M := mac_poly dsz in
  exists p, mapie_new cx M key = Some p /\ explained (fun _ => true) (mac_target dsz) (mac_run cx M) (mac_step_a cx M) p calls h.
Proof.
  intros cx dsz key calls h Hd Hk Hc M. destruct (C20_poly cx dsz key [] Hd Hk (Forall_nil _)) as (p & _ & E & _).
  exists p. split; [exact E|].
  apply (explained_all (mac_step cx M) (mac_step_a cx M) (mac_run cx M))
    with (good := reached (mac_run cx M) (mcall_ok bytes dsz) p) (ok := mcall_ok bytes dsz); try reflexivity.
  - apply (reached_total (mac_step cx M) (mac_run cx M)); try reflexivity. intros cs H.
    destruct (C20_poly cx dsz key cs Hd Hk H) as (p1 & r & E1 & R). fold M in E, E1, R. assert (p1 = p) by (rewrite E in E1; injection E1 as ->; reflexivity). subst p1. exists r. exact R.
  - intros o c o' x _ _ T. exact (mac_one _ _ _ _ _ _ T).
  - exact Hc.
  - apply reached_start. reflexivity.
Qed.
Print Assumptions C64_poly.
Lemma kdf_explained cx K env (okarg : ka_arg K -> Prop) r calls h : okarg r ->
  (forall cs, Forall (kcall_ok okarg) cs -> exists o x, kapie_new cx K env r = Some o /\ kdf_run cx K env o cs = Some x) ->
  Forall (kcall_ok okarg) calls ->
  exists o, kapie_new cx K env r = Some o /\ explained (fun _ => false) kdf_target (kdf_run cx K env) (kdf_step_a cx K env) o calls h.
Proof.
  intros Hr T Hc. destruct (T [] (Forall_nil _)) as (o & _ & E & _). exists o. split; [exact E|].
  apply (explained_all (kdf_step cx K env) (kdf_step_a cx K env) (kdf_run cx K env))
    with (good := reached (kdf_run cx K env) (kcall_ok okarg) o) (ok := kcall_ok okarg); try reflexivity.
  - apply (reached_total (kdf_step cx K env) (kdf_run cx K env)); try reflexivity. intros cs H.
    destruct (T cs H) as (o1 & x & E1 & R). assert (o1 = o) by congruence. subst o1. exists x. exact R.
  - intros o1 c o' x _ _ S. exact (kdf_one _ _ _ _ _ _ _ S).
  - exact Hc.
  - apply reached_start. reflexivity.
Qed.
Theorem C64_kdf : forall cx a dsz env, (1 <= dsz <= sha_digest_size a)%nat ->
  (forall r calls h, arg3 env r -> Forall (kcall_ok (arg3 env)) calls ->
     exists o, kapie_new cx (HKDF a dsz) env r = Some o /\
       explained (fun _ => false) kdf_target (kdf_run cx (HKDF a dsz) env) (kdf_step_a cx (HKDF a dsz) env) o calls h) /\
  (forall r calls h, arg2 env r -> Forall (kcall_ok (arg2 env)) calls ->
     exists o, kapie_new cx (PBKDF2 a dsz) env r = Some o /\
       explained (fun _ => false) kdf_target (kdf_run cx (PBKDF2 a dsz) env) (kdf_step_a cx (PBKDF2 a dsz) env) o calls h).
Proof.
  intros cx a dsz env Hd. destruct (C20_kdf cx a dsz env Hd) as [T1 T2]. split; intros r calls h Hr Hc.
  - apply (kdf_explained cx (HKDF a dsz) env (arg3 env)); auto.
  - apply (kdf_explained cx (PBKDF2 a dsz) env (arg2 env)); auto.
Qed.
Print Assumptions C64_kdf.
Theorem C64_cipher : forall cx B key iv calls h, backend_ok cx B -> bytes key -> bytes iv -> Forall ccall_ok calls ->
  exists o, capie_new cx key iv = Some o /\
    explained (fun _ => false) cipher_target (cipher_run B cx) (cipher_step_a B cx) o calls h.
Proof. exact cipher_explained. Qed.
Print Assumptions C64_cipher.
Theorem C64_aead : forall cx B dsz key iv calls h,
  backend_ok cx B -> (dsz <= 16)%nat -> bytes key -> bytes iv -> Forall (acall_ok dsz) calls ->
  exists p, aapie_new B cx key iv = Some p /\
    explained aead_acts (aead_target dsz) (aead_run B cx dsz) (aead_step_a B cx dsz) p calls h.
Proof. exact (fun cx B dsz key iv calls h BO Hd => aead_explained cx B BO dsz Hd key iv calls h). Qed.
Print Assumptions C64_aead.

(** Members that return their answer in a new container.  After a failure a hash or MAC object is as after the same digest
    that came back, and the others are as before. *)
Theorem C64_new_digest : forall cx h s,
  (forall al p p' d, hapie_digest_new cx al p s = Some (p', d) ->
     new_or_nothing (Nat.min s (ha_digest_size al)) p' p' d h (hapie_digest_new_a cx al p s h)) /\
  (forall M p p' d, mapie_digest_new cx M p s = Some (p', d) ->
     new_or_nothing (Nat.min s (ma_digest_size M)) p' p' d h (mapie_digest_new_a cx M p s h)).
Proof. intros cx h s. split; intros; [apply hash_new_member|apply mac_new_member]; assumption. Qed.
Print Assumptions C64_new_digest.
Theorem C64_new_key : forall cx K env o s o' d h, kapie_derive_new cx K env o s = Some (o', d) ->
  new_or_nothing s o' o d h (kapie_derive_new_a cx K env o s h).
Proof. exact kdf_new_member. Qed.
Print Assumptions C64_new_key.
Theorem C64_new_text : forall cx B dir key iv t h, backend_ok cx B -> bytes key -> bytes iv ->
  (forall calls o0 o xs o' d, Forall ccall_ok calls -> capie_new cx key iv = Some o0 -> cipher_run B cx o0 calls = Some (o, xs) -> bytes t ->
     capie_crypt_new dir B cx o t = Some (o', d) -> new_or_nothing (length t) o' o d h (capie_crypt_new_a dir B cx o t h)) /\
  (forall dsz calls p0 p xs p' d, (dsz <= 16)%nat ->
     Forall (acall_ok dsz) calls -> aapie_new B cx key iv = Some p0 -> aead_run B cx dsz p0 calls = Some (p, xs) -> chunk t ->
     aapie_crypt_new dir B cx p t = Some (p', d) -> new_or_nothing (length t) p' p d h (aapie_crypt_new_a dir B cx p t h)).
Proof.
  intros cx B dir key iv t h BO Hk Hv. split.
  - intros calls o0 o xs o' d Hc E R Ht. exact (cipher_new_member cx B dir key iv calls o0 o xs t o' d h BO Hk Hv Hc E R Ht).
  - intros dsz calls p0 p xs p' d Hd Hc E R Ht. exact (aead_new_member cx B BO dsz Hd dir key iv calls p0 p xs t p' d h Hk Hv Hc E R Ht).
Qed.
Print Assumptions C64_new_text.

(** *** Free functions: the whole answer, or one exception and the containers as they were. *)
Theorem C64_hash_free : forall cx a msg size h,
  (forall c r, hash_free_digest_c cx a msg c size = Some r ->
     all_or_nothing c (Nat.min size (ha_digest_size a)) c r h (hash_free_digest_a cx a msg c size h)) /\
  (forall r, hash_free_digest_new cx a msg size = Some r ->
     all_or_nothing (Dynamic []) (Nat.min size (ha_digest_size a)) tt r h (hash_free_digest_new_a cx a msg size h)).
Proof. intros cx a msg size h. split; [intros c [c' n]|intros r]; [apply hash_free_alloc|apply hash_free_new_alloc]. Qed.
Print Assumptions C64_hash_free.
Theorem C64_mac_free : forall cx M key msg size h,
  (forall c r, mac_free_digest_c cx M key msg c size = Some r ->
     all_or_nothing c (Nat.min size (ma_digest_size M)) c r h (mac_free_digest_a cx M key msg c size h)) /\
  (forall r, mac_free_digest_new cx M key msg size = Some r ->
     all_or_nothing (Dynamic []) (Nat.min size (ma_digest_size M)) tt r h (mac_free_digest_new_a cx M key msg size h)).
Proof. intros cx M key msg size h. split; [intros c [c' n]|intros r]; [apply mac_free_alloc|apply mac_free_new_alloc]. Qed.
Print Assumptions C64_mac_free.
Theorem C64_kdf_free : forall cx K env a size h,
  (forall c r, kdf_free_c cx K env a c size = Some r -> all_or_nothing c size c r h (kdf_free_a cx K env a c size h)) /\
  (forall r, kdf_free_new cx K env a size = Some r -> all_or_nothing (Dynamic []) size tt r h (kdf_free_new_a cx K env a size h)).
Proof. intros cx K env a size h. split; [intros c [c' n]|intros r]; [apply kdf_free_alloc|apply kdf_free_new_alloc]. Qed.
Print Assumptions C64_kdf_free.
Theorem C64_cipher_free : forall cx B dir key iv t h, backend_ok cx B -> bytes key -> bytes iv ->
  (forall c r, ccall_ok (CCryptC dir t c) -> cipher_free_c dir B cx key iv t c = Some r ->
     all_or_nothing c (length t) c r h (cipher_free_a dir B cx key iv t c h)) /\
  (forall r, bytes t -> cipher_free_new dir B cx key iv t = Some r ->
     all_or_nothing (Dynamic []) (length t) tt r h (cipher_free_new_a dir B cx key iv t h)).
Proof. intros cx B dir key iv t h BO Hk Hv. split; [intros c [c' n]|intros r]; [apply cipher_free_alloc|apply cipher_free_new_alloc]; assumption. Qed.
Print Assumptions C64_cipher_free.

(** *** Codecs *)
Definition both (k : codec) : Prop := exists sg, k = base_16 sg \/ k = base_64 sg.
Lemma both_fits k : both k -> codec_fits k.
Proof. intros (sg & [->| ->]); [apply b16_fits|apply b64_fits]. Qed.
Theorem C64_encode : forall k from h, both k ->
  (forall c r, apie_encode k from c = Some r -> all_or_nothing c (co_encode_size k from) c r h (apie_encode_a k from c h)) /\
  (forall r, apie_encode_new k from = Some r -> all_or_nothing (Dynamic []) (co_encode_size k from) tt r h (apie_encode_new_a k from h)).
Proof. intros k from h Hk. apply both_fits in Hk. split; [intros c [c' n]|intros r]; [apply encode_alloc|apply encode_new_alloc]; assumption. Qed.
Print Assumptions C64_encode.
Theorem C64_decode : forall k from n h, both k -> co_decode_size k from = Some n ->
  (forall c r, apie_decode_throw k from c = Some r -> all_or_nothing c n c r h (apie_decode_throw_a k from c h)) /\
  (forall r, apie_decode_new k from = Some r -> all_or_nothing (Dynamic []) n tt r h (apie_decode_new_a k from h)).
Proof. intros k from n h Hk Hn. apply both_fits in Hk. split; [intros c [c' m]|intros r]; [apply decode_throw_alloc|apply decode_new_alloc]; assumption. Qed.
Print Assumptions C64_decode.
(** With an error object: base 64 always, base 16 for the texts it accepts ... *)
Theorem C64_decode_error_partial : forall k from n e c c' size e' h, both k -> co_decode_size k from = Some n ->
  apie_decode k from c e = Some (c', size, e') -> e' = err_none \/ (exists sg, k = base_64 sg) ->
  all_or_nothing c n (c, e) (c', size, e') h (apie_decode_a k from c e h).
Proof.
  intros k from n e c c' size e' h Hk Hn E H. apply both_fits in Hk. apply (decode_alloc k from c e c' size e' n h Hk Hn E).
  destruct H as [->|(sg & ->)]; [left; reflexivity|]. right. intros d x d' s x' D. exact (proj2 (b64_decode_len _ _ _ _ _ _ _ D)).
Qed.
Print Assumptions C64_decode_error_partial.
(** ... but not for the others.  Refuted: of a malformed text of which more than half has been decoded, base 16 reports twice the size (C05),
    the container has to grow a second time, and when it cannot, the caller gets an exception besides the error, and a container that has
    lost its content. *)
Theorem C64_base16_error_refuted : forall t e h, bytes t -> Nat.odd (length t) = false -> spec_unhex t = None ->
  exists g, spec_unhex (firstn (2 * length g) t) = Some g /\
    ((length t < 4 * length g)%nat -> forall old, (length old < Nat.div2 (length t))%nat ->
       exists r, apie_decode_a (base_16 false) t (Dynamic old) e (true :: false :: h)
         = Some (NoMemory (Dynamic (g ++ r), err_codec_base_16_decode), h)).
Proof.
  intros t e h Ht Ho Hn.
  exists (b16_prefix false t). split; [apply b16_prefix_values|]. intros Hlt old Hold.
  assert (Hv : b16_values false t = None) by (rewrite (b16_values_spec false) by (left; reflexivity); exact Hn).
  set (n := Nat.div2 (length t)) in *. assert (Ln : length (resize_list old n) = n) by apply resize_list_len.
  destruct (b16_decode_error_size false t (resize_list old n) e Ht Ho) as (g & D & Eg); [fold n; lia|exact Hv|]. subst g.
  set (g := b16_prefix false t) in *. assert (Lg : (length g <= n)%nat).
  { destruct (b16_fits false) as (_ & F & _). specialize (F t _ e _ _ _ D). rewrite app_length, skipn_length in F. lia. }
  assert (Hq : (n < 2 * length g)%nat).
  { pose proof (Nat.div2_odd (length t)) as Q. rewrite Ho in Q. cbn [Nat.b2n] in Q. fold n in Q. lia. }
  exists (skipn (length g) (resize_list old n)). unfold apie_decode_a. cbn [base_16 co_decode_size co_decode].
  unfold b16_decode_size. rewrite Ho, Nat.add_0_r. fold n.
  cbn [bind aresize]. destruct (Nat.leb_spec n (length old)) as [X|_]; [lia|]. cbn [cresize cdata].
  rewrite D. cbn [bind aresize cset]. rewrite app_length, skipn_length.
  destruct (Nat.leb_spec (2 * length g) (length g + (length (resize_list old n) - length g))) as [X|_]; [lia|]. reflexivity.
Qed.
Print Assumptions C64_base16_error_refuted.

(** *** AEAD free functions *)
Theorem C64_aead_free : forall cx B dsz key iv aad t h,
  backend_ok cx B -> (dsz <= 16)%nat -> bytes key -> bytes iv -> chunk aad ->
  (forall junk mac c r, acall_ok dsz (ACryptC Decrypt t c) -> aead_free_decrypt_c B cx dsz key iv aad t junk mac c = Some r ->
     all_or_nothing c (length t) c r h (aead_free_decrypt_a B cx dsz key iv aad t junk mac c h)) /\
  (forall junk mac c e r, acall_ok dsz (ACryptC Decrypt t c) -> aead_free_decrypt_c_err B cx dsz key iv aad t junk mac c = Some r ->
     all_or_nothing c (length t) (c, e) r h (aead_free_decrypt_err_a B cx dsz key iv aad t junk mac c e h)) /\
  (forall junk r, chunk t -> aead_free_encrypt_new B cx dsz key iv aad t junk = Some r ->
     all_or_nothing (Dynamic []) (length t) tt r h (aead_free_encrypt_new_a B cx dsz key iv aad t junk h)) /\
  (forall junk mac r, chunk t -> aead_free_decrypt_new B cx dsz key iv aad t junk mac = Some r ->
     all_or_nothing (Dynamic []) (length t) tt r h (aead_free_decrypt_new_a B cx dsz key iv aad t junk mac h)) /\
  (forall junk mac e r, chunk t -> aead_free_decrypt_new_err B cx dsz key iv aad t junk mac = Some r ->
     all_or_nothing (Dynamic []) (length t) e r h (aead_free_decrypt_new_err_a B cx dsz key iv aad t junk mac e h)).
Proof.
  intros cx B dsz key iv aad t h BO Hd Hk Hv Ha.
  split; [intros junk mac c [c' r] K E; exact (free_decrypt_alloc cx B BO dsz Hd key iv aad t junk mac c c' r h Hk Hv Ha K E)|].
  split; [intros junk mac c e r K E; exact (free_decrypt_err_alloc cx B BO dsz Hd key iv aad t junk mac c r e h Hk Hv Ha K E)|].
  split; [intros junk r K E; exact (free_encrypt_new_alloc cx B BO dsz Hd key iv aad t junk r h Hk Hv Ha K E)|].
  split; [intros junk mac r K E; exact (free_decrypt_new_alloc cx B BO dsz Hd key iv aad t junk mac r h Hk Hv Ha K E)|].
  intros junk mac e r K E; exact (free_decrypt_new_err_alloc cx B BO dsz Hd key iv aad t junk mac r e h Hk Hv Ha K E).
Qed.
Print Assumptions C64_aead_free.
(** Encrypting from one buffer into two other containers: the second container may fail to grow after the first has been filled; then the
    caller has the ciphertext without its tag, and the same call again gives the normal answer. *)
Theorem C64_aead_encrypt_partial : forall cx B dsz key iv aad t c mac c' mac' n k h,
  backend_ok cx B -> (dsz <= 16)%nat -> bytes key -> bytes iv -> chunk aad ->
  acall_ok dsz (ACryptC Encrypt t c) -> bytes (cdata mac) ->
  aead_free_encrypt_c B cx dsz key iv aad t c mac = Some (c', mac', n, k) ->
  let call := aead_free_encrypt_a B cx dsz key iv aad t c mac h in
  exists h', (call = Some (Done (c', mac', n, k), h') /\ failures h' = failures h) \/
    (call = Some (NoMemory (c, mac), h') /\ S (failures h') = failures h /\ must_grow c (length t)) \/
    (call = Some (NoMemory (c', mac), h') /\ S (failures h') = failures h /\ must_grow mac dsz /\
     aead_free_encrypt_c B cx dsz key iv aad t c' mac = Some (c', mac', n, k)).
Proof. exact (fun cx B dsz key iv aad t c mac c' mac' n k h BO Hd => free_encrypt_alloc cx B BO dsz Hd key iv aad t c mac c' mac' n k h). Qed.
Print Assumptions C64_aead_encrypt_partial.
(** Encrypting in place, whichever of the containers have a fixed size: what the call with a copy of the text does, or an
    exception because the tag did not fit, and the text is encrypted. *)
Theorem C64_aead_in_place_partial : forall cx B dsz key iv aad c mac c' mac' n k h,
  backend_ok cx B -> (dsz <= 16)%nat -> bytes key -> bytes iv -> chunk aad -> chunk (cdata c) -> bytes (cdata mac) ->
  aead_free_encrypt_c B cx dsz key iv aad (cdata c) c mac = Some (c', mac', n, k) ->
  let call := aead_free_encrypt_same_a B cx dsz key iv aad c mac h in
  exists h', (call = Some (Done (c', mac', n, k), h') /\ failures h' = failures h) \/
    (call = Some (NoMemory (c', mac), h') /\ S (failures h') = failures h /\ must_grow mac dsz).
Proof. exact (fun cx B dsz key iv aad c mac c' mac' n k h BO Hd => free_encrypt_same_alloc cx B BO dsz Hd key iv aad c mac c' mac' n k h). Qed.
Print Assumptions C64_aead_in_place_partial.
(** Refuted: encrypting a container in place.  When the tag does not fit, the caller gets an exception and the text is already encrypted; the
    same call again - with memory available - reports success and hands out the plaintext as the ciphertext. *)
Theorem C64_aead_in_place_refuted : forall cx B dsz key iv aad t tag h,
  backend_ok cx B -> bytes key -> bytes iv -> chunk aad -> chunk t -> bytes tag -> (length tag < dsz <= 16)%nat ->
  exists c tag',
    aead_free_encrypt_same_a B cx dsz key iv aad (Dynamic t) (Dynamic tag) (false :: h) = Some (NoMemory (Dynamic c, Dynamic tag), h) /\
    aead_free_encrypt_same_a B cx dsz key iv aad (Dynamic c) (Dynamic tag) [] = Some (Done (Dynamic t, Dynamic tag', length t, dsz), []) /\
    c = aead_text (pad_to 32 key) (pad_to 12 iv) t.
Proof.
  intros cx B dsz key iv aad t tag h BO Hk Hv Ha Ht Hl Hs. assert (Hd : (dsz <= 16)%nat) by lia. assert (Hs' : (length tag < dsz)%nat) by lia.
  destruct (free_encrypt_same_spec cx B BO dsz Hd key iv aad t tag h Hk Hv Ha Ht Hl Hs') as [E1 _].
  set (c := ktext key iv t) in *.
  assert (Lc : length c = length t) by apply aead_text_length.
  assert (Hc : chunk c).
  { split; [|rewrite Lc; exact (proj2 Ht)]. unfold c, ktext, aead_text, chacha20. apply xor_with_bytes; [intros j; rewrite <- ast_byte; apply st_byte_byte|exact (proj1 Ht)]. }
  destruct (free_encrypt_same_spec cx B BO dsz Hd key iv aad c tag h Hk Hv Ha Hc Hl Hs') as [_ E2].
  assert (T : ktext key iv c = t) by apply aead_text_twice. rewrite T, Lc in E2.
  eexists. eexists. split; [exact E1|]. split; [exact E2|]. reflexivity.
Qed.
Print Assumptions C64_aead_in_place_refuted.

(** *** The hypotheses are met, and failures do happen. *)
Definition script : list hash_call :=
  [HUpdate [97; 98]; HDigestC (Dynamic [5]) 3; HDigestC (Dynamic [5]) 2; HInit; HDigestC (Static [1; 2; 3]) 3].
Example C64_case : Forall (hcall_ok (milo_hash SHA1)) script /\
  exists p, run_a (hash_step_a rt (milo_hash SHA1)) (hapie_new (milo_hash SHA1)) script [false; true]
  = Some (p, [Done ONone; NoMemory (Dynamic [5]); Done (ODigestC (Dynamic [218; 35]) 2); Done ONone; Done (ODigestC (Static [218; 57; 163]) 3)], []).
Proof.
  split; [unfold script, hcall_ok, chunk, bytes, is_byte; repeat constructor; cbn; lia|].
  destruct (run_a _ _ script [false; true]) as [[[p rs] h]|] eqn:E; [|vm_compute in E; discriminate].
  exists p. vm_compute in E. injection E as <- <- <-. reflexivity.
Qed.
(** "010203g0": three bytes decoded, reported as six. *)
Example C64_base16_case :
  let t := [48; 49; 48; 50; 48; 51; 103; 48] in
  bytes t /\ Nat.odd (length t) = false /\ spec_unhex t = None /\
  apie_decode_a (base_16 false) t (Dynamic [7]) err_none [true; false] = Some (NoMemory (Dynamic [1; 2; 3; 0], err_codec_base_16_decode), []).
Proof. cbv zeta. split; [unfold bytes, is_byte; repeat constructor; lia|]. vm_compute. auto. Qed.
Example C64_codec_case : both (base_64 true) /\ co_decode_size (base_64 true) [90; 109; 57; 118] = Some 3%nat /\
  apie_decode_a (base_64 true) [90; 109; 57; 118] (Dynamic []) err_none [false] = Some (NoMemory (Dynamic [], err_none), []) /\
  apie_decode_a (base_64 true) [90; 109; 57; 118] (Dynamic []) err_none [true] = Some (Done (Dynamic [102; 111; 111], 3%nat, err_none), []) /\
  apie_encode_a (base_16 true) [1; 2] (Dynamic [8; 9]) [false] = Some (NoMemory (Dynamic [8; 9]), []).
Proof. split; [exists true; right; reflexivity|]. vm_compute. auto. Qed.
Example C64_aead_case : bytes (repeat 1 32) /\ bytes (repeat 2 12) /\ chunk [3] /\ chunk [4; 5] /\ bytes [] /\
  Forall (acall_ok 16) [AAad [3]; ACryptC Encrypt [4; 5] (Dynamic []); ADigestC (Dynamic []) 16].
Proof.
  assert (Q : forall x n, x < 256 -> bytes (repeat x n)) by (intros; apply bytes_repeat; assumption).
  assert (C1 : chunk [3]) by (split; [unfold bytes, is_byte; repeat constructor; lia|reflexivity]).
  assert (C2 : chunk [4; 5]) by (split; [unfold bytes, is_byte; repeat constructor; lia|reflexivity]).
  split; [apply Q; lia|]. split; [apply Q; lia|]. split; [exact C1|]. split; [exact C2|]. split; [constructor|].
  constructor; [exact C1|]. constructor; [split; [exact C2|split; [constructor|exact I]]|]. constructor; [constructor|constructor].
Qed.
(** A new container that cannot be made; then the same call again. *)
Example C64_new_case :
  match hapie_digest_new_a rt (milo_hash SHA1) (hapie_new (milo_hash SHA1)) 2 [false] with
  | Some (p1, r, h) => r = NoMemory tt /\ h = [] /\
      option_map (fun q => (snd (fst q), snd q)) (hapie_digest_new_a rt (milo_hash SHA1) p1 2 []) = Some (Done [218; 57], [])
  | None => False
  end.
Proof. vm_compute. auto. Qed.
