(** C69: output objects of every type that satisfies [bytes]. *)
From Verif Require Import Base BaseLemmas BytesLemmas Spec_Bytes Spec_Codec Spec_Sha Spec_Hash Spec_Hmac Spec_Poly Spec_Mac Spec_ChaCha Spec_Cipher Spec_Aead Spec_Kdf
  Model_Memory Model_Container Model_Codec Model_Sha Model_Mac Model_Hmac Model_Poly Model_Kdf Model_Cipher Model_Aead Model_Traits Spec_Traits
  Proof_Codec16 Proof_CodecApi Proof_Mac Proof_Hmac Proof_Poly Proof_ShaApi Proof_ChaChaCore Proof_ChaCha Proof_Aead Proof_Kdf Proof_Kdf3 Prop_Codec Prop_Sha Prop_Hmac Prop_Poly Prop_Cipher Prop_Kdf Prop_Aead Prop_KeySize Prop_Test.
Local Open Scope N_scope.

Lemma as_c_usual t l : usual t -> as_c t l = if ct_resize t then Dynamic l else Static l.
Proof.
  intros U. unfold as_c, container_dynamic, is_container. destruct (ct_resize t) eqn:E; [|rewrite andb_false_r; reflexivity].
  destruct (U E) as [-> ->]. reflexivity.
Qed.
Lemma as_c_unusual t l : unusual t -> as_c t l = Static l.
Proof. intros (_ & [H|H]); unfold as_c, container_dynamic, is_container; rewrite H, ?andb_false_r; reflexivity. Qed.

(** Hashes: the standard's types get what the documentation says. *)
Theorem C69_hash_partial : forall cx a msg t l size, chunk msg -> bytes l -> usual t ->
  exists l' n, hash_digest_t cx (milo_hash a) msg t l size = Some (l', n) /\ given t l (firstn size (fips a msg)) l' n.
Proof.
  intros cx a msg t l size Hm Hl U. destruct (sha_free_correct cx a msg Hm) as (_ & D & S' & _).
  unfold hash_digest_t, given. rewrite (as_c_usual t l U). destruct (ct_resize t).
  - rewrite (D l size Hl). cbn [held bind cdata]. do 2 eexists. split; [reflexivity|]. rewrite firstn_length. auto.
  - pose proof (S' l size Hl) as E. cbv zeta in E. rewrite E. cbn [held bind cdata]. do 2 eexists. split; [reflexivity|]. rewrite firstn_length.
    split; [reflexivity|]. rewrite firstn_firstn. do 2 f_equal. lia.
Qed.
Print Assumptions C69_hash_partial.
Lemma mac_given cx M key msg D t l size : mfree_returns cx M key msg D -> bytes l -> usual t ->
  exists l' n, mac_digest_t cx M key msg t l size = Some (l', n) /\ given t l (firstn size D) l' n.
Proof.
  intros (_ & F & S' & _) Hl U. unfold mac_digest_t, given. rewrite (as_c_usual t l U). destruct (ct_resize t).
  - rewrite (F l size Hl). cbn [held bind cdata]. do 2 eexists. split; [reflexivity|]. rewrite firstn_length. auto.
  - pose proof (S' l size Hl) as E. cbv zeta in E. rewrite E. cbn [held bind cdata]. do 2 eexists. split; [reflexivity|]. rewrite firstn_length.
    split; [reflexivity|]. rewrite firstn_firstn. do 2 f_equal. lia.
Qed.
(** MACs. *)
Theorem C69_mac_partial : forall cx key msg t l size, chunk key -> chunk msg -> bytes l -> usual t ->
  (forall a dsz, (dsz <= sha_digest_size a)%nat ->
   exists l' n, mac_digest_t cx (mac_hmac (milo_hash a) dsz) key msg t l size = Some (l', n) /\
     given t l (firstn size (firstn dsz (hmac (fips a) (sha_block_size a) key msg))) l' n) /\
  (forall dsz, (dsz <= 16)%nat ->
   exists l' n, mac_digest_t cx (mac_poly dsz) key msg t l size = Some (l', n) /\
     given t l (firstn size (firstn dsz (poly1305_on (cx_big cx) (pad_to 32 key) msg))) l' n).
Proof.
  intros cx key msg t l size Hk Hm Hl U. split.
  - intros a dsz Hd. exact (mac_given _ _ _ _ _ t l size (C22_hmac_free cx a dsz key msg Hd Hk Hm) Hl U).
  - intros dsz Hd. exact (mac_given _ _ _ _ _ t l size (C23_free_any_host cx dsz key msg Hd (proj1 Hk) Hm) Hl U).
Qed.
Print Assumptions C69_mac_partial.

(** Key derivation: as many bytes as asked for, in a type without resize as many as there is room for. *)
Definition amount (t : ctype) (l : list N) (size : nat) : nat := if ct_resize t then size else Nat.min size (length l).
Lemma kdf_given cx K env a (lim : nat -> Prop) D t l size : kdf_returns cx K env a lim D -> bytes l -> usual t -> lim (amount t l size) ->
  length (D (amount t l size)) = amount t l size ->
  exists l' n, kdf_derive_t cx K env a t l size = Some (l', n) /\ given t l (D (amount t l size)) l' n.
Proof.
  intros (_ & F & S' & _) Hl U Hx Ln. unfold kdf_derive_t, given, amount in *. rewrite (as_c_usual t l U). destruct (ct_resize t).
  - rewrite (F size l Hx Hl). cbn [held bind cdata]. do 2 eexists. split; [reflexivity|]. auto.
  - pose proof (S' size l Hl) as E. cbv zeta in E. rewrite (E Hx). cbn [held bind cdata]. do 2 eexists. split; [reflexivity|]. rewrite Ln.
    split; [lia|]. rewrite firstn_all2 by lia. reflexivity.
Qed.
Theorem C69_kdf_partial : forall cx a dsz env t l size, (1 <= dsz <= sha_digest_size a)%nat -> bytes l -> usual t ->
  (forall r ikm salt info, holds3 env r ikm salt info -> (amount t l size <= 255 * dsz)%nat ->
   exists l' n, kdf_derive_t cx (HKDF a dsz) env r t l size = Some (l', n) /\ given t l (hkdf (prf a dsz) dsz ikm salt info (amount t l size)) l' n) /\
  (forall r password salt, holds2 env r password salt -> (1 <= snd r < 2 ^ 32) -> N.of_nat (amount t l size) <= (2 ^ 32 - 1) * N.of_nat dsz ->
   exists l' n, kdf_derive_t cx (PBKDF2 a dsz) env r t l size = Some (l', n) /\
     given t l (pbkdf2 (prf a dsz) dsz password salt (N.to_nat (snd r)) (amount t l size)) l' n).
Proof.
  intros cx a dsz env t l size Hd Hl U. split.
  - intros r ikm salt info H HL. apply (kdf_given _ _ _ _ _ _ t l size (C35_hkdf cx a dsz env r ikm salt info Hd H) Hl U HL).
    exact (proj2 (kdf_stream_bytes (hok cx a dsz Hd) env r (ikm, salt, info) (amount t l size) (h3 _ _ _ _ _ H) HL)).
  - intros r p s H Hc HL. apply (kdf_given _ _ _ _ _ _ t l size (C38_pbkdf2 cx a dsz env r p s Hd H Hc) Hl U HL).
    pose proof (proj2 (kdf_stream_bytes (pok cx a dsz Hd) env r (p, s, snd r) (amount t l size) (h2 _ _ _ _ H) I)) as E. unfold pD in E. cbn [fst snd] in E.
    replace (Nat.max 1 (N.to_nat (snd r))) with (N.to_nat (snd r)) in E by lia. exact E.
Qed.
Print Assumptions C69_kdf_partial.

(** Codecs and the cipher: a type without resize must have room. *)
Theorem C69_codec_partial : forall sg from t l, bytes from -> N.of_nat (length from) < 2 ^ 62 -> usual t ->
  ((ct_resize t = false -> (2 * length from <= length l)%nat) ->
   exists l' n, encode_t (base_16 sg) from t l = Some (l', n) /\ given t l (spec_hex from) l' n) /\
  ((ct_resize t = false -> (length (spec_b64 from) <= length l)%nat) ->
   exists l' n, encode_t (base_64 sg) from t l = Some (l', n) /\ given t l (spec_b64 from) l' n).
Proof.
  intros sg from t l Hf Hn U. assert (Lh : length (spec_hex from) = (2 * length from)%nat) by apply spec_hex_length.
  unfold encode_t, given. rewrite (as_c_usual t l U). destruct (ct_resize t); split; intros Hr.
  - rewrite (C01_base16_encode_container sg from l Hf) by lia. cbn [held bind cdata]. do 2 eexists. split; [reflexivity|]. auto.
  - rewrite (C06_base64_encode_container sg from l Hf Hn). cbn [held bind cdata]. do 2 eexists. split; [reflexivity|]. auto.
  - specialize (Hr eq_refl). destruct (C45_codec_static_room sg from (firstn (2 * length from) l) (skipn (2 * length from) l) Hf) as [E _].
    rewrite firstn_skipn in E. rewrite E by (rewrite firstn_length; lia). cbn [held bind cdata]. do 2 eexists. split; [reflexivity|].
    split; [lia|]. rewrite firstn_all2 by lia. reflexivity.
  - specialize (Hr eq_refl). destruct (C45_codec_static_room sg from (firstn (length (spec_b64 from)) l) (skipn (length (spec_b64 from)) l) Hf) as [_ E].
    rewrite firstn_skipn in E. rewrite E by (rewrite firstn_length; lia). cbn [held bind cdata]. do 2 eexists. split; [reflexivity|].
    split; [lia|]. rewrite firstn_all2 by lia. reflexivity.
Qed.
Print Assumptions C69_codec_partial.
Theorem C69_cipher_partial : forall cx B dir key iv text t l, backend_ok cx B -> bytes key -> bytes iv -> bytes text -> bytes l -> usual t ->
  (ct_resize t = false -> (length text <= length l)%nat) ->
  exists l' n, crypt_t dir B cx key iv text t l = Some (l', n) /\
    given t l (chacha20 (pad_to 32 key) (iv_counter iv) (iv_nonce iv) text) l' n.
Proof.
  intros cx B dir key iv text t l BO Hk Hv Ht Hl U Hr. destruct (C25_chacha20_free cx B dir key iv text BO Hk Hv Ht) as (_ & D & S').
  assert (L : length (chacha20 (pad_to 32 key) (iv_counter iv) (iv_nonce iv) text) = length text) by (unfold chacha20; apply xor_with_length).
  unfold crypt_t, given. rewrite (as_c_usual t l U). destruct (ct_resize t).
  - rewrite (D l Hl). cbn [held bind cdata]. do 2 eexists. split; [reflexivity|]. auto.
  - rewrite (S' l Hl (Hr eq_refl)). cbn [held bind cdata]. do 2 eexists. split; [reflexivity|]. specialize (Hr eq_refl). rewrite L.
    split; [lia|]. rewrite firstn_all2 by lia. reflexivity.
Qed.
Print Assumptions C69_cipher_partial.

(** A type with resize but without reserve (or whose const objects give pointers to non-const) is not resized: a digest or key is lost in an
    empty object, and a text is written past the end of it. *)
Theorem C69_digest_refuted : forall cx a msg t size, chunk msg -> unusual t -> hash_digest_t cx (milo_hash a) msg t [] size = Some ([], 0%nat).
Proof.
  intros cx a msg t size Hm U. destruct (sha_free_correct cx a msg Hm) as (_ & _ & S' & _). unfold hash_digest_t. rewrite (as_c_unusual t [] U).
  pose proof (S' [] size (Forall_nil _)) as E. cbv zeta in E. rewrite E. cbn [length]. rewrite Nat.min_0_r. reflexivity.
Qed.
Print Assumptions C69_digest_refuted.
Theorem C69_encode_refuted : forall sg from t, from <> [] -> unusual t -> encode_t (base_16 sg) from t [] = None.
Proof.
  intros sg from t Hf U. unfold encode_t. rewrite (as_c_unusual t [] U). rewrite (C45_codec_room_needed sg from []); [reflexivity|].
  destruct from; [contradiction|cbn [length]; lia].
Qed.
Print Assumptions C69_encode_refuted.

(** The verdict of the one-shot AEAD decrypt, for every type: a forged message is reported by an exception exactly for those types that are not
    [container_static]; for those the program is terminated. *)
Theorem C69_decrypt : forall cx B dsz key iv aad ct junk mac t l,
  backend_ok cx B -> (dsz <= 16)%nat -> bytes key -> bytes iv -> chunk aad -> chunk ct -> bytes junk -> length junk = dsz -> bytes mac -> bytes l ->
  usual t -> (ct_resize t = false -> (length ct <= length l)%nat) ->
  exists l' n, given t l (aead_text (pad_to 32 key) (pad_to 12 iv) ct) l' n /\
    aead_decrypt_t B cx dsz key iv aad ct junk mac t l =
    Some (l', if list_eq_dec N.eq_dec mac (firstn dsz (aead_tag_on (cx_big cx) (pad_to 32 key) (pad_to 12 iv) aad ct)) then Returns n
              else if negb (ct_resize t) && negb (ct_reserve t) && ct_const t then Terminates else Throws err_aead_verify).
Proof.
  intros cx B dsz key iv aad ct junk mac t l BO Hd Hk Hv Ha Hc Hj Lj Hm Hl U Hr.
  assert (R : match as_c t l with Dynamic _ => True | Static l => (length ct <= length l)%nat end).
  { rewrite (as_c_usual t l U). destruct (ct_resize t); [exact I|exact (Hr eq_refl)]. }
  assert (B' : bytes (cdata (as_c t l))) by (rewrite (as_c_usual t l U); destruct (ct_resize t); exact Hl).
  destruct (free_decrypt_c_spec cx B BO dsz Hd key iv aad ct (as_c t l) junk mac Hk Hv Ha Hc B' R Hj Lj Hm) as [_ E].
  assert (L : length (aead_text (pad_to 32 key) (pad_to 12 iv) ct) = length ct) by apply aead_text_length.
  unfold aead_free_decrypt_c_err in E. unfold aead_decrypt_t, aapie_verify_throw.
  destruct (aapie_new B cx key iv) as [p|]; [|discriminate]. cbn [bind] in *. destruct (aapie_aad cx p aad) as [p1|]; [|discriminate]. cbn [bind] in *.
  destruct (aapie_crypt_c Decrypt B cx p1 ct (as_c t l)) as [[[p2 c] n]|]; [|discriminate]. cbn [bind] in *.
  destruct (aapie_verify cx dsz p2 junk mac) as [[p3 e]|]; [|discriminate]. cbn [bind] in *.
  unfold good, ktag, ktext in E.
  assert (Ec : c = if ct_resize t then Dynamic (aead_text (pad_to 32 key) (pad_to 12 iv) ct)
                   else Static (aead_text (pad_to 32 key) (pad_to 12 iv) ct ++ skipn (length ct) l)).
  { rewrite (as_c_usual t l U) in E. destruct (ct_resize t); congruence. }
  assert (En : n = length ct) by congruence.
  assert (Ee : e = if list_eq_dec N.eq_dec mac (firstn dsz (aead_tag_on (cx_big cx) (pad_to 32 key) (pad_to 12 iv) aad ct)) then err_none else err_aead_verify)
    by (destruct (list_eq_dec _ mac _); congruence).
  clear E. exists (cdata c), n. split.
  - subst c n. unfold given. destruct (ct_resize t); cbn [cdata]; [auto|]. rewrite L. specialize (Hr eq_refl). split; [lia|].
    rewrite firstn_all2 by lia. reflexivity.
  - subst e. assert (X : container_static t 0 None = negb (ct_resize t) && negb (ct_reserve t) && ct_const t).
    { unfold container_static, is_container. destruct (ct_resize t), (ct_reserve t), (ct_const t); reflexivity. }
    rewrite X. destruct (list_eq_dec _ mac _); [reflexivity|]. cbn [err_bool noexcept_if].
    destruct (negb (ct_resize t) && negb (ct_reserve t) && ct_const t); reflexivity.
Qed.
Print Assumptions C69_decrypt.

(** A digest returned as an object of the type the caller names: the compiler accepts arrays of 1 up to digest_size bytes and nothing else, and
    the object then holds that many bytes of the digest. *)
Theorem C69_returned : forall cx a msg t junk, chunk msg -> bytes junk -> length junk = ct_default t ->
  (digest_type_accepted (milo_hash a) t = true <->
   ct_const t = true /\ ct_reserve t = false /\ ct_resize t = false /\ (1 <= ct_default t <= sha_digest_size a)%nat) /\
  (digest_type_accepted (milo_hash a) t = true -> hash_digest_into_t cx (milo_hash a) msg t junk = Some (firstn (ct_default t) (fips a msg))).
Proof.
  intros cx a msg t junk Hm Hj Lj.
  assert (X : digest_type_accepted (milo_hash a) t = true <->
   ct_const t = true /\ ct_reserve t = false /\ ct_resize t = false /\ (1 <= ct_default t <= sha_digest_size a)%nat).
  { unfold digest_type_accepted, container_static, is_container.
    replace (ha_digest_size (milo_hash a)) with (sha_digest_size a) by (destruct a; reflexivity).
    rewrite !andb_true_iff, !negb_true_iff, !Nat.leb_le. tauto. }
  split; [exact X|]. intros A. apply X in A. destruct A as (_ & _ & _ & L). destruct (sha_free_correct cx a msg Hm) as (_ & _ & _ & _ & R).
  unfold hash_digest_into_t. rewrite (R junk Hj), Lj. f_equal.
  rewrite (skipn_all2 (n := length (fips a msg)) junk); [apply app_nil_r|]. rewrite fips_length by apply Hm. lia.
Qed.
Print Assumptions C69_returned.

(** The hypotheses can be met: a vector, an array, a span (usual) and a type with resize but no reserve (unusual). *)
Definition odd_type : ctype := {| ct_const := true; ct_reserve := false; ct_resize := true; ct_default := 0 |}.
Example C69_case : usual std_vector /\ usual (std_array 20) /\ usual std_span /\ unusual odd_type /\ ~ usual odd_type /\
  hash_digest_t (Build_ctx false false) (milo_hash SHA1) [97; 98; 99] std_vector [1; 2] 5 = Some ([169; 153; 62; 54; 71], 5%nat) /\
  hash_digest_t (Build_ctx false false) (milo_hash SHA1) [97; 98; 99] (std_array 3) [1; 2; 3] 2 = Some ([169; 153; 3], 2%nat) /\
  digest_type_accepted (milo_hash SHA1) (std_array 20) = true /\ digest_type_accepted (milo_hash SHA1) (std_array 21) = false /\
  digest_type_accepted (milo_hash SHA1) (std_array 0) = false /\ digest_type_accepted (milo_hash SHA1) std_vector = false.
Proof.
  unfold usual, unusual; cbn [ct_resize ct_reserve ct_const std_vector std_array std_span odd_type].
  repeat split; auto; try discriminate. intros H. destruct (H eq_refl). discriminate.
Qed.

(** A span is no container: it is never resized, is never the type of a returned digest, and a function that fills one may throw. *)
Example C69_span_case : is_container std_span = false /\ ct_reserve std_span = false /\ ct_resize std_span = false /\ container_static std_span 0 None = false /\ digest_type_accepted (milo_hash SHA1) std_span = false /\ as_c std_span [1; 2] = Static [1; 2].
Proof. repeat split; reflexivity. Qed.
Example C69_array_case : is_container (std_array 5) = true /\ ct_reserve (std_array 5) = false /\ ct_resize (std_array 5) = false /\
  container_static (std_array 5) 0 None = true /\ as_c (std_array 2) [1; 2] = Static [1; 2] /\ container_dynamic std_vector = true /\ ct_default std_vector = 0%nat.
Proof. repeat split; reflexivity. Qed.
