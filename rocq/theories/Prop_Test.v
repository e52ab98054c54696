(** Properties C60 and C61: the testing interface (src/milo/primitive/KIND/test.h). *)
From Verif Require Import Model_X86 Model_ShaAsm.
From Verif Require Import Base BaseLemmas BytesLemmas Spec_Bytes Spec_Codec Model_Codec Proof_Codec16 Proof_Codec64 Proof_CodecApi
  Spec_Sha Spec_Hash Spec_Mac Spec_Hmac Spec_Poly Spec_ChaCha Spec_Cipher Spec_Aead Spec_Kdf Model_Memory Model_Container Model_Sha Model_Mac Model_Hmac Model_Poly
  Model_Cipher Model_Aead Model_Kdf Proof_Memory2 Proof_ShaCore Proof_ShaApi Proof_Hmac Proof_Mac Proof_Poly Proof_ChaChaCore Proof_ChaCha Proof_Aead Proof_Kdf Proof_Kdf2 Proof_Kdf3
  Prop_Sha Prop_Hmac Prop_Poly Prop_Cipher Prop_Aead Prop_Kdf Prop_ShaAsm Prop_ChaChaAsm Model_Test Spec_Test Proof_Test Proof_Test2 Proof_Test3 Proof_Test4.
Local Open Scope N_scope.

(** The test [t] runs, and succeeds exactly when [P] holds. *)
Definition accepts (t : option bool) (P : Prop) : Prop := exists r, t = Some r /\ (r = true <-> P).

(** *** Bytes *)
Lemma fips_is_bytes a m : bytes (fips a m).
Proof. rewrite <- D_fips. apply H_bytes. Qed.
Lemma poly1305_is_bytes k m : bytes (poly1305 k m).
Proof. unfold poly1305. apply le_enc_bytes. Qed.
Lemma spec_hex_bytes l : bytes l -> bytes (spec_hex l).
Proof.
  intros H. assert (E : spec_unhex (spec_hex l) = Some l).
  { apply spec_unhex_case; [exact H|]. clear H. induction (spec_hex l) as [|x t IH]; constructor; auto. }
  apply spec_unhex_ascii in E. eapply Forall_impl; [|exact E]. intros c Hc. unfold is_byte. cbn beta in Hc. lia.
Qed.
Lemma spec_b64_bytes l : bytes l -> bytes (spec_b64 l).
Proof.
  intros H. pose proof (spec_unb64_ascii _ _ (spec_unb64_b64 l H)) as E. eapply Forall_impl; [|exact E]. intros c Hc. unfold is_byte. cbn beta in Hc. lia.
Qed.
Lemma spec_unhex_bytes t : forall l, spec_unhex t = Some l -> bytes l.
Proof.
  induction t as [|a|c d t IH] using pair_ind; intros l H; cbn [spec_unhex] in H.
  - assert (l = []) by congruence. subst. constructor.
  - discriminate.
  - destruct (hex_value c) as [x|] eqn:Ex; [|discriminate]. destruct (hex_value d) as [y|] eqn:Ey; [|discriminate].
    destruct (spec_unhex t) as [l'|]; [|discriminate]. assert (l = x * 16 + y :: l') by congruence. subst.
    pose proof (hex_value_lt _ _ Ex). pose proof (hex_value_lt _ _ Ey). constructor; [unfold is_byte; lia|]. apply IH. reflexivity.
Qed.
Lemma spec_unb64_bytes t : forall l, spec_unb64 t = Some l -> bytes l.
Proof.
  induction t as [|a|a b|a b c|a b c d t IH] using quad_ind; intros l H; try discriminate.
  - assert (l = []) by (cbn in H; congruence). subst. constructor.
  - destruct t as [|e t].
    + cbn [spec_unb64] in H.
      destruct (b64_value a) as [w|] eqn:Ew; [|discriminate]. destruct (b64_value b) as [x|] eqn:Ex; [|discriminate].
      apply b64_value_lt in Ew, Ex.
      destruct (b64_value c) as [y|] eqn:Ey.
      * apply b64_value_lt in Ey. destruct (b64_value d) as [z|] eqn:Ez.
        -- apply b64_value_lt in Ez. injection H as <-. repeat constructor; unfold is_byte; change (2 ^ 18) with 262144 in *; change (2 ^ 12) with 4096 in *; change (2 ^ 6) with 64 in *;
             change (2 ^ 16) with 65536; change (2 ^ 8) with 256; try (apply N.mod_lt; lia); apply N.div_lt_upper_bound; lia.
        -- destruct (d =? pad_char); [|discriminate]. injection H as <-. repeat constructor; unfold is_byte; change (2 ^ 12) with 4096 in *; change (2 ^ 6) with 64 in *;
             change (2 ^ 10) with 1024; change (2 ^ 2) with 4; try (apply N.mod_lt; lia); apply N.div_lt_upper_bound; lia.
      * destruct (b64_value d) as [z|]; [discriminate|]. destruct ((c =? pad_char) && (d =? pad_char)); [|discriminate].
        injection H as <-. repeat constructor; unfold is_byte; change (2 ^ 6) with 64; change (2 ^ 4) with 16; apply N.div_lt_upper_bound; lia.
    + rewrite spec_unb64_step in H by discriminate.
      destruct (b64_value a) as [w|] eqn:Ew; [|discriminate]. destruct (b64_value b) as [x|] eqn:Ex; [|discriminate].
      destruct (b64_value c) as [y|] eqn:Ey; [|discriminate]. destruct (b64_value d) as [z|] eqn:Ez; [|discriminate].
      destruct (spec_unb64 (e :: t)) as [l'|] eqn:E; [|discriminate]. apply b64_value_lt in Ew, Ex, Ey, Ez. specialize (IH _ eq_refl).
      injection H as <-. change (2 ^ 18) with 262144 in *; change (2 ^ 12) with 4096 in *; change (2 ^ 6) with 64 in *.
      constructor; [unfold is_byte; change (2 ^ 16) with 65536; apply N.div_lt_upper_bound; lia|].
      constructor; [apply N.mod_lt; lia|]. constructor; [apply N.mod_lt; lia|exact IH].
Qed.
Lemma accepts_equal cx a b : bytes a -> bytes b -> accepts (mem_equal_c cx 1 1 a b) (a = b).
Proof. exact (mem_equal_c_bytes cx a b). Qed.
Lemma accepts_iff t P Q : accepts t P -> (P <-> Q) -> accepts t Q.
Proof. intros (r & E & H) Q'. exists r. split; [exact E|]. rewrite H. exact Q'. Qed.

(** *** C60: test vectors.  [junk] is what the uninitialised array of the digest held. *)
Theorem C60_hash : forall cx a msg digest junk, chunk msg -> bytes digest -> bytes junk -> length junk = sha_digest_size a ->
  accepts (test_hash cx (milo_hash a) msg digest junk) (digest = fips a msg).
Proof.
  intros cx a msg digest junk Hm Hd Hj Lj. unfold test_hash. destruct (sha_free_correct cx a msg Hm) as (_ & _ & _ & _ & F).
  rewrite (F junk Hj). cbn [bind]. pose proof (C17_sizes a msg (proj1 Hm)) as L.
  rewrite skipn_all2 by lia. rewrite firstn_all2 by lia. rewrite app_nil_r.
  apply (accepts_iff _ _ _ (accepts_equal cx _ _ (fips_is_bytes a msg) Hd)). split; congruence.
Qed.
Print Assumptions C60_hash.
Example C60_hash_case : exists r, test_hash host (milo_hash SHA1) [97; 98; 99] (fips SHA1 [97; 98; 99]) (repeat 7 20) = Some r /\ r = true /\
  test_hash host (milo_hash SHA1) [97; 98; 100] (fips SHA1 [97; 98; 99]) (repeat 7 20) = Some false.
Proof. exists true. vm_compute. auto. Qed.

Theorem C60_hmac : forall cx a dsz key msg digest junk, (dsz <= sha_digest_size a)%nat -> chunk key -> chunk msg -> bytes digest -> bytes junk -> length junk = dsz ->
  accepts (test_mac cx (mac_hmac (milo_hash a) dsz) 0 key msg digest junk) (digest = firstn dsz (hmac (fips a) (sha_block_size a) key msg)).
Proof.
  intros cx a dsz key msg digest junk Hd Hk Hm Hg Hj Lj. unfold test_mac. cbn [Nat.eqb negb andb].
  destruct (C22_hmac_free cx a dsz key msg Hd Hk Hm) as (_ & _ & _ & _ & F). rewrite (F junk Hj). cbn [bind]. clear F.
  set (T := firstn dsz (hmac (fips a) (sha_block_size a) key msg)).
  assert (L : length T = dsz) by (unfold T; rewrite firstn_length, C22_size by (apply Hk || apply Hm); lia).
  assert (B : bytes T) by (apply bytes_firstn; unfold hmac; apply fips_is_bytes).
  rewrite skipn_all2 by lia. rewrite firstn_all2 by lia. rewrite app_nil_r.
  apply (accepts_iff _ _ _ (accepts_equal cx _ _ B Hg)). split; congruence.
Qed.
Print Assumptions C60_hmac.
(** A key of more than 32 bytes is refused, a shorter one padded with zeros. *)
Theorem C60_poly1305 : forall cx dsz key msg digest junk, (dsz <= 16)%nat -> bytes key -> chunk msg -> bytes digest -> bytes junk -> length junk = dsz ->
  accepts (test_mac cx (mac_poly dsz) 32 key msg digest junk) ((length key <= 32)%nat /\ digest = firstn dsz (poly1305_on (cx_big cx) (pad_to 32 key) msg)).
Proof.
  intros cx dsz key msg digest junk Hd Hk Hm Hg Hj Lj. unfold test_mac. cbn [Nat.eqb negb andb].
  destruct (Nat.ltb_spec 32 (length key)) as [G|G].
  - exists false. split; [reflexivity|]. split; [discriminate|]. intros [G' _]. lia.
  - destruct (mfree_all (poly_on true cx dsz Hd) key msg Hk Hm) as (_ & _ & _ & _ & F). change (mac_poly_ov true dsz) with (mac_poly dsz) in F. rewrite (F junk Hj). cbn [bind]. clear F.
    set (T := firstn dsz (poly1305_on (cx_big cx) (pad_to 32 key) msg)).
    assert (L : length T = dsz) by (unfold T; rewrite firstn_length, poly1305_on_length; lia).
    assert (B : bytes T) by (apply bytes_firstn, poly1305_is_bytes).
    fold T.
    rewrite skipn_all2 by lia. rewrite firstn_all2 by lia. rewrite app_nil_r.
    apply (accepts_iff _ _ _ (accepts_equal cx _ _ B Hg)). split; [intros <-; auto|intros [_ ->]; reflexivity].
Qed.
Print Assumptions C60_poly1305.
Theorem C60_cipher : forall cx B dir key iv text result, backend_ok cx B -> bytes key -> bytes iv -> bytes text -> bytes result ->
  accepts (test_cipher dir B cx key iv text result) (result = chacha20 (pad_to 32 key) (iv_counter iv) (iv_nonce iv) text).
Proof.
  intros cx B dir key iv text result BO Hk Hv Ht Hr. unfold test_cipher.
  destruct (C25_chacha20_free cx B dir key iv text BO Hk Hv Ht) as (E & _). rewrite E. cbn [bind].
  apply (accepts_iff _ _ _ (accepts_equal cx _ _ (chacha20_bytes _ _ _ _ Ht) Hr)). split; congruence.
Qed.
Print Assumptions C60_cipher.
Lemma aead_text_is_bytes key iv t : bytes t -> bytes (aead_text key iv t).
Proof. intros H. unfold aead_text. exact (chacha20_bytes key 1 iv t H). Qed.
Theorem C60_aead_encrypt : forall cx B dsz key iv aad text ciphertext digest junk,
  backend_ok cx B -> (dsz <= 16)%nat -> bytes key -> bytes iv -> chunk aad -> chunk text ->
  bytes ciphertext -> bytes digest -> bytes junk -> length junk = dsz ->
  let c := aead_text (pad_to 32 key) (pad_to 12 iv) text in
  accepts (test_aead_encrypt B cx dsz key iv aad text ciphertext digest junk)
    (ciphertext = c /\ digest = firstn dsz (aead_tag_on (cx_big cx) (pad_to 32 key) (pad_to 12 iv) aad c)).
Proof.
  intros cx B dsz key iv aad text ciphertext digest junk BO Hd Hk Hv Ha Ht Hc Hg Hj Lj c. unfold test_aead_encrypt.
  pose proof (free_encrypt_new_spec cx B BO dsz Hd key iv aad text junk Hk Hv Ha Ht Hj Lj) as E. cbv zeta in E. rewrite E. cbn [bind].
  change (ktext key iv text) with c. unfold ktag. set (tag := firstn dsz (aead_tag_on (cx_big cx) (pad_to 32 key) (pad_to 12 iv) aad c)).
  assert (Bc : bytes c) by (apply aead_text_is_bytes, Ht). assert (Bt : bytes tag) by (apply bytes_firstn; unfold aead_tag_on; apply poly1305_is_bytes).
  destruct (mem_equal_c_bytes cx c ciphertext Bc Hc) as (r & E1 & V1). rewrite E1. cbn [bind]. destruct r; cbn [negb].
  - assert (Ec : c = ciphertext) by (apply V1; reflexivity). destruct (mem_match_c_bytes cx tag digest Bt Hg) as (r & E2 & V2). exists r. split; [exact E2|].
    rewrite V2. split; [intros <-; auto|intros [_ ->]; reflexivity].
  - exists false. split; [reflexivity|]. split; [discriminate|]. intros [-> _]. apply V1. reflexivity.
Qed.
Print Assumptions C60_aead_encrypt.
Theorem C60_aead_decrypt : forall cx B dsz key iv aad text digest plaintext junk,
  backend_ok cx B -> (dsz <= 16)%nat -> bytes key -> bytes iv -> chunk aad -> chunk text ->
  bytes plaintext -> bytes digest -> bytes junk -> length junk = dsz ->
  accepts (test_aead_decrypt B cx dsz key iv aad text digest plaintext junk)
    (digest = firstn dsz (aead_tag_on (cx_big cx) (pad_to 32 key) (pad_to 12 iv) aad text) /\ plaintext = aead_text (pad_to 32 key) (pad_to 12 iv) text).
Proof.
  intros cx B dsz key iv aad text digest plaintext junk BO Hd Hk Hv Ha Ht Hp Hg Hj Lj. unfold test_aead_decrypt.
  destruct (free_decrypt_new_spec cx B BO dsz Hd key iv aad text junk digest Hk Hv Ha Ht Hj Lj Hg) as [E _]. rewrite E. cbn [bind]. clear E.
  unfold good, ktag, ktext. destruct (list_eq_dec N.eq_dec digest _) as [e|e].
  - assert (Bp : bytes (aead_text (pad_to 32 key) (pad_to 12 iv) text)) by (apply aead_text_is_bytes, Ht).
    apply (accepts_iff _ _ _ (accepts_equal cx _ _ Bp Hp)). split; [intros <-; auto|intros [_ ->]; reflexivity].
  - exists false. split; [reflexivity|]. split; [discriminate|]. intros [H _]. contradiction.
Qed.
Print Assumptions C60_aead_decrypt.
Lemma kdf_stream_bytes {K cx V D lim argv keq hold sees later} (OK : @kdf_ok K cx V D lim argv keq hold sees later) env a v n :
  argv env a v -> lim 0%nat n -> bytes (D v n) /\ length (D v n) = n.
Proof.
  intros A L. split; [|exact (ko_len _ _ _ _ _ _ _ _ _ OK env a v n A)].
  pose proof (ko_new _ _ _ _ _ _ _ _ _ OK env) as E0.
  destruct (ko_init _ _ _ _ _ _ _ _ _ OK env _ _ a v E0 E0 A) as (o & oz & _ & _ & E1 & H & S & _).
  destruct (ko_der _ _ _ _ _ _ _ _ _ OK env o o n (proj1 (ko_lr _ _ _ _ _ _ _ _ _ OK _ _ _ E1))) as (r & Br & Lr & Y).
  destruct (Y (repeat 0 n) (bytes_repeat0 n)) as (p1 & p2 & X1 & _); [rewrite repeat_length; lia|].
  destruct (ko_hold _ _ _ _ _ _ _ _ _ OK env v 0 o (repeat 0 n) n H S L (bytes_repeat0 n)) as (o2 & X & _); [rewrite repeat_length; lia|].
  assert (Q : r ++ skipn n (repeat 0 n) = piece (D v) 0 n ++ skipn n (repeat 0 n)) by congruence. apply app_inv_tail in Q.
  change (piece (D v) 0 n) with (D v n) in Q. rewrite <- Q. exact Br.
Qed.
Theorem C60_hkdf : forall cx a dsz env r ikm salt info key,
  (1 <= dsz <= sha_digest_size a)%nat -> holds3 env r ikm salt info -> bytes key -> (length key <= 255 * dsz)%nat ->
  accepts (test_kdf cx (HKDF a dsz) env r key) (key = hkdf (prf a dsz) dsz ikm salt info (length key)).
Proof.
  intros cx a dsz env r ikm salt info key Hd H Hk Lk. unfold test_kdf.
  destruct (C35_hkdf cx a dsz env r ikm salt info Hd H) as (_ & _ & _ & F & _). rewrite (F (length key) Lk). cbn [bind].
  destruct (kdf_stream_bytes (hok cx a dsz Hd) env r (ikm, salt, info) (length key) (h3 _ _ _ _ _ H) Lk) as [B _].
  apply (accepts_iff _ _ _ (accepts_equal cx _ _ B Hk)). split; intros E; symmetry; exact E.
Qed.
Print Assumptions C60_hkdf.
Theorem C60_pbkdf2 : forall cx a dsz env r password salt key,
  (1 <= dsz <= sha_digest_size a)%nat -> holds2 env r password salt -> 1 <= snd r -> bytes key ->
  accepts (test_kdf cx (PBKDF2 a dsz) env r key) (key = pbkdf2 (prf a dsz) dsz password salt (N.to_nat (snd r)) (length key)).
Proof.
  intros cx a dsz env r password salt key Hd H Hr Hk. unfold test_kdf.
  destruct (kreturns (pok cx a dsz Hd) env r (password, salt, snd r) (fun _ => True) (h2 _ _ _ _ H) (fun n _ => I)) as (_ & _ & _ & F & _).
  change (kdf_pbkdf_2 (mac_hmac (milo_hash a) dsz)) with (PBKDF2 a dsz) in F. rewrite (F (length key) I). cbn [bind].
  destruct (kdf_stream_bytes (pok cx a dsz Hd) env r (password, salt, snd r) (length key) (h2 _ _ _ _ H) I) as [B _].
  apply (accepts_iff _ _ _ (accepts_equal cx _ _ B Hk)). unfold pD. cbn [fst snd].
  replace (Nat.max 1 (N.to_nat (snd r))) with (N.to_nat (snd r)) by lia. split; intros E; symmetry; exact E.
Qed.
Print Assumptions C60_pbkdf2.
Example C60_kdf_case : holds3 mem9 r9 [1; 2; 3] [4; 5] [6; 7; 8; 9] /\ exists key, bytes key /\ length key = 3%nat /\ test_kdf host (HKDF SHA1 20) mem9 r9 key = Some true.
Proof.
  split; [exact has9|]. exists (hkdf (prf SHA1 20) 20 [1; 2; 3] [4; 5] [6; 7; 8; 9] 3).
  split; [vm_compute; repeat constructor|]. split; vm_compute; reflexivity.
Qed.
(** Codecs.  Decoding: even hexadecimal texts and, where characters are signed, ASCII texts (see C03, C04, C08). *)
Theorem C60_base_16_encode : forall cx sg from to, bytes from -> N.of_nat (length from) < 2 ^ 63 -> bytes to ->
  accepts (test_encode cx (base_16 sg) from to) (to = spec_hex from).
Proof.
  intros cx sg from to Hf Lf Ht. unfold test_encode.
  assert (R : Forall2 (fun c d => d = c \/ d = upper c) (spec_hex from) (spec_hex from)) by (clear; induction (spec_hex from); constructor; auto).
  destruct (base16_roundtrip sg from _ Hf Lf R) as [E _]. rewrite E. cbn [bind].
  apply (accepts_iff _ _ _ (accepts_equal cx _ _ (spec_hex_bytes _ Hf) Ht)). split; congruence.
Qed.
Print Assumptions C60_base_16_encode.
Theorem C60_base_64_encode : forall cx sg from to, bytes from -> N.of_nat (length from) < 2 ^ 60 -> bytes to ->
  accepts (test_encode cx (base_64 sg) from to) (to = spec_b64 from).
Proof.
  intros cx sg from to Hf Lf Ht. unfold test_encode.
  destruct (base64_roundtrip sg from Hf Lf) as [E _]. rewrite E. cbn [bind].
  apply (accepts_iff _ _ _ (accepts_equal cx _ _ (spec_b64_bytes _ Hf) Ht)). split; congruence.
Qed.
Print Assumptions C60_base_64_encode.
Theorem C60_base_16_decode : forall cx sg from to, bytes from -> sg = false \/ Forall (fun c => c < 128) from -> Nat.odd (length from) = false -> bytes to ->
  accepts (test_decode cx (base_16 sg) from to) (spec_unhex from = Some to).
Proof.
  intros cx sg from to Hf Hs Ho Ht. unfold test_decode.
  assert (E : apie_decode_new (base_16 sg) from = Some (match spec_unhex from with Some l => Returns l | None => Throws err_codec_base_16_decode end)).
  { destruct Hs as [->|Ha]; [apply base16_decode_unsigned; assumption|apply base16_decode_ascii; assumption]. }
  rewrite E. cbn [bind]. destruct (spec_unhex from) as [l|] eqn:U.
  - apply (accepts_iff _ _ _ (accepts_equal cx _ _ (spec_unhex_bytes _ _ U) Ht)). split; congruence.
  - exists false. split; [reflexivity|]. split; discriminate.
Qed.
Print Assumptions C60_base_16_decode.
Theorem C60_base_64_decode : forall cx sg from to, bytes from -> sg = false \/ Forall (fun c => c < 128) from -> (Z.of_nat (length from) * 3 < 2 ^ 64)%Z -> bytes to ->
  accepts (test_decode cx (base_64 sg) from to) (spec_unb64 from = Some to).
Proof.
  intros cx sg from to Hf Hs Ho Ht. unfold test_decode.
  assert (E : apie_decode_new (base_64 sg) from = Some (match spec_unb64 from with Some l => Returns l | None => Throws err_codec_base_64_decode end)).
  { destruct Hs as [->|Ha]; [apply base64_decode_unsigned; assumption|apply base64_decode_ascii; assumption]. }
  rewrite E. cbn [bind]. destruct (spec_unb64 from) as [l|] eqn:U.
  - apply (accepts_iff _ _ _ (accepts_equal cx _ _ (spec_unb64_bytes _ _ U) Ht)). split; congruence.
  - exists false. split; [reflexivity|]. split; discriminate.
Qed.
Print Assumptions C60_base_64_decode.
Example C60_codec_case : test_decode host (base_64 true) [90; 109; 57; 118] [102; 111; 111] = Some true /\ test_decode host (base_64 true) [90; 109; 57; 33] [102; 111; 111] = Some false /\
  test_encode host (base_16 true) [171] [97; 98] = Some true.
Proof. vm_compute. auto. Qed.

(** *** C61: differential tests of arbitrary implementations.  [steps] bounds the loops of the model; [junk]: as above. *)
Theorem C61_hash : forall cx al0 al1 F0 F1 junk steps,
  computes cx al0 F0 -> computes cx al1 F1 -> ha_digest_size al0 = ha_digest_size al1 ->
  bytes junk -> length junk = ha_digest_size al0 -> (344 <= steps)%nat ->
  accepts (hash_differential cx al0 al1 junk steps) (forall i, (i < 512)%nat -> F0 (sample 512 i) = F1 (sample 512 i)).
Proof.
  intros cx al0 al1 F0 F1 junk steps C0 C1 E Hj Lj Hs.
  exact (hash_differential_spec cx al0 al1 F0 F1 junk 512 steps C0 C1 E Hj Lj eq_refl Hs).
Qed.
Print Assumptions C61_hash.
Lemma milo_computes cx a : computes cx (milo_hash a) (fips a).
Proof. split; [|exact (C46_hash cx a)]. intros m Hm. rewrite C17_sizes by apply Hm. destruct a; reflexivity. Qed.
(** Hence the portable classes pass against themselves, and against the classes with the assembly of C44. *)
Theorem C61_sha_passes : forall cx a junk steps, bytes junk -> length junk = sha_digest_size a -> (344 <= steps)%nat ->
  hash_differential cx (milo_hash a) (milo_hash a) junk steps = Some true.
Proof.
  intros cx a junk steps Hj Lj Hs.
  destruct (C61_hash cx (milo_hash a) (milo_hash a) (fips a) (fips a) junk steps (milo_computes cx a) (milo_computes cx a) eq_refl Hj) as (r & E & V);
    [rewrite Lj; destruct a; reflexivity|exact Hs|]. rewrite E. f_equal. apply V. reflexivity.
Qed.
Print Assumptions C61_sha_passes.
Lemma ni_computes cx a j : any_regs j -> computes cx (ni_hash a j) (fips a).
Proof.
  intros J. split; [intros m Hm; rewrite C17_sizes by apply Hm; destruct a; reflexivity|]. intros calls Hc Ho.
  assert (Hc' : Forall (hcall_ok (milo_hash a)) calls) by (destruct a; exact Hc).
  destruct (C44_histories cx cx a j calls J Hc') as (p & p' & outs & R & R').
  destruct (C46_hash cx a calls Hc' Ho) as (q & Q). exists p'. rewrite R'. congruence.
Qed.
Theorem C61_sha_asm_passes : forall cx a j junk steps, any_regs j -> bytes junk -> length junk = sha_digest_size a -> (344 <= steps)%nat ->
  hash_differential cx (milo_hash a) (ni_hash a j) junk steps = Some true.
Proof.
  intros cx a j junk steps J Hj Lj Hs.
  destruct (C61_hash cx (milo_hash a) (ni_hash a j) (fips a) (fips a) junk steps (milo_computes cx a) (ni_computes cx a j J)) as (r & E & V);
    [destruct a; reflexivity|exact Hj|rewrite Lj; destruct a; reflexivity|exact Hs|]. rewrite E. f_equal. apply V. reflexivity.
Qed.
Print Assumptions C61_sha_asm_passes.

Theorem C61_mac : forall cx M0 M1 T0 T1 fin junk steps,
  mcomputes cx M0 T0 -> mcomputes cx M1 T1 -> ma_digest_size M0 = ma_digest_size M1 ->
  bytes junk -> length junk = ma_digest_size M0 -> (344 <= steps)%nat ->
  accepts (mac_differential cx M0 M1 fin junk steps)
    (forall i k, (i < 512)%nat -> (k < 344)%nat ->
       T0 (firstn (3 * k) (sample 512 i)) (sample 512 i) = T1 (firstn (3 * k) (sample 512 i)) (sample 512 i)).
Proof.
  intros cx M0 M1 T0 T1 fin junk steps C0 C1 E Hj Lj Hs.
  exact (mac_differential_spec cx M0 M1 T0 T1 fin junk 512 steps C0 C1 E Hj Lj eq_refl Hs).
Qed.
Print Assumptions C61_mac.
Lemma hmac_mcomputes cx a dsz : (dsz <= sha_digest_size a)%nat ->
  mcomputes cx (mac_hmac (milo_hash a) dsz) (fun k m => firstn dsz (hmac (fips a) (sha_block_size a) k m)).
Proof.
  intros Hd. split; [intros k m Hk Hm; rewrite firstn_length, C22_size by (apply Hk || apply Hm); cbn [mac_hmac ma_digest_size]; lia|].
  intros key calls Hk Hc Ho. exact (C46_hmac cx a dsz key calls Hd Hk Hc Ho).
Qed.
Theorem C61_hmac_passes : forall cx a dsz fin junk steps, (dsz <= sha_digest_size a)%nat -> bytes junk -> length junk = dsz -> (344 <= steps)%nat ->
  mac_differential cx (mac_hmac (milo_hash a) dsz) (mac_hmac (milo_hash a) dsz) fin junk steps = Some true.
Proof.
  intros cx a dsz fin junk steps Hd Hj Lj Hs.
  destruct (C61_mac cx _ _ _ _ fin junk steps (hmac_mcomputes cx a dsz Hd) (hmac_mcomputes cx a dsz Hd) eq_refl Hj Lj Hs) as (r & E & V).
  rewrite E. f_equal. apply V. reflexivity.
Qed.
Print Assumptions C61_hmac_passes.
Lemma poly_mcomputes cx dsz : (dsz <= 16)%nat ->
  mcomputes cx (mac_poly dsz) (fun k m => firstn dsz (poly1305_on (cx_big cx) (pad_to 32 k) m)).
Proof.
  intros Hd. split; [intros k m Hk Hm; rewrite firstn_length, poly1305_on_length; change (ma_digest_size (mac_poly dsz)) with dsz; lia|].
  intros key calls Hk Hc Ho. apply (C46_poly cx dsz key calls Hd (proj1 Hk)); [|exact Ho].
  eapply Forall_impl; [|exact Hc]. intros [k|m|d s|c s]; cbn [mcall_ok]; try (intros H; exact H). intros H. apply H.
Qed.
Theorem C61_poly1305_passes : forall cx dsz fin junk steps, (dsz <= 16)%nat -> bytes junk -> length junk = dsz -> (344 <= steps)%nat ->
  mac_differential cx (mac_poly dsz) (mac_poly dsz) fin junk steps = Some true.
Proof.
  intros cx dsz fin junk steps Hd Hj Lj Hs.
  destruct (C61_mac cx _ _ _ _ fin junk steps (poly_mcomputes cx dsz Hd) (poly_mcomputes cx dsz Hd) eq_refl Hj Lj Hs) as (r & E & V).
  rewrite E. f_equal. apply V. reflexivity.
Qed.
Print Assumptions C61_poly1305_passes.

Theorem C61_cipher : forall cx B0 B1 F0 F1 steps, streams cx B0 F0 -> streams cx B1 F1 -> (2 * (64 * 64 + 1) <= steps)%nat ->
  accepts (cipher_differential B0 B1 cx steps)
    (forall i j, (i < 64 * 64)%nat -> (j < 64 * 64)%nat -> F0 (rounds 32 i) (rounds 16 i) j = F1 (rounds 32 i) (rounds 16 i) j).
Proof. intros cx B0 B1 F0 F1 steps S0 S1 Hs. exact (cipher_differential_spec cx B0 B1 F0 F1 (64 * 64) steps S0 S1 Hs). Qed.
Print Assumptions C61_cipher.
(** Correct backends, among them the portable one and the assembly of C43, pass against each other. *)
Theorem C61_chacha20_passes : forall cx B0 B1 steps, backend_ok cx B0 -> backend_ok cx B1 -> (2 * (64 * 64 + 1) <= steps)%nat ->
  cipher_differential B0 B1 cx steps = Some true.
Proof.
  intros cx B0 B1 steps H0 H1 Hs.
  destruct (C61_cipher cx B0 B1 api_byte api_byte steps (backend_streams cx B0 H0) (backend_streams cx B1 H1) Hs) as (r & E & V).
  rewrite E. f_equal. apply V. reflexivity.
Qed.
Print Assumptions C61_chacha20_passes.

Theorem C61_hkdf : forall cx M0 M1 D0 D1,
  let r := (0%nat, (64 * 4)%nat) in
  derives cx (kdf_hkdf M0) (64 * 4) (fun _ => (r, r, r)) D0 -> derives cx (kdf_hkdf M1) (64 * 4) (fun _ => (r, r, r)) D1 ->
  accepts (hkdf_differential cx M0 M1) (forall i j, (i < 64 * 4)%nat -> (j < 64 * 4)%nat -> D0 i (sample (64 * 4) i) j = D1 i (sample (64 * 4) i) j).
Proof. intros cx M0 M1 D0 D1 r H0 H1. exact (kdf_differential_spec cx _ _ _ _ _ D0 D1 H0 H1). Qed.
Print Assumptions C61_hkdf.
Theorem C61_pbkdf2 : forall cx M0 M1 D0 D1,
  let r := (0%nat, (64 * 2)%nat) in
  derives cx (kdf_pbkdf_2 M0) (64 * 2) (fun i => (r, r, N.of_nat i)) D0 -> derives cx (kdf_pbkdf_2 M1) (64 * 2) (fun i => (r, r, N.of_nat i)) D1 ->
  accepts (pbkdf_2_differential cx M0 M1) (forall i j, (i < 64 * 2)%nat -> (j < 64 * 2)%nat -> D0 i (sample (64 * 2) i) j = D1 i (sample (64 * 2) i) j).
Proof. intros cx M0 M1 D0 D1 r H0 H1. exact (kdf_differential_spec cx _ _ _ _ _ D0 D1 H0 H1). Qed.
Print Assumptions C61_pbkdf2.
Theorem C61_kdf_passes : forall cx a dsz, (1 <= dsz <= sha_digest_size a)%nat ->
  hkdf_differential cx (mac_hmac (milo_hash a) dsz) (mac_hmac (milo_hash a) dsz) = Some true /\
  pbkdf_2_differential cx (mac_hmac (milo_hash a) dsz) (mac_hmac (milo_hash a) dsz) = Some true.
Proof.
  intros cx a dsz Hd. split.
  - assert (H : derives cx (kdf_hkdf (mac_hmac (milo_hash a) dsz)) (64 * 4) _ _) by (apply (hkdf_derives cx a dsz (64 * 4) Hd); right; reflexivity).
    destruct (C61_hkdf cx _ _ _ _ H H) as (r & E & V). rewrite E. f_equal. apply V. reflexivity.
  - assert (H : derives cx (kdf_pbkdf_2 (mac_hmac (milo_hash a) dsz)) (64 * 2) _ _) by (apply (pbkdf2_derives cx a dsz (64 * 2) Hd); reflexivity).
    destruct (C61_pbkdf2 cx _ _ _ _ H H) as (r & E & V). rewrite E. f_equal. apply V. reflexivity.
Qed.
Print Assumptions C61_kdf_passes.
(** A difference is found: SHA-224 and the first 28 bytes of SHA-256 differ on the first message already; the keys and messages. *)
Example C61_case : fips SHA224 (sample 512 0) <> firstn 28 (fips SHA256 (sample 512 0)) /\
  sample 6 4 = [0; 1; 2; 3; 0; 0] /\ rounds 3 5 = [3; 4; 2] /\ rounds 3 0 = [0; 0; 0].
Proof. split; [vm_compute; discriminate|]. vm_compute. auto. Qed.
