(** Moving text while it is sealed or opened (the AEAD). *)
From Verif Require Import Base BaseLemmas BytesLemmas Spec_Bytes Spec_ChaCha Spec_Cipher Spec_Poly Spec_Hash Spec_Aead Model_Memory Model_Container Model_Hmac Model_Cipher Model_Aead Model_X86
  Spec_ChaChaAsm Model_ChaChaAsm Proof_CodecApi Proof_ChaChaCore Proof_ChaCha Proof_Aead Proof_ChaChaAsm3 Proof_Moves2 Spec_Moves Spec_Range Proof_Range.
Local Open Scope N_scope.

Section GOOD.
  Context (cx : ctx) (B : backend) (BO : backend_ok cx B) (dsz : nat) (Hd : (dsz <= 16)%nat) (shift : nat -> Prop).
  Hypothesis P : forall d s n, (d <= s)%nat -> shift (s - d)%nat -> pair_ok cx B d s n.
  Lemma aead_moves key nonce aad m src n dst : bytes key -> length key = 32%nat -> bytes nonce -> length nonce = 12%nat -> chunk aad ->
    bytes m -> (src + n <= length m)%nat -> N.of_nat n < 2 ^ 64 -> (dst <= src)%nat -> shift (src - dst)%nat ->
    let t := slice m src n in
    let c := aead_text key nonce t in
    (forall mac, bytes mac -> (dsz <= length mac)%nat ->
       aead_free_encrypt B cx dsz key nonce aad m src n dst mac
       = Some (put m dst c, firstn dsz (aead_tag_on (cx_big cx) key nonce aad c) ++ skipn dsz mac, n, dsz)) /\
    (forall junk, bytes junk -> length junk = dsz ->
       aead_free_decrypt B cx dsz key nonce aad m src n junk (firstn dsz (aead_tag_on (cx_big cx) key nonce aad t)) dst = Some (put m dst c, Returns n)).
  Proof.
    intros Hk Lk Hv Lv Ha Hm Hs Hn Hds HE t c.
    pose proof (pad_to_id 32 key Lk) as Pk. pose proof (pad_to_id 12 nonce Lv) as Pn.
    assert (T : textmv cx B m src n dst).
    { split; [exact Hm|]. split; [exact Hs|]. split; [lia|]. split; [left; exact Hds|]. split; [exact (P dst src n Hds HE)|exact Hn]. }
    split.
    - intros mac Hmac Lmac. rewrite (free_encrypt_mv cx B BO dsz Hd key nonce aad m src n dst mac Hk Hv Ha T Hmac Lmac).
      unfold ktext, ktag. rewrite Pk, Pn. reflexivity.
    - intros junk Hj Lj.
      assert (Bt : bytes (firstn dsz (aead_tag_on (cx_big cx) key nonce aad t))) by (apply bytes_firstn; unfold aead_tag_on, poly1305_on, poly1305; apply le_enc_bytes).
      destruct (free_decrypt_mv cx B BO dsz Hd key nonce aad m src n dst junk _ Hk Hv Ha T Hj Lj Bt) as [E _].
      rewrite E. unfold ktext, good, ktag. rewrite Pk, Pn. fold t c.
      destruct (list_eq_dec N.eq_dec _ _) as [_|X]; [reflexivity|contradiction X; reflexivity].
  Qed.
End GOOD.

Section BAD.
  Context (cx : ctx) (B : backend) (BO : backend_ok cx B) (dsz : nat) (Hd : (dsz <= 16)%nat) (turn : nat -> nat).
  Let BS := bk_block B.
  Hypothesis M : forall n st m d e, length st = 16%nat -> words 32 st -> bytes m -> (d + e + BS * n <= length m)%nat ->
    exists T, used_text BS turn (st_byte st) e (slice m (d + e) (BS * n)) T /\ bytes T /\
      bk_transform B cx n st m d (d + e) = Some (put m d (xor_with (st_byte st) 0 T), (bk_ratio B * n)%nat).
  Variables (e q : nat).
  Hypothesis Q1 : (q + e < BS)%nat.
  Hypothesis Q2 : overtaken BS turn e q = true.
  Hypothesis Q3 : overtaken BS turn e (q + e) = false.
  Lemma aead_hit key nonce aad m dst n : bytes key -> length key = 32%nat -> bytes nonce -> length nonce = 12%nat -> chunk aad ->
    bytes m -> (dst + e + n <= length m)%nat -> N.of_nat n < 2 ^ 64 -> (2 * BS <= n + 1)%nat ->
    let t := slice m (dst + e) n in
    let k := chacha20_byte key 1 nonce in
    let wrong (j : nat) (r : list N) := length r = n /\ (j + e < n)%nat /\ nth j r 0 = N.lxor (N.lxor (nth (j + e) t 0) (k (j + e)%nat)) (k j) in
    (forall mac, bytes mac -> (dsz <= length mac)%nat ->
       exists j c, wrong j c /\ aead_free_encrypt B cx dsz key nonce aad m (dst + e) n dst mac
       = Some (put m dst c, firstn dsz (aead_tag_on (cx_big cx) key nonce aad c) ++ skipn dsz mac, n, dsz)) /\
    (forall junk, bytes junk -> length junk = dsz ->
       exists j p, wrong j p /\ aead_free_decrypt B cx dsz key nonce aad m (dst + e) n junk (firstn dsz (aead_tag_on (cx_big cx) key nonce aad t)) dst = Some (put m dst p, Returns n)).
  Proof.
    intros Hk Lk Hv Lv Ha Hm Hs Hn Hb t k wrong.
    pose proof (pad_to_id 32 key Lk) as Pk. pose proof (pad_to_id 12 nonce Lv) as Pn.
    destruct (ast_ok key nonce Hk Hv) as [L W].
    assert (HC : forall dir c, stream_at B (ast key nonce) (64 + length (@nil N)) c -> exists c' r, (exists j, wrong j r) /\ length r = n /\ bytes r /\
       capie_crypt dir B cx c m (dst + e) n dst = Some (c', put m dst r, n) /\ stream_at B (ast key nonce) (64 + length (@nil N) + n) c').
    { intros dir c C. destruct (any_hit cx B BO turn M _ L W c _ e q C Q1 Q2 Q3) as (j & Hj & H).
      destruct (H dir m dst n Hm Hs Hb) as (c' & r & Lr & Br & E & I & Nj). fold BS in Hj.
      exists c', r. split; [|auto]. exists j. split; [exact Lr|]. split; [lia|]. rewrite Nj. cbn [length]. rewrite Nat.add_0_r.
      unfold t. rewrite nth_slice by lia. rewrite <- !Nat.add_assoc. rewrite !ast_byte, Pk, Pn. reflexivity. }
    destruct (new_aad cx B BO dsz Hd key nonce aad Hk Hv Ha) as (p0 & p & E0 & E1 & H & F). split.
    - intros mac Hmac Lmac.
      destruct (crypt_hold_gen cx B dsz Hd Encrypt key nonce aad [] p m (dst + e) n dst (fun r => exists j, wrong j r) H F Hm Hs ltac:(lia) Hn (HC Encrypt))
        as (p' & r & (j & Hj) & E & Lr & H' & F1 & F2). cbn [app] in H'.
      exists j, r. split; [exact Hj|]. unfold aead_free_encrypt. rewrite E0. cbn [bind]. rewrite E1. cbn [bind]. rewrite E. cbn [bind].
      destruct (aholds_returns cx B dsz Hd key nonce aad r p' H') as (R & _); [rewrite F1; reflexivity|].
      fold (ktag cx dsz key nonce aad r) in R. destruct (R mac dsz Hmac) as (z & Ez); [rewrite ktag_length by exact Hd; lia|].
      rewrite Ez. cbn [bind]. rewrite ktag_length by exact Hd. rewrite Nat.min_id. rewrite firstn_all2 by (rewrite ktag_length by exact Hd; lia).
      unfold ktag. rewrite Pk, Pn. reflexivity.
    - intros junk Hj Lj.
      destruct (crypt_hold_gen cx B dsz Hd Decrypt key nonce aad [] p m (dst + e) n dst (fun r => exists j, wrong j r) H F Hm Hs ltac:(lia) Hn (HC Decrypt))
        as (p' & r & (j & Hjr) & E & Lr & H' & F1 & F2). cbn [app] in H'. fold t in H'.
      exists j, r. split; [exact Hjr|]. unfold aead_free_decrypt. rewrite E0. cbn [bind]. rewrite E1. cbn [bind]. rewrite E. cbn [bind].
      assert (Bt : bytes (firstn dsz (aead_tag_on (cx_big cx) key nonce aad t))) by (apply bytes_firstn; unfold aead_tag_on, poly1305_on, poly1305; apply le_enc_bytes).
      destruct (step_verify cx B dsz Hd key nonce aad t p' junk _ H' F1 Hj Lj Bt) as (z & Ez).
      unfold ktag in Ez. rewrite Pk, Pn in Ez. destruct (list_eq_dec N.eq_dec _ _) as [_|X]; [|contradiction X; reflexivity].
      unfold aapie_verify_throw. rewrite Ez. reflexivity.
  Qed.
End BAD.
