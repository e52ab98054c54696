(** C70: one object as input and output. *)
From Verif Require Import Base BaseLemmas BytesLemmas Spec_Bytes Spec_Sha Spec_Hash Spec_Hmac Spec_Poly Spec_Mac Spec_ChaCha Spec_Cipher Spec_Aead
  Model_Memory Model_Container Model_Sha Model_Mac Model_Hmac Model_Poly Model_Cipher Model_Aead Model_Objects Spec_Objects
  Proof_Mac Proof_Hmac Proof_Poly Proof_ShaApi Proof_ChaChaCore Proof_ChaCha Proof_Aead Prop_Sha Prop_Hmac Prop_Poly Prop_Cipher Prop_Aead Prop_Test.
Local Open Scope N_scope.

Lemma setobj_becomes st i c c0 : obj st i = Some c0 -> becomes st i c (setobj st i c).
Proof.
  unfold becomes, obj. revert i. induction st as [|x st IH]; intros [|i] H; try discriminate H; cbn [setobj nth_error length].
  - split; [reflexivity|]. split; [|reflexivity]. intros [|k] K; [contradiction|reflexivity].
  - destruct (IH i H) as (A & Bb & C). split; [exact A|]. split; [|rewrite C; reflexivity]. intros [|k] K; [reflexivity|]. apply Bb. lia.
Qed.
Lemma take_min (D : list N) s : firstn (Nat.min s (length D)) D = firstn s D.
Proof. destruct (Nat.le_ge_cases s (length D)); [rewrite Nat.min_l by lia; reflexivity|rewrite Nat.min_r by lia; rewrite !firstn_all2 by lia; reflexivity]. Qed.
Lemma filled_min D size l : filled (Static l) (firstn size D)
  = Static (firstn (Nat.min (Nat.min size (length D)) (length l)) D ++ skipn (Nat.min (Nat.min size (length D)) (length l)) l).
Proof.
  cbn [filled]. rewrite firstn_firstn, firstn_length. f_equal. f_equal.
  - replace (Nat.min (Nat.min size (length D)) (length l)) with (Nat.min (Nat.min (length l) size) (length D)) by lia. rewrite take_min. reflexivity.
  - destruct (Nat.le_ge_cases (Nat.min size (length D)) (length l)); [rewrite (Nat.min_l (Nat.min size (length D)) (length l)) by lia; reflexivity|].
    rewrite (Nat.min_r (Nat.min size (length D)) (length l)) by lia. rewrite !skipn_all2 by lia. reflexivity.
Qed.
Lemma filled_roomy c r n : length r = n -> roomy c n -> filled c r = match c with Dynamic _ => Dynamic r | Static l => Static (r ++ skipn n l) end.
Proof. intros <- R. destruct c; cbn [filled roomy] in *; [reflexivity|]. rewrite firstn_all2 by lia. reflexivity. Qed.
Lemma filled_same c r : length r = length (cdata c) -> filled c r = cset c r.
Proof. intros L. destruct c; cbn [filled cset cdata] in *; [reflexivity|]. rewrite firstn_all2, skipn_all2 by lia. rewrite app_nil_r. reflexivity. Qed.

(** Hash: the digest object may be the message object. *)
Theorem C70_hash : forall cx a st i j m d size, obj st i = Some m -> obj st j = Some d -> chunk (cdata m) -> bytes (cdata d) ->
  exists st' n, hash_digest_o cx (milo_hash a) st i j size = Some (st', n) /\ becomes st j (filled d (firstn size (fips a (cdata m)))) st'.
Proof.
  intros cx a st i j m d size Ei Ej Hm Hd. destruct (sha_free_correct cx a (cdata m) Hm) as (_ & F & G & _).
  unfold hash_free_digest_c in F, G. unfold hash_digest_o. rewrite Ei. cbn [bind].
  destruct (hapie_update cx (milo_hash a) (hapie_new (milo_hash a)) (cdata m)) as [p|]; [|specialize (F [] 0%nat (Forall_nil _)); discriminate F].
  cbn [bind] in *. rewrite Ej. cbn [bind]. destruct d as [l|l]; cbn [cdata] in Hd.
  - specialize (F l size Hd). destruct (hapie_digest_c cx (milo_hash a) p (Dynamic l) size) as [[[q c] n]|]; [|discriminate F]. cbn [bind] in *.
    do 2 eexists. split; [reflexivity|]. assert (c = Dynamic (firstn size (fips a (cdata m)))) by congruence. subst c. exact (setobj_becomes st j _ _ Ej).
  - specialize (G l size Hd). cbv zeta in G. destruct (hapie_digest_c cx (milo_hash a) p (Static l) size) as [[[q c] n]|]; [|discriminate G]. cbn [bind] in *.
    do 2 eexists. split; [reflexivity|]. rewrite filled_min.
    match type of G with _ = Some (?x, _) => assert (c = x) by congruence end. subst c. exact (setobj_becomes st j _ _ Ej).
Qed.
Print Assumptions C70_hash.
Lemma mac_o cx M st i j k key m d size D : mfree_returns cx M (cdata key) (cdata m) D ->
  obj st k = Some key -> obj st i = Some m -> obj st j = Some d -> bytes (cdata d) ->
  exists st' n, mac_digest_o cx M st k i j size = Some (st', n) /\ becomes st j (filled d (firstn size D)) st'.
Proof.
  intros (_ & F & G & _) Ek Ei Ej Hd. unfold mac_free_digest_c in F, G. unfold mac_digest_o. rewrite Ek. cbn [bind].
  destruct (mapie_new cx M (cdata key)) as [p0|]; [|specialize (F [] 0%nat (Forall_nil _)); discriminate F]. cbn [bind] in *. rewrite Ei. cbn [bind].
  destruct (mapie_update cx M p0 (cdata m)) as [p|]; [|specialize (F [] 0%nat (Forall_nil _)); discriminate F].
  cbn [bind] in *. rewrite Ej. cbn [bind]. destruct d as [l|l]; cbn [cdata] in Hd.
  - specialize (F l size Hd). destruct (mapie_digest_c cx M p (Dynamic l) size) as [[[q c] n]|]; [|discriminate F]. cbn [bind] in *.
    do 2 eexists. split; [reflexivity|]. assert (c = Dynamic (firstn size D)) by congruence. subst c. exact (setobj_becomes st j _ _ Ej).
  - specialize (G l size Hd). cbv zeta in G. destruct (mapie_digest_c cx M p (Static l) size) as [[[q c] n]|]; [|discriminate G]. cbn [bind] in *.
    do 2 eexists. split; [reflexivity|]. rewrite filled_min.
    match type of G with _ = Some (?x, _) => assert (c = x) by congruence end. subst c. exact (setobj_becomes st j _ _ Ej).
Qed.
(** MAC: key, message and tag may be one object. *)
Theorem C70_mac : forall cx st i j k key m d size,
  obj st k = Some key -> obj st i = Some m -> obj st j = Some d -> chunk (cdata key) -> chunk (cdata m) -> bytes (cdata d) ->
  (forall a dsz, (dsz <= sha_digest_size a)%nat ->
   exists st' n, mac_digest_o cx (mac_hmac (milo_hash a) dsz) st k i j size = Some (st', n) /\
     becomes st j (filled d (firstn size (firstn dsz (hmac (fips a) (sha_block_size a) (cdata key) (cdata m))))) st') /\
  (forall dsz, (dsz <= 16)%nat ->
   exists st' n, mac_digest_o cx (mac_poly dsz) st k i j size = Some (st', n) /\
     becomes st j (filled d (firstn size (firstn dsz (poly1305_on (cx_big cx) (pad_to 32 (cdata key)) (cdata m))))) st').
Proof.
  intros cx st i j k key m d size Ek Ei Ej Hk Hm Hd. split.
  - intros a dsz Hz. exact (mac_o _ _ st i j k key m d size _ (C22_hmac_free cx a dsz _ _ Hz Hk Hm) Ek Ei Ej Hd).
  - intros dsz Hz. exact (mac_o _ _ st i j k key m d size _ (C23_free_any_host cx dsz _ _ Hz (proj1 Hk) Hm) Ek Ei Ej Hd).
Qed.
Print Assumptions C70_mac.

Lemma cipher_free_same_spec cx B dir key iv c : backend_ok cx B -> bytes key -> bytes iv -> bytes (cdata c) ->
  exists o o', capie_new cx key iv = Some o /\
    capie_crypt_same dir B cx o c = Some (o', cset c (chacha20 (pad_to 32 key) (iv_counter iv) (iv_nonce iv) (cdata c)), length (cdata c)).
Proof.
  intros BO Hk Hv Hc. destruct (api_state_ok key iv Hk Hv) as [L W]. destruct (initialize_spec cx B cc_new key iv cc_new_wf Hk Hv) as (o & E & I).
  assert (Er : xor_with (st_byte (api_state key iv)) 0 (cdata c) = chacha20 (pad_to 32 key) (iv_counter iv) (iv_nonce iv) (cdata c)).
  { apply xor_with_ext. intros i _. unfold api_state. rewrite chacha20_byte_state. reflexivity. }
  destruct (crypt_same_spec cx B BO _ L W dir o 0 c I Hc) as (o' & R & _). exists o, o'. split; [exact E|]. rewrite R, Er. reflexivity.
Qed.
(** Cipher: the destination may be the text, the key or the nonce. *)
Theorem C70_cipher : forall cx B dir st k v i j key iv t d, backend_ok cx B ->
  obj st k = Some key -> obj st v = Some iv -> obj st i = Some t -> obj st j = Some d ->
  bytes (cdata key) -> bytes (cdata iv) -> bytes (cdata t) -> bytes (cdata d) -> roomy d (length (cdata t)) ->
  exists st' n, crypt_o dir B cx st k v i j = Some (st', n) /\
    becomes st j (filled d (chacha20 (pad_to 32 (cdata key)) (iv_counter (cdata iv)) (iv_nonce (cdata iv)) (cdata t))) st'.
Proof.
  intros cx B dir st k v i j key iv t d BO Ek Ev Ei Ej Hk Hv Ht Hd R.
  set (r := chacha20 (pad_to 32 (cdata key)) (iv_counter (cdata iv)) (iv_nonce (cdata iv)) (cdata t)).
  assert (L : length r = length (cdata t)) by (unfold r, chacha20; apply xor_with_length).
  destruct (C25_chacha20_free cx B dir (cdata key) (cdata iv) (cdata t) BO Hk Hv Ht) as (_ & F & G). fold r in F, G. unfold cipher_free_c in F, G.
  unfold crypt_o. rewrite Ek, Ev. cbn [bind].
  destruct (Nat.eqb_spec i j) as [->|NE].
  - destruct (cipher_free_same_spec cx B dir (cdata key) (cdata iv) d BO Hk Hv Hd) as (o & o' & E1 & E2). rewrite E1. cbn [bind]. rewrite Ei. cbn [bind].
    assert (d = t) by congruence. subst t. rewrite E2. cbn [bind]. do 2 eexists. split; [reflexivity|]. rewrite filled_same by exact L.
    exact (setobj_becomes st j _ _ Ej).
  - destruct (capie_new cx (cdata key) (cdata iv)) as [o|]; [|specialize (F [] (Forall_nil _)); discriminate F]. cbn [bind] in *. rewrite Ei, Ej. cbn [bind].
    rewrite (filled_roomy d r _ L R). destruct d as [l|l]; cbn [cdata roomy] in *.
    + specialize (F l Hd). destruct (capie_crypt_c dir B cx o (cdata t) (Dynamic l)) as [[[q c] n]|]; [|discriminate F]. cbn [bind] in *.
      do 2 eexists. split; [reflexivity|]. assert (c = Dynamic r) by congruence. subst c. exact (setobj_becomes st j _ _ Ej).
    + specialize (G l Hd R). destruct (capie_crypt_c dir B cx o (cdata t) (Static l)) as [[[q c] n]|]; [|discriminate G]. cbn [bind] in *.
      do 2 eexists. split; [reflexivity|]. assert (c = Static (r ++ skipn (length (cdata t)) l)) by congruence. subst c. exact (setobj_becomes st j _ _ Ej).
Qed.
Print Assumptions C70_cipher.
(** *** AEAD *)
Section aead.
  Context (cx : ctx) (B : backend) (BO : backend_ok cx B) (dsz : nat) (Hd : (dsz <= 16)%nat).
  Context (st : store) (k v a i j : nat) (key iv aad t d : container).
  Context (Ek : obj st k = Some key) (Ev : obj st v = Some iv) (Ea : obj st a = Some aad) (Ei : obj st i = Some t) (Ej : obj st j = Some d).
  Context (Hk : bytes (cdata key)) (Hv : bytes (cdata iv)) (Ha : chunk (cdata aad)) (Ht : chunk (cdata t)) (Hj : bytes (cdata d)) (R : roomy d (length (cdata t))).
  Let r := aead_text (pad_to 32 (cdata key)) (pad_to 12 (cdata iv)) (cdata t).
  Lemma acrypt_o_spec dir : exists p p' st' n, astart_o B cx st k v a = Some p /\ acrypt_o dir B cx p st i j = Some (p', st', n) /\
    becomes st j (filled d r) st' /\ n = length (cdata t) /\
    aholds cx B dsz (cdata key) (cdata iv) (cdata aad) (match dir with Encrypt => r | Decrypt => cdata t end) p' /\ ap_aad_done p' = true.
  Proof.
    destruct (new_aad cx B BO dsz Hd (cdata key) (cdata iv) (cdata aad) Hk Hv Ha) as (p0 & p & E0 & E1 & H & F).
    assert (L : length r = length (cdata t)) by (unfold r; apply aead_text_length).
    unfold astart_o. rewrite Ek, Ev. cbn [bind]. rewrite E0. cbn [bind]. rewrite Ea. cbn [bind]. exists p.
    unfold acrypt_o. rewrite Ei, Ej. cbn [bind]. destruct (Nat.eqb_spec i j) as [X|X].
    - subst j. assert (d = t) by congruence. subst t.
      destruct (text_step cx B BO dsz Hd (cdata key) (cdata iv) (cdata aad) [] p (ACryptSame dir d) H F I Ht) as (p' & E & H' & F1 & F2).
      cbn [aead_step atext_in atext_out length app] in *. change (xor_with _ 0 _) with r in *. clearbody r.
      destruct (aapie_crypt_same dir B cx p d) as [[[q c] n]|]; [|discriminate E]. cbn [bind] in *.
      exists q, (setobj st i c), n. split; [exact E1|]. split; [reflexivity|]. assert (c = cset d r) by congruence. subst c. rewrite filled_same by exact L.
      split; [exact (setobj_becomes st i _ _ Ej)|]. split; [congruence|]. assert (q = p') by congruence. subst q. split; [destruct dir; exact H'|exact F1].
    - destruct (crypt_c_hold cx B BO dsz Hd dir (cdata key) (cdata iv) (cdata aad) [] p (cdata t) d H F Ht Hj R) as (p' & E & H' & F1 & F2).
      cbn [length app] in *. change (xor_with _ 0 _) with r in *. clearbody r. rewrite E. cbn [bind].
      do 3 eexists. split; [exact E1|]. split; [reflexivity|]. rewrite <- (filled_roomy d r _ L R).
      split; [exact (setobj_becomes st j _ _ Ej)|]. split; [reflexivity|]. split; [exact H'|exact F1].
  Qed.
End aead.
(** Encryption: ciphertext and tag may go into objects that hold key, nonce, additional data or text, as long as they are two objects. *)
Lemma digest_o cx B dsz (Hd : (dsz <= 16)%nat) key iv aad ct p g : aholds cx B dsz key iv aad ct p -> ap_aad_done p = true -> bytes (cdata g) ->
  exists p' n, aapie_digest_c cx dsz p g dsz = Some (p', filled g (firstn dsz (aead_tag_on (cx_big cx) (pad_to 32 key) (pad_to 12 iv) aad ct)), n).
Proof.
  intros H F Hg. destruct (aholds_returns cx B dsz Hd key iv aad ct p H) as (_ & D & S' & _); [rewrite F; reflexivity|].
  set (T := firstn dsz (aead_tag_on (cx_big cx) (pad_to 32 key) (pad_to 12 iv) aad ct)) in *.
  assert (L : length T = dsz) by (unfold T; exact (ktag_length cx dsz Hd key iv aad ct)). clearbody T.
  assert (ET : T = firstn dsz T) by (rewrite firstn_all2; [reflexivity|lia]).
  destruct g as [l|l]; cbn [cdata] in Hg.
  - destruct (D l dsz Hg) as (q & E). rewrite E. do 2 eexists. rewrite <- ET. reflexivity.
  - destruct (S' l dsz Hg) as (q & E). cbv zeta in E. rewrite E. do 2 eexists. replace (filled (Static l) T) with (filled (Static l) (firstn dsz T)) by (rewrite <- ET; reflexivity). rewrite filled_min. reflexivity.
Qed.
Lemma becomes_in st j c st' : becomes st j c st' -> forall g x, g <> j -> obj st g = Some x -> obj st' g = Some x.
Proof. intros (_ & O' & _) g x NE E. unfold obj in *. rewrite (O' g NE). exact E. Qed.
Theorem C70_aead_encrypt : forall cx B dsz st k v a i j g key iv aad t d tg, backend_ok cx B -> (dsz <= 16)%nat ->
  obj st k = Some key -> obj st v = Some iv -> obj st a = Some aad -> obj st i = Some t -> obj st j = Some d -> obj st g = Some tg ->
  bytes (cdata key) -> bytes (cdata iv) -> chunk (cdata aad) -> chunk (cdata t) -> bytes (cdata d) -> bytes (cdata tg) -> roomy d (length (cdata t)) ->
  g <> j ->
  let c := aead_text (pad_to 32 (cdata key)) (pad_to 12 (cdata iv)) (cdata t) in
  exists st1 st', aead_encrypt_o B cx dsz st k v a i j g = Some st' /\ becomes st j (filled d c) st1 /\
    becomes st1 g (filled tg (firstn dsz (aead_tag_on (cx_big cx) (pad_to 32 (cdata key)) (pad_to 12 (cdata iv)) (cdata aad) c))) st'.
Proof.
  intros cx B dsz st k v a i j g key iv aad t d tg BO Hd Ek Ev Ea Ei Ej Eg Hk Hv Ha Ht Hj Hg R NE c.
  destruct (acrypt_o_spec cx B BO dsz Hd st k v a i j key iv aad t d Ek Ev Ea Ei Ej Hk Hv Ha Ht Hj R Encrypt) as (p & p' & st1 & n & E1 & E2 & BC & _ & H & F).
  fold c in BC, H. clearbody c. unfold aead_encrypt_o. rewrite E1. cbn [bind]. rewrite E2. cbn [bind].
  pose proof (becomes_in st j _ st1 BC g tg NE Eg) as Eg1. rewrite Eg1. cbn [bind].
  destruct (digest_o cx B dsz Hd _ _ _ _ p' tg H F Hg) as (q & n' & E3). rewrite E3. cbn [bind].
  do 2 eexists. split; [reflexivity|]. split; [exact BC|]. exact (setobj_becomes st1 g _ _ Eg1).
Qed.
Print Assumptions C70_aead_encrypt.
(** One object for ciphertext and tag: the tag is put over the ciphertext. *)
Theorem C70_aead_encrypt_refuted : forall cx B dsz st k v a i j key iv aad t d, backend_ok cx B -> (dsz <= 16)%nat ->
  obj st k = Some key -> obj st v = Some iv -> obj st a = Some aad -> obj st i = Some t -> obj st j = Some (Dynamic d) ->
  bytes (cdata key) -> bytes (cdata iv) -> chunk (cdata aad) -> chunk (cdata t) -> bytes d ->
  let c := aead_text (pad_to 32 (cdata key)) (pad_to 12 (cdata iv)) (cdata t) in
  exists st', aead_encrypt_o B cx dsz st k v a i j j = Some st' /\
    obj st' j = Some (Dynamic (firstn dsz (aead_tag_on (cx_big cx) (pad_to 32 (cdata key)) (pad_to 12 (cdata iv)) (cdata aad) c))).
Proof.
  intros cx B dsz st k v a i j key iv aad t d BO Hd Ek Ev Ea Ei Ej Hk Hv Ha Ht Hj c.
  destruct (acrypt_o_spec cx B BO dsz Hd st k v a i j key iv aad t (Dynamic d) Ek Ev Ea Ei Ej Hk Hv Ha Ht Hj I Encrypt) as (p & p' & st1 & n & E1 & E2 & BC & _ & H & F).
  fold c in BC, H. assert (Bc : bytes c) by (unfold c; apply aead_text_is_bytes, Ht). clearbody c. unfold aead_encrypt_o. rewrite E1. cbn [bind]. rewrite E2. cbn [bind].
  assert (Eg1 : obj st1 j = Some (Dynamic c)) by exact (proj1 BC). rewrite Eg1. cbn [bind].
  destruct (digest_o cx B dsz Hd _ _ _ _ p' (Dynamic c) H F Bc) as (q & n' & E3). rewrite E3. cbn [bind].
  eexists. split; [reflexivity|]. exact (proj1 (setobj_becomes st1 j _ _ Eg1)).
Qed.
Print Assumptions C70_aead_encrypt_refuted.
(** Decryption: any objects may coincide except tag and plaintext. *)
Theorem C70_aead_decrypt : forall cx B dsz st k v a i j g key iv aad t d tg junk, backend_ok cx B -> (dsz <= 16)%nat ->
  obj st k = Some key -> obj st v = Some iv -> obj st a = Some aad -> obj st i = Some t -> obj st j = Some d -> obj st g = Some tg ->
  bytes (cdata key) -> bytes (cdata iv) -> chunk (cdata aad) -> chunk (cdata t) -> bytes (cdata d) -> bytes (cdata tg) -> roomy d (length (cdata t)) ->
  bytes junk -> length junk = dsz -> g <> j ->
  exists st', becomes st j (filled d (aead_text (pad_to 32 (cdata key)) (pad_to 12 (cdata iv)) (cdata t))) st' /\
    aead_decrypt_o B cx dsz st k v a i g j junk = Some (st', length (cdata t),
      if list_eq_dec N.eq_dec (cdata tg) (firstn dsz (aead_tag_on (cx_big cx) (pad_to 32 (cdata key)) (pad_to 12 (cdata iv)) (cdata aad) (cdata t)))
      then err_none else err_aead_verify).
Proof.
  intros cx B dsz st k v a i j g key iv aad t d tg junk BO Hd Ek Ev Ea Ei Ej Eg Hk Hv Ha Ht Hj Hg R Bj Lj NE.
  destruct (acrypt_o_spec cx B BO dsz Hd st k v a i j key iv aad t d Ek Ev Ea Ei Ej Hk Hv Ha Ht Hj R Decrypt) as (p & p' & st1 & n & E1 & E2 & BC & En & H & F).
  exists st1. split; [exact BC|]. unfold aead_decrypt_o. rewrite E1. cbn [bind]. rewrite E2. cbn [bind].
  rewrite (becomes_in st j _ st1 BC g tg NE Eg). cbn [bind].
  destruct (step_verify cx B dsz Hd _ _ _ _ p' junk (cdata tg) H F Bj Lj Hg) as (q & E3). rewrite E3. cbn [bind]. rewrite En. unfold ktag. reflexivity.
Qed.
Print Assumptions C70_aead_decrypt.
(** One object for tag and plaintext: the plaintext is compared with the tag, so that a genuine message of another size is rejected. *)
Theorem C70_aead_decrypt_refuted : forall cx B dsz st k v a i j key iv aad t tg junk, backend_ok cx B -> (dsz <= 16)%nat ->
  obj st k = Some key -> obj st v = Some iv -> obj st a = Some aad -> obj st i = Some t -> obj st j = Some (Dynamic tg) ->
  bytes (cdata key) -> bytes (cdata iv) -> chunk (cdata aad) -> chunk (cdata t) -> bytes tg -> bytes junk -> length junk = dsz ->
  length (cdata t) <> dsz ->
  exists st' n, aead_decrypt_o B cx dsz st k v a i j j junk = Some (st', n, err_aead_verify).
Proof.
  intros cx B dsz st k v a i j key iv aad t tg junk BO Hd Ek Ev Ea Ei Ej Hk Hv Ha Ht Hg Bj Lj NE.
  destruct (acrypt_o_spec cx B BO dsz Hd st k v a i j key iv aad t (Dynamic tg) Ek Ev Ea Ei Ej Hk Hv Ha Ht Hg I Decrypt) as (p & p' & st1 & n & E1 & E2 & BC & En & H & F).
  exists st1, n. unfold aead_decrypt_o. rewrite E1. cbn [bind]. rewrite E2. cbn [bind].
  set (r := aead_text (pad_to 32 (cdata key)) (pad_to 12 (cdata iv)) (cdata t)) in *.
  assert (Lr : length r = length (cdata t)) by (unfold r; apply aead_text_length). assert (Br : bytes r) by (unfold r; apply aead_text_is_bytes, Ht). clearbody r.
  assert (Eg1 : obj st1 j = Some (Dynamic r)) by exact (proj1 BC). rewrite Eg1. cbn [bind cdata].
  destruct (step_verify cx B dsz Hd _ _ _ _ p' junk r H F Bj Lj Br) as (q & E3). rewrite E3. cbn [bind].
  destruct (list_eq_dec N.eq_dec r (ktag cx dsz (cdata key) (cdata iv) (cdata aad) (cdata t))) as [X|X]; [|reflexivity].
  exfalso. apply NE. rewrite <- Lr, X. apply ktag_length, Hd.
Qed.
Print Assumptions C70_aead_decrypt_refuted.

(** The hypotheses can be met with all objects the same but one: a hash over its own message, an HMAC over its own key and message, and a genuine
    message encrypted in place that is rejected if the tag object receives the plaintext. *)
Example C70_case :
  let st := [Dynamic [97; 98; 99]; Static [1; 2; 3]] in
  hash_digest_o rt (milo_hash SHA1) st 0 0 5 = Some ([Dynamic [169; 153; 62; 54; 71]; Static [1; 2; 3]], 5%nat) /\
  hash_digest_o rt (milo_hash SHA1) st 0 1 2 = Some ([Dynamic [97; 98; 99]; Static [169; 153; 3]], 2%nat) /\
  (exists s, crypt_o Encrypt bk_sw rt st 0 1 1 1 = Some (s, 3%nat) /\ crypt_o Encrypt bk_sw rt st 0 1 1 0 = Some ([Dynamic (cdata (nth 1 s (Dynamic []))); Static [1; 2; 3]], 3%nat)) /\
  (exists s, aead_encrypt_o bk_sw rt 16 st 0 0 1 0 0 1 = Some s) /\
  (exists c g, aead_encrypt_o bk_sw rt 16 [Dynamic [7]; Dynamic [5; 6]; Dynamic []] 0 0 0 1 1 2 = Some [Dynamic [7]; Dynamic c; Dynamic g] /\
    aead_decrypt_o bk_sw rt 16 [Dynamic [7]; Dynamic c; Dynamic g] 0 0 0 1 2 1 (repeat 0 16) = Some ([Dynamic [7]; Dynamic [5; 6]; Dynamic g], 2%nat, err_none) /\
    aead_decrypt_o bk_sw rt 16 [Dynamic [7]; Dynamic c; Dynamic g] 0 0 0 1 2 2 (repeat 0 16) = Some ([Dynamic [7]; Dynamic c; Dynamic [5; 6]], 2%nat, err_aead_verify)).
Proof.
  cbv zeta. split; [vm_compute; reflexivity|]. split; [vm_compute; reflexivity|]. split; [|split].
  - let r := eval vm_compute in (crypt_o Encrypt bk_sw rt [Dynamic [97; 98; 99]; Static [1; 2; 3]] 0 1 1 1) in
      lazymatch r with Some (?s, _) => exists s end. split; vm_compute; reflexivity.
  - let r := eval vm_compute in (aead_encrypt_o bk_sw rt 16 [Dynamic [97; 98; 99]; Static [1; 2; 3]] 0 0 1 0 0 1) in
      lazymatch r with Some ?s => exists s end. vm_compute. reflexivity.
  - let r := eval vm_compute in (aead_encrypt_o bk_sw rt 16 [Dynamic [7]; Dynamic [5; 6]; Dynamic []] 0 0 0 1 1 2) in
      lazymatch r with Some [_; Dynamic ?c; Dynamic ?g] => exists c, g end. split; [|split]; vm_compute; reflexivity.
Qed.
