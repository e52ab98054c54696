(** Properties C29-C34 and the AEAD parts of C19, C20, C45 and C46.
    Specification: [Spec_Aead] (RFC 8439 sections 2.6 and 2.8).  [B] is any backend of the cipher that computes ChaCha20
    ([backend_ok], met by the portable backend for every host); [dsz] is the digest_size option (default 16).  Unless
    said otherwise the host may have any byte order; on big-endian hosts Poly1305 itself is wrong (C23), and with it the tag: it is
    [aead_tag_on true] instead of [aead_tag] ([C29_big_endian_refuted]). *)
From Verif Require Import Base BaseLemmas BytesLemmas Spec_Bytes Spec_ChaCha Spec_Poly Spec_Range Spec_Cipher Spec_Hash Spec_Aead
  Model_Memory Model_Container Model_Cipher Model_Aead Proof_CodecApi Proof_Poly Proof_Range Proof_ChaChaCore Proof_ChaCha Proof_Aead Prop_Cipher.
Local Open Scope N_scope.

Definition be : ctx := {| cx_big := true; cx_ce := false |}.      (* run time, big endian *)
Definition nonce12 : list N := [7; 0; 0; 0; 64; 65; 66; 67; 68; 69; 70; 71].

(** *** C29, on any host: with the tag of that host ([aead_tag_on]). *)
Theorem C29_aead_any_host : forall cx B dsz dir key nonce ads ts,
  backend_ok cx B -> (dsz <= 16)%nat ->
  bytes key -> length key = 32%nat -> bytes nonce -> length nonce = 12%nat ->
  Forall chunk ads -> Forall chunk ts -> ts <> [] ->
  exists p p1 p2 rs,
    aapie_new B cx key nonce = Some p /\ aad_pieces cx p ads = Some p1 /\
    text_pieces dir B cx p1 ts = Some (p2, rs) /\
    concat rs = aead_text key nonce (concat ts) /\
    areturns cx dsz p2 (firstn dsz (aead_tag_on (cx_big cx) key nonce (concat ads)
      (match dir with Encrypt => concat rs | Decrypt => concat ts end))).
Proof.
  intros cx B dsz dir key nonce ads ts BO Hd Hk Lk Hn Ln Ha Ht Hne.
  destruct (stream_spec cx B BO dsz Hd dir key nonce ads ts Hk Hn Ha Ht (or_introl Hne))
    as (p & p1 & p2 & rs & E1 & E2 & E3 & E4 & E5).
  unfold ktext, ktag in *. rewrite (pad_to_id 32 key Lk), (pad_to_id 12 nonce Ln) in *.
  exists p, p1, p2, rs. auto.
Qed.
Print Assumptions C29_aead_any_host.
(** Every history in the order additional data, text, tag, with any mixture of overloads and re-initializations;
    keys and nonces of other sizes are cut or zero-padded. *)
Theorem C29_history_any_host : forall cx B dsz key iv calls,
  backend_ok cx B -> (dsz <= 16)%nat -> bytes key -> bytes iv ->
  Forall (acall_ok dsz) calls -> aorderly false false 0 calls = true ->
  exists p p', aapie_new B cx key iv = Some p /\ aead_run B cx dsz p calls = Some (p', aexpected_on (cx_big cx) dsz key iv [] [] calls).
Proof.
  intros cx B dsz key iv calls BO Hd. exact (aorderly_new cx B BO dsz Hd key iv calls).
Qed.
Print Assumptions C29_history_any_host.
(** The free functions. *)
Theorem C29_aead_free_any_host : forall cx B dsz key nonce aad text,
  backend_ok cx B -> (dsz <= 16)%nat ->
  bytes key -> length key = 32%nat -> bytes nonce -> length nonce = 12%nat -> chunk aad -> chunk text ->
  let c := aead_text key nonce text in
  let tag := firstn dsz (aead_tag_on (cx_big cx) key nonce aad c) in
  (forall junk, bytes junk -> length junk = dsz ->
     aead_free_encrypt_new B cx dsz key nonce aad text junk = Some (c, tag)) /\
  (forall l l', bytes l -> bytes l' -> aead_free_encrypt_c B cx dsz key nonce aad text (Dynamic l) (Dynamic l')
     = Some (Dynamic c, Dynamic tag, length text, dsz)) /\
  (forall l l', bytes l -> bytes l' -> (length text <= length l)%nat ->
     aead_free_encrypt_c B cx dsz key nonce aad text (Static l) (Static l')
     = Some (Static (c ++ skipn (length text) l), Static (firstn (length l') tag ++ skipn dsz l'),
             length text, Nat.min dsz (length l'))) /\
  (forall m src dst mac, bytes m -> slice m src (length text) = text -> (src + length text <= length m)%nat ->
     (dst + length text <= length m)%nat -> apart dst src (length text) -> bytes mac -> (dsz <= length mac)%nat ->
     aead_free_encrypt B cx dsz key nonce aad m src (length text) dst mac
     = Some (put m dst c, tag ++ skipn dsz mac, length text, dsz)).
Proof.
  intros cx B dsz key nonce aad text BO Hd Hk Lk Hn Ln Ha Ht c tag.
  pose proof (pad_to_id 32 key Lk) as Pk. pose proof (pad_to_id 12 nonce Ln) as Pn.
  split; [|split; [|split]].
  - intros junk Hj Lj. rewrite (free_encrypt_new_spec cx B BO dsz Hd key nonce aad text junk Hk Hn Ha Ht Hj Lj).
    unfold ktext, ktag. rewrite Pk, Pn. reflexivity.
  - intros l l' Hl Hl'. rewrite (free_encrypt_c_spec cx B BO dsz Hd key nonce aad text (Dynamic l) (Dynamic l') Hk Hn Ha Ht Hl Hl' I).
    unfold ktext, ktag. rewrite Pk, Pn. reflexivity.
  - intros l l' Hl Hl' Le. rewrite (free_encrypt_c_spec cx B BO dsz Hd key nonce aad text (Static l) (Static l') Hk Hn Ha Ht Hl Hl' Le).
    unfold ktext, ktag. rewrite Pk, Pn. reflexivity.
  - intros m src dst mac Hm Sm Hs Hdst Hap Hmac Lmac.
    rewrite (free_encrypt_spec cx B BO dsz Hd key nonce aad m src (length text) dst mac Hk Hn Ha); try assumption.
    + unfold ktext, ktag. rewrite Pk, Pn, Sm. reflexivity.
    + repeat (split; [assumption|]). apply Ht.
Qed.
Print Assumptions C29_aead_free_any_host.
Lemma aead_tag_le key nonce aad c : aead_tag_on false key nonce aad c = aead_tag key nonce aad c.
Proof. unfold aead_tag_on, poly1305_on, aead_tag. cbn [host_key]. reflexivity. Qed.
(** On a little-endian host that is the tag of RFC 8439. *)
Theorem C29_aead : forall cx B dsz dir key nonce ads ts,
  backend_ok cx B -> cx_big cx = false -> (dsz <= 16)%nat ->
  bytes key -> length key = 32%nat -> bytes nonce -> length nonce = 12%nat ->
  Forall chunk ads -> Forall chunk ts -> ts <> [] ->
  exists p p1 p2 rs,
    aapie_new B cx key nonce = Some p /\ aad_pieces cx p ads = Some p1 /\
    text_pieces dir B cx p1 ts = Some (p2, rs) /\
    concat rs = aead_text key nonce (concat ts) /\
    areturns cx dsz p2 (firstn dsz (aead_tag key nonce (concat ads)
      (match dir with Encrypt => concat rs | Decrypt => concat ts end))).
Proof.
  intros cx B dsz dir key nonce ads ts BO Hbig Hd Hk Lk Hn Ln Ha Ht Hne.
  destruct (C29_aead_any_host cx B dsz dir key nonce ads ts BO Hd Hk Lk Hn Ln Ha Ht Hne) as (p & p1 & p2 & rs & E1 & E2 & E3 & E4 & E5).
  rewrite Hbig, aead_tag_le in E5. exists p, p1, p2, rs. auto.
Qed.
Print Assumptions C29_aead.
Theorem C29_history : forall cx B dsz key iv calls,
  backend_ok cx B -> cx_big cx = false -> (dsz <= 16)%nat -> bytes key -> bytes iv ->
  Forall (acall_ok dsz) calls -> aorderly false false 0 calls = true ->
  exists p p', aapie_new B cx key iv = Some p /\ aead_run B cx dsz p calls = Some (p', aexpected dsz key iv [] [] calls).
Proof.
  intros cx B dsz key iv calls BO Hbig Hd Hk Hv Hc Ho.
  pose proof (C29_history_any_host cx B dsz key iv calls BO Hd Hk Hv Hc Ho) as H. rewrite Hbig in H. exact H.
Qed.
Print Assumptions C29_history.
Theorem C29_aead_free : forall cx B dsz key nonce aad text,
  backend_ok cx B -> cx_big cx = false -> (dsz <= 16)%nat ->
  bytes key -> length key = 32%nat -> bytes nonce -> length nonce = 12%nat -> chunk aad -> chunk text ->
  let c := aead_text key nonce text in
  let tag := firstn dsz (aead_tag key nonce aad c) in
  (forall junk, bytes junk -> length junk = dsz ->
     aead_free_encrypt_new B cx dsz key nonce aad text junk = Some (c, tag)) /\
  (forall l l', bytes l -> bytes l' -> aead_free_encrypt_c B cx dsz key nonce aad text (Dynamic l) (Dynamic l')
     = Some (Dynamic c, Dynamic tag, length text, dsz)) /\
  (forall l l', bytes l -> bytes l' -> (length text <= length l)%nat ->
     aead_free_encrypt_c B cx dsz key nonce aad text (Static l) (Static l')
     = Some (Static (c ++ skipn (length text) l), Static (firstn (length l') tag ++ skipn dsz l'),
             length text, Nat.min dsz (length l'))) /\
  (forall m src dst mac, bytes m -> slice m src (length text) = text -> (src + length text <= length m)%nat ->
     (dst + length text <= length m)%nat -> apart dst src (length text) -> bytes mac -> (dsz <= length mac)%nat ->
     aead_free_encrypt B cx dsz key nonce aad m src (length text) dst mac
     = Some (put m dst c, tag ++ skipn dsz mac, length text, dsz)).
Proof.
  intros cx B dsz key nonce aad text BO Hbig Hd Hk Lk Hn Ln Ha Ht c tag.
  pose proof (C29_aead_free_any_host cx B dsz key nonce aad text BO Hd Hk Lk Hn Ln Ha Ht) as H. cbv zeta in H.
  rewrite Hbig, aead_tag_le in H. exact H.
Qed.
Print Assumptions C29_aead_free.
(** RFC 8439, 2.6.2 (one-time key) and 2.8.2 (first bytes of the ciphertext). *)
Example C29_rfc_vectors :
  firstn 8 (aead_otk (map N.of_nat (seq 128 32)) [0; 0; 0; 0; 0; 1; 2; 3; 4; 5; 6; 7])
  = [0x8a; 0xd5; 0xa0; 0x8b; 0x90; 0x5f; 0x81; 0xcc] /\
  aead_text (map N.of_nat (seq 128 32)) nonce12 [0x4c; 0x61; 0x64; 0x69; 0x65; 0x73; 0x20; 0x61]
  = [0xd3; 0x1a; 0x8d; 0x34; 0x64; 0x8e; 0x60; 0xdb].
Proof. vm_compute. split; reflexivity. Qed.

Lemma bytes_repeat v n : is_byte v -> bytes (repeat v n).
Proof. intros H. apply Forall_forall. intros x Hx. apply repeat_spec in Hx. subst. exact H. Qed.
Lemma nonce12_bytes : bytes nonce12.
Proof. repeat constructor; unfold is_byte; lia. Qed.
Lemma zeros32_bytes : bytes zeros32.
Proof. apply bytes_repeat. unfold is_byte. lia. Qed.

Example C29_C30_case : backend_ok rt bk_sw /\ bytes zeros32 /\ length zeros32 = 32%nat /\ bytes nonce12 /\ length nonce12 = 12%nat /\
  Forall chunk [[1; 2]; []; [3]] /\ Forall chunk [repeat 7 70; [9]] /\ [repeat 7 70; [9]] <> [] /\
  aorderly false false 0 [AAad [1]; AAad [2; 3]; ACrypt Encrypt (repeat 1 40) 0 20 20; ACryptC Decrypt [1; 2] (Dynamic []);
    ADigest (repeat 0 16) 16; AVerify (repeat 0 16) [1]; AInit [1] [2]; AAad (repeat 0 32); ADigest (repeat 0 16) 20] = true /\
  Forall (acall_ok 16) [AAad [1]; AAad [2; 3]; ACrypt Encrypt (repeat 1 40) 0 20 20; ACryptC Decrypt [1; 2] (Dynamic []);
    ADigest (repeat 0 16) 16; AVerify (repeat 0 16) [1]; AInit [1] [2]; AAad (repeat 0 32); ADigest (repeat 0 16) 20].
Proof.
  assert (K : forall l, bytes l -> N.of_nat (length l) < 2 ^ 64 -> chunk l) by (intros; split; assumption).
  assert (B1 : is_byte 1) by (unfold is_byte; lia). assert (B0 : is_byte 0) by (unfold is_byte; lia).
  assert (B7 : is_byte 7) by (unfold is_byte; lia).
  split; [apply bk_sw_ok|]. split; [apply zeros32_bytes|]. split; [reflexivity|]. split; [apply nonce12_bytes|]. split; [reflexivity|].
  split; [repeat constructor; unfold is_byte; lia|].
  split; [constructor; [apply K; [apply bytes_repeat, B7|reflexivity]|repeat constructor; unfold is_byte; lia]|].
  split; [discriminate|]. split; [reflexivity|].
  constructor; [apply K; [repeat constructor; unfold is_byte; lia|reflexivity]|].
  constructor; [apply K; [repeat constructor; unfold is_byte; lia|reflexivity]|].
  constructor; [cbn [acall_ok]; rewrite repeat_length; unfold apart; split; [apply bytes_repeat, B1|lia]|].
  constructor; [split; [apply K; [repeat constructor; unfold is_byte; lia|reflexivity]|split; [constructor|exact I]]|].
  constructor; [split; [apply bytes_repeat, B0|cbn; lia]|].
  constructor; [split; [apply bytes_repeat, B0|split; [reflexivity|repeat constructor; unfold is_byte; lia]]|].
  constructor; [split; repeat constructor; unfold is_byte; lia|].
  constructor; [apply K; [apply bytes_repeat, B0|reflexivity]|].
  constructor; [split; [apply bytes_repeat, B0|cbn; lia]|constructor].
Qed.

(** The hypothesis on the host is needed. *)
Theorem C29_big_endian_refuted : exists key nonce aad text,
  bytes key /\ length key = 32%nat /\ bytes nonce /\ length nonce = 12%nat /\ chunk aad /\ chunk text /\
  exists c tag, aead_free_encrypt_new bk_sw be 16 key nonce aad text (repeat 0 16) = Some (c, tag) /\
    tag <> aead_tag key nonce aad c.
Proof.
  exists zeros32, nonce12, [], [1]. split; [apply zeros32_bytes|]. split; [reflexivity|]. split; [apply nonce12_bytes|].
  split; [reflexivity|]. split; [split; [constructor|reflexivity]|].
  split; [split; [repeat constructor; unfold is_byte; lia|reflexivity]|].
  eexists. eexists. split; [vm_compute; reflexivity|]. vm_compute. discriminate.
Qed.
Print Assumptions C29_big_endian_refuted.

(** *** C30: whatever the pieces, backends, and overloads of the two sides, on hosts of the same byte order (for hosts of
    different byte order see [C49_aead_interop_refuted]). *)
Theorem C30_round_trip : forall cx1 cx2 B1 B2 dsz key iv ads ads' ts ts',
  backend_ok cx1 B1 -> backend_ok cx2 B2 -> cx_big cx1 = cx_big cx2 -> (dsz <= 16)%nat ->
  bytes key -> bytes iv -> Forall chunk ads -> Forall chunk ads' -> concat ads = concat ads' ->
  Forall chunk ts -> ts <> [] -> Forall chunk ts' -> ts' <> [] ->
  exists p p1 p2 cs p3 tag,
    aapie_new B1 cx1 key iv = Some p /\ aad_pieces cx1 p ads = Some p1 /\
    text_pieces Encrypt B1 cx1 p1 ts = Some (p2, cs) /\ aapie_digest_new cx1 dsz p2 dsz = Some (p3, tag) /\
  (concat ts' = concat cs ->
   exists q q1 q2 rs,
     aapie_new B2 cx2 key iv = Some q /\ aad_pieces cx2 q ads' = Some q1 /\
     text_pieces Decrypt B2 cx2 q1 ts' = Some (q2, rs) /\ concat rs = concat ts /\
     (forall junk, bytes junk -> length junk = dsz -> exists q3, aapie_verify cx2 dsz q2 junk tag = Some (q3, err_none))).
Proof. exact aead_round_trip. Qed.
Print Assumptions C30_round_trip.
Theorem C30_round_trip_free : forall cx1 cx2 B1 B2 dsz key iv aad text junk,
  backend_ok cx1 B1 -> backend_ok cx2 B2 -> cx_big cx1 = cx_big cx2 -> (dsz <= 16)%nat ->
  bytes key -> bytes iv -> chunk aad -> chunk text -> bytes junk -> length junk = dsz ->
  exists c tag, aead_free_encrypt_new B1 cx1 dsz key iv aad text junk = Some (c, tag) /\
    aead_free_decrypt_new B2 cx2 dsz key iv aad c junk tag = Some (Returns text) /\
    aead_free_decrypt_new_err B2 cx2 dsz key iv aad c junk tag = Some (text, err_none) /\
    (forall l, bytes l -> aead_free_decrypt_c B2 cx2 dsz key iv aad c junk tag (Dynamic l)
       = Some (Dynamic text, Returns (length text))) /\
    (forall l, bytes l -> (length text <= length l)%nat -> aead_free_decrypt_c B2 cx2 dsz key iv aad c junk tag (Static l)
       = Some (Static (text ++ skipn (length text) l), Returns (length text))) /\
    (forall m src dst, bytes m -> slice m src (length c) = c -> (src + length c <= length m)%nat ->
       (dst + length c <= length m)%nat -> apart dst src (length c) ->
       aead_free_decrypt B2 cx2 dsz key iv aad m src (length c) junk tag dst = Some (put m dst text, Returns (length text))).
Proof. exact aead_round_trip_free. Qed.
Print Assumptions C30_round_trip_free.

(** *** C31 *)
Theorem C31_verify_exact : forall cx B dsz dir key iv ads ts,
  backend_ok cx B -> (dsz <= 16)%nat -> bytes key -> bytes iv ->
  Forall chunk ads -> Forall chunk ts -> ts <> [] ->
  exists p p1 p2 rs,
    aapie_new B cx key iv = Some p /\ aad_pieces cx p ads = Some p1 /\ text_pieces dir B cx p1 ts = Some (p2, rs) /\
  forall junk mac, bytes junk -> length junk = dsz -> bytes mac ->
    let tag := firstn dsz (aead_tag_on (cx_big cx) (pad_to 32 key) (pad_to 12 iv) (concat ads)
                 (match dir with Encrypt => concat rs | Decrypt => concat ts end)) in
    length tag = dsz /\
    exists p3 e, aapie_verify cx dsz p2 junk mac = Some (p3, e) /\
      (mac = tag -> e = err_none) /\ (mac <> tag -> e = err_aead_verify).
Proof. exact aead_verify_exact. Qed.
Print Assumptions C31_verify_exact.
Example C31_case : length (firstn 16 (aead_tag zeros32 nonce12 [1] [2])) = 16%nat /\
  [1; 2] <> firstn 16 (aead_tag zeros32 nonce12 [1] [2]) /\ err_bool err_none = false /\ err_bool err_aead_verify = true.
Proof.
  assert (L : length (firstn 16 (aead_tag zeros32 nonce12 [1] [2])) = 16%nat).
  { rewrite firstn_length. unfold aead_tag. rewrite Proof_Poly.poly1305_length. reflexivity. }
  split; [exact L|]. split; [|split; reflexivity]. intros E. rewrite <- E in L. discriminate L.
Qed.

(** *** C32: of the overloads without an error object, the one into a resizable container and the one returning a new
    container throw [error] ... *)
Theorem C32_forged_throws_partial : forall cx B dsz key iv aad ct junk mac l,
  backend_ok cx B -> (dsz <= 16)%nat -> bytes key -> bytes iv -> chunk aad -> chunk ct ->
  bytes junk -> length junk = dsz -> bytes mac -> bytes l ->
  mac <> firstn dsz (aead_tag_on (cx_big cx) (pad_to 32 key) (pad_to 12 iv) aad ct) ->
  aead_free_decrypt_new B cx dsz key iv aad ct junk mac = Some (Throws err_aead_verify) /\
  exists c, aead_free_decrypt_c B cx dsz key iv aad ct junk mac (Dynamic l) = Some (c, Throws err_aead_verify).
Proof.
  intros cx B dsz key iv aad ct junk mac l BO Hd Hk Hv Ha Hc Hj Lj Hm Hl Hne.
  destruct (free_decrypt_new_spec cx B BO dsz Hd key iv aad ct junk mac Hk Hv Ha Hc Hj Lj Hm) as [E _].
  destruct (free_decrypt_c_spec cx B BO dsz Hd key iv aad ct (Dynamic l) junk mac Hk Hv Ha Hc Hl I Hj Lj Hm) as [E' _].
  unfold good in *. destruct (list_eq_dec N.eq_dec mac (ktag cx dsz key iv aad ct)) as [e|e]; [contradiction (Hne e)|].
  split; [exact E|]. eexists. exact E'.
Qed.
Print Assumptions C32_forged_throws_partial.
(** ... but the other two are declared noexcept (apie.h:1160-1163: noexcept(sizeof...(t_error) == 0); 1253-1257), so every forged
    message terminates the program instead of throwing. *)
Theorem C32_forged_terminates_refuted : forall cx B dsz key iv aad ct junk mac,
  backend_ok cx B -> (dsz <= 16)%nat -> bytes key -> bytes iv -> chunk aad -> chunk ct ->
  bytes junk -> length junk = dsz -> bytes mac ->
  mac <> firstn dsz (aead_tag_on (cx_big cx) (pad_to 32 key) (pad_to 12 iv) aad ct) ->
  (forall m src dst, bytes m -> slice m src (length ct) = ct -> (src + length ct <= length m)%nat ->
     (dst + length ct <= length m)%nat -> apart dst src (length ct) ->
     exists m', aead_free_decrypt B cx dsz key iv aad m src (length ct) junk mac dst = Some (m', Terminates)) /\
  (forall l, bytes l -> (length ct <= length l)%nat ->
     exists c, aead_free_decrypt_c B cx dsz key iv aad ct junk mac (Static l) = Some (c, Terminates)).
Proof.
  intros cx B dsz key iv aad ct junk mac BO Hd Hk Hv Ha Hc Hj Lj Hm Hne. split.
  - intros m src dst Bm Sm Hs Hdst Hap.
    destruct (free_decrypt_spec cx B BO dsz Hd key iv aad m src (length ct) dst junk mac Hk Hv Ha) as [E _];
      [repeat (split; [assumption|]); apply Hc|exact Hj|exact Lj|exact Hm|].
    rewrite Sm in E. unfold good in E. destruct (list_eq_dec N.eq_dec mac (ktag cx dsz key iv aad ct)) as [e|e]; [contradiction (Hne e)|].
    eexists. exact E.
  - intros l Hl Le.
    destruct (free_decrypt_c_spec cx B BO dsz Hd key iv aad ct (Static l) junk mac Hk Hv Ha Hc Hl Le Hj Lj Hm) as [E _].
    unfold good in E. destruct (list_eq_dec N.eq_dec mac (ktag cx dsz key iv aad ct)) as [e|e]; [contradiction (Hne e)|].
    eexists. exact E.
Qed.
Print Assumptions C32_forged_terminates_refuted.
(** With an error object the failure is reported by every overload. *)
Theorem C32_error_object : forall cx B dsz key iv aad ct junk mac,
  backend_ok cx B -> (dsz <= 16)%nat -> bytes key -> bytes iv -> chunk aad -> chunk ct ->
  bytes junk -> length junk = dsz -> bytes mac ->
  mac <> firstn dsz (aead_tag_on (cx_big cx) (pad_to 32 key) (pad_to 12 iv) aad ct) ->
  (forall m src dst, bytes m -> slice m src (length ct) = ct -> (src + length ct <= length m)%nat ->
     (dst + length ct <= length m)%nat -> apart dst src (length ct) ->
     exists m' n, aead_free_decrypt_err B cx dsz key iv aad m src (length ct) junk mac dst = Some (m', n, err_aead_verify)) /\
  (forall c, bytes (cdata c) -> match c with Dynamic _ => True | Static l => (length ct <= length l)%nat end ->
     exists c' n, aead_free_decrypt_c_err B cx dsz key iv aad ct junk mac c = Some (c', n, err_aead_verify)) /\
  exists r, aead_free_decrypt_new_err B cx dsz key iv aad ct junk mac = Some (r, err_aead_verify).
Proof.
  intros cx B dsz key iv aad ct junk mac BO Hd Hk Hv Ha Hc Hj Lj Hm Hne. split; [|split].
  - intros m src dst Bm Sm Hs Hdst Hap.
    destruct (free_decrypt_spec cx B BO dsz Hd key iv aad m src (length ct) dst junk mac Hk Hv Ha) as [_ E];
      [repeat (split; [assumption|]); apply Hc|exact Hj|exact Lj|exact Hm|].
    rewrite Sm in E. unfold good in E. destruct (list_eq_dec N.eq_dec mac (ktag cx dsz key iv aad ct)) as [e|e]; [contradiction (Hne e)|].
    eexists. eexists. exact E.
  - intros c Bc Le.
    destruct (free_decrypt_c_spec cx B BO dsz Hd key iv aad ct c junk mac Hk Hv Ha Hc Bc Le Hj Lj Hm) as [_ E].
    unfold good in E. destruct (list_eq_dec N.eq_dec mac (ktag cx dsz key iv aad ct)) as [e|e]; [contradiction (Hne e)|].
    eexists. eexists. exact E.
  - destruct (free_decrypt_new_spec cx B BO dsz Hd key iv aad ct junk mac Hk Hv Ha Hc Hj Lj Hm) as [_ E].
    unfold good in E. destruct (list_eq_dec N.eq_dec mac (ktag cx dsz key iv aad ct)) as [e|e]; [contradiction (Hne e)|].
    eexists. exact E.
Qed.
Print Assumptions C32_error_object.

(** *** C33: the free decrypt functions write the decryption of every forged ciphertext, and leave it there. *)
Theorem C33_forged_plaintext_released_refuted : forall cx B dsz key iv aad ct junk mac,
  backend_ok cx B -> (dsz <= 16)%nat -> bytes key -> bytes iv -> chunk aad -> chunk ct ->
  bytes junk -> length junk = dsz -> bytes mac ->
  mac <> firstn dsz (aead_tag_on (cx_big cx) (pad_to 32 key) (pad_to 12 iv) aad ct) ->
  let plain := aead_text (pad_to 32 key) (pad_to 12 iv) ct in
  (forall m src dst, bytes m -> slice m src (length ct) = ct -> (src + length ct <= length m)%nat ->
     (dst + length ct <= length m)%nat -> apart dst src (length ct) ->
     aead_free_decrypt_err B cx dsz key iv aad m src (length ct) junk mac dst = Some (put m dst plain, length ct, err_aead_verify)) /\
  (forall l, bytes l ->
     aead_free_decrypt_c_err B cx dsz key iv aad ct junk mac (Dynamic l) = Some (Dynamic plain, length ct, err_aead_verify) /\
     aead_free_decrypt_c B cx dsz key iv aad ct junk mac (Dynamic l) = Some (Dynamic plain, Throws err_aead_verify)) /\
  aead_free_decrypt_new_err B cx dsz key iv aad ct junk mac = Some (plain, err_aead_verify).
Proof.
  intros cx B dsz key iv aad ct junk mac BO Hd Hk Hv Ha Hc Hj Lj Hm Hne plain. split; [|split].
  - intros m src dst Bm Sm Hs Hdst Hap.
    destruct (free_decrypt_spec cx B BO dsz Hd key iv aad m src (length ct) dst junk mac Hk Hv Ha) as [_ E];
      [repeat (split; [assumption|]); apply Hc|exact Hj|exact Lj|exact Hm|].
    rewrite Sm in E. unfold good in E. destruct (list_eq_dec N.eq_dec mac (ktag cx dsz key iv aad ct)) as [e|e]; [contradiction (Hne e)|].
    exact E.
  - intros l Bc.
    destruct (free_decrypt_c_spec cx B BO dsz Hd key iv aad ct (Dynamic l) junk mac Hk Hv Ha Hc Bc I Hj Lj Hm) as [E' E].
    unfold good in E, E'. destruct (list_eq_dec N.eq_dec mac (ktag cx dsz key iv aad ct)) as [e|e]; [contradiction (Hne e)|].
    split; [exact E|exact E'].
  - destruct (free_decrypt_new_spec cx B BO dsz Hd key iv aad ct junk mac Hk Hv Ha Hc Hj Lj Hm) as [_ E].
    unfold good in E. destruct (list_eq_dec N.eq_dec mac (ktag cx dsz key iv aad ct)) as [e|e]; [contradiction (Hne e)|].
    exact E.
Qed.
Print Assumptions C33_forged_plaintext_released_refuted.
(** The one overload from which nothing escapes: the throwing one that would have returned a new container. *)
Theorem C33_new_container_partial : forall cx B dsz key iv aad ct junk mac,
  backend_ok cx B -> (dsz <= 16)%nat -> bytes key -> bytes iv -> chunk aad -> chunk ct ->
  bytes junk -> length junk = dsz -> bytes mac ->
  mac <> firstn dsz (aead_tag_on (cx_big cx) (pad_to 32 key) (pad_to 12 iv) aad ct) ->
  aead_free_decrypt_new B cx dsz key iv aad ct junk mac = Some (Throws err_aead_verify).
Proof.
  intros cx B dsz key iv aad ct junk mac BO Hd Hk Hv Ha Hc Hj Lj Hm Hne.
  exact (proj1 (C32_forged_throws_partial cx B dsz key iv aad ct junk mac [] BO Hd Hk Hv Ha Hc Hj Lj Hm (Forall_nil _) Hne)).
Qed.
Print Assumptions C33_new_container_partial.
Example C32_C33_case : chunk [1; 2; 3] /\ bytes (repeat 0 16) /\ length (repeat 0 16) = 16%nat /\ bytes [] /\
  [] <> firstn 16 (aead_tag (pad_to 32 [5]) (pad_to 12 [6]) [1] [1; 2; 3]).
Proof.
  split; [split; [repeat constructor; unfold is_byte; lia|reflexivity]|]. split; [apply bytes_repeat; unfold is_byte; lia|].
  split; [reflexivity|]. split; [constructor|]. intros E. apply (f_equal (@length N)) in E.
  rewrite firstn_length in E. unfold aead_tag in E. rewrite Proof_Poly.poly1305_length in E. discriminate E.
Qed.

(** *** C34: with at least one call of encrypt (of any size, even empty), or additional data in whole 16-byte blocks,
    the tag is the one-shot tag ... *)
Theorem C34_streaming_partial : forall cx B dsz key iv ads ts junk,
  backend_ok cx B -> (dsz <= 16)%nat -> bytes key -> bytes iv ->
  Forall chunk ads -> Forall chunk ts -> chunk (concat ads) -> chunk (concat ts) -> bytes junk -> length junk = dsz ->
  ts <> [] \/ (length (concat ads) mod 16 = 0)%nat ->
  exists p p1 p2 cs tag,
    aapie_new B cx key iv = Some p /\ aad_pieces cx p ads = Some p1 /\ text_pieces Encrypt B cx p1 ts = Some (p2, cs) /\
    aead_free_encrypt_new B cx dsz key iv (concat ads) (concat ts) junk = Some (concat cs, tag) /\
    areturns cx dsz p2 tag.
Proof.
  intros cx B dsz key iv ads ts junk BO Hd Hk Hv Ha Ht Ca Ct Hj Lj Hne.
  destruct (stream_spec cx B BO dsz Hd Encrypt key iv ads ts Hk Hv Ha Ht Hne) as (p & p1 & p2 & rs & E1 & E2 & E3 & E4 & E5).
  pose proof (free_encrypt_new_spec cx B BO dsz Hd key iv (concat ads) (concat ts) junk Hk Hv Ca Ct Hj Lj) as F.
  cbv zeta in F. rewrite <- E4 in F. exists p, p1, p2, rs, (ktag cx dsz key iv (concat ads) (concat rs)). auto.
Qed.
Print Assumptions C34_streaming_partial.
(** ... but when encrypt is never called, the additional data is not padded before the lengths: digest is the Poly1305
    of [aad ++ lengths], for all additional data, and not of [aad ++ padding ++ lengths]. *)
Theorem C34_without_text : forall cx B dsz key iv ads,
  backend_ok cx B -> (dsz <= 16)%nat -> bytes key -> bytes iv -> Forall chunk ads ->
  let aad := concat ads in
  exists p p1, aapie_new B cx key iv = Some p /\ aad_pieces cx p ads = Some p1 /\
  forall dst size, bytes dst -> (Nat.min size dsz <= length dst)%nat ->
  exists p2, aapie_digest cx dsz p1 dst size
    = Some (p2, firstn size (firstn dsz (poly1305_on (cx_big cx) (aead_otk (pad_to 32 key) (pad_to 12 iv))
              (aad ++ le_enc 8 (N.of_nat (length aad)) ++ le_enc 8 0))) ++ skipn (Nat.min size dsz) dst, Nat.min size dsz).
Proof. intros cx B dsz key iv ads BO Hd. exact (unpadded_tag cx B BO dsz Hd key iv ads). Qed.
Print Assumptions C34_without_text.
Theorem C34_without_text_refuted : exists key nonce aad,
  bytes key /\ length key = 32%nat /\ bytes nonce /\ length nonce = 12%nat /\ chunk aad /\
  exists p p1 p2 tag, aapie_new bk_sw rt key nonce = Some p /\ aapie_aad rt p aad = Some p1 /\
    aapie_digest rt 16 p1 (repeat 0 16) 16 = Some (p2, tag, 16%nat) /\
    aead_free_encrypt_new bk_sw rt 16 key nonce aad [] (repeat 0 16) <> Some ([], tag) /\
    tag <> aead_tag key nonce aad [].
Proof.
  exists zeros32, nonce12, [1]. split; [apply zeros32_bytes|]. split; [reflexivity|]. split; [apply nonce12_bytes|].
  split; [reflexivity|]. split; [split; [repeat constructor; unfold is_byte; lia|reflexivity]|].
  do 4 eexists. split; [vm_compute; reflexivity|]. split; [vm_compute; reflexivity|]. split; [vm_compute; reflexivity|].
  split; vm_compute; discriminate.
Qed.
Print Assumptions C34_without_text_refuted.
Example C34_case : ((@nil (list N)) <> [] \/ (length (concat [repeat 1 10; repeat 2 22]) mod 16 = 0)%nat) /\ chunk (concat [[1]; [2; 3]]).
Proof. split; [right; reflexivity|]. split; [repeat constructor; unfold is_byte; lia|reflexivity]. Qed.

(** *** C19, C20: any order of calls, also disorderly ones. *)
Theorem C19_aead : forall cx B dsz key iv before key' iv' later,
  backend_ok cx B -> (dsz <= 16)%nat ->
  bytes key -> bytes iv -> bytes key' -> bytes iv' -> Forall (acall_ok dsz) before -> Forall (acall_ok dsz) later ->
  exists p p1 outs0 p2 p3 p4 p5 outs,
    aapie_new B cx key iv = Some p /\ aead_run B cx dsz p before = Some (p1, outs0) /\
    aapie_initialize B cx p1 key' iv' = Some p2 /\ aead_run B cx dsz p2 later = Some (p3, outs) /\
    aapie_new B cx key' iv' = Some p4 /\ aead_run B cx dsz p4 later = Some (p5, outs).
Proof. intros cx B dsz key iv before key' iv' later BO Hd. exact (arun_reinit cx B BO dsz Hd key iv before key' iv' later). Qed.
Print Assumptions C19_aead.
Theorem C20_aead : forall cx B dsz key iv calls,
  backend_ok cx B -> (dsz <= 16)%nat -> bytes key -> bytes iv -> Forall (acall_ok dsz) calls ->
  exists p r, aapie_new B cx key iv = Some p /\ aead_run B cx dsz p calls = Some r.
Proof.
  intros cx B dsz key iv calls BO Hd Hk Hv Hc.
  destruct (arun_total cx B BO dsz Hd key iv calls Hk Hv Hc) as (p & r & E & R & _). exists p, r. auto.
Qed.
Print Assumptions C20_aead.
Example C19_C20_aead_case : Forall (acall_ok 16)
  [ADigest (repeat 0 16) 16; AAad [1]; ACryptC Encrypt [2] (Static [3; 4]); AAad [5]; AVerify (repeat 0 16) []].
Proof.
  constructor; [split; [apply bytes_repeat; unfold is_byte; lia|cbn; lia]|].
  constructor; [split; [repeat constructor; unfold is_byte; lia|reflexivity]|].
  constructor; [split; [split; [repeat constructor; unfold is_byte; lia|reflexivity]|split; [repeat constructor; unfold is_byte; lia|cbn; lia]]|].
  constructor; [split; [repeat constructor; unfold is_byte; lia|reflexivity]|].
  constructor; [split; [apply bytes_repeat; unfold is_byte; lia|split; [reflexivity|constructor]]|constructor].
Qed.

(** *** C46 (AEAD): in every history that keeps to the documented order, each tag is the tag of what has been given since the
    last initialize ... *)
Theorem C46_aead : forall cx B dsz key iv calls,
  backend_ok cx B -> (dsz <= 16)%nat -> bytes key -> bytes iv ->
  Forall (acall_ok dsz) calls -> aorderly false false 0 calls = true ->
  exists p p', aapie_new B cx key iv = Some p /\ aead_run B cx dsz p calls = Some (p', aexpected_on (cx_big cx) dsz key iv [] [] calls).
Proof. exact C29_history_any_host. Qed.
Print Assumptions C46_aead.
(** ... and the order is needed: text after a digest is encrypted, but the tag asked for after that is neither the tag of all the
    ciphertext nor the tag from before. *)
Theorem C46_aead_needed : exists key nonce text text',
  bytes key /\ length key = 32%nat /\ bytes nonce /\ length nonce = 12%nat /\ chunk text /\ chunk text' /\
  exists p p1 c1 p2 tag1 p3 c2 p4 tag2,
    aapie_new bk_sw rt key nonce = Some p /\ aapie_crypt_new Encrypt bk_sw rt p text = Some (p1, c1) /\
    aapie_digest rt 16 p1 (repeat 0 16) 16 = Some (p2, tag1, 16%nat) /\ tag1 = aead_tag key nonce [] c1 /\
    aapie_crypt_new Encrypt bk_sw rt p2 text' = Some (p3, c2) /\
    aapie_digest rt 16 p3 (repeat 0 16) 16 = Some (p4, tag2, 16%nat) /\
    tag2 <> aead_tag key nonce [] (c1 ++ c2) /\ tag2 <> tag1.
Proof.
  exists zeros32, nonce12, [1], (repeat 1 16). split; [apply zeros32_bytes|]. split; [reflexivity|]. split; [apply nonce12_bytes|].
  split; [reflexivity|]. split; [split; [repeat constructor; unfold is_byte; lia|reflexivity]|].
  split; [split; [apply bytes_repeat; unfold is_byte; lia|reflexivity]|].
  do 9 eexists. split; [vm_compute; reflexivity|]. split; [vm_compute; reflexivity|]. split; [vm_compute; reflexivity|].
  split; [vm_compute; reflexivity|]. split; [vm_compute; reflexivity|]. split; [vm_compute; reflexivity|].
  split; vm_compute; discriminate.
Qed.
Print Assumptions C46_aead_needed.

(** *** C45 (AEAD): the documented room is needed: a fixed-size output container smaller than the text is overrun. *)
Theorem C45_aead_room_needed : exists key nonce text l,
  bytes key /\ length key = 32%nat /\ bytes nonce /\ length nonce = 12%nat /\ chunk text /\ bytes l /\ (length l < length text)%nat /\
  aead_free_encrypt_c bk_sw rt 16 key nonce [] text (Static l) (Static (repeat 0 16)) = None.
Proof.
  exists zeros32, nonce12, [1; 2; 3], [0; 0]. split; [apply zeros32_bytes|]. split; [reflexivity|]. split; [apply nonce12_bytes|].
  split; [reflexivity|]. split; [split; [repeat constructor; unfold is_byte; lia|reflexivity]|].
  split; [repeat constructor; unfold is_byte; lia|]. split; [cbn; lia|]. vm_compute. reflexivity.
Qed.
Print Assumptions C45_aead_room_needed.
