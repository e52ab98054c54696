(** C63: keys and nonces of a wrong size. *)
From Verif Require Import Base BaseLemmas BytesLemmas Spec_Bytes Spec_ChaCha Spec_Poly Spec_Range Spec_Cipher Spec_Hash Spec_Mac Spec_Aead Spec_KeySize
  Model_Memory Model_Container Model_Sha Model_Mac Model_Poly Model_Cipher Model_Aead Proof_Mac Proof_Poly Proof_ChaChaCore Proof_ChaCha Proof_Aead Prop_Cipher Prop_Poly Prop_Aead.
Local Open Scope N_scope.

Lemma repeat_plus (x : N) a b : repeat x (a + b) = repeat x a ++ repeat x b.
Proof. induction a as [|a IH]; [reflexivity|]. cbn [repeat Nat.add app]. rewrite IH. reflexivity. Qed.
Lemma longer_pad n l l' : longer n l l' -> pad_to n l' = pad_to n l.
Proof.
  unfold pad_to. intros [[H (k & ->)]|[H (x & _ & ->)]]; rewrite firstn_app, app_length.
  - rewrite repeat_length, (firstn_all2 l) by exact H. rewrite <- app_assoc. f_equal. set (z := S k). clearbody z.
    destruct (Nat.le_gt_cases z (n - length l)) as [Q|Q].
    + rewrite firstn_all2 by (rewrite repeat_length; exact Q). rewrite <- repeat_plus. f_equal. lia.
    + replace z with ((n - length l) + (z - (n - length l)))%nat at 1 by lia. rewrite repeat_plus, firstn_app, repeat_length, Nat.sub_diag, firstn_O, app_nil_r.
      rewrite firstn_all2 by (rewrite repeat_length; lia). replace (n - (length l + z))%nat with 0%nat by lia. apply app_nil_r.
  - replace (n - length l)%nat with 0%nat by lia. replace (n - (length l + length x))%nat with 0%nat by lia. rewrite firstn_O, app_nil_r. reflexivity.
Qed.
Lemma longer_bytes n l l' : longer n l l' -> bytes l' -> bytes l.
Proof. intros [[H (k & ->)]|[H (x & _ & ->)]] B; apply bytes_app in B; apply B. Qed.
Lemma longer_diff n l l' : longer n l l' -> l <> l' /\ (length l <> n \/ length l' <> n).
Proof.
  intros [[H (k & ->)]|[H (x & Hx & ->)]].
  - assert (L : length (l ++ repeat 0 (S k)) = (length l + S k)%nat) by (rewrite app_length, repeat_length; reflexivity).
    split; [intros E; apply (f_equal (@length N)) in E; lia|lia].
  - assert (L : length (l ++ x) = (length l + length x)%nat) by apply app_length. destruct x as [|b x]; [contradiction|]. cbn [length] in L.
    split; [intros E; apply (f_equal (@length N)) in E; lia|lia].
Qed.

(** Refuted: inputs of different sizes, of which at least one is wrong, are all accepted and give the same key stream, ciphertext and tag. *)
Theorem C63_sizes_differ : forall n l l', longer n l l' -> l <> l' /\ (length l <> n \/ length l' <> n).
Proof. exact longer_diff. Qed.
Print Assumptions C63_sizes_differ.
Theorem C63_chacha20_refuted : forall cx B dir key key' iv iv' text,
  backend_ok cx B -> bytes key' -> bytes iv' -> bytes text -> key = key' \/ longer 32 key key' -> iv = iv' \/ longer 16 iv iv' ->
  exists r, cipher_free_new dir B cx key iv text = Some r /\ cipher_free_new dir B cx key' iv' text = Some r.
Proof.
  intros cx B dir key key' iv iv' text BO Hk Hv Ht K V.
  assert (Hk0 : bytes key) by (destruct K as [->|K]; [exact Hk|exact (longer_bytes _ _ _ K Hk)]).
  assert (Hv0 : bytes iv) by (destruct V as [->|V]; [exact Hv|exact (longer_bytes _ _ _ V Hv)]).
  destruct (cipher_free_spec cx B dir key iv text BO Hk0 Hv0 Ht) as [E _]. destruct (cipher_free_spec cx B dir key' iv' text BO Hk Hv Ht) as [E' _].
  eexists. split; [exact E|]. rewrite E'. unfold iv_counter, iv_nonce.
  assert (PK : pad_to 32 key' = pad_to 32 key) by (destruct K as [->|K]; [reflexivity|exact (longer_pad _ _ _ K)]).
  assert (PV : pad_to 16 iv' = pad_to 16 iv) by (destruct V as [->|V]; [reflexivity|exact (longer_pad _ _ _ V)]).
  rewrite PK, PV. reflexivity.
Qed.
Print Assumptions C63_chacha20_refuted.
Theorem C63_aead_refuted : forall cx B dsz key key' nonce nonce' aad text junk,
  backend_ok cx B -> (dsz <= 16)%nat -> bytes key' -> bytes nonce' -> chunk aad -> chunk text -> bytes junk -> length junk = dsz ->
  key = key' \/ longer 32 key key' -> nonce = nonce' \/ longer 12 nonce nonce' ->
  exists r, aead_free_encrypt_new B cx dsz key nonce aad text junk = Some r /\ aead_free_encrypt_new B cx dsz key' nonce' aad text junk = Some r.
Proof.
  intros cx B dsz key key' iv iv' aad text junk BO Hd Hk Hv Ha Ht Hj Lj K V.
  assert (Hk0 : bytes key) by (destruct K as [->|K]; [exact Hk|exact (longer_bytes _ _ _ K Hk)]).
  assert (Hv0 : bytes iv) by (destruct V as [->|V]; [exact Hv|exact (longer_bytes _ _ _ V Hv)]).
  pose proof (free_encrypt_new_spec cx B BO dsz Hd key iv aad text junk Hk0 Hv0 Ha Ht Hj Lj) as E.
  pose proof (free_encrypt_new_spec cx B BO dsz Hd key' iv' aad text junk Hk Hv Ha Ht Hj Lj) as E'. cbn zeta in E, E'.
  eexists. split; [exact E|]. rewrite E'. unfold ktext, ktag.
  assert (PK : pad_to 32 key' = pad_to 32 key) by (destruct K as [->|K]; [reflexivity|exact (longer_pad _ _ _ K)]).
  assert (PV : pad_to 12 iv' = pad_to 12 iv) by (destruct V as [->|V]; [reflexivity|exact (longer_pad _ _ _ V)]).
  rewrite PK, PV. reflexivity.
Qed.
Print Assumptions C63_aead_refuted.
(** For Poly1305 this is documented (doc/reference_mac.md:54-60: a longer key is cut, a shorter one padded with zeros). *)
Theorem C63_poly1305 : forall cx dsz key key' msg size,
  (dsz <= 16)%nat -> bytes key' -> chunk msg -> longer 32 key key' ->
  exists r, mac_free_digest_new cx (mac_poly dsz) key msg size = Some r /\ mac_free_digest_new cx (mac_poly dsz) key' msg size = Some r.
Proof.
  intros cx dsz key key' msg size Hd Hk Hm K. pose proof (longer_bytes _ _ _ K Hk) as Hk0.
  destruct (mfree_all (poly_on true cx dsz Hd) key msg Hk0 Hm) as (_ & _ & _ & E & _).
  destruct (mfree_all (poly_on true cx dsz Hd) key' msg Hk Hm) as (_ & _ & _ & E' & _).
  exists (firstn size (firstn dsz (poly1305_on (cx_big cx) (pad_to 32 key) msg))). split; [apply E|].
  rewrite <- (longer_pad _ _ _ K). apply E'.
Qed.
Print Assumptions C63_poly1305.

(** With the right sizes nothing is cut or padded: the text is encrypted with exactly the key, counter and nonce given, and different ones
    make different inputs of the block function. *)
Lemma words_inj k : forall l l', bytes l -> bytes l' -> length l = (4 * k)%nat -> length l' = (4 * k)%nat -> le_words 4 k l = le_words 4 k l' -> l = l'.
Proof.
  induction k as [|k IH]; intros l l' Hl Hl' L L' E; [destruct l; [destruct l'; [reflexivity|discriminate]|discriminate]|].
  cbn [le_words] in E. set (d := le_dec (firstn 4 l)) in *. set (d' := le_dec (firstn 4 l')) in *.
  assert (E1 : d = d') by congruence. assert (E2 : le_words 4 k (skipn 4 l) = le_words 4 k (skipn 4 l')) by congruence. unfold d, d' in E1.
  rewrite <- (firstn_skipn 4 l), <- (firstn_skipn 4 l'). f_equal.
  - rewrite <- (le_enc_dec (firstn 4 l) 4), <- (le_enc_dec (firstn 4 l') 4), E1;
      [reflexivity|apply bytes_firstn, Hl'|rewrite firstn_length; lia|apply bytes_firstn, Hl|rewrite firstn_length; lia].
  - apply IH; [apply bytes_skipn, Hl|apply bytes_skipn, Hl'|rewrite skipn_length; lia|rewrite skipn_length; lia|exact E2].
Qed.
Theorem C63_right_sizes_partial : forall cx B dir key iv text,
  backend_ok cx B -> bytes key -> bytes iv -> bytes text -> length key = 32%nat -> length iv = 16%nat ->
  cipher_free_new dir B cx key iv text = Some (chacha20 key (le_dec (firstn 4 iv)) (skipn 4 iv) text) /\
  forall key' iv', bytes key' -> bytes iv' -> length key' = 32%nat -> length iv' = 16%nat ->
    chacha20_state key (le_dec (firstn 4 iv)) (skipn 4 iv) = chacha20_state key' (le_dec (firstn 4 iv')) (skipn 4 iv') -> key = key' /\ iv = iv'.
Proof.
  intros cx B dir key iv text BO Hk Hv Ht Lk Lv. split.
  - destruct (cipher_free_spec cx B dir key iv text BO Hk Hv Ht) as [E _]. unfold iv_counter, iv_nonce in E.
    rewrite (pad_to_id 32 key Lk), (pad_to_id 16 iv Lv) in E. exact E.
  - intros key' iv' Hk' Hv' Lk' Lv' E. unfold chacha20_state in E. apply app_inv_head in E.
    change (le_dec (firstn 4 iv) :: le_words 4 3 (skipn 4 iv)) with (le_words 4 4 iv) in E.
    change (le_dec (firstn 4 iv') :: le_words 4 3 (skipn 4 iv')) with (le_words 4 4 iv') in E.
    assert (E1 : le_words 4 8 key = le_words 4 8 key').
    { apply (f_equal (firstn 8)) in E. rewrite !firstn_app, !le_words_length in E. change (8 - 8)%nat with 0%nat in E. rewrite !firstn_O, !app_nil_r in E.
      rewrite !firstn_all2 in E by (rewrite le_words_length; lia). exact E. }
    rewrite E1 in E. apply app_inv_head in E. split; [exact (words_inj 8 _ _ Hk Hk' Lk Lk' E1)|exact (words_inj 4 _ _ Hv Hv' Lv Lv' E)].
Qed.
Print Assumptions C63_right_sizes_partial.
(** Two nonces of 1 and 2 bytes, and a key that was passed with one byte too many. *)
Example C63_case : longer 12 [1] [1; 0] /\ longer 32 zeros32 (zeros32 ++ [9]) /\ longer 16 [] (repeat 0 16) /\ bytes (zeros32 ++ [9]).
Proof.
  split; [left; split; [cbn; lia|exists 0%nat; reflexivity]|]. split; [right; split; [cbn; lia|exists [9]; split; [discriminate|reflexivity]]|].
  split; [left; split; [cbn; lia|exists 15%nat; reflexivity]|]. apply bytes_app. split; [apply bytes_repeat0|repeat constructor; unfold is_byte; lia].
Qed.
