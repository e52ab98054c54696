(** Proofs for C42. *)
From Verif Require Import Base BaseLemmas BytesLemmas Spec_Bytes Spec_Range Spec_Sha Spec_Hash Spec_Hmac Spec_ChaCha Spec_Cipher Spec_Aead Spec_Kdf
  Model_Memory Model_Update Model_Container Model_Sha Model_Mac Model_Hmac Model_Poly Model_Cipher Model_Aead Model_Kdf Model_Erase
  Proof_Memory Proof_Memory2 Proof_Memory3 Proof_Mac Proof_ShaCore Proof_ShaApi Proof_Hmac Proof_Range Proof_ChaChaCore Proof_ChaCha
  Proof_Soak Proof_Poly Proof_Aead Proof_Kdf Proof_Kdf2 Proof_Kdf3.
Local Open Scope N_scope.

Lemma erase_all arr : mem_erase arr (length arr) = Some (repeat 0 (length arr)).
Proof. exact (mem_zero_all arr). Qed.

(** *** Frame versions are the functions plus the frame *)
Lemma cc_blocks_proj cx out : forall n base ev m d s,
  cc_blocks cx out n base m d s = ('(m, _) <- cc_blocks_f cx out n base ev m d s ;; Some m).
Proof.
  induction n as [|n IH]; intros base ev m d s; [reflexivity|]. cbn [cc_blocks cc_blocks_f].
  destruct (cc_rounds 10 base) as [e|]; [|reflexivity]. cbn [bind].
  destruct (cc_add e base 0 16) as [e'|]; [|reflexivity]. cbn [bind].
  destruct (out e' m d s) as [m'|]; [|reflexivity]. cbn [bind].
  destruct (rd base 12) as [c|]; [|reflexivity]. cbn [bind].
  destruct (wr base 12 (wadd 32 c 1)) as [b|]; [|reflexivity]. cbn [bind]. apply IH.
Qed.
Lemma cc_transform_proj cx n st ev m d s :
  cc_transform cx n st m d s = ('(m, k, _) <- cc_transform_f cx n st ev m d s ;; Some (m, k)).
Proof.
  unfold cc_transform, cc_transform_f. destruct (rds st 0 16) as [b|]; [|reflexivity]. cbn [bind].
  rewrite (cc_blocks_proj cx _ n b ev m d s). destruct (cc_blocks_f cx _ n b ev m d s) as [[m' f]|]; reflexivity.
Qed.
Lemma cc_generate_proj cx n st ev m :
  cc_generate cx n st m = ('(m, k, _) <- cc_generate_f cx n st ev m ;; Some (m, k)).
Proof.
  unfold cc_generate, cc_generate_f. destruct (rds st 0 16) as [b|]; [|reflexivity]. cbn [bind].
  rewrite (cc_blocks_proj cx _ n b ev m 0 0). destruct (cc_blocks_f cx _ n b ev m 0 0) as [[m' f]|]; reflexivity.
Qed.
Lemma aead_initialize_proj B cx o key iv :
  aead_initialize B cx o key iv = ('(o, _) <- aead_initialize_f B cx o key iv ;; Some o).
Proof.
  unfold aead_initialize, aead_initialize_f. destruct (at_off _ 4 _) as [v|]; [|reflexivity]. cbn [bind].
  destruct (cc_initialize cx (ao_cipher o) key v) as [c|]; [|reflexivity]. cbn [bind].
  destruct (cc_encrypt B cx c _ 0 64 0) as [[[c' k] z]|]; [|reflexivity]. cbn [bind].
  destruct (poly_initialize true cx (ao_mac o) k) as [h|]; reflexivity.
Qed.
Lemma pb_expand_proj cx M env h vi vs it c dst off :
  pb_expand cx M env h vi vs it c dst off = ('(h, d, _) <- pb_expand_f cx M env h vi vs it c dst off ;; Some (h, d)).
Proof.
  unfold pb_expand, pb_expand_f. destruct (mem_stor_be cx 4 1 (repeat 0 4) 0 c) as [bc|]; [|reflexivity]. cbn [bind].
  destruct (view_read env vi) as [p|]; [|reflexivity]. cbn [bind].
  destruct (view_read env vs) as [s|]; [|reflexivity]. cbn [bind].
  destruct (mac_once cx M h p [s; bc] _ 0) as [[h1 b0]|]; [|reflexivity]. cbn [bind].
  destruct (mem_copy cx 1 1 _ b0 _) as [b1|]; [|reflexivity]. cbn [bind].
  destruct (pb_loop cx M env vi h1 b0 b1 _) as [[h2 b2]|]; [|reflexivity]. cbn [bind].
  destruct (at_off dst off _) as [d|]; reflexivity.
Qed.

(** *** The ChaCha key *)
Lemma cc_blocks_base cx out : forall n base ev m d s m' b e, (13 <= length base)%nat ->
  cc_blocks_f cx out n base ev m d s = Some (m', (b, e)) -> firstn 12 b = firstn 12 base.
Proof.
  induction n as [|n IH]; intros base ev m d s m' b e L H; cbn [cc_blocks_f] in H.
  - injection H as _ <- _. reflexivity.
  - destruct (cc_rounds 10 base) as [e1|]; [|discriminate]. cbn [bind] in H.
    destruct (cc_add e1 base 0 16) as [e2|]; [|discriminate]. cbn [bind] in H.
    destruct (out e2 m d s) as [m1|]; [|discriminate]. cbn [bind] in H.
    destruct (rd base 12) as [c|]; [|discriminate]. cbn [bind] in H.
    rewrite wr_firstn in H by lia. cbn [bind] in H. apply IH in H.
    + rewrite H. rewrite firstn_app, firstn_firstn, firstn_length.
      replace (12 - Nat.min 12 (length base))%nat with 0%nat by lia. rewrite firstn_O, app_nil_r. reflexivity.
    + rewrite app_length, firstn_length. cbn [length]. lia.
Qed.
Lemma le_key key c nonce : slice (chacha20_state key c nonce) 4 8 = le_words 4 8 key.
Proof.
  unfold slice, chacha20_state, chacha_constants. cbn [app skipn].
  rewrite firstn_app, le_words_length. change (8 - 8)%nat with 0%nat. rewrite firstn_O, app_nil_r.
  apply firstn_all2. rewrite le_words_length. lia.
Qed.
Lemma slice_firstn12 (b : list N) : slice b 4 8 = skipn 4 (firstn 12 b).
Proof. unfold slice. rewrite skipn_firstn_comm. reflexivity. Qed.
Lemma chacha_frame cx n key c nonce ev m d s : bytes key -> bytes nonce -> c < 2 ^ 32 -> bytes m ->
  (d + 64 * n <= length m)%nat -> (s + 64 * n <= length m)%nat -> apart d s (64 * n) ->
  exists m' b e, cc_transform_f cx n (chacha20_state key c nonce) ev m d s = Some (m', n, (b, e)) /\
    slice b 4 8 = le_words 4 8 key.
Proof.
  intros Hk Hn Hc Hm Hd Hs Ha. set (st := chacha20_state key c nonce).
  assert (L : length st = 16%nat) by (unfold st, chacha20_state; rewrite !app_length; cbn [length]; rewrite !le_words_length; reflexivity).
  assert (W : words 32 st).
  { unfold st, chacha20_state. apply Forall_app. split; [repeat constructor|]. apply Forall_app. split; [apply le_words_words, Hk|].
    constructor; [exact Hc|apply le_words_words, Hn]. }
  pose proof (bo_transform _ _ (bk_sw_ok cx) n st m d s L W Hm) as T.
  change (bk_block bk_sw) with 64%nat in T. specialize (T Hd Hs Ha).
  change (bk_transform bk_sw cx n st m d s) with (cc_transform cx n st m d s) in T.
  rewrite (cc_transform_proj cx n st ev m d s) in T.
  destruct (cc_transform_f cx n st ev m d s) as [[[m' k] [b e]]|] eqn:E; [|discriminate]. cbn [bind] in T.
  exists m', b, e. assert (K : k = n).
  { unfold cc_transform_f in E. destruct (rds st 0 16) as [x|]; [|discriminate]. cbn [bind] in E.
    destruct (cc_blocks_f _ _ _ _ _ _ _ _) as [[? ?]|]; [|discriminate]. cbn [bind] in E. congruence. }
  rewrite K in *. split; [reflexivity|].
  unfold cc_transform_f in E. rewrite (rds_prefix st 16) in E by (rewrite L; apply Nat.le_refl). cbn [bind] in E.
  rewrite firstn_all2 in E by (rewrite L; apply Nat.le_refl).
  match type of E with bind ?X _ = _ => destruct X as [[m1 [b1 e1]]|] eqn:F; [|discriminate] end.
  cbn [bind] in E. injection E as _ -> _. apply cc_blocks_base in F; [|rewrite L; lia].
  rewrite slice_firstn12, F, <- slice_firstn12. apply le_key.
Qed.

(** *** The one-time Poly1305 key *)
Lemma aead_frame cx B key iv : backend_ok cx B -> bytes key -> bytes iv ->
  exists o k, aead_initialize_f B cx (aead_new 0 0) key iv = Some (o, k) /\ firstn 32 k = aead_otk (pad_to 32 key) (pad_to 12 iv).
Proof.
  intros BO Hk Hv.
  destruct (anew cx B BO 16 (Nat.le_refl 16) key iv Hk Hv) as (p & E & _).
  unfold aapie_new, aapie_new_from, aapie_initialize in E. cbn [ap_impl] in E.
  rewrite aead_initialize_proj in E.
  destruct (aead_initialize_f B cx (aead_new 0 0) key iv) as [[o k]|] eqn:F; [|discriminate].
  exists o, k. split; [reflexivity|]. clear E.
  destruct (api_state_ok key (iv16 iv) Hk (iv16_bytes iv Hv)) as [L W]. fold (ast key iv) in L, W.
  unfold aead_initialize_f, at_off in F. rewrite repeat_length in F. cbn [Nat.leb] in F.
  change (skipn 4 (repeat 0 16)) with (repeat 0 12) in F. change (firstn 4 (repeat 0 16)) with (repeat 0 4) in F.
  rewrite mem_init_1 in F by exact Hv. rewrite repeat_length in F. cbn [bind] in F. fold (iv16 iv) in F.
  destruct (initialize_spec cx B cc_new key (iv16 iv) cc_new_wf Hk (iv16_bytes iv Hv)) as (c & E & I).
  unfold capie_initialize in E. change (ao_cipher (aead_new 0 0)) with cc_new in F. rewrite E in F. cbn [bind] in F.
  fold (ast key iv) in I.
  destruct (crypt_spec cx B BO (ast key iv) L W Encrypt c 0 (repeat 0 64) 0 0 64 I (bytes_repeat0 64)) as (c' & E' & I');
    [rewrite repeat_length; lia|rewrite repeat_length; lia|left; reflexivity|].
  cbn [capie_crypt] in E'. rewrite E' in F. cbn [bind] in F.
  rewrite put_all in F by (rewrite xor_with_length, slice_length; rewrite repeat_length; lia).
  change (slice (repeat 0 64) 0 64) with (repeat 0 64) in F. fold (mkey key iv) in F.
  match type of F with bind ?X _ = _ => destruct X as [h|]; [|discriminate] end.
  cbn [bind] in F. injection F as _ <-. rewrite <- (mkey_otk key iv Hk Hv).
  assert (Lm : length (mkey key iv) = 64%nat) by (unfold mkey; rewrite xor_with_length; apply repeat_length).
  unfold pad_to. replace (32 - length (mkey key iv))%nat with 0%nat by lia. cbn [repeat]. rewrite app_nil_r. reflexivity.
Qed.

(** *** The derived PBKDF2 block *)
Lemma pb_frame cx a dsz env vi vs P S it i dst off : (1 <= dsz <= sha_digest_size a)%nat ->
  view_read env vi = Some P -> view_read env vs = Some S -> chunk P -> chunk S ->
  bytes dst -> (off + dsz <= length dst)%nat ->
  let M := mac_hmac (milo_hash a) dsz in
  let T := pb_T (fun k m => firstn dsz (hmac (fips a) (sha_block_size a) k m)) P S i (Nat.max 1 (N.to_nat it)) in
  exists h, pb_expand_f cx M env (ma_new M) vi vs it (N.of_nat i mod 2 ^ 32) dst off = Some (h, put dst off T, T).
Proof.
  intros Hd HP HS CP CS Hb Ho M T.
  pose proof (milo_hmac_ok cx a dsz (proj2 Hd)) as OK. pose proof (hmac_es a dsz Hd) as Hes.
  pose proof (hmac_tag_ok a dsz (proj2 Hd)) as TB.
  pose proof (mo_new _ _ _ _ _ _ _ OK) as E0. fold M in OK, E0.
  set (c := N.of_nat i mod 2 ^ 32).
  assert (Hc : c < 2 ^ 32) by (apply N.mod_lt; discriminate).
  assert (PT : pblk (T := hmac_tag a dsz) P S it c = T) by (unfold c; rewrite (pblk_T (M := M) Hes TB); reflexivity).
  unfold pb_expand_f. change (ma_digest_size M) with dsz.
  rewrite mem_stor_be_bytes; [|right; right; left; reflexivity|apply bytes_zeros|exact Hc|cbn; lia].
  change (0 * 4)%nat with 0%nat.
  assert (WR : wrs (repeat 0 4) 0 (be_enc 4 c) = Some (be_enc 4 c)).
  { unfold wrs. rewrite be_enc_length. cbn [repeat length Nat.add Nat.leb firstn skipn app]. rewrite app_nil_r. reflexivity. }
  rewrite WR. cbn [bind]. rewrite HP. cbn [bind]. rewrite HS. cbn [bind].
  destruct (once_spec OK Hes TB (ma_new M) P [S; be_enc 4 c] (repeat 0 dsz) 0 E0 CP) as (h1 & X & E1).
  - constructor; [exact CS|]. constructor; [|constructor]. apply (small_chunk (M := M) Hes TB); [apply be_enc_bytes|rewrite be_enc_length; lia].
  - apply bytes_zeros.
  - rewrite repeat_length. apply Nat.le_refl.
  - rewrite X. cbn [bind concat]. rewrite app_nil_r. destruct (TB P (S ++ be_enc 4 c) (proj1 CP)) as [Bb Lb].
    { apply bytes_app. split; [apply CS|apply be_enc_bytes]. }
    unfold pblk in PT. set (u := hmac_tag a dsz P (S ++ be_enc 4 c)) in *.
    assert (PA : put (repeat 0 dsz) 0 u = u) by (unfold put; rewrite firstn_O, skipn_all2 by (rewrite repeat_length; lia); apply app_nil_r).
    rewrite PA. rewrite copy_bytes; [|apply bytes_zeros|exact Bb|lia|rewrite repeat_length; lia]. cbn [bind].
    rewrite firstn_all2 by lia. rewrite (skipn_all2 (repeat 0 dsz)) by (rewrite repeat_length; lia). rewrite app_nil_r.
    destruct (pb_loop_spec OK Hes TB env vi P S HP CP (N.to_nat it - 1) h1 u u E1 Bb Lb Bb Lb) as (h2 & Y & E2). rewrite Y. cbn [bind].
    destruct (ploop_ok (M := M) Hes TB P (proj1 CP) (N.to_nat it - 1) u u Bb Bb Lb) as [Bl Ll]. rewrite PT in *. change (ma_digest_size M) with dsz in Ll.
    rewrite at_off_copy by (try assumption; lia). cbn [bind]. rewrite firstn_all2 by lia. exists h2. reflexivity.
Qed.
