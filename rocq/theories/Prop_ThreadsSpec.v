(** C71: what each object computes in a program of several threads, whatever the other objects do meanwhile. *)
From Verif Require Import Base BaseLemmas BytesLemmas Spec_Bytes Spec_Sha Spec_ChaCha Spec_Poly Spec_Cipher Spec_Hash Spec_Mac Spec_Hmac Spec_Aead Spec_Kdf
  Model_Memory Model_Sha Model_Container Model_Mac Model_Hmac Model_Poly Model_Cipher Model_Aead Model_Kdf Model_Threads
  Proof_Hmac Proof_Poly Proof_Kdf3 Proof_ChaCha Proof_Aead Proof_ThreadsSpec Proof_Test Proof_Test2 Proof_ThreadsSeq Prop_Test Prop_Cipher Prop_Hmac Prop_Poly Prop_Kdf Prop_Threads Spec_Threads Spec_Range.
Local Open Scope N_scope.

(** In every order [tr] of the calls of a program: an object of SHA that is given the ranges [rs] and asked for [n] bytes of its digest at [d]
    ends with the first bytes of the digest of the concatenated ranges at [d]. *)
Theorem C71_hash_result : forall cx B xs m tr i a z rs d n, program cx B xs m tr -> xs i = THash (milo_hash_opt a z) (hapie_new (milo_hash_opt a z)) ->
  does tr i (map SFeed rs ++ [STag d n]) ->
  exists m', ends cx B xs m tr i m' (map (fun _ => SNone) rs ++ [SSize (Nat.min n z)]) /\
    content m' (d, Nat.min n z) = firstn n (firstn z (fips a (concat (map (content m) rs)))).
Proof. exact hash_job. Qed.
Print Assumptions C71_hash_result.
Theorem C71_hmac_result : forall cx B xs m tr i a z key p rs d n, program cx B xs m tr -> xs i = TMac (mac_hmac (milo_hash a) z) p ->
  (z <= sha_digest_size a)%nat -> chunk key -> mapie_new cx (mac_hmac (milo_hash a) z) key = Some p -> does tr i (map SFeed rs ++ [STag d n]) ->
  exists m', ends cx B xs m tr i m' (map (fun _ => SNone) rs ++ [SSize (Nat.min n z)]) /\
    content m' (d, Nat.min n z) = firstn n (firstn z (hmac (fips a) (sha_block_size a) key (concat (map (content m) rs)))).
Proof.
  intros cx B xs m tr i a z key p rs d n P X Hz Hk Ep D.
  apply (mac_job cx B xs m tr i (mac_hmac (milo_hash a) z) p rs d n key (fun t => firstn z (hmac (fips a) (sha_block_size a) key t)) P X Ep); [| |exact D].
  - intros ms Hms. exact (C22_hmac cx a z key ms Hz Hk Hms).
  - intros t Ht. rewrite firstn_length, C22_size by (exact Ht || exact (proj1 Hk)). cbn [mac_hmac ma_digest_size]. lia.
Qed.
Print Assumptions C71_hmac_result.
Theorem C71_poly_result : forall cx B xs m tr i z key p rs d n, program cx B xs m tr -> xs i = TMac (mac_poly z) p ->
  (z <= 16)%nat -> bytes key -> mapie_new cx (mac_poly z) key = Some p -> does tr i (map SFeed rs ++ [STag d n]) ->
  exists m', ends cx B xs m tr i m' (map (fun _ => SNone) rs ++ [SSize (Nat.min n z)]) /\
    content m' (d, Nat.min n z) = firstn n (firstn z (poly1305_on (cx_big cx) (pad_to 32 key) (concat (map (content m) rs)))).
Proof.
  intros cx B xs m tr i z key p rs d n P X Hz Hk Ep D.
  apply (mac_job cx B xs m tr i (mac_poly z) p rs d n key (fun t => firstn z (poly1305_on (cx_big cx) (pad_to 32 key) t)) P X Ep); [| |exact D].
  - intros ms Hms. exact (C23_any_host cx z key ms Hz Hk Hms).
  - intros t Ht. rewrite firstn_length, poly1305_on_length. change (ma_digest_size (mac_poly z)) with z. lia.
Qed.
Print Assumptions C71_poly_result.
(** A ChaCha20 object that encrypts or decrypts the [n] bytes at [s] to [d]. *)
Theorem C71_cipher_result : forall cx B xs m tr i key iv o dir s n d, program cx B xs m tr -> xs i = TCipher o -> bytes key -> bytes iv ->
  capie_new cx key iv = Some o -> does tr i [SCrypt dir s n d] ->
  exists m', ends cx B xs m tr i m' [SSize n] /\
    content m' (d, n) = chacha20 (pad_to 32 key) (iv_counter iv) (iv_nonce iv) (content m (s, n)).
Proof. exact cipher_job. Qed.
Print Assumptions C71_cipher_result.
(** A ChaCha20-Poly1305 object: the text at [d] and the tag, over the associated data and the ciphertext, at [t]. *)
Theorem C71_aead_result : forall cx B xs m tr i key iv z p dir r s n d t k, program cx B xs m tr -> xs i = TAead z p -> bytes key -> bytes iv ->
  aapie_new B cx key iv = Some p -> does tr i [SFeed r; SCrypt dir s n d; STag t k] -> (forall b, within (d, n) b -> ~ within (t, Nat.min k z) b) ->
  let text := aead_text (pad_to 32 key) (pad_to 12 iv) (content m (s, n)) in
  exists m', ends cx B xs m tr i m' [SNone; SSize n; SSize (Nat.min k z)] /\ content m' (d, n) = text /\
    content m' (t, Nat.min k z) = firstn k (firstn z (aead_tag_on (cx_big cx) (pad_to 32 key) (pad_to 12 iv) (content m r)
      (match dir with Encrypt => text | Decrypt => content m (s, n) end))).
Proof. exact aead_job. Qed.
Print Assumptions C71_aead_result.
(** And one that decrypts and verifies the tag in range [t]: it accepts this tag and no other one. *)
Theorem C71_verify_result : forall cx B xs m tr i key iv z p r s n d junk t, program cx B xs m tr -> xs i = TAead z p -> bytes key -> bytes iv ->
  aapie_new B cx key iv = Some p -> does tr i [SFeed r; SCrypt Decrypt s n d; SVerify junk t] -> (forall b, within (d, n) b -> ~ within t b) ->
  let tag := firstn z (aead_tag_on (cx_big cx) (pad_to 32 key) (pad_to 12 iv) (content m r) (content m (s, n))) in
  exists m' e, ends cx B xs m tr i m' [SNone; SSize n; SError e] /\ content m' (d, n) = aead_text (pad_to 32 key) (pad_to 12 iv) (content m (s, n)) /\
    (content m t = tag -> e = err_none) /\ (content m t <> tag -> e = err_aead_verify).
Proof. exact verify_job. Qed.
Print Assumptions C71_verify_result.
(** HKDF and PBKDF2 objects: [n] bytes of key at [d]. *)
Theorem C71_hkdf_result : forall cx B xs m tr i a z ki ks kf d n, program cx B xs m tr -> xs i = THkdf (mac_hmac (milo_hash a) z) (hk_new _) ->
  (1 <= z <= sha_digest_size a)%nat -> does tr i [SKey ki ks kf; SDerive d n] -> (n <= 255 * z)%nat ->
  exists m', ends cx B xs m tr i m' [SNone; SSize n] /\
    content m' (d, n) = hkdf (prf a z) z (content m ki) (content m ks) (content m kf) n.
Proof. exact hkdf_job. Qed.
Print Assumptions C71_hkdf_result.
Theorem C71_pbkdf2_result : forall cx B xs m tr i a z ki ks it d n, program cx B xs m tr -> xs i = TPbkdf2 (mac_hmac (milo_hash a) z) (pb_new _) ->
  (1 <= z <= sha_digest_size a)%nat -> does tr i [SPass ki ks it; SDerive d n] -> 1 <= it < 2 ^ 32 ->
  exists m', ends cx B xs m tr i m' [SNone; SSize n] /\
    content m' (d, n) = pbkdf2 (prf a z) z (content m ki) (content m ks) (N.to_nat it) n.
Proof. exact pbkdf2_job. Qed.
Print Assumptions C71_pbkdf2_result.

(** Objects that are initialised again for message after message (the digests and ciphertexts are not overwritten or read by the
    object's later calls).  A hash object: *)
Theorem C71_hash_messages : forall cx B xs m tr i a z es, program cx B xs m tr -> xs i = THash (milo_hash_opt a z) (hapie_new (milo_hash_opt a z)) ->
  does tr i (flat_map hash_calls es) -> undisturbed z (flat_map hash_calls es) ->
  Forall (fun '(rs, d, n) => N.of_nat (length (concat (map (content m) rs))) < 2 ^ 64) es ->
  exists m', ends cx B xs m tr i m' (flat_map (fun '(rs, d, n) => SNone :: map (fun _ => SNone) rs ++ [SSize (Nat.min n z)]) es) /\
    Forall (fun '(rs, d, n) => content m' (d, Nat.min n z) = firstn n (firstn z (fips a (concat (map (content m) rs))))) es.
Proof.
  intros cx B xs m tr i a z es P X D U Hl. pose proof (milo_opt_size cx B xs m tr i a z P X) as Hz. pose proof (milo_opt_computes cx a z Hz) as HC.
  assert (Ez : ha_digest_size (milo_hash_opt a z) = z) by (destruct a; reflexivity).
  apply (sessions_end cx B xs m tr i hash_calls (fun '(rs, d, n) => SNone :: map (fun _ => SNone) rs ++ [SSize (Nat.min n z)])
    (fun e g => let '(rs, d, n) := e in content g (d, Nat.min n z) = firstn n (firstn z (fips a (concat (map (content m) rs))))) es
    (fun x => exists p, x = THash (milo_hash_opt a z) p /\ used cx (milo_hash_opt a z) p) P).
  - rewrite X. exists (hapie_new (milo_hash_opt a z)). split; [reflexivity|apply used_new].
  - exact D.
  - rewrite X. cbn [tag_size]. rewrite Ez. exact U.
  - intros e He. pose proof (calls_legal cx B xs m tr i _ P D) as L. rewrite X in L |- *. cbn [tag_size].
    pose proof (hash_session cx B (milo_hash_opt a z) (fun t => firstn z (fips a t)) m e HC (fun t _ => bytes_firstn z _ (fips_is_bytes a t)) (pr_memory _ _ _ _ _ P)) as S.
    specialize (S (fun c Hc => L c (proj2 (in_flat_map _ _ _) (ex_intro _ e (conj He Hc))))).
    pose proof (proj1 (Forall_forall _ _) Hl e He) as Hle. destruct e as [[rs d] n]. rewrite Ez in *. exact (S Hle).
Qed.
Print Assumptions C71_hash_messages.
(** An HMAC or Poly1305 object. *)
Lemma poly1305_on_is_bytes big k t : bytes (poly1305_on big k t).
Proof. apply poly1305_is_bytes. Qed.
Theorem C71_hmac_messages : forall cx B xs m tr i a z p es, program cx B xs m tr -> xs i = TMac (mac_hmac (milo_hash a) z) p -> (z <= sha_digest_size a)%nat ->
  does tr i (flat_map mac_calls es) -> undisturbed z (flat_map mac_calls es) ->
  Forall (fun '(k, rs, d, n) => N.of_nat (length (concat (map (content m) rs))) < 2 ^ 64) es ->
  exists m', ends cx B xs m tr i m' (flat_map (fun '(k, rs, d, n) => SNone :: map (fun _ => SNone) rs ++ [SSize (Nat.min n z)]) es) /\
    Forall (fun '(k, rs, d, n) => content m' (d, Nat.min n z) =
      firstn n (firstn z (hmac (fips a) (sha_block_size a) (content m k) (concat (map (content m) rs))))) es.
Proof.
  intros cx B xs m tr i a z p es P X Hz D U Hl.
  exact (mac_messages cx B xs m tr i _ p _ es (hmac_mcomputes cx a z Hz) (fun k t Hk Ht => proj1 (hmac_tag_ok a z Hz k t (proj1 Hk) Ht)) P X D U Hl).
Qed.
Print Assumptions C71_hmac_messages.
Theorem C71_poly_messages : forall cx B xs m tr i z p es, program cx B xs m tr -> xs i = TMac (mac_poly z) p -> (z <= 16)%nat ->
  does tr i (flat_map mac_calls es) -> undisturbed z (flat_map mac_calls es) ->
  Forall (fun '(k, rs, d, n) => N.of_nat (length (concat (map (content m) rs))) < 2 ^ 64) es ->
  exists m', ends cx B xs m tr i m' (flat_map (fun '(k, rs, d, n) => SNone :: map (fun _ => SNone) rs ++ [SSize (Nat.min n z)]) es) /\
    Forall (fun '(k, rs, d, n) => content m' (d, Nat.min n z) =
      firstn n (firstn z (poly1305_on (cx_big cx) (pad_to 32 (content m k)) (concat (map (content m) rs))))) es.
Proof.
  intros cx B xs m tr i z p es P X Hz D U Hl.
  exact (mac_messages cx B xs m tr i _ p _ es (poly_mcomputes cx z Hz) (fun k t _ _ => bytes_firstn z _ (poly1305_on_is_bytes (cx_big cx) (pad_to 32 k) t)) P X D U Hl).
Qed.
Print Assumptions C71_poly_messages.
(** A ChaCha20 object: texts in any number of parts. *)
Theorem C71_cipher_messages : forall cx B xs m tr i o es, program cx B xs m tr -> xs i = TCipher o ->
  does tr i (flat_map cipher_calls es) -> undisturbed 0 (flat_map cipher_calls es) ->
  exists m', ends cx B xs m tr i m' (flat_map (fun '(k, v, l) => SNone :: crypt_outs l) es) /\
    Forall (fun '(k, v, l) => outputs_of m' l = chacha20 (pad_to 32 (content m k)) (iv_counter (content m v)) (iv_nonce (content m v)) (inputs_of m l)) es.
Proof.
  intros cx B xs m tr i o es P X D U.
  apply (sessions_end cx B xs m tr i cipher_calls (fun '(k, v, l) => SNone :: crypt_outs l)
    (fun e g => let '(k, v, l) := e in outputs_of g l = chacha20 (pad_to 32 (content m k)) (iv_counter (content m v)) (iv_nonce (content m v)) (inputs_of m l)) es
    (fun x => exists o, x = TCipher o /\ cc_wf o) P).
  - rewrite X. exists o. split; [reflexivity|]. pose proof (pr_objects _ _ _ _ _ P i) as C. rewrite X in C. destruct C as (key & iv & Hk & Hv & E).
    destruct (initialize_spec cx B cc_new key iv cc_new_wf Hk Hv) as (o' & E' & I). unfold capie_new in E. assert (o' = o) by congruence. subst o'.
    destruct (api_state_ok key iv Hk Hv) as [La W]. exact (stream_at_wf B _ _ o La W I).
  - exact D.
  - rewrite X. exact U.
  - intros e He. pose proof (calls_legal cx B xs m tr i _ P D) as L. rewrite X in L |- *.
    pose proof (cipher_session cx B m e (pr_backend _ _ _ _ _ P) (pr_memory _ _ _ _ _ P)) as S.
    specialize (S (fun c Hc o' => L c (proj2 (in_flat_map _ _ _) (ex_intro _ e (conj He Hc))))).
    specialize (S (undisturbed_part 0 cipher_calls e es U He)). destruct e as [[k v] l]. exact S.
Qed.
Print Assumptions C71_cipher_messages.

(** A ChaCha20-Poly1305 object: messages encrypted or decrypted, with a tag taken or verified at the end of each. *)
Theorem C71_aead_messages : forall cx B xs m tr i z p es, program cx B xs m tr -> xs i = TAead z p ->
  does tr i (flat_map aead_calls es) -> undisturbed z (flat_map aead_calls es) -> Forall complete es ->
  exists m', ends cx B xs m tr i m' (flat_map (fun e => SNone :: map (fun _ => SNone) (am_aad e) ++ crypt_outs (parts e) ++ [last_out cx z m e]) es) /\
    Forall (fun e => outputs_of m' (parts e) = text_of m e /\
      match am_last e with STag t n => content m' (t, Nat.min n z) = firstn n (tag_of cx z m e) | _ => True end) es.
Proof.
  intros cx B xs m tr i z p es P X D U Hl. pose proof (pr_objects _ _ _ _ _ P i) as C. rewrite X in C. destruct C as (Hz & key & iv & Hk & Hv & E).
  apply (sessions_end cx B xs m tr i aead_calls (fun e => SNone :: map (fun _ => SNone) (am_aad e) ++ crypt_outs (parts e) ++ [last_out cx z m e])
    (fun e g => outputs_of g (parts e) = text_of m e /\ tag_bytes cx z m e g) es (fun x => exists p, x = TAead z p /\ awf p) P).
  - rewrite X. exists p. split; [reflexivity|]. destruct (anew cx B (pr_backend _ _ _ _ _ P) z Hz key iv Hk Hv) as (p' & E' & H & _).
    assert (p' = p) by congruence. subst p'. exact (proj1 (aeq_awf B _ _ (aholds_aeq cx B z _ _ _ _ _ H))).
  - exact D.
  - rewrite X. exact U.
  - intros e He. pose proof (calls_legal cx B xs m tr i _ P D) as L. rewrite X in L |- *. cbn [tag_size].
    apply (aead_session cx B (pr_backend _ _ _ _ _ P) z Hz m p e (pr_memory _ _ _ _ _ P) (proj1 (Forall_forall _ _) Hl e He)).
    + intros c Hc. apply L, in_flat_map. exists e. split; assumption.
    + exact (undisturbed_part z aead_calls e es U He).
Qed.
Print Assumptions C71_aead_messages.

(** The program of C71_case meets the conditions: here is what five of its objects do, and one of the digests. *)
Example C71_result_case : program rt bk_sw (six rt) (repeat 65 60) shared_reads /\
  does shared_reads 0 (map SFeed [(0, 4)%nat] ++ [STag 12 3]) /\ does shared_reads 1 (map SFeed [(0, 4)%nat] ++ [STag 16 100]) /\
  does shared_reads 2 [SCrypt Encrypt 0 4 4] /\ does shared_reads 3 [SFeed (0, 4)%nat; SCrypt Encrypt 0 4 8; STag 36 2] /\
  does shared_reads 5 [SPass (0, 4)%nat (2, 2)%nat 2; SDerive 40 5] /\
  exists m', ends rt bk_sw (six rt) (repeat 65 60) shared_reads 0 m' [SNone; SSize 3] /\ content m' (12, 3)%nat = [0x63; 0xc1; 0xdd].
Proof.
  assert (P : program rt bk_sw (six rt) (repeat 65 60) shared_reads).
  { destruct shared_ok as (A & Bb & Kk & _). constructor; [exact (Proof_ChaCha.bk_sw_ok rt)|exact six_constructed|repeat constructor|rewrite repeat_length; exact A|exact Bb|exact Kk]. }
  split; [exact P|]. do 5 (split; [reflexivity|]).
  destruct (C71_hash_result rt bk_sw (six rt) (repeat 65 60) shared_reads 0 SHA256 32 [(0, 4)%nat] 12 3 P eq_refl eq_refl) as (m' & E & C).
  exists m'. split; [exact E|]. change (Nat.min 3 32) with 3%nat in C. rewrite C. vm_compute. reflexivity.
Qed.

(** Objects used for two messages each, their calls mixed. *)
Definition two_hash : list (list (nat * nat) * nat * nat) := [([(0, 4)%nat], 12, 3); ([(0, 2)%nat; (1, 3)%nat], 15, 4)]%nat.
Definition one_mac : list ((nat * nat) * list (nat * nat) * nat * nat) := [((0, 4), [(0, 4); (4, 1)], 20, 5)]%nat.
Definition one_cipher : list ((nat * nat) * (nat * nat) * list (direction * nat * nat * nat)) := [((0, 4), (0, 2), [(Encrypt, 0, 4, 26); (Encrypt, 4, 3, 30)])]%nat.
Definition two_aead : list aead_message :=
  [{| am_key := (0, 4)%nat; am_iv := (0, 4)%nat; am_aad := [(0, 2); (2, 2)]%nat; am_dir := Encrypt; am_text := [(0, 2, 34); (2, 2, 36)]%nat; am_last := STag 40 16 |};
   {| am_key := (1, 4)%nat; am_iv := (0, 4)%nat; am_aad := []; am_dir := Decrypt; am_text := [(0, 4, 56)]%nat; am_last := SVerify (repeat 0 16) (0, 4)%nat |}].
Definition renewed : trace :=
  map (pair 0%nat) (flat_map hash_calls (firstn 1 two_hash)) ++ map (pair 3%nat) (flat_map aead_calls (firstn 1 two_aead)) ++ map (pair 1%nat) (flat_map mac_calls one_mac) ++
  map (pair 0%nat) (flat_map hash_calls (skipn 1 two_hash)) ++ map (pair 2%nat) (flat_map cipher_calls one_cipher) ++ map (pair 3%nat) (flat_map aead_calls (skipn 1 two_aead)).
Ltac apart_calls := match goal with |- undisturbed ?z ?l => let l' := eval vm_compute in l in change (undisturbed z l') end; repeat constructor; intros b; unfold touches; cbn [reads writes]; unfold within; cbn [fst snd]; lia.
Example C71_messages_case : program rt bk_sw (six rt) (repeat 65 60) renewed /\
  (does renewed 0 (flat_map hash_calls two_hash) /\ undisturbed 32 (flat_map hash_calls two_hash)) /\
  (does renewed 1 (flat_map mac_calls one_mac) /\ undisturbed 20 (flat_map mac_calls one_mac)) /\
  (does renewed 2 (flat_map cipher_calls one_cipher) /\ undisturbed 0 (flat_map cipher_calls one_cipher)) /\
  (does renewed 3 (flat_map aead_calls two_aead) /\ undisturbed 16 (flat_map aead_calls two_aead) /\ Forall complete two_aead) /\
  exists m', (exists outs, ends rt bk_sw (six rt) (repeat 65 60) renewed 0 m' outs) /\ content m' (15, 4)%nat = [0x11; 0x77; 0x0b; 0x3e].
Proof.
  assert (P : program rt bk_sw (six rt) (repeat 65 60) renewed).
  { constructor; [exact (Proof_ChaCha.bk_sw_ok rt)|exact six_constructed|repeat constructor| | |].
    - intros i c H. rewrite repeat_length. cbn in H. each H; cbn [six legal tag_size]; unfold inside, apart; cbn [fst snd]; repeat split; try (repeat constructor; fail); vm_compute; (reflexivity || lia || tauto).
    - intros i c j d a H K. rewrite !six_size. cbn in H, K. each H; each K; unfold touches; cbn [reads writes]; unfold within; cbn [fst snd]; intros; lia.
    - intros i d n c a H. cbn in H. repeat (destruct H as [H|H]; [discriminate H|]). destruct H. }
  split; [exact P|]. split; [split; [reflexivity|apart_calls]|]. split; [split; [reflexivity|apart_calls]|]. split; [split; [reflexivity|apart_calls]|].
  split; [split; [reflexivity|split; [apart_calls|repeat constructor; discriminate]]|].
  destruct (C71_hash_messages rt bk_sw (six rt) (repeat 65 60) renewed 0 SHA256 32 two_hash P eq_refl eq_refl) as (m' & E & F); [apart_calls|repeat constructor|].
  exists m'. split; [eexists; exact E|]. inversion F as [|? ? _ F2]; subst. apply Forall_inv in F2. change (Nat.min 4 32) with 4%nat in F2. rewrite F2. vm_compute. reflexivity.
Qed.
