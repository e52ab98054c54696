(** C64 for the cipher and the AEAD class. *)
From Verif Require Import Base BaseLemmas BytesLemmas Spec_Bytes Spec_ChaCha Model_Memory Model_Update Model_Container
  Model_Sha Model_Mac Model_Hmac Model_Poly Model_Cipher Spec_Cipher Model_Aead Spec_Aead Spec_Hmac Spec_Hash
  Proof_ChaChaCore Proof_ChaCha Proof_Aead Model_Alloc Spec_Alloc Proof_Alloc Proof_Range.
Local Open Scope N_scope.

(** *** Cipher *)
Definition cgood (B : backend) (o : cc_obj) : Prop :=
  exists key iv pos, bytes key /\ bytes iv /\ stream_at B (api_state key iv) pos o.

Lemma cipher_total cx B o c : backend_ok cx B -> cgood B o -> ccall_ok c -> exists o' x, cipher_step B cx o c = Some (o', x) /\ cgood B o'.
Proof.
  intros BO (key & iv & pos & Hk & Hv & S) Hc.
  destruct (cipher_run_spec cx B BO [c] key iv pos o Hk Hv) as (o' & R & G); [auto|exact S|].
  cbn [cipher_run] in R. destruct (cipher_step B cx o c) as [[o1 x]|]; [|discriminate]. cbn [bind] in R. injection R as <- _.
  exists o1, x. auto.
Qed.
Lemma crypt_len cx B o dir m s n d o' m' n' : backend_ok cx B -> cgood B o -> bytes m -> (d + n <= length m)%nat -> (s + n <= length m)%nat ->
  apart d s n -> capie_crypt dir B cx o m s n d = Some (o', m', n') -> length m' = length m /\ n' = n.
Proof.
  intros BO (key & iv & pos & Hk & Hv & S) Hm Hd Hs Ha E. destruct (api_state_ok key iv Hk Hv) as [L W].
  destruct (crypt_spec cx B BO _ L W dir o pos m d s n S Hm Hd Hs Ha) as (o1 & E1 & _). rewrite E1 in E. injection E as _ <- <-.
  split; [|reflexivity]. apply put_length. rewrite xor_with_length, slice_length; lia.
Qed.
Lemma csize_id dir n : match dir with Encrypt => cc_encrypt_size | Decrypt => cc_decrypt_size end n = n.
Proof. destruct dir; reflexivity. Qed.
Lemma cresize_bytes c n : bytes (cdata c) -> bytes (cdata (fst (cresize c n))).
Proof. destruct c; cbn [cresize fst cdata]; [|auto]. intros H. apply bytes_app. split; [apply bytes_firstn, H|apply bytes_repeat0]. Qed.
Lemma cresize_room c n : match c with Dynamic _ => True | Static l => (n <= length l)%nat end -> (n <= length (cdata (fst (cresize c n))))%nat.
Proof. destruct c; cbn [cresize fst cdata]; [intros _; rewrite resize_list_len; lia|auto]. Qed.

Lemma crypt_a_cases cx B dir o t c o' c' n : backend_ok cx B -> cgood B o -> ccall_ok (CCryptC dir t c) ->
  capie_crypt_c dir B cx o t c = Some (o', c', n) -> forall h, exists h',
  (capie_crypt_a dir B cx o t c h = Some (o', Done (c', n), h') /\ failures h' = failures h) \/
  (capie_crypt_a dir B cx o t c h = Some (o, NoMemory c, h') /\ S (failures h') = failures h /\ must_grow c (length t)).
Proof.
  intros BO G (Ht & Hc & Hr) E h. unfold capie_crypt_c, capie_crypt_a in *. rewrite csize_id in *.
  destruct (aresize_cases h c (length t)) as (h' & [[A F]|(A & F & M)]); exists h'; rewrite A.
  - left. pose proof (cresize_dyn c (length t)) as Q1. pose proof (cresize_static c (length t)) as Q2.
    pose proof (cresize_bytes c (length t) Hc) as Q3. pose proof (cresize_room c (length t) Hr) as Q4.
    destruct (cresize c (length t)) as [c1 n1]. cbn [fst] in *.
    destruct (capie_crypt dir B cx o (t ++ cdata c1) 0 (length t) (length t)) as [[[o1 m] s]|] eqn:K; [|discriminate]. cbn [bind] in *.
    assert (L : length m = length (t ++ cdata c1) /\ s = length t).
    { apply (crypt_len _ _ _ _ _ _ _ _ _ _ _ BO G) in K; [exact K| | | |].
      - apply bytes_app. auto.
      - rewrite app_length. lia.
      - rewrite app_length. lia.
      - right. right. lia. }
    destruct L as [L1 L2]. rewrite aresize_second.
    + destruct (cresize (cset c1 (skipn (length t) m)) s) as [c2 n2]. injection E as <- <- <-. auto.
    + intros _. rewrite cset_len, skipn_length, L1, app_length. lia.
  - right. rewrite (must_grow_dyn _ _ M). auto.
Qed.
Lemma crypt_same_a_eq cx B dir o c o' c' n : backend_ok cx B -> cgood B o -> bytes (cdata c) ->
  capie_crypt_same dir B cx o c = Some (o', c', n) -> forall h, capie_crypt_same_a dir B cx o c h = Some (o', Done (c', n), h).
Proof.
  intros BO G Hc E h. unfold capie_crypt_same, capie_crypt_same_a in *. rewrite csize_id in *.
  rewrite aresize_small by lia.
  assert (Ec : fst (cresize c (length (cdata c))) = c).
  { destruct c; cbn [cresize fst cdata]; [rewrite Proof_CodecApi.resize_list_same by reflexivity|]; reflexivity. }
  destruct (cresize c (length (cdata c))) as [c1 n1]. cbn [fst] in Ec. subst c1.
  destruct (capie_crypt dir B cx o (cdata c) 0 (length (cdata c)) 0) as [[[o1 m] s]|] eqn:K; [|discriminate]. cbn [bind] in *.
  apply (crypt_len _ _ _ _ _ _ _ _ _ _ _ BO G) in K; [|exact Hc|lia|lia|left; reflexivity]. destruct K as [L1 L2].
  rewrite aresize_second by (intros _; rewrite cset_len; lia).
  destruct (cresize (cset c m) s) as [c2 n2]. injection E as <- <- <-. reflexivity.
Qed.
Lemma cipher_one cx B o c o' x : backend_ok cx B -> cgood B o -> ccall_ok c -> cipher_step B cx o c = Some (o', x) -> forall h, exists h',
  (cipher_step_a B cx o c h = Some (o', Done x, h') /\ failures h' = failures h) \/
  (exists k n, cipher_step_a B cx o c h = Some (o, NoMemory k, h') /\ S (failures h') = failures h /\
     cipher_target c = Some (k, n) /\ must_grow k n).
Proof.
  intros BO G Hc E h. destruct c as [k v|d m s n t|d t c|d c].
  1-2: exists h; left; split; [|reflexivity]; unfold cipher_step_a; rewrite E; reflexivity.
  - cbn [cipher_step cipher_step_a cipher_target] in *. destruct (capie_crypt_c d B cx o t c) as [[[q c1] n]|] eqn:D; [|discriminate].
    cbn [bind] in E. injection E as <- <-.
    destruct (crypt_a_cases _ _ _ _ _ _ _ _ _ BO G Hc D h) as (h' & [[A F]|(A & F & M)]); rewrite A; exists h'; cbn [bind]; [auto|].
    right. exists c, (length t). auto.
  - cbn [cipher_step cipher_step_a] in *. destruct (capie_crypt_same d B cx o c) as [[[q c1] n]|] eqn:D; [|discriminate].
    cbn [bind] in E. injection E as <- <-. exists h. left. rewrite (crypt_same_a_eq _ _ _ _ _ _ _ _ BO G Hc D h). auto.
Qed.
Lemma cgood_new cx B key iv o : bytes key -> bytes iv -> capie_new cx key iv = Some o -> cgood B o.
Proof.
  intros Hk Hv E. destruct (initialize_spec cx B cc_new key iv cc_new_wf Hk Hv) as (o' & E' & S).
  unfold capie_new in E. rewrite E' in E. injection E as <-. exists key, iv, 0%nat. auto.
Qed.
Lemma cipher_explained cx B key iv calls h : backend_ok cx B -> bytes key -> bytes iv -> Forall ccall_ok calls ->
  exists o, capie_new cx key iv = Some o /\
    explained (fun _ => false) cipher_target (cipher_run B cx) (cipher_step_a B cx) o calls h.
Proof.
  intros BO Hk Hv Hc. destruct (initialize_spec cx B cc_new key iv cc_new_wf Hk Hv) as (o & E & S).
  exists o. split; [exact E|].
  apply (explained_all (cipher_step B cx) (cipher_step_a B cx) (cipher_run B cx)) with (good := cgood B) (ok := ccall_ok); try reflexivity.
  - intros. apply cipher_total; assumption.
  - intros o1 c o' x G K T h1. exact (cipher_one cx B o1 c o' x BO G K T h1).
  - exact Hc.
  - exists key, iv, 0%nat. auto.
Qed.
Lemma cipher_free_alloc cx B dir key iv t c c' n h : backend_ok cx B -> bytes key -> bytes iv -> ccall_ok (CCryptC dir t c) ->
  cipher_free_c dir B cx key iv t c = Some (c', n) ->
  all_or_nothing c (length t) c (c', n) h (cipher_free_a dir B cx key iv t c h).
Proof.
  intros BO Hk Hv Hc E. unfold cipher_free_c, cipher_free_a, all_or_nothing in *.
  destruct (capie_new cx key iv) as [o|] eqn:N; [|discriminate]. cbn [bind] in *. pose proof (cgood_new _ B _ _ _ Hk Hv N) as G.
  destruct (capie_crypt_c dir B cx o t c) as [[[o' c1] n1]|] eqn:D; [|discriminate]. cbn [bind] in E. injection E as <- <-.
  destruct (crypt_a_cases _ _ _ _ _ _ _ _ _ BO G Hc D h) as (h' & [[A F]|(A & F & M)]); rewrite A; exists h'; cbn [bind]; [auto|].
  rewrite (must_grow_dyn _ _ M). auto.
Qed.
Lemma cipher_free_new_alloc cx B dir key iv t d h : backend_ok cx B -> bytes key -> bytes iv -> bytes t ->
  cipher_free_new dir B cx key iv t = Some d ->
  all_or_nothing (Dynamic []) (length t) tt d h (cipher_free_new_a dir B cx key iv t h).
Proof.
  intros BO Hk Hv Ht E. unfold cipher_free_new, cipher_free_new_a, capie_crypt_new, capie_crypt_new_a, all_or_nothing in *.
  destruct (capie_new cx key iv) as [o|] eqn:N; [|discriminate]. cbn [bind] in *. pose proof (cgood_new _ B _ _ _ Hk Hv N) as G.
  destruct (capie_crypt_c dir B cx o t (Dynamic [])) as [[[o' c1] n1]|] eqn:D; [|discriminate]. cbn [bind] in E. injection E as <-.
  assert (K : ccall_ok (CCryptC dir t (Dynamic []))) by (split; [exact Ht|split; [constructor|exact I]]).
  destruct (crypt_a_cases _ _ _ _ _ _ _ _ _ BO G K D h) as (h' & [[A F]|(A & F & M)]); rewrite A; exists h'; cbn [bind unwind]; auto.
Qed.

(** *** AEAD *)
Section AeadAlloc.
  Context (cx : ctx) (B : backend) (BO : backend_ok cx B) (dsz : nat) (Hd : (dsz <= 16)%nat).
  Definition agood (p : aead_apie) : Prop := aeq B p p.

  Lemma aead_total p c : agood p -> acall_ok dsz c -> exists p' x, aead_step B cx dsz p c = Some (p', x) /\ agood p'.
  Proof.
    intros G Hc. destruct (aeq_step cx B BO dsz Hd p p c G Hc) as (p1 & p2 & x & E1 & E2 & Q).
    rewrite E1 in E2. injection E2 as <-. exists p1, x. auto.
  Qed.
  Lemma acrypt_len p dir m s n d p' m' n' : agood p -> textok m s n d ->
    aapie_crypt dir B cx p m s n d = Some (p', m', n') -> length m' = length m /\ n' = n.
  Proof.
    intros G T E. destruct (crypt_pair cx B BO dsz Hd dir p p m s n d G T) as (p1 & p2 & r & E1 & _ & Lr & _).
    rewrite E1 in E. injection E as _ <- <-. split; [|reflexivity]. destruct T as (_ & _ & T & _). apply put_length. rewrite Lr. exact T.
  Qed.
  Lemma acrypt_a_cases dir p t c p' c' n : agood p -> acall_ok dsz (ACryptC dir t c) ->
    aapie_crypt_c dir B cx p t c = Some (p', c', n) -> forall h, exists h',
    (aapie_crypt_a dir B cx p t c h = Some (p', Done (c', n), h') /\ failures h' = failures h) \/
    (aapie_crypt_a dir B cx p t c h = Some (p, NoMemory c, h') /\ S (failures h') = failures h /\ must_grow c (length t)).
  Proof.
    intros G ((Ht & Hn) & Hc & Hr) E h. unfold aapie_crypt_c, aapie_crypt_a in *. rewrite aapie_size_id in *.
    destruct (aresize_cases h c (length t)) as (h' & [[A F]|(A & F & M)]); exists h'; rewrite A.
    - left. pose proof (cresize_dyn c (length t)) as Q1. pose proof (cresize_static c (length t)) as Q2.
      pose proof (cresize_bytes c (length t) Hc) as Q3. pose proof (cresize_room c (length t) Hr) as Q4.
      destruct (cresize c (length t)) as [c1 n1]. cbn [fst] in *.
      destruct (aapie_crypt dir B cx p (t ++ cdata c1) 0 (length t) (length t)) as [[[o1 m] s]|] eqn:K; [|discriminate]. cbn [bind] in *.
      assert (L : length m = length (t ++ cdata c1) /\ s = length t).
      { apply (acrypt_len _ _ _ _ _ _ _ _ _ G) in K; [exact K|]. split; [apply bytes_app; auto|]. rewrite app_length.
        split; [lia|]. split; [lia|]. split; [right; right; lia|exact Hn]. }
      destruct L as [L1 L2]. rewrite aresize_second.
      + destruct (cresize (cset c1 (skipn (length t) m)) s) as [c2 n2]. injection E as <- <- <-. auto.
      + intros _. rewrite cset_len, skipn_length, L1, app_length. lia.
    - right. rewrite (must_grow_dyn _ _ M). auto.
  Qed.
  Lemma acrypt_same_a_eq dir p c p' c' n : agood p -> chunk (cdata c) ->
    aapie_crypt_same dir B cx p c = Some (p', c', n) -> forall h, aapie_crypt_same_a dir B cx p c h = Some (p', Done (c', n), h).
  Proof.
    intros G [Hc Hn] E h. unfold aapie_crypt_same, aapie_crypt_same_a in *. rewrite aapie_size_id in *.
    rewrite aresize_small by lia.
    assert (Ec : fst (cresize c (length (cdata c))) = c).
    { destruct c; cbn [cresize fst cdata]; [rewrite Proof_CodecApi.resize_list_same by reflexivity|]; reflexivity. }
    destruct (cresize c (length (cdata c))) as [c1 n1]. cbn [fst] in Ec. subst c1.
    destruct (aapie_crypt dir B cx p (cdata c) 0 (length (cdata c)) 0) as [[[o1 m] s]|] eqn:K; [|discriminate]. cbn [bind] in *.
    apply (acrypt_len _ _ _ _ _ _ _ _ _ G) in K; [|split; [exact Hc|split; [lia|split; [lia|split; [left; reflexivity|exact Hn]]]]].
    destruct K as [L1 L2]. rewrite aresize_second by (intros _; rewrite cset_len; lia).
    destruct (cresize (cset c m) s) as [c2 n2]. injection E as <- <- <-. reflexivity.
  Qed.
  Lemma adigest_a_cases p c s p' c' n :
    aapie_digest_c cx dsz p c s = Some (p', c', n) -> forall h, exists h',
    (aapie_digest_a cx dsz p c s h = Some (p', Done (c', n), h') /\ failures h' = failures h) \/
    (aapie_digest_a cx dsz p c s h = Some (p', NoMemory c, h') /\ S (failures h') = failures h /\ must_grow c (Nat.min s dsz)).
  Proof.
    intros E h. unfold aapie_digest_c, aapie_digest_a in *.
    destruct (aapie_finalize cx p) as [q|] eqn:Q; [|discriminate]. cbn [bind] in *.
    assert (Fq : aapie_finalize cx q = Some q).
    { unfold aapie_finalize in Q |- *. destruct (ap_done p) eqn:Fp; [injection Q as <-; rewrite Fp; reflexivity|].
      destruct (aead_finalize cx (ap_impl p)); [|discriminate]. injection Q as <-. reflexivity. }
    assert (Ep : p' = q).
    { destruct (cresize c _) as [c1 s1]. unfold aapie_digest in E. rewrite Fq in E. cbn [bind] in E.
      destruct (aead_digest cx dsz (ap_impl q) (cdata c1) s1) as [[dst k]|]; [|discriminate]. cbn [bind] in E. congruence. }
    destruct (aresize_cases h c (Nat.min s dsz)) as (h' & [[A F]|(A & F & M)]); exists h'; rewrite A.
    - left. destruct (cresize c _) as [c1 s1].
      destruct (aapie_digest cx dsz q (cdata c1) s1) as [[[q1 dst] k]|]; [|discriminate]. cbn [bind] in *.
      injection E as <- <- <-. auto.
    - right. rewrite (must_grow_dyn _ _ M), Ep. auto.
  Qed.
  Lemma aead_one p c p' x : agood p -> acall_ok dsz c -> aead_step B cx dsz p c = Some (p', x) -> forall h, exists h',
    (aead_step_a B cx dsz p c h = Some (p', Done x, h') /\ failures h' = failures h) \/
    (exists k n, aead_step_a B cx dsz p c h = Some (if aead_acts c then p' else p, NoMemory k, h') /\ S (failures h') = failures h /\
       aead_target dsz c = Some (k, n) /\ must_grow k n).
  Proof.
    intros G Hc E h. destruct c as [k v|a|d m s n t|d t c|d c|d s|c s|j m];
      try (exists h; left; split; [|reflexivity]; unfold aead_step_a; rewrite E; reflexivity).
    - cbn [aead_step aead_step_a aead_target aead_acts] in *. destruct (aapie_crypt_c d B cx p t c) as [[[q c1] n]|] eqn:D; [|discriminate].
      cbn [bind] in E. injection E as <- <-.
      destruct (acrypt_a_cases _ _ _ _ _ _ _ G Hc D h) as (h' & [[A F]|(A & F & M)]); rewrite A; exists h'; cbn [bind]; [auto|].
      right. exists c, (length t). auto.
    - cbn [aead_step aead_step_a] in *. destruct (aapie_crypt_same d B cx p c) as [[[q c1] n]|] eqn:D; [|discriminate].
      cbn [bind] in E. injection E as <- <-. exists h. left. rewrite (acrypt_same_a_eq _ _ _ _ _ _ G Hc D h). auto.
    - cbn [aead_step aead_step_a aead_target aead_acts] in *. destruct (aapie_digest_c cx dsz p c s) as [[[q c1] n]|] eqn:D; [|discriminate].
      cbn [bind] in E. injection E as <- <-.
      destruct (adigest_a_cases _ _ _ _ _ _ D h) as (h' & [[A F]|(A & F & M)]); rewrite A; exists h'; cbn [bind]; [auto|].
      right. exists c, (Nat.min s dsz). auto.
  Qed.
  Lemma aead_explained key iv calls h : bytes key -> bytes iv -> Forall (acall_ok dsz) calls ->
    exists p, aapie_new B cx key iv = Some p /\
      explained aead_acts (aead_target dsz) (aead_run B cx dsz) (aead_step_a B cx dsz) p calls h.
  Proof.
    intros Hk Hv Hc. destruct (anew cx B BO dsz Hd key iv Hk Hv) as (p & E & H & _).
    exists p. split; [exact E|].
    apply (explained_all (aead_step B cx dsz) (aead_step_a B cx dsz) (aead_run B cx dsz)) with (good := agood) (ok := acall_ok dsz); try reflexivity.
    - intros. apply aead_total; assumption.
    - intros o1 c o' x G K T h1. exact (aead_one o1 c o' x G K T h1).
    - exact Hc.
    - exact (aholds_aeq _ _ _ _ _ _ _ _ H).
  Qed.

  (** Free functions. *)
  Lemma free_new_good key iv aad p0 p : bytes key -> bytes iv -> chunk aad -> aapie_new B cx key iv = Some p0 ->
    aapie_aad cx p0 aad = Some p -> agood p.
  Proof.
    intros Hk Hv Ha E1 E2. destruct (new_aad cx B BO dsz Hd key iv aad Hk Hv Ha) as (q0 & q & F1 & F2 & H & _).
    rewrite F1 in E1. injection E1 as <-. rewrite F2 in E2. injection E2 as <-. exact (aholds_aeq _ _ _ _ _ _ _ _ H).
  Qed.
  Lemma free_encrypt_alloc key iv aad t c mac c' mac' n k h : bytes key -> bytes iv -> chunk aad ->
    acall_ok dsz (ACryptC Encrypt t c) -> bytes (cdata mac) ->
    aead_free_encrypt_c B cx dsz key iv aad t c mac = Some (c', mac', n, k) ->
    let call := aead_free_encrypt_a B cx dsz key iv aad t c mac h in
    exists h', (call = Some (Done (c', mac', n, k), h') /\ failures h' = failures h) \/
      (call = Some (NoMemory (c, mac), h') /\ S (failures h') = failures h /\ must_grow c (length t)) \/
      (call = Some (NoMemory (c', mac), h') /\ S (failures h') = failures h /\ must_grow mac dsz /\
       aead_free_encrypt_c B cx dsz key iv aad t c' mac = Some (c', mac', n, k)).
  Proof.
    intros Hk Hv Ha Hc Hm E call. unfold call.
    assert (Again : aead_free_encrypt_c B cx dsz key iv aad t c' mac = Some (c', mac', n, k)).
    { pose proof Hc as (Ht & Hcb & Hr).
      pose proof (free_encrypt_c_spec cx B BO dsz Hd key iv aad t c mac Hk Hv Ha Ht Hcb Hm Hr) as S1.
      cbv zeta in S1. rewrite E in S1. injection S1 as E1 E2 E3 E4.
      assert (Le : length (ktext key iv t) = length t) by apply aead_text_length.
      assert (Be : bytes (ktext key iv t)) by (unfold ktext, aead_text, chacha20; apply xor_with_bytes; [intros j; rewrite <- ast_byte; apply st_byte_byte|exact (proj1 Ht)]).
      pose proof (free_encrypt_c_spec cx B BO dsz Hd key iv aad t c' mac Hk Hv Ha Ht) as S2. rewrite S2.
      - rewrite E2, E3, E4. destruct c as [l|l]; subst c'; [reflexivity|].
        rewrite skipn_app, Le, Nat.sub_diag, skipn_O, skipn_all2 by lia. reflexivity.
      - destruct c as [l|l]; subst c'; cbn [cdata] in *; [exact Be|]. apply bytes_app. split; [exact Be|apply bytes_skipn, Hcb].
      - exact Hm.
      - destruct c as [l|l]; subst c'; [exact I|]. rewrite app_length, Le. lia. }
    unfold aead_free_encrypt_c, aead_free_encrypt_a in *.
    destruct (aapie_new B cx key iv) as [p0|] eqn:N0; [|discriminate]. cbn [bind] in *.
    destruct (aapie_aad cx p0 aad) as [p|] eqn:N1; [|discriminate]. cbn [bind] in *.
    pose proof (free_new_good _ _ _ _ _ Hk Hv Ha N0 N1) as G.
    destruct (aapie_crypt_c Encrypt B cx p t c) as [[[q c1] n1]|] eqn:D; [|discriminate]. cbn [bind] in E.
    destruct (acrypt_a_cases _ _ _ _ _ _ _ G Hc D h) as (h1 & [[A F]|(A & F & M)]); rewrite A; cbn [bind].
    2:{ exists h1. right. left. rewrite (must_grow_dyn _ _ M). auto. }
    destruct (aapie_digest_c cx dsz q mac dsz) as [[[q2 m2] k2]|] eqn:D2; [|discriminate]. cbn [bind] in E. injection E as <- <- <- <-.
    destruct (adigest_a_cases _ _ _ _ _ _ D2 h1) as (h2 & [[A2 F2]|(A2 & F2 & M2)]); rewrite A2; cbn [bind]; exists h2.
    - left. split; [reflexivity|lia].
    - right. right. rewrite (must_grow_dyn _ _ M2), andb_false_r. rewrite Nat.min_id in M2. split; [reflexivity|]. split; [lia|]. split; [exact M2|exact Again].
  Qed.
  Lemma free_encrypt_new_alloc key iv aad t junk r h : bytes key -> bytes iv -> chunk aad -> chunk t ->
    aead_free_encrypt_new B cx dsz key iv aad t junk = Some r ->
    all_or_nothing (Dynamic []) (length t) tt r h (aead_free_encrypt_new_a B cx dsz key iv aad t junk h).
  Proof.
    intros Hk Hv Ha Ht E. unfold aead_free_encrypt_new, aead_free_encrypt_new_a, aapie_crypt_new, aapie_crypt_new_a, all_or_nothing in *.
    destruct (aapie_new B cx key iv) as [p0|] eqn:N0; [|discriminate]. cbn [bind] in *.
    destruct (aapie_aad cx p0 aad) as [p|] eqn:N1; [|discriminate]. cbn [bind] in *.
    pose proof (free_new_good _ _ _ _ _ Hk Hv Ha N0 N1) as G.
    destruct (aapie_crypt_c Encrypt B cx p t (Dynamic [])) as [[[q c1] n1]|] eqn:D; [|discriminate]. cbn [bind] in E.
    assert (K : acall_ok dsz (ACryptC Encrypt t (Dynamic []))) by (split; [exact Ht|split; [constructor|exact I]]).
    destruct (acrypt_a_cases _ _ _ _ _ _ _ G K D h) as (h1 & [[A F]|(A & F & M)]); rewrite A; cbn [bind unwind]; exists h1; [|auto].
    left. destruct (aapie_digest_static cx dsz q junk) as [[q2 d]|]; [|discriminate]. cbn [bind] in *. injection E as <-. auto.
  Qed.
  Lemma free_decrypt_alloc key iv aad t junk mac c c' r h : bytes key -> bytes iv -> chunk aad ->
    acall_ok dsz (ACryptC Decrypt t c) ->
    aead_free_decrypt_c B cx dsz key iv aad t junk mac c = Some (c', r) ->
    all_or_nothing c (length t) c (c', r) h (aead_free_decrypt_a B cx dsz key iv aad t junk mac c h).
  Proof.
    intros Hk Hv Ha Hc E. unfold aead_free_decrypt_c, aead_free_decrypt_a, all_or_nothing in *.
    destruct (aapie_new B cx key iv) as [p0|] eqn:N0; [|discriminate]. cbn [bind] in *.
    destruct (aapie_aad cx p0 aad) as [p|] eqn:N1; [|discriminate]. cbn [bind] in *.
    pose proof (free_new_good _ _ _ _ _ Hk Hv Ha N0 N1) as G.
    destruct (aapie_crypt_c Decrypt B cx p t c) as [[[q c1] n1]|] eqn:D; [|discriminate]. cbn [bind] in E.
    destruct (acrypt_a_cases _ _ _ _ _ _ _ G Hc D h) as (h1 & [[A F]|(A & F & M)]); rewrite A; cbn [bind]; exists h1.
    - left. destruct (aapie_verify_throw cx dsz q junk mac) as [[q2 v]|]; [|discriminate]. cbn [bind] in *. injection E as <- <-. auto.
    - right. rewrite (must_grow_dyn _ _ M). auto.
  Qed.
  Lemma free_decrypt_err_alloc key iv aad t junk mac c r e0 h : bytes key -> bytes iv -> chunk aad ->
    acall_ok dsz (ACryptC Decrypt t c) ->
    aead_free_decrypt_c_err B cx dsz key iv aad t junk mac c = Some r ->
    all_or_nothing c (length t) (c, e0) r h (aead_free_decrypt_err_a B cx dsz key iv aad t junk mac c e0 h).
  Proof.
    intros Hk Hv Ha Hc E. unfold aead_free_decrypt_c_err, aead_free_decrypt_err_a, all_or_nothing in *.
    destruct (aapie_new B cx key iv) as [p0|] eqn:N0; [|discriminate]. cbn [bind] in *.
    destruct (aapie_aad cx p0 aad) as [p|] eqn:N1; [|discriminate]. cbn [bind] in *.
    pose proof (free_new_good _ _ _ _ _ Hk Hv Ha N0 N1) as G.
    destruct (aapie_crypt_c Decrypt B cx p t c) as [[[q c1] n1]|] eqn:D; [|discriminate]. cbn [bind] in E.
    destruct (acrypt_a_cases _ _ _ _ _ _ _ G Hc D h) as (h1 & [[A F]|(A & F & M)]); rewrite A; cbn [bind]; exists h1.
    - left. destruct (aapie_verify cx dsz q junk mac) as [[q2 v]|]; [|discriminate]. cbn [bind] in *. injection E as <-. auto.
    - right. auto.
  Qed.
  Lemma free_decrypt_new_alloc key iv aad t junk mac r h : bytes key -> bytes iv -> chunk aad -> chunk t ->
    aead_free_decrypt_new B cx dsz key iv aad t junk mac = Some r ->
    all_or_nothing (Dynamic []) (length t) tt r h (aead_free_decrypt_new_a B cx dsz key iv aad t junk mac h).
  Proof.
    intros Hk Hv Ha Ht E. unfold aead_free_decrypt_new, aead_free_decrypt_new_a, aapie_crypt_new, aapie_crypt_new_a, all_or_nothing in *.
    destruct (aapie_new B cx key iv) as [p0|] eqn:N0; [|discriminate]. cbn [bind] in *.
    destruct (aapie_aad cx p0 aad) as [p|] eqn:N1; [|discriminate]. cbn [bind] in *.
    pose proof (free_new_good _ _ _ _ _ Hk Hv Ha N0 N1) as G.
    destruct (aapie_crypt_c Decrypt B cx p t (Dynamic [])) as [[[q c1] n1]|] eqn:D; [|discriminate]. cbn [bind] in E.
    assert (K : acall_ok dsz (ACryptC Decrypt t (Dynamic []))) by (split; [exact Ht|split; [constructor|exact I]]).
    destruct (acrypt_a_cases _ _ _ _ _ _ _ G K D h) as (h1 & [[A F]|(A & F & M)]); rewrite A; cbn [bind unwind]; exists h1; [|auto].
    left. destruct (aapie_verify_throw cx dsz q junk mac) as [[q2 v]|]; [|discriminate]. cbn [bind] in *. injection E as <-. auto.
  Qed.
  Lemma free_decrypt_new_err_alloc key iv aad t junk mac r e0 h : bytes key -> bytes iv -> chunk aad -> chunk t ->
    aead_free_decrypt_new_err B cx dsz key iv aad t junk mac = Some r ->
    all_or_nothing (Dynamic []) (length t) e0 r h (aead_free_decrypt_new_err_a B cx dsz key iv aad t junk mac e0 h).
  Proof.
    intros Hk Hv Ha Ht E. unfold aead_free_decrypt_new_err, aead_free_decrypt_new_err_a, aapie_crypt_new, aapie_crypt_new_a, all_or_nothing in *.
    destruct (aapie_new B cx key iv) as [p0|] eqn:N0; [|discriminate]. cbn [bind] in *.
    destruct (aapie_aad cx p0 aad) as [p|] eqn:N1; [|discriminate]. cbn [bind] in *.
    pose proof (free_new_good _ _ _ _ _ Hk Hv Ha N0 N1) as G.
    destruct (aapie_crypt_c Decrypt B cx p t (Dynamic [])) as [[[q c1] n1]|] eqn:D; [|discriminate]. cbn [bind] in E.
    assert (K : acall_ok dsz (ACryptC Decrypt t (Dynamic []))) by (split; [exact Ht|split; [constructor|exact I]]).
    destruct (acrypt_a_cases _ _ _ _ _ _ _ G K D h) as (h1 & [[A F]|(A & F & M)]); rewrite A; cbn [bind unwind]; exists h1; [|auto].
    left. destruct (aapie_verify cx dsz q junk mac) as [[q2 v]|]; [|discriminate]. cbn [bind] in *. injection E as <-. auto.
  Qed.

  (** In place: when the tag does not fit, the text is already encrypted, and the same call again decrypts it. *)
  Lemma free_encrypt_same_spec key iv aad t l h : bytes key -> bytes iv -> chunk aad -> chunk t -> bytes l -> (length l < dsz)%nat ->
    aead_free_encrypt_same_a B cx dsz key iv aad (Dynamic t) (Dynamic l) (false :: h)
      = Some (NoMemory (Dynamic (ktext key iv t), Dynamic l), h) /\
    aead_free_encrypt_same_a B cx dsz key iv aad (Dynamic t) (Dynamic l) []
      = Some (Done (Dynamic (ktext key iv t), Dynamic (ktag cx dsz key iv aad (ktext key iv t)), length t, dsz), []).
  Proof.
    intros Hk Hv Ha Ht Hl Hs. destruct (new_aad cx B BO dsz Hd key iv aad Hk Hv Ha) as (p0 & p & E0 & E1 & H & F).
    unfold aead_free_encrypt_same_a. rewrite E0. cbn [bind]. rewrite E1. cbn [bind].
    pose proof (aholds_aeq _ _ _ _ _ _ _ _ H) as G.
    destruct (text_step cx B BO dsz Hd key iv aad [] p (ACryptSame Encrypt (Dynamic t)) H F I) as (p' & E & H' & F1 & F2).
    { exact Ht. }
    cbn [aead_step atext_in cdata length app acipher atext_out] in *.
    change (xor_with _ 0 _) with (ktext key iv t) in *. set (e := ktext key iv t) in *.
    assert (Le : length e = length t) by apply aead_text_length.
    destruct (aapie_crypt_same Encrypt B cx p (Dynamic t)) as [[[q c1] n]|] eqn:D; [|discriminate]. cbn [bind] in E.
    injection E as -> -> ->. rewrite Le in *.
    rewrite !(acrypt_same_a_eq _ _ (Dynamic t) _ _ _ G Ht D). cbn [bind is_static andb].
    destruct (aholds_returns cx B dsz Hd key iv aad e p' H') as (_ & R1 & _); [rewrite F1; reflexivity|].
    fold (ktag cx dsz key iv aad e) in R1. assert (LT : length (ktag cx dsz key iv aad e) = dsz) by (apply ktag_length; assumption). rewrite LT in R1.
    destruct (R1 l dsz Hl) as (q2 & Eq). unfold aapie_digest_c in Eq. unfold aapie_digest_a.
    destruct (aapie_finalize cx p') as [p2|]; [|discriminate]. cbn [bind] in *. rewrite Nat.min_id in *.
    cbn [aresize]. destruct (Nat.leb_spec dsz (length l)) as [X|X]; [lia|]. cbn [bind unwind is_static]. split; [reflexivity|].
    cbn [cresize] in *. destruct (aapie_digest cx dsz p2 (cdata (Dynamic (resize_list l dsz))) dsz) as [[[q3 d3] n3]|]; [|discriminate].
    cbn [bind cset] in *. injection Eq as -> -> ->. rewrite firstn_all2 by lia. reflexivity.
  Qed.
End AeadAlloc.
