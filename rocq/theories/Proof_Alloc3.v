(** C64: members that return new containers, and encryption in place with any two containers. *)
From Verif Require Import Base BaseLemmas BytesLemmas Spec_Bytes Spec_ChaCha Model_Memory Model_Update Model_Container
  Model_Sha Model_Mac Model_Hmac Model_Poly Model_Kdf Model_Cipher Spec_Cipher Model_Aead Spec_Aead Spec_Hmac Spec_Hash
  Proof_ChaChaCore Proof_ChaCha Proof_Aead Model_Alloc Spec_Alloc Proof_Alloc Proof_Alloc2 Proof_Range.
Local Open Scope N_scope.

Lemma grow_pos n : must_grow (Dynamic []) n -> (0 < n)%nat.
Proof. exact (fun H => H). Qed.
Lemma hash_new_member cx al p s p' d h : hapie_digest_new cx al p s = Some (p', d) ->
  new_or_nothing (Nat.min s (ha_digest_size al)) p' p' d h (hapie_digest_new_a cx al p s h).
Proof.
  unfold hapie_digest_new, hapie_digest_new_a, new_or_nothing.
  destruct (hapie_digest_c cx al p (Dynamic []) s) as [[[p1 c1] n1]|] eqn:E; [|discriminate]. cbn [bind]. intros H. injection H as <- <-.
  destruct (hash_digest_a_cases _ _ _ _ _ _ _ _ E h) as (h' & [[A F]|(A & F & M)]); rewrite A; exists h'; cbn [bind unwind]; auto.
Qed.
Lemma mac_new_member cx M p s p' d h : mapie_digest_new cx M p s = Some (p', d) ->
  new_or_nothing (Nat.min s (ma_digest_size M)) p' p' d h (mapie_digest_new_a cx M p s h).
Proof.
  unfold mapie_digest_new, mapie_digest_new_a, new_or_nothing.
  destruct (mapie_digest_c cx M p (Dynamic []) s) as [[[p1 c1] n1]|] eqn:E; [|discriminate]. cbn [bind]. intros H. injection H as <- <-.
  destruct (mac_digest_a_cases _ _ _ _ _ _ _ _ E h) as (h' & [[A F]|(A & F & G)]); rewrite A; exists h'; cbn [bind unwind]; auto.
Qed.
Lemma kdf_new_member cx K env o s o' d h : kapie_derive_new cx K env o s = Some (o', d) ->
  new_or_nothing s o' o d h (kapie_derive_new_a cx K env o s h).
Proof.
  unfold kapie_derive_new, kapie_derive_new_a, new_or_nothing.
  destruct (kapie_derive_c cx K env o (Dynamic []) s) as [[[o1 c1] n1]|] eqn:E; [|discriminate]. cbn [bind]. intros H. injection H as <- <-.
  destruct (kdf_derive_a_cases _ _ _ _ _ _ _ _ _ E h) as (h' & [[A F]|(A & F & M)]); rewrite A; exists h'; cbn [bind unwind]; auto.
Qed.
Lemma cgood_run cx B key iv calls o0 o xs : backend_ok cx B -> bytes key -> bytes iv -> Forall ccall_ok calls ->
  capie_new cx key iv = Some o0 -> cipher_run B cx o0 calls = Some (o, xs) -> cgood B o.
Proof.
  intros BO Hk Hv Hc E. apply (cgood_new cx B key iv _ Hk Hv) in E. revert o0 E xs. induction Hc as [|c calls Hc _ IH]; intros o0 G xs R.
  - cbn [cipher_run] in R. injection R as <- _. exact G.
  - cbn [cipher_run] in R. destruct (cipher_total cx B o0 c BO G Hc) as (o1 & x & E & G1). rewrite E in R. cbn [bind] in R.
    destruct (cipher_run B cx o1 calls) as [[o2 ys]|] eqn:R2; [|discriminate R]. cbn [bind] in R. injection R as <- _. exact (IH o1 G1 ys R2).
Qed.
Lemma cipher_new_member cx B dir key iv calls o0 o xs t o' d h : backend_ok cx B -> bytes key -> bytes iv -> Forall ccall_ok calls ->
  capie_new cx key iv = Some o0 -> cipher_run B cx o0 calls = Some (o, xs) -> bytes t ->
  capie_crypt_new dir B cx o t = Some (o', d) -> new_or_nothing (length t) o' o d h (capie_crypt_new_a dir B cx o t h).
Proof.
  intros BO Hk Hv Hc E R Ht N. pose proof (cgood_run cx B key iv calls o0 o xs BO Hk Hv Hc E R) as G. clear E R.
  unfold capie_crypt_new, capie_crypt_new_a, new_or_nothing in *.
  destruct (capie_crypt_c dir B cx o t (Dynamic [])) as [[[o1 c1] n1]|] eqn:D; [|discriminate]. cbn [bind] in N. injection N as <- <-.
  assert (K : ccall_ok (CCryptC dir t (Dynamic []))) by (split; [exact Ht|split; [constructor|exact I]]).
  destruct (crypt_a_cases _ _ _ _ _ _ _ _ _ BO G K D h) as (h' & [[A F]|(A & F & M)]); rewrite A; exists h'; cbn [bind unwind]; auto.
Qed.
Section Aead.
  Context (cx : ctx) (B : backend) (BO : backend_ok cx B) (dsz : nat) (Hd : (dsz <= 16)%nat).
  Lemma agood_run key iv calls p0 p xs : bytes key -> bytes iv -> Forall (acall_ok dsz) calls ->
    aapie_new B cx key iv = Some p0 -> aead_run B cx dsz p0 calls = Some (p, xs) -> agood B p.
  Proof.
    intros Hk Hv Hc E. destruct (anew cx B BO dsz Hd key iv Hk Hv) as (p1 & E1 & H & _). assert (p1 = p0) by congruence. subst p1.
    apply aholds_aeq in H. change (aeq B p0 p0) with (agood B p0) in H. clear E E1. revert p0 H xs. induction Hc as [|c calls Hc _ IH]; intros p0 G xs R.
    - cbn [aead_run] in R. injection R as <- _. exact G.
    - cbn [aead_run] in R. destruct (aead_total cx B BO dsz Hd p0 c G Hc) as (p1 & x & E & G1). rewrite E in R. cbn [bind] in R.
      destruct (aead_run B cx dsz p1 calls) as [[p2 ys]|] eqn:R2; [|discriminate R]. cbn [bind] in R. injection R as <- _. exact (IH p1 G1 ys R2).
  Qed.
  Lemma aead_new_member dir key iv calls p0 p xs t p' d h : bytes key -> bytes iv -> Forall (acall_ok dsz) calls ->
    aapie_new B cx key iv = Some p0 -> aead_run B cx dsz p0 calls = Some (p, xs) -> chunk t ->
    aapie_crypt_new dir B cx p t = Some (p', d) -> new_or_nothing (length t) p' p d h (aapie_crypt_new_a dir B cx p t h).
  Proof.
    intros Hk Hv Hc E R Ht N. pose proof (agood_run key iv calls p0 p xs Hk Hv Hc E R) as G. clear E R.
    unfold aapie_crypt_new, aapie_crypt_new_a, new_or_nothing in *.
    destruct (aapie_crypt_c dir B cx p t (Dynamic [])) as [[[p1 c1] n1]|] eqn:D; [|discriminate]. cbn [bind] in N. injection N as <- <-.
    assert (K : acall_ok dsz (ACryptC dir t (Dynamic []))) by (split; [exact Ht|split; [constructor|exact I]]).
    destruct (acrypt_a_cases cx B BO dsz Hd _ _ _ _ _ _ _ G K D h) as (h' & [[A F]|(A & F & M)]); rewrite A; exists h'; cbn [bind unwind]; auto.
  Qed.
  (** In place: the answer of the same call from a copy of the text, or the text is encrypted and the tag container is as
      it was. *)
  Lemma free_encrypt_same_alloc key iv aad c mac c' mac' n k h : bytes key -> bytes iv -> chunk aad -> chunk (cdata c) -> bytes (cdata mac) ->
    aead_free_encrypt_c B cx dsz key iv aad (cdata c) c mac = Some (c', mac', n, k) ->
    let call := aead_free_encrypt_same_a B cx dsz key iv aad c mac h in
    exists h', (call = Some (Done (c', mac', n, k), h') /\ failures h' = failures h) \/
      (call = Some (NoMemory (c', mac), h') /\ S (failures h') = failures h /\ must_grow mac dsz).
  Proof.
    intros Hk Hv Ha Ht Hm E call. unfold call. clear call.
    pose proof (free_encrypt_c_spec cx B BO dsz Hd key iv aad (cdata c) c mac Hk Hv Ha Ht (proj1 Ht) Hm) as S1.
    cbv zeta in S1. rewrite S1 in E by (destruct c; [exact I|cbn [cdata]; lia]). clear S1.
    destruct (new_aad cx B BO dsz Hd key iv aad Hk Hv Ha) as (p0 & p & E0 & E1 & H & F).
    unfold aead_free_encrypt_same_a. rewrite E0. cbn [bind]. rewrite E1. cbn [bind].
    pose proof (aholds_aeq _ _ _ _ _ _ _ _ H) as G.
    destruct (text_step cx B BO dsz Hd key iv aad [] p (ACryptSame Encrypt c) H F I Ht) as (p' & D & H' & F1 & F2).
    cbn [aead_step atext_in length app acipher atext_out] in *.
    change (xor_with _ 0 _) with (ktext key iv (cdata c)) in *. set (e := ktext key iv (cdata c)) in *.
    assert (Le : length e = length (cdata c)) by apply aead_text_length.
    destruct (aapie_crypt_same Encrypt B cx p c) as [[[q c1] n1]|] eqn:D1; [|discriminate]. cbn [bind] in D.
    injection D as -> -> ->. rewrite (acrypt_same_a_eq cx B BO dsz Hd _ _ c _ _ _ G Ht D1). cbn [bind].
    destruct (aholds_returns cx B dsz Hd key iv aad e p' H') as (_ & R1 & R2 & _); [rewrite F1; reflexivity|].
    fold (ktag cx dsz key iv aad e) in R1, R2. set (tag := ktag cx dsz key iv aad e) in *.
    assert (LT : length tag = dsz) by (apply ktag_length; assumption). rewrite LT in R1, R2.
    assert (Q : exists q2, aapie_digest_c cx dsz p' mac dsz = Some (q2, mac', k)).
    { injection E as _ <- _ <-. destruct mac as [l|l]; cbn [cdata] in Hm.
      - destruct (R1 l dsz Hm) as (q2 & Eq). exists q2. rewrite Eq. rewrite Nat.min_id, firstn_all2 by lia. reflexivity.
      - destruct (R2 l dsz Hm) as (q2 & Eq). exists q2. rewrite Eq. rewrite Nat.min_id. do 4 f_equal. destruct (Nat.le_ge_cases dsz (length l)).
        + rewrite Nat.min_l by lia. rewrite !firstn_all2 by lia. reflexivity.
        + rewrite Nat.min_r by lia. rewrite !skipn_all2 by lia. reflexivity. }
    destruct Q as (q2 & Q). assert (Ec : cset c e = c' /\ length e = n).
    { injection E as <- _ <- _. split; [|exact Le]. destruct c as [l|l]; [reflexivity|]. cbn [cset cdata] in *. rewrite skipn_all2 by lia. rewrite app_nil_r. reflexivity. }
    destruct Ec as [-> ->].
    destruct (adigest_a_cases cx dsz _ _ _ _ _ _ Q h) as (h2 & [[A2 X2]|(A2 & X2 & M2)]); rewrite A2; cbn [bind]; exists h2.
    - left. split; [reflexivity|exact X2].
    - right. rewrite (must_grow_dyn _ _ M2), andb_false_r. rewrite Nat.min_id in M2. auto.
  Qed.
End Aead.
