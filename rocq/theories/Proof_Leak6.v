(** The theorems of C52: the runs are defined, their traces do not depend on the bytes. *)
From Verif Require Import Base BaseLemmas Spec_Bytes BytesLemmas Spec_Sha Spec_Hash Spec_Mac Spec_Hmac Spec_Kdf Spec_Cipher Model_Memory Model_Container Model_X86 Model_Sha Model_ShaAsm
  Model_Mac Model_Hmac Model_Poly Model_Cipher Model_Kdf Model_Leak Model_Leak2 Spec_Leak Spec_Leak2
  Proof_Sha Proof_ShaHist Proof_ShaApi Proof_ShaAsm3 Proof_Mac Proof_Hmac Proof_Poly Proof_ChaCha Proof_Kdf Proof_Kdf3 Proof_Leak Proof_Leak2 Proof_Leak3 Proof_Leak4 Proof_Leak5.
Local Open Scope N_scope.

Lemma shipped_hash_ok cx a hsz H : shipped_hash a hsz H ->
  alg_ok a (lh_al H) /\ ha_digest_size (lh_al H) = hsz /\ lh_erases cx H /\ lh_silent cx H.
Proof.
  intros [->|(j & J & ->)].
  - split; [apply milo_alg_ok|split; [destruct a; reflexivity|split; [apply lh_sw_erases|apply lh_sw_silent]]].
  - split; [apply ni_alg_ok; exact J|split; [destruct a; reflexivity|split; [apply lh_ni_erases|apply lh_ni_silent]]].
Qed.
(** Two erased runs that are defined, related traces. *)
Lemma two_runs {A} (R : A -> A -> Prop) (m1 m2 : L A) : (exists r, erase m1 = Some r) -> (exists r, erase m2 = Some r) -> same R m1 m2 ->
  exists t1 r1 t2 r2, m1 = Some (t1, r1) /\ m2 = Some (t2, r2) /\ same_trace t1 t2.
Proof.
  intros [r1 E1] [r2 E2] S. destruct (erase_some _ _ E1) as [t1 F1]. destruct (erase_some _ _ E2) as [t2 F2].
  exists t1, r1, t2, r2. split; [exact F1|split; [exact F2|]]. exact (proj1 (S _ _ _ _ F1 F2)).
Qed.

Lemma hash_any cx a hsz H p1 p2 calls1 calls2 t1 r1 t2 r2 : shipped_hash a hsz H -> hapie_shape p1 = hapie_shape p2 -> map hash_shape calls1 = map hash_shape calls2 ->
  l_hash_run cx H p1 calls1 = Some (t1, r1) -> l_hash_run cx H p2 calls2 = Some (t2, r2) -> same_trace t1 t2.
Proof.
  intros HH Hp Hc E1 E2. destruct (shipped_hash_ok cx a hsz H HH) as (_ & _ & _ & HS).
  refine (proj1 (s_hash_run cx H HS calls1 calls2 p1 p2 _ Hc _ _ _ _ E1 E2)).
  unfold hapie_shape in Hp.
  assert (blank (ho_state (hp_impl p1)) = blank (ho_state (hp_impl p2)) /\ blank (ho_buffer (hp_impl p1)) = blank (ho_buffer (hp_impl p2)) /\
    ho_size (hp_impl p1) = ho_size (hp_impl p2) /\ hp_finalized p1 = hp_finalized p2) as (X1 & X2 & X3 & X4) by (repeat split; congruence).
  split; [split; [apply shape_len, X1|split; [apply shape_len, X2|exact X3]]|exact X4].
Qed.
Lemma hash_total cx a hsz H calls1 calls2 : shipped_hash a hsz H -> (hsz <= sha_nst a * sha_word_size a)%nat ->
  Forall (hcall_ok (lh_al H)) calls1 -> Forall (hcall_ok (lh_al H)) calls2 -> map hash_shape calls1 = map hash_shape calls2 ->
  exists t1 r1 t2 r2, l_hash_run cx H (hapie_new (lh_al H)) calls1 = Some (t1, r1) /\ l_hash_run cx H (hapie_new (lh_al H)) calls2 = Some (t2, r2) /\ same_trace t1 t2.
Proof.
  intros HH Hd C1 C2 Hc. destruct (shipped_hash_ok cx a hsz H HH) as (AO & Ez & HE & HS). rewrite <- Ez in Hd.
  assert (T : forall calls, Forall (hcall_ok (lh_al H)) calls -> exists r, erase (l_hash_run cx H (hapie_new (lh_al H)) calls) = Some r).
  { intros calls C. rewrite e_hash_run by exact HE.
    destruct (run_total a (lh_al H) AO Hd cx (hapie_new (lh_al H)) calls) as (p & o & E & _); [apply new_awf; exact AO|exact C|eexists; exact E]. }
  apply two_runs with (R := RP Rhp RA); [apply T, C1|apply T, C2|]. apply s_hash_run; [exact HS|repeat split|exact Hc].
Qed.

(** The MACs. *)
Lemma mac_total cx M R keyok T eqv hold out key1 key2 calls1 calls2 : lm_erases cx M -> lm_silent cx M R ->
  mac_ok (lm_M M) cx keyok T eqv hold out -> keyok key1 -> keyok key2 ->
  Forall (mcall_ok keyok (ma_digest_size (lm_M M))) calls1 -> Forall (mcall_ok keyok (ma_digest_size (lm_M M))) calls2 ->
  length key1 = length key2 -> map mac_shape calls1 = map mac_shape calls2 ->
  exists t1 r1 t2 r2, l_mac_run cx M (mac_fresh (lm_M M)) (MInit key1 :: calls1) = Some (t1, r1) /\
    l_mac_run cx M (mac_fresh (lm_M M)) (MInit key2 :: calls2) = Some (t2, r2) /\ same_trace t1 t2.
Proof.
  intros HE HS OK K1 K2 C1 C2 Lk Hc.
  assert (X : forall key calls, keyok key -> Forall (mcall_ok keyok (ma_digest_size (lm_M M))) calls ->
    exists r, erase (l_mac_run cx M (mac_fresh (lm_M M)) (MInit key :: calls)) = Some r).
  { intros key calls Hk C. rewrite e_mac_run by exact HE. destruct (mrun_total OK key calls Hk C) as (p & [q outs] & E & F & _).
    unfold mapie_new in E. cbn [mac_run mac_step]. unfold mac_fresh. rewrite E. cbn [bind]. rewrite F. eexists. reflexivity. }
  apply two_runs with (R := RP (Rmp M R) RA); [apply X; assumption|apply X; assumption|].
  apply (s_mac_run cx M R HS); [split; [apply (ms_new _ _ _ HS)|reflexivity]|]. cbn [map mac_shape]. rewrite Hc. f_equal. f_equal. apply blank_len, Lk.
Qed.
Lemma hmac_total cx a hsz H dsz key1 key2 calls1 calls2 : shipped_hash a hsz H -> (dsz <= hsz <= sha_nst a * sha_word_size a)%nat ->
  chunk key1 -> chunk key2 -> Forall (mcall_ok chunk dsz) calls1 -> Forall (mcall_ok chunk dsz) calls2 ->
  length key1 = length key2 -> map mac_shape calls1 = map mac_shape calls2 ->
  let M := lm_hmac H dsz in
  exists t1 r1 t2 r2, l_mac_run cx M (mac_fresh (lm_M M)) (MInit key1 :: calls1) = Some (t1, r1) /\
    l_mac_run cx M (mac_fresh (lm_M M)) (MInit key2 :: calls2) = Some (t2, r2) /\ same_trace t1 t2.
Proof.
  intros HH Hd K1 K2 C1 C2 Lk Hc M. destruct (shipped_hash_ok cx a hsz H HH) as (AO & Ez & HE & HS).
  refine (mac_total cx M Rhm chunk _ _ _ _ key1 key2 calls1 calls2 (lm_hmac_erases cx H dsz HE) (lm_hmac_silent cx H dsz HS) _ K1 K2 C1 C2 Lk Hc).
  apply (hmac_ok a (lh_al H) AO); lia.
Qed.
Lemma poly_total cx dsz key1 key2 calls1 calls2 : (dsz <= 16)%nat ->
  bytes key1 -> bytes key2 -> Forall (mcall_ok bytes dsz) calls1 -> Forall (mcall_ok bytes dsz) calls2 ->
  length key1 = length key2 -> map mac_shape calls1 = map mac_shape calls2 ->
  let M := lm_poly dsz in
  exists t1 r1 t2 r2, l_mac_run cx M (mac_fresh (lm_M M)) (MInit key1 :: calls1) = Some (t1, r1) /\
    l_mac_run cx M (mac_fresh (lm_M M)) (MInit key2 :: calls2) = Some (t2, r2) /\ same_trace t1 t2.
Proof.
  intros Hd K1 K2 C1 C2 Lk Hc M.
  exact (mac_total cx M Rpo bytes _ _ _ _ key1 key2 calls1 calls2 (lm_poly_erases cx dsz) (lm_poly_silent cx dsz) (poly_host true cx dsz Hd) K1 K2 C1 C2 Lk Hc).
Qed.

(** The cipher. *)
Lemma cipher_total cx B key1 iv1 key2 iv2 calls1 calls2 : shipped B -> bytes key1 -> bytes iv1 -> bytes key2 -> bytes iv2 ->
  Forall ccall_ok calls1 -> Forall ccall_ok calls2 -> length key1 = length key2 -> length iv1 = length iv2 -> map cipher_shape calls1 = map cipher_shape calls2 ->
  exists t1 r1 t2 r2, l_cipher_run B cx cc_new (CInit key1 iv1 :: calls1) = Some (t1, r1) /\
    l_cipher_run B cx cc_new (CInit key2 iv2 :: calls2) = Some (t2, r2) /\ same_trace t1 t2.
Proof.
  intros HB K1 V1 K2 V2 C1 C2 Lk Lv Hc. destruct (shipped_ok cx B HB) as (BO & HE & HS).
  assert (X : forall key iv calls, bytes key -> bytes iv -> Forall ccall_ok calls -> exists r, erase (l_cipher_run B cx cc_new (CInit key iv :: calls)) = Some r).
  { intros key iv calls Hk Hv C. rewrite e_cipher_run by exact HE. destruct (cipher_history cx (lb_bk B) key iv calls BO Hk Hv C) as (o & o' & E & F).
    unfold capie_new in E. cbn [cipher_run cipher_step]. rewrite E. cbn [bind]. rewrite F. eexists. reflexivity. }
  apply two_runs with (R := RP Rcc RA); [apply X; assumption|apply X; assumption|].
  apply s_cipher_run; [exact HS|repeat split|]. cbn [map cipher_shape]. rewrite Hc, (blank_len _ _ Lk), (blank_len _ _ Lv). reflexivity.
Qed.

(** Key derivation; the same memory during the calls of one run. *)
Lemma kdf_total cx K R V (D : V -> nat -> list N) lim argv keq hold sees later env1 env2 a calls1 calls2 : lk_erases cx K -> lk_silent cx K R ->
  kdf_ok (lk_K K) cx D lim argv keq hold sees later ->
  (exists v, argv env1 a v) -> (exists v, argv env2 a v) ->
  Forall (kcall_ok (fun a => exists v, argv env1 a v)) calls1 -> Forall (kcall_ok (fun a => exists v, argv env2 a v)) calls2 ->
  length env1 = length env2 -> map (fun c => snd (kdf_shape (env1, c))) calls1 = map (fun c => snd (kdf_shape (env2, c))) calls2 ->
  exists t1 r1 t2 r2, l_kdf_run_in cx K (ka_new (lk_K K)) (map (pair env1) (KInit a :: calls1)) = Some (t1, r1) /\
    l_kdf_run_in cx K (ka_new (lk_K K)) (map (pair env2) (KInit a :: calls2)) = Some (t2, r2) /\ same_trace t1 t2.
Proof.
  intros HE HS OK A1 A2 C1 C2 Le Hc.
  assert (X : forall env calls, (exists v, argv env a v) -> Forall (kcall_ok (fun a => exists v, argv env a v)) calls ->
    exists r, erase (l_kdf_run_in cx K (ka_new (lk_K K)) (map (pair env) (KInit a :: calls))) = Some r).
  { intros env calls A C. rewrite e_kdf_run_in by exact HE. destruct (krun_total OK env a calls A C) as (o & [o' outs] & E & F).
    unfold kapie_new in E. cbn [map kdf_run_in kdf_step]. rewrite E. cbn [bind].
    change (map (pair env) calls) with (map (fun c => (env, c)) calls). rewrite run_in_run, F. eexists. reflexivity. }
  apply two_runs with (R := RP R RA); [apply X; assumption|apply X; assumption|].
  apply (s_kdf_run cx K R HS); [apply (ks_new _ _ _ HS)|]. cbn [map]. f_equal.
  - unfold kdf_shape. cbn [fst snd]. rewrite (blank_len _ _ Le). reflexivity.
  - rewrite !map_map. clear - Le Hc. revert calls2 Hc. induction calls1 as [|c calls1 IH]; intros [|d calls2] Hc; try discriminate Hc; cbn [map] in *; [reflexivity|].
    assert (snd (kdf_shape (env1, c)) = snd (kdf_shape (env2, d)) /\ map (fun c => snd (kdf_shape (env1, c))) calls1 = map (fun c => snd (kdf_shape (env2, c))) calls2)
      as [E1 E2] by (split; congruence).
    rewrite (IH _ E2). f_equal. unfold kdf_shape in *. cbn [fst snd] in *. rewrite (blank_len _ _ Le), E1. reflexivity.
Qed.

Section OverHmac.
  Context (cx : ctx) (a : sha) (hsz : nat) (H : lhash) (dsz : nat) (HH : shipped_hash a hsz H) (Hd : (1 <= dsz <= hsz)%nat) (Hz : (hsz <= sha_nst a * sha_word_size a)%nat).
  Let M := lm_hmac H dsz.
  Let T := fun k m : list N => firstn dsz (hmac (D_of a (lh_al H)) (sha_block_size a) k m).

  Lemma over_es : (0 < dsz <= 64)%nat.
  Proof. assert ((hsz <= 64)%nat) by (clear - Hz; destruct a; cbn in Hz; lia). clear - H0 Hd. lia. Qed.
  Lemma over_dz : (ha_digest_size (lh_al H) <= sha_nst a * sha_word_size a)%nat.
  Proof. destruct (shipped_hash_ok cx a hsz H HH) as (_ & E & _). rewrite E. exact Hz. Qed.
  Lemma over_tag k m : bytes k -> bytes m -> bytes (T k m) /\ length (T k m) = dsz.
  Proof.
    intros Hk Hm. destruct (shipped_hash_ok cx a hsz H HH) as (AO & E & _). pose proof over_dz as DZ. unfold T. split.
    - apply bytes_firstn. unfold hmac. apply H_bytes.
    - rewrite firstn_length. unfold hmac. rewrite (H_length a (lh_al H) DZ); [rewrite E; lia|].
      apply bytes_app. split; [|apply H_bytes]. apply xor_bytes; [lia|]. unfold hmac_key, pad_to. apply bytes_app. split; [|apply bytes_repeat0].
      apply bytes_firstn. destruct (_ <? _)%nat; [apply H_bytes|assumption].
  Qed.
  Lemma over_mac : mac_ok (lm_M M) cx chunk T (hmeq a) (hmhold a (lh_al H))
    (fun o => flat_map (be_enc (sha_word_size a)) (ho_state (hm_hash o))).
  Proof. destruct (shipped_hash_ok cx a hsz H HH) as (AO & E & _). apply (hmac_ok a (lh_al H) AO over_dz dsz). rewrite E. lia. Qed.

  Lemma hkdf_total env1 env2 r calls1 calls2 : (exists v, hargv env1 r v) -> (exists v, hargv env2 r v) ->
    Forall (kcall_ok (fun r => exists v, hargv env1 r v)) calls1 -> Forall (kcall_ok (fun r => exists v, hargv env2 r v)) calls2 ->
    length env1 = length env2 -> map (fun c => snd (kdf_shape (env1, c))) calls1 = map (fun c => snd (kdf_shape (env2, c))) calls2 ->
    let K := lk_hkdf M in
    exists t1 r1 t2 r2, l_kdf_run_in cx K (ka_new (lk_K K)) (map (pair env1) (KInit r :: calls1)) = Some (t1, r1) /\
      l_kdf_run_in cx K (ka_new (lk_K K)) (map (pair env2) (KInit r :: calls2)) = Some (t2, r2) /\ same_trace t1 t2.
  Proof.
    intros A1 A2 C1 C2 Le Hc K. destruct (shipped_hash_ok cx a hsz H HH) as (AO & E & HE & HS).
    exact (kdf_total cx K (Rhk M Rhm) _ _ _ _ _ _ _ _ env1 env2 r calls1 calls2 (lk_hkdf_erases cx M (lm_hmac_erases cx H dsz HE)) (lk_hkdf_silent cx M Rhm (lm_hmac_silent cx H dsz HS))
      (hkdf_ok over_mac over_es over_tag) A1 A2 C1 C2 Le Hc).
  Qed.
  Lemma pbkdf2_total env1 env2 r calls1 calls2 : (exists v, pargv env1 r v) -> (exists v, pargv env2 r v) ->
    Forall (kcall_ok (fun r => exists v, pargv env1 r v)) calls1 -> Forall (kcall_ok (fun r => exists v, pargv env2 r v)) calls2 ->
    length env1 = length env2 -> map (fun c => snd (kdf_shape (env1, c))) calls1 = map (fun c => snd (kdf_shape (env2, c))) calls2 ->
    let K := lk_pbkdf_2 M in
    exists t1 r1 t2 r2, l_kdf_run_in cx K (ka_new (lk_K K)) (map (pair env1) (KInit r :: calls1)) = Some (t1, r1) /\
      l_kdf_run_in cx K (ka_new (lk_K K)) (map (pair env2) (KInit r :: calls2)) = Some (t2, r2) /\ same_trace t1 t2.
  Proof.
    intros A1 A2 C1 C2 Le Hc K. destruct (shipped_hash_ok cx a hsz H HH) as (AO & E & HE & HS).
    exact (kdf_total cx K (Rpb M Rhm) _ _ _ _ _ _ _ _ env1 env2 r calls1 calls2 (lk_pbkdf_2_erases cx M (lm_hmac_erases cx H dsz HE)) (lk_pbkdf_2_silent cx M Rhm (lm_hmac_silent cx H dsz HS))
      (pbkdf2_ok over_mac over_es over_tag) A1 A2 C1 C2 Le Hc).
  Qed.
End OverHmac.
