(** Property C52.  Instrumented code: [Model_Leak], [Model_Leak2] (each branch and each access leaves an event).
    Specification: [Spec_Leak] ([same_trace]), [Spec_Leak2] (calls without the bytes). *)
From Verif Require Import Base BaseLemmas Spec_Bytes Spec_Sha Spec_Hash Spec_Mac Spec_Cipher Spec_Kdf Model_Memory Model_Container Model_Sha Model_ShaAsm
  Model_Mac Model_Hmac Model_Poly Model_Cipher Model_Kdf Model_Leak Model_Leak2 Spec_Leak Spec_Leak2 Prop_Kdf
  Proof_Sha Proof_Kdf3 Proof_Leak Proof_Leak2 Proof_Leak3 Proof_Leak4 Proof_Leak5 Proof_Leak6.
Local Open Scope N_scope.

(** HMAC, HKDF and PBKDF2 over the hash [H], tags of [dsz] bytes. *)
Definition LHMAC (H : lhash) (dsz : nat) : lmac := lm_hmac H dsz.
Definition LHKDF (H : lhash) (dsz : nat) : lkdf := lk_hkdf (lm_hmac H dsz).
Definition LPBKDF2 (H : lhash) (dsz : nat) : lkdf := lk_pbkdf_2 (lm_hmac H dsz).

(** The instrumented code is the code: same results, undefined in the same cases. *)
Theorem C52_same_model : forall cx a hsz H dsz, shipped_hash a hsz H ->
  (lh_al H = milo_hash_opt a hsz \/ exists j, lh_al H = ni_hash_opt a j hsz) /\
  (forall p calls, erase (l_hash_run cx H p calls) = hash_run cx (lh_al H) p calls) /\
  (forall p calls, erase (l_mac_run cx (LHMAC H dsz) p calls) = mac_run cx (mac_hmac (lh_al H) dsz) p calls) /\
  (forall o calls, erase (l_kdf_run_in cx (LHKDF H dsz) o calls) = kdf_run_in cx (kdf_hkdf (mac_hmac (lh_al H) dsz)) o calls) /\
  (forall o calls, erase (l_kdf_run_in cx (LPBKDF2 H dsz) o calls) = kdf_run_in cx (kdf_pbkdf_2 (mac_hmac (lh_al H) dsz)) o calls).
Proof.
  intros cx a hsz H dsz HH. destruct (shipped_hash_ok cx a hsz H HH) as (_ & _ & HE & _). pose proof (lm_hmac_erases cx H dsz HE) as HM.
  split; [destruct HH as [->|(j & _ & ->)]; [left|right; exists j]; reflexivity|].
  split; [intros; apply e_hash_run; exact HE|]. split; [intros; apply (e_mac_run cx (lm_hmac H dsz) HM)|].
  split; intros; [apply (e_kdf_run_in cx (LHKDF H dsz)), lk_hkdf_erases; exact HM|apply (e_kdf_run_in cx (LPBKDF2 H dsz)), lk_pbkdf_2_erases; exact HM].
Qed.
Print Assumptions C52_same_model.
Theorem C52_same_model_cipher : forall cx dsz,
  (forall p calls, erase (l_mac_run cx (lm_poly dsz) p calls) = mac_run cx (mac_poly dsz) p calls) /\
  (forall B o calls, shipped B -> erase (l_cipher_run B cx o calls) = cipher_run (lb_bk B) cx o calls).
Proof.
  intros cx dsz. split; [intros; apply (e_mac_run cx (lm_poly dsz) (lm_poly_erases cx dsz))|].
  intros B o calls HB. apply e_cipher_run. apply shipped_ok. exact HB.
Qed.
Print Assumptions C52_same_model_cipher.
(** Hashes: valid histories on a new object. *)
Theorem C52_hash : forall cx a hsz H calls1 calls2,
  shipped_hash a hsz H -> (hsz <= sha_nst a * sha_word_size a)%nat ->
  Forall (hcall_ok (lh_al H)) calls1 -> Forall (hcall_ok (lh_al H)) calls2 -> map hash_shape calls1 = map hash_shape calls2 ->
  exists t1 r1 t2 r2,
    l_hash_run cx H (hapie_new (lh_al H)) calls1 = Some (t1, r1) /\
    l_hash_run cx H (hapie_new (lh_al H)) calls2 = Some (t2, r2) /\ same_trace t1 t2.
Proof. exact hash_total. Qed.
Print Assumptions C52_hash.
(** Any two objects that differ in chaining value and buffered bytes, any histories of the same shape. *)
Theorem C52_hash_any : forall cx a hsz H p1 p2 calls1 calls2 t1 r1 t2 r2,
  shipped_hash a hsz H -> hapie_shape p1 = hapie_shape p2 -> map hash_shape calls1 = map hash_shape calls2 ->
  l_hash_run cx H p1 calls1 = Some (t1, r1) -> l_hash_run cx H p2 calls2 = Some (t2, r2) -> same_trace t1 t2.
Proof. exact hash_any. Qed.
Print Assumptions C52_hash_any.

(** MACs: keys and messages. *)
Theorem C52_hmac : forall cx a hsz H dsz key1 key2 calls1 calls2,
  shipped_hash a hsz H -> (dsz <= hsz <= sha_nst a * sha_word_size a)%nat ->
  chunk key1 -> chunk key2 -> Forall (mcall_ok chunk dsz) calls1 -> Forall (mcall_ok chunk dsz) calls2 ->
  length key1 = length key2 -> map mac_shape calls1 = map mac_shape calls2 ->
  let M := LHMAC H dsz in
  exists t1 r1 t2 r2,
    l_mac_run cx M (mac_fresh (lm_M M)) (MInit key1 :: calls1) = Some (t1, r1) /\
    l_mac_run cx M (mac_fresh (lm_M M)) (MInit key2 :: calls2) = Some (t2, r2) /\ same_trace t1 t2.
Proof. exact hmac_total. Qed.
Print Assumptions C52_hmac.
Theorem C52_poly_1305 : forall cx dsz key1 key2 calls1 calls2,
  (dsz <= 16)%nat ->
  bytes key1 -> bytes key2 -> Forall (mcall_ok bytes dsz) calls1 -> Forall (mcall_ok bytes dsz) calls2 ->
  length key1 = length key2 -> map mac_shape calls1 = map mac_shape calls2 ->
  let M := lm_poly dsz in
  exists t1 r1 t2 r2,
    l_mac_run cx M (mac_fresh (lm_M M)) (MInit key1 :: calls1) = Some (t1, r1) /\
    l_mac_run cx M (mac_fresh (lm_M M)) (MInit key2 :: calls2) = Some (t2, r2) /\ same_trace t1 t2.
Proof. exact poly_total. Qed.
Print Assumptions C52_poly_1305.

(** The cipher: keys, nonces, texts. *)
Theorem C52_cipher : forall cx B key1 iv1 key2 iv2 calls1 calls2,
  shipped B -> bytes key1 -> bytes iv1 -> bytes key2 -> bytes iv2 ->
  Forall ccall_ok calls1 -> Forall ccall_ok calls2 ->
  length key1 = length key2 -> length iv1 = length iv2 -> map cipher_shape calls1 = map cipher_shape calls2 ->
  exists t1 r1 t2 r2,
    l_cipher_run B cx cc_new (CInit key1 iv1 :: calls1) = Some (t1, r1) /\
    l_cipher_run B cx cc_new (CInit key2 iv2 :: calls2) = Some (t2, r2) /\ same_trace t1 t2.
Proof. exact cipher_total. Qed.
Print Assumptions C52_cipher.

(** Key derivation: [env1] and [env2] are the caller's memory; keying material, salt, info and passwords are in it, at
    the same places.  Lengths and the number of iterations are public. *)
Theorem C52_hkdf : forall cx a hsz H dsz env1 env2 r calls1 calls2,
  shipped_hash a hsz H -> (1 <= dsz <= hsz)%nat -> (hsz <= sha_nst a * sha_word_size a)%nat ->
  arg3 env1 r -> arg3 env2 r -> Forall (kcall_ok (arg3 env1)) calls1 -> Forall (kcall_ok (arg3 env2)) calls2 ->
  length env1 = length env2 -> map (fun c => kdf_shape (env1, c)) calls1 = map (fun c => kdf_shape (env2, c)) calls2 ->
  let K := LHKDF H dsz in
  exists t1 r1 t2 r2,
    l_kdf_run_in cx K (ka_new (lk_K K)) (map (pair env1) (KInit r :: calls1)) = Some (t1, r1) /\
    l_kdf_run_in cx K (ka_new (lk_K K)) (map (pair env2) (KInit r :: calls2)) = Some (t2, r2) /\ same_trace t1 t2.
Proof.
  intros cx a hsz H dsz env1 env2 r calls1 calls2 HH Hd Hz A1 A2 C1 C2 Le Hc.
  assert (Q : forall env q, arg3 env q -> exists v, hargv env q v) by (intros env q (i & s & f & X); exists (i, s, f); exact (h3 _ _ _ _ _ X)).
  assert (C : forall env l, Forall (kcall_ok (arg3 env)) l -> Forall (kcall_ok (fun q => exists v, hargv env q v)) l).
  { intros env l. apply Forall_impl. intros [x|k s|c s]; cbn [kcall_ok]; [apply Q|auto|auto]. }
  refine (hkdf_total cx a hsz H dsz HH Hd Hz env1 env2 r calls1 calls2 (Q _ _ A1) (Q _ _ A2) (C _ _ C1) (C _ _ C2) Le _).
  apply (f_equal (map snd)) in Hc. rewrite !map_map in Hc. exact Hc.
Qed.
Print Assumptions C52_hkdf.
Theorem C52_pbkdf_2 : forall cx a hsz H dsz env1 env2 r calls1 calls2,
  shipped_hash a hsz H -> (1 <= dsz <= hsz)%nat -> (hsz <= sha_nst a * sha_word_size a)%nat ->
  arg2 env1 r -> arg2 env2 r -> Forall (kcall_ok (arg2 env1)) calls1 -> Forall (kcall_ok (arg2 env2)) calls2 ->
  length env1 = length env2 -> map (fun c => kdf_shape (env1, c)) calls1 = map (fun c => kdf_shape (env2, c)) calls2 ->
  let K := LPBKDF2 H dsz in
  exists t1 r1 t2 r2,
    l_kdf_run_in cx K (ka_new (lk_K K)) (map (pair env1) (KInit r :: calls1)) = Some (t1, r1) /\
    l_kdf_run_in cx K (ka_new (lk_K K)) (map (pair env2) (KInit r :: calls2)) = Some (t2, r2) /\ same_trace t1 t2.
Proof.
  intros cx a hsz H dsz env1 env2 r calls1 calls2 HH Hd Hz A1 A2 C1 C2 Le Hc.
  assert (Q : forall env q, arg2 env q -> exists v, pargv env q v) by (intros env q (p & s & X); exists (p, s, snd q); exact (h2 _ _ _ _ X)).
  assert (C : forall env l, Forall (kcall_ok (arg2 env)) l -> Forall (kcall_ok (fun q => exists v, pargv env q v)) l).
  { intros env l. apply Forall_impl. intros [x|k s|c s]; cbn [kcall_ok]; [apply Q|auto|auto]. }
  refine (pbkdf2_total cx a hsz H dsz HH Hd Hz env1 env2 r calls1 calls2 (Q _ _ A1) (Q _ _ A2) (C _ _ C1) (C _ _ C2) Le _).
  apply (f_equal (map snd)) in Hc. rewrite !map_map in Hc. exact Hc.
Qed.
Print Assumptions C52_pbkdf_2.

(** A case: other key material, salt and info in memory, other keys derived, through HKDF, HMAC, SHA-256. *)
Definition le52 : ctx := {| cx_big := false; cx_ce := false |}.
Definition calls52 (b : N) : list (kdf_call (range * range * range)) := [KDerive (repeat b 40) 40; KDeriveC (Dynamic [b]) 3].
Example C52_case :
  let H := lh_sw SHA256 32 in let K := LHKDF H 32 in
  let e1 := mem9 in let e2 := map (fun x => x + 40) mem9 in
  shipped_hash SHA256 32 H /\ arg3 e1 r9 /\ arg3 e2 r9 /\
  map (fun c => kdf_shape (e1, c)) (calls52 0) = map (fun c => kdf_shape (e2, c)) (calls52 7) /\
  match l_kdf_run_in le52 K (ka_new (lk_K K)) (map (pair e1) (KInit r9 :: calls52 0)),
        l_kdf_run_in le52 K (ka_new (lk_K K)) (map (pair e2) (KInit r9 :: calls52 7)) with
  | Some (t1, (_, o1)), Some (t2, (_, o2)) => same_trace t1 t2 /\ (1000 <? length t1)%nat = true /\ o1 <> o2
  | _, _ => False
  end.
Proof.
  cbv zeta. split; [left; reflexivity|]. split; [exists [1; 2; 3], [4; 5], [6; 7; 8; 9]; exact has9|].
  split; [exists [41; 42; 43], [44; 45], [46; 47; 48; 49]; unfold holds3, r9, mem9, has, chunk, bytes, is_byte; cbn; repeat split; try lia; repeat constructor; lia|].
  split; [vm_compute; reflexivity|].
  vm_compute. split; [reflexivity|]. split; [reflexivity|]. intros X; discriminate X.
Qed.
