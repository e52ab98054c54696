(** Property C42: what is left in memory. *)
From Verif Require Import Base Spec_Bytes Spec_Range Spec_Sha Spec_Hash Spec_Hmac Spec_ChaCha Spec_Cipher Spec_Aead Spec_Kdf
  Model_Memory Model_Container Model_Sha Model_Mac Model_Hmac Model_Poly Model_Cipher Model_Aead Model_Kdf Model_Erase
  Proof_Memory2 Proof_ShaApi Proof_ChaCha Proof_Erase.
Local Open Scope N_scope.

(** The memory of an array whose content was [before] is all zero. *)
Definition wiped (before after : list N) : Prop := after = repeat 0 (length before).

Definition hash_wiped (a b : hash_obj) : Prop :=
  wiped (ho_state a) (ho_state b) /\ wiped (ho_count a) (ho_count b) /\ wiped (ho_buffer a) (ho_buffer b) /\ ho_size b = 0%nat.
Definition hmac_wiped (a b : hmac_obj) : Prop := wiped (hm_buffer a) (hm_buffer b) /\ hash_wiped (hm_hash a) (hm_hash b).
Definition poly_wiped (a b : poly_obj) : Prop :=
  wiped (po_r a) (po_r b) /\ wiped (po_s a) (po_s b) /\ wiped (po_acc a) (po_acc b) /\ wiped (po_buffer a) (po_buffer b) /\ po_size b = 0%nat.
Definition cipher_wiped (a b : cc_obj) : Prop :=
  wiped (cc_state a) (cc_state b) /\ wiped (cc_buffer a) (cc_buffer b) /\ cc_size b = 0%nat.

Lemma hash_wipe o : exists o', hash_destroy o = Some o' /\ hash_wiped o o'.
Proof. unfold hash_destroy. rewrite !erase_all. cbn [bind]. eexists. split; [reflexivity|]. repeat split. Qed.
Lemma hmac_wipe o : exists o', hmac_destroy o = Some o' /\ hmac_wiped o o'.
Proof.
  unfold hmac_destroy. rewrite erase_all. cbn [bind]. destruct (hash_wipe (hm_hash o)) as (h & -> & W). cbn [bind].
  eexists. split; [reflexivity|]. split; [reflexivity|exact W].
Qed.
Lemma poly_wipe o : exists o', poly_destroy o = Some o' /\ poly_wiped o o'.
Proof. unfold poly_destroy. rewrite !erase_all. cbn [bind]. eexists. split; [reflexivity|]. repeat split. Qed.
Lemma cipher_wipe o : exists o', cc_destroy o = Some o' /\ cipher_wiped o o'.
Proof. unfold cc_destroy. rewrite !erase_all. cbn [bind]. eexists. split; [reflexivity|]. repeat split. Qed.

(** *** Objects: whatever they hold, i.e. after any history, nothing is left after the destructor. *)
Theorem C42_objects_partial :
  (forall o, exists o', hash_destroy o = Some o' /\ hash_wiped o o') /\
  (forall o, exists o', hmac_destroy o = Some o' /\ hmac_wiped o o') /\
  (forall o, exists o', poly_destroy o = Some o' /\ poly_wiped o o') /\
  (forall o, exists o', cc_destroy o = Some o' /\ cipher_wiped o o') /\
  (forall o, exists o', aead_destroy o = Some o' /\ poly_wiped (ao_mac o) (ao_mac o') /\ cipher_wiped (ao_cipher o) (ao_cipher o')) /\
  (forall al dsz o, exists o', hk_destroy_hmac al dsz o = Some o' /\ wiped (hk_prk o) (hk_prk o') /\
     wiped (hk_buffer o) (hk_buffer o') /\ hmac_wiped (hk_mac o) (hk_mac o') /\ hk_counter o' = 0 /\ hk_size o' = 0%nat) /\
  (forall al dsz o, exists o', pb_destroy_hmac al dsz o = Some o' /\
     wiped (pb_buffer o) (pb_buffer o') /\ hmac_wiped (pb_mac o) (pb_mac o') /\ pb_counter o' = 0 /\ pb_iterations o' = 0 /\ pb_size o' = 0%nat).
Proof.
  split; [exact hash_wipe|]. split; [exact hmac_wipe|]. split; [exact poly_wipe|]. split; [exact cipher_wipe|]. split; [|split].
  - intros o. unfold aead_destroy. destruct (poly_wipe (ao_mac o)) as (h & -> & H). cbn [bind].
    destruct (cipher_wipe (ao_cipher o)) as (c & -> & C). cbn [bind]. eexists. split; [reflexivity|]. split; assumption.
  - intros al dsz o. unfold hk_destroy_hmac, hk_destroy. rewrite !erase_all. cbn [bind hk_mac].
    destruct (hmac_wipe (hk_mac o)) as (h & -> & H). cbn [bind]. eexists. split; [reflexivity|]. cbn [hk_prk hk_buffer hk_mac hk_counter hk_size].
    split; [reflexivity|]. split; [reflexivity|]. split; [exact H|]. split; reflexivity.
  - intros al dsz o. unfold pb_destroy_hmac, pb_destroy. rewrite !erase_all. cbn [bind pb_mac].
    destruct (hmac_wipe (pb_mac o)) as (h & -> & H). cbn [bind]. eexists. split; [reflexivity|]. cbn [pb_buffer pb_mac pb_counter pb_iterations pb_size].
    split; [reflexivity|]. split; [exact H|]. repeat split.
Qed.
Print Assumptions C42_objects_partial.
Example C42_case : exists o, cc_destroy {| cc_state := [1; 2; 3]; cc_buffer := [4; 5]; cc_size := 2 |} = Some o /\
  cc_state o = [0; 0; 0] /\ cc_buffer o = [0; 0].
Proof. eexists. split; [reflexivity|]. split; reflexivity. Qed.

(** *** Temporaries: refuted.  The local state_base of the portable ChaCha still holds the whole key when [stream]
    returns, for every call. *)
Theorem C42_chacha_key_left_refuted : forall cx n key c nonce ev m d s,
  bytes key -> bytes nonce -> c < 2 ^ 32 -> bytes m ->
  (d + 64 * n <= length m)%nat -> (s + 64 * n <= length m)%nat -> apart d s (64 * n) ->
  exists m' state_base state_eval,
    cc_transform_f cx n (chacha20_state key c nonce) ev m d s = Some (m', n, (state_base, state_eval)) /\
    slice state_base 4 8 = le_words 4 8 key.
Proof. exact chacha_frame. Qed.
Print Assumptions C42_chacha_key_left_refuted.

(** The local init_mac_key of the AEAD's [initialize] still holds the one-time Poly1305 key. *)
Theorem C42_poly_key_left_refuted : forall cx B key iv,
  backend_ok cx B -> bytes key -> bytes iv ->
  exists o init_mac_key, aead_initialize_f B cx (aead_new 0 0) key iv = Some (o, init_mac_key) /\
    firstn 32 init_mac_key = aead_otk (pad_to 32 key) (pad_to 12 iv).
Proof. exact aead_frame. Qed.
Print Assumptions C42_poly_key_left_refuted.
Example C42_aead_case : backend_ok {| cx_big := false; cx_ce := false |} bk_sw.
Proof. apply bk_sw_ok. Qed.

(** The local buffer_1 of PBKDF2's [expand] still holds the derived block: what is left ([snd]) is what was written
    to the output. *)
Theorem C42_pbkdf2_block_left_refuted : forall cx a dsz env vi vs P S it i dst off,
  (1 <= dsz <= sha_digest_size a)%nat ->
  view_read env vi = Some P -> view_read env vs = Some S -> chunk P -> chunk S ->
  bytes dst -> (off + dsz <= length dst)%nat ->
  let M := mac_hmac (milo_hash a) dsz in
  let T := pb_T (fun k m => firstn dsz (hmac (fips a) (sha_block_size a) k m)) P S i (Nat.max 1 (N.to_nat it)) in
  exists h, pb_expand_f cx M env (ma_new M) vi vs it (N.of_nat i mod 2 ^ 32) dst off = Some (h, Spec_Range.put dst off T, T).
Proof. exact pb_frame. Qed.
Print Assumptions C42_pbkdf2_block_left_refuted.
(** The frame versions are the modelled functions. *)
Theorem C42_frames : (forall cx n st ev m d s,
    cc_transform cx n st m d s = ('(m, k, _) <- cc_transform_f cx n st ev m d s ;; Some (m, k))) /\
  (forall cx n st ev m, cc_generate cx n st m = ('(m, k, _) <- cc_generate_f cx n st ev m ;; Some (m, k))) /\
  (forall B cx o key iv, aead_initialize B cx o key iv = ('(o, _) <- aead_initialize_f B cx o key iv ;; Some o)) /\
  (forall cx M env h vi vs it c dst off,
    pb_expand cx M env h vi vs it c dst off = ('(h, d, _) <- pb_expand_f cx M env h vi vs it c dst off ;; Some (h, d))).
Proof.
  split; [exact cc_transform_proj|]. split; [exact cc_generate_proj|]. split; [exact aead_initialize_proj|exact pb_expand_proj].
Qed.
Print Assumptions C42_frames.
