(** Properties C25, C26, C28, C47 and the cipher parts of C19, C20, C27 and C45.
    Specifications: [Spec_ChaCha] (RFC 8439 sections 2.1-2.4), [Spec_Cipher] (call histories, what a backend has to do)
    and [Spec_Range].  [bk_sw] is the portable backend; the assembly backends are in [Prop_Asm]. *)
From Verif Require Import Base BaseLemmas BytesLemmas Spec_Bytes Spec_ChaCha Spec_Range Model_Memory Model_Container Model_Cipher
  Spec_Cipher Proof_ChaChaCore Proof_ChaCha Proof_ChaChaReuse.
Local Open Scope N_scope.

Definition rt : ctx := {| cx_big := false; cx_ce := false |}.    (* run time, little endian *)
Definition ct : ctx := {| cx_big := false; cx_ce := true |}.     (* compile time *)
Definition zeros32 : list N := repeat 0 32.
Definition ones16 : list N := repeat 1 16.

(** *** C25: encrypt (and decrypt) of a text given in any pieces, on any host, at compile time and at run time. *)
Theorem C25_chacha20 : forall cx B dir key counter nonce texts,
  backend_ok cx B ->
  bytes key -> length key = 32%nat -> counter < 2 ^ 32 -> bytes nonce -> length nonce = 12%nat -> Forall bytes texts ->
  exists o o' outs,
    capie_new cx key (le_enc 4 counter ++ nonce) = Some o /\
    crypt_pieces dir B cx o texts = Some (o', outs) /\
    map (@length N) outs = map (@length N) texts /\
    concat outs = chacha20 key counter nonce (concat texts).
Proof. exact pieces_rfc. Qed.
Print Assumptions C25_chacha20.
(** The portable backend is such a backend. *)
Theorem C25_portable_backend : forall cx, backend_ok cx bk_sw.
Proof. exact bk_sw_ok. Qed.
Print Assumptions C25_portable_backend.
(** The free functions; a key or iv of another size is cut or zero-padded. *)
Theorem C25_chacha20_free : forall cx B dir key iv text,
  backend_ok cx B -> bytes key -> bytes iv -> bytes text ->
  let r := chacha20 (pad_to 32 key) (iv_counter iv) (iv_nonce iv) text in
  cipher_free_new dir B cx key iv text = Some r /\
  (forall l, bytes l -> cipher_free_c dir B cx key iv text (Dynamic l) = Some (Dynamic r, length text)) /\
  (forall l, bytes l -> (length text <= length l)%nat ->
     cipher_free_c dir B cx key iv text (Static l) = Some (Static (r ++ skipn (length text) l), length text)).
Proof. exact cipher_free_spec. Qed.
Print Assumptions C25_chacha20_free.
(** RFC 8439, 2.1.1 and the first bytes of the block of 2.3.2 and of the key stream of 2.4.2. *)
Example C25_rfc_vectors :
  quarter 0x11111111 0x01020304 0x9b8d6f43 0x01234567 = (0xea2a92f4, 0xcb1cf8ce, 0x4581472e, 0x5881c4bb) /\
  firstn 16 (chacha20_block (map N.of_nat (seq 0 32)) 1 [0; 0; 0; 9; 0; 0; 0; 0x4a; 0; 0; 0; 0])
  = [0x10; 0xf1; 0xe7; 0xe4; 0xd1; 0x3b; 0x59; 0x15; 0x50; 0x0f; 0xdd; 0x1f; 0xa3; 0x20; 0x71; 0xc4] /\
  firstn 4 (chacha20 (map N.of_nat (seq 0 32)) 1 [0; 0; 0; 0; 0; 0; 0; 0x4a; 0; 0; 0; 0] [0x4c; 0x61; 0x64; 0x69])
  = [0x6e; 0x2e; 0x35; 0x9a].
Proof. vm_compute. repeat split. Qed.

(** *** C26: whatever the two sides' pieces, backends and hosts. *)
Theorem C26_round_trip : forall cx1 cx2 B1 B2 key iv texts,
  backend_ok cx1 B1 -> backend_ok cx2 B2 -> bytes key -> bytes iv -> Forall bytes texts ->
  exists o o' outs, capie_new cx1 key iv = Some o /\ crypt_pieces Encrypt B1 cx1 o texts = Some (o', outs) /\
  forall pieces, concat pieces = concat outs ->
  exists p p' backs, capie_new cx2 key iv = Some p /\ crypt_pieces Decrypt B2 cx2 p pieces = Some (p', backs) /\
    concat backs = concat texts.
Proof. exact round_trip. Qed.
Print Assumptions C26_round_trip.
Example C25_C26_case : backend_ok rt bk_sw /\ bytes zeros32 /\ bytes ones16 /\ Forall bytes [[1; 2]; []; [3]] /\
  exists o o' outs, capie_new rt zeros32 ones16 = Some o /\ crypt_pieces Encrypt bk_sw rt o [[1; 2]; []; [3]] = Some (o', outs)
    /\ concat outs <> [1; 2; 3].
Proof.
  split; [apply bk_sw_ok|]. split; [repeat constructor; unfold is_byte; lia|].
  split; [repeat constructor; unfold is_byte; lia|]. split; [repeat constructor; unfold is_byte; lia|].
  eexists. eexists. eexists. split; [vm_compute; reflexivity|]. split; [vm_compute; reflexivity|]. vm_compute. discriminate.
Qed.

(** *** C27: the answers of any history are the same with any two such backends (and hosts). *)
Theorem C27_backends_agree : forall cx1 cx2 B1 B2 key iv calls,
  backend_ok cx1 B1 -> backend_ok cx2 B2 -> bytes key -> bytes iv -> Forall ccall_ok calls ->
  exists o1 o1' o2 o2' outs,
    capie_new cx1 key iv = Some o1 /\ cipher_run B1 cx1 o1 calls = Some (o1', outs) /\
    capie_new cx2 key iv = Some o2 /\ cipher_run B2 cx2 o2 calls = Some (o2', outs).
Proof.
  intros cx1 cx2 B1 B2 key iv calls H1 H2 Hk Hv Hc.
  destruct (cipher_history cx1 B1 key iv calls H1 Hk Hv Hc) as (o1 & o1' & E1 & R1).
  destruct (cipher_history cx2 B2 key iv calls H2 Hk Hv Hc) as (o2 & o2' & E2 & R2).
  exists o1, o1', o2, o2', (cexpected key iv 0 calls). auto.
Qed.
Print Assumptions C27_backends_agree.
(** What those answers are: consecutive pieces of one key stream, for every order and mixture of calls. *)
Theorem C27_history : forall cx B key iv calls,
  backend_ok cx B -> bytes key -> bytes iv -> Forall ccall_ok calls ->
  exists o o', capie_new cx key iv = Some o /\ cipher_run B cx o calls = Some (o', cexpected key iv 0 calls).
Proof. exact cipher_history. Qed.
Print Assumptions C27_history.

(** C27 does not extend to an object that changes backend in the middle of a block: a cipher whose first byte is
    encrypted at compile time (portable backend, 64-byte buffer) and which goes on at run time with a backend of 4 or 8
    blocks takes the never generated rest of its buffer for key stream and leaves text unencrypted. *)
Theorem C27_compile_time_then_run_time_refuted : forall B, bk_ratio B = 4%nat \/ bk_ratio B = 8%nat ->
  exists key iv o o1 c1 o2 c2, bytes key /\ bytes iv /\
    capie_new ct key iv = Some o /\
    capie_crypt_new Encrypt bk_sw ct o [7] = Some (o1, c1) /\
    capie_crypt_new Encrypt B rt o1 (repeat 7 100) = Some (o2, c2) /\
    c1 ++ c2 <> chacha20 key (iv_counter iv) (iv_nonce iv) (repeat 7 101) /\
    skipn 63 c2 = repeat 7 37.
Proof.
  intros [r t g] H. exists zeros32, ones16. cbn in H.
  destruct H; subst r; do 5 eexists;
  (split; [repeat constructor; unfold is_byte; lia|]; split; [repeat constructor; unfold is_byte; lia|];
   split; [vm_compute; reflexivity|]; split; [vm_compute; reflexivity|]; split; [vm_compute; reflexivity|];
   split; [vm_compute; discriminate|vm_compute; reflexivity]).
Qed.
Print Assumptions C27_compile_time_then_run_time_refuted.

(** *** C28: the pointer overloads with destination equal to source, or apart from it. *)
Theorem C28_in_place : forall cx B dir key iv before m src size dst,
  backend_ok cx B -> bytes key -> bytes iv -> Forall ccall_ok before ->
  bytes m -> (src + size <= length m)%nat -> (dst + size <= length m)%nat -> apart dst src size ->
  exists o o1 outs o2 o3 r,
    capie_new cx key iv = Some o /\ cipher_run B cx o before = Some (o1, outs) /\
    capie_crypt dir B cx o1 m src size src = Some (o2, put m src r, size) /\
    capie_crypt dir B cx o1 m src size dst = Some (o3, put m dst r, size) /\ length r = size.
Proof.
  intros cx B dir key iv before m src size dst BO Hk Hv Hb Hm Hs Hd Ha.
  destruct (initialize_spec cx B cc_new key iv cc_new_wf Hk Hv) as (o & E & I).
  destruct (cipher_run_spec cx B BO before key iv 0 o Hk Hv Hb I) as (o1 & R & k & v & pos & Hk1 & Hv1 & I1).
  destruct (api_state_ok k v Hk1 Hv1) as [L W].
  destruct (crypt_spec cx B BO _ L W dir o1 pos m src src size I1 Hm Hs Hs (or_introl eq_refl)) as (o2 & E2 & _).
  destruct (crypt_spec cx B BO _ L W dir o1 pos m dst src size I1 Hm Hd Hs Ha) as (o3 & E3 & _).
  exists o, o1, (cexpected key iv 0 before), o2, o3, (xor_with (st_byte (api_state k v)) pos (slice m src size)).
  repeat (split; [eassumption|]). rewrite xor_with_length. apply Proof_Range.slice_length. exact Hs.
Qed.
Print Assumptions C28_in_place.
Example C28_case : bytes [1; 2; 3; 4; 5; 6] /\ apart 3 0 3 /\ apart 2 2 3 /\
  put [1; 2; 3; 4; 5; 6] 2 [7; 8] = [1; 2; 7; 8; 5; 6] /\ slice [1; 2; 3; 4; 5; 6] 2 3 = [3; 4; 5].
Proof. unfold apart. split; [repeat constructor; unfold is_byte; lia|]. split; [lia|]. split; [lia|]. split; reflexivity. Qed.

(** *** C19, C20 (cipher). *)
Theorem C19_cipher : forall cx B key iv before key' iv' later,
  backend_ok cx B -> bytes key -> bytes iv -> Forall ccall_ok before ->
  bytes key' -> bytes iv' -> Forall ccall_ok later ->
  exists o1 o2 outs1 o3 o4 o5 o6 outs,
    capie_new cx key iv = Some o1 /\ cipher_run B cx o1 before = Some (o2, outs1) /\
    capie_initialize cx o2 key' iv' = Some o3 /\ cipher_run B cx o3 later = Some (o4, outs) /\
    capie_new cx key' iv' = Some o5 /\ cipher_run B cx o5 later = Some (o6, outs).
Proof. exact cipher_reinit. Qed.
Print Assumptions C19_cipher.
Theorem C20_cipher : forall cx B key iv calls,
  backend_ok cx B -> bytes key -> bytes iv -> Forall ccall_ok calls ->
  exists o r, capie_new cx key iv = Some o /\ cipher_run B cx o calls = Some r.
Proof.
  intros cx B key iv calls BO Hk Hv Hc. destruct (cipher_history cx B key iv calls BO Hk Hv Hc) as (o & o' & E & R).
  eexists. eexists. split; [exact E|exact R].
Qed.
Print Assumptions C20_cipher.
Example C19_C20_C27_cipher_case : Forall ccall_ok
  [CCrypt Encrypt (repeat 1 300) 10 200 10; CCryptC Decrypt (repeat 1 70) (Dynamic [9]);
   CInit [1] []; CCryptC Encrypt [1] (Static [2; 3]); CCryptSame Decrypt (Static [1; 2; 3])].
Proof.
  assert (R : forall n, bytes (repeat 1 n)).
  { intros n. apply Forall_forall. intros x Hx. apply repeat_spec in Hx. subst. unfold is_byte. lia. }
  assert (R' : bytes [1; 2; 3]) by (repeat constructor; unfold is_byte; lia).
  repeat (apply Forall_cons || apply Forall_nil); cbn [ccall_ok cdata]; unfold apart; rewrite ?repeat_length;
    repeat split; try apply R; try apply R'; try lia; repeat constructor; unfold is_byte; lia.
Qed.

(** *** C45 (cipher): the documented room is needed: a fixed-size output container smaller than the text is overrun (with enough room, and for
    resizable containers: C25_chacha20_free and C27_history). *)
Theorem C45_cipher_room_needed : exists key iv text l,
  bytes key /\ bytes iv /\ bytes text /\ bytes l /\ (length l < length text)%nat /\
  cipher_free_c Encrypt bk_sw rt key iv text (Static l) = None.
Proof.
  exists zeros32, ones16, [1; 2], [3].
  split; [repeat constructor; unfold is_byte; lia|]. split; [repeat constructor; unfold is_byte; lia|].
  split; [repeat constructor; unfold is_byte; lia|]. split; [repeat constructor; unfold is_byte; lia|].
  split; [cbn; lia|]. vm_compute. reflexivity.
Qed.
Print Assumptions C45_cipher_room_needed.

(** *** C47: no key-stream block is used twice in the first 2^32 blocks ... *)
Theorem C47_no_reuse_partial : forall cx B dir key iv text,
  backend_ok cx B -> bytes key -> bytes iv -> bytes text -> N.of_nat (length text) <= 2 ^ 38 ->
  exists out ctr, cipher_free_new dir B cx key iv text = Some out /\
    (forall i, (i < length text)%nat ->
       nth i out 0 = N.lxor (nth i text 0) (nth (i mod 64) (chacha20_block (pad_to 32 key) (ctr (i / 64)%nat) (iv_nonce iv)) 0)) /\
    (forall i j, (i < length text)%nat -> (j < length text)%nat -> (i / 64 <> j / 64)%nat ->
       ctr (i / 64)%nat <> ctr (j / 64)%nat).
Proof.
  intros cx B dir key iv text BO Hk Hv Ht Hl.
  destruct (cipher_free_spec cx B dir key iv text BO Hk Hv Ht) as [E _].
  exists (chacha20 (pad_to 32 key) (iv_counter iv) (iv_nonce iv) text), (fun k => (iv_counter iv + N.of_nat k) mod 2 ^ 32).
  split; [exact E|]. split.
  - intros i Hi. rewrite nth_chacha20 by exact Hi. reflexivity.
  - intros i j Hi Hj Hd He. apply Hd. apply (block_ctr_inj (iv_counter iv)); [| |exact He].
    + assert (B64 : (64 * (i / 64) <= i)%nat) by (apply Nat.mul_div_le; discriminate).
      change (2 ^ 32) with 4294967296. change (2 ^ 38) with 274877906944 in Hl. lia.
    + assert (B64 : (64 * (j / 64) <= j)%nat) by (apply Nat.mul_div_le; discriminate).
      change (2 ^ 32) with 4294967296. change (2 ^ 38) with 274877906944 in Hl. lia.
Qed.
Print Assumptions C47_no_reuse_partial.
(** ... but the counter wraps silently: every longer text reuses the key stream. *)
Theorem C47_wrap_refuted : forall cx B dir key iv text i,
  backend_ok cx B -> bytes key -> bytes iv -> bytes text -> (i + N.to_nat (2 ^ 38) < length text)%nat ->
  exists out, cipher_free_new dir B cx key iv text = Some out /\
    let j := (i + N.to_nat (2 ^ 38))%nat in
    N.lxor (nth i out 0) (nth i text 0) = N.lxor (nth j out 0) (nth j text 0).
Proof.
  intros cx B dir key iv text i BO Hk Hv Ht Hi.
  destruct (cipher_free_spec cx B dir key iv text BO Hk Hv Ht) as [E _].
  eexists. split; [exact E|]. cbv zeta. rewrite !nth_chacha20 by lia. rewrite byte_period.
  rewrite !(N.lxor_comm (N.lxor _ _)), <- !N.lxor_assoc, !N.lxor_nilpotent. reflexivity.
Qed.
Print Assumptions C47_wrap_refuted.
Example C47_case : (7 + N.to_nat (2 ^ 38) < length (repeat 0 (8 + N.to_nat (2 ^ 38))))%nat /\ bytes (repeat 0 (8 + N.to_nat (2 ^ 38))).
Proof. split; [rewrite repeat_length; lia|apply bytes_repeat0]. Qed.
