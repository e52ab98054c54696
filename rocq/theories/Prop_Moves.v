(** Property C68: moving text to lower addresses while it is encrypted or decrypted.
    Specification: [Spec_Moves]; [cexpected] (Spec_Cipher) is what the calls of a history must produce, [aead_text] and
    [aead_tag_on (cx_big cx)] (Spec_Aead) are RFC 8439. The source is [src - dst] bytes after the destination and may overlap it. *)
From Verif Require Import Base Spec_Bytes Spec_Range Spec_ChaCha Spec_Cipher Spec_Hash Spec_Aead Model_Memory Model_Cipher Model_Aead Model_Container Model_X86
  Spec_ChaChaAsm Model_ChaChaAsm Proof_CodecApi Proof_ChaCha Proof_ChaChaAsm3 Proof_Moves2 Proof_Moves3 Proof_Moves4 Spec_Moves Prop_Cipher.
Local Open Scope N_scope.

(** *** The portable code: every shift, in any history of calls. *)
Theorem C68_portable : forall cx key iv calls, bytes key -> bytes iv -> Forall (move_ok any_shift) calls ->
  exists o o', capie_new cx key iv = Some o /\ cipher_run bk_sw cx o calls = Some (o', cexpected key iv 0 calls).
Proof. intros cx key iv calls. exact (moves cx bk_sw (bk_sw_ok cx) any_shift (fun d s n H _ => sw_pair cx d s n H) key iv calls). Qed.
Print Assumptions C68_portable.
(** *** The SSSE3 and AVX2 routines: only these shifts. *)
Theorem C68_ssse_3_partial : forall cx regs temp base key iv calls, junk_ok regs temp base ->
  bytes key -> bytes iv -> Forall (move_ok ssse_shift) calls ->
  exists o o', capie_new cx key iv = Some o /\ cipher_run (bk_ssse_3 regs temp base) cx o calls = Some (o', cexpected key iv 0 calls).
Proof.
  intros cx regs temp base key iv calls J.
  exact (moves cx _ (ssse_3_backend cx regs temp base J) ssse_shift (fun d s n => ssse_pair cx regs temp base d s n J) key iv calls).
Qed.
Print Assumptions C68_ssse_3_partial.
Theorem C68_avx_2_partial : forall cx regs temp base key iv calls, junk_ok regs temp base ->
  bytes key -> bytes iv -> Forall (move_ok avx_shift) calls ->
  exists o o', capie_new cx key iv = Some o /\ cipher_run (bk_avx_2 regs temp base) cx o calls = Some (o', cexpected key iv 0 calls).
Proof.
  intros cx regs temp base key iv calls J.
  exact (moves cx _ (avx_2_backend cx regs temp base J) avx_shift (fun d s n => avx_pair cx regs temp base d s n J) key iv calls).
Qed.
Print Assumptions C68_avx_2_partial.

(** *** With every other shift, after any history: some byte [j] of the first two groups comes out as the encryption of
    byte [j + e] of the result instead of the encryption of byte [j] of the text, for every text. *)
Theorem C68_ssse_3_refuted : forall cx regs temp base key iv before e, junk_ok regs temp base ->
  bytes key -> bytes iv -> Forall ccall_ok before -> ~ ssse_shift e ->
  match stands key iv 0 before with (key', iv', pos) =>
    exists j, (j + e < 511)%nat /\
    forall dir m dst n, bytes m -> (dst + e + n <= length m)%nat -> (511 <= n)%nat ->
    exists o o1 outs o2 r, capie_new cx key iv = Some o /\ cipher_run (bk_ssse_3 regs temp base) cx o before = Some (o1, outs) /\
      capie_crypt dir (bk_ssse_3 regs temp base) cx o1 m (dst + e) n dst = Some (o2, put m dst r, n) /\ length r = n /\
      nth j r 0 = N.lxor (N.lxor (nth (dst + e + j + e) m 0) (api_byte key' iv' (pos + j + e))) (api_byte key' iv' (pos + j))
  end.
Proof. intros cx regs temp base key iv before e J. exact (hit_after cx _ (ssse_3_backend cx regs temp base J) ssse_turn (fun n st m d e => ssse_st regs temp base cx n st m d e J) ssse_shift ssse_bad key iv before e). Qed.
Print Assumptions C68_ssse_3_refuted.
Theorem C68_avx_2_refuted : forall cx regs temp base key iv before e, junk_ok regs temp base ->
  bytes key -> bytes iv -> Forall ccall_ok before -> ~ avx_shift e ->
  match stands key iv 0 before with (key', iv', pos) =>
    exists j, (j + e < 1023)%nat /\
    forall dir m dst n, bytes m -> (dst + e + n <= length m)%nat -> (1023 <= n)%nat ->
    exists o o1 outs o2 r, capie_new cx key iv = Some o /\ cipher_run (bk_avx_2 regs temp base) cx o before = Some (o1, outs) /\
      capie_crypt dir (bk_avx_2 regs temp base) cx o1 m (dst + e) n dst = Some (o2, put m dst r, n) /\ length r = n /\
      nth j r 0 = N.lxor (N.lxor (nth (dst + e + j + e) m 0) (api_byte key' iv' (pos + j + e))) (api_byte key' iv' (pos + j))
  end.
Proof. intros cx regs temp base key iv before e J. exact (hit_after cx _ (avx_2_backend cx regs temp base J) avx_turn (fun n st m d e => avx_st regs temp base cx n st m d e J) avx_shift avx_bad key iv before e). Qed.
Print Assumptions C68_avx_2_refuted.

(** *** Exactly what the routines compute, for every shift and every number of groups. *)
Theorem C68_ssse_3_exact : forall regs temp base rounds st m n dst e,
  junk_ok regs temp base -> rounds <> 0 -> length st = 16%nat -> words 32 st -> bytes m -> (dst + e + 256 * n <= length m)%nat ->
  let ks := blocks_rounds (N.to_nat rounds) st (4 * n) in
  exists text, used_text 256 ssse_turn (fun j => nth j ks 0) e (slice m (dst + e) (256 * n)) text /\
    asm_ssse_transform regs temp base rounds n st m dst (dst + e) = Some (put m dst (xor_bytes text ks), (4 * n)%nat).
Proof. exact ssse_exact. Qed.
Print Assumptions C68_ssse_3_exact.
Theorem C68_avx_2_exact : forall regs temp base rounds st m n dst e,
  junk_ok regs temp base -> rounds <> 0 -> length st = 16%nat -> words 32 st -> bytes m -> (dst + e + 512 * n <= length m)%nat ->
  let ks := blocks_rounds (N.to_nat rounds) st (8 * n) in
  exists text, used_text 512 avx_turn (fun j => nth j ks 0) e (slice m (dst + e) (512 * n)) text /\
    asm_avx_transform regs temp base rounds n st m dst (dst + e) = Some (put m dst (xor_bytes text ks), (8 * n)%nat).
Proof. exact avx_exact. Qed.
Print Assumptions C68_avx_2_exact.

(** *** The same for the AEAD (little-endian hosts): right where the cipher is right ... *)
Definition aead_moves_right (B : backend) (shift : nat -> Prop) : Prop :=
  forall cx dsz key nonce aad m src n dst, (dsz <= 16)%nat ->
  bytes key -> length key = 32%nat -> bytes nonce -> length nonce = 12%nat -> chunk aad ->
  bytes m -> (src + n <= length m)%nat -> N.of_nat n < 2 ^ 64 -> (dst <= src)%nat -> shift (src - dst)%nat ->
  let t := slice m src n in
  let c := aead_text key nonce t in
  (forall mac, bytes mac -> (dsz <= length mac)%nat ->
     aead_free_encrypt B cx dsz key nonce aad m src n dst mac
     = Some (put m dst c, firstn dsz (aead_tag_on (cx_big cx) key nonce aad c) ++ skipn dsz mac, n, dsz)) /\
  (forall junk, bytes junk -> length junk = dsz ->
     aead_free_decrypt B cx dsz key nonce aad m src n junk (firstn dsz (aead_tag_on (cx_big cx) key nonce aad t)) dst = Some (put m dst c, Returns n)).
Theorem C68_aead_portable : aead_moves_right bk_sw any_shift.
Proof.
  intros cx dsz key nonce aad m src n dst Hd. exact (aead_moves cx bk_sw (bk_sw_ok cx) dsz Hd any_shift (fun d s n H _ => sw_pair cx d s n H) key nonce aad m src n dst).
Qed.
Print Assumptions C68_aead_portable.
Theorem C68_aead_ssse_3_partial : forall regs temp base, junk_ok regs temp base -> aead_moves_right (bk_ssse_3 regs temp base) ssse_shift.
Proof.
  intros regs temp base J cx dsz key nonce aad m src n dst Hd.
  exact (aead_moves cx _ (ssse_3_backend cx regs temp base J) dsz Hd ssse_shift (fun d s n => ssse_pair cx regs temp base d s n J) key nonce aad m src n dst).
Qed.
Print Assumptions C68_aead_ssse_3_partial.
Theorem C68_aead_avx_2_partial : forall regs temp base, junk_ok regs temp base -> aead_moves_right (bk_avx_2 regs temp base) avx_shift.
Proof.
  intros regs temp base J cx dsz key nonce aad m src n dst Hd.
  exact (aead_moves cx _ (avx_2_backend cx regs temp base J) dsz Hd avx_shift (fun d s n => avx_pair cx regs temp base d s n J) key nonce aad m src n dst).
Qed.
Print Assumptions C68_aead_avx_2_partial.
(** ... and with the other shifts sealing writes a wrong ciphertext under a tag that accepts it, and opening an
    authentic message reports success and writes a wrong plaintext. *)
Definition aead_moves_wrong (B : backend) (size : nat) (e : nat) : Prop :=
  forall cx dsz key nonce aad m dst n, (dsz <= 16)%nat ->
  bytes key -> length key = 32%nat -> bytes nonce -> length nonce = 12%nat -> chunk aad ->
  bytes m -> (dst + e + n <= length m)%nat -> N.of_nat n < 2 ^ 64 -> (2 * size <= n + 1)%nat ->
  let t := slice m (dst + e) n in
  let k := chacha20_byte key 1 nonce in
  let wrong (j : nat) (r : list N) := length r = n /\ (j + e < n)%nat /\ nth j r 0 = N.lxor (N.lxor (nth (j + e) t 0) (k (j + e)%nat)) (k j) in
  (forall mac, bytes mac -> (dsz <= length mac)%nat ->
     exists j c, wrong j c /\ aead_free_encrypt B cx dsz key nonce aad m (dst + e) n dst mac
     = Some (put m dst c, firstn dsz (aead_tag_on (cx_big cx) key nonce aad c) ++ skipn dsz mac, n, dsz)) /\
  (forall junk, bytes junk -> length junk = dsz ->
     exists j p, wrong j p /\ aead_free_decrypt B cx dsz key nonce aad m (dst + e) n junk (firstn dsz (aead_tag_on (cx_big cx) key nonce aad t)) dst = Some (put m dst p, Returns n)).
Theorem C68_aead_ssse_3_refuted : forall regs temp base e, junk_ok regs temp base -> ~ ssse_shift e -> aead_moves_wrong (bk_ssse_3 regs temp base) 256 e.
Proof.
  intros regs temp base e J He cx dsz key nonce aad m dst n Hd. destruct (ssse_bad e He) as (q & Q1 & Q2 & Q3).
  exact (aead_hit cx _ (ssse_3_backend cx regs temp base J) dsz Hd ssse_turn (fun n st m d e => ssse_st regs temp base cx n st m d e J) e q Q1 Q2 Q3 key nonce aad m dst n).
Qed.
Print Assumptions C68_aead_ssse_3_refuted.
Theorem C68_aead_avx_2_refuted : forall regs temp base e, junk_ok regs temp base -> ~ avx_shift e -> aead_moves_wrong (bk_avx_2 regs temp base) 512 e.
Proof.
  intros regs temp base e J He cx dsz key nonce aad m dst n Hd. destruct (avx_bad e He) as (q & Q1 & Q2 & Q3).
  exact (aead_hit cx _ (avx_2_backend cx regs temp base J) dsz Hd avx_turn (fun n st m d e => avx_st regs temp base cx n st m d e J) e q Q1 Q2 Q3 key nonce aad m dst n).
Qed.
Print Assumptions C68_aead_avx_2_refuted.

(** *** A case: 300 bytes moved down by 16 while they are encrypted with the zero key. The portable code gives the
    ciphertext, the SSSE3 routine does not; a shift of 12 with the AVX2 routine is not among the right ones either. *)
Definition jv (l : nat) : list vec := repeat (repeat 0x1badd00d l) 16.
Definition call16 : cipher_call := CCrypt Encrypt (repeat 7 316) 16 300 0.
Example C68_case : move_ok any_shift call16 /\ junk_ok (jv 4) (firstn 6 (jv 4)) (jv 4) /\ ~ ssse_shift 16 /\ ~ avx_shift 12 /\
  (exists o o1 o2 r, capie_new rt zeros32 ones16 = Some o /\
     cipher_run bk_sw rt o [call16] = Some (o1, cexpected zeros32 ones16 0 [call16]) /\
     cipher_run (bk_ssse_3 (jv 4) (firstn 6 (jv 4)) (jv 4)) rt o [call16] = Some (o2, r) /\ r <> cexpected zeros32 ones16 0 [call16]).
Proof.
  split. { right. split; [apply Forall_forall; intros x Hx; apply repeat_spec in Hx; subst x; reflexivity|]. rewrite repeat_length. unfold any_shift. repeat split; lia. }
  split; [repeat split|]. split; [unfold ssse_shift; lia|]. split; [unfold avx_shift; lia|].
  do 4 eexists. split; [vm_compute; reflexivity|]. split; [vm_compute; reflexivity|]. split; [vm_compute; reflexivity|]. vm_compute. discriminate.
Qed.
