(** C47 again: texts given in pieces, and authenticated encryption, where block 0 of the key stream is the key of the tag. *)
From Verif Require Import Base BaseLemmas BytesLemmas Spec_Bytes Spec_ChaCha Spec_Poly Spec_Range Spec_Cipher Spec_Hash Spec_Aead
  Model_Memory Model_Container Model_Cipher Model_Aead Proof_ChaChaCore Proof_ChaCha Proof_ChaChaReuse Prop_Cipher Prop_Aead.
Local Open Scope N_scope.

Lemma block0_length key nonce : bytes key -> length key = 32%nat -> bytes nonce -> length nonce = 12%nat -> length (chacha20_block key 0 nonce) = 64%nat.
Proof.
  intros Hk Lk Hn Ln. apply core_block_length.
  - unfold chacha20_state. rewrite !app_length. cbn [length]. rewrite !le_words_length. reflexivity.
  - unfold chacha20_state. apply Forall_app. split; [repeat constructor|]. apply Forall_app. split; [apply le_words_words, Hk|].
    constructor; [reflexivity|apply le_words_words, Hn].
Qed.

(** Any partition of up to 2^38 bytes: each byte is encrypted with the block whose number [ctr] belongs to its 64-byte block, and these
    numbers are different for different blocks. *)
Theorem C47_pieces_partial : forall cx B dir key counter nonce texts,
  backend_ok cx B -> bytes key -> length key = 32%nat -> counter < 2 ^ 32 -> bytes nonce -> length nonce = 12%nat -> Forall bytes texts ->
  N.of_nat (length (concat texts)) <= 2 ^ 38 ->
  exists o o' outs ctr, capie_new cx key (le_enc 4 counter ++ nonce) = Some o /\ crypt_pieces dir B cx o texts = Some (o', outs) /\
    (forall i, (i < length (concat texts))%nat ->
       nth i (concat outs) 0 = N.lxor (nth i (concat texts) 0) (nth (i mod 64) (chacha20_block key (ctr (i / 64)%nat) nonce) 0)) /\
    (forall i j, (i < length (concat texts))%nat -> (j < length (concat texts))%nat -> (i / 64 <> j / 64)%nat ->
       ctr (i / 64)%nat <> ctr (j / 64)%nat).
Proof.
  intros cx B dir key counter nonce texts BO Hk Lk Hc Hn Ln Ht Hl.
  destruct (C25_chacha20 cx B dir key counter nonce texts BO Hk Lk Hc Hn Ln Ht) as (o & o' & outs & E1 & E2 & _ & E3).
  exists o, o', outs, (fun k => (counter + N.of_nat k) mod 2 ^ 32). split; [exact E1|]. split; [exact E2|]. rewrite E3. clear E1 E2 E3. split.
  - intros i Hi. rewrite nth_chacha20 by exact Hi. reflexivity.
  - intros i j Hi Hj Hd He. apply Hd. apply (block_ctr_inj counter); [| |exact He].
    + assert (B64 : (64 * (i / 64) <= i)%nat) by (apply Nat.mul_div_le; discriminate).
      change (2 ^ 32) with 4294967296. change (2 ^ 38) with 274877906944 in Hl. lia.
    + assert (B64 : (64 * (j / 64) <= j)%nat) by (apply Nat.mul_div_le; discriminate).
      change (2 ^ 32) with 4294967296. change (2 ^ 38) with 274877906944 in Hl. lia.
Qed.
Print Assumptions C47_pieces_partial.

(** Authenticated encryption of up to 2^38 - 64 bytes in any pieces: the same, and no block of text uses block 0, the key of the tag. *)
Theorem C47_aead_partial : forall cx B dsz dir key nonce ads ts,
  backend_ok cx B -> (dsz <= 16)%nat -> bytes key -> length key = 32%nat -> bytes nonce -> length nonce = 12%nat ->
  Forall chunk ads -> Forall chunk ts -> ts <> [] -> N.of_nat (length (concat ts)) <= 2 ^ 38 - 64 ->
  exists p p1 p2 rs ctr, aapie_new B cx key nonce = Some p /\ aad_pieces cx p ads = Some p1 /\ text_pieces dir B cx p1 ts = Some (p2, rs) /\
    (forall i, (i < length (concat ts))%nat ->
       nth i (concat rs) 0 = N.lxor (nth i (concat ts) 0) (nth (i mod 64) (chacha20_block key (ctr (i / 64)%nat) nonce) 0) /\
       ctr (i / 64)%nat <> 0) /\
    (forall i j, (i < length (concat ts))%nat -> (j < length (concat ts))%nat -> (i / 64 <> j / 64)%nat ->
       ctr (i / 64)%nat <> ctr (j / 64)%nat).
Proof.
  intros cx B dsz dir key nonce ads ts BO Hd Hk Lk Hn Ln Ha Ht Hne Hl.
  destruct (C29_aead_any_host cx B dsz dir key nonce ads ts BO Hd Hk Lk Hn Ln Ha Ht Hne) as (p & p1 & p2 & rs & E1 & E2 & E3 & E4 & _).
  exists p, p1, p2, rs, (fun k => (1 + N.of_nat k) mod 2 ^ 32). split; [exact E1|]. split; [exact E2|]. split; [exact E3|]. rewrite E4. clear E1 E2 E3 E4.
  change (2 ^ 38 - 64) with 274877906880 in Hl. unfold aead_text.
  assert (SM : forall i, (i < length (concat ts))%nat -> (1 + N.of_nat (i / 64)) mod 2 ^ 32 = 1 + N.of_nat (i / 64)).
  { intros i Hi. apply N.mod_small. assert (B64 : (64 * (i / 64) <= i)%nat) by (apply Nat.mul_div_le; discriminate).
    change (2 ^ 32) with 4294967296. lia. }
  split.
  - intros i Hi. split; [rewrite nth_chacha20 by exact Hi; reflexivity|]. rewrite (SM i Hi). lia.
  - intros i j Hi Hj Hd' He. rewrite (SM i Hi), (SM j Hj) in He. lia.
Qed.
Print Assumptions C47_aead_partial.
(** ... but a longer text is encrypted with block 0 too, without an error: its bytes from 2^38 - 64 on, with their ciphertext, give away the
    key of the tag. *)
Theorem C47_aead_refuted : forall cx B dsz dir key nonce ads ts i,
  backend_ok cx B -> (dsz <= 16)%nat -> bytes key -> length key = 32%nat -> bytes nonce -> length nonce = 12%nat ->
  Forall chunk ads -> Forall chunk ts -> let j := (N.to_nat (2 ^ 38 - 64) + i)%nat in (i < 32)%nat -> (j < length (concat ts))%nat ->
  exists p p1 p2 rs, aapie_new B cx key nonce = Some p /\ aad_pieces cx p ads = Some p1 /\ text_pieces dir B cx p1 ts = Some (p2, rs) /\
    N.lxor (nth j (concat rs) 0) (nth j (concat ts) 0) = nth i (aead_otk key nonce) 0.
Proof.
  intros cx B dsz dir key nonce ads ts i BO Hd Hk Lk Hn Ln Ha Ht j Hi Hj.
  assert (J0 : N.to_nat (2 ^ 38 - 64) = (N.to_nat (2 ^ 32 - 1) * 64)%nat) by (change 64%nat with (N.to_nat 64); rewrite <- N2Nat.inj_mul; reflexivity).
  assert (J1 : (j mod 64 = i)%nat).
  { unfold j. rewrite J0, Nat.add_comm. rewrite Nat.mod_add by discriminate. apply Nat.mod_small. lia. }
  assert (J2 : (j / 64 = N.to_nat (2 ^ 32 - 1))%nat).
  { unfold j. rewrite J0. rewrite Nat.div_add_l by discriminate. rewrite (Nat.div_small i) by lia. apply Nat.add_0_r. }
  clearbody j. clear J0.
  assert (Hne : ts <> []) by (intros ->; cbn in Hj; lia).
  destruct (C29_aead_any_host cx B dsz dir key nonce ads ts BO Hd Hk Lk Hn Ln Ha Ht Hne) as (p & p1 & p2 & rs & E1 & E2 & E3 & E4 & _).
  exists p, p1, p2, rs. split; [exact E1|]. split; [exact E2|]. split; [exact E3|]. rewrite E4. unfold aead_text. rewrite nth_chacha20 by exact Hj.
  rewrite (N.lxor_comm (nth j (concat ts) 0)), N.lxor_assoc, N.lxor_nilpotent, N.lxor_0_r. unfold aead_otk, chacha20_byte.
  rewrite J1, J2, N2Nat.id. change ((1 + (2 ^ 32 - 1)) mod 2 ^ 32) with 0.
  rewrite <- (firstn_skipn 32 (chacha20_block key 0 nonce)) at 1. apply app_nth1.
  rewrite firstn_length. pose proof (block0_length key nonce Hk Lk Hn Ln). lia.
Qed.
Print Assumptions C47_aead_refuted.
Example C47_aead_case : backend_ok rt bk_sw /\ bytes zeros32 /\ length zeros32 = 32%nat /\ bytes nonce12 /\ length nonce12 = 12%nat /\
  let ts := [repeat 0 (40 + N.to_nat (2 ^ 38 - 64)); [1; 2]] in Forall chunk ts /\ (N.to_nat (2 ^ 38 - 64) + 31 < length (concat ts))%nat.
Proof.
  split; [apply bk_sw_ok|]. split; [apply bytes_repeat0|]. split; [reflexivity|].
  split; [repeat constructor; unfold is_byte; lia|]. split; [reflexivity|]. cbn zeta. split.
  - constructor; [split; [apply bytes_repeat0|rewrite repeat_length; lia]|]. constructor; [|constructor]. split; [repeat constructor; unfold is_byte; lia|cbn; lia].
  - cbn [concat]. rewrite app_length, repeat_length. lia.
Qed.
