(** C66: the codecs on a platform with 32-bit [size_t] and [uintptr_t].  [base_16_w 32] and [base_64_w 32] are the codecs of such a platform. *)
From Verif Require Import Base BaseLemmas Spec_Codec Model_Container Model_Codec Model_Codec32
  Proof_Codec16 Proof_Codec64 Proof_CodecApi Proof_Codec32.
Local Open Scope N_scope.

(** *** Below 1 GiB everything is as on a 64-bit platform. *)
Theorem C66_base16_encode : forall sg from old, bytes from -> N.of_nat (length from) < 2 ^ 31 ->
  apie_encode (base_16_w 32 sg) from (Dynamic old) = Some (Dynamic (spec_hex from), length (spec_hex from)).
Proof. intros sg from old H L. rewrite encode16_32 by assumption. apply apie_encode16; [exact H|]. eapply N.lt_trans; [exact L|reflexivity]. Qed.
Print Assumptions C66_base16_encode.
Theorem C66_base64_encode_partial : forall sg from old, bytes from -> N.of_nat (length from) < 2 ^ 30 ->
  apie_encode (base_64_w 32 sg) from (Dynamic old) = Some (Dynamic (spec_b64 from), length (spec_b64 from)).
Proof. intros sg from old H L. rewrite encode64_32 by assumption. apply apie_encode64; [exact H|]. eapply N.lt_trans; [exact L|reflexivity]. Qed.
Print Assumptions C66_base64_encode_partial.
(** Pointers: no sizes are computed, so there is no bound. *)
Theorem C66_pointers : forall sg from to t e, bytes from -> bytes t ->
  co_encode (base_16_w 32 sg) from to = co_encode (base_16 sg) from to /\
  co_encode (base_64_w 32 sg) from to = co_encode (base_64 sg) from to /\
  co_decode (base_16_w 32 sg) t to e = co_decode (base_16 sg) t to e /\
  co_decode (base_64_w 32 sg) t to e = co_decode (base_64 sg) t to e.
Proof.
  intros sg from to t e Hf Ht. split; [exact (b16_encode_32 from to Hf)|]. split; [exact (b64_encode_32 from to Hf)|].
  split; [exact (b16_decode_32 sg t to e Ht)|exact (b64_decode_32 sg t to e Ht)].
Qed.
Print Assumptions C66_pointers.
Theorem C66_base16_decode : forall sg t c e, bytes t ->
  apie_decode (base_16_w 32 sg) t c e = apie_decode (base_16 sg) t c e /\
  apie_decode_throw (base_16_w 32 sg) t c = apie_decode_throw (base_16 sg) t c.
Proof. exact decode16_32. Qed.
Print Assumptions C66_base16_decode.
Theorem C66_base64_decode_partial : forall sg t c e, bytes t -> (Z.of_nat (length t) * 3 < 2 ^ 32)%Z ->
  apie_decode (base_64_w 32 sg) t c e = apie_decode (base_64 sg) t c e /\
  apie_decode_throw (base_64_w 32 sg) t c = apie_decode_throw (base_64 sg) t c.
Proof. exact decode64_32. Qed.
Print Assumptions C66_base64_decode_partial.
Theorem C66_roundtrip_partial : forall sg l, bytes l -> N.of_nat (length l) < 2 ^ 30 ->
  apie_encode_new (base_64_w 32 sg) l = Some (spec_b64 l) /\ apie_decode_new (base_64_w 32 sg) (spec_b64 l) = Some (Returns l) /\
  apie_encode_new (base_16_w 32 sg) l = Some (spec_hex l) /\ apie_decode_new (base_16_w 32 sg) (spec_hex l) = Some (Returns l).
Proof.
  intros sg l H L. unfold apie_encode_new, apie_decode_new. assert (L31 : N.of_nat (length l) < 2 ^ 31) by (eapply N.lt_trans; [exact L|reflexivity]).
  rewrite C66_base64_encode_partial, C66_base16_encode by assumption.
  assert (L60 : N.of_nat (length l) < 2 ^ 60) by (eapply N.lt_trans; [exact L|reflexivity]).
  assert (A : bytes (spec_b64 l)) by apply ascii_bytes, spec_b64_ascii.
  assert (Z3 : (Z.of_nat (length (spec_b64 l)) * 3 < 2 ^ 32)%Z).
  { rewrite spec_b64_length. change (2 ^ 30) with 1073741824 in L. change (2 ^ 32)%Z with 4294967296%Z. lia. }
  rewrite (proj2 (decode64_32 sg (spec_b64 l) (Dynamic []) err_none A Z3)).
  assert (F : Forall2 (fun c d => d = c \/ d = upper c) (spec_hex l) (spec_hex l)).
  { generalize (spec_hex l). intros u. induction u; constructor; [left; reflexivity|assumption]. }
  assert (B : bytes (spec_hex l)).
  { apply ascii_bytes. unfold spec_hex. apply Forall_flat_map. apply Forall_forall. intros b _.
    constructor; [apply digit_ascii; reflexivity|]. constructor; [apply digit_ascii; reflexivity|]. constructor. }
  rewrite (proj2 (decode16_32 sg (spec_hex l) (Dynamic []) err_none B)).
  destruct (base64_roundtrip sg l H L60) as (_ & _ & D64). unfold apie_decode_new in D64.
  assert (L63 : N.of_nat (length l) < 2 ^ 63) by (eapply N.lt_trans; [exact L|reflexivity]).
  destruct (base16_roundtrip sg l (spec_hex l) H L63 F) as (_ & D16). unfold apie_decode_new in D16.
  split; [reflexivity|]. split; [exact D64|]. split; [reflexivity|exact D16].
Qed.
Print Assumptions C66_roundtrip_partial.

(** *** Refuted: from 1 GiB on the sizes wrap and memory beyond the destination is written. *)
Theorem C66_base64_encode_refuted : forall sg from old, bytes from -> 2 ^ 30 <= N.of_nat (length from) < 2 ^ 32 ->
  apie_encode (base_64_w 32 sg) from (Dynamic old) = None.
Proof. exact encode64_32_overrun. Qed.
Print Assumptions C66_base64_encode_refuted.
Theorem C66_base64_encode_size_refuted : forall n, 2 ^ 30 <= n < 2 ^ 32 -> b64_encode_size_w 32 n < 4 * ((n + 2) / 3).
Proof. exact b64_size_32_short. Qed.
Print Assumptions C66_base64_encode_size_refuted.
(** (An object of 2 GiB or more is possible on few 32-bit platforms.) *)
Theorem C66_base16_encode_refuted : forall sg from old, bytes from -> 2 ^ 31 <= N.of_nat (length from) < 2 ^ 32 ->
  apie_encode (base_16_w 32 sg) from (Dynamic old) = None.
Proof. exact encode16_32_overrun. Qed.
Print Assumptions C66_base16_encode_refuted.
Theorem C66_base64_decode_refuted : forall sg t x old e,
  spec_unb64 t = Some x -> (2 ^ 32 <= Z.of_nat (length t) * 3)%Z -> (Z.of_nat (length t) < 2 ^ 31)%Z ->
  apie_decode (base_64_w 32 sg) t (Dynamic old) e = None /\ apie_decode_throw (base_64_w 32 sg) t (Dynamic old) = None.
Proof. exact decode64_32_overrun. Qed.
Print Assumptions C66_base64_decode_refuted.

Example C66_case : apie_encode_new (base_64_w 32 true) [102; 111; 111; 98] = Some [90; 109; 57; 118; 89; 103; 61; 61] /\
  apie_decode_new (base_64_w 32 true) [90; 109; 57; 118; 89; 103; 61; 61] = Some (Returns [102; 111; 111; 98]) /\
  apie_encode_new (base_16_w 32 true) [222; 173] = Some [100; 101; 97; 100] /\
  apie_decode_new (base_16_w 32 true) [100; 101; 65; 68] = Some (Returns [222; 173]) /\
  b64_encode_size_w 32 (2 ^ 30) = 0 /\ b64_encode_size_w 32 (2 ^ 30 - 1) = 1431655764.
Proof. repeat split; vm_compute; reflexivity. Qed.
(** There are such arguments: 1 GiB of zeros; and the text that encodes 1 GiB (and two bytes) of zeros. *)
Example C66_refuted_case : exists from t x, bytes from /\ 2 ^ 30 <= N.of_nat (length from) < 2 ^ 32 /\
  spec_unb64 t = Some x /\ (2 ^ 32 <= Z.of_nat (length t) * 3)%Z /\ (Z.of_nat (length t) < 2 ^ 31)%Z.
Proof.
  set (n := N.to_nat (2 ^ 30 + 2)). assert (Hn : N.of_nat n = 2 ^ 30 + 2) by apply N2Nat.id. clearbody n.
  assert (B : bytes (repeat 0 n)) by (apply Forall_forall; intros y Hy; apply repeat_spec in Hy; subst; reflexivity).
  exists (repeat 0 n), (spec_b64 (repeat 0 n)), (repeat 0 n). rewrite spec_b64_length, repeat_length.
  change (2 ^ 30) with 1073741824 in *. change (2 ^ 32) with 4294967296. change (2 ^ 32)%Z with 4294967296%Z. change (2 ^ 31)%Z with 2147483648%Z.
  split; [exact B|]. split; [lia|]. split; [apply spec_unb64_b64; exact B|]. lia.
Qed.
