(** Proofs about the codecs with a 32-bit size_t. *)
From Verif Require Import Base BaseLemmas Spec_Codec Model_Container Model_Codec Model_Codec32
  Proof_Codec16 Proof_Codec64 Proof_CodecApi Proof_Alloc.
Local Open Scope N_scope.

Lemma land_small w x n : x < 2 ^ n -> n <= w -> N.land x (2 ^ w - 1) = x.
Proof.
  intros H L. rewrite N.sub_1_r, <- N.ones_equiv, N.land_ones. apply N.mod_small. eapply N.lt_le_trans; [exact H|]. apply N.pow_le_mono_r; lia.
Qed.
Lemma mask_w_small x b : x < 256 -> N.land x (mask_w 32 b) = N.land x (mask64 b).
Proof.
  intros H. destruct b; [|reflexivity]. unfold mask_w, mask64. change (Z.to_N 32) with 32.
  rewrite (land_small 32 x 8), (land_small 64 x 8); [reflexivity|exact H|lia|exact H|lia].
Qed.

Lemma b16_enc_32 a : a < 256 -> b16_enc_w 32 a = b16_enc a.
Proof.
  intros H. apply N.eqb_eq. revert a H. apply (byte_sweep (fun a => b16_enc_w 32 a =? b16_enc a)). vm_compute. reflexivity.
Qed.
Lemma b16_dec_32 sg a : a < 256 -> b16_dec_w 32 sg a = b16_dec sg a.
Proof.
  intros H. apply N.eqb_eq. revert a H. apply (byte_sweep (fun a => b16_dec_w 32 sg a =? b16_dec sg a)). destruct sg; vm_compute; reflexivity.
Qed.
Lemma b64_enc_32 a : a < 256 -> b64_enc_w 32 a = b64_enc a.
Proof.
  intros H. apply N.eqb_eq. revert a H. apply (byte_sweep (fun a => b64_enc_w 32 a =? b64_enc a)). vm_compute. reflexivity.
Qed.
Lemma b64_dec_32 sg a : a < 256 -> b64_dec_w 32 sg a = b64_dec sg a.
Proof.
  intros H. apply N.eqb_eq. revert a H. apply (byte_sweep (fun a => b64_dec_w 32 sg a =? b64_dec sg a)). destruct sg; vm_compute; reflexivity.
Qed.
Lemma rd_byte l i b : bytes l -> rd l i = Some b -> b < 256.
Proof. intros H E. apply nth_error_In in E. exact (proj1 (Forall_forall _ _) H _ E). Qed.

Lemma b16_encode_loop_32 from : bytes from -> forall to off, b16_encode_loop_w 32 from to off = b16_encode_loop from to off.
Proof.
  intros H. induction H as [|b from Hb H IH]; intros to off; [reflexivity|]. cbn [b16_encode_loop_w b16_encode_loop].
  change (b < 256) in Hb. rewrite (b16_enc_32 (N.shiftr b 4)), (b16_enc_32 (N.land b 15)).
  - destruct (wr to off _) as [t1|]; [cbn [bind]|reflexivity]. destruct (wr t1 _ _) as [t2|]; [cbn [bind]|reflexivity]. apply IH.
  - rewrite land15_mod. lia.
  - rewrite shiftr4_div. lia.
Qed.
Lemma b16_encode_32 from to : bytes from -> b16_encode_w 32 from to = b16_encode from to.
Proof. intros H. unfold b16_encode_w, b16_encode. rewrite b16_encode_loop_32 by exact H. reflexivity. Qed.

Lemma b16_decode_loop_32 sg from : bytes from -> forall n to i fp tb,
  b16_decode_loop_w 32 sg from to n i fp tb = b16_decode_loop sg from to n i fp tb.
Proof.
  intros H. induction n as [|n IH]; intros to i fp tb; [reflexivity|]. cbn [b16_decode_loop_w b16_decode_loop].
  destruct (rd from fp) as [c0|] eqn:E0; [cbn [bind]|reflexivity]. destruct (rd from (fp + 1)) as [c1|] eqn:E1; [cbn [bind]|reflexivity].
  rewrite (b16_dec_32 sg c0 (rd_byte _ _ _ H E0)), (b16_dec_32 sg c1 (rd_byte _ _ _ H E1)).
  destruct (char_eq_u8 sg c0 (b16_dec sg c0) || char_eq_u8 sg c1 (b16_dec sg c1)); [reflexivity|].
  destruct (wr to _ _) as [t1|]; [cbn [bind]|reflexivity]. apply IH.
Qed.
Lemma b16_decode_32 sg from to e : bytes from -> b16_decode_w 32 sg from to e = b16_decode sg from to e.
Proof.
  intros H. unfold b16_decode_w, b16_decode. destruct (Nat.odd (length from)).
  - destruct (rd from 0) as [c0|] eqn:E0; [cbn [bind]|reflexivity]. rewrite (b16_dec_32 sg c0 (rd_byte _ _ _ H E0)).
    destruct (char_eq_u8 sg c0 (b16_dec sg c0)); [reflexivity|]. destruct (wr to 0 _) as [t1|]; [cbn [bind]|reflexivity].
    rewrite b16_decode_loop_32 by exact H. reflexivity.
  - rewrite b16_decode_loop_32 by exact H. reflexivity.
Qed.

Lemma b64_encode_loop_32 from : bytes from -> forall n to fp tp, b64_encode_loop_w 32 from to n fp tp = b64_encode_loop from to n fp tp.
Proof.
  intros H. induction n as [|n IH]; intros to fp tp; [reflexivity|]. cbn [b64_encode_loop_w b64_encode_loop].
  destruct (rd from fp) as [b0|] eqn:E0; [cbn [bind]|reflexivity]. destruct (rd from (fp + 1)) as [b1|] eqn:E1; [cbn [bind]|reflexivity].
  destruct (rd from (fp + 2)) as [b2|] eqn:E2; [cbn [bind]|reflexivity].
  apply (rd_byte _ _ _ H) in E0. apply (rd_byte _ _ _ H) in E1. apply (rd_byte _ _ _ H) in E2.
  rewrite enc_c1, enc_c2, enc_c3, enc_c0 by assumption.
  rewrite !b64_enc_32 by lia.
  destruct (wr to _ _) as [t1|]; [cbn [bind]|reflexivity]. destruct (wr t1 _ _) as [t2|]; [cbn [bind]|reflexivity].
  destruct (wr t2 _ _) as [t3|]; [cbn [bind]|reflexivity]. destruct (wr t3 _ _) as [t4|]; [cbn [bind]|reflexivity]. apply IH.
Qed.
Lemma b64_enc_byte a : b64_enc a < 256.
Proof. unfold b64_enc, add8. apply N.mod_lt. discriminate. Qed.
Lemma shl_land15 b : N.shiftl (N.land b 15) 2 = b mod 16 * 4.
Proof. rewrite land15_mod, N.shiftl_mul_pow2. reflexivity. Qed.
Lemma b64_encode_32 from to : bytes from -> b64_encode_w 32 from to = b64_encode from to.
Proof.
  intros H. unfold b64_encode_w, b64_encode. rewrite b64_encode_loop_32 by exact H.
  destruct (b64_encode_loop from to _ 0 0) as [[[t1 fp] tp]|]; [cbn [bind]|reflexivity].
  destruct (length from mod 3 =? 0)%nat; [reflexivity|]. set (two := (length from mod 3 =? 2)%nat). clearbody two.
  destruct (rd from fp) as [b0|] eqn:E0; [cbn [bind]|reflexivity].
  destruct (rd from (fp + _)) as [b1|] eqn:E1; [cbn [bind]|reflexivity].
  apply (rd_byte _ _ _ H) in E0. apply (rd_byte _ _ _ H) in E1. rewrite (mask_w_small b1) by exact E1.
  assert (L : N.land b1 (mask64 two) mod 256 < 256) by (apply N.mod_lt; discriminate).
  set (c1 := N.land b1 (mask64 two) mod 256) in *. clearbody c1.
  rewrite enc_c1, enc_c0, shl_land15 by assumption. rewrite !b64_enc_32 by lia.
  rewrite (mask_w_small (b64_enc (c1 mod 16 * 4))) by apply b64_enc_byte. rewrite (mask_w_small 0x3d) by reflexivity. reflexivity.
Qed.

Lemma b64_decode_loop_32 sg from : bytes from -> forall n to fp tp,
  b64_decode_loop_w 32 sg from to n fp tp = b64_decode_loop sg from to n fp tp.
Proof.
  intros H. induction n as [|n IH]; intros to fp tp; [reflexivity|]. cbn [b64_decode_loop_w b64_decode_loop].
  destruct (rd from fp) as [c0|] eqn:E0; [cbn [bind]|reflexivity]. destruct (rd from (fp + 1)) as [c1|] eqn:E1; [cbn [bind]|reflexivity].
  destruct (rd from (fp + 2)) as [c2|] eqn:E2; [cbn [bind]|reflexivity]. destruct (rd from (fp + 3)) as [c3|] eqn:E3; [cbn [bind]|reflexivity].
  apply (rd_byte _ _ _ H) in E0. apply (rd_byte _ _ _ H) in E1. apply (rd_byte _ _ _ H) in E2. apply (rd_byte _ _ _ H) in E3.
  rewrite !b64_dec_32 by assumption.
  match goal with |- (if ?b then _ else _) = _ => destruct b; [reflexivity|] end.
  destruct (wr to _ _) as [t1|]; [cbn [bind]|reflexivity]. destruct (wr t1 _ _) as [t2|]; [cbn [bind]|reflexivity].
  destruct (wr t2 _ _) as [t3|]; [cbn [bind]|reflexivity]. apply IH.
Qed.
Lemma b64_decode_32 sg from to e : bytes from -> b64_decode_w 32 sg from to e = b64_decode sg from to e.
Proof.
  intros H. unfold b64_decode_w, b64_decode. rewrite b64_decode_loop_32 by exact H.
  destruct (negb (length from mod 4 =? 0)%nat); [reflexivity|].
  destruct (b64_decode_loop sg from to _ 0 0) as [[[[t1 fp] tp]|[t1 z]]|]; [cbn [bind]|reflexivity|reflexivity].
  destruct (0 <? length from / 4)%nat; [|reflexivity].
  destruct (rd from fp) as [c0|] eqn:E0; [cbn [bind]|reflexivity]. destruct (rd from (fp + 1)) as [c1|] eqn:E1; [cbn [bind]|reflexivity].
  destruct (rd from (fp + 2)) as [c2|] eqn:E2; [cbn [bind]|reflexivity]. destruct (rd from (fp + 3)) as [c3|] eqn:E3; [cbn [bind]|reflexivity].
  apply (rd_byte _ _ _ H) in E0. apply (rd_byte _ _ _ H) in E1. apply (rd_byte _ _ _ H) in E2. apply (rd_byte _ _ _ H) in E3.
  rewrite !b64_dec_32 by assumption. reflexivity.
Qed.

(** Sizes. *)
Lemma b16_size_32 n : n < 2 ^ 31 -> b16_encode_size_w 32 n = b16_encode_size n.
Proof.
  intros H. unfold b16_encode_size_w, b16_encode_size. change (2 ^ Z.to_N 32) with 4294967296. change (2 ^ 31) with 2147483648 in H.
  rewrite !N.mod_small; [reflexivity| |]; lia.
Qed.
Lemma land_clear2_32 x : x < 2 ^ 32 -> N.land x (2 ^ 32 - 4) = x / 4 * 4.
Proof.
  intros Hx. rewrite <- land_clear2 by (eapply N.lt_trans; [exact Hx|reflexivity]).
  assert (F : 2 ^ 32 - 4 = N.land (2 ^ 64 - 4) (N.ones 32)) by reflexivity. rewrite F, N.land_assoc, N.land_ones.
  rewrite N.mod_small; [reflexivity|]. rewrite land_clear2 by (eapply N.lt_trans; [exact Hx|reflexivity]).
  eapply N.le_lt_trans; [|exact Hx]. lia.
Qed.
Lemma b64_size_32_eq n : b64_encode_size_w 32 n = ((n * 4) mod 2 ^ 32 / 3 + 3) / 4 * 4.
Proof.
  unfold b64_encode_size_w. change (Z.to_N 32) with 32. assert (L : (n * 4) mod 2 ^ 32 < 2 ^ 32) by (apply N.mod_lt; discriminate).
  set (x := (n * 4) mod 2 ^ 32) in *. clearbody x. change (2 ^ 32) with 4294967296 in *.
  rewrite (N.mod_small (x / 3 + 3)) by lia. change 4294967296 with (2 ^ 32). apply land_clear2_32. change (2 ^ 32) with 4294967296. lia.
Qed.
Lemma b64_size_32 n : n < 2 ^ 30 -> b64_encode_size_w 32 n = b64_encode_size n.
Proof.
  intros H. rewrite b64_size_32_eq, b64_encode_size_correct by (eapply N.lt_trans; [exact H|reflexivity]).
  change (2 ^ 32) with 4294967296. change (2 ^ 30) with 1073741824 in H. rewrite N.mod_small by lia. lia.
Qed.
Lemma b64_size_32_short n : 2 ^ 30 <= n < 2 ^ 32 -> b64_encode_size_w 32 n < 4 * ((n + 2) / 3).
Proof.
  intros H. rewrite b64_size_32_eq. change (2 ^ 32) with 4294967296 in *. change (2 ^ 30) with 1073741824 in H.
  assert (L : (n * 4) mod 4294967296 < 4294967296) by (apply N.mod_lt; discriminate).
  assert (M : (n * 4) mod 4294967296 = n * 4 mod 4294967296) by reflexivity.
  destruct (N.eq_dec (n / 1073741824) 0) as [Z0|Z0]; [lia|].
  pose proof (N.div_mod (n * 4) 4294967296 ltac:(discriminate)) as D. set (x := (n * 4) mod 4294967296) in *. clearbody x.
  assert (Q : 1 <= n * 4 / 4294967296) by lia. set (q := n * 4 / 4294967296) in *. clearbody q. lia.
Qed.
Lemma b64_encode_size_ret from d d' s : b64_encode from d = Some (d', s) -> s = (4 * ((length from + 2) / 3))%nat.
Proof.
  intros H. unfold b64_encode in H. destruct (b64_encode_loop from d _ 0 0) as [[[to fp] tp]|]; [cbn [bind] in H|discriminate].
  destruct (Nat.eqb_spec (length from mod 3) 0) as [E|E].
  - assert (s = (length from / 3 * 4)%nat) by congruence. lia.
  - destruct (rd from fp) as [b0|]; [cbn [bind] in H|discriminate]. destruct (rd from (fp + _)) as [b1|]; [cbn [bind] in H|discriminate].
    destruct (wr to _ _) as [t1|]; [cbn [bind] in H|discriminate]. destruct (wr t1 _ _) as [t2|]; [cbn [bind] in H|discriminate].
    destruct (wr t2 _ _) as [t3|]; [cbn [bind] in H|discriminate]. destruct (wr t3 _ _) as [t4|]; [cbn [bind] in H|discriminate].
    assert (s = ((length from / 3 + 1) * 4)%nat) by congruence. lia.
Qed.

(** The interface. *)
Lemma encode16_32 sg from c : bytes from -> N.of_nat (length from) < 2 ^ 31 -> apie_encode (base_16_w 32 sg) from c = apie_encode (base_16 sg) from c.
Proof.
  intros H L. unfold apie_encode. cbn [base_16_w base_16 co_encode co_encode_size]. rewrite b16_size_32 by exact L.
  destruct (cresize c _) as [c1 n]. rewrite b16_encode_32 by exact H. reflexivity.
Qed.
Lemma encode64_32 sg from c : bytes from -> N.of_nat (length from) < 2 ^ 30 -> apie_encode (base_64_w 32 sg) from c = apie_encode (base_64 sg) from c.
Proof.
  intros H L. unfold apie_encode. cbn [base_64_w base_64 co_encode co_encode_size]. rewrite b64_size_32 by exact L.
  destruct (cresize c _) as [c1 n]. rewrite b64_encode_32 by exact H. reflexivity.
Qed.
Lemma decode16_32 sg t c e : bytes t -> apie_decode (base_16_w 32 sg) t c e = apie_decode (base_16 sg) t c e /\
  apie_decode_throw (base_16_w 32 sg) t c = apie_decode_throw (base_16 sg) t c.
Proof.
  intros H. unfold apie_decode, apie_decode_throw. cbn [base_16_w base_16 co_decode co_decode_size bind].
  destruct (cresize c _) as [c1 n]. rewrite !b16_decode_32 by exact H. split; reflexivity.
Qed.
Lemma decode_size_32 t : (Z.of_nat (length t) * 3 < 2 ^ 32)%Z -> b64_decode_size_w 32 t = b64_decode_size t.
Proof.
  intros H. assert (H64 : (Z.of_nat (length t) * 3 < 2 ^ 64)%Z) by (eapply Z.lt_trans; [exact H|reflexivity]).
  destruct (b64_decode_size_no_wrap t H64) as (z & E & R). unfold b64_decode_size. rewrite E. cbn [bind].
  rewrite (Z.mod_small z (2 ^ 64)) by (change (2 ^ 64)%Z with 18446744073709551616%Z; change (2 ^ 32)%Z with 4294967296%Z in H; lia).
  assert (F : b64_decode_size_w 32 t = (z <- b64_decode_size_z t ;; Some (Z.to_nat (z mod 2 ^ 32)%Z))).
  { unfold b64_decode_size_w, b64_decode_size_z. rewrite (Z.mod_small (Z.of_nat (length t) * 3)) by (split; [lia|exact H]). reflexivity. }
  rewrite F, E. cbn [bind]. rewrite Z.mod_small; [reflexivity|]. change (2 ^ 32)%Z with 4294967296%Z in *. lia.
Qed.
Lemma decode64_32 sg t c e : bytes t -> (Z.of_nat (length t) * 3 < 2 ^ 32)%Z ->
  apie_decode (base_64_w 32 sg) t c e = apie_decode (base_64 sg) t c e /\
  apie_decode_throw (base_64_w 32 sg) t c = apie_decode_throw (base_64 sg) t c.
Proof.
  intros H L. unfold apie_decode, apie_decode_throw. cbn [base_64_w base_64 co_decode co_decode_size]. rewrite decode_size_32 by exact L.
  destruct (b64_decode_size t) as [dsz|]; [cbn [bind]|split; reflexivity].
  destruct (cresize c dsz) as [c1 n]. rewrite !b64_decode_32 by exact H. split; reflexivity.
Qed.

(** Overruns. *)
Lemma encode64_32_overrun sg from old : bytes from -> 2 ^ 30 <= N.of_nat (length from) < 2 ^ 32 ->
  apie_encode (base_64_w 32 sg) from (Dynamic old) = None.
Proof.
  intros H L. unfold apie_encode. cbn [base_64_w co_encode co_encode_size cresize cdata]. rewrite b64_encode_32 by exact H.
  destruct (b64_encode from _) as [[d s]|] eqn:E; [exfalso|reflexivity].
  pose proof (b64_encode_size_ret _ _ _ _ E) as R. apply (proj1 (b64_fits sg)) in E. destruct E as [_ E]. rewrite resize_list_length in E.
  pose proof (b64_size_32_short _ L) as S1. set (z := b64_encode_size_w 32 _) in *. clearbody z. subst s. lia.
Qed.
Lemma encode16_32_overrun sg from old : bytes from -> 2 ^ 31 <= N.of_nat (length from) < 2 ^ 32 ->
  apie_encode (base_16_w 32 sg) from (Dynamic old) = None.
Proof.
  intros H L. unfold apie_encode. cbn [base_16_w co_encode co_encode_size cresize cdata]. rewrite b16_encode_32 by exact H.
  destruct (b16_encode from _) as [[d s]|] eqn:E; [exfalso|reflexivity].
  assert (R : s = (length from * 2)%nat).
  { unfold b16_encode in E. destruct (b16_encode_loop from _ 0); [cbn [bind] in E; congruence|discriminate]. }
  apply (proj1 (b16_fits sg)) in E. destruct E as [_ E]. rewrite resize_list_length in E.
  unfold b16_encode_size_w in E. change (2 ^ Z.to_N 32) with 4294967296 in E. change (2 ^ 31) with 2147483648 in L. change (2 ^ 32) with 4294967296 in L.
  assert (N.of_nat (length from) * 2 mod 4294967296 < N.of_nat (length from) * 2) by lia.
  set (z := N.of_nat (length from) * 2 mod 4294967296) in *. clearbody z. subst s. lia.
Qed.
Lemma decode_size_32_short t x : spec_unb64 t = Some x -> (2 ^ 32 <= Z.of_nat (length t) * 3)%Z -> (Z.of_nat (length t) < 2 ^ 31)%Z ->
  exists n, b64_decode_size_w 32 t = Some n /\ (n < length x)%nat.
Proof.
  intros H L U. pose proof (spec_unb64_ascii _ _ H) as A. pose proof (spec_unb64_mod4 _ _ H) as M.
  assert (H64 : (Z.of_nat (length t) * 3 < 2 ^ 64)%Z).
  { change (2 ^ 64)%Z with 18446744073709551616%Z. change (2 ^ 31)%Z with 2147483648%Z in U. lia. }
  pose proof (spec_unb64_size true t x H (or_intror A)) as SZ.
  destruct (b64_decode_size_eq t H64) as [SE PE]. destruct (b64_decode_size_no_wrap t H64) as (z & E & R).
  assert (Zx : z = Z.of_nat (length x)).
  { unfold b64_decode_size in SE. rewrite E in SE. cbn [bind] in SE. rewrite Z.mod_small in SE.
    - assert (Z.to_nat z = (length t * 3 / 4 - padding t)%nat) by congruence. lia.
    - change (2 ^ 64)%Z with 18446744073709551616%Z in *. lia. }
  assert (F : b64_decode_size_w 32 t = Some (Z.to_nat ((z - 2 ^ 30) mod 2 ^ 32)%Z)).
  { unfold b64_decode_size_w. unfold b64_decode_size_z in E.
    assert (Q : ((Z.of_nat (length t) * 3) mod 2 ^ 32 / 4 = Z.of_nat (length t) * 3 / 4 - 2 ^ 30)%Z).
    { change (2 ^ 32)%Z with 4294967296%Z in *. change (2 ^ 31)%Z with 2147483648%Z in U. change (2 ^ 30)%Z with 1073741824%Z. lia. }
    rewrite Q. set (sz := (Z.of_nat (length t) * 3 / 4)%Z) in *. clearbody sz.
    destruct (1 <? length t)%nat; [|cbn [bind] in *; assert (z = sz) by congruence; subst; reflexivity].
    destruct (rd t (length t - 1)) as [c|]; [cbn [bind] in *|discriminate].
    destruct (c =? 61); [|cbn [bind] in *; assert (z = sz) by congruence; subst; reflexivity].
    destruct (2 <? length t)%nat; [|cbn [bind] in *; assert (z = (sz - 1)%Z) by congruence; subst z; cbn [bind]; apply f_equal, f_equal; apply (f_equal (fun q => (q mod _)%Z)); lia].
    destruct (rd t (length t - 2)) as [d|]; [cbn [bind] in *|discriminate].
    destruct (d =? 61); [assert (z = (sz - 1 - 1)%Z) by congruence|assert (z = (sz - 1)%Z) by congruence]; subst z; cbn [bind]; apply f_equal, f_equal; apply (f_equal (fun q => (q mod _)%Z)); lia. }
  eexists. split; [exact F|].
  assert (PB : (padding t <= 2)%nat).
  { clear. unfold padding. destruct (rev t) as [|a [|b [|c r]]]; try lia; repeat destruct (_ =? 61); lia. }
  assert (B : (2 ^ 30 <= z)%Z).
  { change (2 ^ 30)%Z with 1073741824%Z. change (2 ^ 32)%Z with 4294967296%Z in *.
    assert (3 <= Z.of_nat (length t) * 3 / 4 - 1073741824 \/ Z.of_nat (length t) * 3 / 4 - 1073741824 = 0 \/
            Z.of_nat (length t) * 3 / 4 - 1073741824 = 1 \/ Z.of_nat (length t) * 3 / 4 - 1073741824 = 2)%Z by lia. lia. }
  change (2 ^ 30)%Z with 1073741824%Z in *. change (2 ^ 32)%Z with 4294967296%Z in *. change (2 ^ 31)%Z with 2147483648%Z in *.
  rewrite Z.mod_small by lia. lia.
Qed.
Lemma decode64_32_overrun sg t x old e : spec_unb64 t = Some x -> (2 ^ 32 <= Z.of_nat (length t) * 3)%Z -> (Z.of_nat (length t) < 2 ^ 31)%Z ->
  apie_decode (base_64_w 32 sg) t (Dynamic old) e = None /\ apie_decode_throw (base_64_w 32 sg) t (Dynamic old) = None.
Proof.
  intros H L U. pose proof (spec_unb64_ascii _ _ H) as A. destruct (decode_size_32_short t x H L U) as (n & E & S1).
  assert (H64 : (Z.of_nat (length t) * 3 < 2 ^ 64)%Z).
  { change (2 ^ 64)%Z with 18446744073709551616%Z. change (2 ^ 31)%Z with 2147483648%Z in U. lia. }
  destruct (b64_decode_size_eq t H64) as [SE PE]. pose proof (spec_unb64_size true t x H (or_intror A)) as SZ. rewrite <- SZ in SE.
  assert (D : forall e d, length d = n -> b64_decode sg t d e = None).
  { intros e0 d Hd. destruct (b64_decode sg t d e0) as [[[d' s] e']|] eqn:G; [exfalso|reflexivity].
    pose proof (b64_decode_len _ _ _ _ _ _ _ G) as [_ Ls].
    pose proof (b64_decode_frame _ _ (repeat 0 (length x - n)) _ _ _ _ _ G) as Fr.
    pose proof (b64_decode_tight sg t (d ++ repeat 0 (length x - n)) e0 (length x) (ascii_bytes _ A) (or_intror A) H64 SE) as T.
    rewrite H in T. destruct T as [T _]; [rewrite app_length, repeat_length, Hd; lia|]. rewrite Fr in T. assert (s = length x) by congruence. lia. }
  unfold apie_decode, apie_decode_throw. cbn [base_64_w co_decode co_decode_size]. rewrite E. cbn [bind cresize cdata].
  rewrite !b64_decode_32 by (apply ascii_bytes; exact A). rewrite !D by apply resize_list_length. split; reflexivity.
Qed.
