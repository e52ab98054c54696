(** Poly1305 objects meet the conditions of [Proof_Mac] with RFC 8439 as tag function. *)
From Verif Require Import Base BaseLemmas Spec_Bytes Spec_Sha Spec_Poly Model_Memory Model_Update Model_Container
  Model_Sha Model_Mac Model_Hmac Model_Poly Spec_Hash Spec_Mac
  BytesLemmas Proof_Memory Proof_Memory2 Proof_Memory3 Proof_Soak Proof_Mac Proof_Hmac Proof_PolyCore.
Local Open Scope N_scope.

(** *** Keys *)
Lemma land_split k a b m n : a < 2 ^ k -> m < 2 ^ k ->
  N.land (b * 2 ^ k + a) (n * 2 ^ k + m) = N.land b n * 2 ^ k + N.land a m.
Proof.
  intros Ha Hm. assert (Hl : N.land a m < 2 ^ k).
  { destruct (N.eq_dec (N.land a m) 0) as [->|Hz]; [apply N.neq_0_lt_0, N.pow_nonzero; lia|].
    apply N.log2_lt_pow2; [lia|]. pose proof (N.log2_land a m) as HL.
    destruct (N.eq_dec a 0) as [->|Ha0]; [rewrite N.land_0_l in Hz; congruence|].
    assert (N.log2 a < k) by (apply N.log2_lt_pow2; lia). lia. }
  rewrite <- !lor_shiftl_add by assumption. apply N.bits_inj. intros i.
  rewrite N.land_spec, !N.lor_spec, N.land_spec.
  destruct (N.lt_ge_cases i k) as [Hi|Hi].
  - rewrite !N.shiftl_spec_low by assumption. reflexivity.
  - rewrite !N.shiftl_spec_high' by assumption. rewrite N.land_spec.
    rewrite (testbit_small a k i), (testbit_small m k i) by assumption. rewrite !orb_false_r. reflexivity.
Qed.

Lemma land_clamp x : N.land x 0x0ffffffc = 4 * ((x / 4) mod 2 ^ 26).
Proof.
  rewrite (N.div_mod x 4) at 1 by discriminate. rewrite (N.mul_comm 4 (x / 4)).
  change 0x0ffffffc with ((2 ^ 26 - 1) * 2 ^ 2 + 0). change 4 with (2 ^ 2) at 2 3.
  rewrite land_split; [|apply N.mod_lt; discriminate|reflexivity].
  rewrite land_ones_mod, N.land_0_r. change (2 ^ 2) with 4. lia.
Qed.

Definition key_of (q0 q1 q2 q3 e : N) : list N :=
  [4 * q0 + e; 4 * q1; 4 * q2; 4 * q3; q0 * 5; q1 * 5; q2 * 5; q3 * 5].
Definition kok (key : list N) : Prop :=
  exists q0 q1 q2 q3 e, key = key_of q0 q1 q2 q3 e /\
    q0 < 2 ^ 26 /\ q1 < 2 ^ 26 /\ q2 < 2 ^ 26 /\ q3 < 2 ^ 26 /\ e < 4.
Definition rval (key : list N) : N := val4 (nth 0 key 0) (nth 1 key 0) (nth 2 key 0) (nth 3 key 0).

(** *** One block *)
Definition tol (a : limbs) : list N := let '(a0, a1, a2, a3, a4) := a in [a0; a1; a2; a3; a4].
Definition ofl (l : list N) : limbs := (nth 0 l 0, nth 1 l 0, nth 2 l 0, nth 3 l 0, nth 4 l 0).
Lemma ofl_tol a : ofl (tol a) = a.
Proof. destruct a as [[[[a0 a1] a2] a3] a4]. reflexivity. Qed.
Definition aok (l : list N) : Prop := exists a, l = tol a /\ lok 4 a.

Definition pblock (key : list N) (add : N) (a : limbs) (blk : list N) : limbs :=
  let t i := nth i (le_words 4 4 blk) 0 in
  let k i := nth i key 0 in
  pure_mul (k 0%nat) (k 1%nat) (k 2%nat) (k 3%nat) (k 4%nat) (k 5%nat) (k 6%nat) (k 7%nat)
    (pure_add (t 0%nat) (t 1%nat) (t 2%nat) (t 3%nat) add a).

Lemma le_dec_word l : bytes l -> (length l <= 4)%nat -> le_dec l < W.
Proof.
  intros Hb Hl. eapply N.lt_le_trans; [apply le_dec_lt; assumption|].
  change W with (256 ^ N.of_nat 4). apply N.pow_le_mono_r; lia.
Qed.

Lemma le_dec_16 l : length l = 16%nat ->
  le_dec l = val4 (nth 0 (le_words 4 4 l) 0) (nth 1 (le_words 4 4 l) 0) (nth 2 (le_words 4 4 l) 0) (nth 3 (le_words 4 4 l) 0).
Proof.
  intros L. do 16 (destruct l as [|? l]; [discriminate L|]). destruct l; [|discriminate L].
  cbn [le_words firstn skipn nth le_dec]. unfold val4, W. lia.
Qed.

Lemma word_lt l i : bytes l -> nth i (le_words 4 4 l) 0 < W.
Proof.
  intros Hb. destruct i as [|[|[|[|[|i]]]]]; cbn [le_words nth]; try reflexivity;
    (apply le_dec_word; [apply bytes_firstn; repeat apply bytes_skipn; assumption|rewrite firstn_length; lia]).
Qed.

Lemma pblock_spec key add a blk : kok key -> lok 4 a -> bytes blk -> length blk = 16%nat -> add <= 1 ->
  lok 4 (pblock key add a blk) /\
  (forall ov cx src, firstn 16 src = blk -> bytes src ->
     (t_0 <- mem_load_le cx 4 1 src 0 ;; t_1 <- mem_load_le cx 4 1 src 1 ;;
      t_2 <- mem_load_le cx 4 1 src 2 ;; t_3 <- mem_load_le cx 4 1 src 3 ;;
      acc <- poly_add_block ov t_0 t_1 t_2 t_3 add a ;; poly_mul ov key acc) = Some (pblock key add a blk)) /\
  lval (pblock key add a blk) mod poly_P = ((lval a + (le_dec blk + 2 ^ 128 * add)) * rval key) mod poly_P.
Proof.
  intros (q0 & q1 & q2 & q3 & e & -> & Q0 & Q1 & Q2 & Q3 & He) Ha Hb Hl Hadd.
  set (t := fun i => nth i (le_words 4 4 blk) 0).
  destruct (add_block_spec (t 0%nat) (t 1%nat) (t 2%nat) (t 3%nat) add a) as (A1 & A2 & A3);
    [apply word_lt; assumption|apply word_lt; assumption|apply word_lt; assumption|apply word_lt; assumption|assumption|assumption|].
  set (a' := pure_add (t 0%nat) (t 1%nat) (t 2%nat) (t 3%nat) add a) in *.
  destruct (mul_spec q0 q1 q2 q3 e a' Q0 Q1 Q2 Q3 He A2) as (M1 & M2 & K & M3).
  change (pblock (key_of q0 q1 q2 q3 e) add a blk)
    with (pure_mul (4 * q0 + e) (4 * q1) (4 * q2) (4 * q3) (q0 * 5) (q1 * 5) (q2 * 5) (q3 * 5) a').
  set (r := pure_mul _ _ _ _ _ _ _ _ a') in *. clearbody r.
  split; [exact M2|]. split.
  - intros ov cx src Hs Hbs.
    assert (Ls : (16 <= length src)%nat) by (rewrite <- Hs, firstn_length in Hl; lia).
    assert (Ld : forall i, (i < 4)%nat -> mem_load_le cx 4 1 src i = Some (t i)).
    { intros i Hi. rewrite mem_load_le_bytes; [|right; right; left; reflexivity|assumption|lia]. unfold t. f_equal.
      rewrite <- Hs. clear -Hi Ls. do 16 (destruct src as [|? src]; [cbn [length] in Ls; lia|]).
      destruct i as [|[|[|[|i]]]]; [reflexivity|reflexivity|reflexivity|reflexivity|lia]. }
    rewrite !Ld by lia. cbn [bind]. rewrite A1. cbn [bind]. apply M1.
  - assert (E : lval a + (le_dec blk + 2 ^ 128 * add) = lval a').
    { rewrite A3, (le_dec_16 blk Hl). fold (t 0%nat) (t 1%nat) (t 2%nat) (t 3%nat).
      unfold val4, W. change (2 ^ 128) with 340282366920938463463374607431768211456. lia. }
    rewrite E. unfold rval, key_of. cbn [nth]. unfold val4. rewrite M3.
    rewrite N.mul_comm, N.mod_add by discriminate. reflexivity.
Qed.

(** *** Several blocks *)
Definition pstep (key : list N) (add : N) (acc blk : list N) : list N := tol (pblock key add (ofl acc) blk).

Lemma aok_pstep key add acc blk : kok key -> aok acc -> bytes blk -> length blk = 16%nat -> add <= 1 ->
  aok (pstep key add acc blk).
Proof.
  intros Hk (a & -> & Ha) Hb Hl Hadd. unfold pstep. rewrite ofl_tol.
  exists (pblock key add a blk). split; [reflexivity|]. apply pblock_spec; assumption.
Qed.

Lemma blocks_spec ov cx key add : kok key -> add <= 1 -> forall n a src, lok 4 a -> bytes src ->
  (n * 16 <= length src)%nat ->
  poly_blocks ov cx key add n a src = Some (iter_blocks 16 n (pblock key add) a src) /\
  lok 4 (iter_blocks 16 n (pblock key add) a src).
Proof.
  intros Hk Hadd. induction n as [|n IH]; intros a src Ha Hb Hl; [split; [reflexivity|assumption]|].
  destruct (pblock_spec key add a (firstn 16 src)) as (P1 & P2 & _); try assumption.
  { apply bytes_firstn; assumption. } { rewrite firstn_length; lia. }
  cbn [iter_blocks].
  destruct (IH (pblock key add a (firstn 16 src)) (skipn 16 src)) as [I1 I2];
    [assumption|apply bytes_skipn; assumption|rewrite skipn_length; lia|].
  split; [|exact I2]. specialize (P2 ov cx src eq_refl Hb). cbn [poly_blocks].
  destruct (mem_load_le cx 4 1 src 0) as [t0|]; [|discriminate P2]. cbn [bind] in *.
  destruct (mem_load_le cx 4 1 src 1) as [t1|]; [|discriminate P2]. cbn [bind] in *.
  destruct (mem_load_le cx 4 1 src 2) as [t2|]; [|discriminate P2]. cbn [bind] in *.
  destruct (mem_load_le cx 4 1 src 3) as [t3|]; [|discriminate P2]. cbn [bind] in *.
  destruct (poly_add_block ov t0 t1 t2 t3 add a) as [acc|]; [|discriminate P2]. cbn [bind] in *.
  rewrite P2. cbn [bind]. exact I1.
Qed.

Lemma iter_tol key add : forall n a src,
  iter_blocks 16 n (pstep key add) (tol a) src = tol (iter_blocks 16 n (pblock key add) a src).
Proof.
  induction n as [|n IH]; intros a src; [reflexivity|]. cbn [iter_blocks]. unfold pstep at 2. rewrite ofl_tol. apply IH.
Qed.

Lemma process_spec ov cx key add n acc src : kok key -> add <= 1 -> aok acc -> bytes src ->
  (n * 16 <= length src)%nat ->
  poly_process ov cx key add n acc src = Some (iter_blocks 16 n (pstep key add) acc src).
Proof.
  intros Hk Hadd (a & -> & Ha) Hb Hl. rewrite iter_tol.
  destruct (blocks_spec ov cx key add Hk Hadd n a src Ha Hb Hl) as [E K].
  unfold poly_process. destruct a as [[[[a0 a1] a2] a3] a4]. cbn [tol rd nth_error bind]. rewrite E. cbn [bind].
  destruct (iter_blocks 16 n (pblock key add) (a0, a1, a2, a3, a4) src) as [[[[b0 b1] b2] b3] b4].
  destruct K as (K0 & K1 & K2 & K3 & K4). change (2 ^ 32) with W. unfold W in *.
  rewrite !fits_ok by (change (2 ^ 32) with 4294967296; lia). cbn [bind]. reflexivity.
Qed.

(** *** The specification, block-wise *)
Lemma absorb_step {A} (f : A -> list N -> A) acc m : (16 <= length m)%nat ->
  absorb 16 f acc m = absorb 16 f (f acc (firstn 16 m)) (skipn 16 m) /\ rest 16 m = rest 16 (skipn 16 m).
Proof.
  intros H.
  assert (E : (length m / 16 = S (length (skipn 16 m) / 16))%nat).
  { rewrite skipn_length. replace (length m) with (1 * 16 + (length m - 16))%nat at 1 by lia.
    rewrite Nat.div_add_l by lia. reflexivity. }
  unfold absorb, rest. rewrite E. split; [reflexivity|]. rewrite skipn_skipn. f_equal. lia.
Qed.

Lemma poly_loop_spec r : forall fuel acc m, (length m <= fuel)%nat ->
  poly_loop fuel r acc m
  = (let a := absorb 16 (poly_step r) acc m in
     match rest 16 m with [] => a | _ => poly_step r a (rest 16 m) end).
Proof.
  induction fuel as [|fuel IH]; intros acc m H.
  - destruct m; [reflexivity|cbn [length] in H; lia].
  - destruct m as [|x m]; [reflexivity|].
    change (poly_loop (S fuel) r acc (x :: m))
      with (poly_loop fuel r (poly_step r acc (firstn 16 (x :: m))) (skipn 16 (x :: m))).
    remember (x :: m) as l eqn:El. assert (L1 : (0 < length l)%nat) by (subst; cbn [length]; lia). clear El x m.
    rewrite IH by (rewrite skipn_length; lia). cbv zeta.
    destruct (Nat.lt_ge_cases (length l) 16) as [Hs|Hs].
    + rewrite (absorb_small 16 _ acc l), (rest_small 16 l) by assumption.
      rewrite (skipn_all2 l) by lia. rewrite firstn_all2 by lia.
      destruct l; [cbn [length] in L1; lia|]. reflexivity.
    + destruct (absorb_step (poly_step r) acc l Hs) as [-> E]. rewrite E. reflexivity.
Qed.

Lemma mod_step x y c r : x mod poly_P = y mod poly_P -> ((x + c) * r) mod poly_P = ((y + c) * r) mod poly_P.
Proof.
  intros H. rewrite (N.mul_mod (x + c)), (N.mul_mod (y + c)), (N.add_mod x), (N.add_mod y), H by discriminate. reflexivity.
Qed.

Lemma iter_value key acc0 : kok key -> forall n acc src, aok acc -> bytes src -> (n * 16 <= length src)%nat ->
  lval (ofl acc) mod poly_P = acc0 mod poly_P ->
  forall acc1, acc1 = acc0 ->
  lval (ofl (iter_blocks 16 n (pstep key 1) acc src)) mod poly_P
  = (iter_blocks 16 n (poly_step (rval key)) acc1 src) mod poly_P.
Proof.
  intros Hk n acc src Ha Hb Hl H acc1 ->. revert acc acc0 src Ha Hb Hl H.
  induction n as [|n IH]; intros acc acc0 src Ha Hb Hl H; [exact H|].
  cbn [iter_blocks]. apply IH.
  - apply aok_pstep; [assumption|assumption|apply bytes_firstn; assumption|rewrite firstn_length; lia|lia].
  - apply bytes_skipn; assumption.
  - rewrite skipn_length; lia.
  - destruct Ha as (a & -> & Ha). unfold pstep. rewrite !ofl_tol in *.
    assert (P : lval (pblock key 1 a (firstn 16 src)) mod poly_P
      = ((lval a + (le_dec (firstn 16 src) + 2 ^ 128 * 1)) * rval key) mod poly_P).
    { apply pblock_spec; try assumption.
      - apply bytes_firstn; assumption.
      - rewrite firstn_length. clear -Hl. lia.
      - discriminate. }
    rewrite P. unfold poly_step. rewrite N.mod_mod by discriminate.
    rewrite le_dec_app, firstn_length, Nat.min_l by lia. cbn [le_dec].
    change (256 ^ N.of_nat 16 * (1 + 256 * 0)) with (2 ^ 128 * 1). apply mod_step. exact H.
Qed.

(** *** Objects *)
Definition sok (s : list N) : Prop := exists s0 s1 s2 s3, s = [s0; s1; s2; s3] /\ s0 < W /\ s1 < W /\ s2 < W /\ s3 < W.
Record pwf (o : poly_obj) : Prop := {
  pw_r : kok (po_r o); pw_s : sok (po_s o); pw_a : aok (po_acc o);
  pw_b : length (po_buffer o) = 16%nat; pw_bb : bytes (po_buffer o); pw_n : (po_size o < 16)%nat }.
Record peq (o1 o2 : poly_obj) : Prop := {
  pe_1 : pwf o1; pe_2 : pwf o2; pe_r : po_r o1 = po_r o2; pe_s : po_s o1 = po_s o2; pe_a : po_acc o1 = po_acc o2;
  pe_n : po_size o1 = po_size o2; pe_b : firstn (po_size o1) (po_buffer o1) = firstn (po_size o2) (po_buffer o2) }.
Lemma peq_refl o : pwf o -> peq o o.
Proof. intros H. constructor; auto. Qed.

Definition key_r (k : list N) : list N :=
  let w i := nth i (le_words 4 8 (pad_to 32 k)) 0 in
  let x := N.land (w 0%nat) 0x0fffffff in
  key_of (x / 4) ((w 1%nat / 4) mod 2 ^ 26) ((w 2%nat / 4) mod 2 ^ 26) ((w 3%nat / 4) mod 2 ^ 26) (x mod 4).
Definition key_s (k : list N) : list N := skipn 4 (le_words 4 8 (pad_to 32 k)).

Record phold (k m : list N) (o : poly_obj) : Prop := {
  ph_wf : pwf o; ph_r : po_r o = key_r k; ph_s : po_s o = key_s k; ph_k : bytes k; ph_m : bytes m;
  ph_a : po_acc o = absorb 16 (pstep (po_r o) 1) [0; 0; 0; 0; 0] m;
  ph_n : po_size o = (length m mod 16)%nat; ph_b : firstn (po_size o) (po_buffer o) = rest 16 m }.

Lemma le_words8 l : length l = 32%nat -> bytes l -> exists w0 w1 w2 w3 w4 w5 w6 w7,
  le_words 4 8 l = [w0; w1; w2; w3; w4; w5; w6; w7] /\
  w0 < W /\ w1 < W /\ w2 < W /\ w3 < W /\ w4 < W /\ w5 < W /\ w6 < W /\ w7 < W.
Proof.
  intros Hl Hb. cbn [le_words]. do 8 eexists. split; [reflexivity|].
  repeat split; (apply le_dec_word; [apply bytes_firstn; repeat apply bytes_skipn; assumption|rewrite firstn_length; lia]).
Qed.

Lemma key_r_ok k : bytes k -> kok (key_r k).
Proof.
  intros Hb. unfold key_r, kok. do 5 eexists. split; [reflexivity|].
  repeat split; try (apply N.mod_lt; discriminate).
  change 0x0fffffff with (2 ^ 28 - 1). rewrite land_ones_mod.
  apply N.div_lt_upper_bound; [discriminate|]. change (4 * 2 ^ 26) with (2 ^ 28). apply N.mod_lt. discriminate.
Qed.

Lemma swap_words_length n : forall l, length l = (4 * n)%nat -> length (swap_words n l) = (4 * n)%nat.
Proof.
  induction n as [|n IH]; intros l Hl; [reflexivity|]. cbn [swap_words]. rewrite app_length, rev_length, firstn_length, IH by (rewrite skipn_length; lia). lia.
Qed.
Lemma swap_words_bytes n : forall l, bytes l -> bytes (swap_words n l).
Proof.
  induction n as [|n IH]; intros l Hl; [constructor|]. cbn [swap_words]. apply bytes_app. split; [apply Forall_rev, bytes_firstn, Hl|apply IH, bytes_skipn, Hl].
Qed.
Lemma swap_words_be n : forall l, length l = (4 * n)%nat -> le_words 4 n (swap_words n l) = be_words 4 n l.
Proof.
  induction n as [|n IH]; intros l Hl; [reflexivity|]. cbn [swap_words le_words be_words].
  assert (L : length (rev (firstn 4 l)) = 4%nat) by (rewrite rev_length, firstn_length; lia).
  rewrite firstn_app, skipn_app, L. change (4 - 4)%nat with 0%nat. rewrite firstn_O, skipn_O, app_nil_r.
  rewrite (firstn_all2 (n := 4) (rev (firstn 4 l))), (skipn_all2 (n := 4) (rev (firstn 4 l))) by lia. cbn [app].
  rewrite be_dec_le, IH by (rewrite skipn_length; lia). reflexivity.
Qed.
Lemma host_key_bytes big k : bytes k -> bytes (host_key big k).
Proof. intros H. destruct big; [apply swap_words_bytes, pad_to_bytes, H|exact H]. Qed.
Lemma host_key_words big k : arr_of_bytes big 4 8 (pad_to 32 k) = le_words 4 8 (pad_to 32 (host_key big k)).
Proof.
  destruct big; cbn [host_key].
  - rewrite arr_of_bytes_be. assert (L : length (swap_words 8 (pad_to 32 k)) = 32%nat) by (apply (swap_words_length 8), pad_to_length).
    unfold pad_to at 2. rewrite L, Nat.sub_diag, (firstn_all2 (n := 32)) by lia. cbn [repeat]. rewrite app_nil_r.
    symmetry. apply swap_words_be, pad_to_length.
  - apply arr_of_bytes_le.
Qed.

Lemma pad32_id l : length l = 32%nat -> pad_to 32 l = l.
Proof. intros H. unfold pad_to. rewrite H, Nat.sub_diag, firstn_all2 by lia. apply app_nil_r. Qed.
Lemma host_pad big k : pad_to 32 (host_key big k) = host_key big (pad_to 32 k).
Proof.
  destruct big; cbn [host_key]; [|reflexivity]. rewrite (pad32_id (pad_to 32 k)) by apply pad_to_length.
  apply pad32_id. apply (swap_words_length 8), pad_to_length.
Qed.
Lemma poly1305_on_length big k m : length (poly1305_on big k m) = 16%nat.
Proof. apply le_enc_length. Qed.

Lemma init_host ov cx o k : pwf o -> bytes k ->
  poly_initialize ov cx o k
  = Some {| po_r := key_r (host_key (cx_big cx) k); po_s := key_s (host_key (cx_big cx) k); po_acc := [0; 0; 0; 0; 0]; po_buffer := po_buffer o; po_size := 0 |}.
Proof.
  intros [(q0 & q1 & q2 & q3 & e & Er & _) (s0 & s1 & s2 & s3 & Es & _) (a & Ea & _) _ _ _] Hb.
  unfold poly_initialize. rewrite Er, Es, Ea.
  rewrite mem_init_spec; [|right; right; left; reflexivity|left; reflexivity|apply bytes_words; assumption].
  rewrite arr_bytes_1 by assumption.
  change (length (key_of q0 q1 q2 q3 e)) with 8%nat. change (8 * 4)%nat with 32%nat. rewrite host_key_words.
  destruct (le_words8 (pad_to 32 (host_key (cx_big cx) k))) as (w0 & w1 & w2 & w3 & w4 & w5 & w6 & w7 & Ew & B0 & B1 & B2 & B3 & B4 & B5 & B6 & B7).
  { apply pad_to_length. } { apply pad_to_bytes, host_key_bytes; assumption. }
  unfold key_r, key_s. rewrite Ew. destruct a as [[[[a0 a1] a2] a3] a4].
  cbn [bind tol rd nth_error wr wrs length Nat.add Nat.leb firstn skipn app nth].
  assert (L0 : N.land w0 0x0fffffff < 2 ^ 28).
  { change 0x0fffffff with (2 ^ 28 - 1). rewrite land_ones_mod. apply N.mod_lt. discriminate. }
  rewrite !land_clamp. set (x0 := N.land w0 268435455) in *.
  assert (M : forall x, N.shiftr (4 * x) 2 = x).
  { intros x. rewrite N.shiftr_div_pow2. change (2 ^ 2) with 4. rewrite N.mul_comm. apply N.div_mul. discriminate. }
  rewrite !M. rewrite N.shiftr_div_pow2. change (2 ^ 2) with 4.
  assert (U : forall x, x < 2 ^ 26 -> umul ov 32 x 5 = Some (x * 5)).
  { intros x Hx. apply fits_ok. change (2 ^ 26) with 67108864 in Hx. change (2 ^ 32) with 4294967296. lia. }
  assert (MM : forall x, x mod 2 ^ 26 < 2 ^ 26) by (intros; apply N.mod_lt; discriminate).
  rewrite (U (x0 / 4)) by (apply N.div_lt_upper_bound; [discriminate|exact L0]).
  rewrite !U by apply MM. cbn [bind nth].
  unfold key_of. do 2 f_equal.
  rewrite (N.div_mod x0 4) at 1 by discriminate. reflexivity.
Qed.
Lemma init_spec ov cx o k : cx_big cx = false -> pwf o -> bytes k ->
  poly_initialize ov cx o k
  = Some {| po_r := key_r k; po_s := key_s k; po_acc := [0; 0; 0; 0; 0]; po_buffer := po_buffer o; po_size := 0 |}.
Proof. intros Hc Wo Hk. rewrite (init_host ov cx o k Wo Hk), Hc. reflexivity. Qed.

Lemma rval_key_r k : bytes k -> rval (key_r k) = poly_r (pad_to 32 k).
Proof.
  intros Hb. unfold rval, key_r, key_of. cbn [nth]. rewrite <- N.div_mod by discriminate.
  set (l := pad_to 32 k). assert (Ll : length l = 32%nat) by apply pad_to_length.
  assert (Lb : bytes l) by (apply pad_to_bytes; assumption).
  unfold poly_r. rewrite le_dec_16 by (rewrite firstn_length; lia).
  destruct (le_words8 l Ll Lb) as (w0 & w1 & w2 & w3 & w4 & w5 & w6 & w7 & Ew & B0 & B1 & B2 & B3 & _).
  assert (E4 : le_words 4 4 (firstn 16 l) = firstn 4 (le_words 4 8 l)).
  { clear -Ll. do 16 (destruct l as [|? l]; [discriminate Ll|]). reflexivity. }
  rewrite E4, Ew. cbn [firstn nth]. unfold val4.
  rewrite <- !land_clamp.
  replace (w0 + W * (w1 + W * (w2 + W * w3))) with (((w3 * 2 ^ 32 + w2) * 2 ^ 32 + w1) * 2 ^ 32 + w0)
    by (change (2 ^ 32) with W; lia).
  change 0x0ffffffc0ffffffc0ffffffc0fffffff with (((0x0ffffffc * 2 ^ 32 + 0x0ffffffc) * 2 ^ 32 + 0x0ffffffc) * 2 ^ 32 + 0x0fffffff).
  rewrite !land_split by (assumption || reflexivity). change (2 ^ 32) with W. lia.
Qed.

Lemma key_s_val k : bytes k -> exists s0 s1 s2 s3, key_s k = [s0; s1; s2; s3] /\
  s0 < W /\ s1 < W /\ s2 < W /\ s3 < W /\ val4 s0 s1 s2 s3 = poly_s (pad_to 32 k).
Proof.
  intros Hb. set (l := pad_to 32 k). assert (Ll : length l = 32%nat) by apply pad_to_length.
  assert (Lb : bytes l) by (apply pad_to_bytes; assumption).
  unfold key_s, poly_s. fold l. rewrite le_dec_16 by (rewrite firstn_length, skipn_length; lia).
  destruct (le_words8 l Ll Lb) as (w0 & w1 & w2 & w3 & w4 & w5 & w6 & w7 & Ew & _ & _ & _ & _ & B).
  assert (E4 : le_words 4 4 (firstn 16 (skipn 16 l)) = skipn 4 (le_words 4 8 l)).
  { clear -Ll. do 32 (destruct l as [|? l]; [discriminate Ll|]). reflexivity. }
  rewrite E4, Ew. cbn [skipn nth]. exists w4, w5, w6, w7. split; [reflexivity|]. repeat split; apply B.
Qed.

Lemma aok_zero : aok [0; 0; 0; 0; 0].
Proof. exists (0, 0, 0, 0, 0). split; [reflexivity|]. unfold lok, W. lia. Qed.

Lemma update_spec ov cx o m : pwf o -> bytes m ->
  let x := firstn (po_size o) (po_buffer o) ++ m in
  exists b, poly_update ov cx o m
    = Some {| po_r := po_r o; po_s := po_s o; po_acc := absorb 16 (pstep (po_r o) 1) (po_acc o) x;
              po_buffer := b; po_size := (length x mod 16)%nat |} /\
    length b = 16%nat /\ bytes b /\ firstn (length x mod 16) b = rest 16 x /\
    aok (absorb 16 (pstep (po_r o) 1) (po_acc o) x).
Proof.
  intros [Hr Hs Ha Lb Bb Hn] Hm x.
  destruct (soak_spec aok 16 (pstep (po_r o) 1) (poly_process ov cx (po_r o) 1) ltac:(lia)
    ltac:(intros; apply aok_pstep; try assumption; lia)
    ltac:(intros; apply process_spec; try assumption; lia)
    (po_buffer o) (po_size o) m (po_acc o) Ha Bb Hm Hn ltac:(lia)) as (b & E & Lb' & Bb' & F).
  fold x in E, F. exists b. unfold poly_update. rewrite E. cbn [bind]. split; [reflexivity|].
  split; [lia|]. split; [assumption|]. split; [assumption|].
  unfold absorb. apply (iter_blocks_inv aok).
  - intros. apply aok_pstep; try assumption; lia.
  - assumption.
  - apply bytes_app. split; [apply bytes_firstn; assumption|assumption].
  - apply div_mul_le.
Qed.

Definition last_acc (o : poly_obj) : list N :=
  if (0 <? po_size o)%nat
  then pstep (po_r o) 0 (po_acc o) (firstn (po_size o) (po_buffer o) ++ 1 :: repeat 0 (15 - po_size o))
  else po_acc o.

Lemma bytes_cons x l : bytes (x :: l) <-> x < 256 /\ bytes l.
Proof. unfold bytes. rewrite Forall_cons_iff. reflexivity. Qed.

Lemma last_spec ov cx o : pwf o -> exists b, poly_last ov cx o = Some (b, last_acc o) /\
  length b = 16%nat /\ bytes b /\ firstn (po_size o) b = firstn (po_size o) (po_buffer o) /\ aok (last_acc o).
Proof.
  intros [Hr Hs Ha Lb Bb Hn]. unfold poly_last, last_acc.
  destruct (Nat.ltb_spec 0 (po_size o)) as [Hz|Hz]; [|exists (po_buffer o); auto].
  set (n := po_size o) in *. set (p := firstn n (po_buffer o)).
  assert (Lp : length p = n) by (unfold p; rewrite firstn_length; lia).
  assert (Bp : bytes p) by (apply bytes_firstn; assumption).
  rewrite wr_firstn by lia. cbn [bind]. fold p.
  set (z := skipn (S n) (po_buffer o)). assert (Lz : length z = (15 - n)%nat) by (unfold z; rewrite skipn_length; lia).
  change (p ++ 1 :: z) with (p ++ [1] ++ z). rewrite (app_assoc p).
  rewrite (at_off_app _ (p ++ [1]) z (repeat 0 (15 - n))); [|rewrite app_length; cbn [length]; lia|].
  2:{ replace (16 - n - 1)%nat with (15 - n)%nat by lia.
      rewrite mem_set_1; [|apply bytes_skipn; assumption|lia|lia]. f_equal. rewrite skipn_all2 by lia. apply app_nil_r. }
  cbn [bind]. rewrite <- app_assoc. cbn [app].
  set (b := p ++ 1 :: repeat 0 (15 - n)).
  assert (Lbb : length b = 16%nat) by (unfold b; rewrite app_length; cbn [length]; rewrite repeat_length; lia).
  assert (Bbb : bytes b).
  { unfold b. apply bytes_app. split; [assumption|]. apply bytes_cons. split; [lia|apply bytes_repeat0]. }
  rewrite process_spec by (try assumption; lia). cbn [bind iter_blocks].
  rewrite (firstn_all2 b) by lia. exists b. split; [reflexivity|]. split; [assumption|]. split; [assumption|].
  split.
  - unfold b. rewrite firstn_app, (firstn_all2 p), Lp, Nat.sub_diag, firstn_O, app_nil_r by lia. reflexivity.
  - apply aok_pstep; try assumption; lia.
Qed.

Lemma finalize_spec cx o : pwf o -> exists b a, (forall ov,
  exists b', poly_finalize ov cx o = Some {| po_r := po_r o; po_s := po_s o; po_acc := a; po_buffer := b'; po_size := po_size o |} /\ b' = b) /\
  length b = 16%nat /\ bytes b /\ firstn (po_size o) b = firstn (po_size o) (po_buffer o) /\ aok a /\
  (forall ov, poly_finish ov (po_s o) (last_acc o) = Some a) /\
  exists b0 b1 b2 b3 b4 s0 s1 s2 s3, a = [b0; b1; b2; b3; b4] /\ po_s o = [s0; s1; s2; s3] /\
    b0 < W /\ b1 < W /\ b2 < W /\ b3 < W /\
    val4 b0 b1 b2 b3 = (lval (ofl (last_acc o)) mod poly_P + val4 s0 s1 s2 s3) mod 2 ^ 128.
Proof.
  intros H. destruct (last_spec true cx o H) as (b & E & Lb & Bb & Fb & Ha).
  assert (E' : forall ov, poly_last ov cx o = Some (b, last_acc o)).
  { intros ov. destruct (last_spec ov cx o H) as (b' & Eb & _). destruct ov; [exact E|].
    assert (b' = b); [|subst; exact Eb].
    destruct H as [Hr Hs Ha' Lb' Bb' Hn]. unfold poly_last in *.
    destruct (0 <? po_size o)%nat; [|congruence].
    destruct (wr (po_buffer o) (po_size o) 1) as [x|]; [|discriminate E]. cbn [bind] in *.
    destruct (at_off x _ _) as [y|]; [|discriminate E]. cbn [bind] in *.
    destruct (poly_process true _ _ _ _ _ _); [|discriminate E]. destruct (poly_process false _ _ _ _ _ _); [|discriminate Eb].
    cbn [bind] in *. congruence. }
  destruct Ha as (a & Ea & Hla). destruct a as [[[[a0 a1] a2] a3] a4].
  destruct (pw_s _ H) as (s0 & s1 & s2 & s3 & Es & S0 & S1 & S2 & S3).
  destruct (finish_spec a0 a1 a2 a3 a4 s0 s1 s2 s3 Hla S0 S1 S2 S3) as (b0 & b1 & b2 & b3 & F & B0 & B1 & B2 & B3 & V).
  exists b, [b0; b1; b2; b3; a4]. split; [|split; [|split; [|split; [|split; [|split]]]]]; try assumption.
  - intros ov. exists b. split; [|reflexivity]. unfold poly_finalize. rewrite E'. cbn [bind]. rewrite Ea, Es. cbn [tol].
    rewrite F. reflexivity.
  - exists (b0, b1, b2, b3, a4). split; [reflexivity|]. destruct Hla as (_ & _ & _ & _ & ?). repeat split; assumption.
  - intros ov. rewrite Ea, Es. apply F.
  - exists b0, b1, b2, b3, a4, s0, s1, s2, s3. rewrite Ea, ofl_tol. auto 10.
Qed.

Lemma last_value k m o : phold k m o ->
  lval (ofl (last_acc o)) mod poly_P = poly_loop (length m) (poly_r (pad_to 32 k)) 0 m.
Proof.
  intros [Wf Hr Hs Bk Bm Ea En Eb]. rewrite <- (rval_key_r k Bk), <- Hr.
  rewrite (poly_loop_spec _ (length m) 0 m) by lia. cbv zeta.
  set (A := absorb 16 (poly_step (rval (po_r o))) 0 m).
  assert (VA : lval (ofl (po_acc o)) mod poly_P = A mod poly_P).
  { rewrite Ea. unfold A, absorb.
    apply (iter_value (po_r o) 0 (pw_r _ Wf) _ _ _ aok_zero Bm (div_mul_le _ _)); reflexivity. }
  assert (AM : A mod poly_P = A).
  { assert (Hi : forall n acc l, acc mod poly_P = acc ->
      iter_blocks 16 n (poly_step (rval (po_r o))) acc l mod poly_P = iter_blocks 16 n (poly_step (rval (po_r o))) acc l).
    { induction n as [|n IH]; intros acc l HA; [exact HA|]. cbn [iter_blocks]. apply IH.
      unfold poly_step. apply N.mod_mod. discriminate. }
    unfold A, absorb. apply Hi. reflexivity. }
  unfold last_acc. pose proof (pw_n _ Wf) as Hn.
  assert (LR : length (rest 16 m) = po_size o) by (rewrite rest_length, <- En by lia; reflexivity).
  destruct (Nat.ltb_spec 0 (po_size o)) as [Hz|Hz].
  - rewrite Eb. remember (rest 16 m) as z eqn:Ez. destruct z as [|z0 z]; [cbn [length] in LR; lia|].
    set (zz := z0 :: z) in *.
    assert (Bz : bytes zz) by (rewrite Ez; apply bytes_skipn; assumption).
    set (blk := zz ++ 1 :: repeat 0 (15 - po_size o)).
    assert (Bl : bytes blk).
    { unfold blk. apply bytes_app. split; [assumption|]. apply bytes_cons. split; [lia|apply bytes_repeat0]. }
    assert (Ll : length blk = 16%nat) by (unfold blk; rewrite app_length; cbn [length]; rewrite repeat_length; lia).
    destruct (pw_a _ Wf) as (a & Ha & Hla). unfold pstep. rewrite Ha in *. rewrite !ofl_tol in *.
    destruct (pblock_spec (po_r o) 0 a blk (pw_r _ Wf) Hla Bl Ll ltac:(lia)) as (_ & _ & P).
    rewrite P. unfold poly_step. rewrite N.mul_0_r, N.add_0_r.
    assert (Ed : le_dec blk = le_dec (zz ++ [1])).
    { unfold blk. rewrite !le_dec_app. f_equal. f_equal. cbn [le_dec].
      assert (Z : forall n, le_dec (repeat 0 n) = 0) by (induction n as [|n IH]; [reflexivity|cbn [repeat le_dec]; rewrite IH; reflexivity]).
      rewrite Z. reflexivity. }
    rewrite Ed. apply mod_step. exact VA.
  - destruct (rest 16 m) as [|? ?]; [|cbn [length] in LR; lia]. rewrite VA. exact AM.
Qed.

Lemma acc_bytes b0 b1 b2 b3 b4 : b0 < W -> b1 < W -> b2 < W -> b3 < W ->
  firstn 16 (flat_map (le_enc 4) [b0; b1; b2; b3; b4]) = le_enc 16 (val4 b0 b1 b2 b3).
Proof.
  intros H0 H1 H2 H3. cbn [flat_map].
  change (le_enc 16 (val4 b0 b1 b2 b3)) with (le_enc (4 + (4 + (4 + 4))) (val4 b0 b1 b2 b3)).
  assert (Step : forall n x y, x < W -> le_enc (4 + n) (x + W * y) = le_enc 4 x ++ le_enc n y).
  { intros n x y Hx. rewrite le_enc_app. change (256 ^ N.of_nat 4) with W. f_equal.
    - rewrite <- (le_enc_mod 4 (x + W * y)), <- (le_enc_mod 4 x). change (256 ^ N.of_nat 4) with W.
      rewrite N.mul_comm, N.mod_add by discriminate. reflexivity.
    - rewrite N.mul_comm, N.div_add by discriminate. rewrite N.div_small by assumption. reflexivity. }
  unfold val4. rewrite !Step by assumption.
  rewrite app_nil_r. rewrite !app_assoc. rewrite firstn_app, firstn_all2; [|rewrite !app_length, !le_enc_length; lia].
  rewrite !app_length, !le_enc_length. cbn [Nat.add Nat.sub]. rewrite firstn_O, app_nil_r. rewrite <- !app_assoc. reflexivity.
Qed.

Definition poly_tag (dsz : nat) (k m : list N) : list N := firstn dsz (poly1305 (pad_to 32 k) m).

Lemma new_pwf : pwf poly_new.
Proof.
  constructor; cbn [poly_new po_r po_s po_acc po_buffer po_size].
  - exists 0, 0, 0, 0, 0. repeat split.
  - exists 0, 0, 0, 0. repeat split.
  - exact aok_zero.
  - reflexivity.
  - apply bytes_repeat0.
  - lia.
Qed.

(** On any host; then on a little-endian one. *)
Lemma poly_host ov cx dsz : (dsz <= 16)%nat ->
  mac_ok (mac_poly_ov ov dsz) cx bytes (fun k m => poly_tag dsz (host_key (cx_big cx) k) m) peq (fun k m o => phold (host_key (cx_big cx) k) m o) (fun o => flat_map (le_enc 4) (po_acc o)).
Proof.
  intros Hd.
  constructor; cbn [mac_poly_ov ma_obj ma_new ma_initialize ma_update ma_finalize ma_digest ma_digest_size].
  - apply peq_refl, new_pwf.
  - intros o1 o2 k [W1 _ _ _ _ _ _] [W2 _ _ _ _ _ _] Hk.
    set (hk := host_key (cx_big cx) k). assert (Hh : bytes hk) by (apply host_key_bytes; exact Hk).
    assert (I : forall o, pwf o -> phold hk []
      {| po_r := key_r hk; po_s := key_s hk; po_acc := [0; 0; 0; 0; 0]; po_buffer := po_buffer o; po_size := 0 |}).
    { intros o Wo. destruct (key_s_val hk Hh) as (s0 & s1 & s2 & s3 & Es & S0 & S1 & S2 & S3 & _).
      constructor; cbn [po_r po_s po_acc po_buffer po_size]; try reflexivity; [|assumption|constructor].
      constructor; cbn [po_r po_s po_acc po_buffer po_size].
      - apply key_r_ok; assumption.
      - exists s0, s1, s2, s3. auto.
      - exact aok_zero.
      - exact (pw_b _ Wo).
      - exact (pw_bb _ Wo).
      - lia. }
    do 2 eexists. split; [exact (init_host ov cx o1 k W1 Hk)|]. split; [exact (init_host ov cx o2 k W2 Hk)|].
    split; [|exact (I o1 W1)].
    constructor; cbn [po_r po_s po_acc po_buffer po_size]; try reflexivity; [exact (ph_wf _ _ _ (I o1 W1))|exact (ph_wf _ _ _ (I o2 W2))].
  - intros o1 o2 m [W1 W2 Er Es Ea En Eb] [Hm _].
    destruct (update_spec ov cx o1 m W1 Hm) as (b1 & E1 & L1 & B1 & F1 & A1).
    destruct (update_spec ov cx o2 m W2 Hm) as (b2 & E2 & L2 & B2 & F2 & A2).
    rewrite Eb, Er, Ea in *. do 2 eexists. split; [exact E1|]. split; [exact E2|].
    assert (Hn : (length (firstn (po_size o2) (po_buffer o2) ++ m) mod 16 < 16)%nat) by (apply Nat.mod_upper_bound; lia).
    constructor; cbn [po_r po_s po_acc po_buffer po_size]; try reflexivity; try congruence.
    + constructor; cbn [po_r po_s po_acc po_buffer po_size]; try assumption; [rewrite <- Er; apply W1|apply W1].
    + constructor; cbn [po_r po_s po_acc po_buffer po_size]; try assumption; apply W2.
  - intros k m o x o' [Wo Hr Hs Bk Bm Ea En Eb] [Hx _] E.
    destruct (update_spec ov cx o x Wo Hx) as (b & E1 & L1 & B1 & F1 & A1). rewrite Eb in *.
    assert (o' = {| po_r := po_r o; po_s := po_s o; po_acc := absorb 16 (pstep (po_r o) 1) (po_acc o) (rest 16 m ++ x);
              po_buffer := b; po_size := (length (rest 16 m ++ x) mod 16)%nat |}) by congruence. subst o'. clear E E1.
    assert (Hn : (length (rest 16 m ++ x) mod 16 < 16)%nat) by (apply Nat.mod_upper_bound; lia).
    constructor; cbn [po_r po_s po_acc po_buffer po_size].
    + constructor; cbn [po_r po_s po_acc po_buffer po_size]; try assumption; apply Wo.
    + exact Hr.
    + exact Hs.
    + exact Bk.
    + apply bytes_app; auto.
    + rewrite (absorb_app 16 _ _ m x) by lia. rewrite <- Ea. reflexivity.
    + rewrite !app_length, rest_length by lia. rewrite Nat.add_mod_idemp_l by lia. reflexivity.
    + rewrite F1. symmetry. apply rest_app. lia.
  - intros o1 o2 [W1 W2 Er Es Ea En Eb].
    destruct (finalize_spec cx o1 W1) as (b1 & a1 & X1 & L1 & B1 & F1 & A1 & G1 & _).
    destruct (finalize_spec cx o2 W2) as (b2 & a2 & X2 & L2 & B2 & F2 & A2 & G2 & _).
    destruct (X1 ov) as (c1 & E1 & ->). destruct (X2 ov) as (c2 & E2 & ->).
    do 2 eexists. split; [exact E1|]. split; [exact E2|].
    assert (Ela : last_acc o1 = last_acc o2) by (unfold last_acc; rewrite Er, Ea, En, <- En, Eb, En; reflexivity).
    assert (a1 = a2). { specialize (G1 ov). specialize (G2 ov). rewrite Es, Ela in G1. congruence. }
    constructor; cbn [po_r po_s po_acc po_buffer po_size]; try congruence.
    + constructor; cbn [po_r po_s po_acc po_buffer po_size]; try assumption; apply W1.
    + constructor; cbn [po_r po_s po_acc po_buffer po_size]; try assumption; apply W2.
  - intros k' m o o' Hh E. set (k := host_key (cx_big cx) k') in *.
    destruct (finalize_spec cx o (ph_wf _ _ _ Hh)) as (b & a & X & L & B & F & A & G & b0 & b1 & b2 & b3 & b4 & s0 & s1 & s2 & s3 & Ea & Es & B0 & B1 & B2 & B3 & V).
    destruct (X ov) as (c & E1 & ->).
    assert (o' = {| po_r := po_r o; po_s := po_s o; po_acc := a; po_buffer := b; po_size := po_size o |}) by congruence.
    subst o'. cbn [po_acc]. rewrite Ea. unfold poly_tag.
    replace dsz with (Nat.min dsz 16) at 1 by lia. rewrite <- firstn_firstn, acc_bytes by assumption. f_equal.
    rewrite V, (last_value k m o Hh). unfold poly1305.
    destruct (key_s_val k (ph_k _ _ _ Hh)) as (u0 & u1 & u2 & u3 & Eu & _ & _ & _ & _ & <-).
    rewrite <- (ph_s _ _ _ Hh), Es in Eu. injection Eu as -> -> -> ->.
    change (2 ^ 128) with (256 ^ N.of_nat 16). apply le_enc_mod.
  - intros k m o Hh. apply peq_refl. exact (ph_wf _ _ _ Hh).
  - intros o1 o2 H. split; apply peq_refl; apply H.
  - intros o1 o2 H. rewrite (pe_a _ _ H). reflexivity.
  - intros o H. destruct (pw_a _ (pe_1 _ _ H)) as (a & -> & _). destruct a as [[[[a0 a1] a2] a3] a4].
    cbn [tol flat_map]. rewrite !app_length, !le_enc_length. cbn [length]. lia.
  - intros o dst size H Hb Hl. unfold poly_digest. destruct (pw_a _ (pe_1 _ _ H)) as (a & -> & Ha).
    rewrite mem_copy_le_spec; [reflexivity|right; right; left; reflexivity|lia| |assumption|assumption|].
    + destruct a as [[[[a0 a1] a2] a3] a4]. destruct Ha as (? & ? & ? & ? & ?). unfold W in *.
      cbn [tol]. change (bits 4) with 32. unfold words, is_word. change (2 ^ 32) with 4294967296. repeat constructor; lia.
    + destruct a as [[[[a0 a1] a2] a3] a4]. cbn [tol length]. lia.
Qed.
Lemma poly_ok ov cx dsz : cx_big cx = false -> (dsz <= 16)%nat ->
  mac_ok (mac_poly_ov ov dsz) cx bytes (poly_tag dsz) peq phold (fun o => flat_map (le_enc 4) (po_acc o)).
Proof. intros Hc Hd. destruct cx as [big ce]. cbn [cx_big] in Hc. subst big. exact (poly_host ov {| cx_big := false; cx_ce := ce |} dsz Hd). Qed.

(** *** A run that never overflows is the run that wraps *)
Definition le_opt {A} (x y : option A) : Prop := forall a, x = Some a -> y = Some a.
Lemma le_refl' {A} (x : option A) : le_opt x x.
Proof. intros a H. exact H. Qed.
Lemma le_bind {A B} (x y : option A) (f g : A -> option B) :
  le_opt x y -> (forall a, le_opt (f a) (g a)) -> le_opt (bind x f) (bind y g).
Proof.
  intros H1 H2 b E. destruct x as [a|]; [|discriminate E]. rewrite (H1 a eq_refl). cbn [bind] in *.
  exact (H2 a b E).
Qed.
Lemma fits_le w x : le_opt (fits false w x) (fits true w x).
Proof.
  intros a. unfold fits. destruct (N.ltb_spec x (2 ^ w)) as [H|H]; [|discriminate].
  intros [= <-]. rewrite N.mod_small by assumption. reflexivity.
Qed.
Ltac le_tac := repeat lazymatch goal with
  | |- le_opt (bind _ _) _ => apply le_bind; [|intros ?]
  | |- le_opt (fits _ _ _) _ => apply fits_le
  | |- _ => apply le_refl'
  end.

Lemma add_block_le t0 t1 t2 t3 add a :
  le_opt (poly_add_block false t0 t1 t2 t3 add a) (poly_add_block true t0 t1 t2 t3 add a).
Proof. destruct a as [[[[a0 a1] a2] a3] a4]. unfold poly_add_block, uadd, umul. le_tac. Qed.
Lemma poly_mul_le key a : le_opt (poly_mul false key a) (poly_mul true key a).
Proof. destruct a as [[[[a0 a1] a2] a3] a4]. unfold poly_mul, dot5, uadd, umul. le_tac. Qed.
Lemma blocks_le cx key add : forall n a src,
  le_opt (poly_blocks false cx key add n a src) (poly_blocks true cx key add n a src).
Proof.
  induction n as [|n IH]; intros a src; [apply le_refl'|]. cbn [poly_blocks].
  do 4 (apply le_bind; [apply le_refl'|intros ?]). apply le_bind; [apply add_block_le|intros ?].
  apply le_bind; [apply poly_mul_le|intros ?]. apply IH.
Qed.
Lemma process_le cx key add n acc src :
  le_opt (poly_process false cx key add n acc src) (poly_process true cx key add n acc src).
Proof.
  unfold poly_process. do 5 (apply le_bind; [apply le_refl'|intros ?]).
  apply le_bind; [apply blocks_le|intros x]. destruct x as [[[[b0 b1] b2] b3] b4]. le_tac.
Qed.
Lemma soak_le {St} bs (i1 i2 : nat -> St -> list N -> option St) buf size src st :
  (forall n st src, le_opt (i1 n st src) (i2 n st src)) ->
  le_opt (update_block_soak bs i1 buf size src st) (update_block_soak bs i2 buf size src st).
Proof.
  intros H. unfold update_block_soak. cbv zeta.
  assert (T : forall buf src st, le_opt
    ('(st, s) <- (if (0 <? length src / bs)%nat
                    then st <- i1 (length src / bs)%nat st src ;; Some (st, skipn (length src / bs * bs) src)
                    else Some (st, src)) ;;
     buf <- (if (0 <? length src mod bs)%nat then l <- rds s 0 (length src mod bs) ;; wrs buf 0 l else Some buf) ;;
     Some (buf, (length src mod bs)%nat, st))
    ('(st, s) <- (if (0 <? length src / bs)%nat
                    then st <- i2 (length src / bs)%nat st src ;; Some (st, skipn (length src / bs * bs) src)
                    else Some (st, src)) ;;
     buf <- (if (0 <? length src mod bs)%nat then l <- rds s 0 (length src mod bs) ;; wrs buf 0 l else Some buf) ;;
     Some (buf, (length src mod bs)%nat, st))).
  { intros b s t. apply le_bind; [|intros [? ?]; apply le_refl'].
    destruct (0 <? length s / bs)%nat; [|apply le_refl']. apply le_bind; [apply H|intros ?; apply le_refl']. }
  destruct (0 <? size)%nat; [|apply T].
  destruct (bs <? size)%nat; [apply le_refl'|].
  do 2 (apply le_bind; [apply le_refl'|intros ?]).
  destruct (_ <? bs - size)%nat; [apply le_refl'|]. apply le_bind; [apply H|intros ?; apply T].
Qed.
Lemma init_le cx o k : le_opt (poly_initialize false cx o k) (poly_initialize true cx o k).
Proof. unfold poly_initialize, umul. le_tac. Qed.
Lemma update_le cx o m : le_opt (poly_update false cx o m) (poly_update true cx o m).
Proof.
  unfold poly_update. apply le_bind; [|intros ?; apply le_refl']. apply soak_le. intros. apply process_le.
Qed.
Lemma finalize_le cx o : le_opt (poly_finalize false cx o) (poly_finalize true cx o).
Proof.
  unfold poly_finalize. apply le_bind; [|intros [b a]; apply le_bind; [|intros ?; apply le_refl']].
  - unfold poly_last. destruct (0 <? po_size o)%nat; [|apply le_refl'].
    do 2 (apply le_bind; [apply le_refl'|intros ?]). apply le_bind; [apply process_le|intros ?; apply le_refl'].
  - unfold poly_finish, uadd. cbv zeta. le_tac.
Qed.

(** The run of calls. *)
Definition same_state (dsz : nat) (p : mac_apie (mac_poly_ov false dsz)) : mac_apie (mac_poly dsz) :=
  {| mp_impl := (mp_impl p : ma_obj (mac_poly dsz)); mp_finalized := mp_finalized p |}.

Lemma mfin_le cx dsz p p' : mapie_do_finalize cx (mac_poly_ov false dsz) p = Some p' ->
  mapie_do_finalize cx (mac_poly dsz) (same_state dsz p) = Some (same_state dsz p').
Proof.
  unfold mapie_do_finalize. cbn [same_state mp_finalized]. destruct (mp_finalized p); [intros [= <-]; reflexivity|].
  intros E. destruct (ma_finalize (mac_poly_ov false dsz) cx (mp_impl p)) as [o|] eqn:F; [|discriminate E].
  injection E as <-. apply (finalize_le cx (mp_impl p)) in F.
  cbn [same_state mac_poly mac_poly_ov ma_finalize mp_impl]. rewrite F. reflexivity.
Qed.

Lemma mstep_le cx dsz p c p' o : mac_step cx (mac_poly_ov false dsz) p c = Some (p', o) ->
  mac_step cx (mac_poly dsz) (same_state dsz p) c = Some (same_state dsz p', o).
Proof.
  assert (Dg : forall p d s p' d' n, mapie_digest cx (mac_poly_ov false dsz) p d s = Some (p', d', n) ->
    mapie_digest cx (mac_poly dsz) (same_state dsz p) d s = Some (same_state dsz p', d', n)).
  { clear. intros p d s p' d' n E. unfold mapie_digest in *.
    destruct (mapie_do_finalize cx (mac_poly_ov false dsz) p) as [q|] eqn:F; [|discriminate E].
    rewrite (mfin_le cx dsz p q F). cbn [bind] in *.
    cbn [mac_poly mac_poly_ov ma_digest same_state mp_impl] in *.
    destruct (poly_digest cx dsz (mp_impl q) d s) as [[d2 n2]|]; [|discriminate E]. cbn [bind] in *.
    injection E as <- <- <-. reflexivity. }
  destruct c as [k|m|d s|c s]; cbn [mac_step]; intros E.
  - unfold mapie_initialize in *. cbn [mac_poly mac_poly_ov ma_initialize same_state mp_impl] in *.
    destruct (poly_initialize false cx (mp_impl p) k) as [x|] eqn:F; [|discriminate E].
    apply init_le in F. rewrite F. cbn [bind] in *. injection E as <- <-. reflexivity.
  - unfold mapie_update in *. cbn [mac_poly mac_poly_ov ma_update same_state mp_impl] in *.
    destruct (poly_update false cx (mp_impl p) m) as [x|] eqn:F; [|discriminate E].
    apply update_le in F. rewrite F. cbn [bind] in *. injection E as <- <-. reflexivity.
  - destruct (mapie_digest cx (mac_poly_ov false dsz) p d s) as [[[q d2] n]|] eqn:F; [|discriminate E].
    rewrite (Dg _ _ _ _ _ _ F). cbn [bind] in *. injection E as <- <-. reflexivity.
  - unfold mapie_digest_c in *.
    destruct (mapie_do_finalize cx (mac_poly_ov false dsz) p) as [q|] eqn:F; [|discriminate E].
    rewrite (mfin_le cx dsz p q F). cbn [bind] in *. cbv zeta in *.
    change (ma_digest_size (mac_poly_ov false dsz)) with dsz in *. change (ma_digest_size (mac_poly dsz)) with dsz.
    destruct (cresize c (Nat.min s dsz)) as [c1 s1].
    destruct (mapie_digest cx (mac_poly_ov false dsz) q (cdata c1) s1) as [[[r d2] n]|] eqn:G; [|discriminate E].
    rewrite (Dg _ _ _ _ _ _ G). cbn [bind] in *. injection E as <- <-. reflexivity.
Qed.

Lemma mrun_le cx dsz : forall calls p p' os, mac_run cx (mac_poly_ov false dsz) p calls = Some (p', os) ->
  mac_run cx (mac_poly dsz) (same_state dsz p) calls = Some (same_state dsz p', os).
Proof.
  induction calls as [|c calls IH]; intros p p' os E; cbn [mac_run] in *; [injection E as <- <-; reflexivity|].
  destruct (mac_step cx (mac_poly_ov false dsz) p c) as [[q o]|] eqn:F; [|discriminate E].
  rewrite (mstep_le _ _ _ _ _ _ F). cbn [bind] in *.
  destruct (mac_run cx (mac_poly_ov false dsz) q calls) as [[r os']|] eqn:G; [|discriminate E].
  rewrite (IH _ _ _ G). cbn [bind] in *. injection E as <- <-. reflexivity.
Qed.

Lemma no_overflow cx dsz key calls : (dsz <= 16)%nat -> bytes key ->
  Forall (mcall_ok bytes dsz) calls ->
  exists p p1 outs q q1,
    mapie_new cx (mac_poly_ov false dsz) key = Some p /\
    mac_run cx (mac_poly_ov false dsz) p calls = Some (p1, outs) /\
    mapie_new cx (mac_poly dsz) key = Some q /\ mac_run cx (mac_poly dsz) q calls = Some (q1, outs).
Proof.
  intros Hd Hk Hcs. destruct (mrun_total (poly_host false cx dsz Hd) key calls Hk Hcs) as (p & [p1 os] & E & R & _).
  exists p, p1, os, (same_state dsz p), (same_state dsz p1).
  split; [exact E|]. split; [exact R|]. split; [|apply mrun_le; exact R].
  unfold mapie_new, mapie_initialize in *. cbn [mac_poly mac_poly_ov ma_initialize ma_new mp_impl] in *.
  destruct (poly_initialize false cx poly_new key) as [x|] eqn:F; [|discriminate E].
  apply init_le in F. rewrite F. cbn [bind] in *. injection E as <-. reflexivity.
Qed.

Lemma pad_to_same n (l : list N) : length l = n -> pad_to n l = l.
Proof. intros L. unfold pad_to. rewrite firstn_all2, L, Nat.sub_diag by lia. apply app_nil_r. Qed.

Lemma poly1305_length key msg : length (poly1305 key msg) = 16%nat.
Proof. apply le_enc_length. Qed.
