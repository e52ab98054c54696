(** Sized loads and stores between values and array elements of any sizes. *)
From Verif Require Import Base BaseLemmas Spec_Bytes Model_Memory BytesLemmas Proof_Memory Proof_Memory2 Proof_Memory3.
Local Open Scope N_scope.

Lemma zero_value b n : obj_value b (repeat 0 n) = 0.
Proof.
  assert (Hz : le_dec (repeat 0 n) = 0).
  { induction n as [|v IH]; [reflexivity|]. cbn [repeat le_dec]. rewrite IH. reflexivity. }
  assert (Hr : rev (repeat 0 n) = repeat 0 n).
  { clear. induction n as [|v IH]; [reflexivity|]. cbn [repeat rev]. rewrite IH.
    clear. induction v as [|v IH]; [reflexivity|]. cbn [repeat app]. rewrite IH. reflexivity. }
  destruct b; cbn [obj_value]; [rewrite be_dec_le, Hr|]; exact Hz.
Qed.

Lemma min_scale ps n k : (0 < ps)%nat -> Nat.min (ps * k) (ps * n) = (ps * Nat.min n k)%nat.
Proof. intros H. destruct (Nat.le_ge_cases n k); [rewrite (Nat.min_l n k) by lia|rewrite (Nat.min_r n k) by lia]; nia. Qed.

Lemma mem_load_n_spec cx vs ps arr off n :
  int_size vs -> int_size ps -> words (bits ps) arr -> (off * vs + Nat.min vs (ps * n) <= length arr * ps)%nat ->
  mem_load_n cx vs ps arr off n
  = Some (obj_value (cx_big cx) (pad_to vs (firstn (Nat.min vs (ps * n)) (skipn (off * vs) (arr_bytes (cx_big cx) ps arr))))).
Proof.
  intros Hv Hp Hw Hl.
  pose proof (int_size_pos _ Hv) as Hv0. pose proof (int_size_pos _ Hp) as Hp0.
  assert (L : length (firstn (Nat.min vs (ps * n)) (skipn (off * vs) (arr_bytes (cx_big cx) ps arr))) = Nat.min vs (ps * n))
    by (apply slice_length; rewrite arr_bytes_length; exact Hl).
  unfold pad_to. rewrite firstn_all2 by (rewrite L; lia). rewrite L.
  unfold mem_load_n. destruct (cx_ce cx) eqn:Ece.
  2:{ cbv zeta. rewrite rds_some by (rewrite arr_bytes_length; lia). reflexivity. }
  cbv zeta. destruct (Nat.eqb_spec n 0) as [->|Hn].
  { rewrite Nat.mul_0_r, Nat.min_0_r, Nat.sub_0_r, firstn_O. cbn [app]. rewrite zero_value. reflexivity. }
  destruct (size_cases vs ps Hv Hp) as [E | [(k & Hk & E) | (k & Hk & E)]].
  - pose proof (mem_load_spec cx vs ps arr off Hv Hp Hw) as M. 
    assert (Mn : Nat.min vs (ps * n) = vs) by nia. rewrite Mn in *. subst vs. rewrite Nat.sub_diag. cbn [repeat]. rewrite app_nil_r.
    specialize (M Hl). unfold mem_load in M. rewrite Nat.eqb_refl in *. exact M.
  - pose proof (mem_load_spec cx vs ps arr off Hv Hp Hw) as M. 
    assert (Mn : Nat.min vs (ps * n) = vs) by nia. rewrite Mn in *. rewrite Nat.sub_diag. cbn [repeat]. rewrite app_nil_r.
    specialize (M Hl). destruct (part_facts vs k off Hv0 Hk) as (F1 & F2 & F3 & F4 & F5). subst ps.
    unfold mem_load in M. rewrite Ece in M. 
    replace (vs =? vs * k)%nat with false in *.
    2:{ symmetry. apply Nat.eqb_neq. rewrite <- (Nat.mul_1_r vs) at 1. intros H.
        apply Nat.mul_cancel_l in H; lia. }
    rewrite F5 in *. exact M.
  - destruct (full_facts ps k off Hp0 Hk) as (F1 & F2 & F3 & F4 & F5). subst vs.
    rewrite F5, F1, F3, F4. cbn [Nat.ltb Nat.leb].
    rewrite min_scale in * by lia. set (t := Nat.min n k) in *.
    assert (Ht : (0 < t <= k)%nat) by (unfold t; lia). clearbody t.
    assert (Ho : (off * k + t <= length arr)%nat).
    { apply (Nat.mul_le_mono_pos_r _ _ ps); [lia|nia]. }
    destruct (split_mid arr (off * k) t Ho) as (pre & mid & post & -> & Hpre & Hm).
    rewrite <- Hpre.
    assert (Hwm : words (bits ps) mid).
    { apply Forall_app in Hw. destruct Hw as [_ Hw]. apply Forall_app in Hw. tauto. }
    replace (load_order cx t) with (load_order cx (length mid)) by (rewrite Hm; reflexivity).
    rewrite load_loop_mid by (try assumption; nia). cbn [bind]. f_equal.
    rewrite !arr_bytes_app.
    rewrite slice_mid by (rewrite arr_bytes_length, ?Hpre, ?Hm; lia).
    set (B := arr_bytes (cx_big cx) ps mid).
    assert (HB : bytes B) by apply arr_bytes_bytes.
    assert (HL : length B = (ps * t)%nat) by (unfold B; rewrite arr_bytes_length, Hm; lia).
    clearbody B. pose proof (zero_value (cx_big cx) (ps * k - ps * t)) as Z.
    replace (ps * (k - t))%nat with (ps * k - ps * t)%nat by nia.
    assert (HD : (ps * t <= ps * k)%nat) by nia.
    destruct (cx_big cx); cbn [obj_value] in *.
    + rewrite be_dec_app, repeat_length, Z, N.add_0_r. unfold wshl. rewrite N.shiftl_mul_pow2, pow256.
      apply N.mod_small. rewrite pow256.
      replace (N.of_nat (ps * k)) with (N.of_nat (ps * t) + N.of_nat (ps * k - ps * t)) by lia.
      rewrite N.pow_add_r. apply N.mul_lt_mono_pos_r; [apply pow256_pos|].
      rewrite <- HL. apply be_dec_lt. assumption.
    + rewrite le_dec_app, Z. lia.
Qed.

Lemma pad_to_length n l : length (pad_to n l) = n.
Proof. unfold pad_to. rewrite app_length, firstn_length, repeat_length. lia. Qed.
Lemma pad_to_bytes n l : bytes l -> bytes (pad_to n l).
Proof.
  intros H. unfold pad_to. apply bytes_app. split; [apply bytes_firstn; exact H|].
  apply Forall_forall. intros x Hx. apply repeat_spec in Hx. subst x. unfold is_byte. lia.
Qed.

Lemma mem_load_be_n_spec cx vs ps arr off n :
  int_size vs -> int_size ps -> words (bits ps) arr -> (off * vs + Nat.min vs (ps * n) <= length arr * ps)%nat ->
  mem_load_be_n cx vs ps arr off n
  = Some (be_dec (pad_to vs (firstn (Nat.min vs (ps * n)) (skipn (off * vs) (arr_bytes (cx_big cx) ps arr))))).
Proof.
  intros Hv Hp Hw Hl. unfold mem_load_be_n. rewrite mem_load_n_spec by assumption. cbn [bind]. f_equal.
  set (B := firstn _ (skipn _ _)). assert (HB : bytes B) by apply slice_bytes.
  rewrite <- (pad_to_length vs B) at 1. apply bigof_value; [rewrite pad_to_length; assumption|apply pad_to_bytes; exact HB].
Qed.
Lemma mem_load_le_n_spec cx vs ps arr off n :
  int_size vs -> int_size ps -> words (bits ps) arr -> (off * vs + Nat.min vs (ps * n) <= length arr * ps)%nat ->
  mem_load_le_n cx vs ps arr off n
  = Some (le_dec (pad_to vs (firstn (Nat.min vs (ps * n)) (skipn (off * vs) (arr_bytes (cx_big cx) ps arr))))).
Proof.
  intros Hv Hp Hw Hl. unfold mem_load_le_n. rewrite mem_load_n_spec by assumption. cbn [bind]. f_equal.
  set (B := firstn _ (skipn _ _)). assert (HB : bytes B) by apply slice_bytes.
  rewrite <- (pad_to_length vs B) at 1. apply littleof_value; [rewrite pad_to_length; assumption|apply pad_to_bytes; exact HB].
Qed.

Lemma mem_stor_n_spec cx vs ps arr off val n :
  int_size vs -> int_size ps -> words (bits ps) arr -> val < 2 ^ bits vs ->
  (off * vs + Nat.min vs (ps * n) <= length arr * ps)%nat ->
  mem_stor_n cx vs ps arr off val n
  = stor_bytes cx ps arr (off * vs) (firstn (Nat.min vs (ps * n)) (obj_bytes (cx_big cx) vs val)).
Proof.
  intros Hv Hp Hw Hval Hl.
  pose proof (int_size_pos _ Hv) as Hv0. pose proof (int_size_pos _ Hp) as Hp0.
  unfold mem_stor_n. destruct (cx_ce cx) eqn:Ece; [|reflexivity].
  cbv zeta. destruct (Nat.eqb_spec n 0) as [->|Hn].
  { rewrite Nat.mul_0_r, Nat.min_0_r in *. rewrite firstn_O. unfold stor_bytes.
    rewrite wrs_some by (rewrite arr_bytes_length; cbn [length]; lia). cbn [bind length app].
    rewrite Nat.add_0_r in *. rewrite (firstn_skipn (off * vs) (arr_bytes (cx_big cx) ps arr)), arr_of_bytes_arr by assumption. reflexivity. }
  assert (Full : (vs <= ps * n)%nat -> firstn (Nat.min vs (ps * n)) (obj_bytes (cx_big cx) vs val) = obj_bytes (cx_big cx) vs val).
  { intros Q. rewrite Nat.min_l by exact Q. apply firstn_all2. rewrite obj_bytes_length. lia. }
  destruct (size_cases vs ps Hv Hp) as [E | [(k & Hk & E) | (k & Hk & E)]].
  - pose proof (mem_stor_spec cx vs ps arr off val Hv Hp Hw Hval) as M.
    rewrite Full by nia. rewrite Nat.min_l in Hl by nia. specialize (M Hl). subst vs.
    unfold mem_stor in M. rewrite Nat.eqb_refl in *. exact M.
  - pose proof (mem_stor_spec cx vs ps arr off val Hv Hp Hw Hval) as M.
    rewrite Full by nia. rewrite Nat.min_l in Hl by nia. specialize (M Hl).
    destruct (part_facts vs k off Hv0 Hk) as (F1 & F2 & F3 & F4 & F5). subst ps.
    unfold mem_stor in M. rewrite Ece in M. 
    replace (vs =? vs * k)%nat with false in *.
    2:{ symmetry. apply Nat.eqb_neq. rewrite <- (Nat.mul_1_r vs) at 1. intros H.
        apply Nat.mul_cancel_l in H; lia. }
    rewrite F5 in *. exact M.
  - clear Full. destruct (full_facts ps k off Hp0 Hk) as (F1 & F2 & F3 & F4 & F5). subst vs.
    rewrite F5, F1, F3, F4. cbn [Nat.ltb Nat.leb].
    rewrite min_scale in * by lia. set (t := Nat.min n k) in *.
    assert (Ht : (0 < t <= k)%nat) by (unfold t; lia). clearbody t.
    assert (Ho : (off * k + t <= length arr)%nat).
    { apply (Nat.mul_le_mono_pos_r _ _ ps); [lia|nia]. }
    replace (off * (ps * k))%nat with (off * k * ps)%nat by lia.
    assert (HD : (ps * t <= ps * k)%nat) by nia.
    unfold stor_order. destruct (cx_big cx) eqn:Eb; cbn [obj_bytes].
    + rewrite stor_loop_be by assumption.
      replace (firstn (ps * t) (be_enc (ps * k) val))
        with (be_enc (t * ps) (N.shiftr val (bits (ps * (k - t))))).
      * rewrite <- words_le_be_bytes, <- Eb.
        apply stor_bytes_words; [assumption|apply Forall_rev, words_le_words|rewrite rev_length, words_le_length; assumption].
      * unfold be_enc. rewrite firstn_rev, le_enc_length. f_equal.
        rewrite skipn_le_enc by lia. replace (ps * k - (ps * k - ps * t))%nat with (t * ps)%nat by lia. f_equal.
        rewrite N.shiftr_div_pow2, pow256. f_equal. f_equal. nia.
    + rewrite stor_loop_le by lia. rewrite Nat.add_0_r, firstn_le_enc, (Nat.mul_comm ps t), <- words_le_bytes, <- Eb by lia.
      apply stor_bytes_words; [assumption|apply words_le_words|rewrite words_le_length; assumption].
Qed.

Lemma sized_stor cx vs ps arr off (l : list N) n : words (bits ps) arr -> bytes l -> length l = vs ->
  (off * vs + Nat.min vs (ps * n) <= length arr * ps)%nat ->
  exists arr', stor_bytes cx ps arr (off * vs) (firstn (Nat.min vs (ps * n)) l) = Some arr' /\ words (bits ps) arr' /\ length arr' = length arr /\
    arr_bytes (cx_big cx) ps arr'
    = firstn (off * vs) (arr_bytes (cx_big cx) ps arr) ++ firstn (Nat.min vs (ps * n)) l
      ++ skipn (off * vs + Nat.min vs (ps * n)) (arr_bytes (cx_big cx) ps arr).
Proof.
  intros Hw Hb Hll Hl.
  assert (L : length (firstn (Nat.min vs (ps * n)) l) = Nat.min vs (ps * n)) by (rewrite firstn_length; lia).
  destruct (stor_bytes_result cx ps arr (off * vs) (firstn (Nat.min vs (ps * n)) l) (bytes_firstn _ _ Hb) Hw ltac:(rewrite L; exact Hl))
    as (a & E & La & Wa & A).
  exists a. rewrite L in A. repeat split; assumption.
Qed.

Lemma mem_stor_be_n_spec cx vs ps arr off val n :
  int_size vs -> int_size ps -> words (bits ps) arr -> val < 2 ^ bits vs ->
  (off * vs + Nat.min vs (ps * n) <= length arr * ps)%nat ->
  exists arr', mem_stor_be_n cx vs ps arr off val n = Some arr' /\ words (bits ps) arr' /\ length arr' = length arr /\
    arr_bytes (cx_big cx) ps arr'
    = firstn (off * vs) (arr_bytes (cx_big cx) ps arr) ++ firstn (Nat.min vs (ps * n)) (be_enc vs val)
      ++ skipn (off * vs + Nat.min vs (ps * n)) (arr_bytes (cx_big cx) ps arr).
Proof.
  intros Hv Hp Hw Hval Hl. unfold mem_stor_be_n. rewrite mem_stor_n_spec by (try assumption; apply bigof_lt; assumption).
  rewrite bigof_bytes by assumption. apply sized_stor; [assumption|apply be_enc_bytes|apply be_enc_length|assumption].
Qed.
Lemma mem_stor_le_n_spec cx vs ps arr off val n :
  int_size vs -> int_size ps -> words (bits ps) arr -> val < 2 ^ bits vs ->
  (off * vs + Nat.min vs (ps * n) <= length arr * ps)%nat ->
  exists arr', mem_stor_le_n cx vs ps arr off val n = Some arr' /\ words (bits ps) arr' /\ length arr' = length arr /\
    arr_bytes (cx_big cx) ps arr'
    = firstn (off * vs) (arr_bytes (cx_big cx) ps arr) ++ firstn (Nat.min vs (ps * n)) (le_enc vs val)
      ++ skipn (off * vs + Nat.min vs (ps * n)) (arr_bytes (cx_big cx) ps arr).
Proof.
  intros Hv Hp Hw Hval Hl. unfold mem_stor_le_n. rewrite mem_stor_n_spec by (try assumption; apply littleof_lt; assumption).
  rewrite littleof_bytes by assumption. apply sized_stor; [assumption|apply le_enc_bytes|apply le_enc_length|assumption].
Qed.
