(** The routines in the terms of Spec_ChaChaAsm. *)
From Verif Require Import Base BaseLemmas BytesLemmas Spec_Bytes Spec_Range Proof_Range Spec_ChaCha Model_Memory Model_Dispatch Model_Cipher Spec_Cipher Spec_ChaChaAsm
  Model_X86 Model_ChaChaAsm Proof_ChaChaCore Proof_ChaChaAsm Proof_ChaChaAsm3.
Local Open Scope N_scope.

Lemma map_kbyte_word r st J : map (kbyte r st) (seq (4 * J) 4) = le_enc 4 (kw r st J).
Proof.
  rewrite Proof_X86Sym.seq_from, map_map. cbn [seq map]. rewrite !kbyte_word by lia. reflexivity.
Qed.
Lemma block_words r st b : length st = 16%nat -> words 32 st ->
  add_words (at_ctr st (N.of_nat b)) (Nat.iter r inner_block (at_ctr st (N.of_nat b))) = map (kw r st) (seq (16 * b) 16).
Proof.
  intros L W. assert (LS : length (at_ctr st (N.of_nat b)) = 16%nat) by (apply (at_ctr_ok st _ L W)).
  assert (LI := iter_inner_length r _ LS).
  apply (nth_ext _ _ 0 0).
  - rewrite add_words_length, map_length, seq_length by lia. exact LS.
  - intros j Hj. rewrite add_words_length, LS in Hj by lia. rewrite Proof_X86Sym.seq_from, map_map.
    rewrite (nth_map_seq (fun j => kw r st (16 * b + j))) by exact Hj. unfold kw.
    replace ((16 * b + j) / 16)%nat with b by (rewrite Nat.add_comm, Nat.mul_comm, Nat.div_add, Nat.div_small by lia; reflexivity).
    replace ((16 * b + j) mod 16)%nat with j by (rewrite Nat.add_comm, Nat.mul_comm, Nat.mod_add, Nat.mod_small by lia; reflexivity).
    reflexivity.
Qed.
Lemma serialize_kw r st : forall n J, serialize (map (kw r st) (seq J n)) = map (kbyte r st) (seq (4 * J) (4 * n)).
Proof.
  induction n as [|n IH]; intros J; [reflexivity|]. cbn [seq map]. unfold serialize. cbn [flat_map]. fold (serialize (map (kw r st) (seq (S J) n))).
  rewrite IH. replace (4 * S n)%nat with (4 + 4 * n)%nat by lia. rewrite seq_app, map_app, map_kbyte_word. do 3 f_equal. lia.
Qed.
Lemma blocks_kbyte r st n : length st = 16%nat -> words 32 st -> blocks_rounds r st n = map (kbyte r st) (seq 0 (64 * n)).
Proof.
  intros L W. unfold blocks_rounds, block_rounds.
  assert (H : forall n b, flat_map (fun b => serialize (add_words (at_ctr st (N.of_nat b)) (Nat.iter r inner_block (at_ctr st (N.of_nat b))))) (seq b n)
    = map (kbyte r st) (seq (64 * b) (64 * n))).
  { clear n. induction n as [|n IH]; intros b; [rewrite Nat.mul_0_r; reflexivity|]. cbn [seq flat_map]. rewrite IH.
    rewrite block_words by assumption. rewrite serialize_kw. replace (64 * S n)%nat with (4 * 16 + 64 * n)%nat by lia.
    rewrite seq_app, map_app. replace (4 * (16 * b))%nat with (64 * b)%nat by lia. do 3 f_equal. lia. }
  rewrite H, Nat.mul_0_r. reflexivity.
Qed.
Lemma xor_bytes_with f : forall t p, xor_bytes t (map f (seq p (length t))) = xor_with f p t.
Proof. induction t as [|x t IH]; intros p; [reflexivity|]. cbn [length seq map xor_bytes xor_with]. rewrite IH. reflexivity. Qed.
Lemma times_nonzero n : n <> 0 -> times n = N.to_nat n.
Proof. intros H. unfold times. destruct (N.eqb_spec n 0); [contradiction|reflexivity]. Qed.

Section S.
  Variables (jr jt jb : list vec) (rounds : N) (st m : list N).
  Hypothesis J : junk_ok jr jt jb.
  Hypothesis R : rounds <> 0.
  Hypothesis L : length st = 16%nat.
  Hypothesis W : words 32 st.
  Hypothesis Hm : bytes m.
  Lemma ssse_transform_blocks n d s : (d + 256 * n <= length m)%nat -> (s + 256 * n <= length m)%nat -> apart d s (256 * n) ->
    asm_ssse_transform jr jt jb rounds n st m d s
    = Some (put m d (xor_bytes (slice m s (256 * n)) (blocks_rounds (N.to_nat rounds) st (4 * n))), (4 * n)%nat).
  Proof.
    intros Hd Hs Ha. rewrite ssse_transform_spec by assumption. rewrite times_nonzero by exact R. do 3 f_equal.
    rewrite blocks_kbyte by assumption. replace (64 * (4 * n))%nat with (length (slice m s (256 * n))) by (rewrite slice_length; lia).
    rewrite xor_bytes_with. reflexivity.
  Qed.
  Lemma avx_transform_blocks n d s : (d + 512 * n <= length m)%nat -> (s + 512 * n <= length m)%nat -> apart d s (512 * n) ->
    asm_avx_transform jr jt jb rounds n st m d s
    = Some (put m d (xor_bytes (slice m s (512 * n)) (blocks_rounds (N.to_nat rounds) st (8 * n))), (8 * n)%nat).
  Proof.
    intros Hd Hs Ha. rewrite avx_transform_spec by assumption. rewrite times_nonzero by exact R. do 3 f_equal.
    rewrite blocks_kbyte by assumption. replace (64 * (8 * n))%nat with (length (slice m s (512 * n))) by (rewrite slice_length; lia).
    rewrite xor_bytes_with. reflexivity.
  Qed.
  Lemma ssse_generate_blocks n d : (d + 256 * n <= length m)%nat ->
    asm_ssse_generate jr jt jb rounds n st m d = Some (put m d (blocks_rounds (N.to_nat rounds) st (4 * n)), (4 * n)%nat).
  Proof.
    intros Hd. rewrite ssse_generate_spec by assumption. rewrite times_nonzero by exact R. rewrite blocks_kbyte by assumption.
    replace (64 * (4 * n))%nat with (256 * n)%nat by lia. reflexivity.
  Qed.
  Lemma avx_generate_blocks n d : (d + 512 * n <= length m)%nat ->
    asm_avx_generate jr jt jb rounds n st m d = Some (put m d (blocks_rounds (N.to_nat rounds) st (8 * n)), (8 * n)%nat).
  Proof.
    intros Hd. rewrite avx_generate_spec by assumption. rewrite times_nonzero by exact R. rewrite blocks_kbyte by assumption.
    replace (64 * (8 * n))%nat with (512 * n)%nat by lia. reflexivity.
  Qed.
End S.

Definition runs_on_b (w : nat) (req : list feature) (p : list instr) : bool :=
  forallb (fun i => encodable w i && forallb (has_feature req) (if (w =? 16)%nat then needs_sse i else needs_vex256 i)) p.
Lemma runs_on_dec w req p : runs_on_b w req p = true -> runs_on w req p.
Proof.
  intros H i Hi. pose proof (proj1 (forallb_forall _ _) H i Hi) as Q. apply andb_prop in Q. destruct Q as [Q1 Q2]. split; [exact Q1|].
  intros f Hf. pose proof (proj1 (forallb_forall _ _) Q2 f Hf) as Q3. unfold has_feature in Q3. destruct (in_dec feature_eq_dec f req); [assumption|discriminate].
Qed.
