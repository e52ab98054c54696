(** Key-stream reuse (C47). *)
From Verif Require Import Base BaseLemmas BytesLemmas Spec_Bytes Spec_ChaCha Spec_Range Model_Memory Model_Container Model_Cipher
  Spec_Cipher Proof_ChaChaCore Proof_ChaCha.
Local Open Scope N_scope.

Lemma block_ctr_inj c i j : N.of_nat i < 2 ^ 32 -> N.of_nat j < 2 ^ 32 ->
  (c + N.of_nat i) mod 2 ^ 32 = (c + N.of_nat j) mod 2 ^ 32 -> i = j.
Proof.
  intros Hi Hj H. apply Nat2N.inj. set (x := N.of_nat i) in *. set (y := N.of_nat j) in *. clearbody x y.
  pose proof (N.div_mod (c + x) (2 ^ 32) ltac:(discriminate)) as E1.
  pose proof (N.div_mod (c + y) (2 ^ 32) ltac:(discriminate)) as E2. rewrite H in E1.
  set (q1 := (c + x) / 2 ^ 32) in *. set (q2 := (c + y) / 2 ^ 32) in *. set (r := (c + y) mod 2 ^ 32) in *.
  clearbody q1 q2 r. change (2 ^ 32) with 4294967296 in *. nia.
Qed.

Lemma nth_chacha20 key c nonce t i : (i < length t)%nat ->
  nth i (chacha20 key c nonce t) 0 = N.lxor (nth i t 0) (chacha20_byte key c nonce i).
Proof. intros H. unfold chacha20. rewrite nth_xor_with by exact H. reflexivity. Qed.

Lemma byte_period key c nonce i : chacha20_byte key c nonce (i + N.to_nat (2 ^ 38)) = chacha20_byte key c nonce i.
Proof.
  unfold chacha20_byte. assert (E : N.to_nat (2 ^ 38) = (N.to_nat (2 ^ 32) * 64)%nat).
  { change 64%nat with (N.to_nat 64). rewrite <- N2Nat.inj_mul. reflexivity. }
  rewrite E, Nat.mod_add, Nat.div_add by discriminate.
  rewrite Nat2N.inj_add, N2Nat.id, N.add_assoc.
  replace ((c + N.of_nat (i / 64) + 2 ^ 32) mod 2 ^ 32) with ((c + N.of_nat (i / 64)) mod 2 ^ 32); [reflexivity|].
  rewrite <- (N.mod_add _ 1 (2 ^ 32)) by discriminate. rewrite N.mul_1_l. reflexivity.
Qed.
