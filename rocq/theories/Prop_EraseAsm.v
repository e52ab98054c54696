(** Property C42 for the functions in assembly (chacha_impl_hw_x86_64.asm:262-477, 746-980): what they leave below the
    stack pointer. *)
From Verif Require Import Base Spec_Bytes Model_X86 Model_Asm Spec_Abi Proof_AsmChaCha4 Prop_Abi.
Local Open Scope N_scope.

(** Refuted: whenever a function makes at least one iteration, the constants, the key and the nonce of the cipher (words 0
    to 11 and 13 to 15 of the state; 12 is the counter) are still in the memory below the stack pointer when it has
    returned, each word at the start of its slot of [w] bytes. *)
Definition state_below (b : abi) (w : nat) (c c' : cpu) : Prop := exists a,
  c_gpr c' rsp - 1032 <= a /\ a + N.of_nat (16 * w) < c_gpr c' rsp /\
  forall i, (i < 16)%nat -> i <> 12%nat -> mread (c_mem c') (a + N.of_nat (w * i)) 4 = mread (c_mem c) (argument b c 2 + 4 * N.of_nat i) 4.
Theorem C42_asm_stack_refuted : forall s b cpuid transform c t ra c', argument b c 1 <> 0 ->
  (cipher_call s b 256 transform c -> calls s b cpuid (if transform then ssse_3_transform b else ssse_3_generate b) c t ra c' -> state_below b 16 c c') /\
  (cipher_call s b 512 transform c -> calls s b cpuid (if transform then avx_2_transform b else avx_2_generate b) c t ra c' -> state_below b 32 c c').
Proof.
  intros s b cpuid tr c t ra c' Hb.
  assert (K : forall code w per core, goal s b cpuid code w per tr core -> cipher_call s b (16 * w) tr c -> calls s b cpuid code c t ra c' -> state_below b w c c').
  { intros code w per core Gl H R. destruct (Gl c H) as (d & R' & Rt & _ & _ & _ & L). destruct (C50_deterministic _ _ _ _ _ _ _ _ _ _ _ R R') as (_ & _ & ->).
    destruct (L Hb) as (a & A1 & A2 & A3). exists a. destruct Rt as [_ Sp _ _]. rewrite Sp. split; [lia|]. split; [lia|exact A3]. }
  destruct tr; split; intros H R.
  - exact (K _ 16%nat 4%nat _ (ssse_3_transform_ok s b cpuid) H R).
  - exact (K _ 32%nat 8%nat _ (avx_2_transform_ok s b cpuid) H R).
  - exact (K _ 16%nat 4%nat _ (ssse_3_generate_ok s b cpuid) H R).
  - exact (K _ 32%nat 8%nat _ (avx_2_generate_ok s b cpuid) H R).
Qed.
Print Assumptions C42_asm_stack_refuted.
(** The hypotheses can be met: there is such a call and it returns (C50_case_cipher, C50_chacha_ssse_3_transform). *)
Example C42_asm_case : forall b cpuid, exists t c', argument b (demo b 10 3 0x30000 0x40000 0x50000) 1 <> 0 /\
  calls demo_space b cpuid (ssse_3_transform b) (demo b 10 3 0x30000 0x40000 0x50000) t (return_address (demo b 10 3 0x30000 0x40000 0x50000)) c' /\
  state_below b 16 (demo b 10 3 0x30000 0x40000 0x50000) c'.
Proof.
  intros b cpuid. destruct (C50_case_cipher b true) as [H _]. destruct (C50_chacha_ssse_3_transform demo_space b cpuid _ H) as (t & c' & R & _).
  assert (N : argument b (demo b 10 3 0x30000 0x40000 0x50000) 1 <> 0) by (destruct b; discriminate).
  exists t, c'. split; [exact N|]. split; [exact R|]. exact (proj1 (C42_asm_stack_refuted demo_space b cpuid true _ t _ c' N) H R).
Qed.
