(** Property C50: the assembly routines as functions called from C++. *)
From Verif Require Import Base BaseLemmas Spec_Bytes Spec_Sha Model_X86 Model_ChaChaAsm Model_ShaAsm Model_Asm Spec_Abi Spec_ChaCha Spec_ChaChaAsm
  Proof_ShaCore Proof_AsmChaCha4 Proof_AsmSha2 Proof_AsmCpuid Proof_Asm.
Local Open Scope N_scope.

(** *** For both calling conventions, every state of the machine at the call, every address, alignment and length: the
    function returns to its caller without touching memory it has no right to (or stack below the stack pointer), the
    registers the caller relies on are as before, memory changes only in the destination and in at most 1024 bytes of
    unused stack, and the destination and the return value are what C43 says.  [t]: the trace. *)
Theorem C50_chacha_ssse_3_transform : forall s b cpuid c, cipher_call s b 256 true c -> exists t c',
  calls s b cpuid (ssse_3_transform b) c t (return_address c) c' /\ returned b c (return_address c) c' /\
  c_gpr c' rax = 4 * argument b c 1 /\
  mread (c_mem c') (argument b c 3) (256 * N.to_nat (argument b c 1))
  = xor_bytes (mread (c_mem c) (argument b c 4) (256 * N.to_nat (argument b c 1)))
      (blocks_rounds (N.to_nat (argument b c 0)) (le_words 4 16 (mread (c_mem c) (argument b c 2) 64)) (4 * N.to_nat (argument b c 1))) /\
  only_changes c c' (argument b c 3) (256 * argument b c 1).
Proof. intros s b cpuid c H. destruct (ssse_3_transform_ok s b cpuid c H) as (c' & K1 & K2 & K3 & K4 & K5 & _). eexists. exists c'. repeat (split; [eassumption|]). exact K5. Qed.
Print Assumptions C50_chacha_ssse_3_transform.
Theorem C50_chacha_ssse_3_generate : forall s b cpuid c, cipher_call s b 256 false c -> exists t c',
  calls s b cpuid (ssse_3_generate b) c t (return_address c) c' /\ returned b c (return_address c) c' /\
  c_gpr c' rax = 4 * argument b c 1 /\
  mread (c_mem c') (argument b c 3) (256 * N.to_nat (argument b c 1))
  = blocks_rounds (N.to_nat (argument b c 0)) (le_words 4 16 (mread (c_mem c) (argument b c 2) 64)) (4 * N.to_nat (argument b c 1)) /\
  only_changes c c' (argument b c 3) (256 * argument b c 1).
Proof. intros s b cpuid c H. destruct (ssse_3_generate_ok s b cpuid c H) as (c' & K1 & K2 & K3 & K4 & K5 & _). eexists. exists c'. repeat (split; [eassumption|]). exact K5. Qed.
Print Assumptions C50_chacha_ssse_3_generate.
Theorem C50_chacha_avx_2_transform : forall s b cpuid c, cipher_call s b 512 true c -> exists t c',
  calls s b cpuid (avx_2_transform b) c t (return_address c) c' /\ returned b c (return_address c) c' /\
  c_gpr c' rax = 8 * argument b c 1 /\
  mread (c_mem c') (argument b c 3) (512 * N.to_nat (argument b c 1))
  = xor_bytes (mread (c_mem c) (argument b c 4) (512 * N.to_nat (argument b c 1)))
      (blocks_rounds (N.to_nat (argument b c 0)) (le_words 4 16 (mread (c_mem c) (argument b c 2) 64)) (8 * N.to_nat (argument b c 1))) /\
  only_changes c c' (argument b c 3) (512 * argument b c 1).
Proof. intros s b cpuid c H. destruct (avx_2_transform_ok s b cpuid c H) as (c' & K1 & K2 & K3 & K4 & K5 & _). eexists. exists c'. repeat (split; [eassumption|]). exact K5. Qed.
Print Assumptions C50_chacha_avx_2_transform.
Theorem C50_chacha_avx_2_generate : forall s b cpuid c, cipher_call s b 512 false c -> exists t c',
  calls s b cpuid (avx_2_generate b) c t (return_address c) c' /\ returned b c (return_address c) c' /\
  c_gpr c' rax = 8 * argument b c 1 /\
  mread (c_mem c') (argument b c 3) (512 * N.to_nat (argument b c 1))
  = blocks_rounds (N.to_nat (argument b c 0)) (le_words 4 16 (mread (c_mem c) (argument b c 2) 64)) (8 * N.to_nat (argument b c 1)) /\
  only_changes c c' (argument b c 3) (512 * argument b c 1).
Proof. intros s b cpuid c H. destruct (avx_2_generate_ok s b cpuid c H) as (c' & K1 & K2 & K3 & K4 & K5 & _). eexists. exists c'. repeat (split; [eassumption|]). exact K5. Qed.
Print Assumptions C50_chacha_avx_2_generate.

(** *** The SHA functions: the state is the only destination. *)
Theorem C50_sha_1_160 : forall s b cpuid c, hash_call s b 5 c -> exists t c',
  calls s b cpuid (sha_1_160_ni_blocks b) c t (return_address c) c' /\ returned b c (return_address c) c' /\
  c_gpr c' rax = argument b c 0 /\
  le_words 4 5 (mread (c_mem c') (argument b c 1) 20)
  = iter_blocks 64 (N.to_nat (argument b c 0)) sha1_compress (le_words 4 5 (mread (c_mem c) (argument b c 1) 20))
      (mread (c_mem c) (argument b c 2) (64 * N.to_nat (argument b c 0))) /\
  only_changes c c' (argument b c 1) 20.
Proof. intros s b cpuid c H. destruct (sha_1_160_ok s b cpuid c H) as (c' & K). eexists. exists c'. exact K. Qed.
Print Assumptions C50_sha_1_160.
Theorem C50_sha_2_256 : forall s b cpuid c, hash_call s b 8 c -> exists t c',
  calls s b cpuid (sha_2_256_ni_blocks b) c t (return_address c) c' /\ returned b c (return_address c) c' /\
  c_gpr c' rax = argument b c 0 /\
  le_words 4 8 (mread (c_mem c') (argument b c 1) 32)
  = iter_blocks 64 (N.to_nat (argument b c 0)) (sha2_compress sha2_32) (le_words 4 8 (mread (c_mem c) (argument b c 1) 32))
      (mread (c_mem c) (argument b c 2) (64 * N.to_nat (argument b c 0))) /\
  only_changes c c' (argument b c 1) 32.
Proof. intros s b cpuid c H. destruct (sha_2_256_ok s b cpuid c H) as (c' & K). eexists. exists c'. exact K. Qed.
Print Assumptions C50_sha_2_256.

(** *** CPUID: whatever the processor answers is stored as eax, ebx, ecx, edx; rbx, which the instruction overwrites, is
    restored. *)
Theorem C50_cpuid : forall s b cpuid c, cpuid_call s b c -> exists t c',
  calls s b cpuid (cpuid_code b) c t (return_address c) c' /\ returned b c (return_address c) c' /\
  (let '(eax, ebx, ecx, edx) := cpuid (argument b c 1 mod 2 ^ 32) (argument b c 2 mod 2 ^ 32) in
   mread (c_mem c') (argument b c 0) 16 = le_enc 4 (eax mod 2 ^ 32) ++ le_enc 4 (ebx mod 2 ^ 32) ++ le_enc 4 (ecx mod 2 ^ 32) ++ le_enc 4 (edx mod 2 ^ 32)) /\
  (forall x, x < argument b c 0 \/ argument b c 0 + 16 <= x -> c_mem c' x = c_mem c x).
Proof. intros s b cpuid c H. destruct (cpuid_ok s b cpuid c H) as (c' & K). eexists. exists c'. exact K. Qed.
Print Assumptions C50_cpuid.

(** *** There is no other execution. *)
Theorem C50_deterministic : forall s b cpuid code c t1 ra1 c1 t2 ra2 c2,
  calls s b cpuid code c t1 ra1 c1 -> calls s b cpuid code c t2 ra2 c2 -> t1 = t2 /\ ra1 = ra2 /\ c1 = c2.
Proof. intros s b cpuid code c t1 ra1 c1 t2 ra2 c2 H1 H2. exact (runs_det _ _ _ _ _ _ _ _ _ H1 _ _ _ H2). Qed.
Print Assumptions C50_deterministic.

(** *** Constant time: two calls with the same stack pointer and arguments (addresses, numbers of rounds and blocks) make
    the same branches and access the same addresses in the same order, whatever the memory (key, nonce, text, hashed
    data) and the other registers hold. *)
Theorem C50_chacha_constant_time : forall s b cpuid transform c1 c2 t1 ra1 c1' t2 ra2 c2',
  c_gpr c1 rsp = c_gpr c2 rsp -> (forall i, (i < 5)%nat -> argument b c1 i = argument b c2 i) ->
  (cipher_call s b 256 transform c1 -> cipher_call s b 256 transform c2 ->
   calls s b cpuid (if transform then ssse_3_transform b else ssse_3_generate b) c1 t1 ra1 c1' ->
   calls s b cpuid (if transform then ssse_3_transform b else ssse_3_generate b) c2 t2 ra2 c2' -> t1 = t2) /\
  (cipher_call s b 512 transform c1 -> cipher_call s b 512 transform c2 ->
   calls s b cpuid (if transform then avx_2_transform b else avx_2_generate b) c1 t1 ra1 c1' ->
   calls s b cpuid (if transform then avx_2_transform b else avx_2_generate b) c2 t2 ra2 c2' -> t1 = t2).
Proof.
  intros s b cpuid [|] c1 c2 t1 ra1 c1' t2 ra2 c2' Es Ea; (assert (E : forall tr i, (i < 4)%nat \/ (i < 5)%nat /\ tr = true -> argument b c1 i = argument b c2 i) by (intros tr i Hi; apply Ea; lia)); split; intros H1 H2 R1 R2.
  - exact (goal_ct s b cpuid _ 16 4 true _ (ssse_3_transform_ok s b cpuid) c1 c2 H1 H2 Es (E true) _ _ _ _ _ _ R1 R2).
  - exact (goal_ct s b cpuid _ 32 8 true _ (avx_2_transform_ok s b cpuid) c1 c2 H1 H2 Es (E true) _ _ _ _ _ _ R1 R2).
  - exact (goal_ct s b cpuid _ 16 4 false _ (ssse_3_generate_ok s b cpuid) c1 c2 H1 H2 Es (E false) _ _ _ _ _ _ R1 R2).
  - exact (goal_ct s b cpuid _ 32 8 false _ (avx_2_generate_ok s b cpuid) c1 c2 H1 H2 Es (E false) _ _ _ _ _ _ R1 R2).
Qed.
Print Assumptions C50_chacha_constant_time.
Theorem C50_sha_constant_time : forall s b cpuid c1 c2 t1 ra1 c1' t2 ra2 c2',
  c_gpr c1 rsp = c_gpr c2 rsp -> (forall i, (i < 3)%nat -> argument b c1 i = argument b c2 i) ->
  (hash_call s b 5 c1 -> hash_call s b 5 c2 ->
   calls s b cpuid (sha_1_160_ni_blocks b) c1 t1 ra1 c1' -> calls s b cpuid (sha_1_160_ni_blocks b) c2 t2 ra2 c2' -> t1 = t2) /\
  (hash_call s b 8 c1 -> hash_call s b 8 c2 ->
   calls s b cpuid (sha_2_256_ni_blocks b) c1 t1 ra1 c1' -> calls s b cpuid (sha_2_256_ni_blocks b) c2 t2 ra2 c2' -> t1 = t2).
Proof.
  intros s b cpuid c1 c2 t1 ra1 c1' t2 ra2 c2' Es Ea. split; intros H1 H2 R1 R2.
  - exact (sgoal_ct s b cpuid _ _ _ _ _ _ _ (sha_1_160_ok s b cpuid) c1 c2 H1 H2 Es Ea _ _ _ _ _ _ R1 R2).
  - exact (sgoal_ct s b cpuid _ _ _ _ _ _ _ (sha_2_256_ok s b cpuid) c1 c2 H1 H2 Es Ea _ _ _ _ _ _ R1 R2).
Qed.
Print Assumptions C50_sha_constant_time.

(** *** The hypotheses can be met: a stack from 0x10000 to 0x20000, buffers above it; the fifth argument under the
    Microsoft convention is on the stack, and the state, the text and the digest state differ byte by byte. *)
Definition demo_mem (b : abi) (x : N) : N :=
  if (0x18000 <=? x) && (x <? 0x20000) then (if (match b with Wind => true | Unix => false end) && (x =? 0x18032) then 5 else 0) else x mod 251.
Definition demo (b : abi) (a0 a1 a2 a3 a4 : N) : cpu :=
  {| c_gpr := fun r => match b, r with
       | _, rsp => 0x18008
       | Unix, rdi => a0 | Unix, rsi => a1 | Unix, rdx => a2 | Unix, rcx => a3 | Unix, r8 => a4
       | Wind, rcx => a0 | Wind, rdx => a1 | Wind, r8 => a2 | Wind, r9 => a3 | _, _ => 0 end;
     c_ymm := fun i => repeat (N.of_nat (Nat.min i 15)) 8; c_mem := demo_mem b; c_zf := false |}.
Definition demo_space : space := {| sp_rd := fun _ => true; sp_wr := fun _ => true; sp_low := 0x10000 |}.
Lemma demo_machine b a0 a1 a2 a3 a4 : a0 < 2 ^ 64 -> a1 < 2 ^ 64 -> a2 < 2 ^ 64 -> a3 < 2 ^ 64 -> a4 < 2 ^ 64 -> machine (demo b a0 a1 a2 a3 a4).
Proof.
  intros H0 H1 H2 H3 H4. split; [|split].
  - intros r. destruct b, r; cbn; try assumption; reflexivity.
  - intros i. split; [reflexivity|]. apply Forall_forall. intros x Hx. apply repeat_spec in Hx. subst x. apply N.le_lt_trans with 15; [lia|reflexivity].
  - intros x. cbn [demo c_mem]. unfold demo_mem, is_byte. destruct (_ && _); [destruct (_ && _); reflexivity|].
    apply N.lt_trans with 251; [apply N.mod_lt; discriminate|reflexivity].
Qed.
Lemma demo_arg b a0 a1 a2 a3 a4 : argument b (demo b a0 a1 a2 a3 a4) 0 = a0 /\ argument b (demo b a0 a1 a2 a3 a4) 1 = a1 /\ argument b (demo b a0 a1 a2 a3 a4) 2 = a2 /\
  argument b (demo b a0 a1 a2 a3 a4) 3 = a3 /\ (a4 = 0x50000 -> argument b (demo b a0 a1 a2 a3 a4) 4 = a4).
Proof. destruct b; repeat split. intros ->. vm_compute. reflexivity. Qed.
Lemma demo_entered b a0 a1 a2 a3 a4 : entered demo_space b (demo b a0 a1 a2 a3 a4).
Proof. unfold entered. destruct b; cbn [demo c_gpr]; repeat split; discriminate. Qed.
Lemma demo_off b a0 a1 a2 a3 a4 a n : 0x20000 <= a -> off_stack demo_space (demo b a0 a1 a2 a3 a4) a n.
Proof. intros H. right. destruct b; cbn [demo demo_space sp_low c_gpr]; lia. Qed.
Example C50_case_cipher : forall b transform, cipher_call demo_space b 256 transform (demo b 10 3 0x30000 0x40000 0x50000) /\
  cipher_call demo_space b 512 transform (demo b 10 3 0x30000 0x40000 0x50000).
Proof.
  intros b tr. destruct (demo_arg b 10 3 0x30000 0x40000 0x50000) as (E0 & E1 & E2 & E3 & E4). specialize (E4 eq_refl).
  split; constructor; rewrite ?E0, ?E1, ?E2, ?E3, ?E4; try (apply demo_machine; reflexivity); try apply demo_entered; try discriminate.
  all: try (split; [split; [reflexivity|intros x _; reflexivity]|]). all: try (apply demo_off; discriminate).
  all: try (split; [apply demo_off; discriminate|right; discriminate]).
  all: split; [apply demo_off; discriminate|right; left; discriminate].
Qed.
Example C50_case_hash : forall b, hash_call demo_space b 5 (demo b 3 0x30000 0x40000 0 0) /\ hash_call demo_space b 8 (demo b 3 0x30000 0x40000 0 0).
Proof.
  intros b. destruct (demo_arg b 3 0x30000 0x40000 0 0) as (E0 & E1 & E2 & _).
  split; constructor; rewrite ?E0, ?E1, ?E2; try (apply demo_machine; reflexivity); try apply demo_entered.
  all: try (left; discriminate). all: split; [split; [reflexivity|intros x _; reflexivity]|]; try (apply demo_off; discriminate).
  all: split; [split; [reflexivity|intros x _; reflexivity]|]; apply demo_off; discriminate.
Qed.
Example C50_case_cpuid : forall b, cpuid_call demo_space b (demo b 0x30000 7 (2 ^ 40) 0 0).
Proof.
  intros b. destruct (demo_arg b 0x30000 7 (2 ^ 40) 0 0) as (E0 & _).
  constructor; rewrite ?E0; [apply demo_machine; reflexivity|apply demo_entered|].
  split; [split; [reflexivity|intros x _; reflexivity]|apply demo_off; discriminate].
Qed.
(** Access rights matter: with a destination that cannot be written there is no execution. *)
Example C50_case_fault : step {| sp_rd := fun _ => true; sp_wr := fun _ => false; sp_low := 0x10000 |} Unix (fun _ _ => (1, 2, 3, 4)) (cpuid_code Unix)
  [MovMR32 r9 0 rax; Ret] (demo Unix 0x30000 7 0 0 0) = Fault.
Proof. vm_compute. reflexivity. Qed.
