(** Property C43: the assembly ChaCha routines. *)
From Verif Require Import Base Spec_Bytes Spec_Range Spec_ChaCha Model_Memory Model_Dispatch Spec_Dispatch Proof_Dispatch Prop_Dispatch Model_Cipher Spec_Cipher
  Spec_ChaChaAsm Model_X86 Model_ChaChaAsm Proof_ChaCha Proof_ChaChaAsm3 Proof_ChaChaAsm4.
Local Open Scope N_scope.

(** *** For every state, memory, number of iterations and number of double rounds (not 0: the loop counter would wrap),
    and whatever the registers hold on entry: each iteration of the SSSE3 routines handles 4 blocks, of the AVX2
    routines 8 blocks, with consecutive counters modulo 2^32; nothing but the destination changes; no access leaves the
    ranges. *)
Theorem C43_ssse_3_transform : forall regs temp base rounds st m n dst src,
  junk_ok regs temp base -> rounds <> 0 -> length st = 16%nat -> words 32 st -> bytes m ->
  (dst + 256 * n <= length m)%nat -> (src + 256 * n <= length m)%nat -> apart dst src (256 * n) ->
  asm_ssse_transform regs temp base rounds n st m dst src
  = Some (put m dst (xor_bytes (slice m src (256 * n)) (blocks_rounds (N.to_nat rounds) st (4 * n))), (4 * n)%nat).
Proof. intros regs temp base rounds st m n dst src J R L W Hm. exact (ssse_transform_blocks regs temp base rounds st m J R L W Hm n dst src). Qed.
Print Assumptions C43_ssse_3_transform.
Theorem C43_avx_2_transform : forall regs temp base rounds st m n dst src,
  junk_ok regs temp base -> rounds <> 0 -> length st = 16%nat -> words 32 st -> bytes m ->
  (dst + 512 * n <= length m)%nat -> (src + 512 * n <= length m)%nat -> apart dst src (512 * n) ->
  asm_avx_transform regs temp base rounds n st m dst src
  = Some (put m dst (xor_bytes (slice m src (512 * n)) (blocks_rounds (N.to_nat rounds) st (8 * n))), (8 * n)%nat).
Proof. intros regs temp base rounds st m n dst src J R L W Hm. exact (avx_transform_blocks regs temp base rounds st m J R L W Hm n dst src). Qed.
Print Assumptions C43_avx_2_transform.
Theorem C43_ssse_3_generate : forall regs temp base rounds st m n dst,
  junk_ok regs temp base -> rounds <> 0 -> length st = 16%nat -> words 32 st -> bytes m -> (dst + 256 * n <= length m)%nat ->
  asm_ssse_generate regs temp base rounds n st m dst
  = Some (put m dst (blocks_rounds (N.to_nat rounds) st (4 * n)), (4 * n)%nat).
Proof. intros regs temp base rounds st m n dst J R L W Hm. exact (ssse_generate_blocks regs temp base rounds st m J R L W Hm n dst). Qed.
Print Assumptions C43_ssse_3_generate.
Theorem C43_avx_2_generate : forall regs temp base rounds st m n dst,
  junk_ok regs temp base -> rounds <> 0 -> length st = 16%nat -> words 32 st -> bytes m -> (dst + 512 * n <= length m)%nat ->
  asm_avx_generate regs temp base rounds n st m dst
  = Some (put m dst (blocks_rounds (N.to_nat rounds) st (8 * n)), (8 * n)%nat).
Proof. intros regs temp base rounds st m n dst J R L W Hm. exact (avx_generate_blocks regs temp base rounds st m J R L W Hm n dst). Qed.
Print Assumptions C43_avx_2_generate.

(** *** The classes wrapping them meet the contract of a cipher backend (so C25 to C28 hold with them), and do the
    same as the portable code on the same number of blocks. *)
Theorem C43_backends : forall cx regs temp base, junk_ok regs temp base ->
  backend_ok cx (bk_ssse_3 regs temp base) /\ backend_ok cx (bk_avx_2 regs temp base).
Proof. intros cx regs temp base J. split; [apply ssse_3_backend|apply avx_2_backend]; exact J. Qed.
Print Assumptions C43_backends.
Theorem C43_same_as_portable : forall cx regs temp base st m n dst src,
  junk_ok regs temp base -> length st = 16%nat -> words 32 st -> bytes m ->
  (dst + 512 * n <= length m)%nat -> (src + 512 * n <= length m)%nat -> apart dst src (512 * n) ->
  bk_transform (bk_avx_2 regs temp base) cx n st m dst src = bk_transform bk_sw cx (8 * n) st m dst src /\
  bk_transform (bk_ssse_3 regs temp base) cx (2 * n) st m dst src = bk_transform bk_sw cx (8 * n) st m dst src.
Proof.
  intros cx regs temp base st m n d s J L W Hm Hd Hs Ha. destruct (C43_backends cx regs temp base J) as [B4 B8].
  pose proof (bk_sw_ok cx) as B1.
  pose proof (bo_transform cx _ B8 n st m d s L W Hm) as E8. pose proof (bo_transform cx _ B4 (2 * n)%nat st m d s L W Hm) as E4.
  pose proof (bo_transform cx _ B1 (8 * n)%nat st m d s L W Hm) as E1.
  change (bk_block (bk_avx_2 regs temp base)) with 512%nat in E8. change (bk_block (bk_ssse_3 regs temp base)) with 256%nat in E4.
  change (bk_block bk_sw) with 64%nat in E1.
  change (bk_ratio (bk_avx_2 regs temp base)) with 8%nat in E8. change (bk_ratio (bk_ssse_3 regs temp base)) with 4%nat in E4.
  change (bk_ratio bk_sw) with 1%nat in E1.
  replace (256 * (2 * n))%nat with (512 * n)%nat in E4 by lia. replace (64 * (8 * n))%nat with (512 * n)%nat in E1 by lia.
  replace (4 * (2 * n))%nat with (8 * n)%nat in E4 by lia. replace (1 * (8 * n))%nat with (8 * n)%nat in E1 by lia.
  rewrite E8, E4, E1 by assumption. split; reflexivity.
Qed.
Print Assumptions C43_same_as_portable.

(** *** Every instruction exists in the form used, and needs only the extensions that the class declares. *)
Definition code (w : nat) (body : list instr) : list instr := blocks_init w ++ double_round w ++ reload ++ body.
Theorem C43_extensions : forall body req,
  (body = ssse_transform_body \/ body = ssse_generate_body) -> im_arch (chacha_ssse_3 true true) = Some (Some req) -> runs_on 16 req (code 16 body).
Proof. intros body req [->| ->] E; injection E as <-; apply runs_on_dec; vm_compute; reflexivity. Qed.
Print Assumptions C43_extensions.
Theorem C43_extensions_avx : forall body req,
  (body = avx_transform_body \/ body = avx_generate_body) -> im_arch (chacha_avx_2 true true) = Some (Some req) -> runs_on 32 req (code 32 body).
Proof. intros body req [->| ->] E; injection E as <-; apply runs_on_dec; vm_compute; reflexivity. Qed.
Print Assumptions C43_extensions_avx.

(** *** Whatever implementation the dispatch of C39 picks, on every machine and in every start-up order, is correct,
    and (as far as CPUID tells, see C40) all its instructions are supported. *)
Definition chacha_backend (regs temp base : list vec) (i : impl) : backend :=
  match im_id i with 2%nat => bk_avx_2 regs temp base | 1%nat => bk_ssse_3 regs temp base | _ => bk_sw end.
Theorem C43_dispatched : forall use_asm x86_64 mc es n regs temp base cx,
  startup es -> junk_ok regs temp base ->
  exists i, init_run x86_64 use_asm mc (runtime_list None (chacha_runtime use_asm x86_64)) (es ++ repeat EUse n) statics0 = Some (repeat i n) /\
    backend_ok cx (chacha_backend regs temp base i) /\
    (im_id i = 2%nat -> forall ins f, In ins (code 32 avx_transform_body ++ code 32 avx_generate_body) -> In f (needs_vex256 ins) -> reported mc f) /\
    (im_id i = 1%nat -> forall ins f, In ins (code 16 ssse_transform_body ++ code 16 ssse_generate_body) -> In f (needs_sse ins) -> reported mc f).
Proof.
  intros use_asm x86 mc es n regs temp base cx Hs J.
  destruct (C39_any_order x86 use_asm mc None (chacha_runtime use_asm x86) es n) as (i & Hi & Hu & E); [|exact Hs|].
  { apply (C39_algorithms use_asm x86). left. reflexivity. }
  exists i. split; [exact E|]. destruct (C43_backends cx regs temp base J) as [B4 B8].
  assert (R : forall f, In f match im_arch i with Some (Some req) => req | _ => [] end -> reported mc f).
  { destruct Hu as [_ Hu]. destruct (im_arch i) as [[req|]|]; [exact (proj2 (proj2 Hu))|contradiction|intros f []]. }
  split; [|split].
  - unfold chacha_backend. destruct (im_id i) as [|[|[|]]]; first [exact B4|exact B8|apply bk_sw_ok].
  - intros Hid ins f Hins Hf. assert (A : im_arch i = im_arch (chacha_avx_2 true true)).
    { destruct Hu as [Hc _]. cbn [In runtime_list chacha_runtime] in Hi.
      destruct Hi as [<-|[<-|[<-|[<-|[]]]]]; try discriminate; destruct use_asm, x86; try discriminate; reflexivity. }
    rewrite A in R. apply R. apply in_app_or in Hins. destruct Hins as [Hins|Hins].
    + exact (proj2 (C43_extensions_avx _ _ (or_introl eq_refl) eq_refl ins Hins) f Hf).
    + exact (proj2 (C43_extensions_avx _ _ (or_intror eq_refl) eq_refl ins Hins) f Hf).
  - intros Hid ins f Hins Hf. assert (A : im_arch i = im_arch (chacha_ssse_3 true true)).
    { destruct Hu as [Hc _]. cbn [In runtime_list chacha_runtime] in Hi.
      destruct Hi as [<-|[<-|[<-|[<-|[]]]]]; try discriminate; destruct use_asm, x86; try discriminate; reflexivity. }
    rewrite A in R. apply R. apply in_app_or in Hins. destruct Hins as [Hins|Hins].
    + exact (proj2 (C43_extensions _ _ (or_introl eq_refl) eq_refl ins Hins) f Hf).
    + exact (proj2 (C43_extensions _ _ (or_intror eq_refl) eq_refl ins Hins) f Hf).
Qed.
Print Assumptions C43_dispatched.

(** *** The hypotheses can be met, and the model runs: the block of RFC 8439 section 2.3.2 by both routines, among
    blocks whose counters wrap around. *)
Definition junk (w : nat) : list vec := repeat (repeat 0xdeadbeef w) 16.
Definition rfc_state : list N := chacha20_state (map N.of_nat (seq 0 32)) 0xffffffff [0; 0; 0; 9; 0; 0; 0; 0x4a; 0; 0; 0; 0].
Example C43_case : junk_ok (junk 4) (firstn 6 (junk 4)) (junk 4) /\ length rfc_state = 16%nat /\ words 32 rfc_state /\
  bytes (repeat 0x5a 600) /\ apart 20 20 256 /\
  (exists m', asm_ssse_generate (junk 4) (firstn 6 (junk 4)) (junk 4) 10 1 rfc_state (repeat 0x5a 600) 20 = Some (m', 4%nat) /\
     firstn 16 (skipn (20 + 128) m') = [0x10; 0xf1; 0xe7; 0xe4; 0xd1; 0x3b; 0x59; 0x15; 0x50; 0x0f; 0xdd; 0x1f; 0xa3; 0x20; 0x71; 0xc4]) /\
  (exists m', asm_avx_generate (junk 8) (firstn 6 (junk 8)) (junk 8) 10 1 rfc_state (repeat 0x5a 600) 20 = Some (m', 8%nat) /\
     firstn 16 (skipn (20 + 128) m') = [0x10; 0xf1; 0xe7; 0xe4; 0xd1; 0x3b; 0x59; 0x15; 0x50; 0x0f; 0xdd; 0x1f; 0xa3; 0x20; 0x71; 0xc4]).
Proof.
  split; [repeat split|]. split; [reflexivity|]. split; [repeat constructor; unfold is_word; lia|].
  split; [apply Forall_forall; intros x Hx; apply repeat_spec in Hx; subst x; reflexivity|]. split; [left; reflexivity|].
  split; (eexists; split; [vm_compute; reflexivity|vm_compute; reflexivity]).
Qed.
