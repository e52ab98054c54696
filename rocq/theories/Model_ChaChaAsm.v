(** Model of src/milo/primitive/detail/cipher/chacha/chacha_impl_hw_x86_64.asm: the macros as instruction lists, in the
    order of the file, and the two loops.  [w] is 16 for the SSSE3 routines (x_state_eval) and 32 for the AVX2 ones
    (y_state_eval).

    Not here but in Model_Asm: prologue and epilogue (pushes, the stack frame, saving xmm6 to xmm15 and passing the fifth argument
    under the Windows ABI, vzeroupper).  The stack slots hold indeterminate vectors on entry, given here as [junk]. *)
From Verif Require Import Base Spec_Bytes Model_Memory Model_X86 Model_Cipher.
Local Open Scope N_scope.

Definition mov (d s : opd) : instr := Mov true d s.      (* [v]movdqa *)
Definition movu (d s : opd) : instr := Mov false d s.    (* [v]movdqu *)
Definition add (d : nat) (s : opd) : instr := Op3 Paddd d d s.
Definition xor (d : nat) (s : opd) : instr := Op3 Pxor d d s.

(** Constants, lines 264-279 and 748-773 (the ymm ones repeat the 16 bytes). *)
Definition rep (w : nat) (l : list N) : list N := if (w =? 32)%nat then l ++ l else l.
Definition shuffle_rol_16 (w : nat) : list N := rep w [0x02; 0x03; 0x00; 0x01; 0x06; 0x07; 0x04; 0x05; 0x0a; 0x0b; 0x08; 0x09; 0x0e; 0x0f; 0x0c; 0x0d].
Definition shuffle_rol_8 (w : nat) : list N := rep w [0x03; 0x00; 0x01; 0x02; 0x07; 0x04; 0x05; 0x06; 0x0b; 0x08; 0x09; 0x0a; 0x0f; 0x0c; 0x0d; 0x0e].
Definition add_init (w : nat) : vec := if (w =? 32)%nat then [7; 6; 5; 4; 3; 2; 1; 0] else [3; 2; 1; 0].
Definition add_advance (w : nat) : vec := if (w =? 32)%nat then [8; 8; 8; 8; 8; 8; 8; 8] else [4; 4; 4; 4].

(** chacha_ssse_3_rounds (lines 45-91) and chacha_avx_2_rounds (lines 512-558): the same instructions; [sh] is the
    constant selected by the argument 17, [k] the argument 18. *)
Definition rounds_macro (r1 r2 r3 r4 r5 r6 r7 r8 r9 r10 r11 r12 r13 r14 r15 r16 : nat) (sh : list N) (k : N) : list instr :=
  [ add r1 (Rg r5); add r2 (Rg r6);
    xor r13 (Rg r1); xor r14 (Rg r2);
    add r3 (Rg r7); add r4 (Rg r8);
    Shufb r13 r13 sh; Shufb r14 r14 sh;
    xor r15 (Rg r3); xor r16 (Rg r4);
    mov (Tm 0) (Rg r13); mov (Tm 1) (Rg r14);
    Shufb r15 r15 sh; Shufb r16 r16 sh;
    add r9 (Rg r13); add r10 (Rg r14);
    xor r5 (Rg r9); xor r6 (Rg r10);
    add r11 (Rg r15); add r12 (Rg r16);
    mov (Rg r13) (Rg r5); mov (Rg r14) (Rg r6);
    Sll r5 r5 k; Srl r13 r13 (32 - k);
    Sll r6 r6 k; Srl r14 r14 (32 - k);
    xor r7 (Rg r11); xor r8 (Rg r12);
    xor r5 (Rg r13); xor r6 (Rg r14);
    mov (Rg r13) (Rg r7); mov (Rg r14) (Rg r8);
    Sll r7 r7 k; Srl r13 r13 (32 - k);
    Sll r8 r8 k; Srl r14 r14 (32 - k);
    xor r7 (Rg r13); xor r8 (Rg r14);
    mov (Rg r13) (Tm 0); mov (Rg r14) (Tm 1) ].

(** Lines 391-419 and 892-920: the body of .rounds_loop. *)
Definition double_round (w : nat) : list instr :=
  rounds_macro 0 1 2 3  4 5 6 7  8 9 10 11  12 13 14 15 (shuffle_rol_16 w) 12 ++
  rounds_macro 0 1 2 3  4 5 6 7  8 9 10 11  12 13 14 15 (shuffle_rol_8 w) 7 ++
  rounds_macro 0 1 2 3  5 6 7 4  10 11 8 9  15 12 13 14 (shuffle_rol_16 w) 12 ++
  rounds_macro 0 1 2 3  5 6 7 4  10 11 8 9  15 12 13 14 (shuffle_rol_8 w) 7.

(** *** SSSE3 *)

(** chacha_ssse_3_transform_core, lines 104-136; the arguments 2 to 12. *)
Definition ssse_transform_core (o c0 c1 c2 c3 s0 s1 t0 t1 t2 t3 : nat) : list instr :=
  [ mov (Rg s0) (Rg c0); mov (Rg s1) (Rg c2);
    movu (Rg t0) (Src (16 * (o + 0))); movu (Rg t1) (Src (16 * (o + 4)));
    Op3 Punpckhdq c0 c0 (Rg c1); Op3 Punpckldq s0 s0 (Rg c1);
    movu (Rg t2) (Src (16 * (o + 8))); movu (Rg t3) (Src (16 * (o + 12)));
    Op3 Punpckhdq c2 c2 (Rg c3); Op3 Punpckldq s1 s1 (Rg c3);
    mov (Rg c1) (Rg c0); mov (Rg c3) (Rg s0);
    Op3 Punpckhqdq c0 c0 (Rg c2); Op3 Punpcklqdq c1 c1 (Rg c2);
    xor c0 (Rg t0); xor c1 (Rg t1);
    movu (Dst (16 * (o + 0))) (Rg c0); movu (Dst (16 * (o + 4))) (Rg c1);
    Op3 Punpckhqdq s0 s0 (Rg s1); Op3 Punpcklqdq c3 c3 (Rg s1);
    xor s0 (Rg t2); xor c3 (Rg t3);
    movu (Dst (16 * (o + 8))) (Rg s0); movu (Dst (16 * (o + 12))) (Rg c3) ].

(** chacha_ssse_3_transform_body, lines 138-190. *)
Definition ssse_transform_body : list instr :=
  [ add 10 (Bs 10); add 11 (Bs 11); add 13 (Bs 13); add 14 (Bs 14);
    mov (Tm 2) (Rg 10); mov (Tm 3) (Rg 11); mov (Tm 4) (Rg 13); mov (Tm 5) (Rg 14);
    add 0 (Bs 0); add 1 (Bs 1); add 2 (Bs 2); add 3 (Bs 3);
    add 4 (Bs 4); add 5 (Bs 5); add 6 (Bs 6); add 7 (Bs 7) ] ++
  ssse_transform_core 0  0 1 2 3  10 11 12 13 14 15 ++
  [ mov (Rg 2) (Bs 12); mov (Rg 0) (Tm 0); mov (Rg 1) (Tm 1) ] ++
  ssse_transform_core 1  4 5 6 7  10 11 12 13 14 15 ++
  [ mov (Rg 3) (Tm 2); mov (Rg 4) (Tm 3); mov (Rg 6) (Tm 4); mov (Rg 7) (Tm 5);
    add 8 (Bs 8); add 9 (Bs 9);
    add 1 (Rg 2); add 0 (Bs 15);
    add 2 (Cn (add_advance 16)) ] ++
  ssse_transform_core 2  8 9 3 4  10 11 12 13 14 15 ++
  [ mov (Bs 12) (Rg 2) ] ++
  ssse_transform_core 3  1 6 7 0  10 11 12 13 14 15 ++
  [ AddDst 256; AddSrc 256 ].

(** chacha_ssse_3_generate_core, lines 196-219; the arguments 2 to 8. *)
Definition ssse_generate_core (o c0 c1 c2 c3 s0 s1 : nat) : list instr :=
  [ mov (Rg s0) (Rg c0); mov (Rg s1) (Rg c2);
    Op3 Punpckhdq c0 c0 (Rg c1); Op3 Punpckldq s0 s0 (Rg c1);
    Op3 Punpckhdq c2 c2 (Rg c3); Op3 Punpckldq s1 s1 (Rg c3);
    mov (Rg c1) (Rg c0); mov (Rg c3) (Rg s0);
    Op3 Punpckhqdq c0 c0 (Rg c2); Op3 Punpcklqdq c1 c1 (Rg c2);
    movu (Dst (16 * (o + 0))) (Rg c0); movu (Dst (16 * (o + 4))) (Rg c1);
    Op3 Punpckhqdq s0 s0 (Rg s1); Op3 Punpcklqdq c3 c3 (Rg s1);
    movu (Dst (16 * (o + 8))) (Rg s0); movu (Dst (16 * (o + 12))) (Rg c3) ].

(** chacha_ssse_3_generate_body, lines 221-260. *)
Definition ssse_generate_body : list instr :=
  [ add 0 (Bs 0); add 1 (Bs 1); add 2 (Bs 2); add 3 (Bs 3);
    add 4 (Bs 4); add 5 (Bs 5); add 6 (Bs 6); add 7 (Bs 7);
    add 8 (Bs 8); add 9 (Bs 9); add 10 (Bs 10); add 11 (Bs 11);
    add 13 (Bs 13); add 14 (Bs 14) ] ++
  ssse_generate_core 0  0 1 2 3  12 15 ++
  [ mov (Rg 2) (Bs 12); mov (Rg 0) (Tm 0); mov (Rg 1) (Tm 1) ] ++
  ssse_generate_core 1  4 5 6 7  12 15 ++
  [ add 1 (Rg 2); add 0 (Bs 15); add 2 (Cn (add_advance 16)) ] ++
  ssse_generate_core 2  8 9 10 11  12 15 ++
  [ mov (Bs 12) (Rg 2) ] ++
  ssse_generate_core 3  1 13 14 0  12 15 ++
  [ AddDst 256 ].

(** *** AVX2 *)

(** chacha_avx_2_merge_32 and _64, lines 571-597; _128, lines 599-610. *)
Definition merge_32 (a b c d e f : nat) : list instr :=
  [ Op3 Punpckhdq a c (Rg d); Op3 Punpckhdq b e (Rg f); Op3 Punpckldq c c (Rg d); Op3 Punpckldq e e (Rg f) ].
Definition merge_64 (a b c d e f : nat) : list instr :=
  [ Op3 Punpckhqdq a c (Rg d); Op3 Punpckhqdq b e (Rg f); Op3 Punpcklqdq c c (Rg d); Op3 Punpcklqdq e e (Rg f) ].
Definition merge_128 (a b c d : nat) : list instr := [ Perm2 a c d 49; Perm2 b c d 32 ].
(** chacha_avx_2_merge_transform and _generate, lines 612-625. *)
Definition merge_op (transform : bool) (a b o1 o2 : nat) : list instr :=
  if transform then [ xor a (Src (32 * o1)); xor b (Src (32 * o2)) ] else [].
(** chacha_avx_2_merge_stor, lines 627-635. *)
Definition merge_stor (a b c d o1 o2 o3 o4 : nat) : list instr :=
  [ movu (Dst (32 * o1)) (Rg a); movu (Dst (32 * o2)) (Rg b); movu (Dst (32 * o3)) (Rg c); movu (Dst (32 * o4)) (Rg d) ].
(** chacha_avx_2_merge_v_1, lines 637-685; arguments 2, 3, 4 and 7 to 14. *)
Definition merge_v_1 (tr : bool) (o r3 r4 r7 r8 r9 r10 r11 r12 r13 r14 : nat) : list instr :=
  merge_32 r3 r4 r7 r8 r9 r10 ++
  merge_64 r8 r10 r3 r4 r7 r9 ++
  merge_32 r4 r9 r11 r12 r13 r14 ++
  merge_64 r12 r14 r4 r9 r11 r13 ++
  merge_128 r9 r13 r8 r12 ++
  merge_op tr r9 r13 (o + 0) (o + 8) ++
  merge_128 r8 r12 r10 r14 ++
  merge_op tr r8 r12 (o + 4) (o + 12) ++
  merge_stor r9 r13 r8 r12 (o + 0) (o + 8) (o + 4) (o + 12) ++
  merge_128 r10 r14 r3 r4 ++
  merge_op tr r10 r14 (o + 2) (o + 10) ++
  merge_128 r3 r4 r7 r11 ++
  merge_op tr r3 r4 (o + 6) (o + 14) ++
  merge_stor r10 r14 r3 r4 (o + 2) (o + 10) (o + 6) (o + 14).
(** chacha_avx_2_merge, lines 687-727, then lines 729-744. *)
Definition avx_merge (tr : bool) : list instr :=
  [ add 0 (Bs 0); add 1 (Bs 1); add 2 (Bs 2); add 3 (Bs 3);
    add 4 (Bs 4); add 5 (Bs 5); add 6 (Bs 6); add 7 (Bs 7) ] ++
  merge_v_1 tr 0  12 15  0 1 2 3  4 5 6 7 ++
  [ mov (Rg 2) (Bs 12); mov (Rg 6) (Tm 1); mov (Rg 1) (Tm 0);
    add 8 (Bs 8); add 9 (Bs 9); add 10 (Bs 10); add 11 (Bs 11);
    add 13 (Bs 13); add 14 (Bs 14);
    add 6 (Rg 2); add 1 (Bs 15);
    add 2 (Cn (add_advance 32)) ] ++
  merge_v_1 tr 1  5 0  8 9 10 11  6 13 14 1 ++
  [ mov (Bs 12) (Rg 2) ].
Definition avx_transform_body : list instr := avx_merge true ++ [ AddDst 512; AddSrc 512 ].
Definition avx_generate_body : list instr := avx_merge false ++ [ AddDst 512 ].

(** *** The routine: chacha_ssse_3_body (lines 262-454) and chacha_avx_2_body (lines 746-957) *)

(** .blocks_init, lines 312-363 and 809-864. *)
Definition load_state (w i k : nat) : instr :=
  if (w =? 32)%nat then Bcast i (Sta k) else movu (Rg i) (Sta k).
Definition spread (i s : nat) : list instr :=
  [ Shufd i s 0; Shufd (i + 1) s 85; Shufd (i + 2) s 170; Shufd (i + 3) s 255 ].
Definition save4 (i : nat) : list instr :=
  [ mov (Bs i) (Rg i); mov (Bs (i + 1)) (Rg (i + 1)); mov (Bs (i + 2)) (Rg (i + 2)); mov (Bs (i + 3)) (Rg (i + 3)) ].
Definition blocks_init (w : nat) : list instr :=
  [ load_state w 12 0; load_state w 13 1; load_state w 14 2; load_state w 15 3 ] ++
  spread 0 12 ++ save4 0 ++
  spread 4 13 ++ save4 4 ++
  spread 8 14 ++ save4 8 ++
  [ Shufd 12 15 0; Shufd 13 15 85; add 12 (Cn (add_init w)); Shufd 14 15 170; Shufd 15 15 255 ] ++
  save4 12.
(** .blocks_loop, lines 368-385 and 869-886. *)
Definition reload : list instr := map (fun i => mov (Rg i) (Bs i)) (seq 0 16).

(** [sub counter, 1; jnz loop]: the body runs at least once; 0 would mean 2^64 times. *)
Definition times (n : N) : nat := if n =? 0 then N.to_nat (2 ^ 64) else N.to_nat n.
Fixpoint repeat_run (w : nat) (p : list instr) (n : nat) (m : mach) : option mach :=
  match n with O => Some m | S n => m <- run w p m ;; repeat_run w p n m end.

(** One block: .blocks_loop_first to the body macro. *)
Definition one_block (w : nat) (body : list instr) (rounds : N) (m : mach) : option mach :=
  m <- repeat_run w (double_round w) (times rounds) m ;; run w body m.
(** The blocks after the first. *)
Fixpoint more_blocks (w : nat) (body : list instr) (rounds : N) (n : nat) (m : mach) : option mach :=
  match n with
  | O => Some m
  | S n => m <- run w reload m ;; m <- one_block w body rounds m ;; more_blocks w body rounds n m
  end.
(** The whole routine: memory and the returned number of blocks (lines 451-452, 954-955: blocks << 2 or << 3; the
    shift cannot overflow because that many 64-byte blocks exist in memory). *)
Definition routine (w : nat) (body : list instr) (junk_reg junk_tmp junk_base : list vec) (rounds : N) (blocks : nat)
  (state mem : list N) (dst src : nat) : option (list N * nat) :=
  let ret := ((if (w =? 32)%nat then 8 else 4) * blocks)%nat in
  match blocks with
  | O => Some (mem, ret)
  | S n =>
      m <- run w (blocks_init w)
             {| mc_reg := junk_reg; mc_tmp := junk_tmp; mc_base := junk_base; mc_mem := mem; mc_dst := dst; mc_src := src; mc_state := state |} ;;
      m <- one_block w body rounds m ;;
      m <- more_blocks w body rounds n m ;;
      Some (mc_mem m, ret)
  end.

(** *** chacha_impl_hw_x86_64.h: the classes as backends (rounds = 10) *)
Definition asm_ssse_transform (jr jt jb : list vec) (rounds : N) := routine 16 ssse_transform_body jr jt jb rounds.
Definition asm_ssse_generate (jr jt jb : list vec) (rounds : N) (blocks : nat) (state mem : list N) (dst : nat) :=
  routine 16 ssse_generate_body jr jt jb rounds blocks state mem dst 0.
Definition asm_avx_transform (jr jt jb : list vec) (rounds : N) := routine 32 avx_transform_body jr jt jb rounds.
Definition asm_avx_generate (jr jt jb : list vec) (rounds : N) (blocks : nat) (state mem : list N) (dst : nat) :=
  routine 32 avx_generate_body jr jt jb rounds blocks state mem dst 0.

Definition bk_ssse_3 (jr jt jb : list vec) : backend := {|
  bk_ratio := 4;
  bk_transform := fun _ n st m d s => asm_ssse_transform jr jt jb 10 n st m d s;
  bk_generate := fun _ n st buf => asm_ssse_generate jr jt jb 10 n st buf 0 |}.
Definition bk_avx_2 (jr jt jb : list vec) : backend := {|
  bk_ratio := 8;
  bk_transform := fun _ n st m d s => asm_avx_transform jr jt jb 10 n st m d s;
  bk_generate := fun _ n st buf => asm_avx_generate jr jt jb 10 n st buf 0 |}.
