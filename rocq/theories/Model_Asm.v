(** The assembly routines as whole functions, on a machine with addresses: general registers, vector registers,
    byte-addressed memory with access rights, flags, labels and jumps.

    Semantics after the Intel 64 and IA-32 Architectures Software Developer's Manual, volume 2.  Instructions that the
    routines do not use are not there; of the flags only ZF is modelled (no other is used).  Constants in .rodata are
    operands (see Model_X86); their sections start with "align 16", so an aligned 16-byte operand is all right.

    An execution also yields its trace: every branch decision and every address that is accessed, in order. *)
From Verif Require Import Base Spec_Bytes Model_X86 Model_ChaChaAsm Model_ShaAsm.
Local Open Scope N_scope.

(** *** Registers and memory *)
Inductive gpr := rax | rcx | rdx | rbx | rsp | rbp | rsi | rdi | r8 | r9 | r10 | r11 | r12 | r13 | r14 | r15.
Definition gpr_eq_dec (a b : gpr) : {a = b} + {a <> b}. Proof. decide equality. Defined.

(** Vector register [i] is a list of eight 32-bit lanes; its low four are xmm[i]. *)
Record cpu := { c_gpr : gpr -> N; c_ymm : nat -> vec; c_mem : N -> N; c_zf : bool }.

(** Which addresses may be read and written, and the lowest address of the stack. *)
Record space := { sp_rd : N -> bool; sp_wr : N -> bool; sp_low : N }.

Definition set_gpr (c : cpu) (r : gpr) (v : N) : cpu :=
  {| c_gpr := fun q => if gpr_eq_dec q r then v else c_gpr c q; c_ymm := c_ymm c; c_mem := c_mem c; c_zf := c_zf c |}.
Definition set_zf (c : cpu) (v : N) : cpu :=
  {| c_gpr := c_gpr c; c_ymm := c_ymm c; c_mem := c_mem c; c_zf := v =? 0 |}.
Definition set_mem (c : cpu) (f : N -> N) : cpu :=
  {| c_gpr := c_gpr c; c_ymm := c_ymm c; c_mem := f; c_zf := c_zf c |}.
Definition set_ymm (c : cpu) (i : nat) (v : vec) : cpu :=
  {| c_gpr := c_gpr c; c_ymm := fun j => if (j =? i)%nat then v else c_ymm c j; c_mem := c_mem c; c_zf := c_zf c |}.

(** The bytes at [a, a + n), and memory with [l] written at [a]. *)
Definition mread (f : N -> N) (a : N) (n : nat) : list N := map (fun i => f (a + N.of_nat i)) (seq 0 n).
Definition mwrite (f : N -> N) (a : N) (l : list N) : N -> N :=
  fun x => if (a <=? x) && (x <? a + N.of_nat (length l)) then nth (N.to_nat (x - a)) l 0 else f x.

(** An access is an error if it wraps around, if the program has no right to it, or if it is in the part of the stack
    below the stack pointer (which a signal handler or the operating system may overwrite at any time). *)
Definition allowed (rt : N -> bool) (low : N) (c : cpu) (a : N) (n : nat) : bool :=
  (a + N.of_nat n <=? 2 ^ 64) &&
  forallb (fun i => let x := a + N.of_nat i in rt x && negb ((low <=? x) && (x <? c_gpr c rsp))) (seq 0 n).
Definition load (s : space) (c : cpu) (a : N) (n : nat) : option (list N) :=
  if allowed (sp_rd s) (sp_low s) c a n then Some (mread (c_mem c) a n) else None.
Definition store (s : space) (c : cpu) (a : N) (l : list N) : option cpu :=
  if allowed (sp_wr s) (sp_low s) c a (length l) then Some (set_mem c (mwrite (c_mem c) a l)) else None.

Inductive event := EvRead (a : N) (n : nat) | EvWrite (a : N) (n : nat) | EvJump (taken : bool).

(** *** The application binary interface: src/milo/internal/arch/x86_64/abi.asm, chosen by CMakeLists.txt lines 91-92 *)
Inductive abi := Unix | Wind.
Definition arg (b : abi) (i : nat) : gpr :=
  match b, i with
  | Unix, 0%nat => rdi | Unix, 1%nat => rsi | Unix, 2%nat => rdx | Unix, 3%nat => rcx | Unix, 4%nat => r8 | Unix, _ => r9
  | Wind, 0%nat => rcx | Wind, 1%nat => rdx | Wind, 2%nat => r8 | Wind, _ => r9
  end.

(** *** Address-level meaning of the vector instructions of Model_X86.  chacha_impl_hw_x86_64.asm lines 18-42 and
    483-507 define the operands. *)
Definition g_rounds (b : abi) : gpr := arg b 0.
Definition g_rounds_cnt : gpr := rbx.
Definition g_blocks (b : abi) : gpr := arg b 1.
Definition g_blocks_cnt : gpr := rax.
Definition g_state (b : abi) : gpr := arg b 2.
Definition g_dst (b : abi) : gpr := arg b 3.
Definition g_src (b : abi) : gpr := match b with Unix => arg b 4 | Wind => r10 end.

(** [base + displacement], modulo 2^64. *)
Definition ea (c : cpu) (r : gpr) (d : Z) : N := Z.to_N ((Z.of_N (c_gpr c r) + d) mod 2 ^ 64).

Definition mem_opd (b : abi) (w : nat) (o : opd) : option (gpr * nat) :=
  match o with
  | Rg _ | Cn _ => None
  | Tm i => Some (rsp, w * i)%nat
  | Bs i => Some (rsp, w * 6 + w * i)%nat
  | Src off => Some (g_src b, off)
  | Dst off => Some (g_dst b, off)
  | Sta i => Some (g_state b, 16 * i)%nat
  end.
Definition opd_ea (c : cpu) (m : gpr * nat) : N := ea c (fst m) (Z.of_nat (snd m)).

Definition xmm_low (w : nat) (c : cpu) (i : nat) : option vec := if (i <? 16)%nat then Some (firstn (w / 4) (c_ymm c i)) else None.
(** Legacy SSE instructions leave the high half of the ymm register as it is. *)
Definition set_low (c : cpu) (i : nat) (v : vec) : option cpu :=
  if (i <? 16)%nat then Some (set_ymm c i (v ++ skipn (length v) (c_ymm c i))) else None.

(** [al]: the operand must be aligned to its size. *)
Definition xget (s : space) (b : abi) (w n : nat) (al : bool) (c : cpu) (o : opd) : option vec :=
  match o with
  | Rg i => xmm_low w c i
  | Cn v => if al && negb (w =? 16)%nat then None else Some v
  | _ =>
      match mem_opd b w o with
      | None => None
      | Some m =>
          let a := opd_ea c m in
          if al && negb (a mod N.of_nat n =? 0) then None else l <- load s c a n ;; Some (blanes l)
      end
  end.
Definition xput (s : space) (b : abi) (w : nat) (al : bool) (c : cpu) (o : opd) (v : vec) : option cpu :=
  match o with
  | Rg i => set_low c i v
  | _ =>
      match mem_opd b w o with
      | None => None
      | Some m =>
          let a := opd_ea c m in
          if al && negb (a mod N.of_nat w =? 0) then None else store s c a (vbytes v)
      end
  end.
(** ADD sets ZF. *)
Definition add_gpr (c : cpu) (r : gpr) (n : N) : cpu :=
  let v := (c_gpr c r + n) mod 2 ^ 64 in set_zf (set_gpr c r v) v.

Definition xexec (s : space) (b : abi) (w : nat) (c : cpu) (i : instr) : option cpu :=
  match i with
  | Mov al d o => v <- xget s b w w al c o ;; xput s b w al c d v
  | Op3 o d a y => u <- xmm_low w c a ;; v <- xget s b w w (w =? 16)%nat c y ;; set_low c d (fun3 o u v)
  | Sll d a k => u <- xmm_low w c a ;; set_low c d (pslld k u)
  | Srl d a k => u <- xmm_low w c a ;; set_low c d (psrld k u)
  | Shufb d a mask => u <- xmm_low w c a ;; set_low c d (pshufb u mask)
  | Shufd d a imm => u <- xmm_low w c a ;; set_low c d (pshufd imm u)
  | Perm2 d a y imm => u <- xmm_low w c a ;; v <- xmm_low w c y ;; set_low c d (vperm2i128 imm u v)
  | Bcast d o => v <- xget s b w 16 false c o ;; set_low c d (v ++ v)
  | AddDst n => Some (add_gpr c (g_dst b) (N.of_nat n))
  | AddSrc n => Some (add_gpr c (g_src b) (N.of_nat n))
  end.
Definition ev_rd (b : abi) (w n : nat) (c : cpu) (o : opd) : list event :=
  match mem_opd b w o with Some m => [EvRead (opd_ea c m) n] | None => [] end.
Definition ev_wr (b : abi) (w n : nat) (c : cpu) (o : opd) : list event :=
  match mem_opd b w o with Some m => [EvWrite (opd_ea c m) n] | None => [] end.
Definition xevents (b : abi) (w : nat) (c : cpu) (i : instr) : list event :=
  match i with
  | Mov _ d o => ev_rd b w w c o ++ ev_wr b w w c d
  | Op3 _ _ _ y => ev_rd b w w c y
  | Bcast _ o => ev_rd b w 16 c o
  | _ => []
  end.

(** *** Address-level meaning of the instructions of Model_ShaAsm.  sha_1_160_impl_hw_x86_64.asm and
    sha_2_256_impl_hw_x86_64.asm, lines 16-22: blocks, state and source are arguments 0, 1 and 2. *)
Definition h_blocks (b : abi) : gpr := arg b 0.
Definition h_state (b : abi) : gpr := arg b 1.
Definition h_src (b : abi) : gpr := arg b 2.
Definition off_ea (c : cpu) (r : gpr) (n : nat) : N := ea c r (Z.of_nat n).

Definition yexec (s : space) (b : abi) (c : cpu) (i : sinstr) : option cpu :=
  let reg := xmm_low 16 c in
  match i with
  | Movdqa d a => v <- reg a ;; set_low c d v
  | MovC d l => set_low c d (blanes l)
  | MovSrc d off => l <- load s c (off_ea c (h_src b) off) 16 ;; set_low c d (blanes l)
  | MovSt d off => l <- load s c (off_ea c (h_state b) off) 16 ;; set_low c d (blanes l)
  | MovdSt d off => l <- load s c (off_ea c (h_state b) off) 4 ;; set_low c d (blanes l ++ [0; 0; 0])
  | StMov off a => v <- reg a ;; store s c (off_ea c (h_state b) off) (vbytes v)
  | StMovd off a => v <- reg a ;; store s c (off_ea c (h_state b) off) (vbytes (firstn 1 v))
  | Sop o d a => x <- reg d ;; y <- reg a ;; set_low c d (sop_fun o x y)
  | PadddC d v => x <- reg d ;; set_low c d (paddd x v)
  | Pshufb d a => x <- reg d ;; y <- reg a ;; set_low c d (pshufb x (vbytes y))
  | Pshufd d a imm => x <- reg a ;; set_low c d (pshufd imm x)
  | Pslldq d k => x <- reg d ;; if (k mod 4 =? 0)%nat then set_low c d (pslldq k x) else None
  | Psrldq d k => x <- reg d ;; if (k mod 4 =? 0)%nat then set_low c d (psrldq k x) else None
  | Palignr d a k => x <- reg d ;; y <- reg a ;; if (k mod 4 =? 0)%nat then set_low c d (palignr k x y) else None
  | Rnds4 d a k => x <- reg d ;; y <- reg a ;; set_low c d (sha1rnds4 k x y)
  | Rnds2 d a => x <- reg d ;; y <- reg a ;; z <- reg 0%nat ;; set_low c d (sha256rnds2 x y z)
  (* VEX.128: the high half of the destination becomes 0 *)
  | Vpunpcklqdq d a y => u <- reg a ;; v <- reg y ;; set_low c d (punpcklqdq u v ++ [0; 0; 0; 0])
  | Vpunpckhqdq d a y => u <- reg a ;; v <- reg y ;; set_low c d (punpckhqdq u v ++ [0; 0; 0; 0])
  | AddSource k => Some (add_gpr c (h_src b) (N.of_nat k))
  end.
Definition yevents (b : abi) (c : cpu) (i : sinstr) : list event :=
  match i with
  | MovSrc _ off => [EvRead (off_ea c (h_src b) off) 16]
  | MovSt _ off => [EvRead (off_ea c (h_state b) off) 16]
  | MovdSt _ off => [EvRead (off_ea c (h_state b) off) 4]
  | StMov off _ => [EvWrite (off_ea c (h_state b) off) 16]
  | StMovd off _ => [EvWrite (off_ea c (h_state b) off) 4]
  | _ => []
  end.

(** *** The other instructions, and programs *)
Inductive ainstr :=
| VI (w : nat) (i : instr)                  (* an instruction of the ChaCha routines *)
| SI (i : sinstr)                           (* an instruction of the SHA routines *)
| Push (r : gpr) | Pop (r : gpr)
| MovRR (d s : gpr)
| MovRM (d b : gpr) (disp : Z)              (* mov d, [b + disp] *)
| MovMR32 (b : gpr) (disp : Z) (s : gpr)    (* mov [b + disp], the low 32 bits of s *)
| SubI (r : gpr) (n : N) | AndI (r : gpr) (n : N) | ShlI (r : gpr) (k : N)
| TestRR (r : gpr)
| Xchg (p q : gpr)
| Cpuid
| MovdqaSt (b : gpr) (disp : Z) (x : nat)   (* movdqa [b + disp], xmm x *)
| MovdqaLd (x : nat) (b : gpr) (disp : Z)   (* movdqa xmm x, [b + disp] *)
| Vzeroupper
| Lab (l : nat) | Jmp (l : nat) | Jz (l : nat) | Jnz (l : nat)
| Ret.

Fixpoint goto (code : list ainstr) (l : nat) : option (list ainstr) :=
  match code with
  | [] => None
  | Lab k :: code => if (k =? l)%nat then Some code else goto code l
  | _ :: code => goto code l
  end.

(** The processor: what CPUID returns in eax, ebx, ecx, edx for the given eax and ecx. *)
Definition cpuid_fun : Type := N -> N -> N * N * N * N.

(** One instruction.  [k]: the code from here on, [code]: the whole function (where labels are looked up). *)
Inductive outcome :=
| Next (t : list event) (k : list ainstr) (c : cpu)
| Return (t : list event) (address : N) (c : cpu)
| Fault.
Definition next (t : list event) (k : list ainstr) (c : option cpu) : outcome :=
  match c with Some c => Next t k c | None => Fault end.
Definition jump (t : list event) (k : option (list ainstr)) (c : cpu) : outcome :=
  match k with Some k => Next t k c | None => Fault end.
Definition step (s : space) (b : abi) (cpuid : cpuid_fun) (code k : list ainstr) (c : cpu) : outcome :=
  match k with
  | [] => Fault
  | i :: k =>
      match i with
      | VI w i => next (xevents b w c i) k (xexec s b w c i)
      | SI i => next (yevents b c i) k (yexec s b c i)
      | Push r =>
          let v := c_gpr c r in
          let c := set_gpr c rsp (ea c rsp (-8)) in
          next [EvWrite (c_gpr c rsp) 8] k (store s c (c_gpr c rsp) (le_enc 8 v))
      | Pop r =>
          match load s c (c_gpr c rsp) 8 with
          | Some l => Next [EvRead (c_gpr c rsp) 8] k (set_gpr (set_gpr c rsp (ea c rsp 8)) r (le_dec l))
          | None => Fault
          end
      | MovRR d r => Next [] k (set_gpr c d (c_gpr c r))
      | MovRM d r disp =>
          match load s c (ea c r disp) 8 with
          | Some l => Next [EvRead (ea c r disp) 8] k (set_gpr c d (le_dec l))
          | None => Fault
          end
      | MovMR32 r disp q => next [EvWrite (ea c r disp) 4] k (store s c (ea c r disp) (le_enc 4 (c_gpr c q)))
      | SubI r n => let v := ea c r (- Z.of_N n) in Next [] k (set_zf (set_gpr c r v) v)
      | AndI r n => let v := N.land (c_gpr c r) n in Next [] k (set_zf (set_gpr c r v) v)
      | ShlI r n => let v := (c_gpr c r * 2 ^ n) mod 2 ^ 64 in Next [] k (set_zf (set_gpr c r v) v)
      | TestRR r => Next [] k (set_zf c (c_gpr c r))
      | Xchg p q => Next [] k (set_gpr (set_gpr c p (c_gpr c q)) q (c_gpr c p))
      | Cpuid =>
          (* writing a 32-bit register clears the high half *)
          let '(a, x, y, z) := cpuid (c_gpr c rax mod 2 ^ 32) (c_gpr c rcx mod 2 ^ 32) in
          Next [] k (set_gpr (set_gpr (set_gpr (set_gpr c rax (a mod 2 ^ 32)) rbx (x mod 2 ^ 32)) rcx (y mod 2 ^ 32)) rdx (z mod 2 ^ 32))
      | MovdqaSt r disp x =>
          if (ea c r disp mod 16 =? 0) && (x <? 16)%nat
          then next [EvWrite (ea c r disp) 16] k (store s c (ea c r disp) (vbytes (firstn 4 (c_ymm c x)))) else Fault
      | MovdqaLd x r disp =>
          if ea c r disp mod 16 =? 0
          then next [EvRead (ea c r disp) 16] k (l <- load s c (ea c r disp) 16 ;; set_low c x (blanes l)) else Fault
      | Vzeroupper =>
          Next [] k {| c_gpr := c_gpr c; c_ymm := fun i => firstn 4 (c_ymm c i) ++ [0; 0; 0; 0]; c_mem := c_mem c; c_zf := c_zf c |}
      | Lab _ => Next [] k c
      | Jmp l => jump [] (goto code l) c
      | Jz l => if c_zf c then jump [EvJump true] (goto code l) c else Next [EvJump false] k c
      | Jnz l => if c_zf c then Next [EvJump false] k c else jump [EvJump true] (goto code l) c
      | Ret =>
          match load s c (c_gpr c rsp) 8 with
          | Some l => Return [EvRead (c_gpr c rsp) 8] (le_dec l) (set_gpr c rsp (ea c rsp 8))
          | None => Fault
          end
      end
  end.
(** An execution that returns, without error, to address [ra] with state [c']; [t]: its trace. *)
Inductive runs (s : space) (b : abi) (cpuid : cpuid_fun) (code : list ainstr) : list ainstr -> cpu -> list event -> N -> cpu -> Prop :=
| runs_return k c t ra c' : step s b cpuid code k c = Return t ra c' -> runs s b cpuid code k c t ra c'
| runs_next k c t k1 c1 t' ra c' :
    step s b cpuid code k c = Next t k1 c1 -> runs s b cpuid code k1 c1 t' ra c' -> runs s b cpuid code k c (t ++ t') ra c'.
Definition calls (s : space) (b : abi) (cpuid : cpuid_fun) (code : list ainstr) : cpu -> list event -> N -> cpu -> Prop :=
  runs s b cpuid code code.

(** *** chacha_impl_hw_x86_64.asm: chacha_ssse_3_body (lines 262-454, [w] = 16) and chacha_avx_2_body (lines 746-957,
    [w] = 32) *)
Definition blocks_loop : nat := 0.
Definition blocks_loop_first : nat := 1.
Definition rounds_loop : nat := 2.
Definition blocks_loop_end : nat := 3.
(** Lines 19-22 and 484-487. *)
Definition stack_size (w : nat) : nat := (w * 6 + w * 16)%nat.
(** Lines 293-302 and 788-797; 434-443 and 935-944: xmm6 to xmm15 at [rbp - 8 - 16 * i]. *)
Definition save_at (i : nat) : Z := (-8 - 16 * Z.of_nat i)%Z.
Definition save_xmm : list ainstr := map (fun i => MovdqaSt rbp (save_at i) (5 + i)) (seq 1 10).
Definition restore_xmm : list ainstr := map (fun i => MovdqaLd (5 + i) rbp (save_at i)) (seq 1 10).
(** chacha_ssse_3_transform_args, lines 93-102; chacha_avx_2_transform_args, lines 560-569; the generate ones are empty
    (lines 192-194 and 736-738). *)
Definition args (b : abi) (transform : bool) : list ainstr :=
  match b with Wind => if transform then [MovRM (g_src Wind) rbp (24 + 32)] else [] | Unix => [] end.
Definition prologue (b : abi) (w : nat) : list ainstr :=
  [Push rbp; Push rbx; MovRR rbp rsp] ++
  match b with
  | Unix => [SubI rsp (N.of_nat (stack_size w) + 8)]
  | Wind => SubI rsp (N.of_nat (stack_size w) + 8 + 16 * 10) :: save_xmm
  end ++
  (if (w =? 32)%nat then [AndI rsp 0xffffffffffffffe0] else []).
Definition epilogue (b : abi) (w : nat) : list ainstr :=
  match b with Unix => [] | Wind => restore_xmm end ++
  (if (w =? 32)%nat then [Vzeroupper] else []) ++
  [MovRR rsp rbp; Pop rbx; Pop rbp; MovRR rax (g_blocks b); ShlI rax (if (w =? 32)%nat then 3 else 2); Ret].
Definition chacha_code (b : abi) (w : nat) (transform : bool) (body : list instr) : list ainstr :=
  prologue b w ++ args b transform ++
  [TestRR (g_blocks b); MovRR g_blocks_cnt (g_blocks b); Jz blocks_loop_end] ++
  map (VI w) (blocks_init w) ++
  [Jmp blocks_loop_first; Lab blocks_loop] ++
  map (VI w) reload ++
  [Lab blocks_loop_first; MovRR g_rounds_cnt (g_rounds b); Lab rounds_loop] ++
  map (VI w) (double_round w) ++
  [SubI g_rounds_cnt 1; Jnz rounds_loop] ++
  map (VI w) body ++
  [SubI g_blocks_cnt 1; Jnz blocks_loop; Lab blocks_loop_end] ++
  epilogue b w.
(** The four functions, lines 456-477 and 959-980. *)
Definition ssse_3_transform (b : abi) : list ainstr := chacha_code b 16 true ssse_transform_body.
Definition ssse_3_generate (b : abi) : list ainstr := chacha_code b 16 false ssse_generate_body.
Definition avx_2_transform (b : abi) : list ainstr := chacha_code b 32 true avx_transform_body.
Definition avx_2_generate (b : abi) : list ainstr := chacha_code b 32 false avx_generate_body.

(** *** sha_1_160_impl_hw_x86_64.asm (lines 41-178) and sha_2_256_impl_hw_x86_64.asm (lines 46-215); [n]: how many
    registers from xmm6 on are saved under the Windows ABI (lines 60-68 and 167-174; 83-92 and 203-211). *)
Definition sha_save (n : nat) : list ainstr := map (fun i => MovdqaSt rbp (-16 * Z.of_nat i) (5 + i)) (seq 1 n).
Definition sha_restore (n : nat) : list ainstr := map (fun i => MovdqaLd (5 + i) rbp (-16 * Z.of_nat i)) (seq 1 n).
Definition sha_prologue (b : abi) (n : nat) : list ainstr :=
  match b with Unix => [] | Wind => [Push rbp; MovRR rbp rsp; SubI rsp (16 * N.of_nat n)] ++ sha_save n end.
Definition sha_epilogue (b : abi) (n : nat) : list ainstr :=
  match b with Unix => [] | Wind => sha_restore n ++ [MovRR rsp rbp; Pop rbp] end.
Definition sha_code (b : abi) (n : nat) (load body store : list sinstr) : list ainstr :=
  sha_prologue b n ++ map SI load ++
  [TestRR (h_blocks b); MovRR g_blocks_cnt (h_blocks b); Jz blocks_loop_end; Lab blocks_loop] ++
  map SI body ++
  [SubI g_blocks_cnt 1; Jnz blocks_loop; Lab blocks_loop_end] ++
  map SI store ++ sha_epilogue b n ++ [MovRR rax (h_blocks b); Ret].
Definition sha_1_160_ni_blocks (b : abi) : list ainstr := sha_code b 4 sha1_load sha1_body sha1_store.
Definition sha_2_256_ni_blocks (b : abi) : list ainstr := sha_code b 5 sha2_load sha2_body sha2_store.

(** *** src/milo/internal/arch/x86_64/cpuid.asm, lines 12-29 *)
Definition cpuid_code (b : abi) : list ainstr :=
  [ Xchg rbx r10; MovRR r9 (arg b 0); MovRR rax (arg b 1); MovRR rcx (arg b 2); Cpuid;
    MovMR32 r9 0 rax; MovMR32 r9 4 rbx; MovMR32 r9 8 rcx; MovMR32 r9 12 rdx;
    Xchg rbx r10; Ret ].
