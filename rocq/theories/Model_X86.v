(** The x86-64 instructions used by the library's assembly routines, on vector registers.

    Semantics after the Intel 64 and IA-32 Architectures Software Developer's Manual, volume 2.  A vector is the list
    of its 32-bit lanes, lowest first: 4 lanes for an xmm register, 8 for a ymm register.  Legacy SSE instructions work
    on xmm registers and have a destination that is also the first source; the VEX.256 encoded ones work on ymm
    registers and have a separate destination: both are written in the three-operand form.  Vectors are stored in
    little-endian byte order.

    Simplification: stack slots are named (see the operands below) instead of addressed through rsp, so the alignment
    that movdqa requires of stack operands is by construction. *)
From Verif Require Import Base Spec_Bytes Model_Dispatch.
Local Open Scope N_scope.

Definition vec : Type := list N.

Fixpoint map2 (f : N -> N -> N) (a b : vec) : vec :=
  match a, b with x :: a, y :: b => f x y :: map2 f a b | _, _ => [] end.

(** PADDD, PXOR, PSLLD, PSRLD *)
Definition lane_add (x y : N) : N := (x + y) mod 2 ^ 32.
Definition paddd : vec -> vec -> vec := map2 lane_add.
Definition pxor : vec -> vec -> vec := map2 N.lxor.
Definition pslld (k : N) : vec -> vec := map (fun x => (x * 2 ^ k) mod 2 ^ 32).
Definition psrld (k : N) : vec -> vec := map (fun x => x / 2 ^ k).

(** Bytes of a vector, and back. *)
Definition vbytes (v : vec) : list N := flat_map (le_enc 4) v.
Definition blanes (l : list N) : vec := le_words 4 (length l / 4) l.

(** PSHUFB, per 16 bytes: byte [i] is 0 if bit 7 of mask byte [i] is set, otherwise the source byte it selects. *)
Fixpoint shufb_16 (src mask : list N) : list N :=
  match mask with
  | [] => []
  | b :: mask => (if 128 <=? b then 0 else nth (N.to_nat (b mod 16)) src 0) :: shufb_16 src mask
  end.
(** One or two 16-byte lanes. *)
Definition shufb_bytes (src mask : list N) : list N :=
  shufb_16 (firstn 16 src) (firstn 16 mask) ++ shufb_16 (skipn 16 src) (skipn 16 mask).
Definition pshufb (v : vec) (mask : list N) : vec := blanes (shufb_bytes (vbytes v) mask).

(** Instructions that work within each 128-bit lane. *)
Fixpoint per128 (f : N -> N -> N -> N -> N -> N -> N -> N -> list N) (a b : vec) : vec :=
  match a, b with
  | a0 :: a1 :: a2 :: a3 :: a, b0 :: b1 :: b2 :: b3 :: b => f a0 a1 a2 a3 b0 b1 b2 b3 ++ per128 f a b
  | _, _ => []
  end.
(** PUNPCKLDQ, PUNPCKHDQ, PUNPCKLQDQ, PUNPCKHQDQ *)
Definition punpckldq : vec -> vec -> vec := per128 (fun a0 a1 a2 a3 b0 b1 b2 b3 => [a0; b0; a1; b1]).
Definition punpckhdq : vec -> vec -> vec := per128 (fun a0 a1 a2 a3 b0 b1 b2 b3 => [a2; b2; a3; b3]).
Definition punpcklqdq : vec -> vec -> vec := per128 (fun a0 a1 a2 a3 b0 b1 b2 b3 => [a0; a1; b0; b1]).
Definition punpckhqdq : vec -> vec -> vec := per128 (fun a0 a1 a2 a3 b0 b1 b2 b3 => [a2; a3; b2; b3]).
(** PSHUFD: lane [j] is the lane numbered by bits 2j, 2j+1 of the immediate. *)
Definition sel4 (a0 a1 a2 a3 k : N) : N :=
  match k with 0 => a0 | 1 => a1 | 2 => a2 | _ => a3 end.
Definition pshufd (imm : N) (a : vec) : vec :=
  per128 (fun a0 a1 a2 a3 _ _ _ _ =>
    [sel4 a0 a1 a2 a3 (imm mod 4); sel4 a0 a1 a2 a3 (imm / 4 mod 4);
     sel4 a0 a1 a2 a3 (imm / 16 mod 4); sel4 a0 a1 a2 a3 (imm / 64 mod 4)]) a a.
(** VPERM2I128: each half of the result is a half of one of the sources. *)
Definition half128 (a b : vec) (k : N) : vec :=
  match k with 0 => firstn 4 a | 1 => skipn 4 a | 2 => firstn 4 b | _ => skipn 4 b end.
Definition vperm2i128 (imm : N) (a b : vec) : vec :=
  half128 a b (imm mod 4) ++ half128 a b (imm / 16 mod 4).

(** *** Operands *)
Inductive opd :=
| Rg (i : nat)          (* a vector register *)
| Tm (i : nat)          (* stack slot s_state_temp(i) *)
| Bs (i : nat)          (* stack slot s_state_base(i) *)
| Cn (v : vec)          (* a constant in .rodata, as 32-bit words *)
| Src (off : nat)       (* memory at the source pointer + off *)
| Dst (off : nat)       (* memory at the destination pointer + off *)
| Sta (i : nat).        (* 16 bytes of the state array from word 4 i on *)

Inductive op3 := Paddd | Pxor | Punpckldq | Punpckhdq | Punpcklqdq | Punpckhqdq.

Inductive instr :=
| Mov (aligned : bool) (d s : opd)           (* [v]movdqa, [v]movdqu *)
| Op3 (o : op3) (d a : nat) (b : opd)
| Sll (d a : nat) (k : N)
| Srl (d a : nat) (k : N)
| Shufb (d a : nat) (mask : list N)          (* [v]pshufb with a constant *)
| Shufd (d a : nat) (imm : N)
| Perm2 (d a b : nat) (imm : N)              (* vperm2i128 *)
| Bcast (d : nat) (s : opd)                  (* vbroadcasti128 *)
| AddDst (n : nat)                           (* add g_dst, n *)
| AddSrc (n : nat).

(** The part of the machine these routines use.  The state array is only read by the cipher. *)
Record mach := {
  mc_reg : list vec; mc_tmp : list vec; mc_base : list vec;
  mc_mem : list N; mc_dst : nat; mc_src : nat; mc_state : list N }.

Fixpoint lset {A} (l : list A) (i : nat) (v : A) : option (list A) :=
  match l, i with
  | [], _ => None
  | _ :: l, O => Some (v :: l)
  | x :: l, S i => l <- lset l i v ;; Some (x :: l)
  end.

(** [w]: bytes in a register (16 or 32). *)
Definition get (w : nat) (m : mach) (o : opd) : option vec :=
  match o with
  | Rg i => nth_error (mc_reg m) i
  | Tm i => nth_error (mc_tmp m) i
  | Bs i => nth_error (mc_base m) i
  | Cn v => Some v
  | Src off => l <- rds (mc_mem m) (mc_src m + off) w ;; Some (blanes l)
  | Dst off => l <- rds (mc_mem m) (mc_dst m + off) w ;; Some (blanes l)
  | Sta i => rds (mc_state m) (4 * i) 4
  end.
Definition with_reg (m : mach) (r : list vec) : mach :=
  {| mc_reg := r; mc_tmp := mc_tmp m; mc_base := mc_base m; mc_mem := mc_mem m; mc_dst := mc_dst m; mc_src := mc_src m; mc_state := mc_state m |}.
Definition with_tmp (m : mach) (r : list vec) : mach :=
  {| mc_reg := mc_reg m; mc_tmp := r; mc_base := mc_base m; mc_mem := mc_mem m; mc_dst := mc_dst m; mc_src := mc_src m; mc_state := mc_state m |}.
Definition with_base (m : mach) (r : list vec) : mach :=
  {| mc_reg := mc_reg m; mc_tmp := mc_tmp m; mc_base := r; mc_mem := mc_mem m; mc_dst := mc_dst m; mc_src := mc_src m; mc_state := mc_state m |}.
Definition with_mem (m : mach) (l : list N) : mach :=
  {| mc_reg := mc_reg m; mc_tmp := mc_tmp m; mc_base := mc_base m; mc_mem := l; mc_dst := mc_dst m; mc_src := mc_src m; mc_state := mc_state m |}.
Definition with_ptr (m : mach) (d s : nat) : mach :=
  {| mc_reg := mc_reg m; mc_tmp := mc_tmp m; mc_base := mc_base m; mc_mem := mc_mem m; mc_dst := d; mc_src := s; mc_state := mc_state m |}.

Definition setreg (m : mach) (d : nat) (v : vec) : option mach := r <- lset (mc_reg m) d v ;; Some (with_reg m r).
(** Destinations of a move. *)
Definition set (m : mach) (o : opd) (v : vec) : option mach :=
  match o with
  | Rg i => setreg m i v
  | Tm i => r <- lset (mc_tmp m) i v ;; Some (with_tmp m r)
  | Bs i => r <- lset (mc_base m) i v ;; Some (with_base m r)
  | Dst off => l <- wrs (mc_mem m) (mc_dst m + off) (vbytes v) ;; Some (with_mem m l)
  | _ => None
  end.

Definition fun3 (o : op3) : vec -> vec -> vec :=
  match o with
  | Paddd => paddd | Pxor => pxor
  | Punpckldq => punpckldq | Punpckhdq => punpckhdq | Punpcklqdq => punpcklqdq | Punpckhqdq => punpckhqdq
  end.

(** Pointers given by the caller need not be aligned: an aligned move, or a legacy instruction with a memory operand,
    may then fault. *)
Definition is_mem (o : opd) : bool := match o with Src _ | Dst _ | Sta _ => true | _ => false end.
Definition may_fault (w : nat) (i : instr) : bool :=
  match i with
  | Mov true d s => is_mem d || is_mem s
  | Op3 _ _ _ b => is_mem b && (w =? 16)%nat
  | _ => false
  end.

Definition exec (w : nat) (m : mach) (i : instr) : option mach :=
  if may_fault w i then None else
  match i with
  | Mov _ d s => v <- get w m s ;; set m d v
  | Op3 o d a b => x <- nth_error (mc_reg m) a ;; y <- get w m b ;; setreg m d (fun3 o x y)
  | Sll d a k => x <- nth_error (mc_reg m) a ;; setreg m d (pslld k x)
  | Srl d a k => x <- nth_error (mc_reg m) a ;; setreg m d (psrld k x)
  | Shufb d a mask => x <- nth_error (mc_reg m) a ;; setreg m d (pshufb x mask)
  | Shufd d a imm => x <- nth_error (mc_reg m) a ;; setreg m d (pshufd imm x)
  | Perm2 d a b imm => x <- nth_error (mc_reg m) a ;; y <- nth_error (mc_reg m) b ;; setreg m d (vperm2i128 imm x y)
  | Bcast d s => v <- get 16 m s ;; setreg m d (v ++ v)
  | AddDst n => Some (with_ptr m (mc_dst m + n)%nat (mc_src m))
  | AddSrc n => Some (with_ptr m (mc_dst m) (mc_src m + n)%nat)
  end.
Fixpoint run (w : nat) (p : list instr) (m : mach) : option mach :=
  match p with [] => Some m | i :: p => m <- exec w m i ;; run w p m end.

(** *** Which extension an instruction needs (instruction set reference, "CPUID feature flag"). *)
Definition needs_sse (i : instr) : list feature :=
  match i with
  | Mov _ _ _ | Op3 _ _ _ _ | Sll _ _ _ | Srl _ _ _ | Shufd _ _ _ => [sse_2]
  | Shufb _ _ _ => [ssse_3]
  | Perm2 _ _ _ _ | Bcast _ _ => [avx_2]      (* these have no legacy encoding *)
  | AddDst _ | AddSrc _ => []
  end.
Definition needs_vex256 (i : instr) : list feature :=
  match i with
  | Mov _ _ _ => [avx_1]
  | Op3 _ _ _ _ | Sll _ _ _ | Srl _ _ _ | Shufd _ _ _ | Shufb _ _ _ | Perm2 _ _ _ _ | Bcast _ _ => [avx_2]
  | AddDst _ | AddSrc _ => []
  end.
(** What can be encoded: a move has a register on at least one side; legacy instructions are two-operand, the
    destination is the first source (except moves and PSHUFD). *)
Definition is_reg (o : opd) : bool := match o with Rg _ => true | _ => false end.
Definition encodable (w : nat) (i : instr) : bool :=
  match i with
  | Mov _ d s => is_reg d || is_reg s
  | Op3 _ d a _ | Sll d a _ | Srl d a _ | Shufb d a _ => negb (w =? 16)%nat || (d =? a)%nat
  | Perm2 _ _ _ _ | Bcast _ _ => (w =? 32)%nat
  | _ => true
  end.
