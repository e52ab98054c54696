(** Model of the SHA-NI routines: src/milo/primitive/detail/hash/sha/sha_1_160_impl_hw_x86_64.asm and
    sha_2_256_impl_hw_x86_64.asm, as instruction lists in the order of the files, and their loops.

    The semantics of the instructions is after the Intel 64 and IA-32 Architectures Software Developer's Manual,
    volume 2.  A vector is the list of its four 32-bit lanes, lowest first (see Model_X86).

    Not here but in Model_Asm: the Windows ABI prologue and epilogue (saving xmm6 to xmm10); the constants in .rodata are operands
    here.  Simplifications: pslldq, psrldq and palignr are only given for whole lanes; the state array, which the C++
    code declares as uint32_t, is a list of words. *)
From Verif Require Import Base Spec_Bytes Model_Dispatch Model_X86 Model_Memory Model_Sha.
From Verif Require Import Spec_Sha. (* only for the names of the seven algorithms *)
Local Open Scope N_scope.

(** *** Instruction semantics *)
Definition rol32 (n x : N) : N := (x * 2 ^ n) mod 2 ^ 32 + x / 2 ^ (32 - n).
Definition ror32 (n x : N) : N := rol32 (32 - n) x.
Definition not32 (x : N) : N := N.lxor x 0xffffffff.
Definition lane (i : nat) (v : vec) : N := nth i v 0.

(** SHA1RNDS4: f and K by the two low bits of the immediate. *)
Definition sha1_fk (k : N) : (N -> N -> N -> N) * N :=
  match k with
  | 0 => (fun b c d => N.lxor (N.land b c) (N.land (not32 b) d), 0x5a827999)
  | 1 => (fun b c d => N.lxor (N.lxor b c) d, 0x6ed9eba1)
  | 2 => (fun b c d => N.lxor (N.lxor (N.land b c) (N.land b d)) (N.land c d), 0x8f1bbcdc)
  | _ => (fun b c d => N.lxor (N.lxor b c) d, 0xca62c1d6)
  end.
Definition sha1rnds4 (k : N) (d s : vec) : vec :=
  let '(f, K) := sha1_fk (k mod 4) in
  let '(A, B, C, D) := (lane 3 d, lane 2 d, lane 1 d, lane 0 d) in
  let '(W0E, W1, W2, W3) := (lane 3 s, lane 2 s, lane 1 s, lane 0 s) in
  (* round 0 *)
  let A1 := (f B C D + rol32 5 A + W0E + K) mod 2 ^ 32 in
  let '(B1, C1, D1, E1) := (A, rol32 30 B, C, D) in
  (* rounds 1 to 3 *)
  let A2 := (f B1 C1 D1 + rol32 5 A1 + W1 + E1 + K) mod 2 ^ 32 in
  let '(B2, C2, D2, E2) := (A1, rol32 30 B1, C1, D1) in
  let A3 := (f B2 C2 D2 + rol32 5 A2 + W2 + E2 + K) mod 2 ^ 32 in
  let '(B3, C3, D3, E3) := (A2, rol32 30 B2, C2, D2) in
  let A4 := (f B3 C3 D3 + rol32 5 A3 + W3 + E3 + K) mod 2 ^ 32 in
  let '(B4, C4, D4) := (A3, rol32 30 B3, C3) in
  [D4; C4; B4; A4].
(** SHA1NEXTE *)
Definition sha1nexte (d s : vec) : vec := [lane 0 s; lane 1 s; lane 2 s; lane_add (lane 3 s) (rol32 30 (lane 3 d))].
(** SHA1MSG1 *)
Definition sha1msg1 (d s : vec) : vec :=
  let '(W0, W1, W2, W3, W4, W5) := (lane 3 d, lane 2 d, lane 1 d, lane 0 d, lane 3 s, lane 2 s) in
  [N.lxor W5 W3; N.lxor W4 W2; N.lxor W3 W1; N.lxor W2 W0].
(** SHA1MSG2 *)
Definition sha1msg2 (d s : vec) : vec :=
  let '(W13, W14, W15) := (lane 2 s, lane 1 s, lane 0 s) in
  let W16 := rol32 1 (N.lxor (lane 3 d) W13) in
  let W17 := rol32 1 (N.lxor (lane 2 d) W14) in
  let W18 := rol32 1 (N.lxor (lane 1 d) W15) in
  let W19 := rol32 1 (N.lxor (lane 0 d) W16) in
  [W19; W18; W17; W16].
(** SHA256RNDS2, the third operand is xmm0. *)
Definition sha256_ch (e f g : N) : N := N.lxor (N.land e f) (N.land (not32 e) g).
Definition sha256_maj (a b c : N) : N := N.lxor (N.lxor (N.land a b) (N.land a c)) (N.land b c).
Definition sha256_S0 (a : N) : N := N.lxor (N.lxor (ror32 2 a) (ror32 13 a)) (ror32 22 a).
Definition sha256_S1 (e : N) : N := N.lxor (N.lxor (ror32 6 e) (ror32 11 e)) (ror32 25 e).
Definition sha256_s0 (w : N) : N := N.lxor (N.lxor (ror32 7 w) (ror32 18 w)) (w / 2 ^ 3).
Definition sha256_s1 (w : N) : N := N.lxor (N.lxor (ror32 17 w) (ror32 19 w)) (w / 2 ^ 10).
Definition sha256_step (v : N * N * N * N * N * N * N * N) (wk : N) : N * N * N * N * N * N * N * N :=
  let '(A, B, C, D, E, F, G, H) := v in
  ((sha256_ch E F G + sha256_S1 E + wk + H + sha256_maj A B C + sha256_S0 A) mod 2 ^ 32, A, B, C,
   (sha256_ch E F G + sha256_S1 E + wk + H + D) mod 2 ^ 32, E, F, G).
Definition sha256rnds2 (d s x0 : vec) : vec :=
  let v := (lane 3 s, lane 2 s, lane 3 d, lane 2 d, lane 1 s, lane 0 s, lane 1 d, lane 0 d) in
  let '(A, B, C, D, E, F, G, H) := sha256_step (sha256_step v (lane 0 x0)) (lane 1 x0) in
  [F; E; B; A].
(** SHA256MSG1 *)
Definition sha256msg1 (d s : vec) : vec :=
  [lane_add (lane 0 d) (sha256_s0 (lane 1 d)); lane_add (lane 1 d) (sha256_s0 (lane 2 d));
   lane_add (lane 2 d) (sha256_s0 (lane 3 d)); lane_add (lane 3 d) (sha256_s0 (lane 0 s))].
(** SHA256MSG2 *)
Definition sha256msg2 (d s : vec) : vec :=
  let '(W14, W15) := (lane 2 s, lane 3 s) in
  let W16 := lane_add (lane 0 d) (sha256_s1 W14) in
  let W17 := lane_add (lane 1 d) (sha256_s1 W15) in
  let W18 := lane_add (lane 2 d) (sha256_s1 W16) in
  let W19 := lane_add (lane 3 d) (sha256_s1 W17) in
  [W16; W17; W18; W19].
(** PSLLDQ, PSRLDQ and PALIGNR by a number of bytes that is a multiple of 4. *)
Definition pslldq (k : nat) (v : vec) : vec := firstn 4 (repeat 0 (k / 4) ++ v).
Definition psrldq (k : nat) (v : vec) : vec := firstn 4 (skipn (k / 4) v ++ repeat 0 4).
Definition palignr (k : nat) (d s : vec) : vec := firstn 4 (skipn (k / 4) (s ++ d)).

(** *** The machine: vector registers, the source bytes and the offset of g_src in them, the state array. *)
Inductive sop := SPaddd | SPxor | SNexte | SMsg1 | SMsg2 | S2Msg1 | S2Msg2.
Inductive sinstr :=
| Movdqa (d s : nat)
| MovC (d : nat) (c : list N)          (* movdqa from a constant, given as bytes *)
| MovSrc (d off : nat)                 (* movdqu d, m_src(off) *)
| MovSt (d i : nat)                    (* movdqu d, m_state(i), i in bytes *)
| MovdSt (d i : nat)                   (* movd d, m_state(i) *)
| StMov (i s : nat)                    (* movdqu m_state(i), s *)
| StMovd (i s : nat)                   (* movd m_state(i), s *)
| Sop (o : sop) (d s : nat)
| PadddC (d : nat) (c : vec)           (* paddd with a constant *)
| Pshufb (d s : nat)
| Pshufd (d s : nat) (imm : N)
| Pslldq (d k : nat)
| Psrldq (d k : nat)
| Palignr (d s k : nat)
| Rnds4 (d s : nat) (k : N)
| Rnds2 (d s : nat)
| Vpunpcklqdq (d a b : nat)
| Vpunpckhqdq (d a b : nat)
| AddSource (k : nat).                 (* add g_src, k *)

Record smach := { sm_reg : list vec; sm_mem : list N; sm_src : nat; sm_state : list N }.

Definition sop_fun (o : sop) : vec -> vec -> vec :=
  match o with
  | SPaddd => paddd | SPxor => pxor | SNexte => sha1nexte | SMsg1 => sha1msg1 | SMsg2 => sha1msg2
  | S2Msg1 => sha256msg1 | S2Msg2 => sha256msg2
  end.
Definition sreg (m : smach) (i : nat) : option vec := nth_error (sm_reg m) i.
Definition sset (m : smach) (d : nat) (v : vec) : option smach :=
  r <- lset (sm_reg m) d v ;; Some {| sm_reg := r; sm_mem := sm_mem m; sm_src := sm_src m; sm_state := sm_state m |}.
Definition sstore (m : smach) (i : nat) (v : list N) : option smach :=
  if (i mod 4 =? 0)%nat then
    st <- wrs (sm_state m) (i / 4) v ;; Some {| sm_reg := sm_reg m; sm_mem := sm_mem m; sm_src := sm_src m; sm_state := st |}
  else None.
Definition sload (m : smach) (i n : nat) : option (list N) :=
  if (i mod 4 =? 0)%nat then rds (sm_state m) (i / 4) n else None.

Definition sexec (m : smach) (i : sinstr) : option smach :=
  match i with
  | Movdqa d s => v <- sreg m s ;; sset m d v
  | MovC d c => sset m d (blanes c)
  | MovSrc d off => l <- rds (sm_mem m) (sm_src m + off) 16 ;; sset m d (blanes l)
  | MovSt d i => v <- sload m i 4 ;; sset m d v
  | MovdSt d i => v <- sload m i 1 ;; sset m d (v ++ [0; 0; 0])
  | StMov i s => v <- sreg m s ;; sstore m i v
  | StMovd i s => v <- sreg m s ;; sstore m i (firstn 1 v)
  | Sop o d s => x <- sreg m d ;; y <- sreg m s ;; sset m d (sop_fun o x y)
  | PadddC d c => x <- sreg m d ;; sset m d (paddd x c)
  | Pshufb d s => x <- sreg m d ;; y <- sreg m s ;; sset m d (pshufb x (vbytes y))
  | Pshufd d s imm => x <- sreg m s ;; sset m d (pshufd imm x)
  | Pslldq d k => x <- sreg m d ;; if (k mod 4 =? 0)%nat then sset m d (pslldq k x) else None
  | Psrldq d k => x <- sreg m d ;; if (k mod 4 =? 0)%nat then sset m d (psrldq k x) else None
  | Palignr d s k => x <- sreg m d ;; y <- sreg m s ;; if (k mod 4 =? 0)%nat then sset m d (palignr k x y) else None
  | Rnds4 d s k => x <- sreg m d ;; y <- sreg m s ;; sset m d (sha1rnds4 k x y)
  | Rnds2 d s => x <- sreg m d ;; y <- sreg m s ;; z <- sreg m 0 ;; sset m d (sha256rnds2 x y z)
  | Vpunpcklqdq d a b => x <- sreg m a ;; y <- sreg m b ;; sset m d (punpcklqdq x y)
  | Vpunpckhqdq d a b => x <- sreg m a ;; y <- sreg m b ;; sset m d (punpckhqdq x y)
  | AddSource k => Some {| sm_reg := sm_reg m; sm_mem := sm_mem m; sm_src := (sm_src m + k)%nat; sm_state := sm_state m |}
  end.
Fixpoint srun (p : list sinstr) (m : smach) : option smach :=
  match p with [] => Some m | i :: p => m <- sexec m i ;; srun p m end.
(** The loops: "test g_blocks, g_blocks; jz .blocks_loop_end" skips it for 0 blocks, then "sub g_blocks_cnt, 1; jnz"
    (sha_1_160 lines 77-81 and 157-158, sha_2_256 lines 103-107 and 191-192). *)
Fixpoint sloop (body : list sinstr) (n : nat) (m : smach) : option smach :=
  match n with O => Some m | S n => m <- srun body m ;; sloop body n m end.

(** Extensions (instruction set reference, "CPUID feature flag"): the SHA instructions have one flag, which the
    library calls sha_1 for the SHA-1 and sha_2 for the SHA-256 ones. *)
Definition s_needs (i : sinstr) : list feature :=
  match i with
  | Movdqa _ _ | MovC _ _ | MovSrc _ _ | MovSt _ _ | MovdSt _ _ | StMov _ _ | StMovd _ _ | PadddC _ _ | Pshufd _ _ _
  | Pslldq _ _ | Psrldq _ _ | Sop SPaddd _ _ | Sop SPxor _ _ => [sse_2]
  | Sop SNexte _ _ | Sop SMsg1 _ _ | Sop SMsg2 _ _ | Rnds4 _ _ _ => [sha_1]
  | Sop S2Msg1 _ _ | Sop S2Msg2 _ _ | Rnds2 _ _ => [sha_2]
  | Pshufb _ _ | Palignr _ _ _ => [ssse_3]
  | Vpunpcklqdq _ _ _ | Vpunpckhqdq _ _ _ => [avx_1]
  | AddSource _ => []
  end.

(** *** sha_1_160_impl_hw_x86_64.asm *)
Definition base1 (i : nat) : nat := i.             (* line 22: x_state_base *)
Definition msg1 (i : nat) : nat := (i + 3)%nat.    (* line 23: x_message *)
Definition mask1 : nat := 7%nat.                   (* line 24 *)
Definition save1 (i : nat) : nat := (i + 8)%nat.   (* line 25 *)
(** Lines 51-55. *)
Definition mask_bytes1 : list N :=
  [0x0f; 0x0e; 0x0d; 0x0c; 0x0b; 0x0a; 0x09; 0x08; 0x07; 0x06; 0x05; 0x04; 0x03; 0x02; 0x01; 0x00].

(** Lines 28-39. *)
Definition sha_1_160_rounds (m1 m2 m3 m4 s5 s6 s7 : nat) (k : N) : list sinstr :=
  [ Sop SNexte (base1 s7) (msg1 m4);
    Movdqa (base1 s6) (base1 s5);
    Sop SMsg2 (msg1 m1) (msg1 m4);
    Rnds4 (base1 s5) (base1 s7) k;
    Sop SMsg1 (msg1 m3) (msg1 m4);
    Sop SPxor (msg1 m2) (msg1 m4) ].

(** Lines 71-75. *)
Definition sha1_load : list sinstr :=
  [ MovSt (base1 0) 0; MovdSt (base1 1) 16; MovC mask1 mask_bytes1;
    Pshufd (base1 0) (base1 0) 0x1b; Pslldq (base1 1) 12 ].
(** Lines 83-108: reading the block and rounds 0 to 11. *)
Definition sha1_first : list sinstr :=
  [ MovSrc (msg1 0) (16 * 0); MovSrc (msg1 1) (16 * 1); MovSrc (msg1 2) (16 * 2); MovSrc (msg1 3) (16 * 3);
    Movdqa (save1 0) (base1 0); Movdqa (save1 1) (base1 1);
    AddSource 64;
    (* rounds 0 to 3 *)
    Pshufb (msg1 0) mask1; Sop SPaddd (base1 1) (msg1 0); Movdqa (base1 2) (base1 0); Rnds4 (base1 0) (base1 1) 0;
    (* rounds 4 to 7 *)
    Pshufb (msg1 1) mask1; Sop SNexte (base1 2) (msg1 1); Movdqa (base1 1) (base1 0); Rnds4 (base1 0) (base1 2) 0;
    Sop SMsg1 (msg1 0) (msg1 1);
    (* rounds 8 to 11 *)
    Pshufb (msg1 2) mask1; Sop SNexte (base1 1) (msg1 2); Movdqa (base1 2) (base1 0); Rnds4 (base1 0) (base1 1) 0;
    Sop SMsg1 (msg1 1) (msg1 2); Sop SPxor (msg1 0) (msg1 2) ].
(** Lines 138-155: rounds 68 to 79 and merging the state. *)
Definition sha1_last : list sinstr :=
  [ Sop SNexte (base1 2) (msg1 1); Movdqa (base1 1) (base1 0); Sop SMsg2 (msg1 2) (msg1 1); Rnds4 (base1 0) (base1 2) 3;
    Sop SPxor (msg1 3) (msg1 1);
    Sop SNexte (base1 1) (msg1 2); Movdqa (base1 2) (base1 0); Sop SMsg2 (msg1 3) (msg1 2); Rnds4 (base1 0) (base1 1) 3;
    Sop SNexte (base1 2) (msg1 3); Movdqa (base1 1) (base1 0); Rnds4 (base1 0) (base1 2) 3;
    Sop SNexte (base1 1) (save1 1); Sop SPaddd (base1 0) (save1 0) ].
(** Lines 82-155. *)
Definition sha1_body : list sinstr :=
  sha1_first ++
  Pshufb (msg1 3) mask1 ::
  sha_1_160_rounds 0 1 2 3 0 1 2 0 ++
  sha_1_160_rounds 1 2 3 0 0 2 1 0 ++
  sha_1_160_rounds 2 3 0 1 0 1 2 1 ++
  sha_1_160_rounds 3 0 1 2 0 2 1 1 ++
  sha_1_160_rounds 0 1 2 3 0 1 2 1 ++
  sha_1_160_rounds 1 2 3 0 0 2 1 1 ++
  sha_1_160_rounds 2 3 0 1 0 1 2 1 ++
  sha_1_160_rounds 3 0 1 2 0 2 1 2 ++
  sha_1_160_rounds 0 1 2 3 0 1 2 2 ++
  sha_1_160_rounds 1 2 3 0 0 2 1 2 ++
  sha_1_160_rounds 2 3 0 1 0 1 2 2 ++
  sha_1_160_rounds 3 0 1 2 0 2 1 2 ++
  sha_1_160_rounds 0 1 2 3 0 1 2 3 ++
  sha_1_160_rounds 1 2 3 0 0 2 1 3 ++
  sha1_last.
(** Lines 162-165. *)
Definition sha1_store : list sinstr :=
  [ Pshufd (base1 0) (base1 0) 0x1b; Psrldq (base1 1) 12; StMov 0 (base1 0); StMovd 16 (base1 1) ].

(** The routine: the state array after it; [junk] is what the registers hold on entry. *)
Definition routine (load body store : list sinstr) (junk : list vec) (n : nat) (st src : list N) : option (list N) :=
  m <- srun load {| sm_reg := junk; sm_mem := src; sm_src := 0; sm_state := st |} ;;
  m <- sloop body n m ;;
  m <- srun store m ;;
  Some (sm_state m).
Definition sha1_ni_blocks (junk : list vec) (n : nat) (st src : list N) : option (list N) :=
  routine sha1_load sha1_body sha1_store junk n st src.

(** *** sha_2_256_impl_hw_x86_64.asm *)
Definition impl2 : nat := 0%nat.                   (* line 24: x_implicit *)
Definition base2 (i : nat) : nat := (i + 1)%nat.   (* line 25 *)
Definition msg2 (i : nat) : nat := (i + 3)%nat.    (* line 26 *)
Definition mask2 : nat := 8%nat.                   (* line 27 *)
Definition save2 (i : nat) : nat := (i + 9)%nat.   (* line 28 *)
(** Lines 57-61. *)
Definition mask_bytes2 : list N :=
  [0x03; 0x02; 0x01; 0x00; 0x07; 0x06; 0x05; 0x04; 0x0b; 0x0a; 0x09; 0x08; 0x0f; 0x0e; 0x0d; 0x0c].
(** Lines 62-78: two quadwords per line, stored low word first. *)
Definition dq (a b : N) : vec := [a mod 2 ^ 32; a / 2 ^ 32; b mod 2 ^ 32; b / 2 ^ 32].
Definition constant_k : list vec :=
  [ dq 0x71374491428a2f98 0xe9b5dba5b5c0fbcf;
    dq 0x59f111f13956c25b 0xab1c5ed5923f82a4;
    dq 0x12835b01d807aa98 0x550c7dc3243185be;
    dq 0x80deb1fe72be5d74 0xc19bf1749bdc06a7;
    dq 0xefbe4786e49b69c1 0x240ca1cc0fc19dc6;
    dq 0x4a7484aa2de92c6f 0x76f988da5cb0a9dc;
    dq 0xa831c66d983e5152 0xbf597fc7b00327c8;
    dq 0xd5a79147c6e00bf3 0x1429296706ca6351;
    dq 0x2e1b213827b70a85 0x53380d134d2c6dfc;
    dq 0x766a0abb650a7354 0x92722c8581c2c92e;
    dq 0xa81a664ba2bfe8a1 0xc76c51a3c24b8b70;
    dq 0xd6990624d192e819 0x106aa070f40e3585;
    dq 0x1e376c0819a4c116 0x34b0bcb52748774c;
    dq 0x4ed8aa4a391c0cb3 0x682e6ff35b9cca4f;
    dq 0x78a5636f748f82ee 0x8cc7020884c87814;
    dq 0xa4506ceb90befffa 0xc67178f2bef9a3f7 ].
Definition m_k (i : nat) : vec := nth i constant_k [].

(** Lines 30-44. *)
Definition sha_2_256_rounds (m1 m2 m3 m4 k : nat) : list sinstr :=
  [ Movdqa impl2 (msg2 m4);
    Movdqa (msg2 4) (msg2 m4);
    PadddC impl2 (m_k k);
    Rnds2 (base2 1) (base2 0);
    Palignr (msg2 4) (msg2 m3) 4;
    Sop SPaddd (msg2 m1) (msg2 4);
    Pshufd impl2 impl2 0x0e;
    Sop S2Msg2 (msg2 m1) (msg2 m4);
    Rnds2 (base2 0) (base2 1);
    Sop S2Msg1 (msg2 m3) (msg2 m4) ].

(** Lines 95-101. *)
Definition sha2_load : list sinstr :=
  [ MovSt (save2 0) (16 * 0); MovSt (save2 1) (16 * 1); MovC mask2 mask_bytes2;
    Pshufd (save2 0) (save2 0) 0xb1; Pshufd (save2 1) (save2 1) 0xb1;
    Vpunpcklqdq (base2 0) (save2 1) (save2 0); Vpunpckhqdq (base2 1) (save2 1) (save2 0) ].
(** Lines 109-140: reading the block and rounds 0 to 11. *)
Definition sha2_first : list sinstr :=
  [ MovSrc impl2 (16 * 0); MovSrc (msg2 1) (16 * 1); MovSrc (msg2 2) (16 * 2); MovSrc (msg2 3) (16 * 3);
    Movdqa (save2 0) (base2 0); Movdqa (save2 1) (base2 1);
    AddSource 64;
    (* rounds 0 to 3 *)
    Pshufb impl2 mask2; Pshufb (msg2 1) mask2; Movdqa (msg2 0) impl2; PadddC impl2 (m_k 0);
    Rnds2 (base2 1) (base2 0); Pshufd impl2 impl2 0x0e; Rnds2 (base2 0) (base2 1);
    (* rounds 4 to 7 *)
    Movdqa impl2 (msg2 1); Pshufb (msg2 2) mask2; PadddC impl2 (m_k 1);
    Rnds2 (base2 1) (base2 0); Pshufd impl2 impl2 0x0e; Rnds2 (base2 0) (base2 1); Sop S2Msg1 (msg2 0) (msg2 1);
    (* rounds 8 to 11 *)
    Movdqa impl2 (msg2 2); Pshufb (msg2 3) mask2; PadddC impl2 (m_k 2);
    Rnds2 (base2 1) (base2 0); Pshufd impl2 impl2 0x0e; Rnds2 (base2 0) (base2 1); Sop S2Msg1 (msg2 1) (msg2 2) ].
(** Lines 161-189: rounds 52 to 63 and merging the state. *)
Definition sha2_last : list sinstr :=
  [ Movdqa impl2 (msg2 1); Movdqa (msg2 4) (msg2 1); PadddC impl2 (m_k 13); Rnds2 (base2 1) (base2 0);
    Palignr (msg2 4) (msg2 0) 4; Sop SPaddd (msg2 2) (msg2 4); Pshufd impl2 impl2 0x0e;
    Sop S2Msg2 (msg2 2) (msg2 1); Rnds2 (base2 0) (base2 1);
    Movdqa impl2 (msg2 2); Movdqa (msg2 4) (msg2 2); PadddC impl2 (m_k 14); Rnds2 (base2 1) (base2 0);
    Palignr (msg2 4) (msg2 1) 4; Sop SPaddd (msg2 3) (msg2 4); Pshufd impl2 impl2 0x0e;
    Sop S2Msg2 (msg2 3) (msg2 2); Rnds2 (base2 0) (base2 1);
    Movdqa impl2 (msg2 3); PadddC impl2 (m_k 15); Rnds2 (base2 1) (base2 0); Pshufd impl2 impl2 0x0e;
    Rnds2 (base2 0) (base2 1);
    Sop SPaddd (base2 1) (save2 1); Sop SPaddd (base2 0) (save2 0) ].
(** Lines 108-189. *)
Definition sha2_body : list sinstr :=
  sha2_first ++
  sha_2_256_rounds 0 1 2 3 3 ++
  sha_2_256_rounds 1 2 3 0 4 ++
  sha_2_256_rounds 2 3 0 1 5 ++
  sha_2_256_rounds 3 0 1 2 6 ++
  sha_2_256_rounds 0 1 2 3 7 ++
  sha_2_256_rounds 1 2 3 0 8 ++
  sha_2_256_rounds 2 3 0 1 9 ++
  sha_2_256_rounds 3 0 1 2 10 ++
  sha_2_256_rounds 0 1 2 3 11 ++
  sha_2_256_rounds 1 2 3 0 12 ++
  sha2_last.
(** Lines 196-201. *)
Definition sha2_store : list sinstr :=
  [ Vpunpckhqdq (save2 0) (base2 0) (base2 1); Vpunpcklqdq (save2 1) (base2 0) (base2 1);
    Pshufd (save2 0) (save2 0) 0xb1; Pshufd (save2 1) (save2 1) 0xb1;
    StMov (16 * 0) (save2 0); StMov (16 * 1) (save2 1) ].
Definition sha2_ni_blocks (junk : list vec) (n : nat) (st src : list N) : option (list N) :=
  routine sha2_load sha2_body sha2_store junk n st src.

(** *** The hash classes with these routines: hash_sha_1_160_impl_hw_x86_64_ni::blocks (sha_1_160_impl_hw_x86_64.h:62-78)
    and hash_sha_2_256_impl_hw_x86_64_ni::blocks (sha_2_256_impl_hw_x86_64.h:64-80) call the routine; at compile time the
    portable code is used (impl_cpltime, sha_1_160.h:27-29, sha_2_256.h:27-29).  [j] gives whatever the registers hold at
    each call. *)
Definition ni_blocks (a : sha) (j : nat -> list N -> list N -> list vec) (sw : ctx -> nat -> list N -> list N -> option (list N))
  (cx : ctx) (n : nat) (st src : list N) : option (list N) :=
  if cx_ce cx then sw cx n st src else
  match a with
  | SHA1 => sha1_ni_blocks (j n st src) n st src
  | SHA224 | SHA256 => sha2_ni_blocks (j n st src) n st src
  | _ => sw cx n st src
  end.
Definition ni_hash_opt (a : sha) (j : nat -> list N -> list N -> list vec) (dsz : nat) : hash_alg :=
  let al := milo_hash_opt a dsz in
  {| ha_block_size := ha_block_size al; ha_word := ha_word al; ha_iv := ha_iv al; ha_wide := ha_wide al;
     ha_limit := ha_limit al; ha_blocks := ni_blocks a j (ha_blocks al); ha_digest_size := ha_digest_size al |}.
Definition ni_hash (a : sha) (j : nat -> list N -> list N -> list vec) : hash_alg := ni_hash_opt a j (ha_digest_size (milo_hash a)).
