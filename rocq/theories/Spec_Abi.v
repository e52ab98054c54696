(** What a caller of a function written in assembly relies on, by the System V AMD64 and the Microsoft x64 calling
    conventions.  Only the machine (registers, memory) and the argument registers are taken from Model_Asm. *)
From Verif Require Import Base Spec_Bytes Model_X86 Model_Asm. (* Model_X86: the type of vectors *)
Local Open Scope N_scope.

(** A possible state of the machine. *)
Definition machine (c : cpu) : Prop :=
  (forall r, c_gpr c r < 2 ^ 64) /\ (forall i, length (c_ymm c i) = 8%nat /\ words 32 (c_ymm c i)) /\ (forall x, is_byte (c_mem c x)).

(** Ranges of addresses. *)
Definition readable (s : space) (a n : N) : Prop := a + n < 2 ^ 64 /\ forall x, a <= x < a + n -> sp_rd s x = true.
Definition writable (s : space) (a n : N) : Prop := a + n < 2 ^ 64 /\ forall x, a <= x < a + n -> sp_wr s x = true.
Definition disjoint (a n b m : N) : Prop := a + n <= b \/ b + m <= a.

(** The function is entered by a call: the stack pointer is 8 modulo 16 and points to the return address; 1024 bytes
    of stack are left below; under the Microsoft convention 32 bytes above the return address belong to the callee and
    the fifth argument follows. *)
Definition entered (s : space) (b : abi) (c : cpu) : Prop :=
  let sp := c_gpr c rsp in
  sp mod 16 = 8 /\ sp_low s + 1024 <= sp /\
  readable s (sp - 1024) 1024 /\ writable s (sp - 1024) 1024 /\
  readable s sp (match b with Unix => 8 | Wind => 48 end).
Definition return_address (c : cpu) : N := le_dec (mread (c_mem c) (c_gpr c rsp) 8).
Definition argument (b : abi) (c : cpu) (i : nat) : N :=
  match b, i with
  | Unix, 0%nat => c_gpr c rdi | Unix, 1%nat => c_gpr c rsi | Unix, 2%nat => c_gpr c rdx | Unix, 3%nat => c_gpr c rcx
  | Unix, 4%nat => c_gpr c r8 | Unix, _ => c_gpr c r9
  | Wind, 0%nat => c_gpr c rcx | Wind, 1%nat => c_gpr c rdx | Wind, 2%nat => c_gpr c r8 | Wind, 3%nat => c_gpr c r9
  | Wind, i => le_dec (mread (c_mem c) (c_gpr c rsp + 8 + 8 * N.of_nat i) 8)
  end.
(** Memory given by the caller is not in the unused part of the stack and does not contain the return address. *)
Definition off_stack (s : space) (c : cpu) (a n : N) : Prop := disjoint a n (sp_low s) (c_gpr c rsp + 8 - sp_low s).

(** What must be as before when the function returns: the stack pointer (the return address popped), these registers. *)
Definition callee_saved (b : abi) : list gpr :=
  match b with
  | Unix => [rbx; rbp; r12; r13; r14; r15]
  | Wind => [rbx; rbp; rdi; rsi; r12; r13; r14; r15]
  end.
Definition callee_saved_xmm (b : abi) : list nat := match b with Unix => [] | Wind => [6; 7; 8; 9; 10; 11; 12; 13; 14; 15]%nat end.
Record returned (b : abi) (c : cpu) (ra : N) (c' : cpu) : Prop := {
  ret_to : ra = return_address c;
  ret_sp : c_gpr c' rsp = c_gpr c rsp + 8;
  ret_gpr : forall r, In r (callee_saved b) -> c_gpr c' r = c_gpr c r;
  ret_xmm : forall i, In i (callee_saved_xmm b) -> firstn 4 (c_ymm c' i) = firstn 4 (c_ymm c i) }.
(** Memory changes only in the given range and in the unused part of the stack. *)
Definition only_changes (c c' : cpu) (a n : N) : Prop :=
  forall x, (x < a \/ a + n <= x) -> (x < c_gpr c rsp - 1024 \/ c_gpr c rsp <= x) -> c_mem c' x = c_mem c x.

(** *** A call of a key stream function f (rounds, iterations, state, destination [, source]); [size]: the bytes an
    iteration handles.  The source and the destination are the same or do not overlap. *)
Record cipher_call (s : space) (b : abi) (size : nat) (transform : bool) (c : cpu) : Prop := {
  cc_machine : machine c;
  cc_entered : entered s b c;
  cc_rounds : argument b c 0 <> 0;
  cc_state : readable s (argument b c 2) 64 /\ off_stack s c (argument b c 2) 64;
  cc_dst : writable s (argument b c 3) (N.of_nat size * argument b c 1) /\ off_stack s c (argument b c 3) (N.of_nat size * argument b c 1) /\
    disjoint (argument b c 3) (N.of_nat size * argument b c 1) (argument b c 2) 64;
  cc_src : transform = true ->
    readable s (argument b c 4) (N.of_nat size * argument b c 1) /\ off_stack s c (argument b c 4) (N.of_nat size * argument b c 1) /\
    (argument b c 3 = argument b c 4 \/
     disjoint (argument b c 3) (N.of_nat size * argument b c 1) (argument b c 4) (N.of_nat size * argument b c 1)) }.

(** *** A call of a compression function f (blocks, state, source), with a state of [ns] 32-bit words and 64-byte blocks. *)
Record hash_call (s : space) (b : abi) (ns : nat) (c : cpu) : Prop := {
  hc_machine : machine c;
  hc_entered : entered s b c;
  hc_state : readable s (argument b c 1) (N.of_nat (4 * ns)) /\ writable s (argument b c 1) (N.of_nat (4 * ns)) /\
    off_stack s c (argument b c 1) (N.of_nat (4 * ns));
  hc_src : readable s (argument b c 2) (64 * argument b c 0) /\ off_stack s c (argument b c 2) (64 * argument b c 0);
  hc_apart : disjoint (argument b c 1) (N.of_nat (4 * ns)) (argument b c 2) (64 * argument b c 0) }.

(** *** A call of f (result, leaf, sub-leaf) with room for four 32-bit words.  The upper halves of the registers that
    hold the 32-bit arguments may be anything. *)
Record cpuid_call (s : space) (b : abi) (c : cpu) : Prop := {
  ic_machine : machine c;
  ic_entered : entered s b c;
  ic_result : writable s (argument b c 0) 16 /\ off_stack s c (argument b c 0) 16 }.
