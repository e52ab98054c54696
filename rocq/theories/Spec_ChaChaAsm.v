(** What the assembly routines must compute. *)
From Verif Require Import Base Spec_Bytes Spec_ChaCha Spec_Range Spec_Cipher Model_Dispatch Model_X86. (* Model_X86, Model_Dispatch: the instruction and feature types only *)
Local Open Scope N_scope.

(** A block of ChaCha with [r] double rounds (RFC 8439 section 2.3 has r = 10), and [n] blocks with consecutive
    counters (word 12 of the state), modulo 2^32. *)
Definition block_rounds (r : nat) (st : list N) : list N := serialize (add_words st (Nat.iter r inner_block st)).
Definition blocks_rounds (r : nat) (st : list N) (n : nat) : list N :=
  flat_map (fun b => block_rounds r (at_ctr st (N.of_nat b))) (seq 0 n).
(** Xor of a text with a key stream of the same length. *)
Fixpoint xor_bytes (text key : list N) : list N :=
  match text, key with x :: text, y :: key => N.lxor x y :: xor_bytes text key | _, _ => [] end.

(** Every instruction of a program can be encoded for [w]-byte registers and needs only the extensions in [req]. *)
Definition runs_on (w : nat) (req : list feature) (p : list instr) : Prop :=
  forall i, In i p -> encodable w i = true /\
    forall f, In f (if (w =? 16)%nat then needs_sse i else needs_vex256 i) -> In f req.

(** Whatever the 16 vector registers and the stack slots hold when a routine is called. *)
Definition junk_ok (regs temp base : list vec) : Prop := length regs = 16%nat /\ length temp = 6%nat /\ length base = 16%nat.
