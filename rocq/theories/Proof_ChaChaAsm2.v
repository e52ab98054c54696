(** What the block bodies write. *)
From Verif Require Import Base BaseLemmas BytesLemmas Spec_Bytes Spec_Range Proof_Range Spec_ChaCha Model_Memory Model_X86 Model_ChaChaAsm Proof_ChaChaCore
  Proof_X86Sym Proof_ChaChaAsm.
Local Open Scope N_scope.

(** 16 registers of [L] lanes, lane [l] of register [i] being [f i l]. *)
Definition V (L : nat) (f : nat -> nat -> N) : list vec := map (fun i => map (f i) (seq 0 L)) (seq 0 16).
Definition vreg (L : nat) (f : nat -> nat -> N) (i : nat) : vec := map (f i) (seq 0 L).

(** Word [j] of the output for the blocks of one iteration: block [j / 16] is in lane [L - 1 - j / 16]. *)
Definition out_word (L : nat) (f g : nat -> nat -> N) (j : nat) : N :=
  lane_add (f (j mod 16)%nat (L - 1 - j / 16)%nat) (g (j mod 16)%nat (L - 1 - j / 16)%nat).
Definition chunks (L cnt : nat) (o : nat -> N) : list vec := map (fun k => map o (seq (L * k) L)) (seq 0 cnt).
Definition step_base (L : nat) (g : nat -> nat -> N) (i l : nat) : N := if (i =? 12)%nat then lane_add (g 12%nat l) (N.of_nat L) else g i l.

Definition no_ptr (i : instr) : bool := match i with AddDst _ | AddSrc _ => false | _ => true end.
Definition straight (p : list instr) : list instr := filter no_ptr p.

Lemma ssse_transform_sym X f g t2 t3 t4 t5 : exists regs' tmp', length regs' = 16%nat /\ length tmp' = 6%nat /\
  arun 16 true X (straight ssse_transform_body)
    {| a_reg := V 4 f; a_tmp := [vreg 4 f 15; vreg 4 f 12; t2; t3; t4; t5]; a_base := V 4 g; a_out := repeat None 16 |}
  = Some {| a_reg := regs'; a_tmp := tmp'; a_base := V 4 (step_base 4 g);
            a_out := map Some (chunks 4 16 (fun j => N.lxor (out_word 4 f g j) (X j))) |}.
Proof.
  eexists _, _. split; [|split]. 3:{ lazy -[lane_add N.lxor]. reflexivity. } all: reflexivity.
Qed.
Lemma ssse_generate_sym X f g t2 t3 t4 t5 : exists regs' tmp', length regs' = 16%nat /\ length tmp' = 6%nat /\
  arun 16 false X (straight ssse_generate_body)
    {| a_reg := V 4 f; a_tmp := [vreg 4 f 15; vreg 4 f 12; t2; t3; t4; t5]; a_base := V 4 g; a_out := repeat None 16 |}
  = Some {| a_reg := regs'; a_tmp := tmp'; a_base := V 4 (step_base 4 g); a_out := map Some (chunks 4 16 (out_word 4 f g)) |}.
Proof.
  eexists _, _. split; [|split]. 3:{ lazy -[lane_add N.lxor]. reflexivity. } all: reflexivity.
Qed.
Lemma avx_transform_sym X f g t2 t3 t4 t5 : exists regs' tmp', length regs' = 16%nat /\ length tmp' = 6%nat /\
  arun 32 true X (straight avx_transform_body)
    {| a_reg := V 8 f; a_tmp := [vreg 8 f 15; vreg 8 f 12; t2; t3; t4; t5]; a_base := V 8 g; a_out := repeat None 16 |}
  = Some {| a_reg := regs'; a_tmp := tmp'; a_base := V 8 (step_base 8 g);
            a_out := map Some (chunks 8 16 (fun j => N.lxor (out_word 8 f g j) (X j))) |}.
Proof.
  eexists _, _. split; [|split]. 3:{ lazy -[lane_add N.lxor]. reflexivity. } all: reflexivity.
Qed.
Lemma avx_generate_sym X f g t2 t3 t4 t5 : exists regs' tmp', length regs' = 16%nat /\ length tmp' = 6%nat /\
  arun 32 false X (straight avx_generate_body)
    {| a_reg := V 8 f; a_tmp := [vreg 8 f 15; vreg 8 f 12; t2; t3; t4; t5]; a_base := V 8 g; a_out := repeat None 16 |}
  = Some {| a_reg := regs'; a_tmp := tmp'; a_base := V 8 (step_base 8 g); a_out := map Some (chunks 8 16 (out_word 8 f g)) |}.
Proof.
  eexists _, _. split; [|split]. 3:{ lazy -[lane_add N.lxor]. reflexivity. } all: reflexivity.
Qed.
