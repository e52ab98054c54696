(** The function of cpuid.asm. *)
From Verif Require Import Base BaseLemmas Spec_Bytes Model_Memory BytesLemmas Model_X86 Model_ChaChaAsm Model_ShaAsm Model_Asm Spec_Abi Proof_Asm Proof_AsmFrame Proof_AsmChaCha3.
Local Open Scope N_scope.

Section C.
Variables (s : space) (b : abi) (cpuid : cpuid_fun) (c : cpu).
Hypothesis C : cpuid_call s b c.
Let A := argument b c 0.
Let R := c_gpr c rsp.
Lemma cfacts : A + 16 < 2 ^ 64 /\ (forall x, A <= x < A + 16 -> sp_wr s x = true) /\ (forall x, A <= x < A + 16 -> x < sp_low s \/ R + 8 <= x) /\
  R + 8 < 2 ^ 64 /\ (forall x, R <= x < R + 8 -> sp_rd s x = true).
Proof.
  destruct C as [_ (A1 & Lo & _ & _ & (L3 & Rt)) ((B1 & B2) & B3)]. change (argument b c 0) with A in B1, B2, B3. change (c_gpr c rsp) with R in Lo, L3, Rt. split; [exact B1|]. split; [exact B2|]. split.
  { intros x Hx. unfold off_stack, disjoint in B3. change (c_gpr c rsp) with R in B3. lia. }
  split; [destruct b; lia|]. intros x Hx. apply Rt. destruct b; lia.
Qed.
Lemma store4 d (k : list ainstr) q c0 : (d <= 12)%nat -> c_gpr c0 rsp = R -> c_gpr c0 r9 = A ->
  step s b cpuid (cpuid_code b) (MovMR32 r9 (Z.of_nat d) q :: k) c0
  = Next [EvWrite (A + N.of_nat d) 4] k (set_mem c0 (mwrite (c_mem c0) (A + N.of_nat d) (le_enc 4 (c_gpr c0 q)))).
Proof.
  intros Hd Hr H9. destruct cfacts as (F1 & F2 & F3 & _). cbn [step]. rewrite ea_nat, H9 by lia.
  rewrite store_ok; [reflexivity|..]; rewrite le_enc_length; [lia|..]; intros x Hx; [apply F2; lia|].
  destruct (F3 x); [lia|left; assumption|right; lia].
Qed.

Definition cpuid_trace (A R : N) : list event := [EvWrite A 4; EvWrite (A + 4) 4; EvWrite (A + 8) 4; EvWrite (A + 12) 4; EvRead R 8].
Lemma cpuid_ok : exists c',
  calls s b cpuid (cpuid_code b) c (cpuid_trace A R) (return_address c) c' /\
  returned b c (return_address c) c' /\
  (let '(a, x, y, z) := cpuid (argument b c 1 mod 2 ^ 32) (argument b c 2 mod 2 ^ 32) in
   mread (c_mem c') A 16 = le_enc 4 (a mod 2 ^ 32) ++ le_enc 4 (x mod 2 ^ 32) ++ le_enc 4 (y mod 2 ^ 32) ++ le_enc 4 (z mod 2 ^ 32)) /\
  (forall x, x < A \/ A + 16 <= x -> c_mem c' x = c_mem c x).
Proof.
  destruct cfacts as (F1 & F2 & F3 & F4 & F5). pose proof (ic_machine _ _ _ C) as (Mg & _).
  destruct (cpuid (argument b c 1 mod 2 ^ 32) (argument b c 2 mod 2 ^ 32)) as [[[a x] y] z] eqn:Ec.
  assert (K : exists c5, reach s b cpuid (cpuid_code b) (cpuid_code b) c [] [MovMR32 r9 0 rax; MovMR32 r9 4 rbx; MovMR32 r9 8 rcx; MovMR32 r9 12 rdx; Xchg rbx r10; Ret] c5 /\
    c_gpr c5 rsp = R /\ c_gpr c5 r9 = A /\ c_gpr c5 r10 = c_gpr c rbx /\ c_gpr c5 rax = a mod 2 ^ 32 /\ c_gpr c5 rbx = x mod 2 ^ 32 /\ c_gpr c5 rcx = y mod 2 ^ 32 /\
    c_gpr c5 rdx = z mod 2 ^ 32 /\ (forall q, In q [rbp; rsi; rdi; r12; r13; r14; r15] -> c_gpr c5 q = c_gpr c q) /\ c_mem c5 = c_mem c /\ c_ymm c5 = c_ymm c).
  { destruct b eqn:Eb; eexists; (split; [
      eapply reach_silent; [reflexivity|]; eapply reach_silent; [reflexivity|]; eapply reach_silent; [reflexivity|]; eapply reach_silent; [reflexivity|];
      eapply reach_silent; [|apply reach_refl];
      unfold step; cbn [set_gpr c_gpr]; cbn [gpr_eq_dec arg]; rewrite ?Eb in Ec; cbn in Ec |- *; rewrite Ec; reflexivity|]);
    (split; [reflexivity|]); (split; [reflexivity|]); (split; [reflexivity|]); (split; [reflexivity|]); (split; [reflexivity|]); (split; [reflexivity|]); (split; [reflexivity|]);
    (split; [|split; reflexivity]); intros q Hq; cbn in Hq; decompose [or] Hq; try contradiction; subst q; reflexivity. }
  destruct K as (c5 & K & G1 & G2 & G3 & G4 & G5 & G6 & G7 & G8 & G9 & G10).
  set (m1 := mwrite (c_mem c5) (A + N.of_nat 0) (le_enc 4 (a mod 2 ^ 32))). set (m2 := mwrite m1 (A + N.of_nat 4) (le_enc 4 (x mod 2 ^ 32))).
  set (m3 := mwrite m2 (A + N.of_nat 8) (le_enc 4 (y mod 2 ^ 32))). set (m4 := mwrite m3 (A + N.of_nat 12) (le_enc 4 (z mod 2 ^ 32))).
  set (c9 := set_mem c5 m4). set (c10 := set_gpr (set_gpr c9 rbx (c_gpr c9 r10)) r10 (c_gpr c9 rbx)).
  assert (Out : forall p, p < A \/ A + 16 <= p -> m4 p = c_mem c p).
  { intros p Hp. unfold m4. rewrite mwrite_out by (rewrite le_enc_length; lia). unfold m3. rewrite mwrite_out by (rewrite le_enc_length; lia).
    unfold m2. rewrite mwrite_out by (rewrite le_enc_length; lia). unfold m1. rewrite mwrite_out by (rewrite le_enc_length; lia). rewrite G9. reflexivity. }
  assert (Ra : mread m4 R 8 = mread (c_mem c) R 8).
  { apply mread_ext. intros p Hp. apply Out. destruct (N.lt_ge_cases p A); [left; assumption|]. destruct (N.lt_ge_cases p (A + 16)); [|right; assumption].
    destruct (F3 p) as [Q|Q]; [split; assumption| |lia]. exfalso. pose proof (ic_entered _ _ _ C) as (_ & Lo & _). change (c_gpr c rsp) with R in Lo. lia. }
  assert (Fin : step s b cpuid (cpuid_code b) [Ret] c10 = Return [EvRead R 8] (return_address c) (set_gpr c10 rsp (R + 8))).
  { cbn [step]. assert (Er : c_gpr c10 rsp = R) by (unfold c10, c9; rewrite !gset_other by discriminate; exact G1). rewrite Er.
    rewrite load_ok; [|lia|intros p Hp; apply F5; lia|intros p Hp; right; rewrite Er; lia].
    change (c_mem c10) with m4. rewrite Ra. change (ea c10 rsp 8) with (ea c10 rsp (Z.of_nat 8)). rewrite ea_nat by (rewrite Er; lia). rewrite Er. reflexivity. }
  exists (set_gpr c10 rsp (R + 8)). split; [|split; [|split]].
  - apply K. unfold cpuid_trace. replace A with (A + N.of_nat 0) at 1 by lia.
    eapply runs_ev; [apply (store4 0 _ rax c5); [lia|exact G1|exact G2]|]. rewrite G4. fold m1.
    eapply runs_ev; [apply (store4 4 _ rbx (set_mem c5 m1)); [lia|exact G1|exact G2]|]. change (c_gpr (set_mem c5 m1) rbx) with (c_gpr c5 rbx). rewrite G5. change (c_mem (set_mem c5 m1)) with m1. fold m2.
    change (set_mem (set_mem c5 m1) m2) with (set_mem c5 m2).
    eapply runs_ev; [apply (store4 8 _ rcx (set_mem c5 m2)); [lia|exact G1|exact G2]|]. change (c_gpr (set_mem c5 m2) rcx) with (c_gpr c5 rcx). rewrite G6. change (c_mem (set_mem c5 m2)) with m2. fold m3.
    change (set_mem (set_mem c5 m2) m3) with (set_mem c5 m3).
    eapply runs_ev; [apply (store4 12 _ rdx (set_mem c5 m3)); [lia|exact G1|exact G2]|]. change (c_gpr (set_mem c5 m3) rdx) with (c_gpr c5 rdx). rewrite G7. change (c_mem (set_mem c5 m3)) with m3. fold m4.
    change (set_mem (set_mem c5 m3) m4) with c9.
    eapply runs_silent; [reflexivity|]. fold c10. apply runs_return. exact Fin.
  - constructor; [reflexivity|rewrite gset_same; reflexivity| |].
    + intros q Hq. assert (Hn : q <> rsp /\ q <> r10) by (clear -Hq; revert Hq; generalize b; intros b' Hq; destruct b'; cbn in Hq; decompose [or] Hq; try contradiction; subst; split; discriminate).
      rewrite gset_other by apply Hn. unfold c10. rewrite gset_other by apply Hn. destruct (gpr_eq_dec q rbx) as [E|E].
      * rewrite E, gset_same. exact G3.
      * rewrite gset_other by exact E. apply G8. revert Hq E. clear. generalize b. intros b' Hq E. destruct b'; cbn in Hq |- *; decompose [or] Hq; try contradiction; subst; tauto.
    + intros i _. cbn [set_gpr c10 c9 set_mem c_ymm]. rewrite G10. reflexivity.
  - cbn [set_gpr c10 c9 set_mem c_mem].
    change 16%nat with (4 + (4 + (4 + 4)))%nat. rewrite !mread_app. rewrite <- !N.add_assoc. cbn [N.of_nat Pos.of_succ_nat Pos.succ N.add Pos.add].
    assert (L4 : forall v, length (le_enc 4 v) = 4%nat) by (intros; apply le_enc_length).
    f_equal; [|f_equal; [|f_equal]].
    + unfold m4, m3, m2, m1. rewrite !mread_mwrite_out by (rewrite L4; lia). rewrite N.add_0_r. apply mread_mwrite. rewrite L4. reflexivity.
    + unfold m4, m3. rewrite !mread_mwrite_out by (rewrite L4; lia). apply mread_mwrite. rewrite L4. reflexivity.
    + unfold m4. rewrite mread_mwrite_out by (rewrite L4; lia). apply mread_mwrite. rewrite L4. reflexivity.
    + apply mread_mwrite. rewrite L4. reflexivity.
  - exact Out.
Qed.
End C.
