(** The ChaCha functions: prologue, loops, epilogue. *)
From Verif Require Import Base BaseLemmas Spec_Bytes Model_Memory BytesLemmas Model_X86 Model_ChaChaAsm Model_ShaAsm Model_Asm Spec_Abi Spec_Range Proof_Range Proof_X86Sym Proof_ChaChaAsm Proof_Asm Proof_AsmX Proof_AsmFrame.
Local Open Scope N_scope.

(** *** Prologue *)
Definition extra (b : abi) : N := match b with Unix => 8 | Wind => 168 end.
Definition frame (b : abi) (w : nat) (R : N) : N :=
  let x := R - 16 - (N.of_nat (22 * w) + extra b) in if (w =? 32)%nat then x - x mod 32 else x.
Definition tpro (b : abi) (R : N) : list event :=
  [EvWrite (R - 8) 8] ++ [EvWrite (R - 16) 8] ++ match b with Unix => [] | Wind => tsaves (R - 24) 1 10 end.

Lemma mod16_8 R : R mod 16 = 8 -> 24 <= R -> (R - 24) mod 16 = 0.
Proof.
  intros H L. pose proof (N.div_mod R 16 ltac:(lia)) as E. rewrite H in E. replace (R - 24) with ((R / 16 - 1) * 16) by lia. apply N.mod_mul. lia.
Qed.
Lemma frame_facts b w R : width w -> R mod 16 = 8 -> 1024 <= R ->
  (exists q, frame b w R = q * N.of_nat w) /\ R - 1024 <= frame b w R /\
  frame b w R + N.of_nat (22 * w) <= R - 16 - extra b /\ R - 16 - (N.of_nat (22 * w) + extra b) - 31 <= frame b w R.
Proof.
  intros Hw H L. pose proof (N.div_mod R 16 ltac:(lia)) as E. rewrite H in E.
  unfold frame. destruct Hw as [-> | ->]; cbn [Nat.eqb].
  - change (N.of_nat (22 * 16)) with 352. change (N.of_nat 16) with 16. destruct b; cbn [extra].
    + split; [exists (R / 16 - 23); lia|lia].
    + split; [exists (R / 16 - 33); lia|lia].
  - change (N.of_nat (22 * 32)) with 704. change (N.of_nat 32) with 32.
    set (x := R - 16 - (704 + extra b)). pose proof (N.div_mod x 32 ltac:(lia)) as E2. pose proof (N.mod_lt x 32 ltac:(lia)) as E3.
    split; [exists (x / 32); lia|]. assert (16 * (R / 16 - 1) = R - 24) by lia.
    assert (E4 : x mod 32 <= 16).
    { assert (x mod 32 = 0 \/ x mod 32 = 16); [|lia].
      assert (Ex : exists q, x = 16 * q) by (unfold x; destruct b; cbn [extra]; [exists (R / 16 - 45)|exists (R / 16 - 55)]; lia).
      destruct Ex as (q & Eq). assert (x mod 32 = 16 * (q - 2 * (x / 32))) by lia. lia. }
    destruct b; cbn [extra] in *; unfold x in *; lia.
Qed.

Lemma save_xmm_saves : save_xmm = saves 8 1 10.
Proof. unfold save_xmm, saves. apply map_ext. intros i. f_equal. unfold save_at, sdisp. lia. Qed.
Lemma restore_xmm_loads : restore_xmm = loads 8 1 10.
Proof. unfold restore_xmm, loads. apply map_ext. intros i. f_equal. unfold save_at, sdisp. lia. Qed.

Section Pro.
Variables (s : space) (b : abi) (cpuid : cpuid_fun) (code : list ainstr) (w : nat).
Hypothesis Hw : width w.

Lemma app_cons_assoc {A} (x : A) l r : (x :: l) ++ r = x :: (l ++ r).
Proof. reflexivity. Qed.

Lemma prologue_reach c rest : machine c -> entered s b c ->
  let R := c_gpr c rsp in
  exists c', reach s b cpuid code (prologue b w ++ rest) c (tpro b R) rest c' /\
    c_gpr c' rsp = frame b w R /\ c_gpr c' rbp = R - 16 /\ (forall q, q <> rsp -> q <> rbp -> c_gpr c' q = c_gpr c q) /\
    c_ymm c' = c_ymm c /\ machine c' /\
    le_dec (mread (c_mem c') (R - 8) 8) = c_gpr c rbp /\ le_dec (mread (c_mem c') (R - 16) 8) = c_gpr c rbx /\
    (b = Wind -> forall i, (1 <= i < 11)%nat -> mread (c_mem c') (R - 24 - 16 * N.of_nat i) 16 = vbytes (firstn 4 (c_ymm c (5 + i)))) /\
    (forall x, x < R - 1024 \/ R <= x -> c_mem c' x = c_mem c x).
Proof.
  intros M (Al & Lo & (_ & Rd) & (_ & Wr) & (Rt & _)) R. fold R in Al, Lo, Rd, Wr, Rt.
  assert (RR : 1024 <= R < 2 ^ 64) by (pose proof (proj1 M rsp); unfold R in *; lia).
  destruct (frame_facts b w R Hw Al ltac:(lia)) as (_ & FL & FT & FB).
  unfold prologue, tpro. rewrite <- !app_assoc. cbn [app].
  destruct (push_reach s b cpuid code rbp (Push rbx :: MovRR rbp rsp :: match b with Unix => [SubI rsp (N.of_nat (stack_size w) + 8)] | Wind => SubI rsp (N.of_nat (stack_size w) + 8 + 16 * 10) :: save_xmm end ++ (if (w =? 32)%nat then [AndI rsp 0xffffffffffffffe0] else []) ++ rest) c M ltac:(discriminate) ltac:(fold R; lia)) as (c1 & K1 & S1 & O1 & Y1 & M1 & V1 & U1).
  { fold R. intros x Hx. apply Wr. lia. }
  fold R in K1, S1, V1, U1.
  destruct (push_reach s b cpuid code rbx (MovRR rbp rsp :: match b with Unix => [SubI rsp (N.of_nat (stack_size w) + 8)] | Wind => SubI rsp (N.of_nat (stack_size w) + 8 + 16 * 10) :: save_xmm end ++ (if (w =? 32)%nat then [AndI rsp 0xffffffffffffffe0] else []) ++ rest) c1 M1 ltac:(discriminate) ltac:(rewrite S1; lia)) as (c2 & K2 & S2 & O2 & Y2 & M2 & V2 & U2).
  { rewrite S1. intros x Hx. apply Wr. lia. }
  rewrite S1 in K2, S2, V2, U2. replace (R - 8 - 8) with (R - 16) in * by lia.
  rewrite O1 in V2 by discriminate.
  destruct (movrr_reach s b cpuid code rbp rsp (match b with Unix => [SubI rsp (N.of_nat (stack_size w) + 8)] | Wind => SubI rsp (N.of_nat (stack_size w) + 8 + 16 * 10) :: save_xmm end ++ (if (w =? 32)%nat then [AndI rsp 0xffffffffffffffe0] else []) ++ rest) c2 M2) as (c3 & K3 & S3 & O3 & Y3 & M3 & U3 & _).
  rewrite S2 in S3. pose proof (O3 rsp ltac:(discriminate)) as P3. rewrite S2 in P3.
  assert (Sz : (stack_size w = 22 * w)%nat) by (unfold stack_size; lia).
  set (N0 := N.of_nat (22 * w) + extra b).
  assert (N0b : N0 <= 1000) by (unfold N0; destruct Hw as [-> | ->], b; vm_compute; discriminate).
  set (tail := (if (w =? 32)%nat then [AndI rsp 0xffffffffffffffe0] else []) ++ rest) in *.
  (* after sub and saves *)
  assert (A : exists c4, reach s b cpuid code (match b with Unix => [SubI rsp (N.of_nat (stack_size w) + 8)] | Wind => SubI rsp (N.of_nat (stack_size w) + 8 + 16 * 10) :: save_xmm end ++ tail) c3
                (match b with Unix => [] | Wind => tsaves (R - 24) 1 10 end) tail c4 /\
      c_gpr c4 rsp = R - 16 - N0 /\ (forall q, q <> rsp -> c_gpr c4 q = c_gpr c3 q) /\ c_ymm c4 = c_ymm c3 /\ machine c4 /\
      (b = Wind -> forall i, (1 <= i < 11)%nat -> mread (c_mem c4) (R - 24 - 16 * N.of_nat i) 16 = vbytes (firstn 4 (c_ymm c (5 + i)))) /\
      (forall x, x < R - 1024 \/ R - 24 <= x -> c_mem c4 x = c_mem c3 x)).
  { rewrite Sz. unfold N0. clear N0b N0. destruct b; cbn [extra] in *.
    - destruct (sub_reach s Unix cpuid code rsp (N.of_nat (22 * w) + 8) tail c3 M3) as (c4 & K4 & S4 & O4 & Y4 & M4 & U4 & _).
      { rewrite P3. destruct Hw as [-> | ->]; lia. }
      rewrite P3 in S4. exists c4. split; [exact K4|]. split; [exact S4|]. split; [exact O4|]. split; [exact Y4|]. split; [exact M4|].
      split; [discriminate|]. intros x _. rewrite U4. reflexivity.
    - destruct (sub_reach s Wind cpuid code rsp (N.of_nat (22 * w) + 8 + 16 * 10) (save_xmm ++ tail) c3 M3) as (c4 & K4 & S4 & O4 & Y4 & M4 & U4 & _).
      { rewrite P3. destruct Hw as [-> | ->]; lia. }
      rewrite P3 in S4. pose proof (O4 rbp ltac:(discriminate)) as B4. rewrite S3 in B4.
      destruct (saves_reach s Wind cpuid code 8 tail 10 1 c4 M4) as (c5 & K5 & G5 & Y5 & _ & M5 & V5 & U5).
      { lia. } { rewrite B4. lia. } { rewrite B4. replace (R - 16 - 8) with (R - 24) by lia. apply mod16_8; lia. }
      { rewrite B4, S4. intros x Hx. change (N.of_nat (1 + 10)) with 11 in Hx. change (N.of_nat 1) with 1 in Hx. split; [apply Wr; lia|]. destruct Hw as [-> | ->]; lia. }
      rewrite B4 in *. replace (R - 16 - 8) with (R - 24) in * by lia.
      exists c5. split; [|split; [|split; [|split; [|split; [|split]]]]].
      + cbn [app]. eapply (reach_trans _ _ _ _ _ _ [] _ _ _ _ _ K4). rewrite save_xmm_saves. exact K5.
      + rewrite G5, S4. lia.
      + intros q Hq. rewrite G5. apply O4. exact Hq.
      + rewrite Y5. exact Y4.
      + exact M5.
      + intros _ i Hi. rewrite V5 by lia. rewrite Y4, Y3, Y2, Y1. reflexivity.
      + intros x Hx. rewrite U5 by (change (N.of_nat (1 + 10)) with 11; change (N.of_nat 1) with 1; lia). rewrite U4. reflexivity. }
  destruct A as (c4 & K4 & S4 & O4 & Y4 & M4 & V4 & U4).
  assert (A : exists c5, reach s b cpuid code tail c4 [] rest c5 /\ c_gpr c5 rsp = frame b w R /\ (forall q, q <> rsp -> c_gpr c5 q = c_gpr c4 q) /\
     c_ymm c5 = c_ymm c4 /\ machine c5 /\ c_mem c5 = c_mem c4).
  { unfold tail, frame. fold N0. rewrite <- S4. destruct (w =? 32)%nat.
    - eexists. split; [apply reach_step; reflexivity|]. cbn [set_zf c_gpr c_ymm c_mem]. split; [rewrite (gset_same c4); apply align32; apply M4|].
      split; [intros q Hq; apply (gset_other c4); exact Hq|]. split; [reflexivity|]. split; [|reflexivity].
      apply machine_set_zf. apply machine_set_gpr; [exact M4|]. rewrite align32 by apply M4. pose proof (proj1 M4 rsp). lia.
    - exists c4. split; [apply reach_refl|]. split; [reflexivity|]. split; [reflexivity|]. split; [reflexivity|]. split; [exact M4|reflexivity]. }
  destruct A as (c5 & K5 & S5 & O5 & Y5 & M5 & U5).
  exists c5. split; [|split; [|split; [|split; [|split; [|split; [|split; [|split; [|split]]]]]]]].
  - change (EvWrite (R - 8) 8 :: EvWrite (R - 16) 8 :: match b with Unix => [] | Wind => tsaves (R - 24) 1 10 end)
      with ([EvWrite (R - 8) 8] ++ [EvWrite (R - 16) 8] ++ [] ++ match b with Unix => [] | Wind => tsaves (R - 24) 1 10 end).
    eapply reach_trans; [exact K1|]. eapply reach_trans; [exact K2|]. eapply reach_trans; [exact K3|].
    rewrite <- (app_nil_r (match b with Unix => [] | Wind => tsaves (R - 24) 1 10 end)). eapply reach_trans; [exact K4|exact K5].
  - exact S5.
  - rewrite O5, O4 by discriminate. exact S3.
  - intros q H1 H2. rewrite O5, O4, O3, O2, O1 by assumption. reflexivity.
  - rewrite Y5, Y4, Y3, Y2. exact Y1.
  - exact M5.
  - rewrite <- V1. f_equal. apply mread_ext. intros x Hx. rewrite U5, U4, U3, U2 by lia. reflexivity.
  - rewrite <- V2. f_equal. apply mread_ext. intros x Hx. rewrite U5, U4, U3 by lia. reflexivity.
  - intros Hb i Hi. rewrite U5. apply V4; assumption.
  - intros x Hx. rewrite U5, U4, U3, U2, U1 by lia. reflexivity.
Qed.
End Pro.
