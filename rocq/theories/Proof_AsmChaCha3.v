(** The ChaCha functions: epilogue, the whole function. *)
From Verif Require Import Base BaseLemmas Spec_Bytes Model_Memory BytesLemmas Model_X86 Model_ChaChaAsm Model_ShaAsm Model_Asm Spec_Abi Spec_Range Proof_Range Proof_ShaCore Spec_ChaChaAsm Proof_X86Sym Proof_ChaChaAsm Proof_Asm Proof_AsmX Proof_AsmFrame Proof_AsmChaCha Proof_AsmChaCha2.
Local Open Scope N_scope.

Definition tepi (b : abi) (R : N) : list event :=
  match b with Unix => [] | Wind => tloads (R - 24) 1 10 end ++ [EvRead (R - 16) 8; EvRead (R - 8) 8; EvRead R 8].

Section Epi.
Variables (s : space) (b : abi) (cpuid : cpuid_fun) (code : list ainstr) (w : nat).
Hypothesis Hw : width w.

Lemma epilogue_runs c R (y : nat -> vec) : machine c -> R mod 16 = 8 -> 1024 <= R -> R + 8 < 2 ^ 64 ->
  (forall x, R - 1024 <= x < R + 8 -> sp_rd s x = true) ->
  c_gpr c rsp + N.of_nat (22 * w) <= R - 16 - extra b -> c_gpr c rbp = R - 16 -> (forall i, vok 8 (y i)) ->
  (b = Wind -> forall i, (1 <= i < 11)%nat -> mread (c_mem c) (R - 24 - 16 * N.of_nat i) 16 = vbytes (firstn 4 (y (5 + i)%nat))) ->
  exists c', runs s b cpuid code (epilogue b w) c (tepi b R) (le_dec (mread (c_mem c) R 8)) c' /\
    c_gpr c' rsp = R + 8 /\ c_gpr c' rbp = le_dec (mread (c_mem c) (R - 8) 8) /\ c_gpr c' rbx = le_dec (mread (c_mem c) (R - 16) 8) /\
    c_gpr c' rax = (c_gpr c (g_blocks b) * (if (w =? 32)%nat then 8 else 4)) mod 2 ^ 64 /\
    pres [rsp; rbp; rbx; rax] c c' /\ c_mem c' = c_mem c /\
    (b = Wind -> forall i, (6 <= i < 16)%nat -> firstn 4 (c_ymm c' i) = firstn 4 (y i)).
Proof.
  intros M Al L1 L2 Rd Hsp Hbp Hy HS.
  (* restored registers *)
  set (k1 := (if (w =? 32)%nat then [Vzeroupper] else []) ++ [MovRR rsp rbp; Pop rbx; Pop rbp; MovRR rax (g_blocks b); ShlI rax (if (w =? 32)%nat then 3 else 2); Ret]).
  assert (A : exists c1, reach s b cpuid code (epilogue b w) c (match b with Unix => [] | Wind => tloads (R - 24) 1 10 end) k1 c1 /\
     c_gpr c1 = c_gpr c /\ c_mem c1 = c_mem c /\ machine c1 /\ (b = Wind -> forall i, (6 <= i < 16)%nat -> firstn 4 (c_ymm c1 i) = firstn 4 (y i))).
  { unfold epilogue. fold k1. destruct b; cbn [extra] in *.
    - exists c. split; [apply reach_refl|]. repeat split; try reflexivity; try apply M. discriminate.
    - rewrite restore_xmm_loads. destruct (loads_reach s Wind cpuid code 8 k1 y 10 1 c M) as (c1 & K1 & G1 & U1 & _ & M1 & V1 & _).
      { lia. } { rewrite Hbp. lia. } { rewrite Hbp. replace (R - 16 - 8) with (R - 24) by lia. apply mod16_8; lia. }
      { rewrite Hbp. intros x Hx. change (N.of_nat (1 + 10)) with 11 in Hx. change (N.of_nat 1) with 1 in Hx. split; [apply Rd; lia|]. destruct Hw as [-> | ->]; lia. }
      { exact Hy. }
      { rewrite Hbp. replace (R - 16 - 8) with (R - 24) by lia. intros i Hi. apply HS; [reflexivity|lia]. }
      rewrite Hbp in K1. replace (R - 16 - 8) with (R - 24) in K1 by lia.
      exists c1. split; [exact K1|]. split; [exact G1|]. split; [exact U1|]. split; [exact M1|]. intros _ i Hi.
      specialize (V1 (i - 5)%nat ltac:(lia)). replace (5 + (i - 5))%nat with i in V1 by lia. exact V1. }
  destruct A as (c1 & K1 & G1 & U1 & M1 & V1).
  set (k2 := [MovRR rsp rbp; Pop rbx; Pop rbp; MovRR rax (g_blocks b); ShlI rax (if (w =? 32)%nat then 3 else 2); Ret]).
  assert (A : exists c2, reach s b cpuid code k1 c1 [] k2 c2 /\ c_gpr c2 = c_gpr c1 /\ c_mem c2 = c_mem c1 /\ machine c2 /\
     (forall i, firstn 4 (c_ymm c2 i) = firstn 4 (c_ymm c1 i))).
  { unfold k1. fold k2. destruct (w =? 32)%nat.
    - eexists. split; [apply reach_step; reflexivity|]. split; [reflexivity|]. split; [reflexivity|]. destruct M1 as (A1 & A2 & A3). split.
      + split; [exact A1|]. split; [|exact A3]. cbn [c_ymm]. intros i. destruct (A2 i) as [L8 W8]. split.
        * unfold vec in *. rewrite app_length, firstn_length, L8. reflexivity.
        * apply Forall_app. split; [apply Forall_fs; exact W8|]. repeat constructor.
      + cbn [c_ymm]. intros i. destruct (A2 i) as [L8 _]. rewrite firstn_app, firstn_firstn, firstn_length. unfold vec in *. rewrite L8. change (4 - Nat.min 4 8)%nat with 0%nat. rewrite firstn_O, app_nil_r. reflexivity.
    - exists c1. split; [apply reach_refl|]. repeat split; try reflexivity; apply M1. }
  destruct A as (c2 & K2 & G2 & U2 & M2 & V2).
  destruct (movrr_reach s b cpuid code rsp rbp [Pop rbx; Pop rbp; MovRR rax (g_blocks b); ShlI rax (if (w =? 32)%nat then 3 else 2); Ret] c2 M2) as (c3 & K3 & S3 & O3 & Y3 & M3 & U3 & _).
  rewrite G2, G1, Hbp in S3.
  destruct (pop_reach s b cpuid code rbx [Pop rbp; MovRR rax (g_blocks b); ShlI rax (if (w =? 32)%nat then 3 else 2); Ret] c3 M3 ltac:(discriminate)) as (c4 & K4 & S4 & V4 & O4 & Y4 & M4 & U4).
  { rewrite S3. lia. } { rewrite S3. intros x Hx. apply Rd. lia. }
  rewrite S3 in K4, S4, V4. replace (R - 16 + 8) with (R - 8) in S4 by lia.
  destruct (pop_reach s b cpuid code rbp [MovRR rax (g_blocks b); ShlI rax (if (w =? 32)%nat then 3 else 2); Ret] c4 M4 ltac:(discriminate)) as (c5 & K5 & S5 & V5 & O5 & Y5 & M5 & U5).
  { rewrite S4. lia. } { rewrite S4. intros x Hx. apply Rd. lia. }
  rewrite S4 in K5, S5, V5. replace (R - 8 + 8) with R in S5 by lia.
  destruct (movrr_reach s b cpuid code rax (g_blocks b) [ShlI rax (if (w =? 32)%nat then 3 else 2); Ret] c5 M5) as (c6 & K6 & S6 & O6 & Y6 & M6 & U6 & _).
  assert (Eb : c_gpr c5 (g_blocks b) = c_gpr c (g_blocks b)).
  { rewrite O5, O4, O3 by (destruct b; discriminate). rewrite G2, G1. reflexivity. }
  rewrite Eb in S6.
  set (v := (c_gpr c6 rax * 2 ^ (if (w =? 32)%nat then 3 else 2)) mod 2 ^ 64).
  set (c7 := set_zf (set_gpr c6 rax v) v).
  assert (S7 : c_gpr c7 rsp = R) by (unfold c7; cbn [set_zf c_gpr]; rewrite (gset_other c6) by discriminate; rewrite O6 by discriminate; exact S5).
  assert (U7 : c_mem c7 = c_mem c) by (unfold c7; cbn [set_zf set_gpr c_mem]; rewrite U6, U5, U4, U3, U2, U1; reflexivity).
  assert (Ld : load s c7 (c_gpr c7 rsp) 8 = Some (mread (c_mem c) R 8)).
  { rewrite S7. rewrite load_ok; [rewrite U7; reflexivity|lia|intros x Hx; apply Rd; lia|intros x Hx; rewrite S7; right; lia]. }
  set (c8 := set_gpr c7 rsp (ea c7 rsp 8)).
  assert (E8 : ea c7 rsp 8 = R + 8) by (change 8%Z with (Z.of_N 8); rewrite ea_add; rewrite S7; [reflexivity|exact L2]).
  exists c8. split.
  { unfold tepi. apply K1. change [EvRead (R - 16) 8; EvRead (R - 8) 8; EvRead R 8] with ([] ++ [] ++ [EvRead (R - 16) 8] ++ [EvRead (R - 8) 8] ++ [] ++ [EvRead R 8]).
    apply K2. apply K3. apply K4. apply K5. apply K6. change [EvRead R 8] with ([] ++ [EvRead R 8]). eapply runs_next; [reflexivity|].
    fold v. fold c7. apply runs_return. cbn [step]. rewrite Ld, S7. reflexivity. }
  assert (Q : forall q, q <> rsp -> c_gpr c8 q = c_gpr c7 q) by (intros q Hq; apply gset_other; exact Hq).
  assert (Q7 : forall q, q <> rax -> c_gpr c7 q = c_gpr c6 q) by (intros q Hq; unfold c7; cbn [set_zf c_gpr]; apply (gset_other c6); exact Hq).
  split; [unfold c8; rewrite gset_same; exact E8|].
  split; [rewrite Q, Q7, O6, V5 by discriminate; rewrite U4, U3, U2, U1; reflexivity|].
  split; [rewrite Q, Q7, O6, O5, V4 by discriminate; rewrite U3, U2, U1; reflexivity|].
  split.
  { rewrite Q by discriminate. unfold c7. cbn [set_zf c_gpr]. rewrite (gset_same c6). unfold v. rewrite S6. destruct (w =? 32)%nat; reflexivity. }
  split.
  { intros q Hq. cbn [In] in Hq. rewrite Q, Q7, O6, O5, O4, O3 by (intros E; apply Hq; subst q; auto). rewrite G2, G1. reflexivity. }
  split; [exact U7|].
  intros Hb i Hi. change (c_ymm c8) with (c_ymm c6). rewrite Y6, Y5, Y4, Y3, V2. apply V1; assumption.
Qed.
End Epi.

(** *** The whole function *)
Definition chacha_trace (b : abi) (w : nat) (tr : bool) (core : list instr) (R rounds blocks ST D S0 : N) : list event :=
  let F := frame b w R in
  tpro b R ++ (match b with Wind => if tr then [EvRead (R + 40) 8] else [] | Unix => [] end) ++
  (if blocks =? 0 then [EvJump true]
   else [EvJump false] ++ tat b w F ST D S0 0 (blocks_init w) ++ tblock b w core F ST D S0 rounds 0 ++
        tmore b w core F ST D S0 rounds (pred (N.to_nat blocks)) (16 * w)) ++
  tepi b R.

Lemma nth_error_map_seq {A} (f : nat -> A) k i : (i < k)%nat -> nth_error (map f (seq 0 k)) i = Some (f i).
Proof.
  intros H. rewrite (nth_error_nth' _ (f 0%nat)) by (rewrite map_length, seq_length; exact H). f_equal.
  rewrite (map_nth f). rewrite seq_nth by exact H. reflexivity.
Qed.

Lemma runs_ev s b cpuid code k c e k1 c1 t ra cf : step s b cpuid code k c = Next [e] k1 c1 -> runs s b cpuid code k1 c1 t ra cf -> runs s b cpuid code k c (e :: t) ra cf.
Proof. intros H1 H2. exact (runs_next s b cpuid code k c [e] k1 c1 t ra cf H1 H2). Qed.
Lemma runs_silent s b cpuid code k c k1 c1 t ra cf : step s b cpuid code k c = Next [] k1 c1 -> runs s b cpuid code k1 c1 t ra cf -> runs s b cpuid code k c t ra cf.
Proof. intros H1 H2. exact (runs_next s b cpuid code k c [] k1 c1 t ra cf H1 H2). Qed.
Lemma lab_inv s b cpuid code l k c t ra cf : runs s b cpuid code (Lab l :: k) c t ra cf -> runs s b cpuid code k c t ra cf.
Proof. intros H. inversion H as [? ? ? ? ? E|? ? t1 k1 c1 ? ? ? E Hr]; subst; cbn [step] in E; [discriminate|]. injection E as <- <- <-. exact Hr. Qed.

Section Main.
Variables (s : space) (b : abi) (cpuid : cpuid_fun) (w : nat) (tr : bool) (core : list instr) (c : cpu).
Hypothesis Hw : width w.
Hypothesis Hcore : forallb (ok_instr w tr) core = true.
Hypothesis M : machine c.
Hypothesis En : entered s b c.
Definition code := chacha_code b w tr (core ++ adv w tr).
Definition R := c_gpr c rsp.
Definition rounds := argument b c 0.
Definition blocks := argument b c 1.
Definition ST := argument b c 2.
Definition D0 := argument b c 3.
Definition S0 := if tr then argument b c 4 else 0.
Definition n := (16 * w * N.to_nat blocks)%nat.
Definition F := frame b w R.
Hypothesis Hrd : rounds <> 0.
Hypothesis Hst : readable s ST 64.
Hypothesis Ost : off_stack s c ST 64.
Hypothesis Hd : writable s D0 (N.of_nat n).
Hypothesis Od : off_stack s c D0 (N.of_nat n).
Hypothesis Dd : disjoint D0 (N.of_nat n) ST 64.
Hypothesis Hs : tr = true -> readable s S0 (N.of_nat n) /\ off_stack s c S0 (N.of_nat n) /\ (D0 = S0 \/ disjoint D0 (N.of_nat n) S0 (N.of_nat n)).

Definition src0 : nat := if tr && negb (D0 =? S0) then n else 0.
Definition phi (o : nat) : N := if (o <? n)%nat then D0 + N.of_nat o else S0 + N.of_nat (o - n).
Definition L : nat := (n + src0)%nat.

Lemma facts : R mod 16 = 8 /\ sp_low s + 1024 <= R /\ R + 8 < 2 ^ 64 /\ (forall x, R - 1024 <= x < R + 8 -> sp_rd s x = true) /\
  (forall x, R - 1024 <= x < R -> sp_wr s x = true).
Proof using En.
  clear - En. destruct En as (Al & Lo & (L1 & Rd) & (L2 & Wr) & (L3 & Rt)). fold R in *. split; [exact Al|]. split; [exact Lo|].
  split; [destruct b; lia|]. split; [|intros x Hx; apply Wr; lia]. intros x Hx. destruct (N.lt_ge_cases x R).
  - apply Rd. lia.
  - apply Rt. destruct b; lia.
Qed.
Lemma off_out a k x : off_stack s c a k -> a <= x < a + k -> x < sp_low s \/ R + 8 <= x.
Proof using En. intros O Hx. pose proof facts as (_ & Lo & _). clear - O Hx Lo. unfold off_stack, disjoint in O. fold R in O. lia. Qed.
Lemma places_ok : places s w tr (R + 8) F ST D0 S0 n src0 L phi.
Proof.
  pose proof facts as (Al & Lo & L2 & Rd & Wr).
  destruct (frame_facts b w R Hw Al ltac:(lia)) as (Fa & FL & FT & FB). fold F in Fa, FL, FT, FB.
  assert (0 < N.of_nat (22 * w)) by (destruct Hw as [-> | ->]; lia).
  destruct Hst as [St1 St2]. destruct Hd as [Hd1 Hd2].
  constructor; try assumption; try lia.
  - intros x Hx. split; [apply Rd; lia|apply Wr; lia].
  - intros x Hx. exact (off_out _ _ _ Ost Hx).
  - intros x Hx. exact (off_out _ _ _ Od Hx).
  - intros Ht. destruct (Hs Ht) as ([Q1 Q2] & _). exact Q1.
  - intros Ht. destruct (Hs Ht) as ([Q1 Q2] & _). exact Q2.
  - intros Ht x Hx. destruct (Hs Ht) as (_ & Q & _). exact (off_out _ _ _ Q Hx).
  - unfold L. lia.
  - unfold L. lia.
  - intros o Ho. unfold phi. destruct (Nat.ltb_spec o n); [reflexivity|lia].
  - intros Ht o Ho. unfold phi, src0. rewrite Ht. cbn [andb]. destruct (N.eqb_spec D0 S0) as [E|E]; cbn [negb].
    + destruct (Nat.ltb_spec (0 + o) n); [rewrite E; reflexivity|lia].
    + destruct (Nat.ltb_spec (n + o) n); [lia|]. f_equal. lia.
  - intros o o' Ho Ho'. unfold L, src0 in Ho. unfold phi. destruct (Nat.ltb_spec o n), (Nat.ltb_spec o' n); try lia.
    intros E. destruct tr eqn:Etr; cbn [andb] in Ho; [|lia]. destruct (N.eqb_spec D0 S0); cbn [negb] in Ho; [lia|].
    destruct (Hs eq_refl) as (_ & _ & [Q|Q]); [contradiction|]. unfold disjoint in Q. lia.
  - intros o Ho. unfold L, src0 in Ho. unfold phi. destruct (Nat.ltb_spec o n).
    + apply (off_out _ _ _ Od). lia.
    + destruct tr eqn:Etr; cbn [andb] in Ho; [|lia]. destruct (N.eqb_spec D0 S0); cbn [negb] in Ho; [lia|].
      destruct (Hs eq_refl) as (_ & Q & _). apply (off_out _ _ _ Q). lia.
Qed.

Definition init_mach (c1 : cpu) : mach := {|
  mc_reg := map (fun i => firstn (w / 4) (c_ymm c1 i)) (seq 0 16);
  mc_tmp := map (fun i => blanes (mread (c_mem c1) (F + N.of_nat (w * i)) w)) (seq 0 6);
  mc_base := map (fun i => blanes (mread (c_mem c1) (F + N.of_nat (w * 6 + w * i)) w)) (seq 0 16);
  mc_mem := map (fun o => c_mem c1 (phi o)) (seq 0 L);
  mc_dst := 0; mc_src := src0; mc_state := blanes (mread (c_mem c1) ST 64) |}.

(** Entry into the loops. *)
Definition k_init : list ainstr := map (VI w) (blocks_init w) ++ [Jmp blocks_loop_first; Lab blocks_loop] ++ k_loop b w tr core (epilogue b w).
Definition k_test : list ainstr := [TestRR (g_blocks b); MovRR g_blocks_cnt (g_blocks b); Jz blocks_loop_end] ++ k_init.
Lemma code_eq : code = prologue b w ++ args b tr ++ k_test.
Proof. reflexivity. Qed.
Lemma pro_nolab : forallb no_lab (prologue b w) = true.
Proof. destruct Hw as [-> | ->], b; reflexivity. Qed.
Lemma args_nolab : forallb no_lab (args b tr) = true.
Proof. destruct b, tr; reflexivity. Qed.
Lemma goto_code l : goto code l = goto ([Jmp blocks_loop_first; Lab blocks_loop] ++ k_loop b w tr core (epilogue b w)) l.
Proof.
  rewrite code_eq. rewrite goto_nolab by exact pro_nolab. rewrite goto_nolab by exact args_nolab. unfold k_test.
  rewrite goto_nolab by reflexivity. unfold k_init. apply goto_VI.
Qed.
Lemma G_loop : goto code blocks_loop = Some (k_loop b w tr core (epilogue b w)).
Proof. rewrite goto_code. reflexivity. Qed.
Lemma G_rounds : goto code rounds_loop = Some (k_rounds w tr core (epilogue b w)).
Proof. rewrite goto_code. cbn [app goto]. unfold k_loop. cbn [Nat.eqb blocks_loop rounds_loop]. rewrite goto_VI. reflexivity. Qed.
Lemma G_first : exists k, goto code blocks_loop_first = Some k /\ Lab blocks_loop_first :: k = k_first b w tr core (epilogue b w).
Proof. rewrite goto_code. cbn [app goto]. unfold k_loop. cbn [Nat.eqb blocks_loop blocks_loop_first]. rewrite goto_VI. eexists. split; reflexivity. Qed.
Lemma G_end : goto code blocks_loop_end = Some (epilogue b w).
Proof.
  rewrite goto_code. cbn [app goto]. unfold k_loop. cbn [Nat.eqb blocks_loop blocks_loop_end]. rewrite goto_VI.
  cbn [k_first app goto Nat.eqb blocks_loop_first rounds_loop]. unfold k_rounds. rewrite goto_VI. cbn [app goto]. unfold k_body. rewrite goto_VI. reflexivity.
Qed.

Lemma arg_reg i : (i < 4)%nat -> argument b c i = c_gpr c (arg b i).
Proof. intros H. destruct b, i as [|[|[|[|]]]]; try reflexivity; lia. Qed.
Lemma arg_keep i : (i < 4)%nat -> ~ In (arg b i) [rsp; rbp; r10; rax; rbx].
Proof. intros H. destruct b, i as [|[|[|[|]]]]; cbn; intuition (try discriminate); lia. Qed.

(** Prologue and arguments. *)
Lemma enter_reach : exists c2, reach s b cpuid code code c
    (tpro b R ++ match b with Wind => if tr then [EvRead (R + 40) 8] else [] | Unix => [] end) k_test c2 /\
  c_gpr c2 rsp = F /\ c_gpr c2 rbp = R - 16 /\ pres [rsp; rbp; r10] c c2 /\ (tr = true -> c_gpr c2 (g_src b) = S0) /\
  c_ymm c2 = c_ymm c /\ machine c2 /\
  le_dec (mread (c_mem c2) (R - 8) 8) = c_gpr c rbp /\ le_dec (mread (c_mem c2) (R - 16) 8) = c_gpr c rbx /\
  (b = Wind -> forall i, (1 <= i < 11)%nat -> mread (c_mem c2) (R - 24 - 16 * N.of_nat i) 16 = vbytes (firstn 4 (c_ymm c (5 + i)))) /\
  (forall x, x < R - 1024 \/ R <= x -> c_mem c2 x = c_mem c x).
Proof.
  pose proof facts as (Al & Lo & L2 & Rd & Wr).
  destruct (prologue_reach s b cpuid code w Hw c (args b tr ++ k_test) M En) as (c1 & K1 & S1 & B1 & O1 & Y1 & M1 & V1 & V2 & V3 & U1).
  fold R in K1, S1, B1, V1, V2, V3, U1. fold F in S1. rewrite <- code_eq in K1.
  destruct b eqn:Eb; [|destruct tr eqn:Et].
  - exists c1. rewrite app_nil_r. split; [exact K1|]. split; [exact S1|]. split; [exact B1|].
    split; [intros q Hq; cbn [In] in Hq; apply O1; intros ->; tauto|]. split; [|repeat (split; [assumption|]); exact U1].
    intros Ht. unfold S0. rewrite Ht, Eb. apply O1; discriminate.
  - destruct En as (_ & _ & _ & _ & (L3 & Rt)). fold R in L3, Rt.
    assert (E : ea c1 rbp (24 + 32) = R + 40).
    { change (24 + 32)%Z with (Z.of_N 56). rewrite ea_add; rewrite B1; lia. }
    assert (Ld : load s c1 (R + 40) 8 = Some (mread (c_mem c) (R + 40) 8)).
    { rewrite load_ok; [|lia|intros x Hx; apply Rt; lia|].
      - f_equal. apply mread_ext. intros x Hx. apply U1. lia.
      - intros x Hx. right. rewrite S1. destruct (frame_facts Wind w R Hw Al ltac:(lia)) as (_ & _ & FT & _). unfold F. rewrite Eb. cbn [extra] in FT. lia. }
    exists (set_gpr c1 r10 (le_dec (mread (c_mem c) (R + 40) 8))).
    split; [eapply reach_trans; [exact K1|]; apply reach_step; cbn [args app step]; rewrite E, Ld; reflexivity|].
    split; [rewrite gset_other by discriminate; exact S1|]. split; [rewrite gset_other by discriminate; exact B1|].
    split; [intros q Hq; cbn [In] in Hq; rewrite gset_other by (intros ->; tauto); apply O1; intros ->; tauto|].
    split; [intros _; cbn [g_src]; rewrite gset_same; unfold S0; rewrite Et, Eb; unfold argument; f_equal; f_equal; unfold R; cbn; lia|].
    split; [exact Y1|]. split; [apply machine_set_gpr; [exact M1|apply (mread8_lt c); exact M]|].
    repeat (split; [assumption|]). exact U1.
  - exists c1. rewrite app_nil_r. split; [exact K1|]. split; [exact S1|]. split; [exact B1|].
    split; [intros q Hq; cbn [In] in Hq; apply O1; intros ->; tauto|]. split; [discriminate|]. repeat (split; [assumption|]). exact U1.
Qed.

Lemma init_rel c2 : machine c2 -> c_gpr c2 rsp = F -> pres [rsp; rbp; r10; rax] c c2 -> (tr = true -> c_gpr c2 (g_src b) = S0) ->
  rel b w tr F ST D0 S0 n src0 L phi (c_mem c2) 0 (init_mach c2) c2.
Proof.
  intros (Mg & My & Mm) Hsp Hp Hsrc.
  assert (A : forall i, (i < 4)%nat -> c_gpr c2 (arg b i) = argument b c i).
  { intros i Hi. rewrite arg_reg by exact Hi. apply Hp. intros Q. apply (arg_keep i Hi). cbn [In] in *. tauto. }
  constructor; unfold init_mach; cbn [mc_reg mc_tmp mc_base mc_mem mc_dst mc_src mc_state]; auto.
  - rewrite !map_length, !seq_length. auto.
  - intros i Hi. apply (nth_error_map_seq (fun i => firstn (w / 4) (c_ymm c2 i))). exact Hi.
  - intros i Hi. apply (nth_error_map_seq (fun i => blanes (mread (c_mem c2) (F + N.of_nat (w * i)) w))). exact Hi.
  - intros i Hi. apply (nth_error_map_seq (fun i => blanes (mread (c_mem c2) (F + N.of_nat (w * 6 + w * i)) w))). exact Hi.
  - intros o Ho. apply nth_error_nth. apply (nth_error_map_seq (fun o => c_mem c2 (phi o))). exact Ho.
  - apply (A 2%nat). lia.
  - rewrite N.add_0_r. split; [apply (A 3%nat); lia|reflexivity].
  - intros Ht. rewrite N.add_0_r, Nat.add_0_r. split; [apply Hsrc; exact Ht|reflexivity].
Qed.

Definition ratio : N := if (w =? 32)%nat then 8 else 4.
(** What is in the stack frame when the function has returned: the slots of the model's machine. *)
Definition residue (c' : cpu) : Prop := (forall x, is_byte (c_mem c' x)) /\ exists m0 m1 m2 m3,
  length (mc_reg m0) = 16%nat /\ length (mc_base m0) = 16%nat /\ mc_state m0 = blanes (mread (c_mem c) ST 64) /\
  run w (blocks_init w) m0 = Some m1 /\ one_block w (core ++ adv w tr) rounds m1 = Some m2 /\
  more_blocks w (core ++ adv w tr) rounds (pred (N.to_nat blocks)) m2 = Some m3 /\
  forall i, (i < 16)%nat -> nth_error (mc_base m3) i = Some (blanes (mread (c_mem c') (F + N.of_nat (w * 6 + w * i)) w)).
Lemma main mem' :
  (forall jr jt jb, junk_ok jr jt jb ->
     exists ret, Model_ChaChaAsm.routine w (core ++ adv w tr) jr jt jb rounds (N.to_nat blocks) (blanes (mread (c_mem c) ST 64)) (map (fun o => c_mem c (phi o)) (seq 0 L)) 0 src0
     = Some (mem', ret)) ->
  exists c', calls s b cpuid code c (chacha_trace b w tr core R rounds blocks ST D0 S0) (return_address c) c' /\
    returned b c (return_address c) c' /\ c_gpr c' rax = ratio * blocks /\
    mread (c_mem c') D0 n = firstn n mem' /\ only_changes c c' D0 (N.of_nat n) /\ (blocks <> 0 -> residue c').
Proof.
  intros Hfun. pose proof facts as (Al & Lo & L2 & Rd & Wr). pose proof places_ok as P.
  destruct (frame_facts b w R Hw Al ltac:(lia)) as (Fa & FL & FT & FB). fold F in Fa, FL, FT, FB.
  destruct enter_reach as (c2 & K2 & S2 & B2 & P2 & Q2 & Y2 & M2 & V1 & V2 & V3 & U2).
  (* test, mov, jz *)
  set (c3 := set_gpr (set_zf c2 (c_gpr c2 (g_blocks b))) rax (c_gpr c2 (g_blocks b))).
  assert (Eb : c_gpr c2 (g_blocks b) = blocks).
  { unfold blocks. rewrite arg_reg by lia. apply P2. intros X. apply (arg_keep 1); [lia|]. cbn [In] in *. tauto. }
  assert (M3 : machine c3) by (apply machine_set_gpr; [exact M2|apply M2]).
  assert (Z3 : c_zf c3 = (blocks =? 0)) by (unfold c3; cbn [set_gpr set_zf c_zf]; rewrite Eb; reflexivity).
  assert (P3 : pres [rsp; rbp; r10; rax] c c3).
  { intros q Hq. cbn [In] in Hq. unfold c3. rewrite (gset_other (set_zf c2 _)) by (intros ->; tauto). apply P2. cbn [In]. tauto. }
  assert (K3 : reach s b cpuid code k_test c2 [] (Jz blocks_loop_end :: k_init) c3).
  { unfold k_test. cbn [app]. eapply reach_silent; [reflexivity|]. eapply reach_silent; [reflexivity|]. apply reach_refl. }
  assert (B64 : blocks < 2 ^ 64) by (rewrite <- Eb; apply M2).
  assert (Rd64 : rounds < 2 ^ 64).
  { unfold rounds. rewrite arg_reg by lia. apply M. }
  assert (Wn : N.of_nat n = 16 * N.of_nat w * blocks) by (unfold n; lia).
  assert (Ret64 : (blocks * ratio) mod 2 ^ 64 = ratio * blocks).
  { rewrite N.mul_comm. apply N.mod_small. destruct Hd as [Hd1 _]. rewrite Wn in Hd1. unfold ratio. destruct Hw as [-> | ->]; cbn [Nat.eqb]; lia. }
  (* what is left to do: the epilogue, from any state that kept what it needs *)
  assert (Fin : forall c4, machine c4 -> c_gpr c4 rsp = F -> pres [rsp; rbp; r10; rax; rbx; g_dst b; g_src b] c c4 -> c_gpr c4 rbp = R - 16 ->
      (forall x, (x < F \/ F + N.of_nat (22 * w) <= x) -> (x < D0 \/ D0 + N.of_nat n <= x) -> c_mem c4 x = c_mem c2 x) ->
      exists c', runs s b cpuid code (epilogue b w) c4 (tepi b R) (return_address c) c' /\
        returned b c (return_address c) c' /\ c_gpr c' rax = ratio * blocks /\ c_mem c' = c_mem c4 /\ only_changes c c' D0 (N.of_nat n)).
  { intros c4 M4 S4 P4 B4 U4.
    assert (Keep : forall x, F + N.of_nat (22 * w) <= x < R + 8 -> c_mem c4 x = c_mem c2 x).
    { intros x Hx. apply U4; [right; lia|]. destruct (N.lt_ge_cases x D0); [left; assumption|]. destruct (N.lt_ge_cases x (D0 + N.of_nat n)); [|right; assumption].
      exfalso. destruct (off_out _ _ x Od); lia. }
    assert (Ex : 8 <= extra b) by (destruct b; cbn; lia).
    destruct (epilogue_runs s b cpuid code w Hw c4 R (c_ymm c) M4 Al ltac:(lia) L2 Rd ltac:(rewrite S4; exact FT) B4) as (c' & K' & S' & RB & RX & RA & P' & U' & X').
    { intros i. apply (proj1 (proj2 M)). }
    { intros Hb i Hi. rewrite <- (V3 Hb i Hi). apply mread_ext. intros x Hx. apply Keep. rewrite Hb in FT. cbn [extra] in FT. lia. }
    assert (E0 : le_dec (mread (c_mem c4) R 8) = return_address c).
    { unfold return_address. fold R. f_equal. apply mread_ext. intros x Hx. rewrite Keep by lia. apply U2. lia. }
    rewrite E0 in K'.
    exists c'. split; [exact K'|]. split; [|split; [|split]].
    - constructor; [reflexivity|exact S'| |].
      + intros r Hr. assert (D : r = rbp \/ r = rbx \/ (~ In r [rsp; rbp; rbx; rax] /\ ~ In r [rsp; rbp; r10; rax; rbx; g_dst b; g_src b])).
        { destruct b; cbn in Hr; decompose [or] Hr; subst; try contradiction; auto; right; right; cbn; intuition discriminate. }
        destruct D as [-> |[-> |[D1 D2]]].
        * rewrite RB, <- V1. f_equal. apply mread_ext. intros x Hx. apply Keep. lia.
        * rewrite RX, <- V2. f_equal. apply mread_ext. intros x Hx. apply Keep. lia.
        * rewrite P' by exact D1. apply P4. exact D2.
      + intros i Hi. destruct b; [destruct Hi|]. apply X'; [reflexivity|]. cbn in Hi. lia.
    - rewrite RA. fold ratio. rewrite <- Ret64. f_equal. f_equal. rewrite P4; [|destruct b; cbn; intuition discriminate].
      unfold blocks. rewrite arg_reg by lia. reflexivity.
    - exact U'.
    - intros x Hx1 Hx2. fold R in Hx2. rewrite U'. rewrite U4 by lia. apply U2. exact Hx2. }
  destruct (N.eqb_spec blocks 0) as [Hz|Hz].
  - (* no blocks *)
    destruct (Fin c3 M3) as (c' & K' & H1 & H2 & H3 & H4).
    + unfold c3. rewrite gset_other by discriminate. exact S2.
    + intros q Hq. apply P3. cbn [In] in *. tauto.
    + unfold c3. rewrite gset_other by discriminate. exact B2.
    + intros x _ _. reflexivity.
    + exists c'. split; [|split; [exact H1|]; split; [exact H2|]; split; [|split; [exact H4|]]].
      3: { intros X. contradiction. }
      * unfold calls, chacha_trace. rewrite Hz. cbn [N.eqb]. rewrite app_assoc. apply K2. apply K3.
        cbn [app]. eapply runs_ev; [|exact K']. cbn [step]. rewrite Z3. unfold jump. rewrite G_end. reflexivity.
      * assert (En0 : n = 0%nat) by (unfold n; rewrite Hz; cbn; lia). rewrite En0. reflexivity.
  - (* blocks *)
    assert (En1 : (N.to_nat blocks = S (pred (N.to_nat blocks)))%nat) by lia. set (j := pred (N.to_nat blocks)) in *.
    assert (S3 : c_gpr c3 rsp = F) by (unfold c3; rewrite gset_other by discriminate; exact S2).
    pose proof (init_rel c3 M3 S3 P3) as Ri.
    assert (Q3 : tr = true -> c_gpr c3 (g_src b) = S0) by (intros Ht; unfold c3; rewrite gset_other by (destruct b; discriminate); apply Q2; exact Ht).
    specialize (Ri Q3).
    assert (Em : forall x, x < sp_low s \/ R + 8 <= x -> c_mem c3 x = c_mem c x) by (intros x Hx; apply U2; lia).
    assert (I : init_mach c3 = {| mc_reg := mc_reg (init_mach c3); mc_tmp := mc_tmp (init_mach c3); mc_base := mc_base (init_mach c3);
        mc_mem := map (fun o => c_mem c (phi o)) (seq 0 L); mc_dst := 0; mc_src := src0; mc_state := blanes (mread (c_mem c) ST 64) |}).
    { unfold init_mach at 1. cbn [init_mach mc_reg mc_tmp mc_base]. f_equal.
      - apply map_ext_in. intros o Ho. apply in_seq in Ho. apply Em. apply (p_phi_out _ _ _ _ _ _ _ _ _ _ _ _ P). lia.
      - f_equal. apply mread_ext. intros x Hx. apply Em. apply (off_out _ _ _ Ost). lia. }
    assert (Hf : exists m1 m2 m3, run w (blocks_init w) (init_mach c3) = Some m1 /\ one_block w (core ++ adv w tr) rounds m1 = Some m2 /\
       more_blocks w (core ++ adv w tr) rounds j m2 = Some m3 /\ mc_mem m3 = mem').
    { specialize (Hfun (mc_reg (init_mach c3)) (mc_tmp (init_mach c3)) (mc_base (init_mach c3))).
      unfold junk_ok in Hfun. destruct (r_len _ _ _ _ _ _ _ _ _ _ _ _ _ _ _ Ri) as (A1 & A2 & A3 & _). destruct (Hfun (conj A1 (conj A2 A3))) as (ret & Hfun'). clear Hfun. rename Hfun' into Hfun.
      unfold Model_ChaChaAsm.routine in Hfun. rewrite En1 in Hfun. rewrite <- I in Hfun.
      destruct (run w (blocks_init w) (init_mach c3)) as [m1|]; [|discriminate]. cbn [bind] in Hfun.
      destruct (one_block w (core ++ adv w tr) rounds m1) as [m2|] eqn:E2; [|discriminate]. cbn [bind] in Hfun.
      destruct (more_blocks w (core ++ adv w tr) rounds j m2) as [m3|] eqn:E3; [|discriminate]. cbn [bind] in Hfun.
      exists m1, m2, m3. split; [reflexivity|]. split; [exact E2|]. split; [exact E3|]. congruence. }
    destruct Hf as (m1 & m2 & m3 & F1 & F2 & F3 & F4).
    assert (Nn : n = (16 * w + j * (16 * w))%nat) by (unfold n; rewrite En1; lia).
    destruct (block_run s b cpuid w tr code (R + 8) F ST D0 S0 n src0 L phi (c_mem c3) Hw P 0 (blocks_init w) (init_mach c3) c3 m1
                ([Jmp blocks_loop_first; Lab blocks_loop] ++ k_loop b w tr core (epilogue b w)) Ri ltac:(lia) ltac:(eapply init_ok; eassumption) F1) as (c4 & K4 & R4 & G4).
    assert (Ok4 : gok c4) by (apply (pres_gok_same c3 c4 G4); exact (proj1 M3)).
    assert (Er : c_gpr c4 (g_rounds b) = rounds).
    { rewrite G4. unfold rounds. rewrite arg_reg by lia. apply P3. intros X. apply (arg_keep 0); [lia|]. cbn [In] in *. tauto. }
    destruct (block_reach s b cpuid w tr core (epilogue b w) code (R + 8) F ST D0 S0 n src0 L phi (c_mem c3) rounds Hw P Hcore Hrd Rd64 G_rounds
                0 m1 c4 m2 ltac:(lia) R4 Ok4 Er F2) as (c5 & K5 & R5 & Ok5 & P5).
    destruct (more_reach s b cpuid w tr core (epilogue b w) code (R + 8) F ST D0 S0 n src0 L phi (c_mem c3) rounds Hw P Hcore Hrd Rd64 G_rounds G_loop
                j (0 + 16 * w) m2 c5 m3) as (c6 & K6 & R6 & Ok6 & P6).
    { lia. } { exact R5. } { exact Ok5. }
    { rewrite P5 by (destruct b; cbn; intuition discriminate). exact Er. }
    { rewrite P5 by (destruct b; cbn; intuition discriminate). rewrite G4. unfold c3. rewrite gset_same, Eb. lia. }
    { exact F3. }
    assert (P6' : forall q, ~ In q [rsp; rbp; r10; rax; rbx; g_dst b; g_src b] -> c_gpr c6 q = c_gpr c q).
    { intros q Hq. cbn [In] in Hq. rewrite P6, P5, G4 by (cbn [In]; tauto). apply P3. cbn [In]. tauto. }
    destruct (Fin c6) as (c' & K' & H1 & H2 & H3 & H4).
    + split; [exact Ok6|]. split; [intros i; apply (r_ymm _ _ _ _ _ _ _ _ _ _ _ _ _ _ _ R6)|apply (r_bytes _ _ _ _ _ _ _ _ _ _ _ _ _ _ _ R6)].
    + apply (r_rsp _ _ _ _ _ _ _ _ _ _ _ _ _ _ _ R6).
    + exact P6'.
    + rewrite P6, P5, G4 by (destruct b; cbn; intuition discriminate). unfold c3. rewrite gset_other by discriminate. exact B2.
    + intros x Hx1 Hx2. apply (r_out _ _ _ _ _ _ _ _ _ _ _ _ _ _ _ R6); assumption.
    + exists c'. split; [|split; [exact H1|]; split; [exact H2|]; split; [|split; [exact H4|]]].
      3: { intros _. split; [rewrite H3; apply (r_bytes _ _ _ _ _ _ _ _ _ _ _ _ _ _ _ R6)|]. exists (init_mach c3), m1, m2, m3. destruct (r_len _ _ _ _ _ _ _ _ _ _ _ _ _ _ _ Ri) as (A1 & _ & A3 & _).
           split; [exact A1|]. split; [exact A3|]. split; [rewrite I; reflexivity|]. split; [exact F1|]. split; [exact F2|]. split; [exact F3|].
           rewrite H3. apply (r_base _ _ _ _ _ _ _ _ _ _ _ _ _ _ _ R6). }
      * assert (X : runs s b cpuid code (Jz blocks_loop_end :: k_init) c3
          (EvJump false :: tat b w F ST D0 S0 0 (blocks_init w) ++ tblock b w core F ST D0 S0 rounds 0 ++ tmore b w core F ST D0 S0 rounds j (16 * w) ++ tepi b R)
          (return_address c) c').
        2: { unfold calls, chacha_trace. fold F. fold j. destruct (N.eqb_spec blocks 0); [contradiction|]. rewrite app_assoc. apply K2.
             pose proof (K3 _ _ _ X) as X'. cbn [app] in X'. rewrite <- !app_assoc. exact X'. }
        eapply runs_ev; [cbn [step]; rewrite Z3; destruct (N.eqb_spec blocks 0); [contradiction|reflexivity]|].
        unfold k_init. apply K4. destruct G_first as (kf & Gf & Ef).
        eapply runs_silent; [cbn [step app]; unfold jump; rewrite Gf; reflexivity|].
        apply (lab_inv s b cpuid code blocks_loop_first kf). rewrite Ef. apply K5. apply K6.
        eapply runs_silent; [reflexivity|]. exact K'.
      * rewrite H3. rewrite <- F4. apply (nth_ext _ _ 0 0).
        { rewrite mread_length, firstn_length. destruct (r_len _ _ _ _ _ _ _ _ _ _ _ _ _ _ _ R6) as (_ & _ & _ & A4). rewrite A4. unfold L. lia. }
        intros o Ho. rewrite mread_length in Ho. rewrite nth_firstn_lt by exact Ho. rewrite nth_mread by exact Ho.
        rewrite (r_mem _ _ _ _ _ _ _ _ _ _ _ _ _ _ _ R6) by (unfold L; lia). unfold phi. destruct (Nat.ltb_spec o n); [reflexivity|lia].
Qed.
End Main.
