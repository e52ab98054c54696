(** The SHA functions. *)
From Verif Require Import Base BaseLemmas Spec_Bytes Model_Memory BytesLemmas Spec_Sha Proof_ShaCore Model_X86 Model_ChaChaAsm Model_ShaAsm Model_Asm Spec_Abi Spec_Range Proof_Range Proof_X86Sym Proof_ChaChaAsm Proof_ShaAsm Proof_ShaAsm2 Proof_Asm Proof_AsmX Proof_AsmFrame Proof_AsmChaCha2 Proof_AsmChaCha3 Proof_AsmChaCha4 Proof_AsmSha.
Local Open Scope N_scope.

Definition tl_loop (ST SRC : N) (body : list sinstr) : nat -> nat -> list event :=
  fix tl (j t : nat) : list event := s_trace ST SRC t body ++ match j with O => [EvJump false] | S j => EvJump true :: tl j (t + 64)%nat end.
Definition sha_trace (b : abi) (nx : nat) (load body store : list sinstr) (R blocks ST SRC : N) : list event :=
  match b with Unix => [] | Wind => [EvWrite (R - 8) 8] ++ tsaves (R - 8) 1 nx end ++
  s_trace ST SRC 0 load ++
  (if blocks =? 0 then [EvJump true] else EvJump false :: tl_loop ST SRC body (pred (N.to_nat blocks)) 0) ++
  s_trace ST SRC (64 * N.to_nat blocks) store ++
  match b with Unix => [] | Wind => tloads (R - 8) 1 nx ++ [EvRead (R - 8) 8] end ++ [EvRead R 8].

Lemma goto_SI l rest : forall p, goto (map SI p ++ rest) l = goto rest l.
Proof. intros p. apply goto_nolab. induction p; [reflexivity|exact IHp]. Qed.
Lemma sha_save_saves n : sha_save n = saves 0 1 n.
Proof. unfold sha_save, saves. apply map_ext. intros i. f_equal. unfold sdisp. lia. Qed.
Lemma sha_restore_loads n : sha_restore n = loads 0 1 n.
Proof. unfold sha_restore, loads. apply map_ext. intros i. f_equal. unfold sdisp. lia. Qed.

Section Run.
Variables (s : space) (b : abi) (cpuid : cpuid_fun) (code : list ainstr) (top ns len : nat) (F ST SRC : N) (m0 : N -> N).
Hypothesis P : splaces s ns len F ST SRC.
Notation srel := (srel b ns len F ST SRC m0).
Notation spres := (spres b top).
Notation reach := (reach s b cpuid code).

Lemma spres_refl c : spres c c.
Proof. split; reflexivity. Qed.
Lemma spres_trans c c1 c2 : spres c c1 -> spres c1 c2 -> spres c c2.
Proof. intros [A1 A2] [B1 B2]. split; [intros q Hq; rewrite B1, A1 by exact Hq; reflexivity|intros i Hi; rewrite B2, A2 by exact Hi; reflexivity]. Qed.
Lemma s_run rest : forall p t m c m', srel t m c -> forallb (ok_s top) p = true -> (t + p_adv p <= len)%nat -> srun p m = Some m' ->
  exists c', reach (map SI p ++ rest) c (s_trace ST SRC t p) rest c' /\ srel (t + p_adv p) m' c' /\ spres c c'.
Proof.
  induction p as [|i p IH]; intros t m c m' R Ok Ht H.
  - cbn [srun] in H. injection H as <-. exists c. split; [apply reach_refl|]. cbn [p_adv]. rewrite Nat.add_0_r. split; [exact R|apply spres_refl].
  - cbn [srun] in H. destruct (sexec m i) as [m1|] eqn:E; [|discriminate]. cbn [bind] in H. cbn [forallb] in Ok. apply andb_prop in Ok. destruct Ok as [Oi Op].
    cbn [p_adv] in *. destruct (s_step s b top ns len F ST SRC m0 P t m c i m1 R Oi ltac:(lia) E) as (Ev & c1 & X & R1 & P1).
    destruct (IH (t + s_adv i)%nat m1 c1 m' R1 Op ltac:(lia) H) as (c2 & K & R2 & P2).
    exists c2. split; [|split; [|exact (spres_trans _ _ _ P1 P2)]].
    + cbn [map app s_trace]. eapply reach_cons; [|exact K]. cbn [step]. rewrite X, Ev. reflexivity.
    + rewrite Nat.add_assoc. exact R2.
Qed.
Lemma srel_machine t m c : srel t m c -> gok c -> machine c.
Proof. intros R G. split; [exact G|]. split; [apply R|apply R]. Qed.
Lemma srel_gpr t m c c' : srel t m c -> c_ymm c' = c_ymm c -> c_mem c' = c_mem c -> (forall q, q <> rax -> c_gpr c' q = c_gpr c q) -> srel t m c'.
Proof.
  intros R Y U G. destruct R as [A1 A2 A3 A4 A5 A6 A7 A8 A9 A10 A11]. constructor; rewrite ?Y, ?U; try assumption; rewrite G by (destruct b; discriminate); assumption.
Qed.
Lemma spres_gok t m c c' : srel t m c' -> spres c c' -> gok c -> gok c'.
Proof.
  intros R [G _] H q. destruct (gpr_eq_dec q (h_src b)) as [->|Hq]; [|rewrite G by exact Hq; apply H].
  rewrite (h_src_r _ _ _ _ _ _ _ _ _ _ R). pose proof (q_src _ _ _ _ _ _ P). destruct (h_off _ _ _ _ _ _ _ _ _ _ R). lia.
Qed.
Lemma pres_weak c c' : spres c c' -> forall q, q <> rax -> q <> h_src b -> c_gpr c' q = c_gpr c q.
Proof. intros [G _] q _ Hq. apply G. exact Hq. Qed.

Variables (body : list sinstr) (k_end : list ainstr).
Hypothesis Hok : forallb (ok_s top) body = true.
Hypothesis Hadv : p_adv body = 64%nat.
Definition k_sloop : list ainstr := map SI body ++ [SubI rax 1; Jnz blocks_loop] ++ k_end.
Hypothesis G1 : goto code blocks_loop = Some k_sloop.

Lemma loop_run : forall j t m c m', srel t m c -> gok c -> (t + 64 * S j <= len)%nat -> c_gpr c rax = N.of_nat (S j) -> sloop body (S j) m = Some m' ->
  exists c', reach k_sloop c (tl_loop ST SRC body j t) k_end c' /\ srel (t + 64 * S j) m' c' /\ gok c' /\
    (forall q, q <> rax -> q <> h_src b -> c_gpr c' q = c_gpr c q) /\ (forall i, (top <= i)%nat -> c_ymm c' i = c_ymm c i).
Proof.
  induction j as [|j IH]; intros t m c m' R G Ht Hx H.
  - cbn [sloop] in H. destruct (srun body m) as [m1|] eqn:E; [|discriminate]. cbn [bind sloop] in H. injection H as <-.
    destruct (s_run ([SubI rax 1; Jnz blocks_loop] ++ k_end) body t m c m1 R Hok ltac:(lia) E) as (c1 & K1 & R1 & P1).
    pose proof (spres_gok _ _ _ _ R1 P1 G) as Gk1.
    assert (Hx1 : c_gpr c1 rax = 1) by (rewrite (proj1 P1) by (destruct b; discriminate); exact Hx).
    destruct (sub_reach s b cpuid code rax 1 ([Jnz blocks_loop] ++ k_end) c1 (srel_machine _ _ _ R1 Gk1)) as (c2 & K2 & V2 & O2 & Y2 & M2 & U2 & Z2); [rewrite Hx1; lia|].
    rewrite Hx1 in Z2. exists c2. split; [|split; [|split; [|split]]].
    + unfold k_sloop. cbn [tl_loop]. eapply reach_trans; [exact K1|]. apply (reach_trans _ _ _ _ _ _ [] _ _ _ _ _ K2). apply reach_step. cbn [app step]. rewrite Z2. reflexivity.
    + replace (t + 64 * 1)%nat with (t + p_adv body)%nat by lia. exact (srel_gpr _ _ _ _ R1 Y2 U2 O2).
    + exact (proj1 M2).
    + intros q H1 H2. rewrite O2 by exact H1. apply P1. exact H2.
    + intros i Hi. rewrite Y2. apply P1. exact Hi.
  - cbn [sloop] in H. destruct (srun body m) as [m1|] eqn:E; [|discriminate]. cbn [bind] in H.
    destruct (s_run ([SubI rax 1; Jnz blocks_loop] ++ k_end) body t m c m1 R Hok ltac:(lia) E) as (c1 & K1 & R1 & P1).
    pose proof (spres_gok _ _ _ _ R1 P1 G) as Gk1.
    assert (Hx1 : c_gpr c1 rax = N.of_nat (S (S j))) by (rewrite (proj1 P1) by (destruct b; discriminate); exact Hx).
    destruct (sub_reach s b cpuid code rax 1 ([Jnz blocks_loop] ++ k_end) c1 (srel_machine _ _ _ R1 Gk1)) as (c2 & K2 & V2 & O2 & Y2 & M2 & U2 & Z2); [rewrite Hx1; lia|].
    rewrite Hx1 in V2, Z2. replace (N.of_nat (S (S j)) - 1) with (N.of_nat (S j)) in * by lia.
    assert (Z2' : c_zf c2 = false) by (rewrite Z2; apply N.eqb_neq; lia).
    rewrite Hadv in R1.
    destruct (IH (t + 64)%nat m1 c2 m' (srel_gpr _ _ _ _ R1 Y2 U2 O2) (proj1 M2) ltac:(lia) V2 H) as (c3 & K3 & R3 & G3 & P3 & Y3).
    exists c3. split; [|split; [|split; [|split]]].
    + unfold k_sloop at 1. cbn [tl_loop]. eapply reach_trans; [exact K1|]. apply (reach_trans _ _ _ _ _ _ [] _ _ _ _ _ K2).
      eapply reach_ev; [cbn [step app]; rewrite Z2'; unfold jump; rewrite G1; reflexivity|exact K3].
    + replace (t + 64 * S (S j))%nat with (t + 64 + 64 * S j)%nat by lia. exact R3.
    + exact G3.
    + intros q H1 H2. rewrite P3 by assumption. rewrite O2 by exact H1. apply P1. exact H2.
    + intros i Hi. rewrite Y3 by exact Hi. rewrite Y2. apply P1. exact Hi.
Qed.
End Run.

Section Whole.
Variables (s : space) (b : abi) (cpuid : cpuid_fun) (nx ns : nat) (load body store : list sinstr) (comp : list N -> list N -> list N).
Hypothesis Hnx : (nx <= 10)%nat.
Hypothesis Ol : forallb (ok_s (6 + nx)) load = true.
Hypothesis Ob : forallb (ok_s (6 + nx)) body = true.
Hypothesis Os : forallb (ok_s (6 + nx)) store = true.
Hypothesis Al : p_adv load = 0%nat.
Hypothesis Ab : p_adv body = 64%nat.
Hypothesis As : p_adv store = 0%nat.
Hypothesis Hfun : forall junk n st src, length junk = 16%nat -> length st = ns -> words 32 st -> bytes src -> (n * 64 <= length src)%nat ->
  routine load body store junk n st src = Some (iter_blocks 64 n comp st src).
Definition scode : list ainstr := sha_code b nx load body store.
Definition k_fin : list ainstr := sha_epilogue b nx ++ [MovRR rax (h_blocks b); Ret].
Definition k_store : list ainstr := map SI store ++ k_fin.
Definition k_send : list ainstr := Lab blocks_loop_end :: k_store.
Definition k_stest : list ainstr := [TestRR (h_blocks b); MovRR rax (h_blocks b); Jz blocks_loop_end; Lab blocks_loop] ++ k_sloop body k_send.
Lemma scode_eq : scode = sha_prologue b nx ++ map SI load ++ k_stest.
Proof. reflexivity. Qed.
Lemma spro_nolab : forallb no_lab (sha_prologue b nx) = true.
Proof. destruct b; [reflexivity|]. unfold sha_prologue, sha_save. cbn [app forallb no_lab andb]. generalize (seq 1 nx). intros l. induction l; [reflexivity|exact IHl]. Qed.
Lemma GS_loop : goto scode blocks_loop = Some (k_sloop body k_send).
Proof. rewrite scode_eq, goto_nolab by exact spro_nolab. rewrite goto_SI. reflexivity. Qed.
Lemma GS_end : goto scode blocks_loop_end = Some k_store.
Proof. rewrite scode_eq, goto_nolab by exact spro_nolab. rewrite goto_SI. unfold k_stest, k_sloop. cbn [app goto Nat.eqb blocks_loop blocks_loop_end]. rewrite goto_SI. reflexivity. Qed.

Variable c : cpu.
Hypothesis C : hash_call s b ns c.
Definition RR := c_gpr c rsp.
Definition nb := argument b c 0.
Definition sst := argument b c 1.
Definition ssrc := argument b c 2.
Definition FF : N := match b with Unix => RR | Wind => RR - 8 - 16 * N.of_nat nx end.

Lemma sarg i : (i < 4)%nat -> argument b c i = c_gpr c (arg b i).
Proof. intros H. destruct b, i as [|[|[|[|]]]]; try reflexivity; lia. Qed.
Lemma sfacts : RR mod 16 = 8 /\ sp_low s + 1024 <= RR /\ RR + 8 < 2 ^ 64 /\ (forall x, RR - 1024 <= x < RR + 8 -> sp_rd s x = true) /\
  (forall x, RR - 1024 <= x < RR -> sp_wr s x = true) /\ RR - 1024 <= FF /\ FF <= RR.
Proof.
  destruct C as [_ (A1 & Lo & (L1 & Rd) & (L2 & Wr) & (L3 & Rt)) _ _ _]. fold RR in *. clear - A1 Lo L1 Rd L2 Wr L3 Rt Hnx. split; [exact A1|]. split; [exact Lo|].
  split; [destruct b; lia|]. split; [|split; [intros x Hx; apply Wr; lia|unfold FF; destruct b; lia]]. intros x Hx. destruct (N.lt_ge_cases x RR).
  - apply Rd. lia.
  - apply Rt. destruct b; lia.
Qed.
Lemma soff_out a k x : off_stack s c a k -> a <= x < a + k -> x < sp_low s \/ RR + 8 <= x.
Proof. intros O Hx. pose proof sfacts as (_ & Lo & _). clear - O Hx Lo. unfold off_stack, disjoint in O. fold RR in O. lia. Qed.
Lemma splaces_ok : splaces s ns (64 * N.to_nat nb) FF sst ssrc.
Proof.
  pose proof sfacts as (_ & Lo & _ & _ & _ & F1 & F2). destruct C as [_ _ ((A1 & A2) & (A3 & A4) & A5) ((B1 & B2) & B3) D]. fold sst ssrc nb in *.
  assert (E : N.of_nat (64 * N.to_nat nb) = 64 * nb) by lia. constructor; rewrite ?E; try assumption.
  - intros x Hx. split; [apply A2; exact Hx|apply A4; exact Hx].
  - intros x Hx. destruct (soff_out _ _ _ A5 Hx); [left; assumption|right; lia].
  - intros x Hx. destruct (soff_out _ _ _ B3 Hx); [left; assumption|right; lia].
Qed.

Lemma spro_reach rest : exists c', reach s b cpuid scode (sha_prologue b nx ++ rest) c (match b with Unix => [] | Wind => [EvWrite (RR - 8) 8] ++ tsaves (RR - 8) 1 nx end) rest c' /\
  c_gpr c' rsp = FF /\ (b = Wind -> c_gpr c' rbp = RR - 8) /\ (forall q, q <> rsp -> (b = Wind -> q <> rbp) -> c_gpr c' q = c_gpr c q) /\ c_ymm c' = c_ymm c /\ machine c' /\
  (b = Wind -> le_dec (mread (c_mem c') (RR - 8) 8) = c_gpr c rbp) /\
  (b = Wind -> forall i, (1 <= i < 1 + nx)%nat -> mread (c_mem c') (RR - 8 - 16 * N.of_nat i) 16 = vbytes (firstn 4 (c_ymm c (5 + i)))) /\
  (forall x, x < RR - 1024 \/ RR <= x -> c_mem c' x = c_mem c x).
Proof.
  pose proof sfacts as (Am & Lo & L2 & Rd & Wr & F1 & F2). pose proof (hc_machine _ _ _ _ C) as M.
  unfold FF in *. destruct b eqn:Eb.
  - exists c. split; [apply reach_refl|]. repeat split; try (intros; discriminate); try apply M.
  - unfold sha_prologue. rewrite <- app_assoc. cbn [app].
    destruct (push_reach s Wind cpuid scode rbp (MovRR rbp rsp :: SubI rsp (16 * N.of_nat nx) :: sha_save nx ++ rest) c M ltac:(discriminate) ltac:(fold RR; lia)) as (c1 & K1 & S1 & O1 & Y1 & M1 & V1 & U1).
    { fold RR. intros x Hx. apply Wr. lia. }
    fold RR in K1, S1, V1, U1.
    destruct (movrr_reach s Wind cpuid scode rbp rsp (SubI rsp (16 * N.of_nat nx) :: sha_save nx ++ rest) c1 M1) as (c2 & K2 & S2 & O2 & Y2 & M2 & U2 & _).
    rewrite S1 in S2. pose proof (O2 rsp ltac:(discriminate)) as P2. rewrite S1 in P2.
    destruct (sub_reach s Wind cpuid scode rsp (16 * N.of_nat nx) (sha_save nx ++ rest) c2 M2) as (c3 & K3 & S3 & O3 & Y3 & M3 & U3 & _).
    { rewrite P2. lia. }
    rewrite P2 in S3. pose proof (O3 rbp ltac:(discriminate)) as B3. rewrite S2 in B3.
    destruct (saves_reach s Wind cpuid scode 0 rest nx 1 c3 M3) as (c4 & K4 & G4 & Y4 & _ & M4 & V4 & U4).
    { lia. } { rewrite B3. lia. } { rewrite B3, N.sub_0_r. pose proof (N.div_mod RR 16 ltac:(lia)) as E. rewrite Am in E. replace (RR - 8) with (RR / 16 * 16) by lia. apply N.mod_mul. lia. }
    { rewrite B3, S3, N.sub_0_r. intros x Hx. split; [apply Wr; lia|lia]. }
    rewrite B3, N.sub_0_r in *.
    exists c4. split; [|split; [|split; [|split; [|split; [|split; [|split; [|split]]]]]]].
    + rewrite sha_save_saves in *. change (EvWrite (RR - 8) 8 :: tsaves (RR - 8) 1 nx) with ([EvWrite (RR - 8) 8] ++ [] ++ [] ++ tsaves (RR - 8) 1 nx).
      eapply reach_trans; [exact K1|]. eapply reach_trans; [exact K2|]. eapply reach_trans; [exact K3|exact K4].
    + rewrite G4. exact S3.
    + intros _. rewrite G4. exact B3.
    + intros q H1 H2. specialize (H2 eq_refl). rewrite G4, O3, O2, O1 by assumption. reflexivity.
    + rewrite Y4, Y3, Y2. exact Y1.
    + exact M4.
    + intros _. rewrite <- V1. f_equal. apply mread_ext. intros x Hx. rewrite U4 by lia. rewrite U3, U2. reflexivity.
    + intros _ i Hi. rewrite V4 by lia. rewrite Y3, Y2, Y1. reflexivity.
    + intros x Hx. rewrite U4 by lia. rewrite U3, U2, U1 by lia. reflexivity.
Qed.

(** The end: restoring and returning. *)
Lemma sfin_runs c4 : machine c4 -> c_gpr c4 rsp = FF -> (b = Wind -> c_gpr c4 rbp = RR - 8) ->
  (forall i, (6 + nx <= i)%nat -> c_ymm c4 i = c_ymm c i) ->
  (b = Wind -> le_dec (mread (c_mem c4) (RR - 8) 8) = c_gpr c rbp) ->
  (b = Wind -> forall i, (1 <= i < 1 + nx)%nat -> mread (c_mem c4) (RR - 8 - 16 * N.of_nat i) 16 = vbytes (firstn 4 (c_ymm c (5 + i)))) ->
  le_dec (mread (c_mem c4) RR 8) = return_address c ->
  exists c', runs s b cpuid scode k_fin c4 (match b with Unix => [] | Wind => tloads (RR - 8) 1 nx ++ [EvRead (RR - 8) 8] end ++ [EvRead RR 8]) (return_address c) c' /\
    c_gpr c' rsp = RR + 8 /\ (forall q, q <> rsp -> q <> rax -> (b = Wind -> q <> rbp) -> c_gpr c' q = c_gpr c4 q) /\ (b = Wind -> c_gpr c' rbp = c_gpr c rbp) /\
    c_gpr c' rax = c_gpr c4 (h_blocks b) /\ c_mem c' = c_mem c4 /\
    (b = Wind -> forall i, (6 <= i)%nat -> firstn 4 (c_ymm c' i) = firstn 4 (c_ymm c i)).
Proof.
  intros M4 S4 B4 Y4 V1 V2 Hra. pose proof sfacts as (Am & Lo & L2 & Rd & Wr & F1 & F2). pose proof (hc_machine _ _ _ _ C) as M.
  assert (A : exists c5, reach s b cpuid scode k_fin c4 (match b with Unix => [] | Wind => tloads (RR - 8) 1 nx ++ [EvRead (RR - 8) 8] end) [MovRR rax (h_blocks b); Ret] c5 /\
    c_gpr c5 rsp = RR /\ (forall q, q <> rsp -> (b = Wind -> q <> rbp) -> c_gpr c5 q = c_gpr c4 q) /\ (b = Wind -> c_gpr c5 rbp = c_gpr c rbp) /\
    c_mem c5 = c_mem c4 /\ machine c5 /\ (b = Wind -> forall i, (6 <= i)%nat -> firstn 4 (c_ymm c5 i) = firstn 4 (c_ymm c i))).
  { unfold k_fin, FF in *. destruct b eqn:Eb.
    - exists c4. split; [apply reach_refl|]. repeat split; try (intros; discriminate); try apply M4. exact S4.
    - specialize (B4 eq_refl). specialize (V1 eq_refl). specialize (V2 eq_refl). unfold sha_epilogue. rewrite <- app_assoc. rewrite sha_restore_loads. cbn [app].
      destruct (loads_reach s Wind cpuid scode 0 (MovRR rsp rbp :: Pop rbp :: [MovRR rax (h_blocks Wind); Ret]) (c_ymm c) nx 1 c4 M4) as (c5 & K5 & G5 & U5 & _ & M5 & W5 & O5).
      { lia. } { rewrite B4. lia. } { rewrite B4, N.sub_0_r. pose proof (N.div_mod RR 16 ltac:(lia)) as E. rewrite Am in E. replace (RR - 8) with (RR / 16 * 16) by lia. apply N.mod_mul. lia. }
      { rewrite B4, S4, N.sub_0_r. intros x Hx. split; [apply Rd; lia|lia]. }
      { intros i. apply (proj1 (proj2 M)). }
      { rewrite B4, N.sub_0_r. intros i Hi. apply V2. lia. }
      rewrite B4, N.sub_0_r in K5.
      destruct (movrr_reach s Wind cpuid scode rsp rbp (Pop rbp :: [MovRR rax (h_blocks Wind); Ret]) c5 M5) as (c6 & K6 & S6 & O6 & Y6 & M6 & U6 & _).
      rewrite G5, B4 in S6.
      destruct (pop_reach s Wind cpuid scode rbp [MovRR rax (h_blocks Wind); Ret] c6 M6 ltac:(discriminate)) as (c7 & K7 & S7 & T7 & O7 & Y7 & M7 & U7).
      { rewrite S6. lia. } { rewrite S6. intros x Hx. apply Rd. lia. }
      rewrite S6 in K7, S7, T7. replace (RR - 8 + 8) with RR in S7 by lia.
      exists c7. split; [|split; [|split; [|split; [|split; [|split]]]]].
      + eapply reach_trans; [exact K5|]. exact (reach_trans _ _ _ _ _ _ [] _ _ _ _ _ K6 K7).
      + exact S7.
      + intros q H1 H2. specialize (H2 eq_refl). rewrite O7, O6 by assumption. rewrite G5. reflexivity.
      + intros _. rewrite T7, U6, U5. exact V1.
      + rewrite U7, U6. exact U5.
      + exact M7.
      + intros _ i Hi. rewrite Y7, Y6. destruct (Nat.lt_ge_cases i (6 + nx)) as [Q|Q].
        * specialize (W5 (i - 5)%nat ltac:(lia)). replace (5 + (i - 5))%nat with i in W5 by lia. exact W5.
        * rewrite O5 by (right; lia). rewrite Y4 by exact Q. reflexivity. }
  destruct A as (c5 & K5 & S5 & O5 & B5 & U5 & M5 & X5).
  destruct (movrr_reach s b cpuid scode rax (h_blocks b) [Ret] c5 M5) as (c6 & K6 & S6 & O6 & Y6 & M6 & U6 & _).
  assert (S6' : c_gpr c6 rsp = RR) by (rewrite O6 by discriminate; exact S5).
  assert (Ld : Model_Asm.load s c6 (c_gpr c6 rsp) 8 = Some (mread (c_mem c4) RR 8)).
  { rewrite S6'. rewrite load_ok; [rewrite U6, U5; reflexivity|lia|intros x Hx; apply Rd; lia|intros x Hx; rewrite S6'; right; lia]. }
  assert (E7 : ea c6 rsp 8 = RR + 8) by (change 8%Z with (Z.of_N 8); rewrite ea_add; rewrite S6'; [reflexivity|exact L2]).
  exists (set_gpr c6 rsp (ea c6 rsp 8)). split; [|split; [|split; [|split; [|split; [|split]]]]].
  - apply K5. change [EvRead RR 8] with ([] ++ [EvRead RR 8]). apply K6. apply runs_return. cbn [step]. rewrite Ld, S6', Hra. reflexivity.
  - rewrite gset_same. exact E7.
  - intros q H1 H2 H3. rewrite gset_other by exact H1. rewrite O6 by exact H2. apply O5; assumption.
  - intros Hb. rewrite gset_other, O6 by discriminate. apply B5. exact Hb.
  - rewrite gset_other by discriminate. rewrite S6. apply O5; destruct b; discriminate.
  - cbn [set_gpr c_mem]. rewrite U6. exact U5.
  - intros Hb i Hi. cbn [set_gpr c_ymm]. rewrite Y6. apply X5; assumption.
Qed.

Lemma le_words_blanes l k : length l = (4 * k)%nat -> blanes l = le_words 4 k l.
Proof. intros H. unfold blanes. rewrite H, Nat.mul_comm, Nat.div_mul by lia. reflexivity. Qed.
Lemma swhole : exists c', calls s b cpuid scode c (sha_trace b nx load body store RR nb sst ssrc) (return_address c) c' /\
  returned b c (return_address c) c' /\ c_gpr c' rax = nb /\
  le_words 4 ns (mread (c_mem c') sst (4 * ns)) = iter_blocks 64 (N.to_nat nb) comp (le_words 4 ns (mread (c_mem c) sst (4 * ns))) (mread (c_mem c) ssrc (64 * N.to_nat nb)) /\
  only_changes c c' sst (N.of_nat (4 * ns)).
Proof.
  pose proof sfacts as (Am & Lo & L2 & Rd & Wr & F1 & F2). pose proof (hc_machine _ _ _ _ C) as M. pose proof splaces_ok as P.
  destruct (spro_reach (map SI load ++ k_stest)) as (c1 & K1 & S1 & B1 & O1 & Y1 & M1 & V1 & V2 & U1). rewrite <- scode_eq in K1.
  assert (Arg : forall i, (i < 3)%nat -> c_gpr c1 (arg b i) = argument b c i).
  { intros i Hi. rewrite sarg by lia. apply O1; destruct b, i as [|[|[|]]]; try discriminate; lia. }
  assert (Oo : forall x, x < sp_low s \/ RR + 8 <= x -> c_mem c1 x = c_mem c x) by (intros x Hx; apply U1; lia).
  pose proof C as [_ _ ((A1 & A2) & (A3 & A4) & A5) ((Q1 & Q2) & Q3) D].
  set (len := (64 * N.to_nat nb)%nat) in *. assert (Elen : N.of_nat len = 64 * nb) by (unfold len; lia).
  set (st := le_words 4 ns (mread (c_mem c) sst (4 * ns))).
  assert (Est : mread (c_mem c1) sst (4 * ns) = mread (c_mem c) sst (4 * ns)).
  { apply mread_ext. intros x Hx. apply Oo. apply (soff_out _ _ _ A5). exact Hx. }
  assert (Esrc : mread (c_mem c1) ssrc len = mread (c_mem c) ssrc len).
  { apply mread_ext. intros x Hx. rewrite Elen in Hx. apply Oo. apply (soff_out _ _ _ Q3). exact Hx. }
  assert (Lst : length st = ns) by (apply le_words_length).
  assert (Wst : words 32 st) by (apply (le_words_words 4); apply mread_bytes; apply M).
  set (m1 := {| sm_reg := map (fun i => firstn 4 (c_ymm c1 i)) (seq 0 16); sm_mem := mread (c_mem c) ssrc len; sm_src := 0; sm_state := st |}).
  assert (R1 : srel b ns len FF sst ssrc (c_mem c1) 0 m1 c1).
  { constructor; cbn [m1 sm_reg sm_mem sm_src sm_state].
    - rewrite map_length, seq_length. split; [reflexivity|]. split; assumption.
    - intros i Hi. exact (nth_error_map_seq (fun i => firstn 4 (c_ymm c1 i)) 16 i Hi).
    - intros i. apply (proj1 (proj2 M1)).
    - apply M1.
    - rewrite Est. unfold st. rewrite <- le_words_blanes by apply mread_length. symmetry. apply (vbytes_blanes _ ns); [apply mread_bytes; apply M|apply mread_length].
    - symmetry. exact Esrc.
    - reflexivity.
    - split; [reflexivity|lia].
    - exact S1.
    - exact (Arg 1%nat ltac:(lia)).
    - rewrite N.add_0_r. exact (Arg 2%nat ltac:(lia)). }
  assert (Hr : exists m2 m3 m4, srun load m1 = Some m2 /\ sloop body (N.to_nat nb) m2 = Some m3 /\ srun store m3 = Some m4 /\
     sm_state m4 = iter_blocks 64 (N.to_nat nb) comp st (mread (c_mem c) ssrc len)).
  { pose proof (Hfun (sm_reg m1) (N.to_nat nb) st (mread (c_mem c) ssrc len)) as H. unfold routine in H.
    change {| sm_reg := sm_reg m1; sm_mem := mread (c_mem c) ssrc len; sm_src := 0; sm_state := st |} with m1 in H.
    specialize (H (proj1 (h_len _ _ _ _ _ _ _ _ _ _ R1)) Lst Wst (mread_bytes _ _ _ (proj2 (proj2 M)))).
    rewrite mread_length in H. specialize (H ltac:(unfold len; lia)).
    destruct (srun load m1) as [m2|]; [|discriminate]. cbn [bind] in H. destruct (sloop body (N.to_nat nb) m2) as [m3|] eqn:E3; [|discriminate]. cbn [bind] in H.
    destruct (srun store m3) as [m4|] eqn:E4; [|discriminate]. cbn [bind] in H. exists m2, m3, m4. repeat split; try assumption. congruence. }
  destruct Hr as (m2 & m3 & m4 & H2 & H3 & H4 & Hres).
  destruct (s_run s b cpuid scode (6 + nx) ns len FF sst ssrc (c_mem c1) P k_stest load 0 m1 c1 m2 R1 Ol ltac:(lia) H2) as (c2 & K2 & R2 & P2).
  rewrite Al in R2. change (0 + 0)%nat with 0%nat in R2.
  pose proof (spres_gok s b (6 + nx) ns len FF sst ssrc (c_mem c1) P _ _ _ _ R2 P2 (proj1 M1)) as G2.
  assert (Eb : c_gpr c2 (h_blocks b) = nb) by (rewrite (proj1 P2) by (destruct b; discriminate); exact (Arg 0%nat ltac:(lia))).
  set (c3 := set_gpr (set_zf c2 (c_gpr c2 (h_blocks b))) rax (c_gpr c2 (h_blocks b))).
  assert (G3 : gok c3) by (intros q; unfold c3; cbn [set_gpr set_zf c_gpr]; destruct (gpr_eq_dec q rax); apply G2).
  assert (O3 : forall q, q <> rax -> c_gpr c3 q = c_gpr c2 q) by (intros q Hq; unfold c3; rewrite (gset_other (set_zf c2 _)) by exact Hq; reflexivity).
  assert (Z3 : c_zf c3 = (nb =? 0)) by (unfold c3; cbn [set_gpr set_zf c_zf]; rewrite Eb; reflexivity).
  assert (R3 : srel b ns len FF sst ssrc (c_mem c1) 0 m2 c3) by (apply (srel_gpr b ns len FF sst ssrc (c_mem c1) 0 m2 c2 c3 R2); [reflexivity|reflexivity|exact O3]).
  assert (Lp : exists c4, reach s b cpuid scode (Jz blocks_loop_end :: Lab blocks_loop :: k_sloop body k_send) c3 (if nb =? 0 then [EvJump true] else EvJump false :: tl_loop sst ssrc body (pred (N.to_nat nb)) 0) k_store c4 /\
     srel b ns len FF sst ssrc (c_mem c1) len m3 c4 /\ gok c4 /\ (forall q, q <> rax -> q <> h_src b -> c_gpr c4 q = c_gpr c3 q) /\ (forall i, (6 + nx <= i)%nat -> c_ymm c4 i = c_ymm c3 i)).
  { destruct (N.eqb_spec nb 0) as [Hz|Hz].
    - exists c3. split; [|split; [|split; [exact G3|split; reflexivity]]].
      + apply reach_step. cbn [step]. rewrite Z3, GS_end. reflexivity.
      + rewrite Hz in H3. cbn [N.to_nat sloop] in H3. injection H3 as <-. assert (E0 : 0%nat = len) by (unfold len; rewrite Hz; reflexivity). pose proof R3 as Q. rewrite E0 in Q at 1. exact Q.
    - assert (En : N.to_nat nb = S (pred (N.to_nat nb))) by lia. rewrite En in H3.
      destruct (loop_run s b cpuid scode (6 + nx) ns len FF sst ssrc (c_mem c1) P body k_send Ob Ab GS_loop (pred (N.to_nat nb)) 0 m2 c3 m3 R3 G3) as (c4 & K4 & R4 & G4 & P4 & Y4).
      { unfold len. lia. } { unfold c3. rewrite gset_same, Eb. lia. } { exact H3. }
      exists c4. split; [|split; [|split; [exact G4|split; assumption]]].
      + eapply reach_ev; [cbn [step]; rewrite Z3; reflexivity|]. eapply reach_silent; [reflexivity|].
        rewrite <- (app_nil_r (tl_loop _ _ _ _ _)). eapply reach_trans; [exact K4|]. apply reach_step. reflexivity.
      + pose proof R4 as Q. replace (0 + 64 * S (pred (N.to_nat nb)))%nat with len in Q by (unfold len; lia). exact Q. }
  destruct Lp as (c4 & K4 & R4 & G4 & P4 & Y4).
  destruct (s_run s b cpuid scode (6 + nx) ns len FF sst ssrc (c_mem c1) P k_fin store len m3 c4 m4 R4 Os ltac:(lia) H4) as (c5 & K5 & R5 & P5).
  rewrite As, Nat.add_0_r in R5.
  pose proof (spres_gok s b (6 + nx) ns len FF sst ssrc (c_mem c1) P _ _ _ _ R5 P5 G4) as G5.
  assert (Q5 : forall q, q <> rax -> q <> h_src b -> c_gpr c5 q = c_gpr c1 q).
  { intros q H1 H1'. rewrite (proj1 P5) by exact H1'. rewrite P4 by assumption. rewrite O3 by exact H1. apply P2. exact H1'. }
  assert (Keep : forall x, FF <= x < RR + 8 -> c_mem c5 x = c_mem c1 x).
  { intros x Hx. apply (h_out _ _ _ _ _ _ _ _ _ _ R5). destruct (N.lt_ge_cases x sst); [left; assumption|]. destruct (N.lt_ge_cases x (sst + N.of_nat (4 * ns))); [|right; assumption].
    exfalso. pose proof (soff_out _ _ x A5 (conj H H0)) as Q. clear -Q Hx F1 Lo. lia. }
  destruct (sfin_runs c5) as (c6 & K6 & S6 & O6 & B6 & X6 & U6 & Z6).
  { exact (srel_machine b ns len FF sst ssrc (c_mem c1) _ _ _ R5 G5). }
  { apply (h_rsp _ _ _ _ _ _ _ _ _ _ R5). }
  { intros Hb. rewrite Q5 by (rewrite ?Hb; discriminate). apply B1. exact Hb. }
  { intros i Hi. rewrite (proj2 P5), Y4 by exact Hi. change (c_ymm c3) with (c_ymm c2). rewrite (proj2 P2) by exact Hi. rewrite Y1. reflexivity. }
  { intros Hb. rewrite <- (V1 Hb). f_equal. apply mread_ext. intros x Hx. apply Keep. unfold FF. rewrite Hb. lia. }
  { intros Hb i Hi. rewrite <- (V2 Hb i Hi). apply mread_ext. intros x Hx. apply Keep. unfold FF. rewrite Hb. lia. }
  { unfold return_address. fold RR. f_equal. apply mread_ext. intros x Hx. rewrite Keep by lia. apply U1. lia. }
  assert (Hin : forall q, In q (callee_saved b) -> q <> rsp /\ q <> rax /\ q <> h_src b).
  { clear. generalize b. intros b' q Hq. destruct b'; cbn in Hq; decompose [or] Hq; subst; try contradiction; repeat split; discriminate. }
  exists c6. split; [|split; [|split; [|split]]].
  - unfold calls, sha_trace. apply K1. apply K2. unfold k_stest. cbn [app]. eapply runs_silent; [reflexivity|]. eapply runs_silent; [reflexivity|].
    fold c3. apply K4. unfold k_store. apply K5. exact K6.
  - constructor; [reflexivity|exact S6| |].
    + intros q Hq. destruct (Hin q Hq) as (H1 & H1' & H1''). destruct b eqn:Eb'.
      * rewrite O6 by (try assumption; discriminate). rewrite Q5 by assumption. apply O1; [exact H1|discriminate].
      * destruct (gpr_eq_dec q rbp) as [->|Hb]; [apply B6; reflexivity|]. rewrite O6 by auto. rewrite Q5 by assumption. apply O1; auto.
    + intros i Hi. destruct b; [destruct Hi|]. apply Z6; [reflexivity|]. cbn in Hi. lia.
  - rewrite X6. rewrite Q5 by (destruct b; discriminate). exact (Arg 0%nat ltac:(lia)).
  - rewrite U6, <- le_words_blanes by apply mread_length. rewrite (h_st _ _ _ _ _ _ _ _ _ _ R5). destruct (h_len _ _ _ _ _ _ _ _ _ _ R5) as (_ & _ & W5).
    rewrite blanes_vbytes by exact W5. exact Hres.
  - intros x Hx1 Hx2. fold RR in Hx2. rewrite U6. rewrite (h_out _ _ _ _ _ _ _ _ _ _ R5) by exact Hx1. apply U1. exact Hx2.
Qed.
End Whole.

(** The two functions. *)
Definition sgoal s b cpuid (code : list ainstr) (nx ns : nat) load body store (comp : list N -> list N -> list N) : Prop := forall c, hash_call s b ns c -> exists c',
  calls s b cpuid code c (sha_trace b nx load body store (c_gpr c rsp) (argument b c 0) (argument b c 1) (argument b c 2)) (return_address c) c' /\
  returned b c (return_address c) c' /\ c_gpr c' rax = argument b c 0 /\
  le_words 4 ns (mread (c_mem c') (argument b c 1) (4 * ns)) =
    iter_blocks 64 (N.to_nat (argument b c 0)) comp (le_words 4 ns (mread (c_mem c) (argument b c 1) (4 * ns))) (mread (c_mem c) (argument b c 2) (64 * N.to_nat (argument b c 0))) /\
  only_changes c c' (argument b c 1) (N.of_nat (4 * ns)).
Lemma sha1_ok_l : forallb (ok_s (6 + 4)) sha1_load = true. Proof. vm_compute. reflexivity. Qed.
Lemma sha1_ok_b : forallb (ok_s (6 + 4)) sha1_body = true. Proof. vm_compute. reflexivity. Qed.
Lemma sha1_ok_s : forallb (ok_s (6 + 4)) sha1_store = true. Proof. vm_compute. reflexivity. Qed.
Lemma sha1_adv : p_adv sha1_load = 0%nat /\ p_adv sha1_body = 64%nat /\ p_adv sha1_store = 0%nat. Proof. vm_compute. auto. Qed.
Lemma sha2_ok_l : forallb (ok_s (6 + 5)) sha2_load = true. Proof. vm_compute. reflexivity. Qed.
Lemma sha2_ok_b : forallb (ok_s (6 + 5)) sha2_body = true. Proof. vm_compute. reflexivity. Qed.
Lemma sha2_ok_s : forallb (ok_s (6 + 5)) sha2_store = true. Proof. vm_compute. reflexivity. Qed.
Lemma sha2_adv : p_adv sha2_load = 0%nat /\ p_adv sha2_body = 64%nat /\ p_adv sha2_store = 0%nat. Proof. vm_compute. auto. Qed.
Lemma sha_1_160_ok s b cpuid : sgoal s b cpuid (sha_1_160_ni_blocks b) 4 5 sha1_load sha1_body sha1_store sha1_compress.
Proof.
  destruct sha1_adv as (A1 & A2 & A3). unfold sgoal, sha_1_160_ni_blocks.
  exact (swhole s b cpuid 4 5 sha1_load sha1_body sha1_store sha1_compress ltac:(lia) sha1_ok_l sha1_ok_b sha1_ok_s A1 A2 A3
    (fun junk n st src J L W B H => sha1_ni_blocks_spec junk n st src J B H L W)).
Qed.
Lemma sha_2_256_ok s b cpuid : sgoal s b cpuid (sha_2_256_ni_blocks b) 5 8 sha2_load sha2_body sha2_store (sha2_compress sha2_32).
Proof.
  destruct sha2_adv as (A1 & A2 & A3). unfold sgoal, sha_2_256_ni_blocks.
  exact (swhole s b cpuid 5 8 sha2_load sha2_body sha2_store (sha2_compress sha2_32) ltac:(lia) sha2_ok_l sha2_ok_b sha2_ok_s A1 A2 A3
    (fun junk n st src J L W B H => sha2_ni_blocks_spec junk n st src J B H L W)).
Qed.

(** The trace depends on the stack pointer and the arguments only. *)
Lemma sgoal_ct s b cpuid code nx ns load body store comp : sgoal s b cpuid code nx ns load body store comp -> forall c1 c2, hash_call s b ns c1 -> hash_call s b ns c2 ->
  c_gpr c1 rsp = c_gpr c2 rsp -> (forall i, (i < 3)%nat -> argument b c1 i = argument b c2 i) ->
  forall t1 ra1 c1' t2 ra2 c2', calls s b cpuid code c1 t1 ra1 c1' -> calls s b cpuid code c2 t2 ra2 c2' -> t1 = t2.
Proof.
  intros G c1 c2 C1 C2 Es Ea t1 ra1 c1' t2 ra2 c2' H1 H2.
  destruct (G c1 C1) as (d1 & K1 & _). destruct (G c2 C2) as (d2 & K2 & _).
  destruct (runs_det _ _ _ _ _ _ _ _ _ H1 _ _ _ K1) as (-> & _). destruct (runs_det _ _ _ _ _ _ _ _ _ H2 _ _ _ K2) as (-> & _).
  rewrite Es, !Ea by lia. reflexivity.
Qed.
