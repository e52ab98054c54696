(** The ChaCha functions: the loops. *)
From Verif Require Import Base BaseLemmas Spec_Bytes Model_Memory BytesLemmas Model_X86 Model_ChaChaAsm Model_ShaAsm Model_Asm Spec_Abi Spec_Range Proof_Range Proof_X86Sym Proof_ChaChaAsm Proof_Asm Proof_AsmX Proof_AsmFrame.
Local Open Scope N_scope.

(** *** Labels *)
Lemma goto_VI w l rest : forall p, goto (map (VI w) p ++ rest) l = goto rest l.
Proof. induction p as [|i p IH]; [reflexivity|exact IH]. Qed.
Definition no_lab (i : ainstr) : bool := match i with Lab _ => false | _ => true end.
Lemma goto_nolab l rest : forall p, forallb no_lab p = true -> goto (p ++ rest) l = goto rest l.
Proof.
  induction p as [|i p IH]; intros H; [reflexivity|]. cbn [forallb] in H. apply andb_prop in H. destruct H as [Hi Hp].
  destruct i; cbn [app goto]; try (apply IH; exact Hp). discriminate.
Qed.

Lemma flat_map_same {A B} (f g : A -> list B) l : (forall x, In x l -> f x = g x) -> flat_map f l = flat_map g l.
Proof.
  induction l as [|x l IH]; intros H; [reflexivity|]. cbn [flat_map]. rewrite (H x) by (left; reflexivity). f_equal. apply IH.
  intros y Hy. apply H. right. exact Hy.
Qed.
Definition gok (c : cpu) : Prop := forall q, c_gpr c q < 2 ^ 64.

Section Loops.
Variables (s : space) (b : abi) (cpuid : cpuid_fun) (w : nat) (tr : bool) (core : list instr) (epi : list ainstr) (code : list ainstr).
Variables (R0 F ST D0 S0 : N) (n src0 L : nat) (phi : nat -> N) (m0 : N -> N) (rounds : N).
Hypothesis Hw : width w.
Hypothesis P : places s w tr R0 F ST D0 S0 n src0 L phi.
Hypothesis Hcore : forallb (ok_instr w tr) core = true.
Hypothesis Hrd : rounds <> 0.
Hypothesis Hr64 : rounds < 2 ^ 64.
Notation rel := (rel b w tr F ST D0 S0 n src0 L phi m0).
Notation reach := (reach s b cpuid code).

Definition adv : list instr := AddDst (16 * w) :: if tr then [AddSrc (16 * w)] else [].
Definition k_end : list ainstr := Lab blocks_loop_end :: epi.
Definition k_tail : list ainstr := [SubI g_blocks_cnt 1; Jnz blocks_loop] ++ k_end.
Definition k_body : list ainstr := map (VI w) (core ++ adv) ++ k_tail.
Definition k_rounds : list ainstr := map (VI w) (double_round w) ++ [SubI g_rounds_cnt 1; Jnz rounds_loop] ++ k_body.
Definition k_first : list ainstr := [Lab blocks_loop_first; MovRR g_rounds_cnt (g_rounds b); Lab rounds_loop] ++ k_rounds.
Definition k_loop : list ainstr := map (VI w) reload ++ k_first.
Hypothesis G1 : goto code rounds_loop = Some k_rounds.
Hypothesis G2 : goto code blocks_loop = Some k_loop.

(** The registers that addresses are computed from. *)
Definition canon (t : nat) : gpr -> N := fun q =>
  if gpr_eq_dec q rsp then F else if gpr_eq_dec q (g_state b) then ST else if gpr_eq_dec q (g_dst b) then D0 + N.of_nat t else
  if gpr_eq_dec q (g_src b) then S0 + N.of_nat t else 0.
Definition tat (t : nat) (p : list instr) : list event := ptrace b w (canon t) p.

Lemma ok_src_events g h o k : ok_src w tr o = true -> g rsp = h rsp -> g (g_state b) = h (g_state b) -> (tr = true -> g (g_src b) = h (g_src b)) ->
  ev_rd b w k (with_gpr g) o = ev_rd b w k (with_gpr h) o.
Proof.
  intros Ho H1 H2 H3. unfold ev_rd, opd_ea, ea. destruct o as [i|i|i|v|off|off|i]; cbn [mem_opd fst snd with_gpr c_gpr]; try reflexivity.
  - rewrite H1. reflexivity.
  - rewrite H1. reflexivity.
  - cbn [ok_src] in Ho. apply andb_prop in Ho. rewrite H3 by apply Ho. reflexivity.
  - discriminate.
  - rewrite H2. reflexivity.
Qed.
Lemma ok_dst_events g h o k : ok_dst w o = true -> g rsp = h rsp -> g (g_dst b) = h (g_dst b) ->
  ev_wr b w k (with_gpr g) o = ev_wr b w k (with_gpr h) o.
Proof.
  intros Ho H1 H2. unfold ev_wr, opd_ea, ea. destruct o as [i|i|i|v|off|off|i]; cbn [mem_opd fst snd with_gpr c_gpr]; try reflexivity; try discriminate.
  - rewrite H1. reflexivity.
  - rewrite H1. reflexivity.
  - rewrite H2. reflexivity.
Qed.
Lemma ptrace_ext g h p : forallb (ok_instr w tr) p = true -> g rsp = h rsp -> g (g_state b) = h (g_state b) -> g (g_dst b) = h (g_dst b) ->
  (tr = true -> g (g_src b) = h (g_src b)) -> ptrace b w g p = ptrace b w h p.
Proof.
  intros Ho H1 H2 H3 H4. unfold ptrace. apply flat_map_same. intros i Hi. pose proof (proj1 (forallb_forall _ _) Ho i Hi) as Q.
  destruct i as [al d o|o d a y|d a k|d a k|d a mask|d a imm|d a y imm|d o|k|k]; cbn [xevents]; try reflexivity; cbn [ok_instr] in Q.
  - apply andb_prop in Q. destruct Q as [Q _]. apply andb_prop in Q. destruct Q as [Qd Qs].
    rewrite (ok_src_events g h) by assumption. rewrite (ok_dst_events g h) by assumption. reflexivity.
  - apply andb_prop in Q. destruct Q as [_ Q]. apply ok_src_events; assumption.
  - destruct o; try discriminate. unfold ev_rd, opd_ea, ea. cbn [mem_opd fst snd with_gpr c_gpr]. rewrite H2. reflexivity.
Qed.
Lemma ne_rsp_state : rsp <> g_state b. Proof. destruct b; discriminate. Qed.
Lemma ptrace_rel t m c p : rel t m c -> forallb (ok_instr w tr) p = true -> ptrace b w (c_gpr c) p = tat t p.
Proof.
  intros R Ho. apply ptrace_ext; [exact Ho|..]; unfold canon.
  - rewrite (r_rsp _ _ _ _ _ _ _ _ _ _ _ _ _ _ _ R). reflexivity.
  - rewrite (r_st _ _ _ _ _ _ _ _ _ _ _ _ _ _ _ R). destruct b; reflexivity.
  - rewrite (proj1 (r_dst _ _ _ _ _ _ _ _ _ _ _ _ _ _ _ R)). destruct b; reflexivity.
  - intros Ht. rewrite (proj1 (r_src _ _ _ _ _ _ _ _ _ _ _ _ _ _ _ R Ht)). destruct b; reflexivity.
Qed.

(** Registers that may change without breaking the relation. *)
Lemma rel_gpr t m c c' : rel t m c -> c_ymm c' = c_ymm c -> c_mem c' = c_mem c ->
  (forall q, q = rsp \/ q = g_state b \/ q = g_dst b \/ q = g_src b -> c_gpr c' q = c_gpr c q) -> rel t m c'.
Proof.
  intros R Y M G. destruct R as [A1 A2 A3 A4 A5 A6 A7 A8 A9 A10 A11 A12 A13].
  constructor; try rewrite Y; try rewrite M; try (intros; rewrite ?Y, ?M; auto; fail); try rewrite !G by auto; auto.
Qed.

Lemma block_run t p m c m' rest : rel t m c -> (t + 16 * w <= n)%nat -> forallb (ok_instr w tr) p = true -> run w p m = Some m' ->
  exists c', reach (map (VI w) p ++ rest) c (tat t p) rest c' /\ rel t m' c' /\ c_gpr c' = c_gpr c.
Proof.
  intros R Ht Ho Hr. destruct (sim_run s b w tr R0 F ST D0 S0 n src0 L phi m0 Hw P code cpuid t p m c m' R Ht Ho Hr) as (c' & R' & G & K).
  exists c'. split; [|split; assumption]. rewrite <- (ptrace_rel _ _ _ _ R Ho). intros tk ra cf H. apply K. exact H.
Qed.

(** Moving the pointers on. *)
Definition pres (l : list gpr) (c c' : cpu) : Prop := forall q, ~ In q l -> c_gpr c' q = c_gpr c q.
Lemma adv_run t m c m' rest : rel t m c -> (t + 16 * w <= n)%nat -> run w adv m = Some m' ->
  exists c', reach (map (VI w) adv ++ rest) c [] rest c' /\ rel (t + 16 * w) m' c' /\ (gok c -> gok c') /\ pres [g_dst b; g_src b] c c'.
Proof.
  intros R Ht Hr. pose proof (p_d _ _ _ _ _ _ _ _ _ _ _ _ P) as Pd. destruct (r_dst _ _ _ _ _ _ _ _ _ _ _ _ _ _ _ R) as [Gd Md].
  pose proof R as R'. destruct R' as [A1 A2 A3 A4 A5 A6 A7 A8 A9 A10 A11 A12 A13].
  assert (Vd : (c_gpr c (g_dst b) + N.of_nat (16 * w)) mod 2 ^ 64 = D0 + N.of_nat (t + 16 * w)) by (rewrite Gd, N.mod_small by lia; lia).
  unfold adv in *. destruct tr eqn:Etr.
  - pose proof (p_s _ _ _ _ _ _ _ _ _ _ _ _ P eq_refl) as Ps. destruct (A12 eq_refl) as [Gs Ms].
    assert (Hne : g_src b <> g_dst b) by (destruct b; discriminate).
    cbn [run] in Hr. unfold exec in Hr. cbn [may_fault bind] in Hr. injection Hr as <-. cbn [map app].
    set (c1 := add_gpr c (g_dst b) (N.of_nat (16 * w))). set (c2 := add_gpr c1 (g_src b) (N.of_nat (16 * w))).
    assert (H1 : c_gpr c1 (g_dst b) = D0 + N.of_nat (t + 16 * w)) by (unfold c1, add_gpr; cbn [set_zf c_gpr]; rewrite (gset_same c); exact Vd).
    assert (H2 : forall q, q <> g_dst b -> c_gpr c1 q = c_gpr c q) by (intros q Hq; unfold c1, add_gpr; cbn [set_zf c_gpr]; apply (gset_other c); exact Hq).
    assert (H3 : c_gpr c2 (g_src b) = S0 + N.of_nat (t + 16 * w)).
    { unfold c2, add_gpr; cbn [set_zf c_gpr]; rewrite (gset_same c1). rewrite H2 by exact Hne. rewrite Gs, N.mod_small by lia; lia. }
    assert (H4 : forall q, q <> g_src b -> c_gpr c2 q = c_gpr c1 q) by (intros q Hq; unfold c2, add_gpr; cbn [set_zf c_gpr]; apply (gset_other c1); exact Hq).
    exists c2. split; [|split; [|split]].
    + eapply reach_silent; [reflexivity|]. apply reach_step. reflexivity.
    + constructor; unfold with_ptr; cbn [mc_reg mc_tmp mc_base mc_mem mc_dst mc_src mc_state]; auto.
      * rewrite H4, H2 by (destruct b; discriminate). exact A9.
      * rewrite H4, H2 by (destruct b; discriminate). exact A10.
      * split; [|lia]. rewrite H4 by congruence. exact H1.
      * intros _. split; [exact H3|]. lia.
    + intros G q. destruct (gpr_eq_dec q (g_src b)) as [->|N1]; [rewrite H3; lia|]. rewrite H4 by exact N1.
      destruct (gpr_eq_dec q (g_dst b)) as [->|N2]; [rewrite H1; lia|]. rewrite H2 by exact N2. apply G.
    + intros q Hq. cbn [In] in Hq. rewrite H4, H2 by (intros E; apply Hq; subst q; auto). reflexivity.
  - cbn [run] in Hr. unfold exec in Hr. cbn [may_fault bind] in Hr. injection Hr as <-. cbn [map app].
    set (c1 := add_gpr c (g_dst b) (N.of_nat (16 * w))).
    assert (H1 : c_gpr c1 (g_dst b) = D0 + N.of_nat (t + 16 * w)) by (unfold c1, add_gpr; cbn [set_zf c_gpr]; rewrite (gset_same c); exact Vd).
    assert (H2 : forall q, q <> g_dst b -> c_gpr c1 q = c_gpr c q) by (intros q Hq; unfold c1, add_gpr; cbn [set_zf c_gpr]; apply (gset_other c); exact Hq).
    exists c1. split; [|split; [|split]].
    + apply reach_step. reflexivity.
    + constructor; unfold with_ptr; cbn [mc_reg mc_tmp mc_base mc_mem mc_dst mc_src mc_state]; auto.
      * rewrite H2 by (destruct b; discriminate). exact A9.
      * rewrite H2 by (destruct b; discriminate). exact A10.
      * discriminate.
    + intros G q. destruct (gpr_eq_dec q (g_dst b)) as [->|N2]; [rewrite H1; lia|]. rewrite H2 by exact N2. apply G.
    + intros q Hq. cbn [In] in Hq. rewrite H2 by (intros E; apply Hq; subst q; auto). reflexivity.
Qed.

(** The rounds. *)
Lemma double_ok : forallb (ok_instr w tr) (double_round w) = true.
Proof. destruct Hw as [-> | ->], tr; vm_compute; reflexivity. Qed.
Lemma reload_ok : forallb (ok_instr w tr) reload = true.
Proof. destruct Hw as [-> | ->], tr; vm_compute; reflexivity. Qed.
Lemma init_ok : forallb (ok_instr w tr) (blocks_init w) = true.
Proof. destruct Hw as [-> | ->], tr; vm_compute; reflexivity. Qed.

Fixpoint trounds (j : nat) : list event :=
  match j with O => tat 0 (double_round w) ++ [EvJump false] | S j => tat 0 (double_round w) ++ [EvJump true] ++ trounds j end.
Definition no_ptr (i : instr) : bool :=
  match i with
  | Mov _ d o => match d with Dst _ | Src _ | Sta _ => false | _ => true end && match o with Dst _ | Src _ | Sta _ => false | _ => true end
  | Op3 _ _ _ o | Bcast _ o => match o with Dst _ | Src _ | Sta _ => false | _ => true end
  | _ => true
  end.
Lemma tat_no_ptr t p : forallb no_ptr p = true -> tat t p = tat 0 p.
Proof.
  intros Ho. unfold tat, ptrace. apply flat_map_same. intros i Hi. pose proof (proj1 (forallb_forall _ _) Ho i Hi) as Q.
  destruct i as [al d o|o d a y|d a k|d a k|d a mask|d a imm|d a y imm|d o|k|k]; cbn [xevents]; try reflexivity; cbn [no_ptr] in Q.
  - apply andb_prop in Q. destruct Q as [Qd Qs]. destruct d, o; try discriminate; reflexivity.
  - destruct y; try discriminate; reflexivity.
  - destruct o; try discriminate; reflexivity.
Qed.
Lemma tat_double t : tat t (double_round w) = tat 0 (double_round w).
Proof. apply tat_no_ptr. destruct Hw as [-> | ->]; vm_compute; reflexivity. Qed.

Lemma rel_machine t m c : rel t m c -> gok c -> machine c.
Proof. intros R G. split; [exact G|]. split; [intros i; apply (r_ymm _ _ _ _ _ _ _ _ _ _ _ _ _ _ _ R)|apply (r_bytes _ _ _ _ _ _ _ _ _ _ _ _ _ _ _ R)]. Qed.
Lemma pres_gok_same c c' : c_gpr c' = c_gpr c -> gok c -> gok c'.
Proof. intros E G q. rewrite E. apply G. Qed.
Lemma rbx_free q : q = rsp \/ q = g_state b \/ q = g_dst b \/ q = g_src b -> q <> rbx /\ q <> rax.
Proof. intros H. destruct b; cbn in H; decompose [or] H; subst q; split; discriminate. Qed.

Lemma rounds_run t : (t + 16 * w <= n)%nat -> forall j m c m', rel t m c -> gok c -> c_gpr c rbx = N.of_nat (S j) ->
  repeat_run w (double_round w) (S j) m = Some m' ->
  exists c', reach k_rounds c (trounds j) k_body c' /\ rel t m' c' /\ gok c' /\ pres [rbx] c c'.
Proof.
  intros Ht. induction j as [|j IH]; intros m c m' R G Hx Hr.
  - cbn [repeat_run] in Hr. destruct (run w (double_round w) m) as [m1|] eqn:E; [|discriminate]. cbn [bind] in Hr. injection Hr as <-.
    destruct (block_run t _ m c m1 ([SubI g_rounds_cnt 1; Jnz rounds_loop] ++ k_body) R Ht double_ok E) as (c1 & K1 & R1 & E1).
    rewrite tat_double in K1. assert (Gc1 : gok c1) by (apply (pres_gok_same _ _ E1 G)).
    destruct (sub_reach s b cpuid code rbx 1 ([Jnz rounds_loop] ++ k_body) c1 (rel_machine _ _ _ R1 Gc1)) as (c2 & K2 & V2 & O2 & Y2 & M2 & U2 & Z2).
    { rewrite E1, Hx. lia. }
    rewrite E1, Hx in V2, Z2. change (N.of_nat 1 - 1) with 0 in *. change (0 =? 0) with true in Z2.
    exists c2. split; [|split; [|split]].
    + eapply reach_trans; [exact K1|]. change [EvJump false] with ([] ++ [EvJump false]). eapply reach_trans; [exact K2|].
      apply reach_step. cbn [step app]. rewrite Z2. reflexivity.
    + eapply rel_gpr; [exact R1|exact Y2|exact U2|]. intros q Hq. apply O2. apply rbx_free. exact Hq.
    + exact (proj1 M2).
    + intros q Hq. rewrite O2 by (intros ->; apply Hq; left; reflexivity). rewrite E1. reflexivity.
  - cbn [repeat_run] in Hr. destruct (run w (double_round w) m) as [m1|] eqn:E; [|discriminate]. cbn [bind] in Hr.
    destruct (block_run t _ m c m1 ([SubI g_rounds_cnt 1; Jnz rounds_loop] ++ k_body) R Ht double_ok E) as (c1 & K1 & R1 & E1).
    rewrite tat_double in K1. assert (Gc1 : gok c1) by (apply (pres_gok_same _ _ E1 G)).
    destruct (sub_reach s b cpuid code rbx 1 ([Jnz rounds_loop] ++ k_body) c1 (rel_machine _ _ _ R1 Gc1)) as (c2 & K2 & V2 & O2 & Y2 & M2 & U2 & Z2).
    { rewrite E1, Hx. lia. }
    rewrite E1, Hx in V2, Z2. replace (N.of_nat (S (S j)) - 1) with (N.of_nat (S j)) in * by lia.
    assert (Z2' : c_zf c2 = false) by (rewrite Z2; apply N.eqb_neq; lia).
    destruct (IH m1 c2 m') as (c' & K' & R' & G' & P'); [|exact (proj1 M2)|exact V2|exact Hr|].
    { eapply rel_gpr; [exact R1|exact Y2|exact U2|]. intros q Hq. apply O2. apply rbx_free. exact Hq. }
    exists c'. split; [|split; [|split]]; try assumption.
    + cbn [trounds]. eapply reach_trans; [exact K1|]. eapply (reach_trans _ _ _ _ _ _ [] _ _ _ _ _ K2).
      eapply reach_ev; [|exact K']. cbn [step app]. rewrite Z2'. unfold jump. rewrite G1. reflexivity.
    + intros q Hq. rewrite P' by exact Hq. rewrite O2 by (intros ->; apply Hq; left; reflexivity). rewrite E1. reflexivity.
Qed.

(** A block. *)
Definition tblock (t : nat) : list event := trounds (pred (N.to_nat rounds)) ++ tat t core.
Lemma run_bind p q m m' : run w (p ++ q) m = Some m' -> exists m1, run w p m = Some m1 /\ run w q m1 = Some m'.
Proof. intros H. rewrite run_app in H. destruct (run w p m) as [m1|]; [|discriminate]. exists m1. split; [reflexivity|exact H]. Qed.
Lemma block_reach t m c m' : (t + 16 * w <= n)%nat -> rel t m c -> gok c -> c_gpr c (g_rounds b) = rounds ->
  one_block w (core ++ adv) rounds m = Some m' ->
  exists c', reach k_first c (tblock t) k_tail c' /\ rel (t + 16 * w) m' c' /\ gok c' /\ pres [rbx; g_dst b; g_src b] c c'.
Proof.
  intros Ht R G Hg H. unfold one_block in H. destruct (repeat_run w (double_round w) (times rounds) m) as [m1|] eqn:E1; [|discriminate]. cbn [bind] in H.
  assert (Et : times rounds = S (pred (N.to_nat rounds))) by (unfold times; destruct (N.eqb_spec rounds 0); lia).
  rewrite Et in E1. destruct (run_bind _ _ _ _ H) as (m2 & E2 & E3).
  destruct (movrr_reach s b cpuid code rbx (g_rounds b) (Lab rounds_loop :: k_rounds) c (rel_machine _ _ _ R G)) as (c0 & K0 & V0 & O0 & Y0 & M0 & U0 & _).
  assert (Rc0 : rel t m c0). { eapply rel_gpr; [exact R|exact Y0|exact U0|]. intros q Hq. apply O0. apply rbx_free. exact Hq. }
  destruct (rounds_run t Ht (pred (N.to_nat rounds)) m c0 m1 Rc0 (proj1 M0)) as (c1 & K1 & R1 & Gk1 & P1); [rewrite V0, Hg; lia|exact E1|].
  destruct (block_run t core m1 c1 m2 (map (VI w) adv ++ k_tail) R1 Ht Hcore E2) as (c2 & K2 & R2 & Q2).
  destruct (adv_run t m2 c2 m' k_tail R2 Ht E3) as (c3 & K3 & R3 & Gk3 & P3).
  exists c3. split; [|split; [|split]].
  - unfold k_first, tblock. cbn [app]. 
    eapply reach_silent; [reflexivity|]. apply (reach_trans s b cpuid code _ _ [] _ _ _ _ _ K0).
    eapply reach_silent; [reflexivity|]. eapply reach_trans; [exact K1|].
    unfold k_body. rewrite map_app, <- app_assoc. rewrite <- (app_nil_r (tat t core)). eapply reach_trans; [exact K2|exact K3].
  - exact R3.
  - apply Gk3. apply (pres_gok_same _ _ Q2 Gk1).
  - intros q Hq. cbn [In] in Hq. rewrite P3 by (cbn [In]; tauto). rewrite Q2. rewrite P1 by (cbn [In]; tauto). apply O0. intros ->. tauto.
Qed.

(** The blocks after the first. *)
Fixpoint tmore (j t : nat) : list event :=
  match j with O => [EvJump false] | S j => [EvJump true] ++ tat t reload ++ tblock t ++ tmore j (t + 16 * w) end.
Lemma more_reach : forall j t m c m', (t + j * (16 * w) <= n)%nat -> rel t m c -> gok c -> c_gpr c (g_rounds b) = rounds -> c_gpr c rax = N.of_nat (S j) ->
  more_blocks w (core ++ adv) rounds j m = Some m' ->
  exists c', reach k_tail c (tmore j t) k_end c' /\ rel (t + j * (16 * w)) m' c' /\ gok c' /\ pres [rax; rbx; g_dst b; g_src b] c c'.
Proof.
  induction j as [|j IH]; intros t m c m' Ht R G Hg Hx H.
  - cbn [more_blocks] in H. injection H as <-.
    destruct (sub_reach s b cpuid code rax 1 ([Jnz blocks_loop] ++ k_end) c (rel_machine _ _ _ R G)) as (c2 & K2 & V2 & O2 & Y2 & M2 & U2 & Z2).
    { rewrite Hx. lia. }
    rewrite Hx in V2, Z2. change (N.of_nat 1 - 1) with 0 in *. change (0 =? 0) with true in Z2.
    exists c2. split; [|split; [|split]].
    + unfold k_tail, tmore. apply (reach_trans _ _ _ _ _ _ [] _ _ _ _ _ K2). apply reach_step. cbn [step app]. rewrite Z2. reflexivity.
    + rewrite Nat.mul_0_l, Nat.add_0_r. eapply rel_gpr; [exact R|exact Y2|exact U2|]. intros q Hq. apply O2. apply rbx_free. exact Hq.
    + exact (proj1 M2).
    + intros q Hq. apply O2. intros ->. apply Hq. left. reflexivity.
  - cbn [more_blocks] in H. destruct (run w reload m) as [m1|] eqn:E1; [|discriminate]. cbn [bind] in H.
    destruct (one_block w (core ++ adv) rounds m1) as [m2|] eqn:E2; [|discriminate]. cbn [bind] in H.
    destruct (sub_reach s b cpuid code rax 1 ([Jnz blocks_loop] ++ k_end) c (rel_machine _ _ _ R G)) as (c2 & K2 & V2 & O2 & Y2 & M2 & U2 & Z2).
    { rewrite Hx. lia. }
    rewrite Hx in V2, Z2. replace (N.of_nat (S (S j)) - 1) with (N.of_nat (S j)) in * by lia.
    assert (Z2' : c_zf c2 = false) by (rewrite Z2; apply N.eqb_neq; lia).
    assert (Rc2 : rel t m c2). { eapply rel_gpr; [exact R|exact Y2|exact U2|]. intros q Hq. apply O2. apply rbx_free. exact Hq. }
    assert (Ht1 : (t + 16 * w <= n)%nat) by lia.
    destruct (block_run t reload m c2 m1 k_first Rc2 Ht1 reload_ok E1) as (c3 & K3 & R3 & Q3).
    assert (G3 : gok c3) by (apply (pres_gok_same _ _ Q3); exact (proj1 M2)).
    destruct (block_reach t m1 c3 m2 Ht1 R3 G3) as (c4 & K4 & R4 & G4 & P4); [rewrite Q3, O2 by (destruct b; discriminate); exact Hg|exact E2|].
    destruct (IH (t + 16 * w)%nat m2 c4 m') as (c5 & K5 & R5 & G5 & P5); [lia|exact R4|exact G4|..].
    { rewrite P4, Q3, O2 by (destruct b; cbn; intuition discriminate). exact Hg. }
    { rewrite P4 by (destruct b; cbn; intuition discriminate). rewrite Q3. exact V2. }
    { exact H. }
    exists c5. split; [|split; [|split]].
    + cbn [tmore]. apply (reach_trans _ _ _ _ _ _ [] _ _ _ _ _ K2). eapply reach_ev; [cbn [step app]; rewrite Z2'; unfold jump; rewrite G2; reflexivity|].
      unfold k_loop. eapply reach_trans; [exact K3|]. eapply reach_trans; [exact K4|exact K5].
    + replace (t + S j * (16 * w))%nat with (t + 16 * w + j * (16 * w))%nat by lia. exact R5.
    + exact G5.
    + intros q Hq. rewrite P5 by exact Hq. cbn [In] in Hq. rewrite P4 by (cbn [In]; tauto). rewrite Q3. apply O2. intros ->. tauto.
Qed.
End Loops.
