(** The instructions of the SHA routines on the address-level machine do the same as on the machine of Model_ShaAsm. *)
From Verif Require Import Base BaseLemmas Spec_Bytes Model_Memory BytesLemmas Spec_Sha Proof_ShaCore Model_X86 Model_ChaChaAsm Model_ShaAsm Model_Asm Spec_Abi Spec_Range Proof_Range Proof_X86Sym Proof_ChaChaAsm Proof_ShaAsm Proof_Asm Proof_AsmX Proof_AsmFrame.
Local Open Scope N_scope.

(** *** Results are vectors. *)
Lemma rol32_lt n x : n <= 32 -> x < 2 ^ 32 -> Model_ShaAsm.rol32 n x < 2 ^ 32.
Proof. intros H L. rewrite rol_ROTL by exact H. apply ROTL_lt; assumption. Qed.
Lemma lane_lt i v : vok 4 v -> Model_ShaAsm.lane i v < 2 ^ 32.
Proof.
  intros [L W]. unfold Model_ShaAsm.lane. destruct (Nat.lt_ge_cases i (length v)) as [H|H].
  - exact (proj1 (Forall_forall _ _) W _ (nth_In v 0 H)).
  - rewrite nth_overflow by exact H. reflexivity.
Qed.
Lemma mod32_lt x : x mod 2 ^ 32 < 2 ^ 32.
Proof. apply N.mod_lt. discriminate. Qed.
Lemma lxor32 x y : x < 2 ^ 32 -> y < 2 ^ 32 -> N.lxor x y < 2 ^ 32.
Proof. apply lxor_lt. Qed.
Lemma vok4 a b c d : a < 2 ^ 32 -> b < 2 ^ 32 -> c < 2 ^ 32 -> d < 2 ^ 32 -> vok 4 [a; b; c; d].
Proof. intros. split; [reflexivity|]. repeat constructor; assumption. Qed.
Ltac w32 := repeat first [ apply mod32_lt | apply rol32_lt; [discriminate|] | apply lxor32 | apply lane_lt; assumption ].
Lemma sha1rnds4_ok k a x : vok 4 a -> vok 4 x -> vok 4 (sha1rnds4 k a x).
Proof. intros Ha Hx. unfold sha1rnds4. destruct (sha1_fk (k mod 4)) as [f K]. cbv zeta. apply vok4; w32. Qed.
Lemma sha1nexte_ok a x : vok 4 a -> vok 4 x -> vok 4 (sha1nexte a x).
Proof. intros Ha Hx. apply vok4; w32. Qed.
Lemma sha1msg1_ok a x : vok 4 a -> vok 4 x -> vok 4 (sha1msg1 a x).
Proof. intros Ha Hx. apply vok4; w32. Qed.
Lemma sha1msg2_ok a x : vok 4 a -> vok 4 x -> vok 4 (sha1msg2 a x).
Proof. intros Ha Hx. unfold sha1msg2. cbv zeta. apply vok4; w32. Qed.
Lemma sha256rnds2_ok a x y : vok 4 a -> vok 4 x -> vok 4 (sha256rnds2 a x y).
Proof. intros Ha Hx. unfold sha256rnds2, sha256_step. cbv zeta. apply vok4; w32. Qed.
Lemma sha256msg1_ok a x : vok 4 a -> vok 4 x -> vok 4 (sha256msg1 a x).
Proof. intros Ha Hx. apply vok4; w32. Qed.
Lemma sha256msg2_ok a x : vok 4 a -> vok 4 x -> vok 4 (sha256msg2 a x).
Proof. intros Ha Hx. unfold sha256msg2. cbv zeta. apply vok4; w32. Qed.
Lemma sop_ok o a x : vok 4 a -> vok 4 x -> vok 4 (sop_fun o a x).
Proof.
  intros Ha Hx. destruct o; cbn [sop_fun]; [apply paddd_ok|apply pxor_ok|apply sha1nexte_ok|apply sha1msg1_ok|apply sha1msg2_ok|apply sha256msg1_ok|apply sha256msg2_ok]; assumption.
Qed.
Lemma words_repeat0 k : words 32 (repeat 0 k).
Proof. apply Forall_forall. intros x Hx. apply repeat_spec in Hx. subst x. reflexivity. Qed.
Lemma pslldq_ok k a : vok 4 a -> vok 4 (pslldq k a).
Proof.
  intros [L W]. unfold pslldq. split; [rewrite firstn_length, app_length; unfold vec in *; lia|].
  apply Forall_fs. apply Forall_app. split; [apply words_repeat0|exact W].
Qed.
Lemma psrldq_ok k a : vok 4 a -> vok 4 (psrldq k a).
Proof.
  intros [L W]. unfold psrldq. split; [rewrite firstn_length, app_length, repeat_length; lia|].
  apply Forall_fs. apply Forall_app. split; [apply Forall_fs; exact W|apply words_repeat0].
Qed.
Lemma palignr_ok k a x : (k <= 16)%nat -> vok 4 a -> vok 4 x -> vok 4 (palignr k a x).
Proof.
  intros Hk [La Wa] [Lx Wx]. unfold palignr. assert (k / 4 <= 4)%nat by (apply Nat.div_le_upper_bound; lia). split.
  - rewrite firstn_length, skipn_length, app_length. unfold vec in *. lia.
  - apply Forall_fs. apply Forall_fs. apply Forall_app. split; assumption.
Qed.
Lemma punpck_ok a x : vok 4 a -> vok 4 x -> vok 4 (punpcklqdq a x) /\ vok 4 (punpckhqdq a x).
Proof.
  intros Ha Hx. split; (apply per128_ok; [left; reflexivity| |exact Ha|exact Hx]; intros; split; [reflexivity|cbn; tauto]).
Qed.

Lemma vok8_low v : vok 8 v -> vok 4 (firstn 4 v).
Proof. intros [Lv Wv]. split; [rewrite firstn_length; unfold vec in *; lia|]. apply Forall_fs. exact Wv. Qed.

(** *** Programs that only use registers below [top] and constants of the right size. *)
Definition vok4_b (v : vec) : bool := (length v =? 4)%nat && forallb (fun x => x <? 2 ^ 32) v.
Definition ok_s (top : nat) (i : sinstr) : bool :=
  match i with
  | MovC d l => (d <? top)%nat && (length l =? 16)%nat && forallb (fun x => x <? 256) l
  | PadddC d v => (d <? top)%nat && vok4_b v
  | Palignr d _ k => (d <? top)%nat && (k <=? 16)%nat
  | Movdqa d _ | MovSrc d _ | MovSt d _ | MovdSt d _ | Sop _ d _ | Pshufb d _ | Pshufd d _ _ | Pslldq d _ | Psrldq d _
  | Rnds4 d _ _ | Rnds2 d _ | Vpunpcklqdq d _ _ | Vpunpckhqdq d _ _ => (d <? top)%nat
  | StMov _ _ | StMovd _ _ | AddSource _ => true
  end.
Definition s_adv (i : sinstr) : nat := match i with AddSource k => k | _ => 0 end.
Fixpoint p_adv (p : list sinstr) : nat := match p with [] => 0 | i :: p => s_adv i + p_adv p end.

Section Sim.
Variables (s : space) (b : abi) (top ns len : nat) (F ST SRC : N) (m0 : N -> N).
(** [ns] words of state at [ST], [len] bytes of source at [SRC]. *)
Record splaces : Prop := {
  q_st : ST + N.of_nat (4 * ns) < 2 ^ 64;
  q_st_rd : forall x, ST <= x < ST + N.of_nat (4 * ns) -> sp_rd s x = true /\ sp_wr s x = true;
  q_st_out : forall x, ST <= x < ST + N.of_nat (4 * ns) -> x < sp_low s \/ F <= x;
  q_src : SRC + N.of_nat len < 2 ^ 64;
  q_src_rd : forall x, SRC <= x < SRC + N.of_nat len -> sp_rd s x = true;
  q_src_out : forall x, SRC <= x < SRC + N.of_nat len -> x < sp_low s \/ F <= x;
  q_dis : disjoint ST (N.of_nat (4 * ns)) SRC (N.of_nat len) }.
Hypothesis P : splaces.

Record srel (t : nat) (m : smach) (c : cpu) : Prop := {
  h_len : length (sm_reg m) = 16%nat /\ length (sm_state m) = ns /\ words 32 (sm_state m);
  h_reg : forall i, (i < 16)%nat -> nth_error (sm_reg m) i = Some (firstn 4 (c_ymm c i));
  h_ymm : forall i, vok 8 (c_ymm c i);
  h_bytes : forall x, is_byte (c_mem c x);
  h_st : mread (c_mem c) ST (4 * ns) = vbytes (sm_state m);
  h_mem : sm_mem m = mread m0 SRC len;
  h_out : forall x, x < ST \/ ST + N.of_nat (4 * ns) <= x -> c_mem c x = m0 x;
  h_off : sm_src m = t /\ (t <= len)%nat;
  h_rsp : c_gpr c rsp = F;
  h_state_r : c_gpr c (h_state b) = ST;
  h_src_r : c_gpr c (h_src b) = SRC + N.of_nat t }.

Lemma srel_reg t m c i v : srel t m c -> sreg m i = Some v -> (i < 16)%nat /\ xmm_low 16 c i = Some v /\ vok 4 v.
Proof.
  intros R H. unfold sreg in H. assert (Hi : (i < 16)%nat).
  { rewrite <- (proj1 (h_len _ _ _ R)). apply nth_error_Some. rewrite H. discriminate. }
  rewrite (h_reg _ _ _ R) in H by exact Hi. split; [exact Hi|]. unfold xmm_low. destruct (Nat.ltb_spec i 16); [|lia].
  change (16 / 4)%nat with 4%nat. split; [exact H|]. assert (E : v = firstn 4 (c_ymm c i)) by congruence. rewrite E. apply vok8_low. apply (h_ymm _ _ _ R).
Qed.
(** Writing a register: the low part is given, the high part is kept or cleared. *)
Lemma srel_set t m c d v m' w' : srel t m c -> vok 4 v -> sset m d v = Some m' -> (d < top)%nat ->
  (w' = v \/ w' = v ++ [0; 0; 0; 0]) ->
  exists c', set_low c d w' = Some c' /\ srel t m' c' /\ c_gpr c' = c_gpr c /\ (forall i, (top <= i)%nat -> c_ymm c' i = c_ymm c i) /\ c_mem c' = c_mem c.
Proof.
  intros R V H Hd Hw'. unfold sset in H. destruct (lset (sm_reg m) d v) as [r|] eqn:E; [|discriminate]. cbn [bind] in H. injection H as <-.
  destruct (h_len _ _ _ R) as (L1 & L2 & L3).
  destruct (lset_nth _ _ _ _ E) as (Lr & Ld & N1). rewrite L1 in Lr, Ld.
  destruct V as [Lv Wv]. destruct (h_ymm _ _ _ R d) as [L8 W8].
  set (y := w' ++ skipn (length w') (c_ymm c d)).
  assert (Y : vok 8 y /\ firstn 4 y = v).
  { unfold y. unfold vec in *. destruct Hw' as [-> | ->].
    - rewrite Lv. split; [split; [rewrite app_length, skipn_length; lia|apply Forall_app; split; [exact Wv|apply Forall_fs; exact W8]]|].
      rewrite firstn_app, Lv, Nat.sub_diag, firstn_O, app_nil_r. apply firstn_all2. lia.
    - rewrite app_length, Lv. cbn [length Nat.add]. rewrite skipn_all_le by lia. rewrite app_nil_r. split; [split; [rewrite app_length, Lv; reflexivity|apply Forall_app; split; [exact Wv|apply (words_repeat0 4)]]|].
      rewrite firstn_app, Lv, Nat.sub_diag, firstn_O, app_nil_r. apply firstn_all2. lia. }
  destruct Y as [Y1 Y2].
  exists (set_ymm c d y). unfold set_low. destruct (Nat.ltb_spec d 16); [|lia]. split; [reflexivity|]. split.
  - constructor; cbn [sm_reg sm_mem sm_src sm_state set_ymm c_ymm c_mem c_gpr]; try apply R.
    + split; [lia|]. split; assumption.
    + intros i Hi. rewrite N1. destruct (Nat.eqb_spec i d) as [->|Hne]; [rewrite Y2; reflexivity|]. apply (h_reg _ _ _ R). exact Hi.
    + intros i. destruct (i =? d)%nat; [exact Y1|apply (h_ymm _ _ _ R)].
  - split; [reflexivity|]. split; [|reflexivity]. intros i Hi. cbn [set_ymm c_ymm]. destruct (Nat.eqb_spec i d); [lia|reflexivity].
Qed.

Lemma vbytes_app a x : vbytes (a ++ x) = vbytes a ++ vbytes x.
Proof. unfold vbytes. apply flat_map_app. Qed.
Lemma vbytes_firstn j : forall v, vbytes (firstn j v) = firstn (4 * j) (vbytes v).
Proof.
  induction j as [|j IH]; intros v; [rewrite Nat.mul_0_r, !firstn_O; reflexivity|]. destruct v as [|x v]; [rewrite !firstn_nil; reflexivity|].
  change (vbytes (firstn (S j) (x :: v))) with (le_enc 4 x ++ vbytes (firstn j v)). change (vbytes (x :: v)) with (le_enc 4 x ++ vbytes v).
  rewrite firstn_app, le_enc_length. replace (4 * S j - 4)%nat with (4 * j)%nat by lia. rewrite (firstn_all2 (le_enc 4 x)) by (rewrite le_enc_length; lia). rewrite IH. reflexivity.
Qed.
Lemma vbytes_skipn j : forall v, vbytes (skipn j v) = skipn (4 * j) (vbytes v).
Proof.
  induction j as [|j IH]; intros v; [rewrite Nat.mul_0_r, !skipn_O; reflexivity|]. destruct v as [|x v]; [rewrite !skipn_nil; reflexivity|].
  change (vbytes (skipn (S j) (x :: v))) with (vbytes (skipn j v)). change (vbytes (x :: v)) with (le_enc 4 x ++ vbytes v).
  rewrite skipn_app, le_enc_length. replace (4 * S j - 4)%nat with (4 * j)%nat by lia. rewrite (skipn_all_le (4 * S j) (le_enc 4 x)) by (rewrite le_enc_length; lia). rewrite IH. reflexivity.
Qed.

(** The state in memory. *)
Lemma srel_sload t m c i k v : srel t m c -> sload m i k = Some v ->
  off_ea c (h_state b) i = ST + N.of_nat i /\ load s c (ST + N.of_nat i) (4 * k) = Some (mread (c_mem c) (ST + N.of_nat i) (4 * k)) /\
  blanes (mread (c_mem c) (ST + N.of_nat i) (4 * k)) = v /\ length v = k /\ words 32 v.
Proof.
  intros R H. unfold sload in H. destruct (Nat.eqb_spec (i mod 4) 0) as [Hm|]; [|discriminate]. destruct (h_len _ _ _ R) as (_ & L2 & L3).
  unfold rds in H. destruct (Nat.leb_spec (i / 4 + k) (length (sm_state m))) as [Hl|]; [|discriminate]. assert (Ev : v = firstn k (skipn (i / 4) (sm_state m))) by congruence. clear H. subst v.
  assert (Ei : (i = 4 * (i / 4))%nat) by (pose proof (Nat.div_mod i 4 ltac:(lia)); lia). set (j := (i / 4)%nat) in *. clearbody j. clear Hm. subst i.
  rewrite L2 in Hl. pose proof (q_st P) as Q1.
  split; [unfold off_ea; rewrite ea_nat; rewrite (h_state_r _ _ _ R); [reflexivity|lia]|].
  split; [apply load_ok; [lia|intros x Hx; apply (q_st_rd P); lia|intros x Hx; rewrite (h_rsp _ _ _ R); apply (q_st_out P); lia]|].
  split; [|split; [rewrite firstn_length, skipn_length; lia|apply Forall_fs; apply Forall_fs; exact L3]].
  rewrite <- (blanes_vbytes (sm_state m) L3), <- (h_st _ _ _ R). symmetry. apply blanes_range. lia.
Qed.
Lemma srel_sstore t m c i v m' : srel t m c -> words 32 v -> sstore m i v = Some m' ->
  off_ea c (h_state b) i = ST + N.of_nat i /\
  exists c', store s c (ST + N.of_nat i) (vbytes v) = Some c' /\ srel t m' c' /\ c_gpr c' = c_gpr c /\ c_ymm c' = c_ymm c.
Proof.
  intros R V H. unfold sstore in H. destruct (Nat.eqb_spec (i mod 4) 0) as [Hm|]; [|discriminate]. destruct (h_len _ _ _ R) as (L1 & L2 & L3).
  unfold wrs in H. destruct (Nat.leb_spec (i / 4 + length v) (length (sm_state m))) as [Hl|]; [|discriminate]. cbn [bind] in H.
  assert (Em : m' = {| sm_reg := sm_reg m; sm_mem := sm_mem m; sm_src := sm_src m; sm_state := firstn (i / 4) (sm_state m) ++ v ++ skipn (i / 4 + length v) (sm_state m) |}) by congruence. clear H. subst m'.
  assert (Ei : (i = 4 * (i / 4))%nat) by (pose proof (Nat.div_mod i 4 ltac:(lia)); lia). set (j := (i / 4)%nat) in *. clearbody j. clear Hm. subst i.
  rewrite L2 in Hl. pose proof (q_st P) as Q1. pose proof (vbytes_length v) as Lv.
  split; [unfold off_ea; rewrite ea_nat; rewrite (h_state_r _ _ _ R); [reflexivity|lia]|].
  exists (set_mem c (mwrite (c_mem c) (ST + N.of_nat (4 * j)) (vbytes v))).
  split; [apply store_ok; rewrite Lv; [lia|intros x Hx; apply (q_st_rd P); lia|intros x Hx; rewrite (h_rsp _ _ _ R); apply (q_st_out P); lia]|].
  split; [|split; reflexivity].
  constructor; cbn [sm_reg sm_mem sm_src sm_state set_mem c_ymm c_mem c_gpr]; try apply R.
  - split; [exact L1|]. split.
    + rewrite !app_length, firstn_length, skipn_length. lia.
    + apply Forall_app. split; [apply Forall_fs; exact L3|]. apply Forall_app. split; [exact V|apply Forall_fs; exact L3].
  - apply mwrite_bytes; [apply (h_bytes _ _ _ R)|apply vbytes_bytes].
  - rewrite !vbytes_app, vbytes_firstn, vbytes_skipn, <- (h_st _ _ _ R).
    replace (4 * ns)%nat with (4 * j + (4 * length v + (4 * ns - 4 * (j + length v))))%nat at 1 by lia. rewrite !mread_app.
    rewrite mread_firstn by lia. rewrite mread_skipn by lia. f_equal; [|f_equal].
    + apply mread_mwrite_out. left. lia.
    + apply mread_mwrite. symmetry. exact Lv.
    + replace (ST + N.of_nat (4 * j) + N.of_nat (4 * length v)) with (ST + N.of_nat (4 * (j + length v))) by lia.
      apply mread_mwrite_out. right. rewrite Lv. lia.
  - intros x Hx. rewrite mwrite_out by (rewrite Lv; lia). apply (h_out _ _ _ R). exact Hx.
Qed.
(** The source in memory. *)
Lemma srel_src t m c off l : srel t m c -> rds (sm_mem m) (sm_src m + off) 16 = Some l ->
  off_ea c (h_src b) off = SRC + N.of_nat (t + off) /\ load s c (SRC + N.of_nat (t + off)) 16 = Some l /\ vok 4 (blanes l).
Proof.
  intros R H. destruct (h_off _ _ _ R) as [Et Ht]. rewrite Et, (h_mem _ _ _ R) in H. unfold rds in H. rewrite mread_length in H.
  destruct (Nat.leb_spec (t + off + 16) len) as [Hl|]; [|discriminate].
  assert (El : l = firstn 16 (skipn (t + off) (mread m0 SRC len))) by congruence. clear H. subst l. pose proof (q_src P) as Q1.
  split; [unfold off_ea; rewrite ea_nat; rewrite (h_src_r _ _ _ R); lia|].
  rewrite mread_skipn by lia. rewrite mread_firstn by lia.
  assert (E : mread m0 (SRC + N.of_nat (t + off)) 16 = mread (c_mem c) (SRC + N.of_nat (t + off)) 16).
  { apply mread_ext. intros x Hx. symmetry. apply (h_out _ _ _ R). pose proof (q_dis P) as Q2. unfold disjoint in Q2. lia. }
  rewrite E. split.
  - apply load_ok; [lia|intros x Hx; apply (q_src_rd P); lia|intros x Hx; rewrite (h_rsp _ _ _ R); apply (q_src_out P); lia].
  - apply blanes_ok; [apply mread_bytes; apply (h_bytes _ _ _ R)|rewrite mread_length; reflexivity].
Qed.

(** *** The trace of a program, [t] bytes into the source. *)
Definition s_event (t : nat) (i : sinstr) : list event :=
  match i with
  | MovSrc _ off => [EvRead (SRC + N.of_nat (t + off)) 16]
  | MovSt _ off => [EvRead (ST + N.of_nat off) 16]
  | MovdSt _ off => [EvRead (ST + N.of_nat off) 4]
  | StMov off _ => [EvWrite (ST + N.of_nat off) 16]
  | StMovd off _ => [EvWrite (ST + N.of_nat off) 4]
  | _ => []
  end.
Fixpoint s_trace (t : nat) (p : list sinstr) : list event :=
  match p with [] => [] | i :: p => s_event t i ++ s_trace (t + s_adv i) p end.

Definition spres (c c' : cpu) : Prop := (forall q, q <> h_src b -> c_gpr c' q = c_gpr c q) /\ (forall i, (top <= i)%nat -> c_ymm c' i = c_ymm c i).
Lemma ltb_lt_true i j : (i <? j)%nat = true -> (i < j)%nat.
Proof. apply Nat.ltb_lt. Qed.
Lemma vok4_dec v : vok4_b v = true -> vok 4 v.
Proof.
  unfold vok4_b. intros H. apply andb_prop in H. destruct H as [H1 H2]. split; [apply Nat.eqb_eq; exact H1|]. apply Forall_forall. intros x Hx.
  apply N.ltb_lt. exact (proj1 (forallb_forall _ _) H2 x Hx).
Qed.
Ltac regs R := repeat match goal with
  | H : bind (sreg ?m ?i) _ = Some _ |- _ => let E := fresh "E" in destruct (sreg m i) eqn:E; [|discriminate H]; cbn [bind] in H;
      let A := fresh "A" in let B := fresh "B" in let C := fresh "C" in destruct (srel_reg _ _ _ _ _ R E) as (A & B & C); rewrite B; cbn [bind]; clear E end.
Lemma s_step t m c i m' : srel t m c -> ok_s top i = true -> (t + s_adv i <= len)%nat -> sexec m i = Some m' ->
  yevents b c i = s_event t i /\ exists c', yexec s b c i = Some c' /\ srel (t + s_adv i) m' c' /\ spres c c'.
Proof.
  intros R Ok Ht H.
  assert (Set1 : forall d v w', (d <? top)%nat = true -> vok 4 v -> sset m d v = Some m' -> w' = v \/ w' = v ++ [0; 0; 0; 0] ->
    exists c', set_low c d w' = Some c' /\ srel (t + 0) m' c' /\ spres c c').
  { intros d v w' Hd V Hs Hw'. destruct (srel_set t m c d v m' w' R V Hs (ltb_lt_true _ _ Hd) Hw') as (c' & E & R' & G & Y & U).
    exists c'. split; [exact E|]. rewrite Nat.add_0_r. split; [exact R'|]. split; [intros q _; rewrite G; reflexivity|exact Y]. }
  destruct i; cbn [sexec] in H; cbn [ok_s] in Ok; cbn [yevents s_event yexec s_adv] in *; cbv zeta.
  - split; [reflexivity|]. regs R. refine (Set1 _ _ _ Ok _ H _); [assumption|eauto].
  - split; [reflexivity|]. apply andb_prop in Ok. destruct Ok as [Ok Ob]. apply andb_prop in Ok. destruct Ok as [Od Ol]. refine (Set1 _ _ _ Od _ H _); [|eauto].
    apply blanes_ok; [|apply Nat.eqb_eq; exact Ol]. apply Forall_forall. intros x Hx. apply N.ltb_lt. exact (proj1 (forallb_forall _ _) Ob x Hx).
  - destruct (rds (sm_mem m) (sm_src m + off) 16) as [l|] eqn:E; [|discriminate]. cbn [bind] in H.
    destruct (srel_src t m c off l R E) as (E1 & E2 & V). rewrite E1. split; [reflexivity|]. rewrite E2. cbn [bind]. refine (Set1 _ _ _ Ok _ H _); [assumption|eauto].
  - destruct (sload m i 4) as [v|] eqn:E; [|discriminate]. cbn [bind] in H.
    destruct (srel_sload t m c i 4 v R E) as (E1 & E2 & E3 & L & V). change (4 * 4)%nat with 16%nat in *. rewrite E1. split; [reflexivity|]. rewrite E2. cbn [bind]. rewrite E3. refine (Set1 _ _ _ Ok _ H _); [|eauto]. split; assumption.
  - destruct (sload m i 1) as [v|] eqn:E; [|discriminate]. cbn [bind] in H.
    destruct (srel_sload t m c i 1 v R E) as (E1 & E2 & E3 & L & V). change (4 * 1)%nat with 4%nat in *. rewrite E1. split; [reflexivity|]. rewrite E2. cbn [bind]. rewrite E3. refine (Set1 _ _ _ Ok _ H _); [|eauto].
    split; [rewrite app_length, L; reflexivity|]. apply Forall_app. split; [exact V|apply (words_repeat0 3)].
  - regs R. destruct C as [Lv Wv]. destruct (srel_sstore t m c i v m' R Wv H) as (E1 & c' & E2 & R' & G & Y). rewrite E1. split; [reflexivity|].
    exists c'. split; [exact E2|]. rewrite Nat.add_0_r. split; [exact R'|]. split; [intros q _; rewrite G; reflexivity|intros j _; rewrite Y; reflexivity].
  - regs R. destruct C as [Lv Wv]. destruct (srel_sstore t m c i (firstn 1 v) m' R (proj1 (Forall_fs _ 1 _ Wv)) H) as (E1 & c' & E2 & R' & G & Y). rewrite E1. split; [reflexivity|].
    exists c'. split; [exact E2|]. rewrite Nat.add_0_r. split; [exact R'|]. split; [intros q _; rewrite G; reflexivity|intros j _; rewrite Y; reflexivity].
  - split; [reflexivity|]. regs R. refine (Set1 _ _ _ Ok _ H _); [|eauto]. apply sop_ok; assumption.
  - split; [reflexivity|]. apply andb_prop in Ok. destruct Ok as [Od Ov]. regs R. refine (Set1 _ _ _ Od _ H _); [|eauto]. apply paddd_ok; [assumption|apply vok4_dec; exact Ov].
  - split; [reflexivity|]. regs R. refine (Set1 _ _ _ Ok _ H _); [|eauto]. apply pshufb_ok; [|assumption]. rewrite vbytes_length. f_equal. apply C0.
  - split; [reflexivity|]. regs R. refine (Set1 _ _ _ Ok _ H _); [|eauto]. apply pshufd_ok; [left; reflexivity|assumption].
  - split; [reflexivity|]. regs R. destruct (k mod 4 =? 0)%nat; [|discriminate]. refine (Set1 _ _ _ Ok _ H _); [|eauto]. apply pslldq_ok; assumption.
  - split; [reflexivity|]. regs R. destruct (k mod 4 =? 0)%nat; [|discriminate]. refine (Set1 _ _ _ Ok _ H _); [|eauto]. apply psrldq_ok; assumption.
  - split; [reflexivity|]. apply andb_prop in Ok. destruct Ok as [Od Ok]. regs R. destruct (k mod 4 =? 0)%nat; [|discriminate]. refine (Set1 _ _ _ Od _ H _); [|eauto]. apply palignr_ok; [apply Nat.leb_le; exact Ok|assumption|assumption].
  - split; [reflexivity|]. regs R. refine (Set1 _ _ _ Ok _ H _); [|eauto]. apply sha1rnds4_ok; assumption.
  - split; [reflexivity|]. regs R. refine (Set1 _ _ _ Ok _ H _); [|eauto]. apply sha256rnds2_ok; assumption.
  - split; [reflexivity|]. regs R. refine (Set1 _ _ _ Ok _ H _); [|eauto]. apply punpck_ok; assumption.
  - split; [reflexivity|]. regs R. refine (Set1 _ _ _ Ok _ H _); [|eauto]. apply punpck_ok; assumption.
  - split; [reflexivity|]. injection H as <-. eexists. split; [reflexivity|]. destruct (h_off _ _ _ R) as [Et _]. pose proof (q_src P) as Q1.
    assert (Ev : (c_gpr c (h_src b) + N.of_nat k) mod 2 ^ 64 = SRC + N.of_nat (t + k)).
    { rewrite (h_src_r _ _ _ R). rewrite N.mod_small; lia. }
    split.
    + unfold add_gpr. rewrite Ev. constructor; cbn [sm_reg sm_mem sm_src sm_state set_zf c_gpr c_ymm c_mem]; try apply R.
      * rewrite Et. split; [reflexivity|exact Ht].
      * rewrite gset_other by (destruct b; discriminate). apply R.
      * rewrite gset_other by (destruct b; discriminate). apply R.
      * apply gset_same.
    + split; [|reflexivity]. intros q Hq. unfold add_gpr. cbn [set_zf c_gpr]. apply gset_other. exact Hq.
Qed.
End Sim.
