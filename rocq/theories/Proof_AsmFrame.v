(** Prologues and epilogues. *)
From Verif Require Import Base BaseLemmas Spec_Bytes Model_Memory BytesLemmas Model_X86 Model_ChaChaAsm Model_ShaAsm Model_Asm Spec_Abi Proof_X86Sym Proof_ChaChaAsm Proof_Asm.
Local Open Scope N_scope.

Section Frame.
Variables (s : space) (b : abi) (cpuid : cpuid_fun) (code : list ainstr).
Definition reach (k : list ainstr) (c : cpu) (t : list event) (k' : list ainstr) (c' : cpu) : Prop :=
  forall tk ra cf, runs s b cpuid code k' c' tk ra cf -> runs s b cpuid code k c (t ++ tk) ra cf.
Lemma reach_refl k c : reach k c [] k c.
Proof. intros tk ra cf H. exact H. Qed.
Lemma reach_trans k c t k1 c1 t1 k2 c2 : reach k c t k1 c1 -> reach k1 c1 t1 k2 c2 -> reach k c (t ++ t1) k2 c2.
Proof. intros H1 H2 tk ra cf H. rewrite <- app_assoc. apply H1. apply H2. exact H. Qed.
Lemma reach_step k c t k1 c1 : step s b cpuid code k c = Next t k1 c1 -> reach k c t k1 c1.
Proof. intros H tk ra cf Hr. eapply runs_next; eassumption. Qed.
Lemma reach_cons k c t k1 c1 t1 k2 c2 : step s b cpuid code k c = Next t k1 c1 -> reach k1 c1 t1 k2 c2 -> reach k c (t ++ t1) k2 c2.
Proof. intros H. apply reach_trans. apply reach_step. exact H. Qed.
Lemma reach_silent k c k1 c1 t1 k2 c2 : step s b cpuid code k c = Next [] k1 c1 -> reach k1 c1 t1 k2 c2 -> reach k c t1 k2 c2.
Proof. intros H H1. exact (reach_cons k c [] k1 c1 t1 k2 c2 H H1). Qed.
Lemma reach_ev k c e k1 c1 t1 k2 c2 : step s b cpuid code k c = Next [e] k1 c1 -> reach k1 c1 t1 k2 c2 -> reach k c (e :: t1) k2 c2.
Proof. intros H H1. exact (reach_cons k c [e] k1 c1 t1 k2 c2 H H1). Qed.

Lemma gset_same c r v : c_gpr (set_gpr c r v) r = v.
Proof. cbn [set_gpr c_gpr]. destruct (gpr_eq_dec r r); [reflexivity|contradiction]. Qed.
Lemma gset_other c r v q : q <> r -> c_gpr (set_gpr c r v) q = c_gpr c q.
Proof. intros H. cbn [set_gpr c_gpr]. destruct (gpr_eq_dec q r); [contradiction|reflexivity]. Qed.

(** Saving and restoring xmm6, xmm7, ...: register 5 + i at B - 16 i, where B = rbp - off. *)
Definition sdisp (off : N) (i : nat) : Z := (- Z.of_N (off + 16 * N.of_nat i))%Z.
Definition saves (off : N) (a k : nat) : list ainstr := map (fun i => MovdqaSt rbp (sdisp off i) (5 + i)) (seq a k).
Definition loads (off : N) (a k : nat) : list ainstr := map (fun i => MovdqaLd (5 + i) rbp (sdisp off i)) (seq a k).
Definition tsaves (B : N) (a k : nat) : list event := map (fun i => EvWrite (B - 16 * N.of_nat i) 16) (seq a k).
Definition tloads (B : N) (a k : nat) : list event := map (fun i => EvRead (B - 16 * N.of_nat i) 16) (seq a k).

Lemma mod16_sub B i : B mod 16 = 0 -> 16 * i <= B -> (B - 16 * i) mod 16 = 0.
Proof.
  intros H L. rewrite (N.div_mod B 16) by lia. rewrite H, N.add_0_r. rewrite <- N.mul_sub_distr_l, N.mul_comm. apply N.mod_mul. lia.
Qed.
Lemma sdisp_ea c off i : off + 16 * N.of_nat i <= c_gpr c rbp -> c_gpr c rbp < 2 ^ 64 -> ea c rbp (sdisp off i) = c_gpr c rbp - off - 16 * N.of_nat i.
Proof. intros H L. unfold sdisp. rewrite ea_sub by assumption. lia. Qed.

Lemma saves_reach off rest : forall k a c, machine c -> (a + k <= 11)%nat ->
  let B := c_gpr c rbp - off in
  off + 16 * N.of_nat (a + k) <= c_gpr c rbp -> B mod 16 = 0 ->
  (forall x, B + 16 - 16 * N.of_nat (a + k) <= x < B + 16 - 16 * N.of_nat a -> sp_wr s x = true /\ c_gpr c rsp <= x) ->
  exists c', reach (saves off a k ++ rest) c (tsaves B a k) rest c' /\
    c_gpr c' = c_gpr c /\ c_ymm c' = c_ymm c /\ c_zf c' = c_zf c /\ machine c' /\
    (forall i, (a <= i < a + k)%nat -> mread (c_mem c') (B - 16 * N.of_nat i) 16 = vbytes (firstn 4 (c_ymm c (5 + i)))) /\
    (forall x, x < B - 16 * N.of_nat (a + k) + 16 \/ B + 16 - 16 * N.of_nat a <= x -> c_mem c' x = c_mem c x).
Proof.
  induction k as [|k IH]; intros a c M Ha B HB Al HP.
  - exists c. split; [apply reach_refl|]. repeat split; try apply M. intros i Hi. lia.
  - pose proof M as (Mg & My & Mm). pose proof (Mg rbp) as Gb.
    set (v := vbytes (firstn 4 (c_ymm c (5 + a)))).
    assert (Lv : length v = 16%nat).
    { unfold v. rewrite vbytes_length, firstn_length. destruct (My (5 + a)%nat) as [Ly _]. unfold vec in *. rewrite Ly. reflexivity. }
    assert (E : ea c rbp (sdisp off a) = B - 16 * N.of_nat a) by (apply sdisp_ea; unfold B in *; lia).
    assert (St : store s c (B - 16 * N.of_nat a) v = Some (set_mem c (mwrite (c_mem c) (B - 16 * N.of_nat a) v))).
    { apply store_ok; rewrite Lv; [unfold B; lia|..]; intros x Hx; [apply HP; lia|right; apply HP; lia]. }
    set (c1 := set_mem c (mwrite (c_mem c) (B - 16 * N.of_nat a) v)) in *.
    assert (M1 : machine c1).
    { split; [exact Mg|]. split; [exact My|]. cbn [c1 set_mem c_mem]. apply mwrite_bytes; [exact Mm|apply vbytes_bytes]. }
    destruct (IH (S a) c1 M1) as (c' & K & G & Y & Z & M' & HS' & HO'); cbn [c1 set_mem c_gpr]; fold B; try lia; try assumption.
    { intros x Hx. apply HP. lia. }
    cbn [c1 set_mem c_gpr c_ymm c_zf c_mem] in G, Y, Z, HS', HO'. fold B in HS', HO'. 
    exists c'. split.
    { unfold saves, tsaves. cbn [seq map app]. change (EvWrite (B - 16 * N.of_nat a) 16 :: map (fun i => EvWrite (B - 16 * N.of_nat i) 16) (seq (S a) k)) with ([EvWrite (B - 16 * N.of_nat a) 16] ++ tsaves B (S a) k).
      eapply reach_cons; [|exact K]. cbn [step]. rewrite E. rewrite mod16_sub by (try assumption; unfold B; lia).
      rewrite N.eqb_refl. destruct (Nat.ltb_spec (5 + a) 16); [|lia]. cbn [andb]. fold v. rewrite St. reflexivity. }
    split; [exact G|]. split; [exact Y|]. split; [exact Z|]. split; [exact M'|]. split.
    + intros i Hi. destruct (Nat.eq_dec i a) as [->|Hne]; [|apply HS'; lia].
      erewrite mread_ext; [apply mread_mwrite; symmetry; exact Lv|]. intros x Hx. rewrite HO'; [reflexivity|]. lia.
    + intros x Hx. rewrite HO' by lia. apply mwrite_out. rewrite Lv. lia.
Qed.

Lemma loads_reach off rest (y : nat -> vec) : forall k a c, machine c -> (a + k <= 11)%nat ->
  let B := c_gpr c rbp - off in
  off + 16 * N.of_nat (a + k) <= c_gpr c rbp -> B mod 16 = 0 ->
  (forall x, B + 16 - 16 * N.of_nat (a + k) <= x < B + 16 - 16 * N.of_nat a -> sp_rd s x = true /\ c_gpr c rsp <= x) ->
  (forall i, vok 8 (y i)) ->
  (forall i, (a <= i < a + k)%nat -> mread (c_mem c) (B - 16 * N.of_nat i) 16 = vbytes (firstn 4 (y (5 + i)%nat))) ->
  exists c', reach (loads off a k ++ rest) c (tloads B a k) rest c' /\
    c_gpr c' = c_gpr c /\ c_mem c' = c_mem c /\ c_zf c' = c_zf c /\ machine c' /\
    (forall i, (a <= i < a + k)%nat -> firstn 4 (c_ymm c' (5 + i)%nat) = firstn 4 (y (5 + i)%nat)) /\
    (forall i, (i < 5 + a)%nat \/ (5 + a + k <= i)%nat -> c_ymm c' i = c_ymm c i).
Proof.
  induction k as [|k IH]; intros a c M Ha B HB Al HP Hy HS.
  - exists c. split; [apply reach_refl|]. repeat split; try apply M. intros i Hi. lia.
  - pose proof M as (Mg & My & Mm). pose proof (Mg rbp) as Gb.
    assert (E : ea c rbp (sdisp off a) = B - 16 * N.of_nat a) by (apply sdisp_ea; unfold B in *; lia).
    assert (Ld : load s c (B - 16 * N.of_nat a) 16 = Some (mread (c_mem c) (B - 16 * N.of_nat a) 16)).
    { apply load_ok; [unfold B; lia|..]; intros x Hx; [apply HP; lia|right; apply HP; lia]. }
    rewrite (HS a) in Ld by lia.
    destruct (Hy (5 + a)%nat) as [Ly Wy]. assert (V : words 32 (firstn 4 (y (5 + a)%nat))) by (apply Forall_fs; exact Wy).
    assert (Lf : length (firstn 4 (y (5 + a)%nat)) = 4%nat) by (rewrite firstn_length; unfold vec in *; lia).
    destruct (My (5 + a)%nat) as [Lo Wo].
    set (c1 := set_ymm c (5 + a) (firstn 4 (y (5 + a)%nat) ++ skipn 4 (c_ymm c (5 + a)))).
    assert (M1 : machine c1).
    { split; [exact Mg|]. split; [|exact Mm]. intros i. cbn [c1 set_ymm c_ymm]. destruct (Nat.eqb_spec i (5 + a)); [|apply My]. split.
      - unfold vec in *. rewrite app_length, Lf, skipn_length, Lo. reflexivity.
      - apply Forall_app. split; [exact V|]. apply Forall_fs. exact Wo. }
    destruct (IH (S a) c1 M1) as (c' & K & G & Y & Z & M' & HS' & HO'); cbn [c1 set_ymm c_gpr c_mem]; fold B; try lia; try assumption.
    { intros x Hx. apply HP. lia. } { intros i Hi. apply HS. lia. }
    cbn [c1 set_ymm c_gpr c_ymm c_zf c_mem] in G, Y, Z, HS', HO'.
    exists c'. split.
    { unfold loads, tloads. cbn [seq map app]. change (EvRead (B - 16 * N.of_nat a) 16 :: map (fun i => EvRead (B - 16 * N.of_nat i) 16) (seq (S a) k)) with ([EvRead (B - 16 * N.of_nat a) 16] ++ tloads B (S a) k).
      eapply reach_cons; [|exact K]. cbn [step]. rewrite E. rewrite mod16_sub by (try assumption; unfold B; lia).
      rewrite N.eqb_refl. rewrite Ld. cbn [bind]. rewrite blanes_vbytes by exact V. unfold set_low.
      destruct (Nat.ltb_spec (5 + a) 16); [|lia]. cbn [next]. unfold vec in *. rewrite Lf. reflexivity. }
    split; [exact G|]. split; [exact Y|]. split; [exact Z|]. split; [exact M'|]. split.
    + intros i Hi. destruct (Nat.eq_dec i a) as [->|Hne]; [|apply HS'; lia].
      rewrite HO' by lia. rewrite Nat.eqb_refl. rewrite firstn_app. unfold vec in *. rewrite Lf, Nat.sub_diag, firstn_O, app_nil_r.
      apply firstn_all2. lia.
    + intros i Hi. rewrite HO' by lia. destruct (Nat.eqb_spec i (5 + a)); [lia|reflexivity].
Qed.

(** Push, pop, moves, sub. *)
Lemma machine_set_gpr c r v : machine c -> v < 2 ^ 64 -> machine (set_gpr c r v).
Proof.
  intros (Mg & My & Mm) H. split; [|split; assumption]. intros q. cbn [set_gpr c_gpr]. destruct (gpr_eq_dec q r); [exact H|apply Mg].
Qed.
Lemma machine_set_zf c v : machine c -> machine (set_zf c v).
Proof. intros M. exact M. Qed.
Lemma mread8_lt c a : machine c -> le_dec (mread (c_mem c) a 8) < 2 ^ 64.
Proof. intros (_ & _ & Mm). pose proof (le_dec_lt (mread (c_mem c) a 8) (mread_bytes _ _ _ Mm)) as H. rewrite mread_length in H. exact H. Qed.

Lemma push_reach r rest c : machine c -> r <> rsp -> 8 <= c_gpr c rsp ->
  (forall x, c_gpr c rsp - 8 <= x < c_gpr c rsp -> sp_wr s x = true) ->
  exists c', reach (Push r :: rest) c [EvWrite (c_gpr c rsp - 8) 8] rest c' /\
    c_gpr c' rsp = c_gpr c rsp - 8 /\ (forall q, q <> rsp -> c_gpr c' q = c_gpr c q) /\ c_ymm c' = c_ymm c /\ machine c' /\
    le_dec (mread (c_mem c') (c_gpr c rsp - 8) 8) = c_gpr c r /\
    (forall x, x < c_gpr c rsp - 8 \/ c_gpr c rsp <= x -> c_mem c' x = c_mem c x).
Proof.
  intros M Hr H8 HP. pose proof M as (Mg & My & Mm). pose proof (Mg rsp) as Gs.
  assert (E : ea c rsp (-8) = c_gpr c rsp - 8) by (change (-8)%Z with (- Z.of_N 8)%Z; apply ea_sub; assumption).
  set (c1 := set_gpr c rsp (c_gpr c rsp - 8)). assert (R1 : c_gpr c1 rsp = c_gpr c rsp - 8) by apply gset_same.
  assert (M1 : machine c1) by (apply machine_set_gpr; [exact M|lia]).
  set (l := le_enc 8 (c_gpr c r)). assert (Ll : length l = 8%nat) by apply le_enc_length.
  assert (St : store s c1 (c_gpr c1 rsp) l = Some (set_mem c1 (mwrite (c_mem c1) (c_gpr c1 rsp) l))).
  { apply store_ok; rewrite Ll, R1; [lia|intros x Hx; apply HP; lia|intros x Hx; right; lia]. }
  rewrite R1 in St. eexists. split.
  { apply reach_step. cbn [step]. rewrite E. fold c1. rewrite R1. fold l. rewrite St. reflexivity. }
  split; [cbn [set_mem c_gpr]; exact R1|]. split; [intros q Hq; cbn [set_mem c_gpr]; apply gset_other; exact Hq|].
  split; [reflexivity|]. split.
  { destruct M1 as (A1 & A2 & A3). split; [exact A1|]. split; [exact A2|]. cbn [set_mem c_mem]. apply mwrite_bytes; [exact A3|apply le_enc_bytes]. }
  split.
  - cbn [set_mem c_mem]. rewrite mread_mwrite by (symmetry; exact Ll). unfold l. rewrite le_dec_enc. apply N.mod_small. apply (Mg r).
  - intros x Hx. cbn [set_mem c_mem]. apply mwrite_out. rewrite Ll. lia.
Qed.
Lemma pop_reach r rest c : machine c -> r <> rsp -> c_gpr c rsp + 8 < 2 ^ 64 ->
  (forall x, c_gpr c rsp <= x < c_gpr c rsp + 8 -> sp_rd s x = true) ->
  exists c', reach (Pop r :: rest) c [EvRead (c_gpr c rsp) 8] rest c' /\
    c_gpr c' rsp = c_gpr c rsp + 8 /\ c_gpr c' r = le_dec (mread (c_mem c) (c_gpr c rsp) 8) /\
    (forall q, q <> rsp -> q <> r -> c_gpr c' q = c_gpr c q) /\ c_ymm c' = c_ymm c /\ machine c' /\ c_mem c' = c_mem c.
Proof.
  intros M Hr H8 HP.
  assert (Ld : load s c (c_gpr c rsp) 8 = Some (mread (c_mem c) (c_gpr c rsp) 8)) by (apply load_ok; [lia|intros x Hx; apply HP; lia|intros x Hx; right; lia]).
  assert (E : ea c rsp 8 = c_gpr c rsp + 8) by (change 8%Z with (Z.of_N 8); apply ea_add; exact H8).
  eexists. split; [apply reach_step; cbn [step]; rewrite Ld, E; reflexivity|].
  split; [rewrite gset_other by (intros X; apply Hr; symmetry; exact X); apply gset_same|]. split; [apply gset_same|].
  split; [intros q H1 H2; rewrite !gset_other by assumption; reflexivity|]. split; [reflexivity|]. split; [|reflexivity].
  apply machine_set_gpr; [apply machine_set_gpr; [exact M|exact H8]|]. apply (mread8_lt c). exact M.
Qed.
Lemma movrr_reach d r rest c : machine c ->
  exists c', reach (MovRR d r :: rest) c [] rest c' /\
    c_gpr c' d = c_gpr c r /\ (forall q, q <> d -> c_gpr c' q = c_gpr c q) /\ c_ymm c' = c_ymm c /\ machine c' /\ c_mem c' = c_mem c /\ c_zf c' = c_zf c.
Proof.
  intros M. eexists. split; [apply reach_step; reflexivity|]. split; [apply gset_same|]. split; [intros q Hq; apply gset_other; exact Hq|].
  split; [reflexivity|]. split; [apply machine_set_gpr; [exact M|apply M]|]. split; reflexivity.
Qed.
Lemma sub_reach r n rest c : machine c -> n <= c_gpr c r ->
  exists c', reach (SubI r n :: rest) c [] rest c' /\
    c_gpr c' r = c_gpr c r - n /\ (forall q, q <> r -> c_gpr c' q = c_gpr c q) /\ c_ymm c' = c_ymm c /\ machine c' /\ c_mem c' = c_mem c /\
    c_zf c' = (c_gpr c r - n =? 0).
Proof.
  intros M H. assert (G : c_gpr c r < 2 ^ 64) by apply M.
  assert (E : ea c r (- Z.of_N n) = c_gpr c r - n) by (apply ea_sub; assumption).
  eexists. split; [apply reach_step; cbn [step]; rewrite E; reflexivity|]. cbn [set_zf c_gpr c_ymm c_mem c_zf].
  split; [apply (gset_same c)|]. split; [intros q Hq; apply (gset_other c); exact Hq|].
  split; [reflexivity|]. split; [apply machine_set_zf; apply machine_set_gpr; [exact M|lia]|]. split; reflexivity.
Qed.
End Frame.

(** Aligning down. *)
Lemma align32 x : x < 2 ^ 64 -> N.land x 0xffffffffffffffe0 = x - x mod 32.
Proof.
  intros H. assert (E : N.land x 0xffffffffffffffe0 = N.ldiff x 31).
  { apply N.bits_inj. intros k. rewrite N.land_spec, N.ldiff_spec. destruct (N.lt_ge_cases k 64) as [Hk|Hk].
    - f_equal. revert k Hk. assert (A : forallb (fun k => Bool.eqb (N.testbit 0xffffffffffffffe0 k) (negb (N.testbit 31 k))) (all_below 64) = true) by (vm_compute; reflexivity).
      intros k Hk. apply eqb_prop. apply (below_sweep 64 (fun k => Bool.eqb (N.testbit 0xffffffffffffffe0 k) (negb (N.testbit 31 k))) A k Hk).
    - assert (Z : N.testbit x k = false).
      { destruct (N.eq_dec x 0) as [->|Hx]; [apply N.bits_0|]. apply N.bits_above_log2. apply N.log2_lt_pow2; [lia|]. eapply N.lt_le_trans; [exact H|]. apply N.pow_le_mono_r; lia. }
      rewrite Z. reflexivity. }
  rewrite E. change 31 with (N.ones 5). rewrite N.ldiff_ones_r, N.shiftr_div_pow2, N.shiftl_mul_pow2. change (2 ^ 5) with 32.
  pose proof (N.div_mod x 32 ltac:(lia)). lia.
Qed.
