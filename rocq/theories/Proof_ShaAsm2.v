(** The SHA-256 routine. *)
From Verif Require Import Base BaseLemmas Spec_Bytes BytesLemmas Spec_Sha Model_Sha Proof_ShaCore Proof_Sha2Core Model_X86 Model_ShaAsm Proof_ShaAsm.
Local Open Scope N_scope.

Definition rsh (x : vec) : vec := pshufd 0x0e x.
Lemma macro2_0 k xi b0 b1 m0 m1 m2 m3 m4 rest mem o st :
  let x := paddd m3 (m_k k) in let c := sha256rnds2 b1 b0 x in let p := palignr 4 m3 m2 in
  srun (sha_2_256_rounds 0 1 2 3 k) (mk (xi :: b0 :: b1 :: m0 :: m1 :: m2 :: m3 :: m4 :: rest) mem o st)
  = Some (mk (rsh x :: sha256rnds2 b0 c (rsh x) :: c :: sha256msg2 (paddd m0 p) m3 :: m1 :: sha256msg1 m2 m3 :: m3 :: p :: rest) mem o st).
Proof. reflexivity. Qed.
Lemma macro2_1 k xi b0 b1 m0 m1 m2 m3 m4 rest mem o st :
  let x := paddd m0 (m_k k) in let c := sha256rnds2 b1 b0 x in let p := palignr 4 m0 m3 in
  srun (sha_2_256_rounds 1 2 3 0 k) (mk (xi :: b0 :: b1 :: m0 :: m1 :: m2 :: m3 :: m4 :: rest) mem o st)
  = Some (mk (rsh x :: sha256rnds2 b0 c (rsh x) :: c :: m0 :: sha256msg2 (paddd m1 p) m0 :: m2 :: sha256msg1 m3 m0 :: p :: rest) mem o st).
Proof. reflexivity. Qed.
Lemma macro2_2 k xi b0 b1 m0 m1 m2 m3 m4 rest mem o st :
  let x := paddd m1 (m_k k) in let c := sha256rnds2 b1 b0 x in let p := palignr 4 m1 m0 in
  srun (sha_2_256_rounds 2 3 0 1 k) (mk (xi :: b0 :: b1 :: m0 :: m1 :: m2 :: m3 :: m4 :: rest) mem o st)
  = Some (mk (rsh x :: sha256rnds2 b0 c (rsh x) :: c :: sha256msg1 m0 m1 :: m1 :: sha256msg2 (paddd m2 p) m1 :: m3 :: p :: rest) mem o st).
Proof. reflexivity. Qed.
Lemma macro2_3 k xi b0 b1 m0 m1 m2 m3 m4 rest mem o st :
  let x := paddd m2 (m_k k) in let c := sha256rnds2 b1 b0 x in let p := palignr 4 m2 m1 in
  srun (sha_2_256_rounds 3 0 1 2 k) (mk (xi :: b0 :: b1 :: m0 :: m1 :: m2 :: m3 :: m4 :: rest) mem o st)
  = Some (mk (rsh x :: sha256rnds2 b0 c (rsh x) :: c :: m0 :: sha256msg1 m1 m2 :: m2 :: sha256msg2 (paddd m3 p) m2 :: p :: rest) mem o st).
Proof. reflexivity. Qed.

Lemma first2_exec xi b0 b1 m0 m1 m2 m3 m4 mask s0 s1 rest mem o st l0 l1 l2 l3 q0 q1 q2 q3 :
  rds mem (o + 16 * 0) 16 = Some l0 -> rds mem (o + 16 * 1) 16 = Some l1 -> rds mem (o + 16 * 2) 16 = Some l2 -> rds mem (o + 16 * 3) 16 = Some l3 ->
  pshufb (blanes l0) (vbytes mask) = q0 -> pshufb (blanes l1) (vbytes mask) = q1 ->
  pshufb (blanes l2) (vbytes mask) = q2 -> pshufb (blanes l3) (vbytes mask) = q3 ->
  let x0 := paddd q0 (m_k 0) in let c1 := sha256rnds2 b1 b0 x0 in let d1 := sha256rnds2 b0 c1 (rsh x0) in
  let x1 := paddd q1 (m_k 1) in let c2 := sha256rnds2 c1 d1 x1 in let d2 := sha256rnds2 d1 c2 (rsh x1) in
  let x2 := paddd q2 (m_k 2) in let c3 := sha256rnds2 c2 d2 x2 in let d3 := sha256rnds2 d2 c3 (rsh x2) in
  srun sha2_first (mk (xi :: b0 :: b1 :: m0 :: m1 :: m2 :: m3 :: m4 :: mask :: s0 :: s1 :: rest) mem o st)
  = Some (mk (rsh x2 :: d3 :: c3 :: sha256msg1 q0 q1 :: sha256msg1 q1 q2 :: q2 :: q3 :: m4 :: mask :: b0 :: b1 :: rest) mem (o + 64) st).
Proof.
  intros E0 E1 E2 E3 Q0 Q1 Q2 Q3. cbv zeta.
  assert (E : srun (firstn 4 sha2_first) (mk (xi :: b0 :: b1 :: m0 :: m1 :: m2 :: m3 :: m4 :: mask :: s0 :: s1 :: rest) mem o st)
    = Some (mk (blanes l0 :: b0 :: b1 :: m0 :: blanes l1 :: blanes l2 :: blanes l3 :: m4 :: mask :: s0 :: s1 :: rest) mem o st)).
  { unfold sha2_first. cbn [firstn srun sexec]. unfold mk. cbn [sm_mem sm_src]. rewrite E0. cbn [bind sset sm_reg lset sm_mem sm_src sm_state msg2 impl2 Nat.add].
    rewrite E1. cbn [bind sset sm_reg lset sm_mem sm_src sm_state msg2 Nat.add].
    rewrite E2. cbn [bind sset sm_reg lset sm_mem sm_src sm_state msg2 Nat.add].
    rewrite E3. reflexivity. }
  change sha2_first with (firstn 4 sha2_first ++ skipn 4 sha2_first).
  rewrite srun_app, E. cbn [bind]. subst q0 q1 q2 q3. reflexivity.
Qed.
Lemma last2_exec xi b0 b1 m0 m1 m2 m3 m4 mask s0 s1 rest mem o st :
  let x0 := paddd m1 (m_k 13) in let c1 := sha256rnds2 b1 b0 x0 in let d1 := sha256rnds2 b0 c1 (rsh x0) in
  let n2 := sha256msg2 (paddd m2 (palignr 4 m1 m0)) m1 in
  let x1 := paddd n2 (m_k 14) in let c2 := sha256rnds2 c1 d1 x1 in let d2 := sha256rnds2 d1 c2 (rsh x1) in
  let n3 := sha256msg2 (paddd m3 (palignr 4 n2 m1)) n2 in
  let x2 := paddd n3 (m_k 15) in let c3 := sha256rnds2 c2 d2 x2 in let d3 := sha256rnds2 d2 c3 (rsh x2) in
  srun sha2_last (mk (xi :: b0 :: b1 :: m0 :: m1 :: m2 :: m3 :: m4 :: mask :: s0 :: s1 :: rest) mem o st)
  = Some (mk (rsh x2 :: paddd d3 s0 :: paddd c3 s1 :: m0 :: m1 :: n2 :: n3 :: palignr 4 n2 m1 :: mask :: s0 :: s1 :: rest) mem o st).
Proof. reflexivity. Qed.

Lemma k_table g : (g < 16)%nat -> m_k g = [sha2_K sha2_32 (4 * g); sha2_K sha2_32 (4 * g + 1); sha2_K sha2_32 (4 * g + 2); sha2_K sha2_32 (4 * g + 3)].
Proof.
  intros H. assert (E : map m_k (seq 0 16) = map (fun g => [sha2_K sha2_32 (4 * g); sha2_K sha2_32 (4 * g + 1); sha2_K sha2_32 (4 * g + 2); sha2_K sha2_32 (4 * g + 3)]) (seq 0 16)) by (vm_compute; reflexivity).
  apply (f_equal (fun l => nth g l [])) in E.
  rewrite !(nth_indep _ [] (m_k 0)) in E by (rewrite map_length, seq_length; exact H). rewrite map_nth, seq_nth in E by exact H. cbn [Nat.add] in E.
  rewrite E. set (F := fun g => _ : list N). rewrite (nth_indep _ (m_k 0) (F 0%nat)) by (rewrite map_length, seq_length; exact H).
  rewrite map_nth, seq_nth by exact H. reflexivity.
Qed.

(** *** Words *)
Lemma S0_Sigma x : sha256_S0 x = Sigma 32 (s2_S0 sha2_32) x.
Proof. unfold sha256_S0. rewrite !ror_ROTR by lia. reflexivity. Qed.
Lemma S1_Sigma x : sha256_S1 x = Sigma 32 (s2_S1 sha2_32) x.
Proof. unfold sha256_S1. rewrite !ror_ROTR by lia. reflexivity. Qed.
Lemma s0_sigma x : sha256_s0 x = sigma 32 (s2_s0 sha2_32) x.
Proof. unfold sha256_s0. rewrite !ror_ROTR by lia. reflexivity. Qed.
Lemma s1_sigma x : sha256_s1 x = sigma 32 (s2_s1 sha2_32) x.
Proof. unfold sha256_s1. rewrite !ror_ROTR by lia. reflexivity. Qed.

Lemma step_round W v t : words8 32 v -> sha256_step v (lane_add (nth t W 0) (sha2_K sha2_32 t)) = sha2_round sha2_32 W v t.
Proof.
  destruct v as [[[[[[[a b] c] d] e] f] g] h]. intros (Ha & Hb & Hc & Hd & He & Hf & Hg & Hh).
  unfold sha256_step, sha2_round. change (s2_w sha2_32) with 32. 
  assert (EC : sha256_ch e f g = Ch 32 e f g) by (unfold sha256_ch, Ch; rewrite not_compl by exact He; reflexivity).
  rewrite EC, S0_Sigma, S1_Sigma. change (sha256_maj a b c) with (Maj a b c).
  rewrite sum_eq. cbn [fold_right]. unfold lane_add, add.
  generalize (Ch 32 e f g), (Sigma 32 (s2_S1 sha2_32) e), (Maj a b c), (Sigma 32 (s2_S0 sha2_32) a), (nth t W 0), (sha2_K sha2_32 t).
  intros ch s1 mj s0 w k.
  assert (E1 : (ch + s1 + (w + k) mod 2 ^ 32 + h + mj + s0) mod 2 ^ 32 = ((h + (s1 + (ch + (k + (w + 0))))) mod 2 ^ 32 + (s0 + mj) mod 2 ^ 32) mod 2 ^ 32).
  { rewrite <- N.add_mod by lia.
    replace (ch + s1 + (w + k) mod 2 ^ 32 + h + mj + s0) with (ch + s1 + h + mj + s0 + (w + k) mod 2 ^ 32) by lia.
    rewrite N.add_mod_idemp_r by lia. f_equal. lia. }
  assert (E2 : (ch + s1 + (w + k) mod 2 ^ 32 + h + d) mod 2 ^ 32 = (d + (h + (s1 + (ch + (k + (w + 0))))) mod 2 ^ 32) mod 2 ^ 32).
  { rewrite N.add_mod_idemp_r by lia.
    replace (ch + s1 + (w + k) mod 2 ^ 32 + h + d) with (ch + s1 + h + d + (w + k) mod 2 ^ 32) by lia.
    rewrite N.add_mod_idemp_r by lia. f_equal. lia. }
  rewrite E1, E2. reflexivity.
Qed.

Definition abef (v : vars8) : vec := let '(a, b, c, d, e, f, g, h) := v in [f; e; b; a].
Definition cdgh (v : vars8) : vec := let '(a, b, c, d, e, f, g, h) := v in [h; g; d; c].

Lemma rnds2_two W v t x : words8 32 v -> lane 0 x = lane_add (nth t W 0) (sha2_K sha2_32 t) ->
  lane 1 x = lane_add (nth (S t) W 0) (sha2_K sha2_32 (S t)) ->
  sha256rnds2 (cdgh v) (abef v) x = abef (sha2_round sha2_32 W (sha2_round sha2_32 W v t) (S t)).
Proof.
  intros Hv E0 E1. unfold sha256rnds2. rewrite E0, E1.
  assert (E : (lane 3 (abef v), lane 2 (abef v), lane 3 (cdgh v), lane 2 (cdgh v), lane 1 (abef v), lane 0 (abef v), lane 1 (cdgh v), lane 0 (cdgh v)) = v)
    by (destruct v as [[[[[[[a b] c] d] e] f] g] h]; reflexivity).
  rewrite E, (step_round W v t) by exact Hv. rewrite step_round by (apply (sha2_round_words sha2_32); exact Hv). reflexivity.
Qed.
Lemma cdgh_two W v t t' : cdgh (sha2_round sha2_32 W (sha2_round sha2_32 W v t) t') = abef v.
Proof. destruct v as [[[[[[[a b] c] d] e] f] g] h]. reflexivity. Qed.

Section Block2.
  Variable H0 : vars8.
  Variable Wl : list N.
  Hypothesis WH : words8 32 H0.
  Definition V2 (t : nat) : vars8 := fold_left (sha2_round sha2_32 Wl) (seq 0 t) H0.
  Notation W t := (nth t Wl 0).
  Definition B0 (g : nat) : vec := abef (V2 (4 * g)).
  Definition C0 (g : nat) : vec := cdgh (V2 (4 * g)).
  Definition M2 (g : nat) : vec := [W (4 * g); W (4 * g + 1); W (4 * g + 2); W (4 * g + 3)].
  Definition KW (g : nat) : vec := paddd (M2 g) (m_k g).

  Lemma V2_S t : V2 (S t) = sha2_round sha2_32 Wl (V2 t) t.
  Proof. apply fold_left_seq_S. Qed.
  Lemma V2_words t : words8 32 (V2 t).
  Proof. induction t as [|t IH]; [exact WH|]. rewrite V2_S. apply (sha2_round_words sha2_32), IH. Qed.

  Lemma rnds2_lo g : (g < 16)%nat -> sha256rnds2 (C0 g) (B0 g) (KW g) = C0 (S g).
  Proof.
    intros Hg. unfold C0, B0. rewrite (rnds2_two Wl _ (4 * g)); [|apply V2_words| |].
    - replace (4 * S g)%nat with (S (S (S (S (4 * g))))) by lia. rewrite !V2_S, cdgh_two. reflexivity.
    - unfold KW. rewrite k_table by exact Hg. reflexivity.
    - unfold KW. rewrite k_table by exact Hg. replace (S (4 * g)) with (4 * g + 1)%nat by lia. reflexivity.
  Qed.
  Lemma rnds2_hi g : (g < 16)%nat -> sha256rnds2 (B0 g) (C0 (S g)) (rsh (KW g)) = B0 (S g).
  Proof.
    intros Hg. unfold C0, B0. replace (4 * S g)%nat with (S (S (S (S (4 * g))))) by lia. rewrite (V2_S (S (S (S (4 * g))))), (V2_S (S (S (4 * g)))), cdgh_two.
    assert (E : abef (V2 (4 * g)) = cdgh (V2 (S (S (4 * g))))) by (rewrite !V2_S, cdgh_two; reflexivity).
    rewrite E. rewrite (rnds2_two Wl _ (S (S (4 * g)))); [reflexivity|apply V2_words| |].
    - unfold KW. rewrite k_table by exact Hg. replace (S (S (4 * g))) with (4 * g + 2)%nat by lia. reflexivity.
    - unfold KW. rewrite k_table by exact Hg. replace (S (S (S (4 * g)))) with (4 * g + 3)%nat by lia. reflexivity.
  Qed.

  Definition Y (g : nat) : vec := sha256msg1 (M2 g) (M2 (S g)).
  Hypothesis REC2 : forall t, (16 <= t < 64)%nat -> W t = sum 32 [sigma 32 (s2_s1 sha2_32) (W (t - 2)); W (t - 7); sigma 32 (s2_s0 sha2_32) (W (t - 15)); W (t - 16)].
  Lemma four a b c d : lane_add (lane_add (lane_add a b) c) d = sum 32 [d; c; b; a].
  Proof.
    rewrite sum_eq. cbn [fold_right]. unfold lane_add. rewrite (N.add_comm _ c), N.add_mod_idemp_r, (N.add_comm _ d), N.add_mod_idemp_r by lia.
    f_equal. lia.
  Qed.
  Lemma msg2_M2 g : (g <= 11)%nat -> sha256msg2 (paddd (Y g) (palignr 4 (M2 (3 + g)) (M2 (2 + g)))) (M2 (3 + g)) = M2 (4 + g).
  Proof.
    intros Hg. unfold Y, sha256msg1, M2, palignr. change (4 / 4)%nat with 1%nat. cbn [app skipn firstn paddd map2 lane nth].
    unfold sha256msg2. cbn [lane nth]. rewrite !s0_sigma, !s1_sigma, !four.
    assert (E0 : sum 32 [sigma 32 (s2_s1 sha2_32) (W (4 * (3 + g) + 2)); W (4 * (2 + g) + 1); sigma 32 (s2_s0 sha2_32) (W (4 * g + 1)); W (4 * g)] = W (4 * (4 + g))).
    { rewrite (REC2 (4 * (4 + g))) by lia.
      replace (4 * (4 + g) - 2)%nat with (4 * (3 + g) + 2)%nat by lia. replace (4 * (4 + g) - 7)%nat with (4 * (2 + g) + 1)%nat by lia.
      replace (4 * (4 + g) - 15)%nat with (4 * g + 1)%nat by lia. replace (4 * (4 + g) - 16)%nat with (4 * g)%nat by lia. reflexivity. }
    assert (E1 : sum 32 [sigma 32 (s2_s1 sha2_32) (W (4 * (3 + g) + 3)); W (4 * (2 + g) + 2); sigma 32 (s2_s0 sha2_32) (W (4 * g + 2)); W (4 * g + 1)] = W (4 * (4 + g) + 1)).
    { rewrite (REC2 (4 * (4 + g) + 1)) by lia.
      replace (4 * (4 + g) + 1 - 2)%nat with (4 * (3 + g) + 3)%nat by lia. replace (4 * (4 + g) + 1 - 7)%nat with (4 * (2 + g) + 2)%nat by lia.
      replace (4 * (4 + g) + 1 - 15)%nat with (4 * g + 2)%nat by lia. replace (4 * (4 + g) + 1 - 16)%nat with (4 * g + 1)%nat by lia. reflexivity. }
    rewrite E0, E1.
    assert (E2 : sum 32 [sigma 32 (s2_s1 sha2_32) (W (4 * (4 + g))); W (4 * (2 + g) + 3); sigma 32 (s2_s0 sha2_32) (W (4 * g + 3)); W (4 * g + 2)] = W (4 * (4 + g) + 2)).
    { rewrite (REC2 (4 * (4 + g) + 2)) by lia.
      replace (4 * (4 + g) + 2 - 2)%nat with (4 * (4 + g))%nat by lia. replace (4 * (4 + g) + 2 - 7)%nat with (4 * (2 + g) + 3)%nat by lia.
      replace (4 * (4 + g) + 2 - 15)%nat with (4 * g + 3)%nat by lia. replace (4 * (4 + g) + 2 - 16)%nat with (4 * g + 2)%nat by lia. reflexivity. }
    assert (E3 : sum 32 [sigma 32 (s2_s1 sha2_32) (W (4 * (4 + g) + 1)); W (4 * (3 + g)); sigma 32 (s2_s0 sha2_32) (W (4 * S g)); W (4 * g + 3)] = W (4 * (4 + g) + 3)).
    { rewrite (REC2 (4 * (4 + g) + 3)) by lia.
      replace (4 * (4 + g) + 3 - 2)%nat with (4 * (4 + g) + 1)%nat by lia. replace (4 * (4 + g) + 3 - 7)%nat with (4 * (3 + g))%nat by lia.
      replace (4 * (4 + g) + 3 - 15)%nat with (4 * S g)%nat by lia. replace (4 * (4 + g) + 3 - 16)%nat with (4 * g + 3)%nat by lia. reflexivity. }
    rewrite E2, E3. reflexivity.
  Qed.

  Variables (rest : list vec) (mem : list N) (o : nat) (st : list N).
  Definition T0 h x y := mk (x :: B0 (3 + h) :: C0 (3 + h) :: Y h :: Y (1 + h) :: M2 (2 + h) :: M2 (3 + h) :: y :: rest) mem o st.
  Definition T1 h x y := mk (x :: B0 (3 + h) :: C0 (3 + h) :: M2 (3 + h) :: Y h :: Y (1 + h) :: M2 (2 + h) :: y :: rest) mem o st.
  Definition T2 h x y := mk (x :: B0 (3 + h) :: C0 (3 + h) :: M2 (2 + h) :: M2 (3 + h) :: Y h :: Y (1 + h) :: y :: rest) mem o st.
  Definition T3 h x y := mk (x :: B0 (3 + h) :: C0 (3 + h) :: Y (1 + h) :: M2 (2 + h) :: M2 (3 + h) :: Y h :: y :: rest) mem o st.
  Ltac go h := match goal with |- context [paddd (M2 (3 + h)) (m_k (3 + h))] => change (paddd (M2 (3 + h)) (m_k (3 + h))) with (KW (3 + h)) end;
    rewrite (rnds2_lo (3 + h)) by lia; rewrite (rnds2_hi (3 + h)) by lia; rewrite msg2_M2 by lia; reflexivity.
  Lemma stage2_0 h x y : (h <= 9)%nat -> exists x' y', srun (sha_2_256_rounds 0 1 2 3 (3 + h)) (T0 h x y) = Some (T1 (S h) x' y').
  Proof. intros Hh. do 2 eexists. unfold T0. rewrite macro2_0. cbv zeta. go h. Qed.
  Lemma stage2_1 h x y : (h <= 9)%nat -> exists x' y', srun (sha_2_256_rounds 1 2 3 0 (3 + h)) (T1 h x y) = Some (T2 (S h) x' y').
  Proof. intros Hh. do 2 eexists. unfold T1. rewrite macro2_1. cbv zeta. go h. Qed.
  Lemma stage2_2 h x y : (h <= 9)%nat -> exists x' y', srun (sha_2_256_rounds 2 3 0 1 (3 + h)) (T2 h x y) = Some (T3 (S h) x' y').
  Proof. intros Hh. do 2 eexists. unfold T2. rewrite macro2_2. cbv zeta. go h. Qed.
  Lemma stage2_3 h x y : (h <= 9)%nat -> exists x' y', srun (sha_2_256_rounds 3 0 1 2 (3 + h)) (T3 h x y) = Some (T0 (S h) x' y').
  Proof. intros Hh. do 2 eexists. unfold T3. rewrite macro2_3. cbv zeta. go h. Qed.

  Lemma stages2 x y : exists x' y', srun (
    sha_2_256_rounds 0 1 2 3 3 ++ sha_2_256_rounds 1 2 3 0 4 ++ sha_2_256_rounds 2 3 0 1 5 ++ sha_2_256_rounds 3 0 1 2 6 ++
    sha_2_256_rounds 0 1 2 3 7 ++ sha_2_256_rounds 1 2 3 0 8 ++ sha_2_256_rounds 2 3 0 1 9 ++ sha_2_256_rounds 3 0 1 2 10 ++
    sha_2_256_rounds 0 1 2 3 11 ++ sha_2_256_rounds 1 2 3 0 12) (T0 0 x y) = Some (T2 10 x' y').
  Proof.
    destruct (stage2_0 0 x y ltac:(lia)) as (x1 & y1 & E1). destruct (stage2_1 1 x1 y1 ltac:(lia)) as (x2 & y2 & E2).
    destruct (stage2_2 2 x2 y2 ltac:(lia)) as (x3 & y3 & E3). destruct (stage2_3 3 x3 y3 ltac:(lia)) as (x4 & y4 & E4).
    destruct (stage2_0 4 x4 y4 ltac:(lia)) as (x5 & y5 & E5). destruct (stage2_1 5 x5 y5 ltac:(lia)) as (x6 & y6 & E6).
    destruct (stage2_2 6 x6 y6 ltac:(lia)) as (x7 & y7 & E7). destruct (stage2_3 7 x7 y7 ltac:(lia)) as (x8 & y8 & E8).
    destruct (stage2_0 8 x8 y8 ltac:(lia)) as (x9 & y9 & E9). destruct (stage2_1 9 x9 y9 ltac:(lia)) as (x10 & y10 & E10).
    exists x10, y10.
    change 3%nat with (3 + 0)%nat at 3. change 4%nat with (3 + 1)%nat. change 5%nat with (3 + 2)%nat. change 6%nat with (3 + 3)%nat. change 7%nat with (3 + 4)%nat.
    rewrite srun_app. etransitivity; [apply (f_equal (fun z => bind z _)); exact E1|]. cbn [bind].
    rewrite srun_app. etransitivity; [apply (f_equal (fun z => bind z _)); exact E2|]. cbn [bind].
    rewrite srun_app. etransitivity; [apply (f_equal (fun z => bind z _)); exact E3|]. cbn [bind].
    rewrite srun_app. etransitivity; [apply (f_equal (fun z => bind z _)); exact E4|]. cbn [bind].
    rewrite srun_app. etransitivity; [apply (f_equal (fun z => bind z _)); exact E5|]. cbn [bind].
    rewrite srun_app. etransitivity; [apply (f_equal (fun z => bind z _)); exact E6|]. cbn [bind].
    rewrite srun_app. etransitivity; [apply (f_equal (fun z => bind z _)); exact E7|]. cbn [bind].
    rewrite srun_app. etransitivity; [apply (f_equal (fun z => bind z _)); exact E8|]. cbn [bind].
    rewrite srun_app. etransitivity; [apply (f_equal (fun z => bind z _)); exact E9|]. cbn [bind].
    exact E10.
  Qed.
End Block2.

Definition compress8 (v : vars8) (blk : list N) : vars8 :=
  let '(a, b, c, d, e, f, g, h) := v in
  let '(a', b', c', d', e', f', g', h') := fold_left (sha2_round sha2_32 (sha2_schedule sha2_32 48 (be_words 4 16 blk))) (seq 0 64) v in
  (add 32 a' a, add 32 b' b, add 32 c' c, add 32 d' d, add 32 e' e, add 32 f' f, add 32 g' g, add 32 h' h).

Lemma sha2_block v xi m0 m1 m2 m3 m4 s0 s1 rest mem o st : words8 32 v -> bytes mem -> (o + 64 <= length mem)%nat ->
  exists xi' m0' m1' m2' m3' m4' s0' s1', srun sha2_body (mk (xi :: abef v :: cdgh v :: m0 :: m1 :: m2 :: m3 :: m4 :: blanes mask_bytes2 :: s0 :: s1 :: rest) mem o st)
  = let v' := compress8 v (firstn 64 (skipn o mem)) in
    Some (mk (xi' :: abef v' :: cdgh v' :: m0' :: m1' :: m2' :: m3' :: m4' :: blanes mask_bytes2 :: s0' :: s1' :: rest) mem (o + 64) st).
Proof.
  intros Hv Hb Ho. cbv zeta. set (blk := firstn 64 (skipn o mem)).
  assert (BL : length blk = 64%nat) by (unfold blk; rewrite firstn_length, skipn_length; lia).
  assert (BB : bytes blk) by (apply bytes_firstn, bytes_skipn, Hb).
  set (Wl := sha2_schedule sha2_32 48 (be_words 4 16 blk)).
  assert (W0 : forall t, (t < 16)%nat -> nth t Wl 0 = nth t (be_words 4 16 blk) 0).
  { intros t Ht. unfold Wl. rewrite sha2_schedule_ext. rewrite <- (nth_firstn_lt 0 _ t 16) by exact Ht.
    pose proof (ext_firstn (sha2_next sha2_32) 48 (be_words 4 16 blk)) as EF. rewrite be_words_length in EF. rewrite EF. reflexivity. }
  assert (REC : forall t, (16 <= t < 64)%nat -> nth t Wl 0 = sum 32 [sigma 32 (s2_s1 sha2_32) (nth (t - 2) Wl 0); nth (t - 7) Wl 0; sigma 32 (s2_s0 sha2_32) (nth (t - 15) Wl 0); nth (t - 16) Wl 0]).
  { intros t Ht. unfold Wl at 1. rewrite sha2_schedule_ext, ext_rec by (rewrite be_words_length; lia).
    rewrite <- sha2_schedule_ext. fold Wl. unfold sha2_next.
    assert (L : length (firstn t Wl) = t).
    { rewrite firstn_length. unfold Wl. rewrite sha2_schedule_ext, ext_length, be_words_length. lia. }
    rewrite L. rewrite !nth_firstn_lt by lia. reflexivity. }
  assert (Q : forall g, (g < 4)%nat -> exists l, rds mem (o + 16 * g) 16 = Some l /\ pshufb (blanes l) (vbytes (blanes mask_bytes2)) = M2 Wl g).
  { intros g Hg. eexists. split; [apply rds_some; lia|].
    rewrite shuf2.
    - replace (firstn 16 (skipn (o + 16 * g) mem)) with (firstn 16 (skipn (16 * g) blk)).
      + rewrite quarter by assumption. unfold M2. rewrite !W0 by lia. reflexivity.
      + unfold blk. rewrite skipn_firstn_comm, firstn_firstn, skipn_skipn. f_equal; [lia|]. f_equal. lia.
    - apply bytes_firstn, bytes_skipn, Hb.
    - rewrite firstn_length, skipn_length. lia. }
  destruct (Q 0%nat ltac:(lia)) as (l0 & R0 & P0). destruct (Q 1%nat ltac:(lia)) as (l1 & R1 & P1).
  destruct (Q 2%nat ltac:(lia)) as (l2 & R2 & P2). destruct (Q 3%nat ltac:(lia)) as (l3 & R3 & P3).
  pose proof (first2_exec xi (abef v) (cdgh v) m0 m1 m2 m3 m4 (blanes mask_bytes2) s0 s1 rest mem o st l0 l1 l2 l3 _ _ _ _ R0 R1 R2 R3 P0 P1 P2 P3) as F.
  cbv beta zeta in F. change (abef v) with (B0 v Wl 0) in F. change (cdgh v) with (C0 v Wl 0) in F.
  change (paddd (M2 Wl 0) (m_k 0)) with (KW Wl 0) in F. change (paddd (M2 Wl 1) (m_k 1)) with (KW Wl 1) in F. change (paddd (M2 Wl 2) (m_k 2)) with (KW Wl 2) in F.
  rewrite (rnds2_lo v Wl Hv 0) in F by lia. rewrite (rnds2_hi v Wl Hv 0) in F by lia.
  rewrite (rnds2_lo v Wl Hv 1) in F by lia. rewrite (rnds2_hi v Wl Hv 1) in F by lia.
  rewrite (rnds2_lo v Wl Hv 2) in F by lia. rewrite (rnds2_hi v Wl Hv 2) in F by lia.
  destruct (stages2 v Wl Hv REC (blanes mask_bytes2 :: B0 v Wl 0 :: C0 v Wl 0 :: rest) mem (o + 64) st (rsh (KW Wl 2)) m4) as (x' & y' & SG).
  pose proof (last2_exec x' (B0 v Wl 13) (C0 v Wl 13) (M2 Wl 12) (M2 Wl 13) (Y Wl 10) (Y Wl 11) y' (blanes mask_bytes2) (B0 v Wl 0) (C0 v Wl 0) rest mem (o + 64) st) as LE.
  assert (N14 : sha256msg2 (paddd (Y Wl 10) (palignr 4 (M2 Wl 13) (M2 Wl 12))) (M2 Wl 13) = M2 Wl 14) by (apply (msg2_M2 Wl REC 10); lia).
  assert (N15 : sha256msg2 (paddd (Y Wl 11) (palignr 4 (M2 Wl 14) (M2 Wl 13))) (M2 Wl 14) = M2 Wl 15) by (apply (msg2_M2 Wl REC 11); lia).
  cbv beta zeta in LE. rewrite N14 in LE. rewrite N15 in LE.
  change (paddd (M2 Wl 13) (m_k 13)) with (KW Wl 13) in LE. change (paddd (M2 Wl 14) (m_k 14)) with (KW Wl 14) in LE. change (paddd (M2 Wl 15) (m_k 15)) with (KW Wl 15) in LE.
  rewrite (rnds2_lo v Wl Hv 13) in LE by lia. rewrite (rnds2_hi v Wl Hv 13) in LE by lia.
  rewrite (rnds2_lo v Wl Hv 14) in LE by lia. rewrite (rnds2_hi v Wl Hv 14) in LE by lia.
  rewrite (rnds2_lo v Wl Hv 15) in LE by lia. rewrite (rnds2_hi v Wl Hv 15) in LE by lia.
  assert (FIN : paddd (B0 v Wl 16) (B0 v Wl 0) = abef (compress8 v blk) /\ paddd (C0 v Wl 16) (C0 v Wl 0) = cdgh (compress8 v blk)).
  { unfold B0, C0, compress8. fold Wl. change (V2 v Wl (4 * 16)) with (fold_left (sha2_round sha2_32 Wl) (seq 0 64) v). change (V2 v Wl (4 * 0)) with v.
    destruct (fold_left (sha2_round sha2_32 Wl) (seq 0 64) v) as [[[[[[[a' b'] c'] d'] e'] f'] g'] h'].
    destruct v as [[[[[[[a b] c] d] e] f] g] h]. split; reflexivity. }
  destruct FIN as [F0 F1]. rewrite F0, F1 in LE.
  do 8 eexists.
  change sha2_body with (sha2_first ++ (
    sha_2_256_rounds 0 1 2 3 3 ++ sha_2_256_rounds 1 2 3 0 4 ++ sha_2_256_rounds 2 3 0 1 5 ++ sha_2_256_rounds 3 0 1 2 6 ++
    sha_2_256_rounds 0 1 2 3 7 ++ sha_2_256_rounds 1 2 3 0 8 ++ sha_2_256_rounds 2 3 0 1 9 ++ sha_2_256_rounds 3 0 1 2 10 ++
    sha_2_256_rounds 0 1 2 3 11 ++ sha_2_256_rounds 1 2 3 0 12) ++ sha2_last).
  rewrite srun_app. change (abef v) with (B0 v Wl 0) at 1. change (cdgh v) with (C0 v Wl 0) at 1. rewrite F. cbn [bind].
  match goal with |- srun _ ?m = _ => change m with (T0 v Wl (blanes mask_bytes2 :: B0 v Wl 0 :: C0 v Wl 0 :: rest) mem (o + 64) st 0 (rsh (KW Wl 2)) m4) end.
  rewrite srun_app, SG. cbn [bind]. exact LE.
Qed.

(** *** The routine *)
Lemma compress8_list v blk : list8 (compress8 v blk) = sha2_compress sha2_32 (list8 v) blk.
Proof.
  destruct v as [[[[[[[a b] c] d] e] f] g] h]. unfold compress8, sha2_compress, list8. cbn [nth].
  change (s2_rounds sha2_32 - 16)%nat with 48%nat. change (s2_b sha2_32) with 4%nat. change (s2_rounds sha2_32) with 64%nat. change (s2_w sha2_32) with 32.
  destruct (fold_left (sha2_round sha2_32 (sha2_schedule sha2_32 48 (be_words 4 16 blk))) (seq 0 64) (a, b, c, d, e, f, g, h)) as [[[[[[[a' b'] c'] d'] e'] f'] g'] h'].
  reflexivity.
Qed.
Lemma compress8_words v blk : words8 32 (compress8 v blk).
Proof.
  destruct v as [[[[[[[a b] c] d] e] f] g] h]. unfold compress8.
  destruct (fold_left (sha2_round sha2_32 (sha2_schedule sha2_32 48 (be_words 4 16 blk))) (seq 0 64) (a, b, c, d, e, f, g, h)) as [[[[[[[a' b'] c'] d'] e'] f'] g'] h'].
  unfold words8, add. repeat split; apply N.mod_lt; lia.
Qed.
Lemma sha2_loop n : forall v xi m0 m1 m2 m3 m4 s0 s1 rest mem o st, words8 32 v -> bytes mem -> (o + 64 * n <= length mem)%nat ->
  exists v' xi' m0' m1' m2' m3' m4' s0' s1' o',
    sloop sha2_body n (mk (xi :: abef v :: cdgh v :: m0 :: m1 :: m2 :: m3 :: m4 :: blanes mask_bytes2 :: s0 :: s1 :: rest) mem o st)
    = Some (mk (xi' :: abef v' :: cdgh v' :: m0' :: m1' :: m2' :: m3' :: m4' :: blanes mask_bytes2 :: s0' :: s1' :: rest) mem o' st) /\
    list8 v' = iter_blocks 64 n (sha2_compress sha2_32) (list8 v) (skipn o mem).
Proof.
  induction n as [|n IH]; intros v xi m0 m1 m2 m3 m4 s0 s1 rest mem o st Hv Hb Ho.
  - do 10 eexists. split; [reflexivity|]. reflexivity.
  - destruct (sha2_block v xi m0 m1 m2 m3 m4 s0 s1 rest mem o st Hv Hb ltac:(lia)) as (a & b & c & d & e & f & g & h & E).
    cbv zeta in E. cbn [sloop]. rewrite E. cbn [bind].
    destruct (IH (compress8 v (firstn 64 (skipn o mem))) a b c d e f g h rest mem (o + 64)%nat st (compress8_words _ _) Hb ltac:(lia))
      as (v' & xi' & m0' & m1' & m2' & m3' & m4' & s0' & s1' & o' & E' & L).
    exists v', xi', m0', m1', m2', m3', m4', s0', s1', o'. split; [exact E'|]. cbn [iter_blocks].
    rewrite L, compress8_list, skipn_skipn. do 2 f_equal. lia.
Qed.

Lemma sha2_ni_blocks_spec junk n st src : length junk = 16%nat -> bytes src -> (n * 64 <= length src)%nat ->
  length st = 8%nat -> words 32 st -> sha2_ni_blocks junk n st src = Some (iter_blocks 64 n (sha2_compress sha2_32) st src).
Proof.
  intros J Hb Hn Hl Hw. do 11 (destruct junk as [|? junk]; [discriminate J|]).
  do 8 (destruct st as [|? st]; [discriminate Hl|]). destruct st; [|discriminate Hl].
  rename n0 into a, n1 into b, n2 into c, n3 into d, n4 into e, n5 into f, n6 into g, n7 into h.
  assert (Hv : words8 32 (a, b, c, d, e, f, g, h)).
  { pose proof (fun i => nth_word 32 _ i Hw) as G. repeat split; [exact (G 0%nat)|exact (G 1%nat)|exact (G 2%nat)|exact (G 3%nat)|exact (G 4%nat)|exact (G 5%nat)|exact (G 6%nat)|exact (G 7%nat)]. }
  unfold sha2_ni_blocks, routine.
  match goal with |- bind (srun sha2_load ?m) _ = _ =>
    assert (E : srun sha2_load m = Some (mk (v :: abef (a, b, c, d, e, f, g, h) :: cdgh (a, b, c, d, e, f, g, h) :: v2 :: v3 :: v4 :: v5 :: v6 :: blanes mask_bytes2
      :: [b; a; d; c] :: [f; e; h; g] :: junk) src 0 [a; b; c; d; e; f; g; h])) by reflexivity
  end.
  rewrite E. cbn [bind].
  destruct (sha2_loop n (a, b, c, d, e, f, g, h) v v2 v3 v4 v5 v6 [b; a; d; c] [f; e; h; g] junk src 0 [a; b; c; d; e; f; g; h] Hv Hb ltac:(lia))
    as (v' & xi' & m0' & m1' & m2' & m3' & m4' & s0' & s1' & o' & E' & L).
  refine (eq_trans (f_equal (fun z => bind z _) E') _). cbn [bind]. change (skipn 0 src) with src in L. change (list8 (a, b, c, d, e, f, g, h)) with [a; b; c; d; e; f; g; h] in L. rewrite <- L.
  destruct v' as [[[[[[[a' b'] c'] d'] e'] f'] g'] h']. reflexivity.
Qed.
