(** The limb arithmetic of Poly1305 never wraps and computes modulo 2^130 - 5. *)
From Verif Require Import Base BaseLemmas Spec_Bytes Spec_Poly Model_Memory Model_Update Model_Poly
  BytesLemmas Proof_Memory Proof_Memory2.
Local Open Scope N_scope.

Lemma fits_ok ov w x : x < 2 ^ w -> fits ov w x = Some x.
Proof.
  intros H. unfold fits. destruct ov; [rewrite N.mod_small by assumption; reflexivity|].
  rewrite (proj2 (N.ltb_lt _ _) H). reflexivity.
Qed.
Lemma uadd64 ov x y : x + y < 2 ^ 64 -> uadd ov 64 x y = Some (x + y).
Proof. apply fits_ok. Qed.
Lemma umul64 ov x y : x * y < 2 ^ 64 -> umul ov 64 x y = Some (x * y).
Proof. apply fits_ok. Qed.

Definition W : N := 4294967296.
Definition lval (a : limbs) : N :=
  let '(a0, a1, a2, a3, a4) := a in a0 + W * (a1 + W * (a2 + W * (a3 + W * a4))).

(** Limbs below 2^32, the top one at most [b]. *)
Definition lok (b : N) (a : limbs) : Prop :=
  let '(a0, a1, a2, a3, a4) := a in a0 < W /\ a1 < W /\ a2 < W /\ a3 < W /\ a4 <= b.

Lemma split32 x : x = W * (N.shiftr x 32) + trunc 32 x /\ trunc 32 x < W.
Proof.
  unfold trunc. rewrite N.shiftr_div_pow2. change (2 ^ 32) with W. split.
  - apply N.div_mod. discriminate.
  - apply N.mod_lt. discriminate.
Qed.
Ltac sp x h l E B :=
  destruct (split32 x) as [E B];
  let Eh := fresh "Sh" in let El := fresh "Sl" in
  remember (N.shiftr x 32) as h eqn:Eh; remember (trunc 32 x) as l eqn:El; symmetry in Eh, El.
Ltac spr := repeat match goal with
  | H : N.shiftr _ _ = _ |- _ => rewrite H
  | H : trunc _ _ = _ |- _ => rewrite H end.

(** Split into the pure function and its properties. *)
Definition pure_add (t0 t1 t2 t3 add : N) (a : limbs) : limbs :=
  let '(a0, a1, a2, a3, a4) := a in
  let t0 := t0 + a0 in
  let t1 := t1 + (a1 + N.shiftr t0 32) in
  let t2 := t2 + (a2 + N.shiftr t1 32) in
  let t3 := t3 + (a3 + N.shiftr t2 32) in
  (trunc 32 t0, trunc 32 t1, trunc 32 t2, trunc 32 t3, a4 + (N.shiftr t3 32 + add)).

Ltac u64 := rewrite uadd64 by (change (2 ^ 64) with 18446744073709551616; lia); cbn [bind].
Ltac m64 := rewrite umul64 by (change (2 ^ 64) with 18446744073709551616; lia); cbn [bind].

Lemma add_block_spec t0 t1 t2 t3 add a : t0 < W -> t1 < W -> t2 < W -> t3 < W -> add <= 1 -> lok 4 a ->
  (forall ov, poly_add_block ov t0 t1 t2 t3 add a = Some (pure_add t0 t1 t2 t3 add a)) /\
  lok 6 (pure_add t0 t1 t2 t3 add a) /\
  lval (pure_add t0 t1 t2 t3 add a) = lval a + (t0 + W * (t1 + W * (t2 + W * (t3 + W * add)))).
Proof.
  intros H0 H1 H2 H3 Ha. destruct a as [[[[a0 a1] a2] a3] a4]. intros (B0 & B1 & B2 & B3 & B4).
  unfold poly_add_block, pure_add. cbv zeta.
  sp (t0 + a0) h0 l0 E0 L0.
  sp (t1 + (a1 + h0)) h1 l1 E1 L1.
  sp (t2 + (a2 + h1)) h2 l2 E2 L2.
  sp (t3 + (a3 + h2)) h3 l3 E3 L3.
  unfold lok, lval, W in *. split; [|split].
  - intros ov.
    do 7 (u64; spr). rewrite fits_ok by (change (2 ^ 32) with 4294967296; lia). cbn [bind].
    unfold uadd at 1. rewrite fits_ok by (change (2 ^ 32) with 4294967296; lia). cbn [bind].
    u64. spr. reflexivity.
  - repeat split; try assumption; lia.
  - lia.
Qed.

Definition pure_mul (k0 k1 k2 k3 k4 k5 k6 k7 : N) (a : limbs) : limbs :=
  let '(a0, a1, a2, a3, a4) := a in
  let t0 := k0 * a0 + k7 * a1 + k6 * a2 + k5 * a3 + k4 * a4 in
  let t1 := k1 * a0 + k0 * a1 + k7 * a2 + k6 * a3 + k5 * a4 in
  let t2 := k2 * a0 + k1 * a1 + k0 * a2 + k7 * a3 + k6 * a4 in
  let t3 := k3 * a0 + k2 * a1 + k1 * a2 + k0 * a3 + k7 * a4 in
  let c := N.land k0 3 * a4 + N.shiftr t3 32 in
  let b0 := trunc 32 t0 + N.shiftr c 2 * 5 in
  let b1 := trunc 32 t1 + N.shiftr b0 32 + N.shiftr t0 32 in
  let b2 := trunc 32 t2 + N.shiftr b1 32 + N.shiftr t1 32 in
  let b3 := trunc 32 t3 + N.shiftr b2 32 + N.shiftr t2 32 in
  let b4 := N.shiftr b3 32 + N.land c 3 in
  (trunc 32 b0, trunc 32 b1, trunc 32 b2, trunc 32 b3, b4).

Lemma prod_le (k a kb ab : N) : k <= kb -> a <= ab -> k * a <= kb * ab.
Proof. intros. apply N.mul_le_mono; assumption. Qed.

Lemma dot5_ok ov k0 x0 k1 x1 k2 x2 k3 x3 k4 x4 :
  k0 * x0 + k1 * x1 + k2 * x2 + k3 * x3 + k4 * x4 < 2 ^ 64 ->
  dot5 ov k0 x0 k1 x1 k2 x2 k3 x3 k4 x4 = Some (k0 * x0 + k1 * x1 + k2 * x2 + k3 * x3 + k4 * x4).
Proof.
  intros H. unfold dot5.
  set (p0 := k0 * x0) in *. set (p1 := k1 * x1) in *. set (p2 := k2 * x2) in *.
  set (p3 := k3 * x3) in *. set (p4 := k4 * x4) in *.
  rewrite (umul64 ov k0 x0), (umul64 ov k1 x1), (umul64 ov k2 x2), (umul64 ov k3 x3), (umul64 ov k4 x4)
    by (fold p0 p1 p2 p3 p4; lia).
  fold p0 p1 p2 p3 p4. clearbody p0 p1 p2 p3 p4. cbn [bind].
  do 4 (rewrite uadd64 by lia; cbn [bind]). reflexivity.
Qed.

Lemma land3 x : x = 4 * N.shiftr x 2 + N.land x 3 /\ N.land x 3 < 4.
Proof.
  change 3 with (2 ^ 2 - 1). rewrite land_ones_mod, N.shiftr_div_pow2. change (2 ^ 2) with 4.
  split; [apply N.div_mod; discriminate|apply N.mod_lt; discriminate].
Qed.

Lemma mul_spec q0 q1 q2 q3 e a :
  q0 < 2 ^ 26 -> q1 < 2 ^ 26 -> q2 < 2 ^ 26 -> q3 < 2 ^ 26 -> e < 4 -> lok 6 a ->
  let key := [4 * q0 + e; 4 * q1; 4 * q2; 4 * q3; q0 * 5; q1 * 5; q2 * 5; q3 * 5] in
  let r := pure_mul (4 * q0 + e) (4 * q1) (4 * q2) (4 * q3) (q0 * 5) (q1 * 5) (q2 * 5) (q3 * 5) a in
  (forall ov, poly_mul ov key a = Some r) /\ lok 4 r /\
  exists K, lval a * (4 * q0 + e + W * (4 * q1 + W * (4 * q2 + W * (4 * q3)))) = lval r + poly_P * K.
Proof.
  intros Q0 Q1 Q2 Q3 He. destruct a as [[[[a0 a1] a2] a3] a4]. intros (B0 & B1 & B2 & B3 & B4). cbv zeta.
  change (2 ^ 26) with 67108864 in *. unfold W in B0, B1, B2, B3.
  assert (EL : N.land (4 * q0 + e) 3 = e).
  { change 3 with (2 ^ 2 - 1). rewrite land_ones_mod. change (2 ^ 2) with 4.
    rewrite (N.add_comm (4 * q0)), (N.mul_comm 4), N.mod_add by discriminate. apply N.mod_small. exact He. }
  set (k0 := 4 * q0 + e) in *. set (k1 := 4 * q1) in *. set (k2 := 4 * q2) in *. set (k3 := 4 * q3) in *.
  set (k4 := q0 * 5) in *. set (k5 := q1 * 5) in *. set (k6 := q2 * 5) in *. set (k7 := q3 * 5) in *.
  assert (HK : k0 <= 268435455 /\ k1 <= 268435455 /\ k2 <= 268435455 /\ k3 <= 268435455 /\
               k4 <= 335544315 /\ k5 <= 335544315 /\ k6 <= 335544315 /\ k7 <= 335544315) by (unfold k0, k1, k2, k3, k4, k5, k6, k7; lia).
  destruct HK as (K0 & K1 & K2 & K3 & K4 & K5 & K6 & K7).
  assert (Hk : forall k a, k <= 335544315 -> a < 4294967296 -> k * a <= 335544315 * 4294967295)
    by (intros; apply prod_le; lia).
  assert (Hk' : forall k a, k <= 335544315 -> a <= 6 -> k * a <= 335544315 * 6)
    by (intros; apply prod_le; lia).
  assert (Hl : forall k a, k <= 268435455 -> a < 4294967296 -> k * a <= 268435455 * 4294967295)
    by (intros; apply prod_le; lia).
  assert (He4 : e * a4 <= 3 * 6) by (apply prod_le; lia).
  set (t0 := k0 * a0 + k7 * a1 + k6 * a2 + k5 * a3 + k4 * a4).
  set (t1 := k1 * a0 + k0 * a1 + k7 * a2 + k6 * a3 + k5 * a4).
  set (t2 := k2 * a0 + k1 * a1 + k0 * a2 + k7 * a3 + k6 * a4).
  set (t3 := k3 * a0 + k2 * a1 + k1 * a2 + k0 * a3 + k7 * a4).
  assert (T0 : t0 < 5765171140000000000).
  { unfold t0. pose proof (Hl k0 a0 K0 B0). pose proof (Hk k7 a1 K7 B1). pose proof (Hk k6 a2 K6 B2).
    pose proof (Hk k5 a3 K5 B3). pose proof (Hk' k4 a4 K4 B4). lia. }
  assert (T1 : t1 < 5765171140000000000).
  { unfold t1. pose proof (Hl k1 a0 K1 B0). pose proof (Hl k0 a1 K0 B1). pose proof (Hk k7 a2 K7 B2).
    pose proof (Hk k6 a3 K6 B3). pose proof (Hk' k5 a4 K5 B4). lia. }
  assert (T2 : t2 < 5765171140000000000).
  { unfold t2. pose proof (Hl k2 a0 K2 B0). pose proof (Hl k1 a1 K1 B1). pose proof (Hl k0 a2 K0 B2).
    pose proof (Hk k7 a3 K7 B3). pose proof (Hk' k6 a4 K6 B4). lia. }
  assert (T3 : t3 < 5765171140000000000).
  { unfold t3. pose proof (Hl k3 a0 K3 B0). pose proof (Hl k2 a1 K2 B1). pose proof (Hl k1 a2 K1 B2).
    pose proof (Hl k0 a3 K0 B3). pose proof (Hk' k7 a4 K7 B4). lia. }
  unfold pure_mul. fold t0 t1 t2 t3. rewrite EL.
  (* the big sum, before the tail is reduced *)
  assert (Main : (a0 + W * (a1 + W * (a2 + W * (a3 + W * a4)))) * (k0 + W * (k1 + W * (k2 + W * k3)))
    = t0 + W * (t1 + W * (t2 + W * (t3 + W * (e * a4))))
      + poly_P * (q0 * a4 + q1 * (a3 + W * a4) + q2 * (a2 + W * (a3 + W * a4)) + q3 * (a1 + W * (a2 + W * (a3 + W * a4))))).
  { unfold t0, t1, t2, t3, k0, k1, k2, k3, k4, k5, k6, k7, poly_P. change (2 ^ 130 - 5) with 1361129467683753853853498429727072845819.
    unfold W. ring. }
  pose proof (dot5_ok true k0 a0 k7 a1 k6 a2 k5 a3 k4 a4) as _.
  assert (D0 : forall ov, dot5 ov k0 a0 k7 a1 k6 a2 k5 a3 k4 a4 = Some t0)
    by (intros; apply dot5_ok; fold t0; change (2 ^ 64) with 18446744073709551616; lia).
  assert (D1 : forall ov, dot5 ov k1 a0 k0 a1 k7 a2 k6 a3 k5 a4 = Some t1)
    by (intros; apply dot5_ok; fold t1; change (2 ^ 64) with 18446744073709551616; lia).
  assert (D2 : forall ov, dot5 ov k2 a0 k1 a1 k0 a2 k7 a3 k6 a4 = Some t2)
    by (intros; apply dot5_ok; fold t2; change (2 ^ 64) with 18446744073709551616; lia).
  assert (D3 : forall ov, dot5 ov k3 a0 k2 a1 k1 a2 k0 a3 k7 a4 = Some t3)
    by (intros; apply dot5_ok; fold t3; change (2 ^ 64) with 18446744073709551616; lia).
  set (KK := q0 * a4 + q1 * (a3 + W * a4) + q2 * (a2 + W * (a3 + W * a4)) + q3 * (a1 + W * (a2 + W * (a3 + W * a4)))) in *.
  set (LHS := (a0 + W * (a1 + W * (a2 + W * (a3 + W * a4)))) * (k0 + W * (k1 + W * (k2 + W * k3)))) in *.
  clearbody t0 t1 t2 t3 KK.
  sp t0 h0 l0 E0 L0. sp t1 h1 l1 E1 L1. sp t2 h2 l2 E2 L2. sp t3 h3 l3 E3 L3.
  set (x := e * a4) in *. assert (Xe : e * a4 = x) by reflexivity. clearbody x.
  destruct (land3 (x + h3)) as [EC LC].
  remember (N.shiftr (x + h3) 2) as ch eqn:Sch. remember (N.land (x + h3) 3) as cl eqn:Scl. symmetry in Sch, Scl.
  sp (l0 + ch * 5) g0 m0 F0 M0.
  sp (l1 + g0 + h0) g1 m1 F1 M1.
  sp (l2 + g1 + h1) g2 m2 F2 M2.
  sp (l3 + g2 + h2) g3 m3 F3 M3.
  unfold W in *. split; [|split].
  - intros ov. unfold poly_mul. cbn [rd nth_error bind].
    rewrite D0, D1, D2, D3. cbn [bind]. rewrite EL.
    rewrite umul64 by (rewrite Xe; change (2 ^ 64) with 18446744073709551616; lia). cbn [bind]. rewrite Xe. spr.
    u64. rewrite Sch, Scl. m64.
    do 8 (spr; u64). spr.
    rewrite fits_ok by (change (2 ^ 32) with 4294967296; lia). reflexivity.
  - repeat split; try assumption. lia.
  - exists (KK + ch). unfold lval, W. fold LHS. rewrite Main.
    unfold poly_P. change (2 ^ 130 - 5) with 1361129467683753853853498429727072845819. lia.
Qed.

Definition val4 (a0 a1 a2 a3 : N) : N := a0 + W * (a1 + W * (a2 + W * a3)).

Lemma wneg0 : wneg 64 0 = 0. Proof. reflexivity. Qed.
Lemma wneg1 : wneg 64 1 = 2 ^ 64 - 1. Proof. reflexivity. Qed.
Lemma wnot_ones : wnot 64 (2 ^ 64 - 1) = 0. Proof. reflexivity. Qed.
Lemma wnot_0 : wnot 64 0 = 2 ^ 64 - 1. Proof. reflexivity. Qed.

Lemma sel_ones x a : N.land (N.lor (N.land x (2 ^ 64 - 1)) (N.land a 0)) 0xffffffff = trunc 32 x.
Proof.
  rewrite N.land_0_r, N.lor_0_r, <- N.land_assoc.
  change (N.land (2 ^ 64 - 1) 0xffffffff) with (2 ^ 32 - 1). apply land_ones_mod.
Qed.
Lemma sel_zero x a : N.land (N.lor (N.land x 0) (N.land a (2 ^ 64 - 1))) 0xffffffff = trunc 32 a.
Proof.
  rewrite N.land_0_r, N.lor_0_l, <- N.land_assoc.
  change (N.land (2 ^ 64 - 1) 0xffffffff) with (2 ^ 32 - 1). apply land_ones_mod.
Qed.

Lemma trunc_small x : x < W -> trunc 32 x = x.
Proof. intros H. apply N.mod_small. exact H. Qed.

Definition pure_adds (u0 u1 u2 u3 s0 s1 s2 s3 : N) : N * N * N * N :=
  let t0 := u0 + s0 in
  let t1 := u1 + (s1 + N.shiftr t0 32) in
  let t2 := u2 + (s2 + N.shiftr t1 32) in
  let t3 := u3 + (s3 + N.shiftr t2 32) in
  (trunc 32 t0, trunc 32 t1, trunc 32 t2, trunc 32 t3).

Lemma finish_spec a0 a1 a2 a3 a4 s0 s1 s2 s3 : lok 4 (a0, a1, a2, a3, a4) ->
  s0 < W -> s1 < W -> s2 < W -> s3 < W ->
  exists b0 b1 b2 b3,
    (forall ov, poly_finish ov [s0; s1; s2; s3] [a0; a1; a2; a3; a4] = Some [b0; b1; b2; b3; a4]) /\
    b0 < W /\ b1 < W /\ b2 < W /\ b3 < W /\
    val4 b0 b1 b2 b3 = (lval (a0, a1, a2, a3, a4) mod poly_P + val4 s0 s1 s2 s3) mod 2 ^ 128.
Proof.
  intros (B0 & B1 & B2 & B3 & B4) S0 S1 S2 S3.
  (* the selected value *)
  assert (Sel : exists u0 u1 u2 u3 uu0 uu1 uu2 uu3 x, x <= 1 /\
    (forall ov, forall f : N -> N -> N -> N -> N -> option (list N),
       (t_0 <- uadd ov 64 a0 5 ;; t_1 <- uadd ov 64 a1 (N.shiftr t_0 32) ;;
        t_2 <- uadd ov 64 a2 (N.shiftr t_1 32) ;; t_3 <- uadd ov 64 a3 (N.shiftr t_2 32) ;;
        x <- uadd ov 64 a4 (N.shiftr t_3 32) ;; f t_0 t_1 t_2 t_3 (N.shiftr x 2)) = f u0 u1 u2 u3 x) /\
    uu0 = (if x =? 0 then a0 else trunc 32 u0) /\ uu1 = (if x =? 0 then a1 else trunc 32 u1) /\
    uu2 = (if x =? 0 then a2 else trunc 32 u2) /\ uu3 = (if x =? 0 then a3 else trunc 32 u3) /\
    uu0 < W /\ uu1 < W /\ uu2 < W /\ uu3 < W /\
    val4 uu0 uu1 uu2 uu3 = (lval (a0, a1, a2, a3, a4) mod poly_P) mod 2 ^ 128).
  { sp (a0 + 5) h0 l0 E0 L0. sp (a1 + h0) h1 l1 E1 L1. sp (a2 + h1) h2 l2 E2 L2. sp (a3 + h2) h3 l3 E3 L3.
    destruct (land3 (a4 + h3)) as [EX LX].
    remember (N.shiftr (a4 + h3) 2) as x eqn:Sx. symmetry in Sx. set (xl := N.land (a4 + h3) 3) in *. clearbody xl.
    exists (a0 + 5), (a1 + h0), (a2 + h1), (a3 + h2).
    exists (if x =? 0 then a0 else l0), (if x =? 0 then a1 else l1), (if x =? 0 then a2 else l2),
           (if x =? 0 then a3 else l3), x.
    unfold lval, val4, W in *. split; [lia|]. split.
    { intros ov f. do 5 (u64; spr). reflexivity. }
    spr. repeat (split; [reflexivity|]).
    unfold poly_P. change (2 ^ 130 - 5) with 1361129467683753853853498429727072845819.
    change (2 ^ 128) with 340282366920938463463374607431768211456.
    destruct (N.eqb_spec x 0) as [Hx|Hx].
    - repeat (split; [assumption|]).
      rewrite (N.mod_small _ 1361129467683753853853498429727072845819) by lia.
      apply N.mod_unique with (q := a4); lia.
    - repeat (split; [assumption|]).
      assert (x = 1) by lia. subst x.
      set (v := a0 + 4294967296 * (a1 + 4294967296 * (a2 + 4294967296 * (a3 + 4294967296 * a4)))) in *.
      rewrite <- (N.mod_unique v 1361129467683753853853498429727072845819 1
                 (l0 + 4294967296 * (l1 + 4294967296 * (l2 + 4294967296 * (l3 + 4294967296 * xl))))) by (unfold v; lia).
      apply N.mod_unique with (q := xl); lia. }
  destruct Sel as (u0 & u1 & u2 & u3 & v0 & v1 & v2 & v3 & x & Hx & HF & V0 & V1 & V2 & V3 & W0 & W1 & W2 & W3 & HV).
  destruct (pure_adds v0 v1 v2 v3 s0 s1 s2 s3) as [[[b0 b1] b2] b3] eqn:EB.
  unfold pure_adds in EB. cbv zeta in EB.
  sp (v0 + s0) g0 m0 F0 M0. sp (v1 + (s1 + g0)) g1 m1 F1 M1. sp (v2 + (s2 + g1)) g2 m2 F2 M2. sp (v3 + (s3 + g2)) g3 m3 F3 M3.
  assert (EB' : m0 = b0 /\ m1 = b1 /\ m2 = b2 /\ m3 = b3) by (inversion EB; auto).
  destruct EB' as (<- & <- & <- & <-).
  exists m0, m1, m2, m3. split; [|repeat (split; [assumption|])].
  - intros ov. unfold poly_finish. cbn [rd nth_error bind].
    refine (eq_trans (HF ov (fun t_0 t_1 t_2 t_3 x =>
      let mask := wneg 64 x in
      let mask_neg := wnot 64 mask in
      let t_0 := N.lor (N.land t_0 mask) (N.land a0 mask_neg) in
      let t_1 := N.lor (N.land t_1 mask) (N.land a1 mask_neg) in
      let t_2 := N.lor (N.land t_2 mask) (N.land a2 mask_neg) in
      let t_3 := N.lor (N.land t_3 mask) (N.land a3 mask_neg) in
      let t_0 := N.land t_0 0xffffffff in
      let t_1 := N.land t_1 0xffffffff in
      let t_2 := N.land t_2 0xffffffff in
      let t_3 := N.land t_3 0xffffffff in
      t_0 <- uadd ov 64 t_0 s0 ;;
      x <- uadd ov 64 s1 (N.shiftr t_0 32) ;; t_1 <- uadd ov 64 t_1 x ;;
      x <- uadd ov 64 s2 (N.shiftr t_1 32) ;; t_2 <- uadd ov 64 t_2 x ;;
      x <- uadd ov 64 s3 (N.shiftr t_2 32) ;; t_3 <- uadd ov 64 t_3 x ;;
      acc <- wr [a0; a1; a2; a3; a4] 0 (trunc 32 t_0) ;; acc <- wr acc 1 (trunc 32 t_1) ;;
      acc <- wr acc 2 (trunc 32 t_2) ;; wr acc 3 (trunc 32 t_3))) _).
    cbv beta zeta.
    assert (Es : forall u a, a < W ->
      N.land (N.lor (N.land u (wneg 64 x)) (N.land a (wnot 64 (wneg 64 x)))) 0xffffffff
      = if x =? 0 then a else trunc 32 u).
    { intros u a Ha. destruct (N.eqb_spec x 0) as [->|Hx0].
      - rewrite wneg0, wnot_0, sel_zero. apply trunc_small. exact Ha.
      - assert (x = 1) by lia. subst x. rewrite wneg1, wnot_ones, sel_ones. reflexivity. }
    rewrite !Es by assumption. rewrite <- V0, <- V1, <- V2, <- V3.
    unfold W in *. do 7 (u64; spr). reflexivity.
  - unfold val4, W in *. change (2 ^ 128) with 340282366920938463463374607431768211456 in *.
    rewrite <- N.add_mod_idemp_l, <- HV by discriminate. apply N.mod_unique with (q := g3); lia.
Qed.
