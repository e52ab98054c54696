(** The SHA-1 routine. *)
From Verif Require Import Base BaseLemmas Spec_Bytes BytesLemmas Spec_Sha Model_Sha Proof_ShaCore Model_X86 Model_ShaAsm.
Local Open Scope N_scope.

(** *** Word operations *)
Lemma rol_ROTL n x : n <= 32 -> rol32 n x = ROTL 32 n x.
Proof.
  intros H. unfold rol32, ROTL, ROTR. rewrite N.add_comm. f_equal.
  replace (32 - (32 - n)) with n by lia. replace (2 ^ 32) with (2 ^ (32 - n) * 2 ^ n).
  - apply N.mul_mod_distr_r; apply N.pow_nonzero; lia.
  - rewrite <- N.pow_add_r. f_equal. lia.
Qed.
Lemma ror_ROTR n x : n <= 32 -> ror32 n x = ROTR 32 n x.
Proof. intros H. unfold ror32. rewrite rol_ROTL by lia. unfold ROTL. f_equal. lia. Qed.
Lemma not_compl x : x < 2 ^ 32 -> not32 x = compl 32 x.
Proof. intros H. rewrite compl_lxor by exact H. reflexivity. Qed.

(** *** Reading a block *)
Lemma word_bytes a b c d : bytes [a; b; c; d] -> le_enc 4 (le_dec [a; b; c; d]) = [a; b; c; d].
Proof. intros H. apply le_enc_dec; [exact H|reflexivity]. Qed.
Lemma bytes_app_l (a b : list N) : bytes (a ++ b) -> bytes a.
Proof. intros H. apply Forall_app in H. exact (proj1 H). Qed.

Lemma list16 (l : list N) : length l = 16%nat -> exists a b c d e f g h i j k m n o p q, l = [a;b;c;d;e;f;g;h;i;j;k;m;n;o;p;q].
Proof.
  intros H. do 16 (destruct l as [|? l]; [discriminate H|]). destruct l; [|discriminate H].
  repeat eexists.
Qed.
Lemma vbytes16 l : bytes l -> length l = 16%nat -> vbytes (blanes l) = l.
Proof.
  intros B L. destruct (list16 l L) as (a&b&c&d&e&f&g&h&i&j&k&m&n&o&p&q&->).
  unfold blanes. change (length [a;b;c;d;e;f;g;h;i;j;k;m;n;o;p;q] / 4)%nat with 4%nat.
  cbn [le_words firstn skipn]. unfold vbytes. cbn [flat_map].
  unfold bytes in *. repeat match goal with H : Forall _ (_ :: _) |- _ => inversion H; clear H; subst end.
  rewrite !word_bytes by (repeat apply Forall_cons; try assumption; constructor). reflexivity.
Qed.
Lemma swap4 a b c d : le_dec [d; c; b; a] = be_dec [a; b; c; d].
Proof. rewrite be_dec_le. reflexivity. Qed.
Lemma shuf1 l : bytes l -> length l = 16%nat -> pshufb (blanes l) (vbytes (blanes mask_bytes1)) = rev (be_words 4 4 l).
Proof.
  intros B L. unfold pshufb. rewrite vbytes16 by assumption.
  destruct (list16 l L) as (a&b&c&d&e&f&g&h&i&j&k&m&n&o&p&q&->).
  change (vbytes (blanes mask_bytes1)) with mask_bytes1.
  change (shufb_bytes [a;b;c;d;e;f;g;h;i;j;k;m;n;o;p;q] mask_bytes1) with [q;p;o;n;m;k;j;i;h;g;f;e;d;c;b;a].
  unfold blanes. change (length [q;p;o;n;m;k;j;i;h;g;f;e;d;c;b;a] / 4)%nat with 4%nat.
  cbn [le_words be_words firstn skipn rev app]. rewrite !swap4. reflexivity.
Qed.
Lemma shuf2 l : bytes l -> length l = 16%nat -> pshufb (blanes l) (vbytes (blanes mask_bytes2)) = be_words 4 4 l.
Proof.
  intros B L. unfold pshufb. rewrite vbytes16 by assumption.
  destruct (list16 l L) as (a&b&c&d&e&f&g&h&i&j&k&m&n&o&p&q&->).
  change (vbytes (blanes mask_bytes2)) with mask_bytes2.
  change (shufb_bytes [a;b;c;d;e;f;g;h;i;j;k;m;n;o;p;q] mask_bytes2) with [d;c;b;a;h;g;f;e;m;k;j;i;q;p;o;n].
  unfold blanes. change (length [d;c;b;a;h;g;f;e;m;k;j;i;q;p;o;n] / 4)%nat with 4%nat.
  cbn [le_words be_words firstn skipn]. rewrite !swap4. reflexivity.
Qed.
(** The four words of 16 bytes of a block. *)
Lemma quarter (blk : list N) g : (g < 4)%nat -> length blk = 64%nat ->
  be_words 4 4 (firstn 16 (skipn (16 * g) blk))
  = let w j := nth j (be_words 4 16 blk) 0 in [w (4 * g)%nat; w (4 * g + 1)%nat; w (4 * g + 2)%nat; w (4 * g + 3)%nat].
Proof.
  intros Hg L. cbv zeta. do 64 (destruct blk as [|? blk]; [discriminate L|]). destruct blk; [|discriminate L].
  destruct g as [|[|[|[|]]]]; [reflexivity..|lia].
Qed.

(** *** The machine *)
Lemma srun_app p q m : srun (p ++ q) m = (m <- srun p m ;; srun q m).
Proof. revert m. induction p as [|i p IH]; intros m; [reflexivity|]. cbn [app srun]. destruct (sexec m i) as [m'|]; [apply IH|reflexivity]. Qed.
Definition mk (r : list vec) (mem : list N) (o : nat) (st : list N) : smach := {| sm_reg := r; sm_mem := mem; sm_src := o; sm_state := st |}.

Lemma macro_0 k x0 x1 x2 m0 m1 m2 m3 rest mem o st :
  srun (sha_1_160_rounds 0 1 2 3 0 1 2 k) (mk (x0 :: x1 :: x2 :: m0 :: m1 :: m2 :: m3 :: rest) mem o st)
  = Some (mk (sha1rnds4 k x0 (sha1nexte x2 m3) :: x0 :: sha1nexte x2 m3 :: sha1msg2 m0 m3 :: pxor m1 m3 :: sha1msg1 m2 m3 :: m3 :: rest) mem o st).
Proof. reflexivity. Qed.
Lemma macro_1 k x0 x1 x2 m0 m1 m2 m3 rest mem o st :
  srun (sha_1_160_rounds 1 2 3 0 0 2 1 k) (mk (x0 :: x1 :: x2 :: m0 :: m1 :: m2 :: m3 :: rest) mem o st)
  = Some (mk (sha1rnds4 k x0 (sha1nexte x1 m0) :: sha1nexte x1 m0 :: x0 :: m0 :: sha1msg2 m1 m0 :: pxor m2 m0 :: sha1msg1 m3 m0 :: rest) mem o st).
Proof. reflexivity. Qed.
Lemma macro_2 k x0 x1 x2 m0 m1 m2 m3 rest mem o st :
  srun (sha_1_160_rounds 2 3 0 1 0 1 2 k) (mk (x0 :: x1 :: x2 :: m0 :: m1 :: m2 :: m3 :: rest) mem o st)
  = Some (mk (sha1rnds4 k x0 (sha1nexte x2 m1) :: x0 :: sha1nexte x2 m1 :: sha1msg1 m0 m1 :: m1 :: sha1msg2 m2 m1 :: pxor m3 m1 :: rest) mem o st).
Proof. reflexivity. Qed.
Lemma macro_3 k x0 x1 x2 m0 m1 m2 m3 rest mem o st :
  srun (sha_1_160_rounds 3 0 1 2 0 2 1 k) (mk (x0 :: x1 :: x2 :: m0 :: m1 :: m2 :: m3 :: rest) mem o st)
  = Some (mk (sha1rnds4 k x0 (sha1nexte x1 m2) :: sha1nexte x1 m2 :: x0 :: pxor m0 m2 :: sha1msg1 m1 m2 :: m2 :: sha1msg2 m3 m2 :: rest) mem o st).
Proof. reflexivity. Qed.

Lemma first_exec x0 x1 x2 m0 m1 m2 m3 mask s0 s1 rest mem o st l0 l1 l2 l3 :
  rds mem (o + 16 * 0) 16 = Some l0 -> rds mem (o + 16 * 1) 16 = Some l1 -> rds mem (o + 16 * 2) 16 = Some l2 -> rds mem (o + 16 * 3) 16 = Some l3 ->
  let sh l := pshufb (blanes l) (vbytes mask) in
  let y1 := sha1rnds4 0 x0 (paddd x1 (sh l0)) in
  let e1 := sha1nexte x0 (sh l1) in
  let y2 := sha1rnds4 0 y1 e1 in
  let e2 := sha1nexte y1 (sh l2) in
  srun (sha1_first ++ [Pshufb (msg1 3) mask1]) (mk (x0 :: x1 :: x2 :: m0 :: m1 :: m2 :: m3 :: mask :: s0 :: s1 :: rest) mem o st)
  = Some (mk (sha1rnds4 0 y2 e2 :: e2 :: y2 :: pxor (sha1msg1 (sh l0) (sh l1)) (sh l2) :: sha1msg1 (sh l1) (sh l2) :: sh l2 :: sh l3
      :: mask :: x0 :: x1 :: rest) mem (o + 64) st).
Proof.
  intros E0 E1 E2 E3. cbv zeta.
  assert (E : srun (firstn 4 sha1_first) (mk (x0 :: x1 :: x2 :: m0 :: m1 :: m2 :: m3 :: mask :: s0 :: s1 :: rest) mem o st)
    = Some (mk (x0 :: x1 :: x2 :: blanes l0 :: blanes l1 :: blanes l2 :: blanes l3 :: mask :: s0 :: s1 :: rest) mem o st)).
  { unfold sha1_first. cbn [firstn srun sexec]. unfold mk. cbn [sm_mem sm_src]. rewrite E0. cbn [bind sset sm_reg lset sm_mem sm_src sm_state msg1 Nat.add].
    rewrite E1. cbn [bind sset sm_reg lset sm_mem sm_src sm_state msg1 Nat.add].
    rewrite E2. cbn [bind sset sm_reg lset sm_mem sm_src sm_state msg1 Nat.add].
    rewrite E3. reflexivity. }
  change (sha1_first ++ [Pshufb (msg1 3) mask1]) with (firstn 4 sha1_first ++ (skipn 4 sha1_first ++ [Pshufb (msg1 3) mask1])).
  rewrite srun_app, E. reflexivity.
Qed.
Lemma last_exec x0 x1 x2 m0 m1 m2 m3 mask s0 s1 rest mem o st :
  let e2 := sha1nexte x2 m1 in
  let n2 := sha1msg2 m2 m1 in
  let y1 := sha1rnds4 3 x0 e2 in
  let e1 := sha1nexte x0 n2 in
  let n3 := sha1msg2 (pxor m3 m1) n2 in
  let y2 := sha1rnds4 3 y1 e1 in
  let e3 := sha1nexte y1 n3 in
  let y3 := sha1rnds4 3 y2 e3 in
  srun sha1_last (mk (x0 :: x1 :: x2 :: m0 :: m1 :: m2 :: m3 :: mask :: s0 :: s1 :: rest) mem o st)
  = Some (mk (paddd y3 s0 :: sha1nexte y2 s1 :: e3 :: m0 :: m1 :: n2 :: n3 :: mask :: s0 :: s1 :: rest) mem o st).
Proof. reflexivity. Qed.

(** *** One block *)
Lemma fk_seg k f K t b c d : sha1_fk (k mod 4) = (f, K) -> k < 4 -> (20 * N.to_nat k <= t < 20 * N.to_nat k + 20)%nat ->
  b < 2 ^ 32 -> K = sha1_K t /\ f b c d = sha1_f t b c d.
Proof.
  intros E Hk Ht Hb. unfold sha1_K, sha1_f.
  assert (C : k = 0 \/ k = 1 \/ k = 2 \/ k = 3) by lia. destruct C as [->|[->|[->| ->]]]; injection E as <- <-;
    [change (N.to_nat 0) with 0%nat in Ht|change (N.to_nat 1) with 1%nat in Ht|change (N.to_nat 2) with 2%nat in Ht|change (N.to_nat 3) with 3%nat in Ht].
  - destruct (Nat.ltb_spec t 20); [|lia]. split; [reflexivity|]. unfold Ch. rewrite not_compl by exact Hb. reflexivity.
  - destruct (Nat.ltb_spec t 20); [lia|]. destruct (Nat.ltb_spec t 40); [|lia]. split; reflexivity.
  - destruct (Nat.ltb_spec t 20); [lia|]. destruct (Nat.ltb_spec t 40); [lia|]. destruct (Nat.ltb_spec t 60); [|lia]. split; reflexivity.
  - destruct (Nat.ltb_spec t 20); [lia|]. destruct (Nat.ltb_spec t 40); [lia|]. destruct (Nat.ltb_spec t 60); [lia|]. split; reflexivity.
Qed.

Lemma a_next k f K W t a b c d e : sha1_fk (k mod 4) = (f, K) -> k < 4 -> (20 * N.to_nat k <= t < 20 * N.to_nat k + 20)%nat ->
  b < 2 ^ 32 -> (f b c d + rol32 5 a + nth t W 0 + e + K) mod 2 ^ 32 = sum 32 [ROTL 32 5 a; sha1_f t b c d; e; sha1_K t; nth t W 0].
Proof.
  intros E Hk Ht Hb. destruct (fk_seg k f K t b c d E Hk Ht Hb) as [-> ->]. rewrite sum_eq, rol_ROTL by lia.
  f_equal. cbn [fold_right]. lia.
Qed.

Lemma lx x y z u : N.lxor (N.lxor (N.lxor z u) y) x = N.lxor (N.lxor (N.lxor x y) z) u.
Proof.
  apply N.bits_inj. intros i. rewrite !N.lxor_spec.
  destruct (N.testbit x i), (N.testbit y i), (N.testbit z i), (N.testbit u i); reflexivity.
Qed.

Section Block.
  Variable H0 : N * N * N * N * N.
  Variable Wl : list N.
  Hypothesis WH : words5 H0.
  Definition V (t : nat) : N * N * N * N * N := fold_left (sha1_round Wl) (seq 0 t) H0.
  Notation W t := (nth t Wl 0).
  Definition get_a (v : N * N * N * N * N) : N := let '(a, b, c, d, e) := v in a.
  Definition get_e (v : N * N * N * N * N) : N := let '(a, b, c, d, e) := v in e.
  Definition abcd (g : nat) : vec := let '(a, b, c, d, e) := V (4 * g) in [d; c; b; a].
  Definition M (g : nat) : vec := [W (4 * g + 3); W (4 * g + 2); W (4 * g + 1); W (4 * g)].
  Definition ME (g : nat) : vec := [W (4 * g + 3); W (4 * g + 2); W (4 * g + 1); lane_add (W (4 * g)) (get_e (V (4 * g)))].

  Lemma V_S t : V (S t) = sha1_round Wl (V t) t.
  Proof. apply fold_left_seq_S. Qed.
  Lemma V_words t : words5 (V t).
  Proof. induction t as [|t IH]; [exact WH|]. rewrite V_S. apply sha1_round_words, IH. Qed.
  Lemma V_4 g : V (4 * S g) = sha1_round Wl (sha1_round Wl (sha1_round Wl (sha1_round Wl (V (4 * g)) (4 * g)) (4 * g + 1)) (4 * g + 2)) (4 * g + 3).
  Proof.
    replace (4 * S g)%nat with (S (S (S (S (4 * g))))) by lia. rewrite !V_S.
    replace (S (4 * g)) with (4 * g + 1)%nat by lia. replace (S (4 * g + 1)) with (4 * g + 2)%nat by lia.
    replace (S (4 * g + 2)) with (4 * g + 3)%nat by lia. reflexivity.
  Qed.
  Lemma e_4 g : get_e (V (4 * S g)) = ROTL 32 30 (get_a (V (4 * g))).
  Proof. rewrite V_4. destruct (V (4 * g)) as [[[[a b] c] d] e]. reflexivity. Qed.
  Lemma abcd_lane3 g : lane 3 (abcd g) = get_a (V (4 * g)).
  Proof. unfold abcd. destruct (V (4 * g)) as [[[[a b] c] d] e]. reflexivity. Qed.

  Lemma nexte_M g : sha1nexte (abcd g) (M (S g)) = ME (S g).
  Proof. unfold sha1nexte. rewrite abcd_lane3, rol_ROTL by lia. unfold ME. rewrite e_4. reflexivity. Qed.

  Lemma rnds4_M k g : k < 4 -> (5 * N.to_nat k <= g < 5 * N.to_nat k + 5)%nat -> sha1rnds4 k (abcd g) (ME g) = abcd (S g).
  Proof.
    intros Hk Hg. unfold abcd, ME. rewrite V_4. pose proof (V_words (4 * g)) as HW.
    destruct (V (4 * g)) as [[[[a b] c] d] e]. cbn [get_e]. unfold sha1rnds4.
    destruct (sha1_fk (k mod 4)) as [f K] eqn:E. cbn [lane nth].
    destruct HW as (Ha & Hb & Hc & Hd & He).
    set (W0 := nth (4 * g) Wl 0). 
    replace ((f b c d + rol32 5 a + lane_add W0 e + K) mod 2 ^ 32) with ((f b c d + rol32 5 a + W0 + e + K) mod 2 ^ 32).
    2:{ unfold lane_add. rewrite <- (N.add_assoc _ (_ mod _) K), (N.add_comm (_ mod _) K), N.add_assoc.
        rewrite N.add_mod_idemp_r by lia. f_equal. lia. }
    subst W0. rewrite (a_next k f K Wl (4 * g) a b c d e) by (assumption || lia).
    assert (R : sha1_round Wl (a, b, c, d, e) (4 * g) = (sum 32 [ROTL 32 5 a; sha1_f (4 * g) b c d; e; sha1_K (4 * g); nth (4 * g) Wl 0], a, ROTL 32 30 b, c, d)) by reflexivity.
    rewrite R. rewrite (rol_ROTL 30 b) by lia.
    set (A1 := sum 32 [ROTL 32 5 a; sha1_f (4 * g) b c d; e; sha1_K (4 * g); nth (4 * g) Wl 0]) in *.
    assert (L1 : A1 < 2 ^ 32) by (unfold A1; rewrite sum_eq; apply N.mod_lt; lia).
    assert (L2 : ROTL 32 30 b < 2 ^ 32) by (apply ROTL_lt; [exact Hb|lia]).
    clearbody A1. clear R. set (b' := ROTL 32 30 b) in *. clearbody b'.
    rewrite (a_next k f K Wl (4 * g + 1) A1 a b' c d) by (assumption || lia).
    assert (R : sha1_round Wl (A1, a, b', c, d) (4 * g + 1) = (sum 32 [ROTL 32 5 A1; sha1_f (4 * g + 1) a b' c; d; sha1_K (4 * g + 1); nth (4 * g + 1) Wl 0], A1, ROTL 32 30 a, b', c)) by reflexivity.
    rewrite R. rewrite (rol_ROTL 30 a) by lia.
    set (A2 := sum 32 [ROTL 32 5 A1; sha1_f (4 * g + 1) a b' c; d; sha1_K (4 * g + 1); nth (4 * g + 1) Wl 0]) in *.
    assert (L3 : A2 < 2 ^ 32) by (unfold A2; rewrite sum_eq; apply N.mod_lt; lia).
    clearbody A2. clear R. set (a' := ROTL 32 30 a) in *. clearbody a'.
    rewrite (a_next k f K Wl (4 * g + 2) A2 A1 a' b' c) by (assumption || lia).
    assert (R : sha1_round Wl (A2, A1, a', b', c) (4 * g + 2) = (sum 32 [ROTL 32 5 A2; sha1_f (4 * g + 2) A1 a' b'; c; sha1_K (4 * g + 2); nth (4 * g + 2) Wl 0], A2, ROTL 32 30 A1, a', b')) by reflexivity.
    rewrite R. rewrite (rol_ROTL 30 A1) by lia.
    set (A3 := sum 32 [ROTL 32 5 A2; sha1_f (4 * g + 2) A1 a' b'; c; sha1_K (4 * g + 2); nth (4 * g + 2) Wl 0]) in *.
    clearbody A3. clear R. set (A1' := ROTL 32 30 A1) in *. clearbody A1'.
    rewrite (a_next k f K Wl (4 * g + 3) A3 A2 A1' a' b') by (assumption || lia).
    assert (R : sha1_round Wl (A3, A2, A1', a', b') (4 * g + 3) = (sum 32 [ROTL 32 5 A3; sha1_f (4 * g + 3) A2 A1' a'; b'; sha1_K (4 * g + 3); nth (4 * g + 3) Wl 0], A3, ROTL 32 30 A2, A1', a')) by reflexivity.
    rewrite R. rewrite (rol_ROTL 30 A2) by lia. reflexivity.
  Qed.

  Definition Z (g : nat) : vec := sha1msg1 (M g) (M (S g)).
  Definition X (g : nat) : vec := pxor (Z g) (M (S (S g))).
  Hypothesis REC : forall t, (16 <= t < 80)%nat -> W t = ROTL 32 1 (N.lxor (N.lxor (N.lxor (W (t - 3)) (W (t - 8))) (W (t - 14))) (W (t - 16))).
  Lemma msg2_M g : (g <= 15)%nat -> sha1msg2 (X g) (M (3 + g)) = M (4 + g).
  Proof.
    intros Hg. unfold X, Z, sha1msg1, pxor, M. cbn [lane nth map2]. unfold sha1msg2. cbn [lane nth].
    rewrite !rol_ROTL by lia.
    assert (E0 : ROTL 32 1 (N.lxor (N.lxor (N.lxor (W (4 * g + 2)) (W (4 * g))) (W (4 * S (S g)))) (W (4 * (3 + g) + 1))) = W (4 * (4 + g))).
    { rewrite (REC (4 * (4 + g))) by lia. f_equal.
      replace (4 * (4 + g) - 3)%nat with (4 * (3 + g) + 1)%nat by lia. replace (4 * (4 + g) - 8)%nat with (4 * S (S g))%nat by lia.
      replace (4 * (4 + g) - 14)%nat with (4 * g + 2)%nat by lia. replace (4 * (4 + g) - 16)%nat with (4 * g)%nat by lia.
      apply lx. }
    assert (E1 : ROTL 32 1 (N.lxor (N.lxor (N.lxor (W (4 * g + 3)) (W (4 * g + 1))) (W (4 * S (S g) + 1))) (W (4 * (3 + g) + 2))) = W (4 * (4 + g) + 1)).
    { rewrite (REC (4 * (4 + g) + 1)) by lia. f_equal.
      replace (4 * (4 + g) + 1 - 3)%nat with (4 * (3 + g) + 2)%nat by lia. replace (4 * (4 + g) + 1 - 8)%nat with (4 * S (S g) + 1)%nat by lia.
      replace (4 * (4 + g) + 1 - 14)%nat with (4 * g + 3)%nat by lia. replace (4 * (4 + g) + 1 - 16)%nat with (4 * g + 1)%nat by lia.
      apply lx. }
    assert (E2 : ROTL 32 1 (N.lxor (N.lxor (N.lxor (W (4 * S g)) (W (4 * g + 2))) (W (4 * S (S g) + 2))) (W (4 * (3 + g) + 3))) = W (4 * (4 + g) + 2)).
    { rewrite (REC (4 * (4 + g) + 2)) by lia. f_equal.
      replace (4 * (4 + g) + 2 - 3)%nat with (4 * (3 + g) + 3)%nat by lia. replace (4 * (4 + g) + 2 - 8)%nat with (4 * S (S g) + 2)%nat by lia.
      replace (4 * (4 + g) + 2 - 14)%nat with (4 * S g)%nat by lia. replace (4 * (4 + g) + 2 - 16)%nat with (4 * g + 2)%nat by lia.
      apply lx. }
    rewrite E0, E1, E2.
    assert (E3 : ROTL 32 1 (N.lxor (N.lxor (N.lxor (W (4 * S g + 1)) (W (4 * g + 3))) (W (4 * S (S g) + 3))) (W (4 * (4 + g)))) = W (4 * (4 + g) + 3)).
    { rewrite (REC (4 * (4 + g) + 3)) by lia. f_equal.
      replace (4 * (4 + g) + 3 - 3)%nat with (4 * (4 + g))%nat by lia. replace (4 * (4 + g) + 3 - 8)%nat with (4 * S (S g) + 3)%nat by lia.
      replace (4 * (4 + g) + 3 - 14)%nat with (4 * S g + 1)%nat by lia. replace (4 * (4 + g) + 3 - 16)%nat with (4 * g + 3)%nat by lia.
      apply lx. }
    rewrite E3. reflexivity.
  Qed.

  (** The registers before the macro of group [3 + h], in the four rotations. *)
  Variables (rest : list vec) (mem : list N) (o : nat) (st : list N).
  Definition S0 h j := mk (abcd (3 + h) :: j :: abcd (2 + h) :: X h :: Z (1 + h) :: M (2 + h) :: M (3 + h) :: rest) mem o st.
  Definition S1 h j := mk (abcd (3 + h) :: abcd (2 + h) :: j :: M (3 + h) :: X h :: Z (1 + h) :: M (2 + h) :: rest) mem o st.
  Definition S2 h j := mk (abcd (3 + h) :: j :: abcd (2 + h) :: M (2 + h) :: M (3 + h) :: X h :: Z (1 + h) :: rest) mem o st.
  Definition S3 h j := mk (abcd (3 + h) :: abcd (2 + h) :: j :: Z (1 + h) :: M (2 + h) :: M (3 + h) :: X h :: rest) mem o st.
  Definition seg (k : N) (h : nat) : Prop := k < 4 /\ (5 * N.to_nat k <= 3 + h < 5 * N.to_nat k + 5)%nat /\ (h <= 15)%nat.
  Lemma stage_0 k h j : seg k h -> srun (sha_1_160_rounds 0 1 2 3 0 1 2 k) (S0 h j) = Some (S1 (S h) (ME (3 + h))).
  Proof.
    intros (Hk & Hs & Hh). unfold S0. rewrite macro_0. change (3 + h)%nat with (S (2 + h)). rewrite nexte_M.
    rewrite (rnds4_M k (S (2 + h))) by lia. change (S (2 + h)) with (3 + h)%nat. rewrite msg2_M by lia. reflexivity.
  Qed.
  Lemma stage_1 k h j : seg k h -> srun (sha_1_160_rounds 1 2 3 0 0 2 1 k) (S1 h j) = Some (S2 (S h) (ME (3 + h))).
  Proof.
    intros (Hk & Hs & Hh). unfold S1. rewrite macro_1. change (3 + h)%nat with (S (2 + h)). rewrite nexte_M.
    rewrite (rnds4_M k (S (2 + h))) by lia. change (S (2 + h)) with (3 + h)%nat. rewrite msg2_M by lia. reflexivity.
  Qed.
  Lemma stage_2 k h j : seg k h -> srun (sha_1_160_rounds 2 3 0 1 0 1 2 k) (S2 h j) = Some (S3 (S h) (ME (3 + h))).
  Proof.
    intros (Hk & Hs & Hh). unfold S2. rewrite macro_2. change (3 + h)%nat with (S (2 + h)). rewrite nexte_M.
    rewrite (rnds4_M k (S (2 + h))) by lia. change (S (2 + h)) with (3 + h)%nat. rewrite msg2_M by lia. reflexivity.
  Qed.
  Lemma stage_3 k h j : seg k h -> srun (sha_1_160_rounds 3 0 1 2 0 2 1 k) (S3 h j) = Some (S0 (S h) (ME (3 + h))).
  Proof.
    intros (Hk & Hs & Hh). unfold S3. rewrite macro_3. change (3 + h)%nat with (S (2 + h)). rewrite nexte_M.
    rewrite (rnds4_M k (S (2 + h))) by lia. change (S (2 + h)) with (3 + h)%nat. rewrite msg2_M by lia. reflexivity.
  Qed.

  Lemma stages j : exists j', srun (
    sha_1_160_rounds 0 1 2 3 0 1 2 0 ++ sha_1_160_rounds 1 2 3 0 0 2 1 0 ++
    sha_1_160_rounds 2 3 0 1 0 1 2 1 ++ sha_1_160_rounds 3 0 1 2 0 2 1 1 ++
    sha_1_160_rounds 0 1 2 3 0 1 2 1 ++ sha_1_160_rounds 1 2 3 0 0 2 1 1 ++
    sha_1_160_rounds 2 3 0 1 0 1 2 1 ++ sha_1_160_rounds 3 0 1 2 0 2 1 2 ++
    sha_1_160_rounds 0 1 2 3 0 1 2 2 ++ sha_1_160_rounds 1 2 3 0 0 2 1 2 ++
    sha_1_160_rounds 2 3 0 1 0 1 2 2 ++ sha_1_160_rounds 3 0 1 2 0 2 1 2 ++
    sha_1_160_rounds 0 1 2 3 0 1 2 3 ++ sha_1_160_rounds 1 2 3 0 0 2 1 3) (S0 0 j) = Some (S2 14 j').
  Proof.
    eexists.
    rewrite srun_app, stage_0 by (unfold seg; lia). cbn [bind]. rewrite srun_app, stage_1 by (unfold seg; lia). cbn [bind].
    rewrite srun_app, stage_2 by (unfold seg; lia). cbn [bind]. rewrite srun_app, stage_3 by (unfold seg; lia). cbn [bind].
    rewrite srun_app, stage_0 by (unfold seg; lia). cbn [bind]. rewrite srun_app, stage_1 by (unfold seg; lia). cbn [bind].
    rewrite srun_app, stage_2 by (unfold seg; lia). cbn [bind]. rewrite srun_app, stage_3 by (unfold seg; lia). cbn [bind].
    rewrite srun_app, stage_0 by (unfold seg; lia). cbn [bind]. rewrite srun_app, stage_1 by (unfold seg; lia). cbn [bind].
    rewrite srun_app, stage_2 by (unfold seg; lia). cbn [bind]. rewrite srun_app, stage_3 by (unfold seg; lia). cbn [bind].
    rewrite srun_app, stage_0 by (unfold seg; lia). cbn [bind]. rewrite stage_1 by (unfold seg; lia). reflexivity.
  Qed.
End Block.

Definition rdcba (v : N * N * N * N * N) : vec := let '(a, b, c, d, e) := v in [d; c; b; a].
Definition re (v : N * N * N * N * N) : vec := let '(a, b, c, d, e) := v in [0; 0; 0; e].
Definition compress5 (v : N * N * N * N * N) (blk : list N) : N * N * N * N * N :=
  let '(a, b, c, d, e) := v in
  let '(a', b', c', d', e') := fold_left (sha1_round (sha1_schedule 64 (be_words 4 16 blk))) (seq 0 80) v in
  (add 32 a' a, add 32 b' b, add 32 c' c, add 32 d' d, add 32 e' e).

Lemma sha1_block v x2 m0 m1 m2 m3 s0 s1 rest mem o st : words5 v -> bytes mem -> (o + 64 <= length mem)%nat ->
  exists x2' m0' m1' m2' m3' s0' s1', srun sha1_body (mk (rdcba v :: re v :: x2 :: m0 :: m1 :: m2 :: m3 :: blanes mask_bytes1 :: s0 :: s1 :: rest) mem o st)
  = let v' := compress5 v (firstn 64 (skipn o mem)) in
    Some (mk (rdcba v' :: re v' :: x2' :: m0' :: m1' :: m2' :: m3' :: blanes mask_bytes1 :: s0' :: s1' :: rest) mem (o + 64) st).
Proof.
  intros Hv Hb Ho. cbv zeta. set (blk := firstn 64 (skipn o mem)).
  assert (BL : length blk = 64%nat) by (unfold blk; rewrite firstn_length, skipn_length; lia).
  assert (BB : bytes blk) by (apply bytes_firstn, bytes_skipn, Hb).
  set (Wl := sha1_schedule 64 (be_words 4 16 blk)).
  assert (W0 : forall t, (t < 16)%nat -> nth t Wl 0 = nth t (be_words 4 16 blk) 0).
  { intros t Ht. unfold Wl. rewrite sha1_schedule_ext. rewrite <- (nth_firstn_lt 0 _ t 16) by exact Ht.
    pose proof (ext_firstn sha1_next 64 (be_words 4 16 blk)) as EF. rewrite be_words_length in EF. rewrite EF. reflexivity. }
  assert (REC : forall t, (16 <= t < 80)%nat -> nth t Wl 0 = ROTL 32 1 (N.lxor (N.lxor (N.lxor (nth (t - 3) Wl 0) (nth (t - 8) Wl 0)) (nth (t - 14) Wl 0)) (nth (t - 16) Wl 0))).
  { intros t Ht. unfold Wl at 1. rewrite sha1_schedule_ext, ext_rec by (rewrite be_words_length; lia).
    rewrite <- sha1_schedule_ext. fold Wl. unfold sha1_next.
    assert (L : length (firstn t Wl) = t).
    { rewrite firstn_length. unfold Wl. rewrite sha1_schedule_ext, ext_length, be_words_length. lia. }
    rewrite L. rewrite !nth_firstn_lt by lia. reflexivity. }
  assert (Q : forall g, (g < 4)%nat -> exists l, rds mem (o + 16 * g) 16 = Some l /\ pshufb (blanes l) (vbytes (blanes mask_bytes1)) = M Wl g).
  { intros g Hg. eexists. split; [apply rds_some; lia|].
    rewrite shuf1.
    - replace (firstn 16 (skipn (o + 16 * g) mem)) with (firstn 16 (skipn (16 * g) blk)).
      + rewrite quarter by assumption. unfold M. rewrite !W0 by lia. reflexivity.
      + unfold blk. rewrite skipn_firstn_comm, firstn_firstn, skipn_skipn. f_equal; [lia|]. f_equal. lia.
    - apply bytes_firstn, bytes_skipn, Hb.
    - rewrite firstn_length, skipn_length. lia. }
  destruct (Q 0%nat ltac:(lia)) as (l0 & R0 & P0). destruct (Q 1%nat ltac:(lia)) as (l1 & R1 & P1).
  destruct (Q 2%nat ltac:(lia)) as (l2 & R2 & P2). destruct (Q 3%nat ltac:(lia)) as (l3 & R3 & P3).
  assert (E0 : paddd (re v) (M Wl 0) = ME v Wl 0).
  { unfold re, ME, M. destruct v as [[[[a b] c] d] e]. change (V (a, b, c, d, e) Wl (4 * 0)) with (a, b, c, d, e). cbn [get_e paddd map2].
    assert (HW : forall t, (t < 16)%nat -> nth t Wl 0 < 2 ^ 32).
    { intros t Ht. rewrite W0 by exact Ht. exact (nth_word 32 _ t (be_words_words 4 16 blk BB)). }
    unfold lane_add. rewrite !N.add_0_l. rewrite !(N.mod_small (nth _ Wl 0)) by (apply HW; lia). rewrite (N.add_comm e). reflexivity. }
  pose proof (first_exec (rdcba v) (re v) x2 m0 m1 m2 m3 (blanes mask_bytes1) s0 s1 rest mem o st l0 l1 l2 l3 R0 R1 R2 R3) as F.
  cbv beta zeta in F. rewrite P0, P1, P2, P3 in F. rewrite E0 in F.
  change (rdcba v) with (abcd v Wl 0) in F.
  rewrite (rnds4_M v Wl Hv 0 0) in F by lia. rewrite (nexte_M v Wl 0) in F. rewrite (rnds4_M v Wl Hv 0 1) in F by lia.
  rewrite (nexte_M v Wl 1) in F. rewrite (rnds4_M v Wl Hv 0 2) in F by lia.
  change (abcd v Wl 0) with (rdcba v) in F.
  destruct (stages v Wl Hv REC (blanes mask_bytes1 :: rdcba v :: re v :: rest) mem (o + 64) st (ME v Wl 2)) as (j & SG).
  pose proof (last_exec (abcd v Wl 17) j (abcd v Wl 16) (M Wl 16) (M Wl 17) (X Wl 14) (Z Wl 15) (blanes mask_bytes1) (rdcba v) (re v) rest mem (o + 64) st) as LE.
  assert (N18 : sha1msg2 (X Wl 14) (M Wl 17) = M Wl 18) by (apply (msg2_M Wl REC 14); lia).
  assert (N19 : sha1msg2 (X Wl 15) (M Wl 18) = M Wl 19) by (apply (msg2_M Wl REC 15); lia).
  cbv beta zeta in LE. rewrite (nexte_M v Wl 16), N18 in LE.
  change (pxor (Z Wl 15) (M Wl 17)) with (X Wl 15) in LE. rewrite N19 in LE.
  rewrite (rnds4_M v Wl Hv 3 17) in LE by lia. rewrite (nexte_M v Wl 17) in LE.
  rewrite (rnds4_M v Wl Hv 3 18) in LE by lia. rewrite (nexte_M v Wl 18) in LE.
  rewrite (rnds4_M v Wl Hv 3 19) in LE by lia.
  assert (FIN : paddd (abcd v Wl 20) (rdcba v) = rdcba (compress5 v blk) /\ sha1nexte (abcd v Wl 19) (re v) = re (compress5 v blk)).
  { split.
    - unfold abcd, compress5. fold Wl. change (V v Wl (4 * 20)) with (fold_left (sha1_round Wl) (seq 0 80) v).
      destruct (fold_left (sha1_round Wl) (seq 0 80) v) as [[[[a' b'] c'] d'] e']. destruct v as [[[[a b] c] d] e]. reflexivity.
    - unfold sha1nexte. rewrite abcd_lane3, rol_ROTL by lia. rewrite <- (e_4 v Wl 19). unfold compress5. fold Wl.
      change (V v Wl (4 * 20)) with (fold_left (sha1_round Wl) (seq 0 80) v).
      destruct (fold_left (sha1_round Wl) (seq 0 80) v) as [[[[a' b'] c'] d'] e']. destruct v as [[[[a b] c] d] e].
      cbn [get_e re lane nth]. unfold lane_add, add. rewrite (N.add_comm e). reflexivity. }
  destruct FIN as [F0 F1]. rewrite F0, F1 in LE.
  do 7 eexists. 
  match goal with |- srun _ ?m = _ => set (mm := m) in * end.
  change sha1_body with ((sha1_first ++ [Pshufb (msg1 3) mask1]) ++ (
    sha_1_160_rounds 0 1 2 3 0 1 2 0 ++ sha_1_160_rounds 1 2 3 0 0 2 1 0 ++
    sha_1_160_rounds 2 3 0 1 0 1 2 1 ++ sha_1_160_rounds 3 0 1 2 0 2 1 1 ++
    sha_1_160_rounds 0 1 2 3 0 1 2 1 ++ sha_1_160_rounds 1 2 3 0 0 2 1 1 ++
    sha_1_160_rounds 2 3 0 1 0 1 2 1 ++ sha_1_160_rounds 3 0 1 2 0 2 1 2 ++
    sha_1_160_rounds 0 1 2 3 0 1 2 2 ++ sha_1_160_rounds 1 2 3 0 0 2 1 2 ++
    sha_1_160_rounds 2 3 0 1 0 1 2 2 ++ sha_1_160_rounds 3 0 1 2 0 2 1 2 ++
    sha_1_160_rounds 0 1 2 3 0 1 2 3 ++ sha_1_160_rounds 1 2 3 0 0 2 1 3) ++ sha1_last).
  rewrite srun_app, F. cbn [bind].
  match goal with |- srun _ ?m = _ => change m with (S0 v Wl (blanes mask_bytes1 :: rdcba v :: re v :: rest) mem (o + 64) st 0 (ME v Wl 2)) end.
  rewrite srun_app, SG. cbn [bind]. exact LE.
Qed.


(** *** The routine *)
Lemma compress5_list v blk : list5 (compress5 v blk) = sha1_compress (list5 v) blk.
Proof.
  destruct v as [[[[a b] c] d] e]. unfold compress5, sha1_compress, list5. cbn [nth].
  destruct (fold_left (sha1_round (sha1_schedule 64 (be_words 4 16 blk))) (seq 0 80) (a, b, c, d, e)) as [[[[a' b'] c'] d'] e'].
  reflexivity.
Qed.
Lemma compress5_words v blk : words5 (compress5 v blk).
Proof.
  destruct v as [[[[a b] c] d] e]. unfold compress5.
  destruct (fold_left (sha1_round (sha1_schedule 64 (be_words 4 16 blk))) (seq 0 80) (a, b, c, d, e)) as [[[[a' b'] c'] d'] e'].
  unfold words5, add. repeat split; apply N.mod_lt; lia.
Qed.
Lemma sha1_loop n : forall v x2 m0 m1 m2 m3 s0 s1 rest mem o st, words5 v -> bytes mem -> (o + 64 * n <= length mem)%nat ->
  exists v' x2' m0' m1' m2' m3' s0' s1' o',
    sloop sha1_body n (mk (rdcba v :: re v :: x2 :: m0 :: m1 :: m2 :: m3 :: blanes mask_bytes1 :: s0 :: s1 :: rest) mem o st)
    = Some (mk (rdcba v' :: re v' :: x2' :: m0' :: m1' :: m2' :: m3' :: blanes mask_bytes1 :: s0' :: s1' :: rest) mem o' st) /\
    list5 v' = iter_blocks 64 n sha1_compress (list5 v) (skipn o mem).
Proof.
  induction n as [|n IH]; intros v x2 m0 m1 m2 m3 s0 s1 rest mem o st Hv Hb Ho.
  - do 9 eexists. split; [reflexivity|]. reflexivity.
  - destruct (sha1_block v x2 m0 m1 m2 m3 s0 s1 rest mem o st Hv Hb ltac:(lia)) as (a & b & c & d & e & f & g & E).
    cbv zeta in E. cbn [sloop]. rewrite E. cbn [bind].
    destruct (IH (compress5 v (firstn 64 (skipn o mem))) a b c d e f g rest mem (o + 64)%nat st (compress5_words _ _) Hb ltac:(lia))
      as (v' & x2' & m0' & m1' & m2' & m3' & s0' & s1' & o' & E' & L).
    exists v', x2', m0', m1', m2', m3', s0', s1', o'. split; [exact E'|]. cbn [iter_blocks].
    rewrite L, compress5_list, skipn_skipn. do 2 f_equal. lia.
Qed.

Lemma sha1_ni_blocks_spec junk n st src : length junk = 16%nat -> bytes src -> (n * 64 <= length src)%nat ->
  length st = 5%nat -> words 32 st -> sha1_ni_blocks junk n st src = Some (iter_blocks 64 n sha1_compress st src).
Proof.
  intros J Hb Hn Hl Hw. do 10 (destruct junk as [|? junk]; [discriminate J|]).
  do 5 (destruct st as [|? st]; [discriminate Hl|]). destruct st; [|discriminate Hl].
  rename n0 into a, n1 into b, n2 into c, n3 into d, n4 into e.
  assert (Hv : words5 (a, b, c, d, e)).
  { pose proof (fun i => nth_word 32 _ i Hw) as G. repeat split; [exact (G 0%nat)|exact (G 1%nat)|exact (G 2%nat)|exact (G 3%nat)|exact (G 4%nat)]. }
  unfold sha1_ni_blocks, routine.
  match goal with |- bind (srun sha1_load ?m) _ = _ =>
    assert (E : srun sha1_load m = Some (mk (rdcba (a, b, c, d, e) :: re (a, b, c, d, e) :: v1 :: v2 :: v3 :: v4 :: v5 :: blanes mask_bytes1 :: v7 :: v8 :: junk) src 0 [a; b; c; d; e])) by reflexivity
  end.
  rewrite E. cbn [bind].
  destruct (sha1_loop n (a, b, c, d, e) v1 v2 v3 v4 v5 v7 v8 junk src 0 [a; b; c; d; e] Hv Hb ltac:(lia))
    as (v' & x2' & m0' & m1' & m2' & m3' & s0' & s1' & o' & E' & L).
  rewrite E'. cbn [bind]. change (skipn 0 src) with src in L. change (list5 (a, b, c, d, e)) with [a; b; c; d; e] in L. rewrite <- L.
  destruct v' as [[[[a' b'] c'] d'] e']. reflexivity.
Qed.
