(** The vector code of the double round computes the ChaCha double round in every lane. *)
From Verif Require Import Base BaseLemmas BytesLemmas Spec_Bytes Spec_ChaCha Model_Memory Model_X86 Model_ChaChaAsm Proof_ChaChaCore.
Local Open Scope N_scope.

(** *** Vectors of [L] 32-bit lanes *)
Definition vok (L : nat) (v : vec) : Prop := length v = L /\ words 32 v.

Lemma map2_length f a : forall b, length b = length a -> length (map2 f a b) = length a.
Proof. induction a as [|x a IH]; intros [|y b] H; try discriminate; [reflexivity|]. cbn [map2 length]. rewrite IH by (cbn in H; lia). reflexivity. Qed.
Lemma map2_nth f a : forall b i, length b = length a -> (i < length a)%nat -> nth i (map2 f a b) 0 = f (nth i a 0) (nth i b 0).
Proof.
  induction a as [|x a IH]; intros [|y b] i H Hi; cbn in H, Hi; try lia. destruct i as [|i]; [reflexivity|]. cbn [map2 nth]. apply IH; lia.
Qed.
Lemma map2_words f a : (forall x y, x < 2 ^ 32 -> y < 2 ^ 32 -> f x y < 2 ^ 32) -> forall b, words 32 a -> words 32 b -> words 32 (map2 f a b).
Proof.
  intros Hf. induction a as [|x a IH]; intros [|y b] Ha Hb; cbn [map2]; try constructor.
  - apply Hf; [exact (Forall_inv Ha)|exact (Forall_inv Hb)].
  - apply IH; [exact (Forall_inv_tail Ha)|exact (Forall_inv_tail Hb)].
Qed.
Lemma paddd_ok L a b : vok L a -> vok L b -> vok L (paddd a b).
Proof.
  intros [La Wa] [Lb Wb]. split; [unfold paddd; rewrite map2_length; lia|]. apply map2_words; try assumption.
  intros x y _ _. apply N.mod_lt. discriminate.
Qed.
Lemma pxor_ok L a b : vok L a -> vok L b -> vok L (pxor a b).
Proof.
  intros [La Wa] [Lb Wb]. split; [unfold pxor; rewrite map2_length; lia|]. apply map2_words; try assumption. exact lxor_lt32.
Qed.
Lemma pslld_ok L k a : vok L a -> vok L (pslld k a).
Proof.
  intros [La Wa]. split; [unfold pslld; rewrite map_length; exact La|]. apply Forall_forall. intros x Hx. unfold pslld in Hx.
  apply in_map_iff in Hx. destruct Hx as (y & <- & _). apply N.mod_lt. discriminate.
Qed.
Lemma psrld_ok L k a : vok L a -> vok L (psrld k a).
Proof.
  intros [La Wa]. split; [unfold psrld; rewrite map_length; exact La|]. apply Forall_forall. intros x Hx. unfold psrld in Hx.
  apply in_map_iff in Hx. destruct Hx as (y & <- & Hy). pose proof (proj1 (Forall_forall _ _) Wa y Hy) as Y.
  unfold is_word in *. apply N.le_lt_trans with y; [|exact Y].
  apply N.div_le_upper_bound; [apply N.pow_nonzero; discriminate|]. rewrite <- (N.mul_1_l y) at 1. apply N.mul_le_mono_r.
  pose proof (N.pow_nonzero 2 k ltac:(discriminate)). lia.
Qed.
Lemma nth_paddd L a b i : vok L a -> vok L b -> (i < L)%nat -> nth i (paddd a b) 0 = add32 (nth i a 0) (nth i b 0).
Proof. intros [La _] [Lb _] Hi. unfold paddd. rewrite map2_nth by lia. reflexivity. Qed.
Lemma nth_pxor L a b i : vok L a -> vok L b -> (i < L)%nat -> nth i (pxor a b) 0 = N.lxor (nth i a 0) (nth i b 0).
Proof. intros [La _] [Lb _] Hi. unfold pxor. rewrite map2_nth by lia. reflexivity. Qed.
Lemma nth_vok L v i : vok L v -> nth i v 0 < 2 ^ 32.
Proof. intros [_ W]. exact (nth_words v i W). Qed.

(** Rotation by shifts *)
Lemma lxor_rol k x : x < 2 ^ 32 -> k <= 32 -> N.lxor ((x * 2 ^ k) mod 2 ^ 32) (x / 2 ^ (32 - k)) = rol32 k x.
Proof.
  intros Hx Hk. unfold rol32. symmetry. apply N.add_nocarry_lxor. apply N.bits_inj_0. intros i. rewrite N.land_spec.
  destruct (N.lt_ge_cases i k) as [H|H].
  - replace (N.testbit ((x * 2 ^ k) mod 2 ^ 32) i) with false; [reflexivity|]. symmetry.
    rewrite N.mod_pow2_bits_low by lia. rewrite N.mul_pow2_bits_low by lia. reflexivity.
  - replace (N.testbit (x / 2 ^ (32 - k)) i) with false; [apply andb_false_r|]. symmetry.
    rewrite N.div_pow2_bits. destruct (N.eq_dec x 0) as [->|Hx0]; [apply N.bits_0|].
    apply N.bits_above_log2. apply N.log2_lt_pow2; [lia|]. apply N.lt_le_trans with (2 ^ 32); [exact Hx|].
    apply N.pow_le_mono_r; [discriminate|lia].
Qed.
Lemma nth_map_lt f : forall (l : list N) i, (i < length l)%nat -> nth i (map f l) 0 = f (nth i l 0).
Proof. induction l as [|x l IH]; intros [|i] H; cbn in H; try lia; [reflexivity|]. cbn [map nth]. apply IH. lia. Qed.
Definition vrol (k : N) (y : vec) : vec := pxor (pslld k y) (psrld (32 - k) y).
Lemma nth_vrol L k y i : vok L y -> k <= 32 -> (i < L)%nat -> nth i (vrol k y) 0 = rol32 k (nth i y 0).
Proof.
  intros Hy Hk Hi. unfold vrol. rewrite (nth_pxor L) by (try apply pslld_ok; try apply psrld_ok; assumption).
  unfold pslld, psrld. destruct Hy as [Ly Wy].
  rewrite !nth_map_lt by lia.
  apply lxor_rol; [exact (nth_words y i Wy)|exact Hk].
Qed.
Lemma vrol_ok L k y : vok L y -> vok L (vrol k y).
Proof. intros H. apply pxor_ok; [apply pslld_ok|apply psrld_ok]; exact H. Qed.

(** Rotation by byte shuffles *)
Lemma bytes4 x : x < 2 ^ 32 -> exists a b c d, a < 256 /\ b < 256 /\ c < 256 /\ d < 256 /\ x = a + 256 * (b + 256 * (c + 256 * d)) /\ le_enc 4 x = [a; b; c; d].
Proof.
  intros H. exists (x mod 256), (x / 256 mod 256), (x / 256 / 256 mod 256), (x / 256 / 256 / 256 mod 256).
  repeat split; try (apply N.mod_lt; discriminate).
  pose proof (N.div_mod x 256 ltac:(discriminate)). pose proof (N.div_mod (x / 256) 256 ltac:(discriminate)).
  pose proof (N.div_mod (x / 256 / 256) 256 ltac:(discriminate)).
  assert (x / 256 / 256 / 256 < 256). { rewrite !N.div_div by discriminate. apply N.div_lt_upper_bound; [discriminate|exact H]. }
  rewrite (N.mod_small (x / 256 / 256 / 256) 256) by assumption. lia.
Qed.
Lemma rol16_bytes a b c d : a < 256 -> b < 256 -> c < 256 -> d < 256 ->
  rol32 16 (a + 256 * (b + 256 * (c + 256 * d))) = le_dec [c; d; a; b].
Proof.
  intros. unfold rol32. cbn [le_dec]. change (2 ^ 16) with 65536. change (2 ^ (32 - 16)) with 65536. change (2 ^ 32) with 4294967296.
  replace ((a + 256 * (b + 256 * (c + 256 * d))) / 65536) with (c + 256 * d) by (apply N.div_unique with (a + 256 * b); lia).
  replace (((a + 256 * (b + 256 * (c + 256 * d))) * 65536) mod 4294967296) with (65536 * (a + 256 * b)); [lia|].
  apply N.mod_unique with (c + 256 * d); lia.
Qed.
Lemma rol8_bytes a b c d : a < 256 -> b < 256 -> c < 256 -> d < 256 ->
  rol32 8 (a + 256 * (b + 256 * (c + 256 * d))) = le_dec [d; a; b; c].
Proof.
  intros. unfold rol32. cbn [le_dec]. change (2 ^ 8) with 256. change (2 ^ (32 - 8)) with 16777216. change (2 ^ 32) with 4294967296.
  replace ((a + 256 * (b + 256 * (c + 256 * d))) / 16777216) with d by (apply N.div_unique with (a + 256 * b + 65536 * c); lia).
  replace (((a + 256 * (b + 256 * (c + 256 * d))) * 256) mod 4294967296) with (256 * (a + 256 * b + 65536 * c)); [lia|].
  apply N.mod_unique with d; lia.
Qed.

(** Register widths of the two routines. *)
Definition lanes (w : nat) : nat := (w / 4)%nat.
Definition width (w : nat) : Prop := w = 16%nat \/ w = 32%nat.

Lemma pshufb_16 w v : width w -> vok (lanes w) v -> pshufb v (shuffle_rol_16 w) = map (rol32 16) v.
Proof.
  intros [->| ->] [L W]; cbn in L.
  - destruct v as [|x0 [|x1 [|x2 [|x3 [|]]]]]; try discriminate. inversion_clear W as [|? ? W0 W1]. inversion_clear W1 as [|? ? W1' W2].
    inversion_clear W2 as [|? ? W2' W3]. inversion_clear W3 as [|? ? W3' W4].
    destruct (bytes4 x0 W0) as (a0 & b0 & c0 & d0 & ? & ? & ? & ? & E0 & F0).
    destruct (bytes4 x1 W1') as (a1 & b1 & c1 & d1 & ? & ? & ? & ? & E1 & F1).
    destruct (bytes4 x2 W2') as (a2 & b2 & c2 & d2 & ? & ? & ? & ? & E2 & F2).
    destruct (bytes4 x3 W3') as (a3 & b3 & c3 & d3 & ? & ? & ? & ? & E3 & F3).
    unfold pshufb, vbytes. cbn [flat_map]. rewrite F0, F1, F2, F3. cbn [map]. rewrite E0, E1, E2, E3.
    rewrite !rol16_bytes by assumption. reflexivity.
  - destruct v as [|x0 [|x1 [|x2 [|x3 [|x4 [|x5 [|x6 [|x7 [|]]]]]]]]]; try discriminate.
    assert (Q : forall x, In x [x0; x1; x2; x3; x4; x5; x6; x7] -> x < 2 ^ 32) by (exact (proj1 (Forall_forall _ _) W)).
    destruct (bytes4 x0 ltac:(apply Q; cbn; tauto)) as (a0 & b0 & c0 & d0 & ? & ? & ? & ? & E0 & F0).
    destruct (bytes4 x1 ltac:(apply Q; cbn; tauto)) as (a1 & b1 & c1 & d1 & ? & ? & ? & ? & E1 & F1).
    destruct (bytes4 x2 ltac:(apply Q; cbn; tauto)) as (a2 & b2 & c2 & d2 & ? & ? & ? & ? & E2 & F2).
    destruct (bytes4 x3 ltac:(apply Q; cbn; tauto)) as (a3 & b3 & c3 & d3 & ? & ? & ? & ? & E3 & F3).
    destruct (bytes4 x4 ltac:(apply Q; cbn; tauto)) as (a4 & b4 & c4 & d4 & ? & ? & ? & ? & E4 & F4).
    destruct (bytes4 x5 ltac:(apply Q; cbn; tauto)) as (a5 & b5 & c5 & d5 & ? & ? & ? & ? & E5 & F5).
    destruct (bytes4 x6 ltac:(apply Q; cbn; tauto)) as (a6 & b6 & c6 & d6 & ? & ? & ? & ? & E6 & F6).
    destruct (bytes4 x7 ltac:(apply Q; cbn; tauto)) as (a7 & b7 & c7 & d7 & ? & ? & ? & ? & E7 & F7).
    unfold pshufb, vbytes. cbn [flat_map]. rewrite F0, F1, F2, F3, F4, F5, F6, F7. cbn [map]. rewrite E0, E1, E2, E3, E4, E5, E6, E7.
    rewrite !rol16_bytes by assumption. reflexivity.
Qed.
Lemma pshufb_8 w v : width w -> vok (lanes w) v -> pshufb v (shuffle_rol_8 w) = map (rol32 8) v.
Proof.
  intros [->| ->] [L W]; cbn in L.
  - destruct v as [|x0 [|x1 [|x2 [|x3 [|]]]]]; try discriminate. inversion_clear W as [|? ? W0 W1]. inversion_clear W1 as [|? ? W1' W2].
    inversion_clear W2 as [|? ? W2' W3]. inversion_clear W3 as [|? ? W3' W4].
    destruct (bytes4 x0 W0) as (a0 & b0 & c0 & d0 & ? & ? & ? & ? & E0 & F0).
    destruct (bytes4 x1 W1') as (a1 & b1 & c1 & d1 & ? & ? & ? & ? & E1 & F1).
    destruct (bytes4 x2 W2') as (a2 & b2 & c2 & d2 & ? & ? & ? & ? & E2 & F2).
    destruct (bytes4 x3 W3') as (a3 & b3 & c3 & d3 & ? & ? & ? & ? & E3 & F3).
    unfold pshufb, vbytes. cbn [flat_map]. rewrite F0, F1, F2, F3. cbn [map]. rewrite E0, E1, E2, E3.
    rewrite !rol8_bytes by assumption. reflexivity.
  - destruct v as [|x0 [|x1 [|x2 [|x3 [|x4 [|x5 [|x6 [|x7 [|]]]]]]]]]; try discriminate.
    assert (Q : forall x, In x [x0; x1; x2; x3; x4; x5; x6; x7] -> x < 2 ^ 32) by (exact (proj1 (Forall_forall _ _) W)).
    destruct (bytes4 x0 ltac:(apply Q; cbn; tauto)) as (a0 & b0 & c0 & d0 & ? & ? & ? & ? & E0 & F0).
    destruct (bytes4 x1 ltac:(apply Q; cbn; tauto)) as (a1 & b1 & c1 & d1 & ? & ? & ? & ? & E1 & F1).
    destruct (bytes4 x2 ltac:(apply Q; cbn; tauto)) as (a2 & b2 & c2 & d2 & ? & ? & ? & ? & E2 & F2).
    destruct (bytes4 x3 ltac:(apply Q; cbn; tauto)) as (a3 & b3 & c3 & d3 & ? & ? & ? & ? & E3 & F3).
    destruct (bytes4 x4 ltac:(apply Q; cbn; tauto)) as (a4 & b4 & c4 & d4 & ? & ? & ? & ? & E4 & F4).
    destruct (bytes4 x5 ltac:(apply Q; cbn; tauto)) as (a5 & b5 & c5 & d5 & ? & ? & ? & ? & E5 & F5).
    destruct (bytes4 x6 ltac:(apply Q; cbn; tauto)) as (a6 & b6 & c6 & d6 & ? & ? & ? & ? & E6 & F6).
    destruct (bytes4 x7 ltac:(apply Q; cbn; tauto)) as (a7 & b7 & c7 & d7 & ? & ? & ? & ? & E7 & F7).
    unfold pshufb, vbytes. cbn [flat_map]. rewrite F0, F1, F2, F3, F4, F5, F6, F7. cbn [map]. rewrite E0, E1, E2, E3, E4, E5, E6, E7.
    rewrite !rol8_bytes by assumption. reflexivity.
Qed.

Lemma map_rol_ok L k v : vok L v -> k <= 32 -> vok L (map (rol32 k) v).
Proof.
  intros [Lv W] Hk. split; [rewrite map_length; exact Lv|]. apply Forall_forall. intros x Hx. apply in_map_iff in Hx.
  destruct Hx as (y & <- & Hy). apply rol32_lt; [exact (proj1 (Forall_forall _ _) W y Hy)|exact Hk].
Qed.

(** *** One application of the rounds macro *)
(** Half a quarter round on vectors: [k1] is 16 or 8 and [sh] the matching shuffle; [k2] is 12 or 7. *)
Definition hA (a b : vec) : vec := paddd a b.
Definition hD (sh : list N) (a b d : vec) : vec := pshufb (pxor d (hA a b)) sh.
Definition hC (sh : list N) (a b c d : vec) : vec := paddd c (hD sh a b d).
Definition hB (sh : list N) (k : N) (a b c d : vec) : vec := vrol k (pxor b (hC sh a b c d)).
(** and on words *)
Definition sA (a b : N) : N := add32 a b.
Definition sD (k1 : N) (a b d : N) : N := rol32 k1 (N.lxor d (sA a b)).
Definition sC (k1 : N) (a b c d : N) : N := add32 c (sD k1 a b d).
Definition sB (k1 k2 : N) (a b c d : N) : N := rol32 k2 (N.lxor b (sC k1 a b c d)).

(** Machines with 16 registers in view. *)
Definition mk (r t b : list vec) (mem : list N) (d s : nat) (st : list N) : mach :=
  {| mc_reg := r; mc_tmp := t; mc_base := b; mc_mem := mem; mc_dst := d; mc_src := s; mc_state := st |}.

Lemma macro_col w sh k x0 x1 x2 x3 x4 x5 x6 x7 x8 x9 x10 x11 x12 x13 x14 x15 t0 t1 ts b mem d s st :
  run w (rounds_macro 0 1 2 3 4 5 6 7 8 9 10 11 12 13 14 15 sh k)
    (mk [x0; x1; x2; x3; x4; x5; x6; x7; x8; x9; x10; x11; x12; x13; x14; x15] (t0 :: t1 :: ts) b mem d s st)
  = Some (mk
     [hA x0 x4; hA x1 x5; hA x2 x6; hA x3 x7;
      hB sh k x0 x4 x8 x12; hB sh k x1 x5 x9 x13; hB sh k x2 x6 x10 x14; hB sh k x3 x7 x11 x15;
      hC sh x0 x4 x8 x12; hC sh x1 x5 x9 x13; hC sh x2 x6 x10 x14; hC sh x3 x7 x11 x15;
      hD sh x0 x4 x12; hD sh x1 x5 x13; hD sh x2 x6 x14; hD sh x3 x7 x15]
     (hD sh x0 x4 x12 :: hD sh x1 x5 x13 :: ts) b mem d s st).
Proof.
  lazy beta iota zeta delta [run exec rounds_macro add xor mov may_fault is_mem andb orb get set setreg bind nth_error lset mk
    mc_reg mc_tmp mc_base mc_mem mc_dst mc_src mc_state with_reg with_tmp fun3 hA hB hC hD vrol].
  reflexivity.
Qed.
Lemma macro_diag w sh k x0 x1 x2 x3 x4 x5 x6 x7 x8 x9 x10 x11 x12 x13 x14 x15 t0 t1 ts b mem d s st :
  run w (rounds_macro 0 1 2 3 5 6 7 4 10 11 8 9 15 12 13 14 sh k)
    (mk [x0; x1; x2; x3; x4; x5; x6; x7; x8; x9; x10; x11; x12; x13; x14; x15] (t0 :: t1 :: ts) b mem d s st)
  = Some (mk
     [hA x0 x5; hA x1 x6; hA x2 x7; hA x3 x4;
      hB sh k x3 x4 x9 x14; hB sh k x0 x5 x10 x15; hB sh k x1 x6 x11 x12; hB sh k x2 x7 x8 x13;
      hC sh x2 x7 x8 x13; hC sh x3 x4 x9 x14; hC sh x0 x5 x10 x15; hC sh x1 x6 x11 x12;
      hD sh x1 x6 x12; hD sh x2 x7 x13; hD sh x3 x4 x14; hD sh x0 x5 x15]
     (hD sh x0 x5 x15 :: hD sh x1 x6 x12 :: ts) b mem d s st).
Proof.
  lazy beta iota zeta delta [run exec rounds_macro add xor mov may_fault is_mem andb orb get set setreg bind nth_error lset mk
    mc_reg mc_tmp mc_base mc_mem mc_dst mc_src mc_state with_reg with_tmp fun3 hA hB hC hD vrol].
  reflexivity.
Qed.

(** *** The same on one lane *)
Definition hcol (k1 k2 : N) (s : list N) : list N :=
  match s with
  | [x0; x1; x2; x3; x4; x5; x6; x7; x8; x9; x10; x11; x12; x13; x14; x15] =>
     [sA x0 x4; sA x1 x5; sA x2 x6; sA x3 x7;
      sB k1 k2 x0 x4 x8 x12; sB k1 k2 x1 x5 x9 x13; sB k1 k2 x2 x6 x10 x14; sB k1 k2 x3 x7 x11 x15;
      sC k1 x0 x4 x8 x12; sC k1 x1 x5 x9 x13; sC k1 x2 x6 x10 x14; sC k1 x3 x7 x11 x15;
      sD k1 x0 x4 x12; sD k1 x1 x5 x13; sD k1 x2 x6 x14; sD k1 x3 x7 x15]
  | _ => []
  end.
Definition hdiag (k1 k2 : N) (s : list N) : list N :=
  match s with
  | [x0; x1; x2; x3; x4; x5; x6; x7; x8; x9; x10; x11; x12; x13; x14; x15] =>
     [sA x0 x5; sA x1 x6; sA x2 x7; sA x3 x4;
      sB k1 k2 x3 x4 x9 x14; sB k1 k2 x0 x5 x10 x15; sB k1 k2 x1 x6 x11 x12; sB k1 k2 x2 x7 x8 x13;
      sC k1 x2 x7 x8 x13; sC k1 x3 x4 x9 x14; sC k1 x0 x5 x10 x15; sC k1 x1 x6 x11 x12;
      sD k1 x1 x6 x12; sD k1 x2 x7 x13; sD k1 x3 x4 x14; sD k1 x0 x5 x15]
  | _ => []
  end.
Definition vcol (sh : list N) (k : N) (s : list vec) : list vec :=
  match s with
  | [x0; x1; x2; x3; x4; x5; x6; x7; x8; x9; x10; x11; x12; x13; x14; x15] =>
     [hA x0 x4; hA x1 x5; hA x2 x6; hA x3 x7;
      hB sh k x0 x4 x8 x12; hB sh k x1 x5 x9 x13; hB sh k x2 x6 x10 x14; hB sh k x3 x7 x11 x15;
      hC sh x0 x4 x8 x12; hC sh x1 x5 x9 x13; hC sh x2 x6 x10 x14; hC sh x3 x7 x11 x15;
      hD sh x0 x4 x12; hD sh x1 x5 x13; hD sh x2 x6 x14; hD sh x3 x7 x15]
  | _ => []
  end.
Definition vdiag (sh : list N) (k : N) (s : list vec) : list vec :=
  match s with
  | [x0; x1; x2; x3; x4; x5; x6; x7; x8; x9; x10; x11; x12; x13; x14; x15] =>
     [hA x0 x5; hA x1 x6; hA x2 x7; hA x3 x4;
      hB sh k x3 x4 x9 x14; hB sh k x0 x5 x10 x15; hB sh k x1 x6 x11 x12; hB sh k x2 x7 x8 x13;
      hC sh x2 x7 x8 x13; hC sh x3 x4 x9 x14; hC sh x0 x5 x10 x15; hC sh x1 x6 x11 x12;
      hD sh x1 x6 x12; hD sh x2 x7 x13; hD sh x3 x4 x14; hD sh x0 x5 x15]
  | _ => []
  end.
Definition lane (i : nat) (regs : list vec) : list N := map (fun v => nth i v 0) regs.
Definition vregs (L : nat) (regs : list vec) : Prop := length regs = 16%nat /\ Forall (vok L) regs.

Lemma inner_block_halves s : length s = 16%nat -> inner_block s = hdiag 8 7 (hdiag 16 12 (hcol 8 7 (hcol 16 12 s))).
Proof.
  intros H. destruct (list16 s H) as (x0 & x1 & x2 & x3 & x4 & x5 & x6 & x7 & x8 & x9 & x10 & x11 & x12 & x13 & x14 & x15 & ->).
  lazy -[add32 rol32 N.lxor]. reflexivity.
Qed.

(** The shuffle [sh] rotates each lane by [k1]. *)
Definition rot_mask (L : nat) (sh : list N) (k1 : N) : Prop :=
  k1 <= 32 /\ forall v, vok L v -> pshufb v sh = map (rol32 k1) v.
Section HALF.
  Variables (L : nat) (sh : list N) (k1 k2 : N).
  Hypothesis HR : rot_mask L sh k1.
  Hypothesis Hk : k2 <= 32.
  Lemma hA_ok a b : vok L a -> vok L b -> vok L (hA a b).
  Proof. apply paddd_ok. Qed.
  Lemma hD_ok a b d : vok L a -> vok L b -> vok L d -> vok L (hD sh a b d).
  Proof.
    intros. unfold hD. rewrite (proj2 HR) by (apply pxor_ok; [assumption|apply hA_ok; assumption]).
    apply map_rol_ok; [|exact (proj1 HR)]. apply pxor_ok; [assumption|apply hA_ok; assumption].
  Qed.
  Lemma hC_ok a b c d : vok L a -> vok L b -> vok L c -> vok L d -> vok L (hC sh a b c d).
  Proof. intros. apply paddd_ok; [assumption|apply hD_ok; assumption]. Qed.
  Lemma hB_ok a b c d : vok L a -> vok L b -> vok L c -> vok L d -> vok L (hB sh k2 a b c d).
  Proof. intros. apply vrol_ok. apply pxor_ok; [assumption|apply hC_ok; assumption]. Qed.
  Variable i : nat.
  Hypothesis Hi : (i < L)%nat.
  Lemma nth_hA a b : vok L a -> vok L b -> nth i (hA a b) 0 = sA (nth i a 0) (nth i b 0).
  Proof. intros. apply (nth_paddd L); assumption. Qed.
  Lemma nth_hD a b d : vok L a -> vok L b -> vok L d -> nth i (hD sh a b d) 0 = sD k1 (nth i a 0) (nth i b 0) (nth i d 0).
  Proof.
    intros Ha Hb Hd. assert (Q : vok L (pxor d (hA a b))) by (apply pxor_ok; [assumption|apply hA_ok; assumption]).
    unfold hD, sD. rewrite (proj2 HR) by exact Q. rewrite nth_map_lt by (rewrite (proj1 Q); exact Hi).
    rewrite (nth_pxor L) by (try apply hA_ok; assumption). rewrite nth_hA by assumption. reflexivity.
  Qed.
  Lemma nth_hC a b c d : vok L a -> vok L b -> vok L c -> vok L d ->
    nth i (hC sh a b c d) 0 = sC k1 (nth i a 0) (nth i b 0) (nth i c 0) (nth i d 0).
  Proof.
    intros. unfold hC, sC. rewrite (nth_paddd L) by (try apply hD_ok; assumption). rewrite nth_hD by assumption. reflexivity.
  Qed.
  Lemma nth_hB a b c d : vok L a -> vok L b -> vok L c -> vok L d ->
    nth i (hB sh k2 a b c d) 0 = sB k1 k2 (nth i a 0) (nth i b 0) (nth i c 0) (nth i d 0).
  Proof.
    intros. assert (vok L (hC sh a b c d)) by (apply hC_ok; assumption).
    unfold hB, sB. rewrite (nth_vrol L) by (try apply pxor_ok; assumption).
    rewrite (nth_pxor L) by assumption. rewrite nth_hC by assumption. reflexivity.
  Qed.
End HALF.

Lemma vec16 (l : list vec) : length l = 16%nat -> exists x0 x1 x2 x3 x4 x5 x6 x7 x8 x9 x10 x11 x12 x13 x14 x15,
  l = [x0; x1; x2; x3; x4; x5; x6; x7; x8; x9; x10; x11; x12; x13; x14; x15].
Proof.
  intros H. do 17 (destruct l as [|? l]; try discriminate). repeat eexists.
Qed.
Ltac regs16 H :=
  let H1 := fresh in let H2 := fresh in
  destruct H as [H1 H2]; destruct (vec16 _ H1) as (x0 & x1 & x2 & x3 & x4 & x5 & x6 & x7 & x8 & x9 & x10 & x11 & x12 & x13 & x14 & x15 & ->);
  repeat match goal with Q : Forall _ (_ :: _) |- _ => let A := fresh in let B := fresh in pose proof (Forall_inv Q) as A; pose proof (Forall_inv_tail Q) as B; clear Q end.

Lemma vcol_ok L sh k1 k2 regs : rot_mask L sh k1 -> k2 <= 32 -> vregs L regs -> vregs L (vcol sh k2 regs).
Proof.
  intros HR Hk H. regs16 H. split; [reflexivity|]. cbn [vcol].
  repeat apply Forall_cons; [..|apply Forall_nil]; first [apply (hB_ok L sh k1) | apply (hC_ok L sh k1) | apply (hD_ok L sh k1) | apply hA_ok]; assumption.
Qed.
Lemma vdiag_ok L sh k1 k2 regs : rot_mask L sh k1 -> k2 <= 32 -> vregs L regs -> vregs L (vdiag sh k2 regs).
Proof.
  intros HR Hk H. regs16 H. split; [reflexivity|]. cbn [vdiag].
  repeat apply Forall_cons; [..|apply Forall_nil]; first [apply (hB_ok L sh k1) | apply (hC_ok L sh k1) | apply (hD_ok L sh k1) | apply hA_ok]; assumption.
Qed.
Lemma lane_col L sh k1 k2 regs i : rot_mask L sh k1 -> k2 <= 32 -> vregs L regs -> (i < L)%nat ->
  lane i (vcol sh k2 regs) = hcol k1 k2 (lane i regs).
Proof.
  intros HR Hk H Hi. regs16 H. cbn [vcol lane map hcol].
  rewrite !(nth_hB L sh k1 k2 HR Hk i Hi) by assumption. rewrite !(nth_hC L sh k1 HR i Hi) by assumption.
  rewrite !(nth_hD L sh k1 HR i Hi) by assumption. rewrite !(nth_hA L i Hi) by assumption. reflexivity.
Qed.
Lemma lane_diag L sh k1 k2 regs i : rot_mask L sh k1 -> k2 <= 32 -> vregs L regs -> (i < L)%nat ->
  lane i (vdiag sh k2 regs) = hdiag k1 k2 (lane i regs).
Proof.
  intros HR Hk H Hi. regs16 H. cbn [vdiag lane map hdiag].
  rewrite !(nth_hB L sh k1 k2 HR Hk i Hi) by assumption. rewrite !(nth_hC L sh k1 HR i Hi) by assumption.
  rewrite !(nth_hD L sh k1 HR i Hi) by assumption. rewrite !(nth_hA L i Hi) by assumption. reflexivity.
Qed.

(** *** The double round *)
Lemma run_app w p q m : run w (p ++ q) m = (m <- run w p m ;; run w q m).
Proof.
  revert m. induction p as [|i p IH]; intros m; [reflexivity|]. cbn [app run]. destruct (exec w m i) as [m'|]; [|reflexivity].
  cbn [bind]. apply IH.
Qed.
Definition vdouble (w : nat) (regs : list vec) : list vec :=
  vdiag (shuffle_rol_8 w) 7 (vdiag (shuffle_rol_16 w) 12 (vcol (shuffle_rol_8 w) 7 (vcol (shuffle_rol_16 w) 12 regs))).
Lemma rot16 w : width w -> rot_mask (lanes w) (shuffle_rol_16 w) 16.
Proof. intros H. split; [discriminate|]. intros v. apply pshufb_16. exact H. Qed.
Lemma rot8 w : width w -> rot_mask (lanes w) (shuffle_rol_8 w) 8.
Proof. intros H. split; [discriminate|]. intros v. apply pshufb_8. exact H. Qed.
Lemma vdouble_ok w regs : width w -> vregs (lanes w) regs -> vregs (lanes w) (vdouble w regs).
Proof.
  intros Hw H. pose proof (rot16 w Hw). pose proof (rot8 w Hw). unfold vdouble.
  eapply vdiag_ok; [eassumption|discriminate|]. eapply vdiag_ok; [eassumption|discriminate|].
  eapply vcol_ok; [eassumption|discriminate|]. eapply vcol_ok; [eassumption|discriminate|]. exact H.
Qed.
Lemma lane_length i regs : length (lane i regs) = length regs.
Proof. apply map_length. Qed.
Lemma lane_vdouble w regs i : width w -> vregs (lanes w) regs -> (i < lanes w)%nat ->
  lane i (vdouble w regs) = inner_block (lane i regs).
Proof.
  intros Hw H Hi. pose proof (rot16 w Hw) as R16. pose proof (rot8 w Hw) as R8. unfold vdouble.
  rewrite inner_block_halves by (rewrite lane_length; exact (proj1 H)).
  assert (V1 : vregs (lanes w) (vcol (shuffle_rol_16 w) 12 regs)) by (eapply vcol_ok; [eassumption|discriminate|exact H]).
  assert (V2 := vcol_ok _ _ 8 7 _ R8 ltac:(discriminate) V1).
  assert (V3 := vdiag_ok _ _ 16 12 _ R16 ltac:(discriminate) V2).
  rewrite (lane_diag (lanes w) _ 8 7 _ i R8 ltac:(discriminate) V3 Hi).
  rewrite (lane_diag (lanes w) _ 16 12 _ i R16 ltac:(discriminate) V2 Hi).
  rewrite (lane_col (lanes w) _ 8 7 _ i R8 ltac:(discriminate) V1 Hi).
  rewrite (lane_col (lanes w) _ 16 12 _ i R16 ltac:(discriminate) H Hi). reflexivity.
Qed.

(** Registers 15 and 12 are also in the first two stack slots. *)
Lemma run_double w regs t0 t1 ts b mem d s st : length regs = 16%nat ->
  run w (double_round w) (mk regs (t0 :: t1 :: ts) b mem d s st)
  = Some (mk (vdouble w regs) (nth 15 (vdouble w regs) [] :: nth 12 (vdouble w regs) [] :: ts) b mem d s st).
Proof.
  intros H. destruct (vec16 _ H) as (x0 & x1 & x2 & x3 & x4 & x5 & x6 & x7 & x8 & x9 & x10 & x11 & x12 & x13 & x14 & x15 & ->).
  unfold double_round. rewrite run_app. rewrite macro_col. cbn [bind]. rewrite run_app, macro_col. cbn [bind].
  rewrite run_app, macro_diag. cbn [bind]. rewrite macro_diag. reflexivity.
Qed.
Lemma run_doubles w n : forall regs t0 t1 ts b mem d s st, width w -> vregs (lanes w) regs -> (1 <= n)%nat ->
  exists regs', vregs (lanes w) regs'
    /\ (forall i, (i < lanes w)%nat -> lane i regs' = Nat.iter n inner_block (lane i regs))
    /\ repeat_run w (double_round w) n (mk regs (t0 :: t1 :: ts) b mem d s st)
       = Some (mk regs' (nth 15 regs' [] :: nth 12 regs' [] :: ts) b mem d s st).
Proof.
  induction n as [|n IH]; intros regs t0 t1 ts b mem d s st Hw H Hn; [lia|]. cbn [repeat_run].
  rewrite run_double by exact (proj1 H). cbn [bind].
  destruct n as [|n].
  - exists (vdouble w regs). split; [apply vdouble_ok; assumption|]. split; [|reflexivity].
    intros i Hi. cbn [Nat.iter nat_rect]. apply lane_vdouble; assumption.
  - destruct (IH (vdouble w regs) (nth 15 (vdouble w regs) []) (nth 12 (vdouble w regs) []) ts b mem d s st Hw ltac:(apply vdouble_ok; assumption) ltac:(lia))
      as (regs' & V & E & R).
    exists regs'. split; [exact V|]. split; [|exact R]. intros i Hi. rewrite iter_shift. rewrite E by exact Hi.
    rewrite lane_vdouble by assumption. reflexivity.
Qed.
