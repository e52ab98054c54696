(** Accuracy of the quotients. *)
From Coq Require Import SpecFloat.
From Verif Require Import Base BaseLemmas Model_App Model_Double Spec_App Spec_App2.
Local Open Scope Z_scope.

(** *** Shifting right with a rounding and a sticky bit: the record describes [A / d]. *)
Definition rep (A d : Z) (x : shr_record) : Prop :=
  shr_m x = A / d /\ shr_r x = (d <=? 2 * (A mod d)) /\ shr_s x = negb ((2 * (A mod d)) mod d =? 0).
Lemma shr_1_ok A d x : 0 <= A -> 0 < d -> rep A d x -> rep A (2 * d) (shr_1 x).
Proof.
  intros HA Hd (M & R & S). destruct x as [m r s]. cbn [shr_m shr_r shr_s] in *.
  pose proof (Z.div_mod A d ltac:(lia)) as E. pose proof (Z.mod_pos_bound A d Hd) as B. rewrite <- M in E.
  assert (M0 : 0 <= m) by (rewrite M; apply Z.div_pos; lia).
  set (t := A mod d) in *.
  assert (Hs : orb r s = negb (t =? 0)).
  { rewrite R, S. destruct (Z.eqb_spec t 0) as [->|N0].
    - rewrite Z.mul_0_r, Z.mod_0_l by lia. cbn. rewrite orb_false_r. apply Z.leb_gt. exact Hd.
    - cbn [negb]. destruct (Z.leb_spec d (2 * t)); [reflexivity|]. rewrite Z.mod_small by lia. cbn [orb].
      destruct (Z.eqb_spec (2 * t) 0); [lia|reflexivity]. }
  assert (K : forall m' b, m = 2 * m' + Z.b2z b -> A / (2 * d) = m' /\ A mod (2 * d) = Z.b2z b * d + t).
  { intros m' b Em. assert (A = 2 * d * m' + (Z.b2z b * d + t)) by (rewrite E, Em; ring).
    assert (0 <= Z.b2z b * d + t < 2 * d) by (destruct b; cbn [Z.b2z]; lia).
    split; [symmetry; apply (Z.div_unique_pos A (2 * d) m' (Z.b2z b * d + t)); assumption|
            symmetry; apply (Z.mod_unique_pos A (2 * d) m' (Z.b2z b * d + t)); assumption]. }
  assert (G : forall m' b, m = 2 * m' + Z.b2z b -> rep A (2 * d) {| shr_m := m'; shr_r := b; shr_s := orb r s |}).
  { intros m' b Em. destruct (K m' b Em) as [Q T]. unfold rep. cbn [shr_m shr_r shr_s]. rewrite Q, T, Hs. split; [reflexivity|]. split.
    - symmetry. destruct b; cbn [Z.b2z]; [apply Z.leb_le|apply Z.leb_gt]; lia.
    - f_equal. replace (2 * (Z.b2z b * d + t)) with (2 * t + Z.b2z b * (2 * d)) by ring. rewrite Z.mod_add by lia.
      rewrite Z.mod_small by lia. destruct (Z.eqb_spec t 0); destruct (Z.eqb_spec (2 * t) 0); lia || reflexivity. }
  cbn [shr_1]. destruct m as [|[p|p|]|p]; try lia; apply G; cbn [Z.b2z]; lia.
Qed.
Lemma iter_ok A : 0 <= A -> forall p d x, 0 < d -> rep A d x -> rep A (d * 2 ^ Z.pos p) (SpecFloat.iter_pos shr_1 p x).
Proof.
  intros HA. induction p as [p IH|p IH|]; intros d x Hd H; cbn [SpecFloat.iter_pos].
  - assert (P : 0 < 2 ^ Z.pos p) by (apply Z.pow_pos_nonneg; lia).
    replace (d * 2 ^ Z.pos p~1) with (2 * d * 2 ^ Z.pos p * 2 ^ Z.pos p).
    + apply IH; [nia|]. apply IH; [lia|]. apply shr_1_ok; assumption.
    + replace (Z.pos p~1) with (Z.pos p + Z.pos p + 1) by lia. rewrite !Z.pow_add_r by lia. ring.
  - assert (P : 0 < 2 ^ Z.pos p) by (apply Z.pow_pos_nonneg; lia).
    replace (d * 2 ^ Z.pos p~0) with (d * 2 ^ Z.pos p * 2 ^ Z.pos p).
    + apply IH; [nia|]. apply IH; [lia|exact H].
    + replace (Z.pos p~0) with (Z.pos p + Z.pos p) by lia. rewrite !Z.pow_add_r by lia. ring.
  - change (2 ^ 1) with 2. rewrite Z.mul_comm. apply shr_1_ok; assumption.
Qed.
Lemma rep_exact m : 0 <= m -> rep m 1 (shr_record_of_loc m loc_Exact).
Proof. intros H. unfold rep. cbn. rewrite Z.div_1_r, Z.mod_1_r. repeat split. Qed.
Lemma rep_div A d : 0 <= A -> 0 < d -> rep A d (shr_record_of_loc (A / d) (new_location d (A mod d))).
Proof.
  intros HA Hd. pose proof (Z.mod_pos_bound A d Hd) as B. set (t := A mod d) in *. unfold rep. fold t.
  assert (L : (t = 0 /\ new_location d t = loc_Exact) \/ (t <> 0 /\ new_location d t = loc_Inexact (2 * t ?= d))).
  { unfold new_location, new_location_even, new_location_odd. destruct (Z.eqb_spec t 0) as [->|N0].
    - left. split; [reflexivity|]. destruct (Z.even d); reflexivity.
    - right. split; [exact N0|]. assert (Z0' : Zeq_bool t 0 = false) by (destruct t; [lia|reflexivity|reflexivity]).
      destruct (Z.even d) eqn:Ev; rewrite Z0'; [reflexivity|]. f_equal.
      assert (2 * t <> d). { intros X. rewrite <- X, Z.even_mul in Ev. discriminate. }
      destruct (Z.compare_spec (2 * t + 1) d); destruct (Z.compare_spec (2 * t) d); try lia; reflexivity. }
  destruct L as [[T ->]|[T ->]].
  - rewrite T. cbn [shr_record_of_loc shr_m shr_r shr_s]. rewrite Z.mul_0_r, Z.mod_0_l by lia. repeat split. symmetry. apply Z.leb_gt. exact Hd.
  - destruct (Z.compare_spec (2 * t) d) as [X|X|X]; cbn [shr_record_of_loc shr_m shr_r shr_s].
    + rewrite X, Z.mod_same by lia. repeat split. symmetry. apply Z.leb_refl.
    + rewrite Z.mod_small by lia. split; [reflexivity|]. split; [symmetry; apply Z.leb_gt; exact X|].
      destruct (Z.eqb_spec (2 * t) 0); [lia|reflexivity].
    + split; [reflexivity|]. split; [symmetry; apply Z.leb_le; lia|].
      replace (2 * t) with ((2 * t - d) + 1 * d) by ring. rewrite Z.mod_add, Z.mod_small by lia.
      destruct (Z.eqb_spec (2 * t - d) 0); [lia|reflexivity].
Qed.
(** Rounding. *)
Lemma round_ok A d x : 0 <= A -> 0 < d -> rep A d x ->
  let R := round_nearest_even (shr_m x) (loc_of_shr_record x) in (R = A / d \/ R = A / d + 1) /\ 2 * Z.abs (R * d - A) <= d.
Proof.
  intros HA Hd (M & Hr & Hs) R. pose proof (Z.div_mod A d ltac:(lia)) as E. pose proof (Z.mod_pos_bound A d Hd) as B.
  set (q := A / d) in *. set (t := A mod d) in *. clearbody q t.
  destruct x as [m r s]. cbn [shr_m shr_r shr_s] in *. subst m.
  assert (D : (R = q /\ 2 * t <= d) \/ (R = q + 1 /\ d <= 2 * t)).
  { unfold R. clear R. destruct r, s; symmetry in Hr, Hs; cbn [loc_of_shr_record round_nearest_even];
      try (apply Z.leb_le in Hr); try (apply Z.leb_gt in Hr).
    - right. lia.
    - assert (X : 2 * t = d). { apply negb_false_iff, Z.eqb_eq in Hs. replace (2 * t) with ((2 * t - d) + 1 * d) in Hs by ring.
        rewrite Z.mod_add, Z.mod_small in Hs by lia. lia. }
      destruct (Z.even q); [left|right]; lia.
    - left. lia.
    - left. lia. }
  destruct D as [[-> D]|[-> D]]; (split; [auto|]); rewrite E; [replace (q * d - (d * q + t)) with (- t) by ring|replace ((q + 1) * d - (d * q + t)) with (d - t) by ring]; lia.
Qed.

Lemma digits_log2 p : Z.pos (digits2_pos p) = Z.log2 (Z.pos p) + 1.
Proof.
  induction p as [p IH|p IH|]; [| |reflexivity]; cbn [digits2_pos]; rewrite Pos2Z.inj_succ, IH; rewrite <- Z.add_1_r; f_equal.
  - change (Z.pos p~1) with (2 * Z.pos p + 1). rewrite Z.log2_succ_double by lia. reflexivity.
  - change (Z.pos p~0) with (2 * Z.pos p). rewrite Z.log2_double by lia. reflexivity.
Qed.
Lemma digits_of m k : 0 <= k -> 2 ^ k <= m < 2 ^ (k + 1) -> Zdigits2 m = k + 1.
Proof.
  intros Hk H. destruct m as [|p|p].
  - pose proof (Z.pow_pos_nonneg 2 k ltac:(lia) Hk). lia.
  - cbn [Zdigits2]. rewrite digits_log2. f_equal. apply Z.log2_unique; [exact Hk|]. replace (Z.succ k) with (k + 1) by lia. exact H.
  - pose proof (Z.pow_pos_nonneg 2 k ltac:(lia) Hk). lia.
Qed.

(** A number of at least 53 bits, of which [mx] is the integer part, is rounded to 53 bits. *)
Lemma round_aux sx mx ex lx A d k : 0 <= A -> 0 < d -> rep A d (shr_record_of_loc mx lx) ->
  52 <= k -> 2 ^ k <= mx < 2 ^ (k + 1) -> -1021 <= k + ex <= 1000 ->
  exists m e, binary_round_aux 53 1024 sx mx ex lx = S754_finite sx m e /\ 2 ^ 52 <= Z.pos m < 2 ^ 53 /\
    k - 52 <= e - ex <= k - 51 /\ 2 ^ 53 * Z.abs (Z.pos m * 2 ^ (e - ex) * d - A) <= A.
Proof.
  intros HA Hd Hrep Hk Hm He. unfold binary_round_aux, shr_fexp.
  assert (Mx : mx = A / d) by (destruct Hrep as [X _]; destruct lx as [|[]]; exact X).
  rewrite (digits_of mx k) by (lia || exact Hm).
  assert (F : fexp 53 1024 (k + 1 + ex) - ex = k - 52) by (unfold fexp, emin; lia). rewrite F.
  set (n := k - 52).
  assert (Sh : exists x, shr (shr_record_of_loc mx lx) ex n = (x, ex + n) /\ rep A (d * 2 ^ n) x).
  { unfold shr. unfold n. destruct (k - 52) as [|p|p] eqn:En.
    - eexists. split; [f_equal; lia|]. rewrite Z.pow_0_r, Z.mul_1_r. exact Hrep.
    - eexists. split; [reflexivity|]. apply iter_ok; assumption.
    - lia. }
  destruct Sh as (x & -> & Hx). set (D := d * 2 ^ n) in *.
  assert (P2 : 0 < 2 ^ n) by (apply Z.pow_pos_nonneg; lia). assert (HD : 0 < D) by (unfold D; nia).
  destruct (round_ok A D x HA HD Hx) as [RQ RE]. set (R := round_nearest_even (shr_m x) (loc_of_shr_record x)) in *. clearbody R.
  assert (Q : 2 ^ 52 <= A / D < 2 ^ 53).
  { unfold D. rewrite <- Z.div_div by lia. rewrite <- Mx. split.
    - apply Z.div_le_lower_bound; [exact P2|]. rewrite <- Z.pow_add_r by lia. replace (n + 52) with k by lia. apply Hm.
    - apply Z.div_lt_upper_bound; [exact P2|]. rewrite <- Z.pow_add_r by lia. replace (n + 53) with (k + 1) by lia. apply Hm. }
  assert (AD : 2 ^ 52 * D <= A) by (pose proof (Z.mul_div_le A D HD); nia).
  assert (Err : forall w, w * D = R * D -> 2 ^ 53 * Z.abs (w * D - A) <= A).
  { intros w Ew. rewrite Ew. replace (2 ^ 53) with (2 ^ 52 * 2) by reflexivity. nia. }
  set (q := A / D) in *. clearbody q. change (2 ^ 52) with 4503599627370496 in *. change (2 ^ 53) with 9007199254740992 in *.
  destruct (Z.eq_dec R 9007199254740992) as [RR|RR].
  - rewrite RR in *. change (Zdigits2 9007199254740992) with 54.
    replace (fexp 53 1024 (54 + (ex + n)) - (ex + n)) with 1 by (unfold fexp, emin; lia).
    cbn [shr SpecFloat.iter_pos shr_record_of_loc shr_1 shr_m]. rewrite (proj2 (Z.leb_le _ _)) by lia.
    exists 4503599627370496%positive, (ex + n + 1). split; [reflexivity|]. split; [lia|]. split; [lia|].
    replace (ex + n + 1 - ex) with (n + 1) by lia. rewrite Z.pow_add_r by lia.
    replace (4503599627370496 * (2 ^ n * 2 ^ 1) * d) with (9007199254740992 * D) by (unfold D; change (2 ^ 1) with 2; ring). apply Err. reflexivity.
  - assert (RB : 2 ^ 52 <= R < 2 ^ (52 + 1)) by (change (2 ^ 52) with 4503599627370496; change (2 ^ (52 + 1)) with 9007199254740992; lia).
    rewrite (digits_of R 52) by (lia || exact RB).
    replace (fexp 53 1024 (52 + 1 + (ex + n)) - (ex + n)) with 0 by (unfold fexp, emin; lia).
    cbn [shr shr_record_of_loc shr_m]. destruct R as [|r|r]; [lia| |lia]. rewrite (proj2 (Z.leb_le _ _)) by lia.
    exists r, (ex + n). split; [reflexivity|]. split; [exact RB|]. split; [lia|].
    replace (ex + n - ex) with n by lia. replace (Z.pos r * 2 ^ n * d) with (Z.pos r * D) by (unfold D; ring). apply Err. reflexivity.
Qed.

Lemma shift_pos_mul p m : Z.pos (shift_pos p m) = Z.pos m * 2 ^ Z.pos p.
Proof. rewrite shift_pos_correct, Z.mul_comm. reflexivity. Qed.

Lemma to_double_ok n : (0 < n)%N -> (n < 2 ^ 64)%N ->
  exists m e, to_double n = S754_finite false m e /\ 2 ^ 52 <= Z.pos m < 2 ^ 53 /\ -52 <= e <= 12 /\
    2 ^ 53 * Z.abs (Z.pos m * 2 ^ (e + 52) - Z.of_N n * 2 ^ 52) <= Z.of_N n * 2 ^ 52.
Proof.
  intros H0 H. destruct n as [|p]; [lia|]. unfold to_double. cbn [Z.of_N binary_normalize]. unfold binary_round, shl_align.
  pose proof (Z.log2_spec (Z.pos p) ltac:(lia)) as LS. set (l := Z.log2 (Z.pos p)) in *. rewrite digits_log2. fold l.
  assert (L0 : 0 <= l) by apply Z.log2_nonneg.
  assert (L1 : l < 64). { apply (Z.pow_lt_mono_r_iff 2); [lia|lia|]. apply (Z.le_lt_trans _ (Z.pos p)); [apply LS|]. change (2 ^ 64) with (Z.of_N (2 ^ 64)). lia. }
  replace (fexp 53 1024 (l + 1 + 0) - 0) with (l - 52) by (unfold fexp, emin; lia).
  destruct (Z.lt_ge_cases l 52) as [C|C].
  - destruct (l - 52) as [|s|s] eqn:Es; try lia. replace (fexp 53 1024 (l + 1 + 0)) with (Z.neg s) by (unfold fexp, emin; lia).
    assert (Sp : Z.pos (shift_pos s p) = Z.pos p * 2 ^ Z.pos s) by apply shift_pos_mul.
    assert (P : 0 < 2 ^ Z.pos s) by (apply Z.pow_pos_nonneg; lia).
    destruct (round_aux false (Z.pos (shift_pos s p)) (Z.neg s) loc_Exact (Z.pos (shift_pos s p)) 1 52) as (m & e & E & Bm & Be & Er); try lia.
    + apply rep_exact. lia.
    + rewrite Sp. change (52 + 1) with 53. replace 52 with (l + Z.pos s) at 1 by lia. replace 53 with (Z.succ l + Z.pos s) by lia. rewrite !Z.pow_add_r by lia. nia.
    + exists m, e. split; [exact E|]. split; [exact Bm|]. split; [lia|]. rewrite Sp, Z.mul_1_r in Er.
      replace (e + 52) with ((e - Z.neg s) + (52 - Z.pos s)) by lia. rewrite (Z.pow_add_r 2 (e - Z.neg s)) by lia.
      replace (2 ^ 52) with (2 ^ Z.pos s * 2 ^ (52 - Z.pos s)) by (rewrite <- Z.pow_add_r by lia; f_equal; lia).
      assert (P' : 0 < 2 ^ (52 - Z.pos s)) by (apply Z.pow_pos_nonneg; lia). set (z := 2 ^ (52 - Z.pos s)) in *.
      replace (Z.pos m * (2 ^ (e - Z.neg s) * z) - Z.pos p * (2 ^ Z.pos s * z)) with ((Z.pos m * 2 ^ (e - Z.neg s) - Z.pos p * 2 ^ Z.pos s) * z) by ring.
      rewrite Z.abs_mul, (Z.abs_eq z) by lia. nia.
  - assert (X : match l - 52 with Z.neg d => (shift_pos d p, fexp 53 1024 (l + 1 + 0)) | _ => (p, 0) end = (p, 0)) by (destruct (l - 52) eqn:Es; [reflexivity|reflexivity|lia]).
    rewrite X. clear X.
    destruct (round_aux false (Z.pos p) 0 loc_Exact (Z.pos p) 1 l) as (m & e & E & Bm & Be & Er); try lia.
    + apply rep_exact. lia.
    + exists m, e. split; [exact E|]. split; [exact Bm|]. split; [lia|]. rewrite Z.mul_1_r, Z.sub_0_r in Er.
      rewrite Z.pow_add_r by lia. replace (Z.pos m * (2 ^ e * 2 ^ 52) - Z.pos p * 2 ^ 52) with ((Z.pos m * 2 ^ e - Z.pos p) * 2 ^ 52) by ring.
      rewrite Z.abs_mul, (Z.abs_eq (2 ^ 52)) by lia. change (2 ^ 53) with 9007199254740992 in *. change (2 ^ 52) with 4503599627370496. lia.
Qed.

Lemma div_ok m1 e1 m2 e2 : 2 ^ 52 <= Z.pos m1 < 2 ^ 53 -> 2 ^ 52 <= Z.pos m2 < 2 ^ 53 -> -52 <= e1 <= 12 -> -52 <= e2 <= 12 ->
  exists m e, double_div (S754_finite false m1 e1) (S754_finite false m2 e2) = S754_finite false m e /\ -117 <= e <= 20 /\
    0 <= e - (e1 - e2 - 53) /\ 2 ^ 53 * Z.abs (Z.pos m * 2 ^ (e - (e1 - e2 - 53)) * Z.pos m2 - Z.pos m1 * 2 ^ 53) <= Z.pos m1 * 2 ^ 53.
Proof.
  intros B1 B2 E1 E2. unfold double_div, SFdiv, SFdiv_core_binary.
  rewrite (digits_of (Z.pos m1) 52) by (lia || exact B1). rewrite (digits_of (Z.pos m2) 52) by (lia || exact B2).
  replace (Z.min (fexp 53 1024 (52 + 1 + e1 - (52 + 1 + e2))) (e1 - e2)) with (e1 - e2 - 53) by (unfold fexp, emin; lia).
  set (e' := e1 - e2 - 53). replace (e1 - e2 - e') with 53 by (unfold e'; lia). cbn iota. rewrite Z.shiftl_mul_pow2 by lia.
  set (A := Z.pos m1 * 2 ^ 53). assert (HA : 0 <= A) by (unfold A; lia).
  pose proof (rep_div A (Z.pos m2) HA ltac:(lia)) as Rp. unfold Z.div, Z.modulo in Rp.
  pose proof (Z.div_mod A (Z.pos m2) ltac:(lia)) as DM. pose proof (Z.mod_pos_bound A (Z.pos m2) ltac:(lia)) as MB.
  unfold Z.div, Z.modulo in DM, MB. destruct (Z.div_eucl A (Z.pos m2)) as [q r]. cbn [xorb].
  assert (Qb : 2 ^ 52 <= q < 2 ^ 54).
  { change (2 ^ 52) with 4503599627370496 in *. change (2 ^ 53) with 9007199254740992 in *. change (2 ^ 54) with 18014398509481984. unfold A in DM. nia. }
  assert (Kx : exists k, 52 <= k <= 53 /\ 2 ^ k <= q < 2 ^ (k + 1)).
  { destruct (Z.lt_ge_cases q (2 ^ 53)) as [C|C]; [exists 52|exists 53]; (split; [lia|]); [change (52 + 1) with 53|change (53 + 1) with 54]; lia. }
  destruct Kx as (k & Kb & Kq).
  destruct (round_aux false q e' (new_location (Z.pos m2) r) A (Z.pos m2) k HA ltac:(lia) Rp ltac:(lia) Kq ltac:(unfold e'; lia)) as (m & e & E & Bm & Be & Er).
  exists m, e. split; [exact E|]. unfold e' in *. split; [lia|]. split; [lia|]. exact Er.
Qed.
