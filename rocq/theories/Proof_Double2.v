(** The text printed for a quotient: a decimal fraction, close to the quotient. *)
From Coq Require Import SpecFloat.
From Verif Require Import Base BaseLemmas Model_AppNames Model_App Spec_App Spec_App2 Proof_App Proof_App2 Proof_App4 Proof_App5 Model_Double Spec_Double Proof_Double.
Local Open Scope Z_scope.

Lemma nearest_ok n d : 0 <= n -> 0 < d -> 0 <= nearest n d /\ 2 * Z.abs (nearest n d * d - n) <= d.
Proof.
  intros Hn Hd. unfold nearest. pose proof (Z.div_mod n d ltac:(lia)) as E. pose proof (Z.mod_pos_bound n d Hd) as B.
  pose proof (Z.div_pos n d Hn Hd) as Q. set (q := n / d) in *. set (t := n mod d) in *. clearbody q t.
  destruct (Z.compare_spec (2 * t) d) as [C|C|C]; [destruct (Z.even q)| |]; split; nia.
Qed.
Lemma abs_mul U t c : 0 <= U -> U * Z.abs t <= c -> - c <= U * t <= c.
Proof. intros HU H. destruct (Z.abs_spec t) as [[_ E]|[_ E]]; rewrite E in H; nia. Qed.
(** Three roundings, each of relative size [1 / U]. *)
Lemma three U X A Y B M D : 16 <= U -> 0 < A -> 0 < B -> 0 <= M -> 0 < D ->
  U * Z.abs (X - A) <= A -> U * Z.abs (Y - B) <= B -> U * Z.abs (M * Y - D * X) <= D * X ->
  (U - 4) * (D * A) <= U * (M * B) <= (U + 4) * (D * A).
Proof.
  intros HU HA HB HM HD H1 H2 H3.
  apply abs_mul in H1; [|lia]. apply abs_mul in H2; [|lia]. apply abs_mul in H3; [|lia].
  assert (X1 : U * X <= (U + 1) * A) by lia. assert (X2 : (U - 1) * A <= U * X) by lia.
  assert (Y1 : U * Y <= (U + 1) * B) by lia. assert (Y2 : (U - 1) * B <= U * Y) by lia.
  assert (Q1 : U * (M * Y) <= (U + 1) * (D * X)) by lia. assert (Q2 : (U - 1) * (D * X) <= U * (M * Y)) by lia. clear H1 H2 H3.
  assert (P1 : M * ((U - 1) * B) <= M * (U * Y)) by (apply Z.mul_le_mono_nonneg_l; lia).
  assert (P2 : M * (U * Y) <= M * ((U + 1) * B)) by (apply Z.mul_le_mono_nonneg_l; lia).
  assert (P3 : D * (U * X) <= D * ((U + 1) * A)) by (apply Z.mul_le_mono_nonneg_l; lia).
  assert (P4 : D * ((U - 1) * A) <= D * (U * X)) by (apply Z.mul_le_mono_nonneg_l; lia).
  set (MB := M * B) in *. set (DA := D * A) in *. set (MY := M * Y) in *. set (DX := D * X) in *.
  replace (M * ((U - 1) * B)) with ((U - 1) * MB) in P1 by (unfold MB; ring). replace (M * ((U + 1) * B)) with ((U + 1) * MB) in P2 by (unfold MB; ring).
  replace (M * (U * Y)) with (U * MY) in P1, P2 by (unfold MY; ring). replace (D * (U * X)) with (U * DX) in P3, P4 by (unfold DX; ring).
  replace (D * ((U + 1) * A)) with ((U + 1) * DA) in P3 by (unfold DA; ring). replace (D * ((U - 1) * A)) with ((U - 1) * DA) in P4 by (unfold DA; ring).
  assert (HDA : 0 < DA) by (unfold DA; nia). assert (HMB : 0 <= MB) by (unfold MB; nia). clearbody MB DA MY DX.
  clear X1 X2 Y1 Y2. split.
  - (* (U+1) MB >= U MY >= (U-1) DX; U (U+1) MB >= (U-1) (U DX) >= (U-1)^2 DA *)
    assert (S1 : U * ((U + 1) * MB) >= U * ((U - 1) * DX)) by nia. assert (S2 : (U - 1) * (U * DX) >= (U - 1) * ((U - 1) * DA)) by nia.
    assert (S3 : (U + 1) * (U * MB) >= (U - 1) * (U - 1) * DA) by nia.
    assert (S4 : (U + 1) * ((U - 4) * DA) <= (U - 1) * (U - 1) * DA) by nia. nia.
  - assert (S1 : U * ((U - 1) * MB) <= U * ((U + 1) * DX)) by nia. assert (S2 : (U + 1) * (U * DX) <= (U + 1) * ((U + 1) * DA)) by nia.
    assert (S3 : (U - 1) * (U * MB) <= (U + 1) * (U + 1) * DA) by nia.
    assert (S4 : (U + 1) * (U + 1) * DA <= (U - 1) * ((U + 4) * DA)) by nia. nia.
Qed.
Lemma combine a b k M D : 0 < a -> 0 < b -> 0 < D -> 0 <= M -> 2 * Z.abs (k * D - M * 1000000) <= D ->
  (2 ^ 53 - 4) * (D * a) <= 2 ^ 53 * (M * b) <= (2 ^ 53 + 4) * (D * a) ->
  2 * 2 ^ 51 * Z.abs (k * b - 1000000 * a) <= 2 ^ 51 * b + 2 * 1000000 * a.
Proof.
  intros Ha Hb HD HM Hk [H1 H2]. change (2 ^ 53) with (4 * 2 ^ 51) in *. set (V := 2 ^ 51) in *. assert (HV : 0 < V) by reflexivity. clearbody V.
  assert (K1 : 2 * (k * D) <= D + 2000000 * M) by lia. assert (K2 : 2000000 * M - D <= 2 * (k * D)) by lia. clear Hk.
  assert (L1 : 4 * V * b * (2 * (k * D)) <= 4 * V * b * (D + 2000000 * M)) by (apply Z.mul_le_mono_nonneg_l; nia).
  assert (L2 : 4 * V * b * (2000000 * M - D) <= 4 * V * b * (2 * (k * D))) by (apply Z.mul_le_mono_nonneg_l; nia).
  assert (R1 : 2 * V * (k * b - 1000000 * a) <= V * b + 2000000 * a).
  { apply (Z.mul_le_mono_pos_l _ _ (4 * D)); [lia|]. lia. }
  assert (R2 : - (2 * V * (k * b - 1000000 * a)) <= V * b + 2000000 * a).
  { apply (Z.mul_le_mono_pos_l _ _ (4 * D)); [lia|]. lia. }
  lia.
Qed.

(** *** The digits *)
Lemma dec_decimal n : decimal (dec n) n.
Proof. unfold dec. apply dec_loop_spec, size_nat_bound. Qed.
Lemma digits_n_length n : forall k, length (digits_n n k) = n.
Proof. induction n as [|n IH]; intros k; [reflexivity|]. cbn [digits_n]. rewrite app_length, IH. cbn [length]. lia. Qed.
Lemma digits_n_decimal n : forall k, (k < 10 ^ N.of_nat (S n))%N -> decimal (digits_n (S n) k) k.
Proof.
  induction n as [|n IH]; intros k H.
  - cbn [digits_n app]. rewrite N.mod_small by exact H. apply d_one. exact H.
  - remember (S n) as m. cbn [digits_n]. rewrite (N.div_mod k 10) at 3 by discriminate. apply d_more; [|apply N.mod_lt; discriminate].
    apply IH. apply N.div_lt_upper_bound; [discriminate|]. rewrite Nat2N.inj_succ, N.pow_succ_r' in H. exact H.
Qed.
Lemma fixed6_millionths k : millionths (fixed6 k) k.
Proof.
  exists (dec (k / 1000000)), (digits_n 6 (k mod 1000000)), (k / 1000000)%N, (k mod 1000000)%N. split; [reflexivity|]. split; [apply dec_decimal|].
  split; [apply digits_n_decimal; apply N.mod_lt; discriminate|]. split; [apply digits_n_length|]. apply N.div_mod. discriminate.
Qed.
Lemma decimal_ds t n : decimal t n -> ds t.
Proof. intros H. split; [destruct H; [discriminate|destruct s; discriminate]|exact (decimal_ok _ _ H)]. Qed.
Lemma fixed6_number k : number (fixed6 k).
Proof.
  unfold fixed6. pose proof (n_intro [] (dec (k / 1000000)) ([46%N] ++ digits_n 6 (k mod 1000000)) []) as G. rewrite app_nil_r in G. apply G; clear G.
  - left. reflexivity.
  - unfold dec. destruct (dec_loop_spec _ _ (size_nat_bound (k / 1000000))) as [D [[_ L]|[_ L]]]; [left; exact L|right; split; [exact (decimal_ds _ _ D)|exact L]].
  - right. eexists. split; [reflexivity|]. apply (decimal_ds _ (k mod 1000000)). apply digits_n_decimal. apply N.mod_lt. discriminate.
  - left. reflexivity.
Qed.

(** *** The quotient *)
Lemma ratio_pos a b : (0 < a)%N -> (a < 2 ^ 64)%N -> (0 < b)%N -> (b < 2 ^ 64)%N -> exists k, show_ratio a b = fixed6 k /\ close k a b.
Proof.
  intros A0 A1 B0 B1. destruct (to_double_ok a A0 A1) as (m1 & e1 & E1 & M1 & R1 & D1). destruct (to_double_ok b B0 B1) as (m2 & e2 & E2 & M2 & R2 & D2).
  destruct (div_ok m1 e1 m2 e2 M1 M2 R1 R2) as (m & e & E & R & R' & D). unfold show_ratio. rewrite E1, E2, E. cbn [show_double minus app].
  set (P := 2 ^ Z.max e 0). set (T := 2 ^ Z.max (- e) 0). assert (HP : 0 < P) by (apply Z.pow_pos_nonneg; lia). assert (HT : 0 < T) by (apply Z.pow_pos_nonneg; lia).
  destruct (nearest_ok (Z.pos m * 1000000 * P) T ltac:(lia) HT) as [K0 K1]. set (k := nearest _ _) in *. clearbody k.
  exists (Z.to_N k). split; [reflexivity|]. unfold close. rewrite Z2N.id by exact K0.
  apply (combine (Z.of_N a) (Z.of_N b) k (Z.pos m * P) T); [lia|lia|exact HT|lia|rewrite <- Z.mul_assoc, (Z.mul_comm P), Z.mul_assoc; exact K1|].
  assert (Q : 2 ^ 53 * Z.abs (Z.pos m * P * (Z.pos m2 * 2 ^ (e2 + 52)) - T * (Z.pos m1 * 2 ^ (e1 + 52))) <= T * (Z.pos m1 * 2 ^ (e1 + 52))).
  { apply (Z.mul_le_mono_pos_l _ _ (2 ^ 53)); [reflexivity|].
    set (c := T * 2 ^ (e1 + 52)). assert (Hc : 0 < c) by (unfold c; apply Z.mul_pos_pos; [exact HT|apply Z.pow_pos_nonneg; lia]).
    replace (2 ^ 53 * (T * (Z.pos m1 * 2 ^ (e1 + 52)))) with (c * (Z.pos m1 * 2 ^ 53)) by (unfold c; ring).
    apply (Z.mul_le_mono_nonneg_l _ _ c) in D; [|lia].
    refine (Z.le_trans _ _ _ (Z.eq_le_incl _ _ _) D).
    rewrite (Z.mul_shuffle3 c), <- (Z.abs_eq c) at 1 by lia. rewrite <- (Z.abs_eq (2 ^ 53)) at 2 by discriminate. rewrite <- !Z.abs_mul. f_equal. f_equal.
    rewrite !Z.mul_sub_distr_l. f_equal; [|unfold c; ring].
    assert (X : 2 ^ 53 * P * 2 ^ (e2 + 52) = c * 2 ^ (e - (e1 - e2 - 53))).
    { unfold c, P, T. rewrite <- !Z.pow_add_r by lia. f_equal. lia. }
    transitivity (2 ^ 53 * P * 2 ^ (e2 + 52) * (Z.pos m * Z.pos m2)); [ring|]. rewrite X. ring. }
  pose proof (three (2 ^ 53) (Z.pos m1 * 2 ^ (e1 + 52)) (Z.of_N a * 2 ^ 52) (Z.pos m2 * 2 ^ (e2 + 52)) (Z.of_N b * 2 ^ 52) (Z.pos m * P) T) as H.
  assert (H' : (2 ^ 53 - 4) * (T * (Z.of_N a * 2 ^ 52)) <= 2 ^ 53 * (Z.pos m * P * (Z.of_N b * 2 ^ 52)) <= (2 ^ 53 + 4) * (T * (Z.of_N a * 2 ^ 52))).
  { apply H; [discriminate|apply Z.mul_pos_pos; [lia|reflexivity]|apply Z.mul_pos_pos; [lia|reflexivity]|apply Z.mul_nonneg_nonneg; lia|exact HT|exact D1|exact D2|exact Q]. }
  clear - H'. destruct H' as [H1 H2]. split; apply (Z.mul_le_mono_pos_r _ _ (2 ^ 52)); try reflexivity; lia.
Qed.
Lemma zero_div b : (0 < b)%N -> (b < 2 ^ 64)%N -> show_ratio 0 b = fixed6 0.
Proof. intros B0 B1. unfold show_ratio. destruct (to_double_ok b B0 B1) as (m & e & -> & _). reflexivity. Qed.
Lemma ratio_shape a b : (a < 2 ^ 64)%N -> (0 < b)%N -> (b < 2 ^ 64)%N -> exists k, show_ratio a b = fixed6 k /\ close k a b.
Proof.
  intros A1 B0 B1. destruct (N.eq_dec a 0) as [->|A0]; [|apply ratio_pos; lia || assumption].
  exists 0%N. split; [exact (zero_div b B0 B1)|]. unfold close. change (Z.of_N 0) with 0. rewrite Z.mul_0_l. cbn [Z.mul Z.sub Z.add Z.opp Z.abs]. rewrite Z.mul_0_r. lia.
Qed.
Lemma ratio_tells a b : (a < 2 ^ 64)%N -> (0 < b)%N -> (b < 2 ^ 64)%N -> tells (show_ratio a b) a b.
Proof. intros A B0 B1. destruct (ratio_shape a b A B0 B1) as (k & -> & C). exists k. split; [apply fixed6_millionths|exact C]. Qed.
Lemma ratio_number a b : (a < 2 ^ 64)%N -> (0 < b)%N -> (b < 2 ^ 64)%N -> number (show_ratio a b).
Proof. intros A B0 B1. destruct (ratio_shape a b A B0 B1) as (k & -> & C). apply fixed6_number. Qed.
Lemma ratio_inf a : (0 < a)%N -> (a < 2 ^ 64)%N -> show_ratio a 0 = inf.
Proof. intros A0 A1. unfold show_ratio. destruct (to_double_ok a A0 A1) as (m & e & -> & _). reflexivity. Qed.
Lemma digits_n_34 n : forall k, ~ In 34%N (digits_n n k).
Proof. induction n as [|n IH]; intros k; [intros []|]. cbn [digits_n]. intros H. apply in_app_or in H. destruct H as [H|[H|[]]]; [exact (IH _ H)|lia]. Qed.
Lemma fixed6_34 k : ~ In 34%N (fixed6 k).
Proof.
  unfold fixed6. intros H. apply in_app_or in H. destruct H as [H|H].
  - pose proof (decimal_ok _ _ (dec_decimal (k / 1000000))) as F. rewrite Forall_forall in F. specialize (F _ H). lia.
  - destruct H as [H|H]; [discriminate|]. exact (digits_n_34 _ _ H).
Qed.
Lemma show_34 a b : ~ In 34%N (show_ratio a b).
Proof.
  unfold show_ratio. destruct (double_div _ _) as [s|s| |s m e]; cbn [show_double]; [destruct s|destruct s| |destruct s]; cbn [minus app];
    try (intros H; cbn in H; intuition discriminate); try (exact (fixed6_34 _)); intros [H|H]; try discriminate H; exact (fixed6_34 _ H).
Qed.

(** *** The values in a run *)
Local Open Scope N_scope.
Fixpoint vfits (v : var) : bool :=
  match v with
  | VRatio a b => (a <? 2 ^ 64) && (b <? 2 ^ 64)
  | VArray l => forallb vfits l
  | VObject l => forallb (fun e => vfits (snd e)) l
  | _ => true
  end.
Lemma vfits_part v x : part v x -> vfits v = true -> vfits x = true.
Proof.
  induction 1 as [v|l x v Hx Hp IH|l k x v Hx Hp IH]; intros H; [exact H| |]; apply IH; cbn [vfits] in H; rewrite forallb_forall in H; exact (H _ Hx).
Qed.
Lemma wmul_lt a b : wmul 64 a b < 2 ^ 64.
Proof. unfold wmul. apply N.mod_lt. discriminate. Qed.
Lemma metrics_fits o ns pr : bo_repeats_time o < 2 ^ 64 -> ns < 2 ^ 64 -> pr < 2 ^ 64 -> vfits (metrics_of o ns pr) = true.
Proof.
  intros H1 H2 H3. apply N.ltb_lt in H1, H2, H3. unfold metrics_of. cbv zeta.
  pose proof (fun a b => proj2 (N.ltb_lt _ _) (wmul_lt a b)) as W.
  destruct (pr =? 0); destruct (bo_cpu_clock o =? 0); cbn [vfits forallb fst snd app orb]; rewrite ?W, ?H1, ?H2, ?H3; reflexivity.
Qed.
Lemma config_fits o inputs : vfits (config_of o inputs) = true.
Proof.
  unfold config_of. destruct (bo_cpu_clock o =? 0); cbn [vfits forallb snd app]; rewrite ?andb_true_iff; repeat split;
    (induction inputs as [|[k n] inputs IH]; [reflexivity|exact IH]).
Qed.
Lemma run_fits b clock o1 o2 o3 p o4 v : (forall n, clock n < 2 ^ 64) -> Forall optional o1 -> Forall optional o2 -> Forall optional o3 -> ~ prefix [45] p ->
  ~ In ([45; 45] ++ s_verbose) o1 -> the_run b clock o1 o2 o3 p o4 = Some (Exit0 (PrintJson v)) -> vfits v = true.
Proof.
  intros HC F1 F2 F3 Hp V. destruct (the_run_eq b clock o1 o2 o3 p o4 F1 F2 F3 Hp V) as (adv & _ & ->). set (a := {| ar_cur := _; ar_top := s_benchmark ++ _ |}).
  assert (HT : bo_repeats_time (bopts a) < 2 ^ 64).
  { assert (G : parameter_or a s_repeats_time 1024 < 2 ^ 64).
    { unfold parameter_or, parameter. destruct (parameter_loop _ _) as [it|]; [|reflexivity]. destruct (index_of _ _) as [pos|]; [|reflexivity].
      destruct (_ <=? _)%nat; [reflexivity|]. cbv zeta. destruct (from_chars _) as [n|] eqn:E; [|reflexivity].
      unfold from_chars in E. destruct (digits _) as [|c l]; [discriminate E|]. destruct (_ <? _) eqn:L in E; [|discriminate E].
      apply N.ltb_lt in L. congruence. }
    unfold bopts. cbn [bo_repeats_time]. cbv zeta. destruct (_ =? 0); [reflexivity|exact G]. }
  destruct (invoke_all _ _ _ _ _ _ _) as [[s|e]|] eqn:E; cbn [bind]; try discriminate.
  destruct (str_eqb p s_list) eqn:EL; [discriminate|]. intros H. assert (v = result_var (bs_results s)) by congruence. subst v. clear H.
  assert (Hpl : p <> s_list) by (intros ->; rewrite str_eqb_refl in EL; discriminate EL).
  destruct (invoke_all_entries _ _ _ _ _ _ Hpl _ _ E) as (I1 & _ & _). unfold result_var. destruct (bs_results s) as [l|] eqn:El; [|reflexivity].
  assert (F : forallb (fun e => vfits (snd e)) l = true).
  { apply forallb_forall. intros e He. destruct (I1 e) as [H1|(g & inputs & n & Hg & Hn & Hm & HP & ->)]; [unfold results_of; rewrite El; exact He|destruct H1|].
    unfold entry. cbn [snd vfits forallb fst]. rewrite config_fits, metrics_fits; [reflexivity|exact HT|apply HC|apply wmul_lt]. }
  cbn [vfits forallb fst snd]. rewrite F. reflexivity.
Qed.
Lemma run_ratio b clock o1 o2 o3 p o4 v x y : (forall n, clock n < 2 ^ 64) -> Forall optional o1 -> Forall optional o2 -> Forall optional o3 -> ~ prefix [45] p ->
  ~ In ([45; 45] ++ s_verbose) o1 -> the_run b clock o1 o2 o3 p o4 = Some (Exit0 (PrintJson v)) -> part v (VRatio x y) -> x < 2 ^ 64 /\ y < 2 ^ 64.
Proof.
  intros HC F1 F2 F3 Hp V H Hpart. pose proof (vfits_part _ _ Hpart (run_fits b clock o1 o2 o3 p o4 v HC F1 F2 F3 Hp V H)) as E.
  cbn [vfits] in E. apply andb_true_iff in E. rewrite !N.ltb_lt in E. exact E.
Qed.
Lemma run_double b clock o1 o2 o3 p o4 v : (forall n, clock n < 2 ^ 64) -> Forall optional o1 -> Forall optional o2 -> Forall optional o3 -> ~ prefix [45] p ->
  ~ In ([45; 45] ++ s_verbose) o1 -> the_run b clock o1 o2 o3 p o4 = Some (Exit0 (PrintJson v)) -> (forall x y, part v (VRatio x y) -> y <> 0) ->
  json (meant show_ratio v) (to_json show_ratio v).
Proof.
  intros HC F1 F2 F3 Hp V H D. apply json_valid; [apply vsafe_plain; exact (run_plain b clock o1 o2 o3 p o4 v F1 F2 F3 Hp V H)|].
  intros x y Hpart. destruct (run_ratio b clock o1 o2 o3 p o4 v x y HC F1 F2 F3 Hp V H Hpart). pose proof (D _ _ Hpart). apply ratio_number; lia.
Qed.
Lemma run_infinite b clock o1 o2 o3 p o4 v x : (forall n, clock n < 2 ^ 64) -> Forall optional o1 -> Forall optional o2 -> Forall optional o3 -> ~ prefix [45] p ->
  ~ In ([45; 45] ++ s_verbose) o1 -> the_run b clock o1 o2 o3 p o4 = Some (Exit0 (PrintJson v)) -> part v (VRatio x 0) -> x <> 0 ->
  forall j, ~ json j (to_json show_ratio v).
Proof.
  intros HC F1 F2 F3 Hp V H Hpart Hx j J. apply (proj1 json_scan) in J. destruct (run_ratio b clock o1 o2 o3 p o4 v x 0 HC F1 F2 F3 Hp V H Hpart) as [Bx _].
  rewrite (part_none show_ratio v (VRatio x 0) show_34 (run_plain b clock o1 o2 o3 p o4 v F1 F2 F3 Hp V H) Hpart) in J; [discriminate J|].
  cbn [to_json]. rewrite (ratio_inf x) by lia. reflexivity.
Qed.
(** Whole quotients are printed exactly. *)
Lemma close_exact k q b : 0 < b -> q < 2 ^ 30 -> close k (q * b) b -> k = 1000000 * q.
Proof.
  intros Hb Hq H. unfold close in H. apply N2Z.inj. rewrite N2Z.inj_mul. rewrite N2Z.inj_mul in H.
  assert (Hb' : (0 < Z.of_N b)%Z) by lia. assert (Hq' : (0 <= Z.of_N q < 2 ^ 30)%Z) by (change (2 ^ 30)%Z with (Z.of_N (2 ^ 30)); lia).
  change (Z.of_N 1000000) with 1000000%Z. set (K := Z.of_N k) in *. set (B := Z.of_N b) in *. set (Q := Z.of_N q) in *. clearbody K B Q.
  replace (K * B - 1000000 * (Q * B))%Z with (B * (K - 1000000 * Q))%Z in H by ring. rewrite Z.abs_mul, (Z.abs_eq B) in H by lia.
  set (d := Z.abs (K - 1000000 * Q)) in *. assert (Hd : (0 <= d)%Z) by apply Z.abs_nonneg.
  assert (L : (B * (2 * 2 ^ 51 * d) <= B * (2 ^ 51 + 2000000 * Q))%Z) by lia. apply Z.mul_le_mono_pos_l in L; [|exact Hb'].
  assert (d = 0)%Z by lia. subst d. lia.
Qed.
Lemma decimal_inv t c n : decimal (t ++ [c]) n -> exists d, d < 10 /\ c = 48 + d /\ ((t = [] /\ n = d) \/ exists m, decimal t m /\ n = 10 * m + d).
Proof.
  intros H. remember (t ++ [c]) as l eqn:E. destruct H as [d Hd|s m d D Hd].
  - exists d. split; [exact Hd|]. apply (app_inj_tail [] t) in E. destruct E as [<- ->]. split; [reflexivity|]. left. split; reflexivity.
  - exists d. split; [exact Hd|]. apply app_inj_tail in E. destruct E as [<- ->]. split; [reflexivity|]. right. exists m. split; [exact D|reflexivity].
Qed.
Lemma decimal_nil n : ~ decimal [] n.
Proof. intros H. apply decimal_ds in H. apply (proj1 H). reflexivity. Qed.
Lemma decimal_fun t : forall n m, decimal t n -> decimal t m -> n = m.
Proof.
  induction t as [|c t IH] using rev_ind; intros n m H1 H2; [destruct (decimal_nil _ H1)|].
  destruct (decimal_inv _ _ _ H1) as (d & Hd & E & D). destruct (decimal_inv _ _ _ H2) as (d' & Hd' & E' & D').
  destruct D as [[Z ->]|(n' & D & ->)]; destruct D' as [[Z' ->]|(m' & D' & ->)]; [lia|subst t; destruct (decimal_nil _ D')|subst t; destruct (decimal_nil _ D)|].
  rewrite (IH _ _ D D'). lia.
Qed.
Lemma millionths_fun t k k' : millionths t k -> millionths t k' -> k = k'.
Proof.
  intros (i & f & p & q & -> & P & Q & _ & ->) (i' & f' & p' & q' & E & P' & Q' & _ & ->).
  assert (X : i = i' /\ f = f').
  { pose proof (decimal_ok _ _ P) as F. pose proof (decimal_ok _ _ P') as F'. clear P P' Q Q'. revert i' E F'. induction F as [|c i Hc Hi IH]; intros i' E F'.
    - destruct F' as [|c' i' Hc' Hi']; [injection E as ->; auto|]. cbn in E. injection E as <- _. lia.
    - destruct F' as [|c' i' Hc' Hi']; [cbn in E; injection E as -> _; lia|]. cbn [app] in E. injection E as <- E.
      destruct (IH i' E Hi') as [-> ->]. auto. }
  destruct X as [-> ->]. rewrite (decimal_fun _ _ _ P P'), (decimal_fun _ _ _ Q Q'). reflexivity.
Qed.
