From Verif Require Import Base BaseLemmas Spec_Bytes Model_Memory BytesLemmas.
From Coq Require Import Btauto.
Local Open Scope N_scope.

(** *** Byte swap *)
Lemma land_byte x k : N.land x (N.shiftl 255 k) = N.shiftl (x / 2 ^ k mod 256) k.
Proof.
  change 256 with (2 ^ 8). rewrite <- land_ones_mod, <- N.shiftr_div_pow2. change (2 ^ 8 - 1) with 255.
  apply N.bits_inj. intros i. rewrite N.land_spec.
  destruct (N.lt_ge_cases i k) as [Hi|Hi].
  - rewrite !N.shiftl_spec_low by assumption. apply andb_false_r.
  - rewrite !N.shiftl_spec_high', N.land_spec, N.shiftr_spec' by assumption.
    replace (i - k + k) with i by lia. reflexivity.
Qed.

Lemma shiftr_shiftl_byte b k j : j <= k -> N.shiftr (N.shiftl b k) j = N.shiftl b (k - j).
Proof. intros H. apply N.shiftr_shiftl_l. exact H. Qed.

Lemma wshl_byte w b k j : b < 256 -> k + j + 8 <= w -> wshl w (N.shiftl b k) j = N.shiftl b (k + j).
Proof.
  intros Hb Hk. unfold wshl. rewrite N.shiftl_shiftl. apply N.mod_small.
  rewrite N.shiftl_mul_pow2. apply N.lt_le_trans with (256 * 2 ^ (k + j)).
  - apply N.mul_lt_mono_pos_r; [|assumption]. apply N.neq_0_lt_0, N.pow_nonzero. lia.
  - change 256 with (2 ^ 8). rewrite <- N.pow_add_r. apply N.pow_le_mono_r; lia.
Qed.

Lemma wshl_top w x k : k + 8 = w -> wshl w x k = N.shiftl (x mod 256) k.
Proof.
  intros <-. unfold wshl. rewrite !N.shiftl_mul_pow2. rewrite (N.add_comm k 8), N.pow_add_r.
  change (2 ^ 8) with 256. rewrite N.mul_mod_distr_r; [reflexivity|lia|apply N.pow_nonzero; lia].
Qed.

Lemma swap_sw_4 x : x < 2 ^ 32 -> endian_swap_sw 4 x = be_dec (le_enc 4 x).
Proof.
  intros Hx. unfold endian_swap_sw. cbn [Nat.eqb].
  change 0x00ff0000 with (N.shiftl 255 16). change 0x0000ff00 with (N.shiftl 255 8).
  rewrite !land_byte.
  set (b2 := x / 2 ^ 16 mod 256). set (b1 := x / 2 ^ 8 mod 256).
  assert (Hb2 : b2 < 256) by (apply N.mod_lt; lia). assert (Hb1 : b1 < 256) by (apply N.mod_lt; lia).
  rewrite wshl_top by reflexivity. rewrite shiftr_shiftl_byte by lia. rewrite wshl_byte by lia.
  set (b0 := x mod 256). assert (Hb0 : b0 < 256) by (apply N.mod_lt; lia).
  rewrite N.shiftr_div_pow2. change (16 - 8) with 8. change (8 + 8) with 16.
  assert (H3 : x / 2 ^ 24 = x / 2 ^ 24 mod 256).
  { rewrite N.mod_small; [reflexivity|]. change (2 ^ 32) with (2 ^ 24 * 256) in Hx.
    apply N.div_lt_upper_bound; [|assumption]. apply N.pow_nonzero. lia. }
  rewrite H3. set (b3 := x / 2 ^ 24 mod 256). assert (Hb3 : b3 < 256) by (apply N.mod_lt; lia).
  assert (E : be_dec (le_enc 4 x) = b0 * 2 ^ 24 + (b1 * 2 ^ 16 + (b2 * 2 ^ 8 + b3))).
  { unfold be_dec. cbn [le_enc fold_left]. rewrite !N.div_div by lia.
    change (256 * 256) with (2 ^ 16). change (2 ^ 16 * 256) with (2 ^ 24).
    change (x mod 256) with b0. change (x / 256 mod 256) with b1.
    change (x / 2 ^ 16 mod 256) with b2. change (x / 2 ^ 24 mod 256) with b3.
    clearbody b0 b1 b2 b3. lia. }
  rewrite E. clearbody b0 b1 b2 b3.
  rewrite <- (lor_shiftl_add b2 b3 8) by (change (2 ^ 8) with 256; lia).
  assert (HA : N.lor (N.shiftl b2 8) b3 < 2 ^ 16) by (rewrite lor_shiftl_add; change (2 ^ 8) with 256; change (2 ^ 16) with 65536; lia).
  rewrite <- (lor_shiftl_add b1 _ 16) by assumption.
  assert (HB : N.lor (N.shiftl b1 16) (N.lor (N.shiftl b2 8) b3) < 2 ^ 24).
  { rewrite lor_shiftl_add by assumption. change (2 ^ 24) with (256 * 2 ^ 16). 
    change (2 ^ 16) with 65536 in *. lia. }
  rewrite <- (lor_shiftl_add b0 _ 24) by assumption.
  apply N.bits_inj. intros i. rewrite !N.lor_spec. btauto.
Qed.

Lemma swap_sw_2 x : x < 2 ^ 16 -> endian_swap_sw 2 x = be_dec (le_enc 2 x).
Proof.
  intros Hx. unfold endian_swap_sw. cbn [Nat.eqb].
  unfold be_dec. cbn [le_enc fold_left].
  assert (H1 : x / 256 mod 256 = x / 256).
  { apply N.mod_small. change (2 ^ 16) with (256 * 256) in Hx. apply N.div_lt_upper_bound; lia. }
  rewrite H1. rewrite N.shiftr_div_pow2. change (2 ^ 8) with 256.
  assert (H2 : x / 256 < 2 ^ 8) by (rewrite <- H1; apply N.mod_lt; lia).
  rewrite lor_shiftl_add by assumption. change (2 ^ 8) with 256 in *. change (2 ^ 16) with 65536 in *.
  generalize dependent (x / 256). intros q _ Hq.
  assert (x mod 256 < 256) by (apply N.mod_lt; lia).
  pose proof (N.div_mod x 256 ltac:(lia)) as HD.
  generalize dependent (x mod 256). intros r Hr HD.
  generalize dependent (x / 256). intros q' HD.
  replace (x * 256 + q) with ((r * 256 + q) + q' * 65536) by lia.
  rewrite N.mod_add by lia. rewrite N.mod_small by lia. lia.
Qed.

Lemma swap_sw_8 x : x < 2 ^ 64 -> endian_swap_sw 8 x = be_dec (le_enc 8 x).
Proof.
  intros Hx. unfold endian_swap_sw. cbn [Nat.eqb].
  change 0x00ff000000000000 with (N.shiftl 255 48). change 0x000000000000ff00 with (N.shiftl 255 8).
  change 0x0000ff0000000000 with (N.shiftl 255 40). change 0x0000000000ff0000 with (N.shiftl 255 16).
  change 0x000000ff00000000 with (N.shiftl 255 32). change 0x00000000ff000000 with (N.shiftl 255 24).
  rewrite !land_byte.
  assert (H3 : x / 2 ^ 56 = x / 2 ^ 56 mod 256).
  { rewrite N.mod_small; [reflexivity|]. change (2 ^ 64) with (2 ^ 56 * 256) in Hx.
    apply N.div_lt_upper_bound; [|assumption]. apply N.pow_nonzero. lia. }
  rewrite (N.shiftr_div_pow2 x 56), H3.
  rewrite wshl_top by reflexivity.
  set (b0 := x mod 256). set (b1 := x / 2 ^ 8 mod 256). set (b2 := x / 2 ^ 16 mod 256).
  set (b3 := x / 2 ^ 24 mod 256). set (b4 := x / 2 ^ 32 mod 256). set (b5 := x / 2 ^ 40 mod 256).
  set (b6 := x / 2 ^ 48 mod 256). set (b7 := x / 2 ^ 56 mod 256).
  assert (E : be_dec (le_enc 8 x) = b0 * 2 ^ 56 + (b1 * 2 ^ 48 + (b2 * 2 ^ 40 + (b3 * 2 ^ 32 +
    (b4 * 2 ^ 24 + (b5 * 2 ^ 16 + (b6 * 2 ^ 8 + b7))))))).
  { unfold be_dec. cbn [le_enc fold_left]. rewrite !N.div_div by lia.
    change (256 * 256) with (2 ^ 16). change (2 ^ 16 * 256) with (2 ^ 24).
    change (2 ^ 24 * 256) with (2 ^ 32). change (2 ^ 32 * 256) with (2 ^ 40).
    change (2 ^ 40 * 256) with (2 ^ 48). change (2 ^ 48 * 256) with (2 ^ 56).
    change (x mod 256) with b0. change (x / 256 mod 256) with b1.
    change (x / 2 ^ 16 mod 256) with b2. change (x / 2 ^ 24 mod 256) with b3.
    change (x / 2 ^ 32 mod 256) with b4. change (x / 2 ^ 40 mod 256) with b5.
    change (x / 2 ^ 48 mod 256) with b6. change (x / 2 ^ 56 mod 256) with b7.
    clearbody b0 b1 b2 b3 b4 b5 b6 b7. lia. }
  rewrite E.
  assert (Hb0 : b0 < 256) by (apply N.mod_lt; lia). assert (Hb1 : b1 < 256) by (apply N.mod_lt; lia).
  assert (Hb2 : b2 < 256) by (apply N.mod_lt; lia). assert (Hb3 : b3 < 256) by (apply N.mod_lt; lia).
  assert (Hb4 : b4 < 256) by (apply N.mod_lt; lia). assert (Hb5 : b5 < 256) by (apply N.mod_lt; lia).
  assert (Hb6 : b6 < 256) by (apply N.mod_lt; lia). assert (Hb7 : b7 < 256) by (apply N.mod_lt; lia).
  clearbody b0 b1 b2 b3 b4 b5 b6 b7. clear E H3 Hx x.
  rewrite !shiftr_shiftl_byte by lia. rewrite !wshl_byte by lia.
  change (48 - 40) with 8. change (8 + 40) with 48. change (40 - 24) with 16.
  change (16 + 24) with 40. change (32 - 8) with 24. change (24 + 8) with 32.
  rewrite <- (lor_shiftl_add b6 b7 8) by (change (2 ^ 8) with 256; lia).
  assert (HA : N.lor (N.shiftl b6 8) b7 < 2 ^ 16) by (rewrite lor_shiftl_add; change (2 ^ 8) with 256; change (2 ^ 16) with 65536; lia).
  rewrite <- (lor_shiftl_add b5 _ 16) by assumption.
  assert (step : forall b y k, b < 256 -> y < 2 ^ k -> N.lor (N.shiftl b k) y < 2 ^ (k + 8)).
  { intros b y k Hb Hy. rewrite lor_shiftl_add by assumption. rewrite N.pow_add_r.
    change (2 ^ 8) with 256. generalize dependent (2 ^ k). intros p Hp.
    replace (p * 256) with (255 * p + p) by lia.
    apply N.add_le_lt_mono; [|assumption]. apply N.mul_le_mono_r. lia. }
  pose proof (step b5 _ 16 Hb5 HA) as HB. change (16 + 8) with 24 in HB.
  rewrite <- (lor_shiftl_add b4 _ 24) by assumption.
  pose proof (step b4 _ 24 Hb4 HB) as HC. change (24 + 8) with 32 in HC.
  rewrite <- (lor_shiftl_add b3 _ 32) by assumption.
  pose proof (step b3 _ 32 Hb3 HC) as HD. change (32 + 8) with 40 in HD.
  rewrite <- (lor_shiftl_add b2 _ 40) by assumption.
  pose proof (step b2 _ 40 Hb2 HD) as HE. change (40 + 8) with 48 in HE.
  rewrite <- (lor_shiftl_add b1 _ 48) by assumption.
  pose proof (step b1 _ 48 Hb1 HE) as HF. change (48 + 8) with 56 in HF.
  rewrite <- (lor_shiftl_add b0 _ 56) by assumption.
  clear. apply N.bits_inj. intros i. rewrite !N.lor_spec. btauto.
Qed.


Lemma endian_swap_spec cx n x : int_size n -> x < 2 ^ bits n -> endian_swap cx n x = be_dec (le_enc n x).
Proof.
  intros Hn Hx. unfold endian_swap. destruct (cx_ce cx); [|reflexivity].
  destruct Hn as [-> | [-> | [-> | ->]]].
  - cbn. change (2 ^ bits 1) with 256 in Hx. rewrite N.mod_small by assumption. reflexivity.
  - apply swap_sw_2. exact Hx.
  - apply swap_sw_4. exact Hx.
  - apply swap_sw_8. exact Hx.
Qed.

Lemma le_dec_be_enc n x : le_dec (be_enc n x) = be_dec (le_enc n x).
Proof. rewrite be_dec_le. reflexivity. Qed.

Lemma bigof_value cx l : int_size (length l) -> bytes l ->
  endian_bigof cx (length l) (obj_value (cx_big cx) l) = be_dec l.
Proof.
  intros Hn Hb. unfold endian_bigof. destruct (cx_big cx); cbn [obj_value]; [reflexivity|].
  rewrite endian_swap_spec; [|assumption|rewrite pow256; apply le_dec_lt; assumption].
  rewrite le_enc_dec by (assumption || reflexivity). reflexivity.
Qed.

Lemma littleof_value cx l : int_size (length l) -> bytes l ->
  endian_littleof cx (length l) (obj_value (cx_big cx) l) = le_dec l.
Proof.
  intros Hn Hb. unfold endian_littleof. destruct (cx_big cx); cbn [obj_value]; [|reflexivity].
  rewrite endian_swap_spec; [|assumption|rewrite pow256; apply be_dec_lt; assumption].
  rewrite !be_dec_le. change (rev (le_enc (length l) (le_dec (rev l)))) with (be_enc (length l) (le_dec (rev l))).
  rewrite <- be_dec_le, be_enc_dec by (assumption || reflexivity). reflexivity.
Qed.

Lemma bigof_bytes cx n x : int_size n -> x < 2 ^ bits n ->
  obj_bytes (cx_big cx) n (endian_bigof cx n x) = be_enc n x.
Proof.
  intros Hn Hx. unfold endian_bigof, obj_bytes. destruct (cx_big cx); [reflexivity|].
  rewrite endian_swap_spec by assumption. rewrite <- le_dec_be_enc.
  apply le_enc_dec; [apply be_enc_bytes|rewrite be_enc_length; reflexivity].
Qed.

Lemma littleof_bytes cx n x : int_size n -> x < 2 ^ bits n ->
  obj_bytes (cx_big cx) n (endian_littleof cx n x) = le_enc n x.
Proof.
  intros Hn Hx. unfold endian_littleof, obj_bytes. destruct (cx_big cx); [|reflexivity].
  rewrite endian_swap_spec by assumption.
  apply be_enc_dec; [apply le_enc_bytes|rewrite le_enc_length; reflexivity].
Qed.

Lemma bigof_lt cx n x : int_size n -> x < 2 ^ bits n -> endian_bigof cx n x < 2 ^ bits n.
Proof.
  intros Hn Hx. unfold endian_bigof. destruct (cx_big cx); [assumption|].
  rewrite endian_swap_spec, pow256 by assumption.
  rewrite <- (le_enc_length n x) at 2. apply be_dec_lt, le_enc_bytes.
Qed.
Lemma littleof_lt cx n x : int_size n -> x < 2 ^ bits n -> endian_littleof cx n x < 2 ^ bits n.
Proof.
  intros Hn Hx. unfold endian_littleof. destruct (cx_big cx); [|assumption].
  rewrite endian_swap_spec, pow256 by assumption.
  rewrite <- (le_enc_length n x) at 2. apply be_dec_lt, le_enc_bytes.
Qed.

(** *** Loads *)
Lemma split_nth {A} (l : list A) i : (i < length l)%nat ->
  exists pre x post, l = pre ++ x :: post /\ length pre = i.
Proof.
  intros H. destruct (nth_error l i) as [x|] eqn:E.
  - apply nth_error_split in E. destruct E as (a & b & -> & Hl). eauto.
  - apply nth_error_None in E. lia.
Qed.

Lemma split_mid {A} (l : list A) i n : (i + n <= length l)%nat ->
  exists pre mid post, l = pre ++ mid ++ post /\ length pre = i /\ length mid = n.
Proof.
  intros H. exists (firstn i l), (firstn n (skipn i l)), (skipn (i + n) l). repeat split.
  - rewrite <- (firstn_skipn i l) at 1. f_equal.
    rewrite <- (firstn_skipn n (skipn i l)) at 1. f_equal. rewrite skipn_skipn. f_equal. lia.
  - rewrite firstn_length. lia.
  - rewrite firstn_length, skipn_length. lia.
Qed.

Lemma slice_mid {A} (pre mid post : list A) i n :
  i = length pre -> n = length mid -> firstn n (skipn i (pre ++ mid ++ post)) = mid.
Proof.
  intros -> ->. rewrite skipn_app, skipn_all_le, Nat.sub_diag by lia. cbn [app skipn].
  rewrite firstn_app, firstn_all, Nat.sub_diag. cbn [firstn]. apply app_nil_r.
Qed.

Lemma slice_word b ps pre w post o n : (o + n <= ps)%nat ->
  firstn n (skipn (length pre * ps + o) (arr_bytes b ps (pre ++ w :: post)))
  = firstn n (skipn o (obj_bytes b ps w)).
Proof.
  intros H. rewrite arr_bytes_app. unfold arr_bytes at 2. cbn [flat_map].
  rewrite skipn_app, skipn_all_le by (rewrite arr_bytes_length; lia).
  rewrite arr_bytes_length. replace (length pre * ps + o - length pre * ps)%nat with o by lia.
  cbn [app]. rewrite skipn_app, firstn_app. 
  replace (n - length (skipn o (obj_bytes b ps w)))%nat with 0%nat
    by (rewrite skipn_length, obj_bytes_length; lia).
  cbn [firstn]. apply app_nil_r.
Qed.

Lemma part_value b ps w o vs : (o + vs <= ps)%nat -> (0 < vs)%nat ->
  trunc (bits vs) (N.shiftr w (part_bits {| cx_big := b; cx_ce := true |} vs ps o))
  = obj_value b (firstn vs (skipn o (obj_bytes b ps w))).
Proof.
  intros H Hv. unfold trunc, part_bits. cbn [cx_big]. rewrite N.shiftr_div_pow2.
  destruct b; cbn [obj_bytes obj_value].
  - unfold be_enc. rewrite firstn_skipn_rev by (rewrite le_enc_length; lia).
    rewrite le_enc_length, firstn_skipn_le_enc by lia.
    rewrite be_dec_le, rev_involutive, le_dec_enc, <- pow256, <- pow256. do 3 f_equal. unfold bits. lia.
  - rewrite firstn_skipn_le_enc by lia. rewrite le_dec_enc, <- !pow256. reflexivity.
Qed.

Lemma load_loop_spec vs ps arr seg : forall is ws val,
  Forall2 (fun i w => rd arr (seg + i) = Some w) is ws -> words (bits ps) ws ->
  val < 2 ^ (bits vs - bits ps * N.of_nat (length ws)) -> bits ps * N.of_nat (length ws) <= bits vs ->
  load_loop vs ps arr seg is val = Some (fold_left (fun a w => a * 2 ^ bits ps + w) ws val).
Proof.
  induction is as [|i is IH]; intros ws val HF Hw Hv Hb; inversion HF as [|? w ? ws' Hr HF']; subst.
  - reflexivity.
  - inversion Hw as [|? ? Hx Hw']; subst. unfold is_word in Hx. cbn [load_loop]. rewrite Hr. cbn [bind fold_left].
    cbn [length] in *.
    assert (Hlt : val * 2 ^ bits ps < 2 ^ (bits vs - bits ps * N.of_nat (length ws'))).
    { replace (bits vs - bits ps * N.of_nat (length ws'))
        with ((bits vs - bits ps * N.of_nat (S (length ws'))) + bits ps) by lia.
      rewrite N.pow_add_r. apply N.mul_lt_mono_pos_r; [|assumption].
      apply N.neq_0_lt_0, N.pow_nonzero. lia. }
    assert (Hle : 2 ^ (bits vs - bits ps * N.of_nat (length ws')) <= 2 ^ bits vs)
      by (apply N.pow_le_mono_r; lia).
    assert (Hpv : 2 ^ bits ps <= 2 ^ bits vs) by (apply N.pow_le_mono_r; lia).
    rewrite land_ones_mod. unfold trunc, wshl.
    rewrite (N.mod_small w (2 ^ bits vs)) by lia. rewrite (N.mod_small w) by assumption.
    rewrite N.shiftl_mul_pow2, (N.mod_small (val * _)) by lia. rewrite <- N.shiftl_mul_pow2.
    rewrite lor_shiftl_add by assumption. rewrite ?N.shiftl_mul_pow2.
    rewrite (IH ws'); [reflexivity|assumption|assumption| |lia].
    replace (bits vs - bits ps * N.of_nat (length ws'))
        with ((bits vs - bits ps * N.of_nat (S (length ws'))) + bits ps) by lia.
    rewrite N.pow_add_r.
    set (A := 2 ^ (bits vs - bits ps * N.of_nat (S (length ws')))) in *.
    set (B := 2 ^ bits ps) in *. clearbody A B.
    assert ((val + 1) * B <= A * B) by (apply N.mul_le_mono_r; lia). lia.
Qed.

Lemma fold_words_be ps ws : forall a, words (bits ps) ws ->
  fold_left (fun a w => a * 2 ^ bits ps + w) ws a
  = fold_left (fun a b => a * 256 + b) (arr_bytes true ps ws) a.
Proof.
  induction ws as [|w ws IH]; intros a Hw; [reflexivity|].
  inversion Hw as [|? ? Hx Hw']; subst. unfold is_word in Hx.
  unfold arr_bytes in *. cbn [fold_left flat_map]. rewrite fold_left_app, IH by assumption. f_equal.
  rewrite be_dec_fold. cbn [obj_bytes]. rewrite be_enc_length. unfold be_enc.
  rewrite rev_involutive, le_dec_enc, <- pow256, N.mod_small by assumption. reflexivity.
Qed.

Lemma rev_arr_bytes ps ws : rev (arr_bytes false ps ws) = arr_bytes true ps (rev ws).
Proof.
  induction ws as [|w ws IH]; [reflexivity|].
  cbn [rev]. rewrite arr_bytes_app. unfold arr_bytes at 1. cbn [flat_map].
  rewrite rev_app_distr. fold (arr_bytes false ps ws). rewrite IH. f_equal.
  unfold arr_bytes. cbn [flat_map obj_bytes]. rewrite app_nil_r. reflexivity.
Qed.

Lemma Forall2_rev' {A B} (R : A -> B -> Prop) l1 l2 : Forall2 R l1 l2 -> Forall2 R (rev l1) (rev l2).
Proof.
  intros HF. induction HF as [|i w is ws Hr HF IH]; cbn [rev]; [constructor|].
  apply Forall2_app; [assumption|]. constructor; [assumption|constructor].
Qed.

Lemma seq_reads {A} (post : list A) k : forall mid pre z, length pre = (k + z)%nat ->
  Forall2 (fun i w => rd (pre ++ mid ++ post) (k + i) = Some w) (seq z (length mid)) mid.
Proof.
  induction mid as [|w mid IH]; intros pre z H; cbn [length seq]; constructor.
  - apply rd_app. lia.
  - replace (pre ++ (w :: mid) ++ post) with ((pre ++ [w]) ++ mid ++ post)
      by (rewrite <- app_assoc; reflexivity).
    apply IH. rewrite app_length. cbn [length]. lia.
Qed.

(** Reading [n] words [mid] at [seg] in the order of the host. *)
Lemma load_loop_mid cx vs ps pre mid post :
  words (bits ps) mid -> (ps * length mid <= vs)%nat ->
  load_loop vs ps (pre ++ mid ++ post) (length pre) (load_order cx (length mid)) 0
  = Some (obj_value (cx_big cx) (arr_bytes (cx_big cx) ps mid)).
Proof.
  intros Hw Hl.
  assert (HF : Forall2 (fun i w => rd (pre ++ mid ++ post) (length pre + i) = Some w) (seq 0 (length mid)) mid).
  { apply seq_reads. lia. }
  assert (Hb : bits ps * N.of_nat (length mid) <= bits vs) by (unfold bits; lia).
  unfold load_order. destruct (cx_big cx); cbn [obj_value].
  - rewrite (load_loop_spec vs ps _ _ _ mid) by (assumption || (apply N.neq_0_lt_0, N.pow_nonzero; lia)).
    rewrite fold_words_be by assumption. reflexivity.
  - rewrite (load_loop_spec vs ps _ _ _ (rev mid)).
    + rewrite fold_words_be by (apply Forall_rev; assumption).
      rewrite <- rev_arr_bytes. fold (be_dec (rev (arr_bytes false ps mid))).
      rewrite be_dec_le, rev_involutive. reflexivity.
    + apply Forall2_rev'. assumption.
    + apply Forall_rev. assumption.
    + apply N.neq_0_lt_0, N.pow_nonzero. lia.
    + rewrite rev_length. assumption.
Qed.

Lemma size_cases vs ps : int_size vs -> int_size ps ->
  vs = ps \/ (exists k, (1 < k)%nat /\ ps = (vs * k)%nat) \/ (exists k, (1 < k)%nat /\ vs = (ps * k)%nat).
Proof.
  intros Hv Hp. destruct Hv as [-> | [-> | [-> | ->]]], Hp as [-> | [-> | [-> | ->]]];
  first [ left; reflexivity
        | right; left; first [exists 2%nat; lia|exists 4%nat; lia|exists 8%nat; lia]
        | right; right; first [exists 2%nat; lia|exists 4%nat; lia|exists 8%nat; lia] ].
Qed.

Lemma int_size_pos n : int_size n -> (0 < n)%nat.
Proof. intros [-> | [-> | [-> | ->]]]; lia. Qed.

(** Facts about the segment and offset in the "part" case. *)
Lemma part_facts vs k off : (0 < vs)%nat -> (1 < k)%nat ->
  ((off * vs) / (vs * k) = off / k /\ (off * vs) mod (vs * k) = off mod k * vs
   /\ off * vs = off / k * (vs * k) + off mod k * vs /\ off mod k * vs + vs <= vs * k
   /\ (0 <? vs mod (vs * k)) = true)%nat.
Proof.
  intros Hv Hk.
  assert (H1 : ((off * vs) / (vs * k) = off / k)%nat).
  { rewrite (Nat.mul_comm vs k). apply Nat.div_mul_cancel_r; lia. }
  assert (H2 : ((off * vs) mod (vs * k) = off mod k * vs)%nat).
  { rewrite (Nat.mul_comm vs k). apply Nat.mul_mod_distr_r; lia. }
  assert (H3 : (off * vs = off / k * (vs * k) + off mod k * vs)%nat).
  { rewrite <- H1, <- H2. rewrite (Nat.mul_comm (off * vs / (vs * k))).
    apply Nat.div_mod. lia. }
  assert (H4 : (off mod k < k)%nat) by (apply Nat.mod_upper_bound; lia).
  assert (H5 : (off mod k * vs + vs <= vs * k)%nat).
  { replace (off mod k * vs + vs)%nat with ((off mod k + 1) * vs)%nat by lia.
    rewrite (Nat.mul_comm vs k). apply Nat.mul_le_mono_r. lia. }
  repeat split; try assumption.
  rewrite Nat.mod_small; [apply Nat.ltb_lt; assumption|].
  rewrite <- (Nat.mul_1_r vs) at 1. apply Nat.mul_lt_mono_pos_l; lia.
Qed.

Lemma full_facts ps k off : (0 < ps)%nat -> (1 < k)%nat ->
  ((off * (ps * k)) / ps = off * k /\ (off * (ps * k)) mod ps = 0 /\ (ps * k) mod ps = 0
   /\ (ps * k) / ps = k /\ (ps * k =? ps) = false)%nat.
Proof.
  intros Hp Hk.
  assert (E : (off * (ps * k) = off * k * ps)%nat) by lia.
  rewrite E, Nat.div_mul, Nat.mod_mul by lia.
  rewrite (Nat.mul_comm ps k), Nat.mod_mul, Nat.div_mul by lia. repeat split.
  apply Nat.eqb_neq. rewrite <- (Nat.mul_1_l ps) at 2. intros H.
  apply Nat.mul_cancel_r in H; lia.
Qed.

Lemma mem_load_spec cx vs ps arr off :
  int_size vs -> int_size ps -> words (bits ps) arr -> (off * vs + vs <= length arr * ps)%nat ->
  mem_load cx vs ps arr off
  = Some (obj_value (cx_big cx) (firstn vs (skipn (off * vs) (arr_bytes (cx_big cx) ps arr)))).
Proof.
  intros Hv Hp Hw Hl. unfold mem_load.
  pose proof (int_size_pos _ Hv) as Hv0. pose proof (int_size_pos _ Hp) as Hp0.
  destruct (size_cases vs ps Hv Hp) as [E | [(k & Hk & E) | (k & Hk & E)]].
  - subst vs. rewrite Nat.eqb_refl.
    assert (Ho : (off < length arr)%nat).
    { apply (Nat.mul_lt_mono_pos_r ps); lia. }
    destruct (split_nth arr off Ho) as (pre & w & post & -> & <-).
    rewrite rd_app by reflexivity. f_equal.
    replace (length pre * ps)%nat with (length pre * ps + 0)%nat by lia.
    rewrite slice_word by lia. cbn [skipn]. rewrite firstn_all2 by (rewrite obj_bytes_length; lia).
    rewrite obj_value_bytes, N.mod_small; [reflexivity|].
    apply Forall_app in Hw. destruct Hw as [_ Hw]. inversion Hw. assumption.
  - destruct (part_facts vs k off Hv0 Hk) as (F1 & F2 & F3 & F4 & F5). subst ps.
    replace (vs =? vs * k)%nat with false.
    2:{ symmetry. apply Nat.eqb_neq. rewrite <- (Nat.mul_1_r vs) at 1. intros H.
        apply Nat.mul_cancel_l in H; lia. }
    destruct (cx_ce cx) eqn:Ece.
    2:{ rewrite rds_some by (rewrite arr_bytes_length; lia). reflexivity. }
    rewrite F1, F2, F5.
    assert (Ho : (off / k < length arr)%nat).
    { apply (Nat.mul_lt_mono_pos_r (vs * k)); [lia|]. lia. }
    destruct (split_nth arr (off / k) Ho) as (pre & w & post & -> & Hpre).
    rewrite rd_app by lia. cbn [bind]. f_equal.
    rewrite F3, <- Hpre, slice_word by lia.
    rewrite <- part_value by lia. destruct cx as [b c]. reflexivity.
  - destruct (full_facts ps k off Hp0 Hk) as (F1 & F2 & F3 & F4 & F5). subst vs.
    rewrite F5. destruct (cx_ce cx) eqn:Ece.
    2:{ rewrite rds_some by (rewrite arr_bytes_length; lia). reflexivity. }
    rewrite F1, F3, F4. cbn [Nat.ltb Nat.leb].
    assert (Ho : (off * k + k <= length arr)%nat).
    { apply (Nat.mul_le_mono_pos_r _ _ ps); lia. }
    destruct (split_mid arr (off * k) k Ho) as (pre & mid & post & -> & Hpre & Hm).
    rewrite <- Hpre.
    assert (Hwm : words (bits ps) mid).
    { apply Forall_app in Hw. destruct Hw as [_ Hw]. apply Forall_app in Hw. tauto. }
    replace (load_order cx k) with (load_order cx (length mid)) by (rewrite Hm; reflexivity).
    rewrite load_loop_mid by (assumption || lia). do 2 f_equal.
    rewrite !arr_bytes_app. symmetry. apply slice_mid; rewrite arr_bytes_length, ?Hpre, ?Hm; lia.
Qed.

Lemma slice_bytes b ps arr i n : bytes (firstn n (skipn i (arr_bytes b ps arr))).
Proof. apply bytes_firstn, bytes_skipn, arr_bytes_bytes. Qed.

Lemma slice_length {A} (l : list A) i n : (i + n <= length l)%nat -> length (firstn n (skipn i l)) = n.
Proof. intros H. rewrite firstn_length, skipn_length. lia. Qed.

Lemma mem_load_be_spec cx vs ps arr off :
  int_size vs -> int_size ps -> words (bits ps) arr -> (off * vs + vs <= length arr * ps)%nat ->
  mem_load_be cx vs ps arr off
  = Some (be_dec (firstn vs (skipn (off * vs) (arr_bytes (cx_big cx) ps arr)))).
Proof.
  intros Hv Hp Hw Hl. unfold mem_load_be. rewrite mem_load_spec by assumption. cbn [bind]. f_equal.
  assert (E : length (firstn vs (skipn (off * vs) (arr_bytes (cx_big cx) ps arr))) = vs)
    by (apply slice_length; rewrite arr_bytes_length; assumption).
  rewrite <- E at 1. apply bigof_value; [rewrite E; assumption|apply slice_bytes].
Qed.

Lemma mem_load_le_spec cx vs ps arr off :
  int_size vs -> int_size ps -> words (bits ps) arr -> (off * vs + vs <= length arr * ps)%nat ->
  mem_load_le cx vs ps arr off
  = Some (le_dec (firstn vs (skipn (off * vs) (arr_bytes (cx_big cx) ps arr)))).
Proof.
  intros Hv Hp Hw Hl. unfold mem_load_le. rewrite mem_load_spec by assumption. cbn [bind]. f_equal.
  assert (E : length (firstn vs (skipn (off * vs) (arr_bytes (cx_big cx) ps arr))) = vs)
    by (apply slice_length; rewrite arr_bytes_length; assumption).
  rewrite <- E at 1. apply littleof_value; [rewrite E; assumption|apply slice_bytes].
Qed.

(** From byte arrays. *)
Lemma bytes_words l : bytes l <-> words (bits 1) l.
Proof. reflexivity. Qed.

Lemma mem_load_be_bytes cx vs arr off :
  int_size vs -> bytes arr -> (off * vs + vs <= length arr)%nat ->
  mem_load_be cx vs 1 arr off = Some (be_dec (firstn vs (skipn (off * vs) arr))).
Proof.
  intros Hv Hb Hl. rewrite mem_load_be_spec; [rewrite arr_bytes_1 by assumption; reflexivity|assumption|left; reflexivity|assumption|lia].
Qed.
Lemma mem_load_le_bytes cx vs arr off :
  int_size vs -> bytes arr -> (off * vs + vs <= length arr)%nat ->
  mem_load_le cx vs 1 arr off = Some (le_dec (firstn vs (skipn (off * vs) arr))).
Proof.
  intros Hv Hb Hl. rewrite mem_load_le_spec; [rewrite arr_bytes_1 by assumption; reflexivity|assumption|left; reflexivity|assumption|lia].
Qed.

(** Sized loads from byte arrays: the missing bytes read as zero. *)
Lemma mem_load_n_bytes cx vs arr off n :
  int_size vs -> bytes arr -> (1 < vs)%nat -> (off * vs + Nat.min vs n <= length arr)%nat ->
  mem_load_n cx vs 1 arr off n
  = Some (obj_value (cx_big cx) (firstn (Nat.min vs n) (skipn (off * vs) arr) ++ repeat 0 (vs - Nat.min vs n))).
Proof.
  intros Hv Hb H1 Hl. unfold mem_load_n. rewrite arr_bytes_1 by assumption.
  cbv zeta. replace (1 * n)%nat with n by lia. destruct (cx_ce cx) eqn:Ece.
  2:{ rewrite rds_some by lia. reflexivity. }
  rewrite Nat.div_1_r.
  destruct (Nat.eqb_spec n 0) as [->|Hn].
  { rewrite Nat.min_0_r, Nat.sub_0_r. cbn [firstn app]. f_equal.
    assert (Hz : le_dec (repeat 0 vs) = 0).
    { clear. induction vs as [|v IH]; [reflexivity|]. cbn [repeat le_dec]. rewrite IH. reflexivity. }
    assert (Hr : rev (repeat 0 vs) = repeat 0 vs).
    { clear. induction vs as [|v IH]; [reflexivity|]. cbn [repeat rev]. rewrite IH.
      clear. induction v as [|v IH]; [reflexivity|]. cbn [repeat app]. rewrite IH. reflexivity. }
    destruct (cx_big cx); cbn [obj_value]; [rewrite be_dec_le, Hr|]; symmetry; exact Hz. }
  replace (vs =? 1)%nat with false by (symmetry; apply Nat.eqb_neq; lia).
  rewrite Nat.mod_1_r, Nat.div_1_r. cbn [Nat.ltb Nat.leb].
  rewrite (Nat.min_comm n vs). set (k := Nat.min vs n) in *.
  assert (Hk : (0 < k <= vs)%nat) by (unfold k; lia). clearbody k.
  destruct (split_mid arr (off * vs) k ltac:(lia)) as (pre & mid & post & -> & <- & Hm).
  rewrite slice_mid by (reflexivity || lia).
  assert (Hwm : bytes mid).
  { apply bytes_app in Hb. destruct Hb as [_ Hb]. apply bytes_app in Hb. tauto. }
  replace (load_order cx k) with (load_order cx (length mid)) by (rewrite Hm; reflexivity).
    rewrite load_loop_mid by (assumption || lia). cbn [bind].
  rewrite arr_bytes_1 by assumption. f_equal.
  destruct (cx_big cx); cbn [obj_value].
  - rewrite be_dec_app, repeat_length. rewrite Nat.mul_1_l.
    assert (Hz : be_dec (repeat 0 (vs - k)) = 0).
    { clear. unfold be_dec. induction (vs - k)%nat as [|v IH]; [reflexivity|]. cbn [repeat fold_left]. exact IH. }
    rewrite Hz, N.add_0_r. unfold wshl. rewrite N.shiftl_mul_pow2, pow256.
    apply N.mod_small. rewrite pow256.
    replace (N.of_nat vs) with (N.of_nat k + N.of_nat (vs - k)) by lia.
    rewrite N.pow_add_r. apply N.mul_lt_mono_pos_r; [apply pow256_pos|].
    rewrite <- Hm. apply be_dec_lt. assumption.
  - rewrite le_dec_app.
    assert (Hz : le_dec (repeat 0 (vs - k)) = 0).
    { clear. induction (vs - k)%nat as [|v IH]; [reflexivity|]. cbn [repeat le_dec]. rewrite IH. reflexivity. }
    rewrite Hz. lia.
Qed.

(** *** Stores *)
Lemma ones_eq k : 2 ^ k - 1 = N.ones k.
Proof. rewrite N.ones_equiv, N.sub_1_r. reflexivity. Qed.

Lemma testbit_small x k i : x < 2 ^ k -> k <= i -> N.testbit x i = false.
Proof.
  intros H Hi. destruct (N.eq_dec x 0) as [->|Hx]; [apply N.bits_0|].
  apply N.bits_above_log2. apply N.log2_lt_pow2 in H; [|lia]. lia.
Qed.

Lemma stor_part_bits w val P b v : w < 2 ^ P -> val < 2 ^ v -> b + v <= P ->
  trunc P (N.lor (N.land w (wnot P (N.shiftl (2 ^ v - 1) b))) (N.shiftl val b))
  = N.lor (N.shiftl (N.lor (N.shiftl (w / 2 ^ (b + v)) v) val) b) (w mod 2 ^ b).
Proof.
  intros Hw Hv HP. unfold trunc, wnot. rewrite !ones_eq.
  apply N.bits_inj. intros i. rewrite N.lor_spec.
  rewrite <- !N.shiftr_div_pow2.
  destruct (N.lt_ge_cases i b) as [Hi|Hi].
  - rewrite N.mod_pow2_bits_low by lia. rewrite N.lor_spec, N.land_spec, N.lxor_spec.
    rewrite !N.shiftl_spec_low by assumption. rewrite N.mod_pow2_bits_low by lia.
    rewrite N.shiftl_spec_low by assumption. rewrite N.ones_spec_low by lia.
    rewrite N.mod_pow2_bits_low by lia. cbn. rewrite andb_true_r, orb_false_r. reflexivity.
  - rewrite (N.mod_pow2_bits_high w b) by assumption. rewrite orb_false_r.
    rewrite (N.shiftl_spec_high' _ b i) by assumption. rewrite N.lor_spec.
    destruct (N.lt_ge_cases i P) as [HiP|HiP].
    + rewrite N.mod_pow2_bits_low by assumption. rewrite N.lor_spec, N.land_spec, N.lxor_spec.
      rewrite N.mod_pow2_bits_low by assumption. rewrite !N.shiftl_spec_high' by assumption.
      rewrite (N.ones_spec_low P) by assumption.
      destruct (N.lt_ge_cases (i - b) v) as [Hj|Hj].
      * rewrite N.ones_spec_low by assumption. rewrite N.shiftl_spec_low by assumption.
        cbn. rewrite andb_false_r. reflexivity.
      * rewrite N.ones_spec_high by assumption. rewrite (N.shiftl_spec_high' _ v) by assumption.
        rewrite N.shiftr_spec'. replace (i - b - v + (b + v)) with i by lia. cbn.
        rewrite andb_true_r. reflexivity.
    + rewrite N.mod_pow2_bits_high by assumption.
      rewrite (N.shiftl_spec_high' _ v) by lia. rewrite N.shiftr_spec'.
      replace (i - b - v + (b + v)) with i by lia.
      rewrite (testbit_small w P) by assumption. rewrite (testbit_small val v) by (assumption || lia). reflexivity.
Qed.

Lemma stor_part_le w val ps vs c : w < 2 ^ bits ps -> val < 2 ^ bits vs -> (c + vs <= ps)%nat ->
  le_enc ps (stor_part vs ps w val (bits c))
  = le_enc c w ++ le_enc vs val ++ le_enc (ps - c - vs) (w / 256 ^ N.of_nat (c + vs)).
Proof.
  intros Hw Hv Hc. unfold stor_part.
  rewrite stor_part_bits by (try assumption; unfold bits; lia).
  assert (Hlo : w mod 2 ^ bits c < 2 ^ bits c) by (apply N.mod_lt, N.pow_nonzero; lia).
  rewrite !lor_shiftl_add by assumption.
  rewrite <- bits_add, !pow256.
  set (hi := w / 256 ^ N.of_nat (c + vs)).
  replace ps with (c + (vs + (ps - c - vs)))%nat at 1 by lia.
  rewrite !le_enc_app. f_equal; [|f_equal].
  - rewrite <- le_enc_mod. rewrite N.add_comm, N.mod_add by (apply N.pow_nonzero; lia).
    rewrite N.mod_mod by (apply N.pow_nonzero; lia). apply le_enc_mod.
  - rewrite N.div_add_l, N.div_small, N.add_0_r
      by (try (apply N.pow_nonzero; lia); rewrite <- pow256 in *; assumption).
    rewrite <- le_enc_mod. rewrite N.add_comm, N.mod_add by (apply N.pow_nonzero; lia). apply le_enc_mod.
  - f_equal. rewrite N.div_add_l, (N.div_small (w mod _)), N.add_0_r
      by (try (apply N.pow_nonzero; lia); rewrite <- pow256 in *; assumption).
    rewrite pow256 in Hv. rewrite N.div_add_l, N.div_small, N.add_0_r
      by (try (apply N.pow_nonzero; lia); assumption). reflexivity.
Qed.

Lemma skipn_le_enc n a x : (a <= n)%nat -> skipn a (le_enc n x) = le_enc (n - a) (x / 256 ^ N.of_nat a).
Proof.
  intros H. rewrite <- (firstn_skipn_le_enc n a (n - a) x) by lia.
  symmetry. apply firstn_all2. rewrite skipn_length, le_enc_length. lia.
Qed.
Lemma firstn_le_enc n a x : (a <= n)%nat -> firstn a (le_enc n x) = le_enc a x.
Proof.
  intros H. pose proof (firstn_skipn_le_enc n 0 a x ltac:(lia)) as E. cbn [skipn] in E.
  rewrite E. change (256 ^ N.of_nat 0) with 1. rewrite N.div_1_r. reflexivity.
Qed.

Lemma stor_part_obj b w val ps vs o : w < 2 ^ bits ps -> val < 2 ^ bits vs -> (o + vs <= ps)%nat ->
  obj_bytes b ps (stor_part vs ps w val (part_bits {| cx_big := b; cx_ce := true |} vs ps o))
  = firstn o (obj_bytes b ps w) ++ obj_bytes b vs val ++ skipn (o + vs) (obj_bytes b ps w).
Proof.
  intros Hw Hv Ho. unfold part_bits. cbn [cx_big]. destruct b; cbn [obj_bytes].
  - replace (bits ps - bits o - bits vs) with (bits (ps - o - vs)) by (unfold bits; lia).
    unfold be_enc. rewrite stor_part_le by (assumption || lia).
    rewrite !rev_app_distr, <- app_assoc.
    rewrite firstn_rev, skipn_rev, le_enc_length. rewrite skipn_le_enc, firstn_le_enc by lia.
    f_equal; [|f_equal].
    + f_equal. f_equal; [lia|]. do 3 f_equal. lia.
    + f_equal. f_equal. lia.
  - rewrite stor_part_le by assumption. rewrite firstn_le_enc, skipn_le_enc by lia.
    do 2 f_equal. f_equal. lia.
Qed.

Lemma wrs_cons {A} (arr : list A) i x l : (i + S (length l) <= length arr)%nat ->
  wrs arr i (x :: l) = (a <- wr arr i x ;; wrs a (S i) l).
Proof.
  intros H. destruct (split_mid arr i (S (length l)) H) as (pre & mid & post & -> & <- & Hm).
  destruct mid as [|y mid]; [discriminate|]. injection Hm as Hm.
  rewrite (wrs_app pre (y :: mid) post (x :: l)) by (cbn [length]; lia).
  cbn [app]. rewrite wr_app by reflexivity. cbn [bind].
  replace (pre ++ x :: mid ++ post) with ((pre ++ [x]) ++ mid ++ post) by (rewrite <- app_assoc; reflexivity).
  rewrite wrs_app by (rewrite ?app_length; cbn [length]; lia). rewrite <- app_assoc. reflexivity.
Qed.

Lemma wrs_snoc {A} (arr : list A) i x l : (i + S (length l) <= length arr)%nat ->
  wrs arr i (l ++ [x]) = (a <- wr arr (i + length l) x ;; wrs a i l).
Proof.
  intros H. destruct (split_mid arr i (length l) ltac:(lia)) as (pre & mid & post & -> & <- & Hm).
  destruct post as [|y post].
  { rewrite !app_length in H. cbn [length] in H. lia. }
  replace (pre ++ mid ++ y :: post) with (pre ++ (mid ++ [y]) ++ post) at 1
    by (rewrite <- app_assoc; reflexivity).
  rewrite wrs_app by (rewrite ?app_length; cbn [length]; lia).
  rewrite (app_assoc pre mid), wr_app by (rewrite app_length; lia). cbn [bind].
  rewrite <- (app_assoc pre mid). rewrite wrs_app by (reflexivity || lia).
  rewrite <- app_assoc. reflexivity.
Qed.

Fixpoint words_le (ps n : nat) (val : N) : list N :=
  match n with O => [] | S n => trunc (bits ps) val :: words_le ps n (N.shiftr val (bits ps)) end.

Lemma words_le_length ps n : forall val, length (words_le ps n val) = n.
Proof. induction n as [|n IH]; intros val; cbn [words_le length]; [|rewrite IH]; reflexivity. Qed.

Lemma words_le_words ps n : forall val, words (bits ps) (words_le ps n val).
Proof.
  induction n as [|n IH]; intros val; cbn [words_le]; constructor; [|apply IH].
  apply N.mod_lt, N.pow_nonzero. lia.
Qed.

Lemma words_le_bytes ps n : forall val, arr_bytes false ps (words_le ps n val) = le_enc (n * ps) val.
Proof.
  induction n as [|n IH]; intros val; [reflexivity|].
  unfold arr_bytes in *. cbn [words_le flat_map]. rewrite IH. cbn [Nat.mul].
  rewrite le_enc_app. cbn [obj_bytes]. unfold trunc. rewrite pow256, le_enc_mod.
  rewrite N.shiftr_div_pow2, pow256. reflexivity.
Qed.

Lemma words_le_be_bytes ps n val : arr_bytes true ps (rev (words_le ps n val)) = be_enc (n * ps) val.
Proof. rewrite <- rev_arr_bytes, words_le_bytes. reflexivity. Qed.

Lemma stor_loop_le ps seg : forall n z arr val, (seg + z + n <= length arr)%nat ->
  stor_loop ps arr seg (seq z n) val = wrs arr (seg + z) (words_le ps n val).
Proof.
  induction n as [|n IH]; intros z arr val H; cbn [seq stor_loop words_le].
  - unfold wrs. cbn [length]. rewrite Nat.add_0_r.
    destruct (Nat.leb_spec (seg + z) (length arr)); [|lia]. cbn [app]. rewrite firstn_skipn. reflexivity.
  - rewrite wrs_cons by (rewrite words_le_length; lia).
    destruct (wr arr (seg + z) (trunc (bits ps) val)) as [a|] eqn:E; [|reflexivity]. cbn [bind].
    rewrite IH; [f_equal; lia|]. rewrite (wrs_length _ _ _ _ E). lia.
Qed.

Lemma stor_loop_be ps seg : forall n arr val, (seg + n <= length arr)%nat ->
  stor_loop ps arr seg (rev (seq 0 n)) val = wrs arr seg (rev (words_le ps n val)).
Proof.
  induction n as [|n IH]; intros arr val H; cbn [words_le].
  - cbn. unfold wrs. cbn [length]. rewrite Nat.add_0_r.
    destruct (Nat.leb_spec seg (length arr)); [|lia]. cbn [app]. rewrite firstn_skipn. reflexivity.
  - rewrite seq_S, rev_app_distr. cbn [rev app stor_loop Nat.add].
    rewrite wrs_snoc by (rewrite rev_length, words_le_length; lia).
    rewrite rev_length, words_le_length.
    destruct (wr arr (seg + n) (trunc (bits ps) val)) as [a|] eqn:E; [|reflexivity]. cbn [bind].
    apply IH. rewrite (wrs_length _ _ _ _ E). lia.
Qed.

Lemma words_wrs pw (arr ws : list N) i a : words pw arr -> words pw ws -> wrs arr i ws = Some a -> words pw a.
Proof.
  unfold wrs. intros Ha Hw H. destruct (i + length ws <=? length arr)%nat; [|discriminate].
  injection H as <-. apply Forall_app. split.
  - rewrite <- (firstn_skipn i arr) in Ha. apply Forall_app in Ha. tauto.
  - apply Forall_app. split; [assumption|].
    rewrite <- (firstn_skipn (i + length ws) arr) in Ha. apply Forall_app in Ha. tauto.
Qed.

(** Writing whole words is a memcpy on the representation. *)
Lemma stor_bytes_words cx ps arr ws i : words (bits ps) arr -> words (bits ps) ws ->
  (i + length ws <= length arr)%nat ->
  wrs arr i ws = stor_bytes cx ps arr (i * ps) (arr_bytes (cx_big cx) ps ws).
Proof.
  intros Ha Hw Hl. destruct (split_mid arr i (length ws) Hl) as (pre & mid & post & -> & Hp & Hm).
  rewrite wrs_app by lia. unfold stor_bytes. rewrite !arr_bytes_app.
  rewrite wrs_app by (rewrite !arr_bytes_length; congruence). cbn [bind]. f_equal.
  rewrite <- !arr_bytes_app.
  replace (length (pre ++ mid ++ post)) with (length (pre ++ ws ++ post)) by (rewrite !app_length; lia).
  symmetry. apply arr_of_bytes_arr.
  apply Forall_app in Ha. destruct Ha as [H1 H2]. apply Forall_app in H2. destruct H2 as [_ H2].
  apply Forall_app. split; [assumption|]. apply Forall_app. split; assumption.
Qed.

Lemma wrs_inside {A} (pre m post l : list A) i o n :
  i = length pre -> n = length m -> (o + length l <= n)%nat ->
  wrs (pre ++ m ++ post) (i + o) l = Some (pre ++ (firstn o m ++ l ++ skipn (o + length l) m) ++ post).
Proof.
  intros -> -> H. destruct (split_mid m o (length l) H) as (m1 & m2 & m3 & -> & Ho & Hm).
  replace (pre ++ (m1 ++ m2 ++ m3) ++ post) with ((pre ++ m1) ++ m2 ++ (m3 ++ post))
    by (rewrite <- !app_assoc; reflexivity).
  rewrite wrs_app by (rewrite ?app_length; lia). f_equal.
  rewrite firstn_app, firstn_all2 by lia. replace (o - length m1)%nat with 0%nat by lia. cbn [firstn].
  rewrite app_nil_r.
  replace (skipn (o + length l) (m1 ++ m2 ++ m3)) with m3; [rewrite <- !app_assoc; reflexivity|].
  rewrite skipn_app, skipn_all_le by lia. cbn [app].
  rewrite skipn_app, skipn_all_le by lia. cbn [app].
  replace (o + length l - length m1 - length m2)%nat with 0%nat by lia. reflexivity.
Qed.

Lemma stor_part_spec cx ps vs pre w post val o :
  words (bits ps) (pre ++ w :: post) -> val < 2 ^ bits vs -> (o + vs <= ps)%nat ->
  cx_ce cx = true ->
  wr (pre ++ w :: post) (length pre) (stor_part vs ps w val (part_bits cx vs ps o))
  = stor_bytes cx ps (pre ++ w :: post) (length pre * ps + o) (obj_bytes (cx_big cx) vs val).
Proof.
  intros Hw Hv Ho Hce.
  assert (Hx : w < 2 ^ bits ps).
  { apply Forall_app in Hw. destruct Hw as [_ Hw]. inversion Hw. assumption. }
  unfold wr. rewrite (stor_bytes_words cx ps).
  - unfold stor_bytes. rewrite arr_bytes_app. change (w :: post) with ([w] ++ post).
    rewrite arr_bytes_app. unfold arr_bytes at 2 4 6. cbn [flat_map]. rewrite !app_nil_r.
    rewrite wrs_app by (rewrite ?arr_bytes_length, ?obj_bytes_length; lia).
    rewrite (wrs_inside _ _ _ _ _ _ ps)
      by (rewrite ?arr_bytes_length, ?obj_bytes_length; lia).
    rewrite obj_bytes_length.
    destruct cx as [b c]. cbn [cx_ce] in Hce. subst c. cbn [cx_big].
    rewrite stor_part_obj by assumption. reflexivity.
  - assumption.
  - constructor; [|constructor]. unfold stor_part, trunc, is_word. apply N.mod_lt, N.pow_nonzero. lia.
  - rewrite app_length. cbn [length]. lia.
Qed.

Lemma mem_stor_spec cx vs ps arr off val :
  int_size vs -> int_size ps -> words (bits ps) arr -> val < 2 ^ bits vs ->
  (off * vs + vs <= length arr * ps)%nat ->
  mem_stor cx vs ps arr off val = stor_bytes cx ps arr (off * vs) (obj_bytes (cx_big cx) vs val).
Proof.
  intros Hv Hp Hw Hval Hl. unfold mem_stor.
  pose proof (int_size_pos _ Hv) as Hv0. pose proof (int_size_pos _ Hp) as Hp0.
  destruct (size_cases vs ps Hv Hp) as [E | [(k & Hk & E) | (k & Hk & E)]].
  - subst vs. rewrite Nat.eqb_refl.
    assert (Ho : (off < length arr)%nat) by (apply (Nat.mul_lt_mono_pos_r ps); lia).
    unfold wr. rewrite (stor_bytes_words cx ps); [|assumption|constructor; [assumption|constructor]|cbn [length]; lia].
    unfold arr_bytes. cbn [flat_map]. rewrite app_nil_r. reflexivity.
  - destruct (part_facts vs k off Hv0 Hk) as (F1 & F2 & F3 & F4 & F5). subst ps.
    replace (vs =? vs * k)%nat with false.
    2:{ symmetry. apply Nat.eqb_neq. rewrite <- (Nat.mul_1_r vs) at 1. intros H.
        apply Nat.mul_cancel_l in H; lia. }
    destruct (cx_ce cx) eqn:Ece; [|reflexivity].
    rewrite F1, F2, F5.
    assert (Ho : (off / k < length arr)%nat).
    { apply (Nat.mul_lt_mono_pos_r (vs * k)); [lia|]. lia. }
    destruct (split_nth arr (off / k) Ho) as (pre & w & post & -> & Hpre).
    rewrite rd_app by lia. cbn [bind]. rewrite F3, <- Hpre. apply stor_part_spec; assumption.
  - destruct (full_facts ps k off Hp0 Hk) as (F1 & F2 & F3 & F4 & F5). subst vs.
    rewrite F5. destruct (cx_ce cx) eqn:Ece; [|reflexivity].
    rewrite F1, F3, F4. cbn [Nat.ltb Nat.leb].
    assert (Ho : (off * k + k <= length arr)%nat).
    { apply (Nat.mul_le_mono_pos_r _ _ ps); lia. }
    replace (off * (ps * k))%nat with (off * k * ps)%nat by lia. rewrite (Nat.mul_comm ps k).
    unfold stor_order. destruct (cx_big cx) eqn:Eb; cbn [obj_bytes].
    + rewrite stor_loop_be by assumption. rewrite <- words_le_be_bytes, <- Eb.
      apply stor_bytes_words; [assumption|apply Forall_rev, words_le_words|rewrite rev_length, words_le_length; assumption].
    + rewrite stor_loop_le by lia. rewrite Nat.add_0_r, <- words_le_bytes, <- Eb.
      apply stor_bytes_words; [assumption|apply words_le_words|rewrite words_le_length; assumption].
Qed.

(** The outcome of writing bytes over a word array. *)
Lemma stor_bytes_result cx ps arr off l : bytes l -> words (bits ps) arr ->
  (off + length l <= length arr * ps)%nat ->
  exists arr', stor_bytes cx ps arr off l = Some arr' /\ length arr' = length arr /\ words (bits ps) arr' /\
    arr_bytes (cx_big cx) ps arr'
    = firstn off (arr_bytes (cx_big cx) ps arr) ++ l ++ skipn (off + length l) (arr_bytes (cx_big cx) ps arr).
Proof.
  intros Hb Hw Hl. unfold stor_bytes. rewrite wrs_some by (rewrite arr_bytes_length; assumption).
  cbn [bind]. eexists. split; [reflexivity|].
  set (B := firstn off _ ++ _).
  assert (HB : bytes B).
  { apply bytes_app. split; [apply bytes_firstn, arr_bytes_bytes|].
    apply bytes_app. split; [assumption|apply bytes_skipn, arr_bytes_bytes]. }
  assert (HL : length B = (length arr * ps)%nat).
  { unfold B. rewrite !app_length, firstn_length, skipn_length, arr_bytes_length. lia. }
  rewrite arr_of_bytes_length. split; [reflexivity|]. split; [apply arr_of_bytes_words; assumption|].
  apply arr_bytes_arr_of; assumption.
Qed.

Lemma stor_bytes_bytes cx arr off l : bytes l -> bytes arr -> (off + length l <= length arr)%nat ->
  stor_bytes cx 1 arr off l = wrs arr off l.
Proof.
  intros Hb Ha Hl. symmetry. rewrite (stor_bytes_words cx 1) by assumption.
  rewrite Nat.mul_1_r, arr_bytes_1 by assumption. reflexivity.
Qed.

Lemma mem_stor_be_spec cx vs ps arr off val :
  int_size vs -> int_size ps -> words (bits ps) arr -> val < 2 ^ bits vs ->
  (off * vs + vs <= length arr * ps)%nat ->
  mem_stor_be cx vs ps arr off val = stor_bytes cx ps arr (off * vs) (be_enc vs val).
Proof.
  intros Hv Hp Hw Hval Hl. unfold mem_stor_be.
  rewrite mem_stor_spec by (try assumption; apply bigof_lt; assumption).
  rewrite bigof_bytes by assumption. reflexivity.
Qed.
Lemma mem_stor_le_spec cx vs ps arr off val :
  int_size vs -> int_size ps -> words (bits ps) arr -> val < 2 ^ bits vs ->
  (off * vs + vs <= length arr * ps)%nat ->
  mem_stor_le cx vs ps arr off val = stor_bytes cx ps arr (off * vs) (le_enc vs val).
Proof.
  intros Hv Hp Hw Hval Hl. unfold mem_stor_le.
  rewrite mem_stor_spec by (try assumption; apply littleof_lt; assumption).
  rewrite littleof_bytes by assumption. reflexivity.
Qed.

(** Stores into byte arrays. *)
Lemma mem_stor_be_bytes cx vs arr off val :
  int_size vs -> bytes arr -> val < 2 ^ bits vs -> (off * vs + vs <= length arr)%nat ->
  mem_stor_be cx vs 1 arr off val = wrs arr (off * vs) (be_enc vs val).
Proof.
  intros Hv Hb Hval Hl. rewrite mem_stor_be_spec by (try assumption; (left; reflexivity) || lia).
  apply stor_bytes_bytes; [apply be_enc_bytes|assumption|rewrite be_enc_length; lia].
Qed.
Lemma mem_stor_le_bytes cx vs arr off val :
  int_size vs -> bytes arr -> val < 2 ^ bits vs -> (off * vs + vs <= length arr)%nat ->
  mem_stor_le cx vs 1 arr off val = wrs arr (off * vs) (le_enc vs val).
Proof.
  intros Hv Hb Hval Hl. rewrite mem_stor_le_spec by (try assumption; (left; reflexivity) || lia).
  apply stor_bytes_bytes; [apply le_enc_bytes|assumption|rewrite le_enc_length; lia].
Qed.

(** Sized stores into byte arrays write the first bytes only. *)
Lemma mem_stor_n_bytes cx vs arr off val n :
  int_size vs -> bytes arr -> (1 < vs)%nat -> val < 2 ^ bits vs -> (off * vs + Nat.min vs n <= length arr)%nat ->
  mem_stor_n cx vs 1 arr off val n
  = wrs arr (off * vs) (firstn (Nat.min vs n) (obj_bytes (cx_big cx) vs val)).
Proof.
  intros Hv Hb H1 Hval Hl. unfold mem_stor_n. cbv zeta. replace (1 * n)%nat with n by lia.
  assert (HB : bytes (firstn (Nat.min vs n) (obj_bytes (cx_big cx) vs val)))
    by (apply bytes_firstn, obj_bytes_bytes).
  assert (HL : length (firstn (Nat.min vs n) (obj_bytes (cx_big cx) vs val)) = Nat.min vs n)
    by (rewrite firstn_length, obj_bytes_length; lia).
  destruct (cx_ce cx) eqn:Ece.
  2:{ apply stor_bytes_bytes; [assumption|assumption|rewrite HL; lia]. }
  rewrite Nat.div_1_r, Nat.mod_1_r.
  destruct (Nat.eqb_spec n 0) as [->|Hn].
  { rewrite Nat.min_0_r. cbn [firstn]. unfold wrs. cbn [length]. rewrite Nat.add_0_r.
    destruct (Nat.leb_spec (off * vs) (length arr)); [|lia]. cbn [app]. rewrite firstn_skipn. reflexivity. }
  replace (vs =? 1)%nat with false by (symmetry; apply Nat.eqb_neq; lia).
  rewrite Nat.mod_1_r, Nat.div_1_r. cbn [Nat.ltb Nat.leb].
  rewrite (Nat.min_comm n vs). set (k := Nat.min vs n) in *.
  assert (Hk : (0 < k <= vs)%nat) by (unfold k; lia). clearbody k.
  unfold stor_order. destruct (cx_big cx) eqn:Eb; cbn [obj_bytes] in *.
  - rewrite stor_loop_be by lia. f_equal.
    rewrite <- (arr_bytes_1 true (rev (words_le _ _ _))) by (apply Forall_rev; exact (words_le_words 1 _ _)).
    rewrite words_le_be_bytes, Nat.mul_1_r. unfold be_enc. rewrite firstn_rev, le_enc_length. f_equal.
    rewrite skipn_le_enc by lia. replace (vs - (vs - k))%nat with k by lia. f_equal.
    rewrite N.shiftr_div_pow2, pow256. f_equal. f_equal. lia.
  - rewrite stor_loop_le by lia. rewrite Nat.add_0_r. f_equal.
    rewrite <- (arr_bytes_1 false (words_le _ _ _)) by exact (words_le_words 1 _ _).
    rewrite words_le_bytes, Nat.mul_1_r. symmetry. apply firstn_le_enc. lia.
Qed.

Lemma mem_stor_be_n_bytes cx vs arr off val n :
  int_size vs -> bytes arr -> (1 < vs)%nat -> val < 2 ^ bits vs -> (off * vs + Nat.min vs n <= length arr)%nat ->
  mem_stor_be_n cx vs 1 arr off val n = wrs arr (off * vs) (firstn (Nat.min vs n) (be_enc vs val)).
Proof.
  intros. unfold mem_stor_be_n. rewrite mem_stor_n_bytes by (try assumption; apply bigof_lt; assumption).
  rewrite bigof_bytes by assumption. reflexivity.
Qed.
Lemma mem_stor_le_n_bytes cx vs arr off val n :
  int_size vs -> bytes arr -> (1 < vs)%nat -> val < 2 ^ bits vs -> (off * vs + Nat.min vs n <= length arr)%nat ->
  mem_stor_le_n cx vs 1 arr off val n = wrs arr (off * vs) (firstn (Nat.min vs n) (le_enc vs val)).
Proof.
  intros. unfold mem_stor_le_n. rewrite mem_stor_n_bytes by (try assumption; apply littleof_lt; assumption).
  rewrite littleof_bytes by assumption. reflexivity.
Qed.
