(** The compression functions of the portable backend are those of FIPS 180-4. *)
From Verif Require Import Base BaseLemmas Spec_Bytes Model_Memory BytesLemmas Proof_Memory Proof_Memory2.
From Verif Require Import Model_Update Spec_Sha Model_Sha.
Local Open Scope N_scope.

(** *** Word operations *)
Lemma pow2_pos k : 0 < 2 ^ k.
Proof. apply N.neq_0_lt_0, N.pow_nonzero. lia. Qed.

Lemma wadd_add w x y : wadd w x y = add w x y.
Proof. reflexivity. Qed.

Lemma wadd_lt w x y : wadd w x y < 2 ^ w.
Proof. apply N.mod_lt, N.pow_nonzero. lia. Qed.

Lemma sum_spec w l : forall a, a < 2 ^ w -> fold_left (add w) l a = (a + fold_right N.add 0 l) mod 2 ^ w.
Proof.
  induction l as [|x l IH]; intros a Ha; cbn [fold_left fold_right].
  - rewrite N.add_0_r, N.mod_small by assumption. reflexivity.
  - rewrite IH by apply wadd_lt. unfold add. rewrite N.add_mod_idemp_l by (apply N.pow_nonzero; lia).
    f_equal. lia.
Qed.
Lemma sum_eq w l : sum w l = fold_right N.add 0 l mod 2 ^ w.
Proof. unfold sum. rewrite sum_spec by apply pow2_pos. reflexivity. Qed.

Lemma wadd_l w a b : wadd w (a mod 2 ^ w) b = wadd w a b.
Proof. unfold wadd. rewrite N.add_mod_idemp_l by (apply N.pow_nonzero; lia). reflexivity. Qed.
Lemma wadd2 w a b c : wadd w (wadd w a b) c = (a + b + c) mod 2 ^ w.
Proof. unfold wadd. rewrite N.add_mod_idemp_l by (apply N.pow_nonzero; lia). reflexivity. Qed.
Lemma wadd3 w a b c d : wadd w (wadd w (wadd w a b) c) d = (a + b + c + d) mod 2 ^ w.
Proof. unfold wadd at 1. rewrite wadd2. rewrite N.add_mod_idemp_l by (apply N.pow_nonzero; lia). reflexivity. Qed.
Lemma wadd4 w a b c d e : wadd w (wadd w (wadd w (wadd w a b) c) d) e = (a + b + c + d + e) mod 2 ^ w.
Proof. unfold wadd at 1. rewrite wadd3. rewrite N.add_mod_idemp_l by (apply N.pow_nonzero; lia). reflexivity. Qed.

Lemma rotr_ROTR w x n : x < 2 ^ w -> n <= w -> rotr w x n = ROTR w n x.
Proof.
  intros Hx Hn. unfold rotr, ROTR, wshl.
  assert (E : N.shiftl x (w - n) mod 2 ^ w = N.shiftl (x mod 2 ^ n) (w - n)).
  { rewrite !N.shiftl_mul_pow2. rewrite <- N.mul_mod_distr_r by (apply N.pow_nonzero; lia).
    rewrite <- N.pow_add_r. replace (n + (w - n)) with w by lia. reflexivity. }
  rewrite E, N.lor_comm, N.shiftr_div_pow2, lor_shiftl_add.
  - lia.
  - apply N.div_lt_upper_bound; [apply N.pow_nonzero; lia|]. rewrite <- N.pow_add_r.
    replace (n + (w - n)) with w by lia. assumption.
Qed.

Lemma rotl_rotr w x n : n <= w -> rotl w x n = rotr w x (w - n).
Proof. intros H. unfold rotl, rotr. replace (w - (w - n)) with n by lia. apply N.lor_comm. Qed.

Lemma rotl_ROTL w x n : x < 2 ^ w -> n <= w -> rotl w x n = ROTL w n x.
Proof. intros Hx Hn. rewrite rotl_rotr by assumption. apply rotr_ROTR; [assumption|lia]. Qed.

Lemma ROTR_lt w x n : x < 2 ^ w -> n <= w -> ROTR w n x < 2 ^ w.
Proof.
  intros Hx Hn. unfold ROTR.
  assert (H1 : x / 2 ^ n < 2 ^ (w - n)).
  { apply N.div_lt_upper_bound; [apply N.pow_nonzero; lia|]. rewrite <- N.pow_add_r.
    replace (n + (w - n)) with w by lia. assumption. }
  assert (H2 : x mod 2 ^ n < 2 ^ n) by (apply N.mod_lt, N.pow_nonzero; lia).
  assert (E : 2 ^ w = 2 ^ n * 2 ^ (w - n)) by (rewrite <- N.pow_add_r; f_equal; lia).
  rewrite E. nia.
Qed.
Lemma ROTL_lt w x n : x < 2 ^ w -> n <= w -> ROTL w n x < 2 ^ w.
Proof. intros. apply ROTR_lt; [assumption|lia]. Qed.

Lemma lxor_lt w x y : x < 2 ^ w -> y < 2 ^ w -> N.lxor x y < 2 ^ w.
Proof.
  intros Hx Hy. rewrite <- (N.mod_small x (2 ^ w)), <- (N.mod_small y (2 ^ w)) by assumption.
  rewrite <- !N.land_ones.
  replace (N.lxor (N.land x (N.ones w)) (N.land y (N.ones w))) with (N.land (N.lxor x y) (N.ones w)).
  - rewrite N.land_ones. apply N.mod_lt, N.pow_nonzero. lia.
  - apply N.bits_inj. intros i. rewrite N.lxor_spec, !N.land_spec, N.lxor_spec.
    destruct (N.testbit x i), (N.testbit y i), (N.testbit (N.ones w) i); reflexivity.
Qed.
Lemma land_lt w x y : x < 2 ^ w -> N.land x y < 2 ^ w.
Proof.
  intros Hx. rewrite <- (N.mod_small x (2 ^ w)) by assumption. rewrite <- N.land_ones.
  replace (N.land (N.land x (N.ones w)) y) with (N.land (N.land x y) (N.ones w)).
  - rewrite N.land_ones. apply N.mod_lt, N.pow_nonzero. lia.
  - apply N.bits_inj. intros i. rewrite !N.land_spec.
    destruct (N.testbit x i), (N.testbit y i), (N.testbit (N.ones w) i); reflexivity.
Qed.

Lemma compl_lxor w x : x < 2 ^ w -> compl w x = N.lxor x (N.ones w).
Proof.
  intros H. unfold compl. rewrite ones_eq.
  pose proof (N.sub_nocarry_ldiff (N.ones w) x) as E.
  rewrite E.
  - apply N.bits_inj. intros i. rewrite N.ldiff_spec, N.lxor_spec.
    destruct (N.lt_ge_cases i w) as [Hi|Hi].
    + rewrite N.ones_spec_low by assumption. destruct (N.testbit x i); reflexivity.
    + rewrite N.ones_spec_high by assumption. rewrite (testbit_small x w i) by assumption. reflexivity.
  - apply N.bits_inj. intros i. rewrite N.ldiff_spec, N.bits_0.
    destruct (N.lt_ge_cases i w) as [Hi|Hi].
    + rewrite N.ones_spec_low by assumption. apply andb_false_r.
    + rewrite (testbit_small x w i) by assumption. reflexivity.
Qed.

Lemma sw_ch_Ch w x y z : x < 2 ^ w -> z < 2 ^ w -> sw_ch x y z = Ch w x y z.
Proof.
  intros Hx Hz. unfold sw_ch, Ch. rewrite compl_lxor by assumption.
  apply N.bits_inj. intros i. rewrite !N.lxor_spec, !N.land_spec, !N.lxor_spec.
  destruct (N.lt_ge_cases i w) as [Hi|Hi].
  - rewrite N.ones_spec_low by assumption.
    destruct (N.testbit x i), (N.testbit y i), (N.testbit z i); reflexivity.
  - rewrite (testbit_small x w i), (testbit_small z w i) by assumption.
    destruct (N.testbit y i), (N.testbit (N.ones w) i); reflexivity.
Qed.
Lemma sw_maj_Maj x y z : sw_maj x y z = Maj x y z.
Proof.
  unfold sw_maj, Maj. apply N.bits_inj. intros i. rewrite !N.lxor_spec, !N.land_spec, !N.lxor_spec.
  destruct (N.testbit x i), (N.testbit y i), (N.testbit z i); reflexivity.
Qed.

(** *** Schedules: lists extended by a recurrence *)
Fixpoint ext (f : list N -> N) (n : nat) (w : list N) : list N :=
  match n with O => w | S n => ext f n (w ++ [f w]) end.

Lemma ext_length f n : forall w, length (ext f n w) = (length w + n)%nat.
Proof. induction n as [|n IH]; intros w; cbn [ext]; [lia|]. rewrite IH, app_length. cbn [length]. lia. Qed.

Lemma ext_prefix f n : forall w, exists t, ext f n w = w ++ t.
Proof.
  induction n as [|n IH]; intros w; cbn [ext]; [exists []; rewrite app_nil_r; reflexivity|].
  destruct (IH (w ++ [f w])) as (t & ->). exists (f w :: t). rewrite <- app_assoc. reflexivity.
Qed.

Lemma ext_firstn f n w : firstn (length w) (ext f n w) = w.
Proof. destruct (ext_prefix f n w) as (t & ->). rewrite firstn_app, firstn_all, Nat.sub_diag, firstn_O. apply app_nil_r. Qed.

Lemma ext_rec f n : forall w j, (length w <= j < length w + n)%nat ->
  nth j (ext f n w) 0 = f (firstn j (ext f n w)).
Proof.
  induction n as [|n IH]; intros w j H; [lia|]. cbn [ext].
  destruct (Nat.eq_dec j (length w)) as [->|Hj].
  - destruct (ext_prefix f n (w ++ [f w])) as (t & ->). rewrite <- app_assoc. cbn [app].
    rewrite nth_middle, firstn_app, firstn_all, Nat.sub_diag, firstn_O, app_nil_r. reflexivity.
  - apply IH. rewrite app_length. cbn [length]. lia.
Qed.

Lemma nth_firstn_lt {A} (d : A) (l : list A) i j : (i < j)%nat -> nth i (firstn j l) d = nth i l d.
Proof.
  revert i j. induction l as [|x l IH]; intros i j H; [rewrite firstn_nil; reflexivity|].
  destruct j as [|j]; [lia|]. destruct i as [|i]; [reflexivity|]. cbn [firstn nth]. apply IH. lia.
Qed.

Lemma ext_words w f n : (forall l, words w l -> is_word w (f l)) ->
  forall l, words w l -> words w (ext f n l).
Proof.
  intros Hf. induction n as [|n IH]; intros l Hl; [assumption|]. cbn [ext]. apply IH.
  apply Forall_app. split; [assumption|]. constructor; [apply Hf; assumption|constructor].
Qed.

Lemma nth_word w l i : words w l -> nth i l 0 < 2 ^ w.
Proof.
  intros H. destruct (nth_in_or_default i l 0) as [E|E].
  - unfold words in H. rewrite Forall_forall in H. apply H. assumption.
  - rewrite E. apply pow2_pos.
Qed.

Lemma rd_firstn (l : list N) j i : (i < j)%nat -> (i < length l)%nat -> rd (firstn j l) i = Some (nth i l 0).
Proof.
  intros H H'. unfold rd. rewrite <- (nth_firstn_lt 0 l i j) by assumption.
  apply nth_error_nth'. rewrite firstn_length. lia.
Qed.

Lemma put_firstn cap l j : (j < cap)%nat -> (j < length l)%nat ->
  put cap (firstn j l) j (nth j l 0) = Some (firstn (S j) l).
Proof.
  intros Hc Hl. unfold put. rewrite firstn_length, Nat.min_l, Nat.eqb_refl by lia.
  destruct (Nat.ltb_spec j cap); [|lia]. cbn [andb]. rewrite (firstn_S_nth 0 l) by assumption. reflexivity.
Qed.

Lemma be_words_length b k : forall l, length (be_words b k l) = k.
Proof. induction k as [|k IH]; intros l; cbn [be_words length]; [|rewrite IH]; reflexivity. Qed.

Lemma be_words_nth b k : forall l j, (j < k)%nat -> nth j (be_words b k l) 0 = be_dec (firstn b (skipn (j * b) l)).
Proof.
  induction k as [|k IH]; intros l j H; [lia|]. cbn [be_words]. destruct j as [|j]; [reflexivity|].
  cbn [nth]. rewrite IH by lia. rewrite skipn_skipn. f_equal. f_equal. f_equal. lia.
Qed.

Lemma be_words_words b k : forall l, bytes l -> words (bits b) (be_words b k l).
Proof.
  induction k as [|k IH]; intros l Hb; cbn [be_words]; constructor.
  - unfold is_word. rewrite pow256. eapply N.lt_le_trans; [apply be_dec_lt, bytes_firstn; assumption|].
    apply N.pow_le_mono_r; [lia|]. rewrite firstn_length. lia.
  - apply IH, bytes_skipn. assumption.
Qed.

Lemma load_be_word cx b k src j : int_size b -> bytes src -> (k * b <= length src)%nat -> (j < k)%nat ->
  mem_load_be cx b 1 src j = Some (nth j (be_words b k (firstn (k * b) src)) 0).
Proof.
  intros Hi Hb Hl Hj. pose proof (int_size_pos _ Hi) as Hp.
  assert (j * b + b <= k * b)%nat by nia.
  rewrite mem_load_be_bytes by (assumption || lia). f_equal.
  rewrite be_words_nth by assumption. f_equal.
  rewrite skipn_firstn_comm, firstn_firstn. f_equal. lia.
Qed.

(** foldM over a sequence with an invariant. *)
Lemma foldM_seq {A} (f : A -> nat -> option A) (g : nat -> A) : forall n i,
  (forall j, (i <= j < i + n)%nat -> f (g j) j = Some (g (S j))) ->
  foldM f (seq i n) (g i) = Some (g (i + n)%nat).
Proof.
  induction n as [|n IH]; intros i H; cbn [seq foldM].
  - rewrite Nat.add_0_r. reflexivity.
  - rewrite H by lia. cbn [bind]. rewrite IH; [f_equal; f_equal; lia|]. intros j Hj. apply H. lia.
Qed.

Lemma fold_left_seq_S {A} (f : A -> nat -> A) j a : fold_left f (seq 0 (S j)) a = f (fold_left f (seq 0 j) a) j.
Proof. rewrite seq_S, fold_left_app. reflexivity. Qed.

(** *** SHA-1 *)
Definition words5 (v : vars5) : Prop :=
  let '(a, b, c, d, e) := v in a < 2 ^ 32 /\ b < 2 ^ 32 /\ c < 2 ^ 32 /\ d < 2 ^ 32 /\ e < 2 ^ 32.

Definition sha1_next (w : list N) : N :=
  let W i := nth (length w - i) w 0 in
  ROTL 32 1 (N.lxor (N.lxor (N.lxor (W 3%nat) (W 8%nat)) (W 14%nat)) (W 16%nat)).

Lemma sha1_schedule_ext n : forall w, sha1_schedule n w = ext sha1_next n w.
Proof. induction n as [|n IH]; intros w; [reflexivity|]. cbn [sha1_schedule ext]. rewrite IH. reflexivity. Qed.

Lemma sha1_next_word l : words 32 l -> is_word 32 (sha1_next l).
Proof.
  intros H. unfold is_word, sha1_next. apply ROTL_lt; [|lia].
  repeat apply lxor_lt; apply nth_word; assumption.
Qed.

Lemma sha1_constants : map sha1_K [0; 20; 40; 60]%nat = sha1_k.
Proof. vm_compute. reflexivity. Qed.

Lemma sha1_K_seg t kidx : (kidx < 4)%nat -> (kidx * 20 <= t < kidx * 20 + 20)%nat ->
  rd sha1_k kidx = Some (sha1_K t).
Proof.
  intros Hk Ht. rewrite <- sha1_constants. unfold sha1_K.
  destruct kidx as [|[|[|[|kidx]]]]; [| | | |lia]; cbn [map rd nth_error]; do 2 f_equal.
  - destruct (Nat.ltb_spec t 20); [reflexivity|lia].
  - destruct (Nat.ltb_spec t 20); [lia|]. destruct (Nat.ltb_spec t 40); [reflexivity|lia].
  - destruct (Nat.ltb_spec t 20); [lia|]. destruct (Nat.ltb_spec t 40); [lia|].
    destruct (Nat.ltb_spec t 60); [reflexivity|lia].
  - destruct (Nat.ltb_spec t 20); [lia|]. destruct (Nat.ltb_spec t 40); [lia|].
    destruct (Nat.ltb_spec t 60); [lia|reflexivity].
Qed.

Lemma sha1_round_words W v t : words5 v -> words5 (sha1_round W v t).
Proof.
  destruct v as [[[[a b] c] d] e]. unfold sha1_round, words5. intros (Ha & Hb & Hc & Hd & He). repeat split; try assumption.
  - rewrite sum_eq. apply N.mod_lt, N.pow_nonzero. lia.
  - apply ROTL_lt; [assumption|lia].
Qed.

Lemma sha1_sw_round_spec W v t kidx fn :
  words5 v -> (kidx < 4)%nat -> (kidx * 20 <= t < kidx * 20 + 20)%nat -> (t < length W)%nat ->
  (forall x y z, x < 2 ^ 32 -> y < 2 ^ 32 -> z < 2 ^ 32 -> fn x y z = sha1_f t x y z) ->
  sha1_sw_round kidx fn (firstn (S t) W) v t = Some (sha1_round W v t).
Proof.
  destruct v as [[[[a b] c] d] e]. intros (Ha & Hb & Hc & Hd & He) Hk Ht HW Hf.
  unfold sha1_sw_round. rewrite (sha1_K_seg t kidx) by assumption. cbn [bind].
  rewrite rd_firstn by lia. cbn [bind]. f_equal. unfold sha1_round.
  rewrite Hf by assumption. rewrite rotl_ROTL by (assumption || lia). rewrite wadd4, sum_eq.
  cbn [fold_right]. rewrite rotr_ROTR by (assumption || lia).
  f_equal. f_equal. f_equal. f_equal. f_equal. lia.
Qed.

Lemma sha1_sw_block_spec cx v0 src : bytes src -> (64 <= length src)%nat -> words5 v0 ->
  let W := sha1_schedule 64 (be_words 4 16 (firstn 64 src)) in
  let '(ap, bp, cp, dp, ep) := v0 in
  let '(a, b, c, d, e) := fold_left (sha1_round W) (seq 0 80) v0 in
  sha1_sw_block cx v0 src
  = Some (add 32 a ap, add 32 b bp, add 32 c cp, add 32 d dp, add 32 e ep).
Proof.
  intros Hb Hl Hv. cbv zeta. set (M := be_words 4 16 (firstn 64 src)). rewrite sha1_schedule_ext.
  set (W := ext sha1_next 64 M).
  assert (LM : length M = 16%nat) by apply be_words_length.
  assert (LW : length W = 80%nat) by (unfold W; rewrite ext_length, LM; reflexivity).
  assert (WW : words 32 W).
  { apply ext_words; [apply sha1_next_word|]. apply (be_words_words 4). apply bytes_firstn. assumption. }
  assert (HM : forall j, (j < 16)%nat -> nth j M 0 = nth j W 0).
  { intros j Hj. unfold W. rewrite <- (ext_firstn sha1_next 64 M) at 1. apply nth_firstn_lt. lia. }
  assert (HR : forall j, (16 <= j < 80)%nat -> nth j W 0 = sha1_next (firstn j W)).
  { intros j Hj. apply ext_rec. lia. }
  clearbody W.
  set (V j := fold_left (sha1_round W) (seq 0 j) v0).
  assert (HV : forall j, words5 (V j)).
  { induction j as [|j IH]; [assumption|]. unfold V. rewrite fold_left_seq_S. apply sha1_round_words, IH. }
  assert (HS : forall j, V (S j) = sha1_round W (V j) j) by (intros j; unfold V; apply fold_left_seq_S).
  set (g j := (firstn j W, V j)).
  assert (Load : foldM (sha1_step_load cx src) (seq 0 16) (g 0%nat) = Some (g 16%nat)).
  { apply (foldM_seq (sha1_step_load cx src) g 16 0). intros j Hj. unfold g, sha1_step_load, sha1_schedule_00_15.
    rewrite (load_be_word cx 4 16) by (try assumption; try lia; unfold int_size; tauto). cbn [bind].
    change (16 * 4)%nat with 64%nat. fold M.
    rewrite HM, put_firstn by lia. cbn [bind].
    rewrite sha1_sw_round_spec; try lia; [|apply HV|].
    - cbn [bind]. rewrite HS. reflexivity.
    - intros x y z Hx Hy Hz. unfold sha1_f. destruct (Nat.ltb_spec j 20); [|lia]. apply sw_ch_Ch; assumption. }
  assert (Mix : forall i n kidx fn, (16 <= i)%nat -> (i + n <= 80)%nat -> (kidx < 4)%nat ->
     (kidx * 20 <= i)%nat -> (i + n <= kidx * 20 + 20)%nat ->
     (forall t x y z, (i <= t < i + n)%nat -> x < 2 ^ 32 -> y < 2 ^ 32 -> z < 2 ^ 32 -> fn x y z = sha1_f t x y z) ->
     foldM (sha1_step_mix kidx fn) (seq i n) (g i) = Some (g (i + n)%nat)).
  { intros i n kidx fn H1 H2 Hk H3 H4 Hf. apply (foldM_seq (sha1_step_mix kidx fn) g n i). intros j Hj.
    unfold g, sha1_step_mix, sha1_schedule_16_79.
    rewrite !rd_firstn by lia. cbn [bind].
    assert (E : rotl 32 (N.lxor (N.lxor (N.lxor (nth (j - 3) W 0) (nth (j - 8) W 0)) (nth (j - 14) W 0)) (nth (j - 16) W 0)) 1
                = nth j W 0).
    { rewrite rotl_ROTL; [|repeat apply lxor_lt; apply nth_word; assumption|lia].
      rewrite (HR j) by lia. unfold sha1_next.
      rewrite firstn_length, Nat.min_l by lia. rewrite !nth_firstn_lt by lia. reflexivity. }
    rewrite E, put_firstn by lia. cbn [bind].
    rewrite sha1_sw_round_spec; try lia; [|apply HV|].
    - cbn [bind]. rewrite HS. reflexivity.
    - intros x y z Hx Hy Hz. apply Hf; assumption || lia. }
  assert (E80 : fold_left (sha1_round W) (seq 0 80) v0 = V 80%nat) by reflexivity.
  rewrite E80. clear E80.
  assert (EB : foldM (sha1_step_load cx src) (seq 0 16) ([], v0) = Some (g 16%nat)) by exact Load.
  unfold sha1_sw_block. destruct v0 as [[[[ap bp] cp] dp] ep].
  rewrite EB. cbn [bind].
  rewrite (Mix 16%nat 4%nat 0%nat) by (first [lia | intros t x y z Ht Hx Hy Hz; unfold sha1_f;
    destruct (Nat.ltb_spec t 20); [apply sw_ch_Ch; assumption|lia]]). cbn [bind Nat.add].
  rewrite (Mix 20%nat 20%nat 1%nat) by (first [lia | intros t x y z Ht Hx Hy Hz; unfold sha1_f;
    destruct (Nat.ltb_spec t 20); [lia|]; destruct (Nat.ltb_spec t 40); [reflexivity|lia]]). cbn [bind Nat.add].
  rewrite (Mix 40%nat 20%nat 2%nat) by (first [lia | intros t x y z Ht Hx Hy Hz; unfold sha1_f;
    destruct (Nat.ltb_spec t 20); [lia|]; destruct (Nat.ltb_spec t 40); [lia|];
    destruct (Nat.ltb_spec t 60); [apply sw_maj_Maj|lia]]). cbn [bind Nat.add].
  rewrite (Mix 60%nat 20%nat 3%nat) by (first [lia | intros t x y z Ht Hx Hy Hz; unfold sha1_f;
    destruct (Nat.ltb_spec t 20); [lia|]; destruct (Nat.ltb_spec t 40); [lia|];
    destruct (Nat.ltb_spec t 60); [lia|reflexivity]]). cbn [bind Nat.add].
  change (60 + 20)%nat with 80%nat. unfold g.
  destruct (V 80%nat) as [[[[a b] c] d] e]. reflexivity.
Qed.

Definition list5 (v : vars5) : list N := let '(a, b, c, d, e) := v in [a; b; c; d; e].

Lemma sha1_block_compress cx v0 src : bytes src -> (64 <= length src)%nat -> words5 v0 ->
  exists v, sha1_sw_block cx v0 src = Some v /\ words5 v /\ list5 v = sha1_compress (list5 v0) (firstn 64 src).
Proof.
  intros Hb Hl Hv. pose proof (sha1_sw_block_spec cx v0 src Hb Hl Hv) as H. cbv zeta in H.
  unfold sha1_compress.
  destruct v0 as [[[[ap bp] cp] dp] ep]. cbn [list5 nth].
  destruct (fold_left _ (seq 0 80) _) as [[[[a b] c] d] e]. rewrite H.
  eexists. split; [reflexivity|]. split; [|reflexivity].
  repeat split; apply wadd_lt.
Qed.

Lemma sha1_loop_spec cx n : forall v0 src, bytes src -> (n * 64 <= length src)%nat -> words5 v0 ->
  exists v, sha1_sw_loop cx n v0 src = Some v /\ words5 v /\
    list5 v = iter_blocks 64 n sha1_compress (list5 v0) src.
Proof.
  induction n as [|n IH]; intros v0 src Hb Hl Hv; cbn [sha1_sw_loop iter_blocks].
  - exists v0. auto.
  - destruct (sha1_block_compress cx v0 src) as (v1 & -> & Hv1 & E1); [assumption|lia|assumption|].
    cbn [bind]. rewrite <- E1. apply IH; [apply bytes_skipn; assumption| |assumption].
    rewrite skipn_length. lia.
Qed.

Lemma sha1_blocks_spec cx n st src : bytes src -> (n * 64 <= length src)%nat -> length st = 5%nat -> words 32 st ->
  sha1_sw_blocks cx n st src = Some (iter_blocks 64 n sha1_compress st src).
Proof.
  intros Hb Hl Hs Hw.
  destruct st as [|a [|b [|c [|d [|e [|? ?]]]]]]; try discriminate Hs.
  unfold sha1_sw_blocks. cbn [rd nth_error bind].
  destruct (sha1_loop_spec cx n (a, b, c, d, e) src Hb Hl) as (v & E & Hv & EL).
  { unfold words, is_word in Hw. repeat (match goal with H : Forall _ (_ :: _) |- _ => inversion H; clear H; subst end).
    repeat split; assumption. }
  rewrite E. cbn [bind]. cbn [list5] in EL. rewrite <- EL.
  destruct v as [[[[a' b'] c'] d'] e']. reflexivity.
Qed.
