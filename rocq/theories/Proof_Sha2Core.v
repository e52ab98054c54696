(** SHA-2 compression, both word sizes. *)
From Verif Require Import Base BaseLemmas Spec_Bytes Model_Memory BytesLemmas Proof_Memory Proof_Memory2.
From Verif Require Import Model_Update Spec_Sha Model_Sha Proof_ShaCore.
Local Open Scope N_scope.

Definition rots_ok (w : N) (r : N * N * N) : Prop := let '(a, b, c) := r in a <= w /\ b <= w /\ c <= w.

(** The code's parameters are the standard's. *)
Record sha2_match (p : sha2) (q : sha2_sw) : Prop := {
  m_w : sw_w q = s2_w p;
  m_b : sw_b q = s2_b p;
  m_n : sw_n q = s2_rounds p;
  m_k : sw_k q = map (sha2_K p) (seq 0 (s2_rounds p));
  m_l0 : sw_lower0 q = s2_s0 p; m_l1 : sw_lower1 q = s2_s1 p;
  m_u0 : sw_upper0 q = s2_S0 p; m_u1 : sw_upper1 q = s2_S1 p;
  m_r0 : rots_ok (s2_w p) (s2_s0 p); m_r1 : rots_ok (s2_w p) (s2_s1 p);
  m_R0 : rots_ok (s2_w p) (s2_S0 p); m_R1 : rots_ok (s2_w p) (s2_S1 p);
  m_int : int_size (s2_b p); m_bits : bits (s2_b p) = s2_w p;
  m_rounds : (16 <= s2_rounds p)%nat
}.

Lemma match_256 : sha2_match sha2_32 sha_2_256_sw.
Proof.
  constructor; try (vm_compute; reflexivity).
  all: unfold rots_ok, int_size, sha2_32; cbn; lia.
Qed.
Lemma match_512 : sha2_match sha2_64 sha_2_512_sw.
Proof.
  constructor; try (vm_compute; reflexivity).
  all: unfold rots_ok, int_size, sha2_64; cbn; lia.
Qed.

Definition words8 (w : N) (v : vars8) : Prop :=
  let '(a, b, c, d, e, f, g, h) := v in
  a < 2 ^ w /\ b < 2 ^ w /\ c < 2 ^ w /\ d < 2 ^ w /\ e < 2 ^ w /\ f < 2 ^ w /\ g < 2 ^ w /\ h < 2 ^ w.
Definition list8 (v : vars8) : list N := let '(a, b, c, d, e, f, g, h) := v in [a; b; c; d; e; f; g; h].

Lemma upper_Sigma w r x : rots_ok w r -> x < 2 ^ w -> sw_sigma_upper w r x = Sigma w r x.
Proof.
  destruct r as [[a b] c]. intros (Ha & Hb & Hc) Hx. unfold sw_sigma_upper, Sigma.
  rewrite !rotr_ROTR by assumption. reflexivity.
Qed.
Lemma lower_sigma w r x : rots_ok w r -> x < 2 ^ w -> sw_sigma_lower w r x = sigma w r x.
Proof.
  destruct r as [[a b] c]. intros (Ha & Hb & Hc) Hx. unfold sw_sigma_lower, sigma.
  rewrite !rotr_ROTR by assumption. unfold SHR. rewrite N.shiftr_div_pow2. reflexivity.
Qed.

Definition sha2_next (p : sha2) (w : list N) : N :=
  let W i := nth (length w - i) w 0 in
  sum (s2_w p) [sigma (s2_w p) (s2_s1 p) (W 2%nat); W 7%nat; sigma (s2_w p) (s2_s0 p) (W 15%nat); W 16%nat].

Lemma sha2_schedule_ext p n : forall w, sha2_schedule p n w = ext (sha2_next p) n w.
Proof. induction n as [|n IH]; intros w; [reflexivity|]. cbn [sha2_schedule ext]. rewrite IH. reflexivity. Qed.

Lemma sha2_next_word p l : is_word (s2_w p) (sha2_next p l).
Proof. unfold is_word, sha2_next. rewrite sum_eq. apply N.mod_lt, N.pow_nonzero. lia. Qed.

Lemma sha2_round_words p W v t : words8 (s2_w p) v -> words8 (s2_w p) (sha2_round p W v t).
Proof.
  destruct v as [[[[[[[a b] c] d] e] f] g] h]. unfold sha2_round, words8.
  intros (Ha & Hb & Hc & Hd & He & Hf & Hg & Hh). repeat split; try assumption; apply wadd_lt.
Qed.

Lemma sha2_sw_round_spec p q W v t : sha2_match p q -> words8 (s2_w p) v ->
  (t < s2_rounds p)%nat -> (t < length W)%nat ->
  sha2_sw_round q (firstn (S t) W) v t = Some (sha2_round p W v t).
Proof.
  intros M Hv Ht HW. destruct v as [[[[[[[a b] c] d] e] f] g] h].
  destruct Hv as (Ha & Hb & Hc & Hd & He & Hf & Hg & Hh).
  unfold sha2_sw_round. rewrite (m_k _ _ M), (m_w _ _ M), (m_u0 _ _ M), (m_u1 _ _ M).
  assert (EK : rd (map (sha2_K p) (seq 0 (s2_rounds p))) t = Some (sha2_K p t)).
  { unfold rd. rewrite nth_error_map, nth_error_nth' with (d := 0%nat) by (rewrite seq_length; assumption).
    cbn [option_map]. rewrite seq_nth by assumption. reflexivity. }
  rewrite EK. cbn [bind]. rewrite rd_firstn by lia. cbn [bind]. f_equal. unfold sha2_round.
  rewrite !upper_Sigma by (assumption || apply M).
  rewrite (sw_ch_Ch (s2_w p)) by assumption. rewrite sw_maj_Maj.
  rewrite (wadd4 _ (Sigma (s2_w p) (s2_S1 p) e)).
  assert (ET : (Sigma (s2_w p) (s2_S1 p) e + Ch (s2_w p) e f g + h + sha2_K p t + nth t W 0) mod 2 ^ s2_w p
    = sum (s2_w p) [h; Sigma (s2_w p) (s2_S1 p) e; Ch (s2_w p) e f g; sha2_K p t; nth t W 0]).
  { rewrite sum_eq. cbn [fold_right]. f_equal. lia. }
  rewrite ET. reflexivity.
Qed.

Lemma sha2_sw_block_spec cx p q v0 src : sha2_match p q ->
  bytes src -> (16 * s2_b p <= length src)%nat -> words8 (s2_w p) v0 ->
  let W := sha2_schedule p (s2_rounds p - 16) (be_words (s2_b p) 16 (firstn (16 * s2_b p) src)) in
  let '(ap, bp, cp, dp, ep, fp, gp, hp) := v0 in
  let '(a, b, c, d, e, f, g, h) := fold_left (sha2_round p W) (seq 0 (s2_rounds p)) v0 in
  let w := s2_w p in
  sha2_sw_block cx q v0 src
  = Some (add w a ap, add w b bp, add w c cp, add w d dp, add w e ep, add w f fp, add w g gp, add w h hp).
Proof.
  intros M Hb Hl Hv. cbv zeta.
  set (M0 := be_words (s2_b p) 16 (firstn (16 * s2_b p) src)). rewrite sha2_schedule_ext.
  set (W := ext (sha2_next p) (s2_rounds p - 16) M0).
  pose proof (m_rounds _ _ M) as HR16.
  assert (LM : length M0 = 16%nat) by apply be_words_length.
  assert (LW : length W = s2_rounds p) by (unfold W; rewrite ext_length, LM; lia).
  assert (WW : words (s2_w p) W).
  { apply ext_words; [intros l _; apply sha2_next_word|]. rewrite <- (m_bits _ _ M).
    apply be_words_words, bytes_firstn. assumption. }
  assert (HM : forall j, (j < 16)%nat -> nth j M0 0 = nth j W 0).
  { intros j Hj. unfold W. rewrite <- (ext_firstn (sha2_next p) (s2_rounds p - 16) M0) at 1. apply nth_firstn_lt. lia. }
  assert (HR : forall j, (16 <= j < s2_rounds p)%nat -> nth j W 0 = sha2_next p (firstn j W)).
  { intros j Hj. apply ext_rec. lia. }
  clearbody W.
  set (V j := fold_left (sha2_round p W) (seq 0 j) v0).
  assert (HV : forall j, words8 (s2_w p) (V j)).
  { induction j as [|j IH]; [assumption|]. unfold V. rewrite fold_left_seq_S. apply sha2_round_words, IH. }
  assert (HS : forall j, V (S j) = sha2_round p W (V j) j) by (intros j; unfold V; apply fold_left_seq_S).
  set (g j := (firstn j W, V j)).
  assert (Load : foldM (sha2_step_load cx q src) (seq 0 16) (g 0%nat) = Some (g 16%nat)).
  { apply (foldM_seq (sha2_step_load cx q src) g 16 0). intros j Hj. unfold g, sha2_step_load, sha2_schedule_00_15.
    rewrite (m_b _ _ M), (m_n _ _ M).
    rewrite (load_be_word cx (s2_b p) 16) by (try assumption; try lia; apply (m_int _ _ M)). cbn [bind].
    fold M0. rewrite HM, put_firstn by lia. cbn [bind].
    rewrite (sha2_sw_round_spec p); try lia; [|assumption|apply HV].
    cbn [bind]. rewrite HS. reflexivity. }
  assert (Mix : foldM (sha2_step_mix q) (seq 16 (s2_rounds p - 16)) (g 16%nat) = Some (g (16 + (s2_rounds p - 16))%nat)).
  { apply (foldM_seq (sha2_step_mix q) g _ 16). intros j Hj.
    unfold g, sha2_step_mix, sha2_schedule_16.
    rewrite !rd_firstn by lia. cbn [bind].
    rewrite (m_n _ _ M), (m_w _ _ M), (m_l0 _ _ M), (m_l1 _ _ M).
    rewrite !lower_sigma by (apply M || apply nth_word; assumption).
    rewrite wadd3.
    assert (E : (nth (j - 7) W 0 + nth (j - 16) W 0 + sigma (s2_w p) (s2_s1 p) (nth (j - 2) W 0)
                 + sigma (s2_w p) (s2_s0 p) (nth (j - 15) W 0)) mod 2 ^ s2_w p = nth j W 0).
    { rewrite (HR j) by lia. unfold sha2_next. rewrite sum_eq. cbn [fold_right].
      rewrite firstn_length, Nat.min_l by lia. rewrite !nth_firstn_lt by lia. f_equal. lia. }
    rewrite E, put_firstn by lia. cbn [bind].
    rewrite (sha2_sw_round_spec p); try lia; [|assumption|apply HV].
    cbn [bind]. rewrite HS. reflexivity. }
  replace (16 + (s2_rounds p - 16))%nat with (s2_rounds p) in Mix by lia.
  fold (V (s2_rounds p)).
  assert (EB : foldM (sha2_step_load cx q src) (seq 0 16) ([], v0) = Some (g 16%nat)) by exact Load.
  unfold sha2_sw_block. destruct v0 as [[[[[[[ap bp] cp] dp] ep] fp] gp] hp].
  rewrite EB. cbn [bind]. rewrite (m_n _ _ M), Mix, (m_w _ _ M). cbn [bind]. unfold g.
  destruct (V (s2_rounds p)) as [[[[[[[a b] c] d] e] f] g'] h]. reflexivity.
Qed.

Lemma sha2_block_compress cx p q v0 src : sha2_match p q ->
  bytes src -> (16 * s2_b p <= length src)%nat -> words8 (s2_w p) v0 ->
  exists v, sha2_sw_block cx q v0 src = Some v /\ words8 (s2_w p) v /\
    list8 v = sha2_compress p (list8 v0) (firstn (16 * s2_b p) src).
Proof.
  intros M Hb Hl Hv. pose proof (sha2_sw_block_spec cx p q v0 src M Hb Hl Hv) as H. cbv zeta in H.
  unfold sha2_compress.
  destruct v0 as [[[[[[[ap bp] cp] dp] ep] fp] gp] hp]. cbn [list8 nth].
  destruct (fold_left _ (seq 0 (s2_rounds p)) _) as [[[[[[[a b] c] d] e] f] g] h]. rewrite H.
  eexists. split; [reflexivity|]. split; [|reflexivity].
  repeat split; apply wadd_lt.
Qed.

Lemma sha2_loop_spec cx p q n : sha2_match p q -> forall v0 src, bytes src ->
  (n * (16 * s2_b p) <= length src)%nat -> words8 (s2_w p) v0 ->
  exists v, sha2_sw_loop cx q n v0 src = Some v /\ words8 (s2_w p) v /\
    list8 v = iter_blocks (16 * s2_b p) n (sha2_compress p) (list8 v0) src.
Proof.
  intros M. induction n as [|n IH]; intros v0 src Hb Hl Hv; cbn [sha2_sw_loop iter_blocks].
  - exists v0. auto.
  - destruct (sha2_block_compress cx p q v0 src) as (v1 & -> & Hv1 & E1); [assumption|assumption|lia|assumption|].
    rewrite bind_some. rewrite <- E1, (m_b _ _ M). apply IH; [apply bytes_skipn; assumption| |assumption].
    rewrite skipn_length. lia.
Qed.

Lemma sha2_blocks_spec cx p q n st src : sha2_match p q -> bytes src -> (n * (16 * s2_b p) <= length src)%nat ->
  length st = 8%nat -> words (s2_w p) st ->
  sha2_sw_blocks cx q n st src = Some (iter_blocks (16 * s2_b p) n (sha2_compress p) st src).
Proof.
  intros M Hb Hl Hs Hw.
  destruct st as [|a [|b [|c [|d [|e [|f [|g [|h [|? ?]]]]]]]]]; try discriminate Hs.
  unfold sha2_sw_blocks. cbn [rd nth_error bind].
  destruct (sha2_loop_spec cx p q n M (a, b, c, d, e, f, g, h) src Hb Hl) as (v & E & Hv & EL).
  { unfold words, is_word in Hw. repeat (match goal with H : Forall _ (_ :: _) |- _ => inversion H; clear H; subst end).
    repeat split; assumption. }
  rewrite E. cbn [bind]. cbn [list8] in EL. rewrite <- EL.
  destruct v as [[[[[[[a' b'] c'] d'] e'] f'] g'] h']. reflexivity.
Qed.
