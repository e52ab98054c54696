(** ChaCha20: the portable block function and the portable backend. *)
From Verif Require Import Base BaseLemmas BytesLemmas Spec_Bytes Spec_ChaCha Model_Memory Model_Update Model_Container
  Model_Hmac Model_Cipher Spec_Cipher Proof_Memory Proof_Memory2 Proof_Memory3 Spec_Sha Proof_ShaCore Proof_Hmac Proof_Range.
Local Open Scope N_scope.

(** *** Word operations *)
Lemma wadd_add32 x y : wadd 32 x y = add32 x y.
Proof. reflexivity. Qed.
Lemma rotl_rol32 x n : x < 2 ^ 32 -> n <= 32 -> rotl 32 x n = rol32 n x.
Proof.
  intros Hx Hn. unfold rotl, rol32, wshl. rewrite N.shiftl_mul_pow2, N.shiftr_div_pow2.
  replace (x * 2 ^ n mod 2 ^ 32) with (N.shiftl (x mod 2 ^ (32 - n)) n).
  - rewrite lor_shiftl_add, N.shiftl_mul_pow2; [reflexivity|].
    apply N.div_lt_upper_bound; [apply N.pow_nonzero; lia|]. rewrite <- N.pow_add_r. replace (32 - n + n) with 32 by lia. exact Hx.
  - rewrite N.shiftl_mul_pow2. replace (2 ^ 32) with (2 ^ (32 - n) * 2 ^ n) by (rewrite <- N.pow_add_r; f_equal; lia).
    rewrite N.mul_mod_distr_r by (apply N.pow_nonzero; lia). reflexivity.
Qed.
Lemma add32_lt x y : add32 x y < 2 ^ 32.
Proof. apply N.mod_lt. discriminate. Qed.
Lemma lxor_lt32 x y : x < 2 ^ 32 -> y < 2 ^ 32 -> N.lxor x y < 2 ^ 32.
Proof. apply lxor_lt. Qed.
Lemma rol32_lt n x : x < 2 ^ 32 -> n <= 32 -> rol32 n x < 2 ^ 32.
Proof.
  intros Hx Hn. rewrite <- rotl_rol32 by assumption. unfold rotl.
  assert (A : wshl 32 x n < 2 ^ 32) by (apply N.mod_lt; discriminate).
  assert (B : N.shiftr x (32 - n) < 2 ^ 32).
  { rewrite N.shiftr_div_pow2. apply N.div_lt_upper_bound; [apply N.pow_nonzero; lia|].
    assert (0 < 2 ^ (32 - n)) by (apply N.neq_0_lt_0, N.pow_nonzero; lia). nia. }
  rewrite <- (N.mod_small _ _ A), <- (N.mod_small _ _ B), <- !N.land_ones, <- N.land_lor_distr_l, N.land_ones.
  apply N.mod_lt. discriminate.
Qed.

Definition word32 (x : N) : Prop := x < 2 ^ 32.
Lemma quarter_words a b c d : word32 a -> word32 b -> word32 c -> word32 d ->
  let '(a, b, c, d) := quarter a b c d in word32 a /\ word32 b /\ word32 c /\ word32 d.
Proof.
  unfold word32, quarter. intros. repeat split;
  repeat (apply add32_lt || (apply rol32_lt; [|lia]) || apply lxor_lt32 || assumption).
Qed.

(** *** The state as a list of 16 words *)
Lemma upd_put (s : list N) i v : upd s i v = put s i [v].
Proof. unfold upd, put. cbn [length app]. rewrite Nat.add_1_r. reflexivity. Qed.
Lemma nth_upd s i v j : (i < length s)%nat -> nth j (upd s i v) 0 = if (i =? j)%nat then v else nth j s 0.
Proof.
  intros H. rewrite upd_put, nth_put by (cbn; lia). cbn [length].
  destruct (Nat.eqb_spec i j) as [->|].
  - destruct (Nat.leb_spec j j); destruct (Nat.ltb_spec j (j + 1)); cbn [andb]; try lia. rewrite Nat.sub_diag. reflexivity.
  - destruct (Nat.leb_spec i j); destruct (Nat.ltb_spec j (i + 1)); cbn [andb]; try lia; reflexivity.
Qed.
Lemma upd_length (s : list N) i v : (i < length s)%nat -> length (upd s i v) = length s.
Proof. intros H. rewrite upd_put. apply put_length. cbn. lia. Qed.
Lemma upd_words (s : list N) i v : words 32 s -> word32 v -> words 32 (upd s i v).
Proof.
  intros Hs Hv. unfold upd. apply Forall_app. split; [|constructor; [exact Hv|]].
  - apply Forall_forall. intros x Hx. apply (proj1 (Forall_forall _ _) Hs). rewrite <- (firstn_skipn i s). apply in_or_app. left. exact Hx.
  - apply Forall_forall. intros x Hx. apply (proj1 (Forall_forall _ _) Hs). rewrite <- (firstn_skipn (S i) s). apply in_or_app. right. exact Hx.
Qed.
Lemma wr_upd (s : list N) i v : (i < length s)%nat -> wr s i v = Some (upd s i v).
Proof. intros H. rewrite upd_put. apply wr_put. exact H. Qed.
Lemma nth_words (s : list N) i : words 32 s -> word32 (nth i s 0).
Proof.
  intros H. unfold word32. destruct (Nat.lt_ge_cases i (length s)) as [L|L].
  - apply (proj1 (Forall_forall _ _) H). apply nth_In, L.
  - rewrite nth_overflow by lia. reflexivity.
Qed.

Lemma qround_ok i j k l s : length s = 16%nat -> words 32 s ->
  (i < 16 -> j < 16 -> k < 16 -> l < 16 -> length (qround i j k l s) = 16)%nat /\ words 32 (qround i j k l s).
Proof.
  intros L W. unfold qround.
  pose proof (quarter_words _ _ _ _ (nth_words s i W) (nth_words s j W) (nth_words s k W) (nth_words s l W)) as Q.
  destruct (quarter _ _ _ _) as [[[a b] c] d]. destruct Q as (Qa & Qb & Qc & Qd). split.
  - intros. repeat (rewrite upd_length; [|rewrite ?upd_length; lia || (repeat rewrite upd_length; lia)]). exact L.
  - repeat (apply upd_words; [|assumption]). exact W.
Qed.


Definition mquarter (a b c d : N) : N * N * N * N :=
  let a := wadd 32 a b in let d := rotl 32 (N.lxor d a) 16 in
  let c := wadd 32 c d in let b := rotl 32 (N.lxor b c) 12 in
  let a := wadd 32 a b in let d := rotl 32 (N.lxor d a) 8 in
  let c := wadd 32 c d in let b := rotl 32 (N.lxor b c) 7 in
  (a, b, c, d).
Lemma mquarter_spec a b c d : word32 a -> word32 b -> word32 c -> word32 d -> mquarter a b c d = quarter a b c d.
Proof.
  unfold word32. intros. unfold mquarter, quarter. cbv zeta. rewrite !wadd_add32.
  repeat (rewrite rotl_rol32; [|repeat (apply add32_lt || (apply rol32_lt; [|lia]) || apply lxor_lt32 || assumption)|lia]).
  reflexivity.
Qed.

(** The four words a round works on, and where they go. *)
Lemma list16 (s : list N) : length s = 16%nat -> exists a b c d e f g h i j k l m n o p,
  s = [a; b; c; d; e; f; g; h; i; j; k; l; m; n; o; p].
Proof.
  intros H. do 16 (destruct s as [|? s]; [discriminate H|]). destruct s; [|discriminate H]. do 16 eexists. reflexivity.
Qed.

Ltac cc_round_tac L W :=
  let Q := fresh in
  pose proof (list16 _ L) as (a & b & c & d & e & f & g & h & i & j & k & l & m & n & o & p & ->);
  unfold qround; rewrite <- mquarter_spec by (apply nth_words; exact W); reflexivity.

Lemma cc_double_spec s : length s = 16%nat -> words 32 s ->
  cc_double s = Some (inner_block s) /\ length (inner_block s) = 16%nat /\ words 32 (inner_block s).
Proof.
  intros L W. unfold cc_double, inner_block.
  assert (K0 : forall s, length s = 16%nat -> words 32 s -> cc_round 0 4 8 12 s = Some (qround 0 4 8 12 s)) by (clear; intros s L W; cc_round_tac L W).
  assert (K1 : forall s, length s = 16%nat -> words 32 s -> cc_round 1 5 9 13 s = Some (qround 1 5 9 13 s)) by (clear; intros s L W; cc_round_tac L W).
  assert (K2 : forall s, length s = 16%nat -> words 32 s -> cc_round 2 6 10 14 s = Some (qround 2 6 10 14 s)) by (clear; intros s L W; cc_round_tac L W).
  assert (K3 : forall s, length s = 16%nat -> words 32 s -> cc_round 3 7 11 15 s = Some (qround 3 7 11 15 s)) by (clear; intros s L W; cc_round_tac L W).
  assert (K4 : forall s, length s = 16%nat -> words 32 s -> cc_round 0 5 10 15 s = Some (qround 0 5 10 15 s)) by (clear; intros s L W; cc_round_tac L W).
  assert (K5 : forall s, length s = 16%nat -> words 32 s -> cc_round 1 6 11 12 s = Some (qround 1 6 11 12 s)) by (clear; intros s L W; cc_round_tac L W).
  assert (K6 : forall s, length s = 16%nat -> words 32 s -> cc_round 2 7 8 13 s = Some (qround 2 7 8 13 s)) by (clear; intros s L W; cc_round_tac L W).
  assert (K7 : forall s, length s = 16%nat -> words 32 s -> cc_round 3 4 9 14 s = Some (qround 3 4 9 14 s)) by (clear; intros s L W; cc_round_tac L W).
  assert (Q : forall i j k l s, length s = 16%nat -> words 32 s -> (i < 16)%nat -> (j < 16)%nat -> (k < 16)%nat -> (l < 16)%nat ->
    length (qround i j k l s) = 16%nat /\ words 32 (qround i j k l s)).
  { intros i j k l t Lt Wt Hi Hj Hk Hl. destruct (qround_ok i j k l t Lt Wt) as [E1 E2]. split; [apply E1; assumption|exact E2]. }
  Local Ltac nxt K L W Q := rewrite K by assumption; cbn [bind]; cbv zeta;
    match goal with |- context [qround ?i ?j ?k ?l ?s] =>
      let L' := fresh "L" in let W' := fresh "W" in
      destruct (Q i j k l s L W) as [L' W']; [lia|lia|lia|lia|];
      let t := fresh "t" in set (t := qround i j k l s) in *; clearbody t; clear L W; rename L' into L; rename W' into W end.
  nxt K0 L W Q. nxt K1 L W Q. nxt K2 L W Q. nxt K3 L W Q. nxt K4 L W Q. nxt K5 L W Q. nxt K6 L W Q.
  rewrite K7 by assumption. split; [reflexivity|]. apply Q; assumption || lia.
Qed.

Lemma iter_shift {A} (f : A -> A) n x : Nat.iter (S n) f x = Nat.iter n f (f x).
Proof. induction n as [|n IH]; [reflexivity|]. cbn [Nat.iter nat_rect] in *. rewrite IH. reflexivity. Qed.
Lemma cc_rounds_spec n : forall s, length s = 16%nat -> words 32 s ->
  cc_rounds n s = Some (Nat.iter n inner_block s) /\ length (Nat.iter n inner_block s) = 16%nat
  /\ words 32 (Nat.iter n inner_block s).
Proof.
  induction n as [|n IH]; intros s L W; [cbn; auto|].
  destruct (cc_double_spec s L W) as (E & L' & W'). cbn [cc_rounds]. rewrite E. cbn [bind].
  rewrite iter_shift. apply IH; assumption.
Qed.

Lemma add_words_length a : forall b, length a = length b -> length (add_words a b) = length a.
Proof. induction a as [|x a IH]; intros [|y b] H; try discriminate; [reflexivity|]. cbn in *. rewrite IH by lia. reflexivity. Qed.
Lemma add_words_words a : forall b, words 32 (add_words a b).
Proof. induction a as [|x a IH]; intros [|y b]; try constructor; [apply add32_lt|apply IH]. Qed.

Lemma cc_add_spec : forall n pre ev base bpre, length ev = n -> length base = n -> length bpre = length pre ->
  cc_add (pre ++ ev) (bpre ++ base) (length pre) n = Some (pre ++ add_words base ev).
Proof.
  induction n as [|n IH]; intros pre ev base bpre He Hb Hp.
  - destruct ev; [|discriminate]. destruct base; [|discriminate]. reflexivity.
  - destruct ev as [|x ev]; [discriminate|]. destruct base as [|y base]; [discriminate|].
    cbn [cc_add add_words]. rewrite rd_app by reflexivity. cbn [bind]. rewrite rd_app by lia. cbn [bind].
    rewrite wr_app by reflexivity. cbn [bind].
    replace (pre ++ wadd 32 x y :: ev) with ((pre ++ [wadd 32 x y]) ++ ev) by (rewrite <- app_assoc; reflexivity).
    replace (bpre ++ y :: base) with ((bpre ++ [y]) ++ base) by (rewrite <- app_assoc; reflexivity).
    replace (S (length pre)) with (length (pre ++ [wadd 32 x y])) by (rewrite app_length; cbn; lia).
    rewrite IH; [|cbn in *; lia|cbn in *; lia|rewrite !app_length; cbn; lia].
    rewrite <- app_assoc. cbn [app]. unfold wadd, add32. rewrite (N.add_comm y x). reflexivity.
Qed.

(** Words and bytes of a serialized state. *)
Lemma serialize_length s : length (serialize s) = (4 * length s)%nat.
Proof. unfold serialize. induction s as [|x s IH]; [reflexivity|]. cbn [flat_map]. rewrite app_length, IH, le_enc_length. cbn [length]. lia. Qed.
Lemma serialize_bytes s : bytes (serialize s).
Proof. unfold serialize. induction s as [|x s IH]; [constructor|]. cbn [flat_map]. apply bytes_app. split; [apply le_enc_bytes|exact IH]. Qed.

(** *** Key stream of a state *)
Lemma at_ctr_ok st i : length st = 16%nat -> words 32 st -> length (at_ctr st i) = 16%nat /\ words 32 (at_ctr st i).
Proof.
  intros L W. unfold at_ctr. split; [rewrite upd_length; lia|]. apply upd_words; [exact W|]. apply N.mod_lt. discriminate.
Qed.
Lemma upd_upd (s : list N) i v w : (i < length s)%nat -> upd (upd s i v) i w = upd s i w.
Proof.
  intros H. apply (nth_ext _ _ 0 0).
  - repeat rewrite upd_length; rewrite ?upd_length; lia.
  - intros j _. repeat rewrite nth_upd by (rewrite ?upd_length; lia). destruct (Nat.eqb_spec i j); reflexivity.
Qed.
Lemma at_ctr_at_ctr st i j : length st = 16%nat -> at_ctr (at_ctr st i) j = at_ctr st (i + j).
Proof.
  intros L. unfold at_ctr. rewrite nth_upd by lia. rewrite Nat.eqb_refl. rewrite upd_upd by lia. f_equal.
  rewrite N.add_mod_idemp_l by discriminate. f_equal. lia.
Qed.
Lemma at_ctr_0 st : length st = 16%nat -> words 32 st -> at_ctr st 0 = st.
Proof.
  intros L W. unfold at_ctr. rewrite N.add_0_r, N.mod_small by (apply nth_words, W).
  apply (nth_ext _ _ 0 0); [apply upd_length; lia|]. intros j _. rewrite nth_upd by lia.
  destruct (Nat.eqb_spec 12 j) as [<-|]; reflexivity.
Qed.
Lemma st_byte_shift st k j : length st = 16%nat -> st_byte (at_ctr st (N.of_nat k)) j = st_byte st (64 * k + j).
Proof.
  intros L. unfold st_byte. rewrite at_ctr_at_ctr by assumption.
  rewrite (Nat.add_comm (64 * k)), (Nat.mul_comm 64 k), Nat.mod_add, Nat.div_add by discriminate.
  rewrite <- Nat2N.inj_add. do 4 f_equal. lia.
Qed.

Lemma core_block_length st : length st = 16%nat -> words 32 st -> length (core_block st) = 64%nat.
Proof.
  intros L W. unfold core_block. rewrite serialize_length, add_words_length; [lia|].
  rewrite (proj1 (proj2 (cc_rounds_spec 10 st L W))). exact L.
Qed.
Lemma core_block_bytes st : bytes (core_block st).
Proof. apply serialize_bytes. Qed.
Lemma st_byte_byte st j : st_byte st j < 256.
Proof.
  unfold st_byte. destruct (Nat.lt_ge_cases (j mod 64) (length (core_block (at_ctr st (N.of_nat (j / 64)))))) as [H|H].
  - exact (proj1 (Forall_forall _ _) (core_block_bytes (at_ctr st (N.of_nat (j / 64)))) _ (nth_In _ _ H)).
  - rewrite nth_overflow by exact H. reflexivity.
Qed.

(** *** Xor with a stream *)
Lemma xor_with_length f : forall t p, length (xor_with f p t) = length t.
Proof. induction t as [|x t IH]; intros p; [reflexivity|]. cbn. rewrite IH. reflexivity. Qed.
Lemma xor_with_ext f g : forall t p q, (forall i, (i < length t)%nat -> f (p + i)%nat = g (q + i)%nat) ->
  xor_with f p t = xor_with g q t.
Proof.
  induction t as [|x t IH]; intros p q H; [reflexivity|]. cbn [xor_with].
  rewrite <- (Nat.add_0_r p) at 1. rewrite (H 0%nat) by (cbn; lia). rewrite Nat.add_0_r. f_equal.
  apply IH. intros i Hi. replace (S p + i)%nat with (p + S i)%nat by lia. rewrite H by (cbn; lia). f_equal. lia.
Qed.
Lemma xor_with_app f : forall a b p, xor_with f p (a ++ b) = xor_with f p a ++ xor_with f (p + length a) b.
Proof.
  induction a as [|x a IH]; intros b p; [cbn; rewrite Nat.add_0_r; reflexivity|].
  cbn [app xor_with length]. rewrite IH. do 3 f_equal. lia.
Qed.
Lemma xor_with_bytes f : (forall j, f j < 256) -> forall t p, bytes t -> bytes (xor_with f p t).
Proof.
  intros Hf. induction t as [|x t IH]; intros p H; [constructor|]. inversion H. cbn. constructor; [|apply IH; assumption].
  unfold is_byte. apply (lxor_lt 8); [assumption|apply Hf].
Qed.
Lemma nth_xor_with f : forall t p i, (i < length t)%nat -> nth i (xor_with f p t) 0 = N.lxor (nth i t 0) (f (p + i)%nat).
Proof.
  induction t as [|x t IH]; intros p i H; [inversion H|]. destruct i as [|i]; cbn [xor_with nth].
  - rewrite Nat.add_0_r. reflexivity.
  - cbn [length] in H. rewrite IH by lia. do 2 f_equal. lia.
Qed.
Lemma xor_with_twice f : forall t p, xor_with f p (xor_with f p t) = t.
Proof.
  induction t as [|x t IH]; intros p; [reflexivity|]. cbn. rewrite IH, N.lxor_assoc, N.lxor_nilpotent, N.lxor_0_r. reflexivity.
Qed.

(** memory_xor on the flat memory. *)
Lemma mxor_loop_shift d s key k : forall n m i, mxor_loop m d s key k i n = mxor_loop m (d + i) (s + i) key (k + i) 0 n.
Proof.
  induction n as [|n IH]; intros m i; [reflexivity|]. cbn [mxor_loop]. rewrite !Nat.add_0_r.
  destruct (rd m (s + i)%nat) as [x|]; [cbn [bind]|reflexivity].
  destruct (rd key (k + i)%nat) as [y|]; [cbn [bind]|reflexivity].
  destruct (wr m (d + i)%nat (N.lxor x y)) as [m'|]; [cbn [bind]|reflexivity].
  rewrite (IH m' (S i)).
  assert (E : forall d s k, mxor_loop m' d s key k 1 n = mxor_loop m' (S d) (S s) key (S k) 0 n).
  { intros d' s' k'. clear -n. revert m' d' s' k'. generalize 0%nat as j.
    induction n as [|n IH]; intros j m' d' s' k'; [reflexivity|]. cbn [mxor_loop].
    replace (S s' + j)%nat with (s' + S j)%nat by lia. replace (S k' + j)%nat with (k' + S j)%nat by lia.
    replace (S d' + j)%nat with (d' + S j)%nat by lia.
    destruct (rd m' _) as [x|]; [cbn [bind]|reflexivity]. destruct (rd key _) as [y|]; [cbn [bind]|reflexivity].
    destruct (wr m' _ _) as [m''|]; [cbn [bind]|reflexivity]. apply IH. }
  rewrite E. f_equal; lia.
Qed.

Lemma slice_S {A} (x : A) (m : list A) s n : (s < length m)%nat -> slice m s (S n) = nth s m x :: slice m (S s) n.
Proof.
  intros H. unfold slice. rewrite (skipn_nth x m s H). reflexivity.
Qed.

(** Bytes that are read and written one after the other, upwards: a destination before the source may overlap it. *)
Definition movable (d s n : nat) : Prop := (d <= s \/ s + n <= d)%nat.
Lemma apart_movable d s n : apart d s n -> movable d s n.
Proof. unfold apart, movable. lia. Qed.

Lemma mxor_loop_mv key : forall n m d s k, (d + n <= length m)%nat -> (s + n <= length m)%nat ->
  (k + n <= length key)%nat -> movable d s n ->
  mxor_loop m d s key k 0 n = Some (put m d (xor_with (fun j => nth j key 0) k (slice m s n))).
Proof.
  induction n as [|n IH]; intros m d s k Hd Hs Hk Ha.
  - cbn [mxor_loop]. unfold slice. rewrite firstn_O. cbn [xor_with]. rewrite put_nil. reflexivity.
  - cbn [mxor_loop]. rewrite !Nat.add_0_r. rewrite (rd_nth m s 0) by lia. cbn [bind].
    rewrite (rd_nth key k 0) by lia. cbn [bind]. rewrite wr_put by lia. cbn [bind].
    rewrite mxor_loop_shift. rewrite !Nat.add_1_r.
    rewrite IH; [|rewrite put_length; cbn; lia|rewrite put_length; cbn; lia|lia|unfold movable in *; lia].
    f_equal. rewrite put_put; [|cbn; lia|].
    2:{ cbn. rewrite xor_with_length, slice_length by (rewrite put_length; cbn; lia). lia. }
    rewrite slice_put_other by (cbn; unfold movable in *; lia).
    rewrite (slice_S 0) by lia. reflexivity.
Qed.
Lemma mxor_loop_spec key n m d s k : (d + n <= length m)%nat -> (s + n <= length m)%nat ->
  (k + n <= length key)%nat -> apart d s n ->
  mxor_loop m d s key k 0 n = Some (put m d (xor_with (fun j => nth j key 0) k (slice m s n))).
Proof. intros. apply mxor_loop_mv; try assumption. apply apart_movable. assumption.
Qed.

(** *** Output of a block *)
Lemma lxor_mod x y k : N.lxor x y mod 2 ^ k = N.lxor (x mod 2 ^ k) (y mod 2 ^ k).
Proof. rewrite <- !N.land_ones. apply N.bits_inj. intros i. rewrite !N.lxor_spec, !N.land_spec, N.lxor_spec. destruct (N.testbit x i), (N.testbit y i), (N.testbit (N.ones k) i); reflexivity. Qed.
Lemma lxor_div x y k : N.lxor x y / 2 ^ k = N.lxor (x / 2 ^ k) (y / 2 ^ k).
Proof. rewrite <- !N.shiftr_div_pow2. apply N.shiftr_lxor. Qed.
Lemma le_enc_lxor : forall l x, bytes l ->
  le_enc (length l) (N.lxor x (le_dec l)) = xor_with (fun j => nth j (le_enc (length l) x) 0) 0 l.
Proof.
  induction l as [|b l IH]; intros x Hl; [reflexivity|]. inversion Hl as [|? ? Hb Hl']; subst.
  unfold is_byte in Hb. cbn [length le_enc le_dec xor_with nth].
  change 256 with (2 ^ 8). rewrite lxor_mod, lxor_div.
  replace ((b + 2 ^ 8 * le_dec l) mod 2 ^ 8) with b.
  2:{ rewrite N.mul_comm, N.mod_add by discriminate. rewrite N.mod_small; [reflexivity|exact Hb]. }
  replace ((b + 2 ^ 8 * le_dec l) / 2 ^ 8) with (le_dec l).
  2:{ rewrite N.mul_comm, N.div_add by discriminate. rewrite N.div_small; [reflexivity|exact Hb]. }
  f_equal; [apply N.lxor_comm|]. rewrite IH by assumption. apply xor_with_ext. intros i _. reflexivity.
Qed.
Lemma nth_serialize : forall s i j, (j < 4)%nat -> (i < length s)%nat ->
  nth (4 * i + j) (serialize s) 0 = nth j (le_enc 4 (nth i s 0)) 0.
Proof.
  unfold serialize. induction s as [|x s IH]; intros i j Hj Hi; [inversion Hi|]. cbn [flat_map].
  destruct i as [|i].
  - cbn [Nat.mul Nat.add nth]. rewrite app_nth1 by (rewrite le_enc_length; lia). reflexivity.
  - rewrite app_nth2 by (rewrite le_enc_length; lia). rewrite le_enc_length.
    replace (4 * S i + j - 4)%nat with (4 * i + j)%nat by lia. cbn [nth]. apply IH; [assumption|cbn in Hi; lia].
Qed.

Lemma at_off_wrs m d k l : (d + k + length l <= length m)%nat ->
  at_off m d (fun p => wrs p k l) = Some (put m (d + k) l).
Proof.
  intros H. rewrite <- (firstn_skipn d m) at 1.
  rewrite (at_off_app _ _ _ (put (skipn d m) k l)).
  - f_equal. unfold put. rewrite skipn_skipn, app_assoc.
    f_equal; [|f_equal; f_equal; lia].
    rewrite <- (firstn_skipn d m) at 3. rewrite firstn_app, firstn_length, Nat.min_l by lia.
    rewrite (firstn_all2 (firstn d m)) by (rewrite firstn_length; lia). do 2 f_equal. lia.
  - rewrite firstn_length. lia.
  - apply wrs_put. rewrite skipn_length. lia.
Qed.
Lemma at_off_ext m d f g : (forall p, p = skipn d m -> f p = g p) -> at_off m d f = at_off m d g.
Proof. intros H. unfold at_off. rewrite H by reflexivity. reflexivity. Qed.

Lemma is4 : int_size 4.
Proof. right. right. left. reflexivity. Qed.

Lemma cc_out_transform_mv cx ev d s : words 32 ev -> forall n i m, bytes m -> (i + n <= length ev)%nat ->
  (d + 4 * (i + n) <= length m)%nat -> (s + 4 * (i + n) <= length m)%nat -> movable (d + 4 * i) (s + 4 * i) (4 * n) ->
  cc_out_transform cx ev m d s i n
  = Some (put m (d + 4 * i) (xor_with (fun j => nth j (serialize ev) 0) (4 * i) (slice m (s + 4 * i) (4 * n)))).
Proof.
  intros Hev. induction n as [|n IH]; intros i m Hm He Hd Hs Ha.
  - cbn [cc_out_transform]. rewrite Nat.mul_0_r. unfold slice. rewrite firstn_O. cbn [xor_with]. rewrite put_nil. reflexivity.
  - cbn [cc_out_transform]. rewrite (rd_nth ev i 0) by lia. cbn [bind].
    rewrite (proj2 (Nat.leb_le s (length m))) by lia.
    rewrite mem_load_le_bytes; [|apply is4|apply bytes_skipn, Hm|rewrite skipn_length; lia].
    cbn [bind]. rewrite skipn_skipn.
    replace (i * 4 + s)%nat with (s + 4 * i)%nat by lia. change (firstn 4 (skipn (s + 4 * i) m)) with (slice m (s + 4 * i) 4).
    set (l := slice m (s + 4 * i) 4).
    assert (Ll : length l = 4%nat) by (apply slice_length; lia).
    assert (Bl : bytes l) by (apply slice_bytes, Hm).
    assert (V : N.lxor (nth i ev 0) (le_dec l) < 2 ^ bits 4).
    { apply lxor_lt; [apply nth_words, Hev|]. pose proof (le_dec_lt l Bl) as Q. rewrite Ll in Q. exact Q. }
    rewrite (at_off_ext _ _ _ (fun p => wrs p (i * 4) (le_enc 4 (N.lxor (nth i ev 0) (le_dec l))))).
    2:{ intros p ->. apply mem_stor_le_bytes; [apply is4|apply bytes_skipn, Hm|exact V|rewrite skipn_length; lia]. }
    rewrite at_off_wrs by (rewrite le_enc_length; lia). cbn [bind].
    set (o := le_enc 4 _).
    assert (Lo : length o = 4%nat) by apply le_enc_length.
    assert (Bo : bytes o) by apply le_enc_bytes.
    replace (d + i * 4)%nat with (d + 4 * i)%nat by lia.
    rewrite IH; [|apply put_bytes; assumption|lia|rewrite put_length; lia|rewrite put_length; lia|unfold movable in *; lia].
    f_equal. rewrite put_put; [|lia|rewrite xor_with_length, slice_length by (rewrite put_length; lia); lia].
    rewrite slice_put_other by (unfold movable in *; lia).
    replace (4 * S n)%nat with (4 + 4 * n)%nat by lia. rewrite slice_app, xor_with_app. fold l. rewrite Ll.
    replace (s + 4 * i + 4)%nat with (s + 4 * S i)%nat by lia. replace (4 * i + 4)%nat with (4 * S i)%nat by lia.
    do 2 f_equal. unfold o. rewrite <- Ll at 1. rewrite le_enc_lxor by exact Bl.
    apply xor_with_ext. intros j Hj. rewrite Ll in Hj. rewrite nth_serialize by lia. rewrite Ll. reflexivity.
Qed.

Lemma skipn_serialize : forall s i, skipn (4 * i) (serialize s) = serialize (skipn i s).
Proof.
  unfold serialize. induction s as [|x s IH]; intros i; [destruct i; rewrite ?skipn_nil; reflexivity|].
  destruct i as [|i]; [reflexivity|]. cbn [flat_map]. rewrite skipn_app, (skipn_all2 (le_enc 4 x)) by (rewrite le_enc_length; lia).
  rewrite le_enc_length. replace (4 * S i - 4)%nat with (4 * i)%nat by lia. cbn [app skipn]. apply IH.
Qed.
Lemma cc_out_generate_spec cx ev d : words 32 ev -> forall n i m, bytes m -> (i + n = length ev)%nat ->
  (d + 4 * (i + n) <= length m)%nat ->
  cc_out_generate cx ev m d i n = Some (put m (d + 4 * i) (skipn (4 * i) (serialize ev))).
Proof.
  intros Hev. induction n as [|n IH]; intros i m Hm He Hd.
  - cbn [cc_out_generate]. rewrite skipn_all2 by (rewrite serialize_length; lia). rewrite put_nil. reflexivity.
  - cbn [cc_out_generate]. rewrite (rd_nth ev i 0) by lia. cbn [bind].
    rewrite (at_off_ext _ _ _ (fun p => wrs p (i * 4) (le_enc 4 (nth i ev 0)))).
    2:{ intros p ->. apply mem_stor_le_bytes; [apply is4|apply bytes_skipn, Hm|apply nth_words, Hev|rewrite skipn_length; lia]. }
    rewrite at_off_wrs by (rewrite le_enc_length; lia). cbn [bind].
    set (o := le_enc 4 (nth i ev 0)).
    assert (Lo : length o = 4%nat) by apply le_enc_length.
    assert (Bo : bytes o) by apply le_enc_bytes.
    replace (d + i * 4)%nat with (d + 4 * i)%nat by lia.
    rewrite IH; [|apply put_bytes; assumption|lia|rewrite put_length; lia].
    f_equal. rewrite put_put; [|lia|rewrite skipn_length, serialize_length; lia].
    f_equal. rewrite !skipn_serialize. rewrite (skipn_nth 0 ev i) by lia. reflexivity.
Qed.

(** *** The portable backend *)
Lemma cc_add_16 base r : length base = 16%nat -> length r = 16%nat ->
  cc_add r base 0 16 = Some (add_words base r) /\ length (add_words base r) = 16%nat.
Proof.
  intros L L'. split; [|rewrite add_words_length; lia].
  exact (cc_add_spec 16 [] r base [] L' L eq_refl).
Qed.
Lemma cc_block_spec base : length base = 16%nat -> words 32 base ->
  exists e ev, cc_rounds 10 base = Some e /\ cc_add e base 0 16 = Some ev /\ length ev = 16%nat /\ words 32 ev
    /\ serialize ev = core_block base.
Proof.
  intros L W. destruct (cc_rounds_spec 10 base L W) as (E & L' & W').
  destruct (cc_add_16 base _ L L') as [A La].
  eexists. eexists. split; [exact E|]. split; [exact A|]. split; [exact La|]. split; [apply add_words_words|].
  reflexivity.
Qed.

Lemma at_ctr_1 base : length base = 16%nat ->
  (c <- rd base 12 ;; wr base 12 (wadd 32 c 1)) = Some (at_ctr base 1).
Proof. intros L. rewrite (rd_nth base 12 0) by lia. cbn [bind]. rewrite wr_upd by lia. reflexivity. Qed.

Lemma core_stream base j : length base = 16%nat -> words 32 base -> (j < 64)%nat ->
  nth j (core_block base) 0 = st_byte base j.
Proof.
  intros L W H. unfold st_byte. rewrite Nat.mod_small, Nat.div_small by assumption.
  change (N.of_nat 0) with 0. rewrite at_ctr_0 by assumption. reflexivity.
Qed.

Lemma cc_blocks_mv cx : forall n base m d s, length base = 16%nat -> words 32 base -> bytes m ->
  (d + 64 * n <= length m)%nat -> (s + 64 * n <= length m)%nat -> movable d s (64 * n) ->
  cc_blocks cx (fun ev m d s => cc_out_transform cx ev m d s 0 16) n base m d s
  = Some (put m d (xor_with (st_byte base) 0 (slice m s (64 * n)))).
Proof.
  induction n as [|n IH]; intros base m d s L W Hm Hd Hs Ha.
  - cbn [cc_blocks]. rewrite Nat.mul_0_r. unfold slice. rewrite firstn_O. cbn [xor_with]. rewrite put_nil. reflexivity.
  - cbn [cc_blocks]. destruct (cc_block_spec base L W) as (e & ev & E1 & E2 & Le & We & Se).
    rewrite E1. cbn [bind]. rewrite E2. cbn [bind].
    pose proof (cc_out_transform_mv cx ev d s We 16 0 m Hm) as T. rewrite !Nat.mul_0_r, !Nat.add_0_r in T. cbn [Nat.add] in T.
    rewrite T by (unfold movable in *; lia). clear T. cbn [bind].
    pose proof (at_ctr_1 base L) as C. destruct (rd base 12) as [c|]; [|discriminate]. cbn [bind] in C |- *. rewrite C. cbn [bind].
    change (4 * 16)%nat with 64%nat. rewrite Se.
    set (o := xor_with _ 0 (slice m s 64)).
    assert (Lo : length o = 64%nat) by (unfold o; rewrite xor_with_length; apply slice_length; lia).
    assert (Bo : bytes o).
    { apply xor_with_bytes; [|apply slice_bytes, Hm]. intros j. destruct (Nat.lt_ge_cases j (length (core_block base))) as [Hj|Hj].
      - exact (proj1 (Forall_forall _ _) (core_block_bytes base) _ (nth_In _ _ Hj)).
      - rewrite nth_overflow by exact Hj. reflexivity. }
    destruct (at_ctr_ok base 1 L W) as [L1 W1].
    rewrite IH; [|assumption|assumption|apply put_bytes; assumption|rewrite put_length; lia|rewrite put_length; lia|unfold movable in *; lia].
    f_equal. rewrite put_put; [|lia|rewrite xor_with_length, slice_length by (rewrite put_length; lia); lia].
    rewrite slice_put_other by (unfold movable in *; lia).
    replace (64 * S n)%nat with (64 + 64 * n)%nat by lia. rewrite slice_app, xor_with_app, slice_length by lia.
    do 2 f_equal.
    + apply xor_with_ext. intros j Hj. rewrite slice_length in Hj by lia. apply core_stream; assumption.
    + apply xor_with_ext. intros j Hj. change 1 with (N.of_nat 1). rewrite st_byte_shift by assumption. reflexivity.
Qed.

Lemma core_block_stream base : length base = 16%nat -> words 32 base -> core_block base = stream_bytes (st_byte base) 0 64.
Proof.
  intros L W. apply (nth_ext _ _ 0 (st_byte base 0)).
  - unfold stream_bytes. rewrite map_length, seq_length. apply core_block_length; assumption.
  - intros j Hj. rewrite core_block_length in Hj by assumption. unfold stream_bytes. rewrite map_nth, seq_nth by exact Hj.
    apply core_stream; assumption.
Qed.

Lemma cc_generate_spec cx st buf : length st = 16%nat -> words 32 st -> bytes buf -> (64 <= length buf)%nat ->
  cc_generate cx 1 st buf = Some (put buf 0 (stream_bytes (st_byte st) 0 64), 1%nat).
Proof.
  intros L W Hb Hl. unfold cc_generate. rewrite rds_slice by lia. cbn [bind].
  replace (slice st 0 16) with st by (rewrite <- L; symmetry; apply slice_all).
  cbn [cc_blocks]. destruct (cc_block_spec st L W) as (e & ev & E1 & E2 & Le & We & Se).
  rewrite E1. cbn [bind]. rewrite E2. cbn [bind].
  pose proof (cc_out_generate_spec cx ev 0 We 16 0 buf Hb) as T. rewrite !Nat.mul_0_r, ?Nat.add_0_r in T. cbn [Nat.add] in T.
  rewrite T by lia. cbn [bind skipn].
  pose proof (at_ctr_1 st L) as C. destruct (rd st 12) as [c|]; [|discriminate]. cbn [bind] in C |- *. rewrite C. cbn [bind].
  rewrite Se. rewrite core_block_stream by assumption. reflexivity.
Qed.
