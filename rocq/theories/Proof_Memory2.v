(** Block functions of memory.h. *)
From Verif Require Import Base BaseLemmas Spec_Bytes Model_Memory BytesLemmas Proof_Memory.
Local Open Scope N_scope.

Lemma arr_bytes_inj b ps x y : words (bits ps) x -> words (bits ps) y -> length x = length y ->
  arr_bytes b ps x = arr_bytes b ps y -> x = y.
Proof.
  intros Hx Hy Hl H. rewrite <- (arr_of_bytes_arr b ps x), <- (arr_of_bytes_arr b ps y) by assumption.
  rewrite Hl, H. reflexivity.
Qed.

Lemma obj_value_1 b x : obj_value b [x] = x.
Proof. destruct b; cbn; lia. Qed.

Lemma obj_bytes_1 b x : x < 256 -> obj_bytes b 1 x = [x].
Proof. intros H. destruct b; cbn; rewrite N.mod_small by assumption; reflexivity. Qed.

Lemma firstn_1_skipn {A} (d : A) (l : list A) i : (i < length l)%nat -> firstn 1 (skipn i l) = [nth i l d].
Proof.
  revert i. induction l as [|x l IH]; intros i H; [cbn in H; lia|].
  destruct i as [|i]; [reflexivity|]. cbn [skipn nth]. apply IH. cbn [length] in H. lia.
Qed.

Lemma mem_load_byte cx ps arr i : int_size ps -> words (bits ps) arr -> (i < length arr * ps)%nat ->
  mem_load cx 1 ps arr i = Some (nth i (arr_bytes (cx_big cx) ps arr) 0).
Proof.
  intros Hp Hw Hi. rewrite mem_load_spec by (try assumption; (left; reflexivity) || lia).
  rewrite Nat.mul_1_r, (firstn_1_skipn 0) by (rewrite arr_bytes_length; assumption).
  rewrite obj_value_1. reflexivity.
Qed.

Lemma nth_byte b ps arr i : nth i (arr_bytes b ps arr) 0 < 256.
Proof.
  destruct (nth_in_or_default i (arr_bytes b ps arr) 0) as [H|H]; [|rewrite H; lia].
  pose proof (arr_bytes_bytes b ps arr) as HB. unfold bytes in HB. rewrite Forall_forall in HB.
  apply HB. exact H.
Qed.

(** Storing one byte. *)
Lemma mem_stor_byte cx ps arr i v : int_size ps -> words (bits ps) arr -> (i < length arr * ps)%nat -> v < 256 ->
  exists arr', mem_stor cx 1 ps arr i v = Some arr' /\ length arr' = length arr /\ words (bits ps) arr' /\
    arr_bytes (cx_big cx) ps arr'
    = firstn i (arr_bytes (cx_big cx) ps arr) ++ v :: skipn (S i) (arr_bytes (cx_big cx) ps arr).
Proof.
  intros Hp Hw Hi Hv. rewrite mem_stor_spec by (try assumption; (left; reflexivity) || lia).
  rewrite Nat.mul_1_r, obj_bytes_1 by assumption.
  destruct (stor_bytes_result cx ps arr i [v]) as (a & H1 & H2 & H3 & H4).
  - constructor; [assumption|constructor].
  - assumption.
  - cbn [length]. lia.
  - exists a. repeat split; try assumption. rewrite H4. cbn [length app].
    replace (i + 1)%nat with (S i) by lia. reflexivity.
Qed.

Lemma firstn_S_nth {A} (d : A) (l : list A) i : (i < length l)%nat ->
  firstn (S i) l = firstn i l ++ [nth i l d].
Proof.
  revert i. induction l as [|x l IH]; intros i H; [cbn in H; lia|].
  destruct i as [|i]; [reflexivity|]. cbn [firstn nth app]. f_equal. apply IH. cbn [length] in H. lia.
Qed.

Lemma copy_loop_spec cx pd ps src dst0 : int_size pd -> int_size ps -> words (bits ps) src ->
  forall n i dst, (i + n <= length src * ps)%nat -> (i + n <= length dst * pd)%nat ->
  length dst = length dst0 -> words (bits pd) dst ->
  arr_bytes (cx_big cx) pd dst
  = firstn i (arr_bytes (cx_big cx) ps src) ++ skipn i (arr_bytes (cx_big cx) pd dst0) ->
  exists dst', copy_loop cx pd ps dst src i n = Some dst' /\ length dst' = length dst0 /\ words (bits pd) dst' /\
    arr_bytes (cx_big cx) pd dst'
    = firstn (i + n) (arr_bytes (cx_big cx) ps src) ++ skipn (i + n) (arr_bytes (cx_big cx) pd dst0).
Proof.
  intros Hpd Hps Hsrc. induction n as [|n IH]; intros i dst H1 H2 Hl Hd Hi.
  - exists dst. rewrite Nat.add_0_r. repeat split; assumption.
  - cbn [copy_loop]. rewrite mem_load_byte by (assumption || lia). cbn [bind].
    destruct (mem_stor_byte cx pd dst i (nth i (arr_bytes (cx_big cx) ps src) 0)) as (d1 & E1 & L1 & W1 & A1);
      [assumption|assumption|lia|apply nth_byte|].
    rewrite E1. cbn [bind].
    destruct (IH (S i) d1) as (d2 & E2 & L2 & W2 & A2); [lia|lia|lia|assumption| |].
    + rewrite Hi in A1. set (S0 := arr_bytes (cx_big cx) ps src) in *.
      set (D0 := arr_bytes (cx_big cx) pd dst0) in *.
      assert (LS : length S0 = (length src * ps)%nat) by apply arr_bytes_length.
      assert (HF : length (firstn i S0) = i) by (rewrite firstn_length; lia).
      rewrite (firstn_S_nth 0 S0) by lia.
      rewrite A1, firstn_app, HF, Nat.sub_diag, firstn_O, app_nil_r.
      rewrite (firstn_all2 (firstn i S0)) by lia.
      rewrite skipn_app, HF, skipn_all_le by lia. cbn [app].
      replace (S i - i)%nat with 1%nat by lia. rewrite skipn_skipn.
      rewrite <- app_assoc. reflexivity.
    + exists d2. rewrite E2. replace (i + S n)%nat with (S i + n)%nat by lia. repeat split; assumption.
Qed.

(** [memory_copy], both evaluation paths. *)
Lemma mem_copy_spec cx pd ps dst src n : int_size pd -> int_size ps ->
  words (bits pd) dst -> words (bits ps) src ->
  (n <= length src * ps)%nat -> (n <= length dst * pd)%nat ->
  exists dst', mem_copy cx pd ps dst src n = Some dst' /\ length dst' = length dst /\ words (bits pd) dst' /\
    arr_bytes (cx_big cx) pd dst'
    = firstn n (arr_bytes (cx_big cx) ps src) ++ skipn n (arr_bytes (cx_big cx) pd dst).
Proof.
  intros Hpd Hps Hd Hs H1 H2. unfold mem_copy. destruct (cx_ce cx).
  - apply (copy_loop_spec cx pd ps src dst) with (i := 0%nat); try assumption; reflexivity.
  - rewrite rds_some by (rewrite arr_bytes_length; assumption). cbn [bind skipn].
    set (S0 := arr_bytes (cx_big cx) ps src).
    assert (LS : length (firstn n S0) = n) by (rewrite firstn_length; unfold S0; rewrite arr_bytes_length; lia).
    destruct (stor_bytes_result cx pd dst 0 (firstn n S0)) as (d & E & L & W & A).
    + apply bytes_firstn, arr_bytes_bytes.
    + assumption.
    + rewrite LS. lia.
    + exists d. rewrite LS in A. cbn [firstn app Nat.add] in A. repeat split; assumption.
Qed.

Lemma wr_firstn {A} (l : list A) i v : (i < length l)%nat -> wr l i v = Some (firstn i l ++ v :: skipn (S i) l).
Proof.
  intros H. unfold wr. rewrite wrs_some by (cbn [length]; lia). cbn [length app].
  replace (i + 1)%nat with (S i) by lia. reflexivity.
Qed.

Lemma zero_loop_spec : forall n i arr, (i + n <= length arr)%nat ->
  zero_loop arr i n = Some (firstn i arr ++ repeat 0 n ++ skipn (i + n) arr).
Proof.
  induction n as [|n IH]; intros i arr H; cbn [zero_loop].
  - rewrite Nat.add_0_r. cbn [repeat app]. rewrite firstn_skipn. reflexivity.
  - rewrite wr_firstn by lia. cbn [bind].
    assert (HF : length (firstn i arr) = i) by (rewrite firstn_length; lia).
    rewrite IH by (rewrite app_length, HF; cbn [length]; rewrite skipn_length; lia).
    f_equal. rewrite firstn_app, HF, firstn_all2 by lia.
    replace (S i - i)%nat with 1%nat by lia. cbn [firstn]. rewrite <- app_assoc. f_equal.
    cbn [app repeat]. f_equal. f_equal.
    rewrite skipn_app, HF, skipn_all_le by lia. cbn [app].
    replace (S i + n - i)%nat with (S n) by lia. rewrite skipn_cons, skipn_skipn. f_equal. lia.
Qed.

Lemma mem_zero_spec arr n : (n <= length arr)%nat -> mem_zero arr n = Some (repeat 0 n ++ skipn n arr).
Proof. intros H. unfold mem_zero. rewrite zero_loop_spec by assumption. reflexivity. Qed.

Lemma mem_zero_all arr : mem_zero arr (length arr) = Some (repeat 0 (length arr)).
Proof. rewrite mem_zero_spec by lia. rewrite skipn_all, app_nil_r. reflexivity. Qed.

Lemma words_zero w n : words w (repeat 0 n).
Proof.
  induction n as [|n IH]; constructor; [|assumption].
  unfold is_word. apply N.neq_0_lt_0, N.pow_nonzero. lia.
Qed.

Lemma rev_repeat {A} (x : A) n : rev (repeat x n) = repeat x n.
Proof.
  induction n as [|n IH]; [reflexivity|]. cbn [repeat rev]. rewrite IH.
  clear IH. induction n as [|n IH]; [reflexivity|]. cbn [repeat app]. rewrite IH. reflexivity.
Qed.

Lemma le_enc_0 n : le_enc n 0 = repeat 0 n.
Proof. induction n as [|n IH]; [reflexivity|]. cbn [le_enc repeat]. rewrite N.div_0_l, IH by lia. reflexivity. Qed.

Lemma obj_bytes_0 b n : obj_bytes b n 0 = repeat 0 n.
Proof. destruct b; cbn [obj_bytes]; [unfold be_enc|]; rewrite le_enc_0, ?rev_repeat; reflexivity. Qed.

Lemma arr_bytes_zero b ps n : arr_bytes b ps (repeat 0 n) = repeat 0 (n * ps).
Proof.
  unfold arr_bytes. induction n as [|n IH]; [reflexivity|].
  cbn [repeat flat_map Nat.mul]. rewrite IH, obj_bytes_0, <- repeat_app. reflexivity.
Qed.

Lemma skipn_repeat {A} (x : A) n m : skipn n (repeat x m) = repeat x (m - n).
Proof.
  revert m. induction n as [|n IH]; intros m; [rewrite Nat.sub_0_r; reflexivity|].
  destruct m as [|m]; [reflexivity|]. cbn [repeat skipn]. apply IH.
Qed.

(** [memory_init] *)
Lemma mem_init_spec cx pd ps dst src : int_size pd -> int_size ps -> words (bits ps) src ->
  mem_init cx pd ps dst src
  = Some (arr_of_bytes (cx_big cx) pd (length dst)
            (pad_to (length dst * pd) (arr_bytes (cx_big cx) ps src))).
Proof.
  intros Hpd Hps Hs. unfold mem_init. rewrite mem_zero_all. cbn [bind]. rewrite repeat_length.
  set (m := Nat.min (length dst * pd) (length src * ps)).
  destruct (mem_copy_spec cx pd ps (repeat 0 (length dst)) src m) as (d & E & L & W & A); try assumption.
  - apply words_zero.
  - unfold m. lia.
  - rewrite repeat_length. unfold m. lia.
  - rewrite E. f_equal. rewrite repeat_length in L.
    rewrite <- (arr_of_bytes_arr (cx_big cx) pd d) by assumption. rewrite L. f_equal. rewrite A.
    rewrite arr_bytes_zero, skipn_repeat. unfold pad_to. rewrite arr_bytes_length. f_equal.
    + unfold m. destruct (Nat.min_spec (length dst * pd) (length src * ps)) as [[? ->]|[? ->]]; [reflexivity|].
      rewrite !firstn_all2 by (rewrite arr_bytes_length; lia). reflexivity.
    + f_equal. unfold m. lia.
Qed.

Lemma pad_to_length n l : length (pad_to n l) = n.
Proof. unfold pad_to. rewrite app_length, firstn_length, repeat_length. lia. Qed.

Lemma pad_to_bytes n l : bytes l -> bytes (pad_to n l).
Proof. intros H. apply bytes_app. split; [apply bytes_firstn; assumption|apply bytes_repeat0]. Qed.

Lemma arr_of_bytes_le ps k : forall l, arr_of_bytes false ps k l = le_words ps k l.
Proof. induction k as [|k IH]; intros l; [reflexivity|]. cbn. rewrite IH. reflexivity. Qed.
Lemma arr_of_bytes_be ps k : forall l, arr_of_bytes true ps k l = be_words ps k l.
Proof. induction k as [|k IH]; intros l; [reflexivity|]. cbn. rewrite IH. reflexivity. Qed.

Lemma map_littleof cx ps k : int_size ps -> forall l, bytes l -> length l = (k * ps)%nat ->
  map (endian_littleof cx ps) (arr_of_bytes (cx_big cx) ps k l) = le_words ps k l.
Proof.
  intros Hp. induction k as [|k IH]; intros l Hb Hl; [reflexivity|].
  cbn [arr_of_bytes map le_words].
  rewrite IH; [|apply bytes_skipn; assumption|rewrite skipn_length; lia]. f_equal.
  assert (E : length (firstn ps l) = ps) by (rewrite firstn_length; lia).
  rewrite <- E at 1. apply littleof_value; [rewrite E; assumption|apply bytes_firstn; assumption].
Qed.
Lemma map_bigof cx ps k : int_size ps -> forall l, bytes l -> length l = (k * ps)%nat ->
  map (endian_bigof cx ps) (arr_of_bytes (cx_big cx) ps k l) = be_words ps k l.
Proof.
  intros Hp. induction k as [|k IH]; intros l Hb Hl; [reflexivity|].
  cbn [arr_of_bytes map be_words].
  rewrite IH; [|apply bytes_skipn; assumption|rewrite skipn_length; lia]. f_equal.
  assert (E : length (firstn ps l) = ps) by (rewrite firstn_length; lia).
  rewrite <- E at 1. apply bigof_value; [rewrite E; assumption|apply bytes_firstn; assumption].
Qed.

Lemma words_1 k : forall l, length l = k -> le_words 1 k l = l /\ be_words 1 k l = l.
Proof.
  induction k as [|k IH]; intros l Hl; [destruct l; [split; reflexivity|discriminate]|].
  destruct l as [|x l]; [discriminate|]. injection Hl as Hl. cbn [le_words be_words firstn skipn].
  destruct (IH l Hl) as [-> ->]. unfold be_dec. cbn. rewrite N.add_0_r. split; reflexivity.
Qed.

Lemma mem_init_le_spec cx pd ps dst src : int_size pd -> int_size ps -> words (bits ps) src ->
  mem_init_le cx pd ps dst src
  = Some (le_words pd (length dst) (pad_to (length dst * pd) (arr_bytes (cx_big cx) ps src))).
Proof.
  intros Hpd Hps Hs. unfold mem_init_le. rewrite mem_init_spec by assumption. cbn [bind]. f_equal.
  set (l := pad_to _ _).
  assert (Hb : bytes l) by (apply pad_to_bytes, arr_bytes_bytes).
  assert (Hl : length l = (length dst * pd)%nat) by apply pad_to_length.
  destruct (cx_big cx) eqn:Eb.
  - destruct (Nat.eqb_spec pd 1) as [->|Hne]; cbn [negb andb].
    + rewrite arr_of_bytes_be. destruct (words_1 (length dst) l) as [-> ->]; [lia|reflexivity].
    + rewrite <- Eb. apply map_littleof; assumption.
  - rewrite andb_false_r. apply arr_of_bytes_le.
Qed.

Lemma mem_init_be_spec cx pd ps dst src : int_size pd -> int_size ps -> words (bits ps) src ->
  mem_init_be cx pd ps dst src
  = Some (be_words pd (length dst) (pad_to (length dst * pd) (arr_bytes (cx_big cx) ps src))).
Proof.
  intros Hpd Hps Hs. unfold mem_init_be. rewrite mem_init_spec by assumption. cbn [bind]. f_equal.
  set (l := pad_to _ _).
  assert (Hb : bytes l) by (apply pad_to_bytes, arr_bytes_bytes).
  assert (Hl : length l = (length dst * pd)%nat) by apply pad_to_length.
  destruct (cx_big cx) eqn:Eb; cbn [negb].
  - rewrite andb_false_r. apply arr_of_bytes_be.
  - destruct (Nat.eqb_spec pd 1) as [->|Hne]; cbn [negb andb].
    + rewrite arr_of_bytes_le. destruct (words_1 (length dst) l) as [-> ->]; [lia|reflexivity].
    + rewrite <- Eb. apply map_bigof; assumption.
Qed.

(** [memory_copy_be], [memory_copy_le] into a byte array. *)
Lemma copy_words_spec (enc : N -> list N) (stor : list N -> nat -> N -> option (list N)) ss src dst0 :
  (forall w, length (enc w) = ss) -> (forall w, bytes (enc w)) -> words (bits ss) src ->
  (forall d i w, bytes d -> w < 2 ^ bits ss -> (i * ss + ss <= length d)%nat -> stor d i w = wrs d (i * ss) (enc w)) ->
  forall n i dst, (i + n <= length src)%nat -> ((i + n) * ss <= length dst0)%nat -> bytes dst0 ->
  dst = flat_map enc (firstn i src) ++ skipn (i * ss) dst0 ->
  copy_words stor dst src i n
  = Some (flat_map enc (firstn (i + n) src) ++ skipn ((i + n) * ss) dst0).
Proof.
  intros He Hb Hw Hst.
  assert (Hfl : forall l, length (flat_map enc l) = (length l * ss)%nat).
  { induction l as [|x l IH]; [reflexivity|]. cbn [flat_map length]. rewrite app_length, IH, He. lia. }
  assert (Hfb : forall l, bytes (flat_map enc l)).
  { induction l as [|x l IH]; [constructor|]. cbn [flat_map]. apply bytes_app. split; [apply Hb|assumption]. }
  induction n as [|n IH]; intros i dst H1 H2 H0 ->; cbn [copy_words].
  - rewrite Nat.add_0_r. reflexivity.
  - destruct (split_nth src i ltac:(lia)) as (pre & w & post & E & Hpre). 
    assert (Hr : rd src i = Some w) by (rewrite E; apply rd_app; lia). rewrite Hr. cbn [bind].
    assert (Hi : (i * ss + ss <= length dst0)%nat) by nia.
    assert (Hfi : length (firstn i src) = i) by (rewrite firstn_length; lia).
    assert (Hwx : w < 2 ^ bits ss).
    { rewrite E in Hw. apply Forall_app in Hw. destruct Hw as [_ Hw]. inversion Hw. assumption. }
    rewrite Hst.
    + assert (HS : skipn (i * ss) dst0 = firstn ss (skipn (i * ss) dst0) ++ skipn (S i * ss) dst0).
      { rewrite <- (firstn_skipn ss (skipn (i * ss) dst0)) at 1. rewrite skipn_skipn. reflexivity. }
      rewrite HS. rewrite wrs_app.
      * cbn [bind]. replace (i + S n)%nat with (S i + n)%nat by lia. apply IH; [lia|lia|assumption|].
        rewrite app_assoc. f_equal.
        replace (firstn (S i) src) with (firstn i src ++ [w]).
        { rewrite flat_map_app. cbn [flat_map]. rewrite app_nil_r. reflexivity. }
        rewrite (firstn_S_nth 0 src) by lia. f_equal. f_equal. unfold rd in Hr.
        symmetry. apply nth_error_nth. exact Hr.
      * rewrite Hfl, Hfi. reflexivity.
      * rewrite He, firstn_length, skipn_length. lia.
    + apply bytes_app. split; [apply Hfb|apply bytes_skipn; assumption].
    + assumption.
    + rewrite app_length, Hfl, Hfi, skipn_length. lia.
Qed.

Lemma flat_map_firstn_part (enc : N -> list N) ss src n w :
  (0 < ss)%nat -> (forall w, length (enc w) = ss) -> rd src (n / ss) = Some w ->
  firstn n (flat_map enc src) = flat_map enc (firstn (n / ss) src) ++ firstn (n mod ss) (enc w).
Proof.
  intros Hss He Hr. unfold rd in Hr. apply nth_error_split in Hr. destruct Hr as (pre & post & -> & Hpre).
  assert (Hfl : forall l, length (flat_map enc l) = (length l * ss)%nat).
  { induction l as [|x l IH]; [reflexivity|]. cbn [flat_map length]. rewrite app_length, IH, He. lia. }
  rewrite flat_map_app. cbn [flat_map].
  rewrite (firstn_app (n / ss)), <- Hpre, firstn_all, Nat.sub_diag. cbn [firstn]. rewrite app_nil_r.
  pose proof (Nat.div_mod n ss ltac:(lia)) as HD.
  pose proof (Nat.mod_upper_bound n ss ltac:(lia)) as HM.
  rewrite firstn_app, firstn_all2 by (rewrite Hfl, Hpre; lia). f_equal. rewrite Hfl, Hpre.
  replace (n - n / ss * ss)%nat with (n mod ss)%nat by lia.
  rewrite firstn_app, He. replace (n mod ss - ss)%nat with 0%nat by lia. cbn [firstn]. apply app_nil_r.
Qed.

Lemma mem_copy_words_gen (enc : N -> list N) stor storn ss src dst n :
  (0 < ss)%nat ->
  (forall w, length (enc w) = ss) -> (forall w, bytes (enc w)) -> words (bits ss) src ->
  (forall d i w, bytes d -> w < 2 ^ bits ss -> (i * ss + ss <= length d)%nat -> stor d i w = wrs d (i * ss) (enc w)) ->
  (forall d i w k, bytes d -> w < 2 ^ bits ss -> (k <= ss)%nat -> (0 < k)%nat -> (i * ss + k <= length d)%nat ->
     storn d i w k = wrs d (i * ss) (firstn k (enc w))) ->
  bytes dst -> (n <= length dst)%nat -> (n <= length src * ss)%nat ->
  (dst <- copy_words stor dst src 0 (n / ss) ;;
   if (0 <? n mod ss)%nat then w <- rd src (n / ss) ;; storn dst (n / ss)%nat w (n mod ss)%nat else Some dst)
  = Some (firstn n (flat_map enc src) ++ skipn n dst).
Proof.
  intros Hss He Hb Hw Hst Hstn Hd Hn1 Hn2.
  pose proof (Nat.div_mod n ss ltac:(lia)) as HD.
  pose proof (Nat.mod_upper_bound n ss ltac:(lia)) as HM.
  assert (Hq : (n / ss <= length src)%nat).
  { apply (Nat.mul_le_mono_pos_r _ _ ss); lia. }
  rewrite (copy_words_spec enc stor ss src dst He Hb Hw Hst) by (assumption || lia || reflexivity).
  cbn [bind Nat.add].
  assert (Hfl : forall l, length (flat_map enc l) = (length l * ss)%nat).
  { induction l as [|x l IH]; [reflexivity|]. cbn [flat_map length]. rewrite app_length, IH, He. lia. }
  assert (Hfb : forall l, bytes (flat_map enc l)).
  { induction l as [|x l IH]; [constructor|]. cbn [flat_map]. apply bytes_app. split; [apply Hb|assumption]. }
  assert (Hfi : length (firstn (n / ss) src) = (n / ss)%nat) by (rewrite firstn_length; lia).
  destruct (Nat.ltb_spec 0 (n mod ss)) as [Hm|Hm].
  - assert (Hq' : (n / ss < length src)%nat).
    { apply (Nat.mul_lt_mono_pos_r ss); lia. }
    destruct (rd_some src _ Hq') as (w & Hr). rewrite Hr. cbn [bind].
    assert (Hwx : w < 2 ^ bits ss).
    { unfold rd in Hr. apply nth_error_In in Hr. unfold words in Hw. rewrite Forall_forall in Hw. apply Hw. exact Hr. }
    rewrite Hstn.
    + rewrite (flat_map_firstn_part enc ss src n w) by assumption. rewrite <- app_assoc.
      set (A := flat_map enc (firstn (n / ss) src)).
      assert (HA : length A = (n / ss * ss)%nat) by (unfold A; rewrite Hfl, Hfi; reflexivity).
      assert (HS : skipn (n / ss * ss) dst = firstn (n mod ss) (skipn (n / ss * ss) dst) ++ skipn n dst).
      { rewrite <- (firstn_skipn (n mod ss) (skipn (n / ss * ss) dst)) at 1. f_equal. rewrite skipn_skipn. f_equal. lia. }
      rewrite HS. apply wrs_app; [lia|]. rewrite !firstn_length, skipn_length, He. lia.
    + apply bytes_app. split; [apply Hfb|apply bytes_skipn; assumption].
    + assumption.
    + lia.
    + assumption.
    + rewrite app_length, Hfl, Hfi, skipn_length. lia.
  - f_equal. replace (n / ss * ss)%nat with n by lia. f_equal.
    rewrite <- (firstn_skipn (n / ss) src) at 2. rewrite flat_map_app.
    set (A := flat_map enc (firstn (n / ss) src)).
    assert (HA : length A = n) by (unfold A; rewrite Hfl, Hfi; lia).
    rewrite firstn_app, HA, Nat.sub_diag, firstn_O, app_nil_r, (firstn_all2 A) by lia. reflexivity.
Qed.

Lemma mem_copy_be_spec cx ss dst src n : int_size ss -> (1 < ss)%nat -> words (bits ss) src ->
  bytes dst -> (n <= length dst)%nat -> (n <= length src * ss)%nat ->
  mem_copy_be cx 1 ss dst src n = Some (firstn n (flat_map (be_enc ss) src) ++ skipn n dst).
Proof.
  intros Hs H1 Hw Hd Hn1 Hn2. unfold mem_copy_be.
  apply (mem_copy_words_gen (be_enc ss) (fun d i w => mem_stor_be cx ss 1 d i w)
           (fun d i w k => mem_stor_be_n cx ss 1 d i w k)); try assumption; try lia.
  - intros w. apply be_enc_length.
  - intros w. apply be_enc_bytes.
  - intros d i w Hd' Hw' Hl. apply mem_stor_be_bytes; assumption.
  - intros d i w k Hd' Hw' Hk Hk0 Hl.
    rewrite mem_stor_be_n_bytes by (try assumption; lia). f_equal. f_equal. lia.
Qed.

Lemma mem_copy_le_spec cx ss dst src n : int_size ss -> (1 < ss)%nat -> words (bits ss) src ->
  bytes dst -> (n <= length dst)%nat -> (n <= length src * ss)%nat ->
  mem_copy_le cx 1 ss dst src n = Some (firstn n (flat_map (le_enc ss) src) ++ skipn n dst).
Proof.
  intros Hs H1 Hw Hd Hn1 Hn2. unfold mem_copy_le.
  apply (mem_copy_words_gen (le_enc ss) (fun d i w => mem_stor_le cx ss 1 d i w)
           (fun d i w k => mem_stor_le_n cx ss 1 d i w k)); try assumption; try lia.
  - intros w. apply le_enc_length.
  - intros w. apply le_enc_bytes.
  - intros d i w Hd' Hw' Hl. apply mem_stor_le_bytes; assumption.
  - intros d i w k Hd' Hw' Hk Hk0 Hl.
    rewrite mem_stor_le_n_bytes by (try assumption; lia). f_equal. f_equal. lia.
Qed.

(** [memory_match], [memory_equal]. *)
Lemma lor_eq_0 a b : N.lor a b = 0 <-> a = 0 /\ b = 0.
Proof. apply N.lor_eq_0_iff. Qed.

Lemma match_loop_spec cx pa pb a b : int_size pa -> int_size pb -> words (bits pa) a -> words (bits pb) b ->
  forall n i t, (i + n <= length a * pa)%nat -> (i + n <= length b * pb)%nat ->
  exists r, match_loop cx pa pb a b i n t = Some r /\
  (r = 0 <-> t = 0 /\ firstn n (skipn i (arr_bytes (cx_big cx) pa a)) = firstn n (skipn i (arr_bytes (cx_big cx) pb b))).
Proof.
  intros Ha Hb Wa Wb. induction n as [|n IH]; intros i t H1 H2; cbn [match_loop].
  - exists t. split; [reflexivity|]. cbn [firstn]. tauto.
  - rewrite !mem_load_byte by (assumption || lia). cbn [bind].
    set (x := nth i (arr_bytes (cx_big cx) pa a) 0). set (y := nth i (arr_bytes (cx_big cx) pb b) 0).
    destruct (IH (S i) (N.lor t (N.lxor x y)) ltac:(lia) ltac:(lia)) as (r & -> & Hr).
    exists r. split; [reflexivity|]. rewrite Hr, lor_eq_0, N.lxor_eq_0_iff.
    assert (S1 : forall l : list N, (i < length l)%nat ->
       firstn (S n) (skipn i l) = nth i l 0 :: firstn n (skipn (S i) l)).
    { clear. intros l. revert i. induction l as [|z l IH]; intros i H; [cbn in H; lia|].
      destruct i as [|i]; [reflexivity|]. cbn [skipn nth]. apply IH. cbn [length] in H. lia. }
    rewrite !S1 by (rewrite arr_bytes_length; lia). fold x y. split.
    + intros [[-> ->] ->]. split; reflexivity.
    + intros [-> H]. pose proof (f_equal (hd 0) H) as E1. pose proof (f_equal (@tl N) H) as E2.
      cbn [hd tl] in E1, E2. rewrite E1, E2. auto.
Qed.

Lemma mem_match_spec cx pa pb a b n : int_size pa -> int_size pb -> words (bits pa) a -> words (bits pb) b ->
  (n <= length a * pa)%nat -> (n <= length b * pb)%nat ->
  exists r, mem_match cx pa pb a b n = Some r /\
  (r = true <-> firstn n (arr_bytes (cx_big cx) pa a) = firstn n (arr_bytes (cx_big cx) pb b)).
Proof.
  intros Ha Hb Wa Wb H1 H2. unfold mem_match.
  destruct (match_loop_spec cx pa pb a b Ha Hb Wa Wb n 0 0 H1 H2) as (r & -> & Hr).
  cbn [bind]. exists (r =? 0). split; [reflexivity|]. rewrite N.eqb_eq, Hr. cbn [skipn]. tauto.
Qed.

Lemma mem_match_c_spec cx pa pb a b : int_size pa -> int_size pb -> words (bits pa) a -> words (bits pb) b ->
  exists r, mem_match_c cx pa pb a b = Some r /\
  (r = true <-> arr_bytes (cx_big cx) pa a = arr_bytes (cx_big cx) pb b).
Proof.
  intros Ha Hb Wa Wb. unfold mem_match_c.
  set (m := Nat.min (length a * pa) (length b * pb)).
  destruct (mem_match_spec cx pa pb a b m Ha Hb Wa Wb ltac:(unfold m; lia) ltac:(unfold m; lia)) as (r & -> & Hr).
  cbn [bind]. eexists. split; [reflexivity|].
  rewrite andb_true_iff, Nat.eqb_eq, Hr. split.
  - intros [Hl E]. unfold m in E. rewrite Hl, Nat.min_id in E.
    rewrite !firstn_all2 in E by (rewrite arr_bytes_length; lia). exact E.
  - intros E. assert (Hl : (length a * pa = length b * pb)%nat) by (rewrite <- !(arr_bytes_length (cx_big cx)), E; reflexivity).
    split; [exact Hl|]. rewrite E. reflexivity.
Qed.

(** Byte strings: the form used by the rest of the library. *)
Lemma mem_match_c_bytes cx a b : bytes a -> bytes b ->
  exists r, mem_match_c cx 1 1 a b = Some r /\ (r = true <-> a = b).
Proof.
  intros Ha Hb.
  destruct (mem_match_c_spec cx 1 1 a b) as (r & E & H); try assumption; try (left; reflexivity).
  rewrite !arr_bytes_1 in H by assumption. eauto.
Qed.

Lemma equal_loop_spec cx pa pb a b : int_size pa -> int_size pb -> words (bits pa) a -> words (bits pb) b ->
  forall n i, (i + n <= length a * pa)%nat -> (i + n <= length b * pb)%nat ->
  exists r, equal_loop cx pa pb a b i n = Some r /\
  (r = true <-> firstn n (skipn i (arr_bytes (cx_big cx) pa a)) = firstn n (skipn i (arr_bytes (cx_big cx) pb b))).
Proof.
  intros Ha Hb Wa Wb. induction n as [|n IH]; intros i H1 H2; cbn [equal_loop].
  - exists true. split; [reflexivity|]. cbn [firstn]. tauto.
  - rewrite !mem_load_byte by (assumption || lia). cbn [bind].
    set (x := nth i (arr_bytes (cx_big cx) pa a) 0). set (y := nth i (arr_bytes (cx_big cx) pb b) 0).
    assert (S1 : forall l : list N, (i < length l)%nat ->
       firstn (S n) (skipn i l) = nth i l 0 :: firstn n (skipn (S i) l)).
    { clear. intros l. revert i. induction l as [|z l IH]; intros i H; [cbn in H; lia|].
      destruct i as [|i]; [reflexivity|]. cbn [skipn nth]. apply IH. cbn [length] in H. lia. }
    rewrite !S1 by (rewrite arr_bytes_length; lia). fold x y.
    destruct (N.eqb_spec x y) as [E|E].
    + destruct (IH (S i) ltac:(lia) ltac:(lia)) as (r & -> & Hr). exists r. split; [reflexivity|].
      rewrite Hr. split; [intros ->; rewrite E; reflexivity|intros H; pose proof (f_equal (@tl N) H) as E2; cbn [tl] in E2; exact E2].
    + exists false. split; [reflexivity|]. split; [discriminate|]. intros H. injection H as H _. contradiction.
Qed.

Lemma mem_equal_spec cx pa pb a b n : int_size pa -> int_size pb -> words (bits pa) a -> words (bits pb) b ->
  (n <= length a * pa)%nat -> (n <= length b * pb)%nat ->
  exists r, mem_equal cx pa pb a b n = Some r /\
  (r = true <-> firstn n (arr_bytes (cx_big cx) pa a) = firstn n (arr_bytes (cx_big cx) pb b)).
Proof.
  intros Ha Hb Wa Wb H1 H2. unfold mem_equal. destruct (cx_ce cx).
  - destruct (equal_loop_spec cx pa pb a b Ha Hb Wa Wb n 0 H1 H2) as (r & -> & Hr). eauto.
  - rewrite !rds_some by (rewrite arr_bytes_length; lia). cbn [bind skipn]. eexists. split; [reflexivity|].
    destruct (list_eq_dec N.eq_dec _ _); split; intros; try assumption; try reflexivity; try discriminate; contradiction.
Qed.

Lemma mem_equal_c_spec cx pa pb a b : int_size pa -> int_size pb -> words (bits pa) a -> words (bits pb) b ->
  exists r, mem_equal_c cx pa pb a b = Some r /\
  (r = true <-> arr_bytes (cx_big cx) pa a = arr_bytes (cx_big cx) pb b).
Proof.
  intros Ha Hb Wa Wb. unfold mem_equal_c. destruct (Nat.eqb_spec (length a * pa) (length b * pb)) as [Hl|Hl].
  - destruct (mem_equal_spec cx pa pb a b (length b * pb) Ha Hb Wa Wb ltac:(lia) ltac:(lia)) as (r & -> & Hr).
    exists r. split; [reflexivity|]. rewrite !firstn_all2 in Hr by (rewrite arr_bytes_length; lia). exact Hr.
  - exists false. split; [reflexivity|]. split; [discriminate|]. intros E. exfalso. apply Hl.
    rewrite <- !(arr_bytes_length (cx_big cx)), E. reflexivity.
Qed.
