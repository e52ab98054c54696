(** memory_set and memory_xor on arrays of any widths. *)
From Verif Require Import Base BaseLemmas Spec_Bytes Model_Memory BytesLemmas Proof_Memory Proof_Memory2.
Local Open Scope N_scope.

Lemma set_loop_spec cx ps v dst0 : int_size ps -> v < 256 ->
  forall n i dst, (i + n <= length dst * ps)%nat -> length dst = length dst0 -> words (bits ps) dst ->
  arr_bytes (cx_big cx) ps dst = repeat v i ++ skipn i (arr_bytes (cx_big cx) ps dst0) ->
  exists dst', set_loop cx ps dst v i n = Some dst' /\ length dst' = length dst0 /\ words (bits ps) dst' /\
    arr_bytes (cx_big cx) ps dst' = repeat v (i + n) ++ skipn (i + n) (arr_bytes (cx_big cx) ps dst0).
Proof.
  intros Hp Hv. induction n as [|n IH]; intros i dst H Hl Hd Hi.
  - exists dst. rewrite Nat.add_0_r. repeat split; assumption.
  - cbn [set_loop]. destruct (mem_stor_byte cx ps dst i v) as (d1 & E1 & L1 & W1 & A1); [assumption|assumption|lia|assumption|].
    rewrite E1. cbn [bind]. destruct (IH (S i) d1) as (d2 & E2 & L2 & W2 & A2); [lia|lia|assumption| |].
    + rewrite A1, Hi, firstn_app, skipn_app, repeat_length, Nat.sub_diag, firstn_O, app_nil_r.
      rewrite firstn_all2 by (rewrite repeat_length; lia). rewrite skipn_all_le by (rewrite repeat_length; lia).
      replace (S i - i)%nat with 1%nat by lia. rewrite skipn_skipn. cbn [app]. replace (S i) with (i + 1)%nat by lia. rewrite repeat_app, <- app_assoc. cbn [repeat app].
      replace (1 + i)%nat with (i + 1)%nat by lia. reflexivity.
    + exists d2. rewrite E2. replace (i + S n)%nat with (S i + n)%nat by lia. repeat split; assumption.
Qed.
Lemma mem_set_spec cx ps dst v n : int_size ps -> v < 256 -> words (bits ps) dst -> (n <= length dst * ps)%nat ->
  exists dst', mem_set cx ps dst v n = Some dst' /\ length dst' = length dst /\ words (bits ps) dst' /\
    arr_bytes (cx_big cx) ps dst' = repeat v n ++ skipn n (arr_bytes (cx_big cx) ps dst).
Proof.
  intros Hp Hv Hd H. unfold mem_set. destruct (cx_ce cx).
  - apply (set_loop_spec cx ps v dst) with (i := 0%nat); try assumption; reflexivity.
  - destruct (stor_bytes_result cx ps dst 0 (repeat v n)) as (d & E & L & W & A).
    + apply Forall_forall. intros x Hx. apply repeat_spec in Hx. subst x. exact Hv.
    + assumption.
    + rewrite repeat_length. lia.
    + exists d. rewrite repeat_length in A. cbn [firstn app Nat.add] in A. repeat split; assumption.
Qed.

(** Position-wise exclusive or of two byte strings. *)
Definition xors (a b : list N) (n : nat) : list N := map (fun i => N.lxor (nth i a 0) (nth i b 0)) (seq 0 n).
Lemma lxor_byte x y : x < 256 -> y < 256 -> N.lxor x y < 256.
Proof.
  intros Hx Hy. destruct (N.eq_dec (N.lxor x y) 0) as [E|E]; [rewrite E; lia|].
  change 256 with (2 ^ 8). apply N.log2_lt_pow2; [lia|]. eapply N.le_lt_trans; [apply N.log2_lxor|].
  assert (Q : forall z, z < 256 -> N.log2 z < 8).
  { intros z Hz. destruct (N.eq_dec z 0) as [->|]; [reflexivity|]. apply N.log2_lt_pow2; [lia|exact Hz]. }
  apply N.max_lub_lt; apply Q; assumption.
Qed.
Lemma xor_loop_spec cx pd pa pb a b dst0 : int_size pd -> int_size pa -> int_size pb -> words (bits pa) a -> words (bits pb) b ->
  forall n i dst, (i + n <= length a * pa)%nat -> (i + n <= length b * pb)%nat -> (i + n <= length dst * pd)%nat ->
  length dst = length dst0 -> words (bits pd) dst ->
  arr_bytes (cx_big cx) pd dst = xors (arr_bytes (cx_big cx) pa a) (arr_bytes (cx_big cx) pb b) i ++ skipn i (arr_bytes (cx_big cx) pd dst0) ->
  exists dst', xor_loop cx pd pa pb dst a b i n = Some dst' /\ length dst' = length dst0 /\ words (bits pd) dst' /\
    arr_bytes (cx_big cx) pd dst' = xors (arr_bytes (cx_big cx) pa a) (arr_bytes (cx_big cx) pb b) (i + n) ++ skipn (i + n) (arr_bytes (cx_big cx) pd dst0).
Proof.
  intros Hpd Hpa Hpb Ha Hb. induction n as [|n IH]; intros i dst H1 H2 H3 Hl Hd Hi.
  - exists dst. rewrite Nat.add_0_r. repeat split; assumption.
  - cbn [xor_loop]. rewrite !mem_load_byte by (assumption || lia). cbn [bind].
    set (x := nth i (arr_bytes (cx_big cx) pa a) 0) in *. set (y := nth i (arr_bytes (cx_big cx) pb b) 0) in *.
    destruct (mem_stor_byte cx pd dst i (N.lxor x y)) as (d1 & E1 & L1 & W1 & A1);
      [assumption|assumption|lia|apply lxor_byte; apply nth_byte|].
    rewrite E1. cbn [bind]. destruct (IH (S i) d1) as (d2 & E2 & L2 & W2 & A2); [lia|lia|lia|lia|assumption| |].
    + assert (LX : forall k, length (xors (arr_bytes (cx_big cx) pa a) (arr_bytes (cx_big cx) pb b) k) = k) by (intros k; unfold xors; rewrite map_length, seq_length; reflexivity).
      rewrite A1, Hi, firstn_app, skipn_app, !LX, Nat.sub_diag, firstn_O, app_nil_r.
      rewrite firstn_all2 by (rewrite LX; lia). rewrite skipn_all_le by (rewrite LX; lia).
      replace (S i - i)%nat with 1%nat by lia. rewrite skipn_skipn. cbn [app].
      unfold xors at 2. replace (S i) with (i + 1)%nat by lia. rewrite seq_app, map_app, <- app_assoc. cbn [seq map app]. rewrite Nat.add_0_l.
      fold x y. replace (1 + i)%nat with (i + 1)%nat by lia. reflexivity.
    + exists d2. rewrite E2. replace (i + S n)%nat with (S i + n)%nat by lia. repeat split; assumption.
Qed.
Lemma mem_xor_spec cx pd pa pb dst a b n : int_size pd -> int_size pa -> int_size pb ->
  words (bits pd) dst -> words (bits pa) a -> words (bits pb) b ->
  (n <= length a * pa)%nat -> (n <= length b * pb)%nat -> (n <= length dst * pd)%nat ->
  exists dst', mem_xor cx pd pa pb dst a b n = Some dst' /\ length dst' = length dst /\ words (bits pd) dst' /\
    arr_bytes (cx_big cx) pd dst' =
      map (fun i => N.lxor (nth i (arr_bytes (cx_big cx) pa a) 0) (nth i (arr_bytes (cx_big cx) pb b) 0)) (seq 0 n) ++
      skipn n (arr_bytes (cx_big cx) pd dst).
Proof.
  intros Hpd Hpa Hpb Hd Ha Hb H1 H2 H3. unfold mem_xor.
  apply (xor_loop_spec cx pd pa pb a b dst) with (i := 0%nat); try assumption; reflexivity.
Qed.
