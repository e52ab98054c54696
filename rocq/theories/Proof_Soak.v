(** [update_block_soak]: block-wise absorption does not depend on the split of the input. *)
From Verif Require Import Base BaseLemmas Spec_Bytes Spec_Sha Model_Update.
Local Open Scope nat_scope.

Lemma iter_blocks_app {A} bs f (a b : nat) : forall (st : A) l,
  iter_blocks bs (a + b) f st l = iter_blocks bs b f (iter_blocks bs a f st l) (skipn (a * bs) l).
Proof.
  induction a as [|a IH]; intros st l; [reflexivity|].
  cbn [Nat.add iter_blocks]. rewrite IH. f_equal. rewrite skipn_skipn. f_equal. cbn [Nat.mul]. lia.
Qed.

Lemma iter_blocks_firstn {A} bs f n : forall (st : A) l k, n * bs <= k ->
  iter_blocks bs n f st (firstn k l) = iter_blocks bs n f st l.
Proof.
  induction n as [|n IH]; intros st l k H; [reflexivity|]. cbn [iter_blocks].
  rewrite firstn_firstn, Nat.min_l by lia. rewrite skipn_firstn_comm. apply IH. lia.
Qed.

Lemma iter_blocks_prefix {A} bs f n (st : A) l t : n * bs <= length l ->
  iter_blocks bs n f st (l ++ t) = iter_blocks bs n f st l.
Proof.
  intros H. rewrite <- (iter_blocks_firstn bs f n st (l ++ t) (length l)) by assumption.
  rewrite firstn_app, firstn_all, Nat.sub_diag, firstn_O, app_nil_r. reflexivity.
Qed.

Lemma iter_blocks_inv {A} (ok : A -> Prop) bs f n : (forall st b, ok st -> bytes b -> length b = bs -> ok (f st b)) ->
  forall (st : A) l, ok st -> bytes l -> n * bs <= length l -> ok (iter_blocks bs n f st l).
Proof.
  intros Hf. induction n as [|n IH]; intros st l Hs Hb Hl; [assumption|]. cbn [iter_blocks].
  apply IH; [apply Hf; [assumption|apply bytes_firstn; assumption|rewrite firstn_length; lia]
            |apply bytes_skipn; assumption|rewrite skipn_length; lia].
Qed.

(** The state after absorbing [m] from [st], and what is left over. *)
Definition absorb {A} bs f (st : A) (m : list N) : A := iter_blocks bs (length m / bs) f st m.
Definition rest bs (m : list N) : list N := skipn (length m / bs * bs) m.

Lemma rest_length bs m : 0 < bs -> length (rest bs m) = length m mod bs.
Proof.
  intros H. unfold rest. rewrite skipn_length.
  pose proof (Nat.div_mod (length m) bs ltac:(lia)) as E. lia.
Qed.

Lemma rest_lt bs m : 0 < bs -> length (rest bs m) < bs.
Proof. intros H. rewrite rest_length by assumption. apply Nat.mod_upper_bound. lia. Qed.

Lemma rest_small bs m : length m < bs -> rest bs m = m.
Proof. intros H. unfold rest. rewrite Nat.div_small by assumption. reflexivity. Qed.

Lemma absorb_small {A} bs f (st : A) m : length m < bs -> absorb bs f st m = st.
Proof. intros H. unfold absorb. rewrite Nat.div_small by assumption. reflexivity. Qed.

Lemma div_rest_app bs m s : 0 < bs ->
  length (m ++ s) / bs = length m / bs + length (rest bs m ++ s) / bs.
Proof.
  intros H. rewrite !app_length, rest_length by assumption.
  pose proof (Nat.div_mod (length m) bs ltac:(lia)) as E.
  replace (length m + length s) with (length m / bs * bs + (length m mod bs + length s)) by lia.
  rewrite Nat.div_add_l by lia. reflexivity.
Qed.

Lemma skipn_app_le {A} n (l t : list A) : n <= length l -> skipn n (l ++ t) = skipn n l ++ t.
Proof. intros H. rewrite skipn_app. replace (n - length l) with 0 by lia. reflexivity. Qed.

Lemma div_mul_le a b : a / b * b <= a.
Proof. destruct b; [rewrite Nat.mul_0_r; lia|]. rewrite Nat.mul_comm. apply Nat.mul_div_le. lia. Qed.

Lemma absorb_app {A} bs f (st : A) m s : 0 < bs ->
  absorb bs f st (m ++ s) = absorb bs f (absorb bs f st m) (rest bs m ++ s).
Proof.
  intros H. unfold absorb at 1. rewrite div_rest_app by assumption. rewrite iter_blocks_app.
  pose proof (div_mul_le (length m) bs) as HL.
  rewrite iter_blocks_prefix by assumption. rewrite skipn_app_le by assumption. reflexivity.
Qed.

Lemma rest_app bs m s : 0 < bs -> rest bs (m ++ s) = rest bs (rest bs m ++ s).
Proof.
  intros H. unfold rest at 1. rewrite div_rest_app, Nat.mul_add_distr_r by assumption.
  rewrite Nat.add_comm, <- skipn_skipn.
  rewrite skipn_app_le by apply div_mul_le. reflexivity.
Qed.

Lemma rds_prefix {A} (l : list A) n : n <= length l -> rds l 0 n = Some (firstn n l).
Proof. intros H. rewrite rds_some by lia. reflexivity. Qed.

Section Soak.
  Context {St : Type} (ok : St -> Prop) (bs : nat) (f : St -> list N -> St)
          (invoke : nat -> St -> list N -> option St).
  Hypothesis Hbs : 0 < bs.
  Hypothesis Hok : forall st b, ok st -> bytes b -> length b = bs -> ok (f st b).
  Hypothesis Hinv : forall n st src, ok st -> bytes src -> n * bs <= length src ->
    invoke n st src = Some (iter_blocks bs n f st src).

  Lemma soak_spec buf size src st :
    ok st -> bytes buf -> bytes src -> size < bs -> bs <= length buf ->
    let m := firstn size buf ++ src in
    exists buf',
      update_block_soak bs invoke buf size src st = Some (buf', length m mod bs, absorb bs f st m) /\
      length buf' = length buf /\ bytes buf' /\ firstn (length m mod bs) buf' = rest bs m.
  Proof.
    intros Hs Hb Hsrc Hsz Hlen m.
    (* the tail part, from an empty buffer *)
    assert (Tail : forall b s st, ok st -> bytes b -> bytes s -> length b = length buf ->
      exists buf',
        (let full_blks := length s / bs in
         let last_size := length s mod bs in
         '(st, s) <- (if 0 <? full_blks
                      then st <- invoke full_blks st s ;; Some (st, skipn (full_blks * bs) s)
                      else Some (st, s)) ;;
         b <- (if 0 <? last_size then l <- rds s 0 last_size ;; wrs b 0 l else Some b) ;;
         Some (b, last_size, st)) = Some (buf', length s mod bs, absorb bs f st s) /\
        length buf' = length buf /\ bytes buf' /\ firstn (length s mod bs) buf' = rest bs s).
    { clear st Hs m. intros b s st Hs Hb' Hs' Hlb. cbv zeta.
      assert (E1 : (if 0 <? length s / bs
                    then st <- invoke (length s / bs) st s ;; Some (st, skipn (length s / bs * bs) s)
                    else Some (st, s)) = Some (absorb bs f st s, rest bs s)).
      { destruct (Nat.ltb_spec 0 (length s / bs)) as [H|H].
        - rewrite Hinv by (assumption || apply div_mul_le). reflexivity.
        - unfold absorb, rest. apply Nat.le_0_r in H. rewrite H. reflexivity. }
      rewrite E1. cbn [bind].
      pose proof (rest_length bs s Hbs) as HR. pose proof (rest_lt bs s Hbs) as HR'.
      destruct (Nat.ltb_spec 0 (length s mod bs)) as [H|H].
      - rewrite rds_prefix by lia. cbn [bind]. rewrite firstn_all2 by lia.
        rewrite wrs_some by lia. cbn [bind firstn app Nat.add].
        eexists. split; [reflexivity|]. split; [|split].
        + rewrite app_length, skipn_length. lia.
        + apply bytes_app. split; [apply bytes_skipn; assumption|apply bytes_skipn; assumption].
        + rewrite firstn_app, HR, Nat.sub_diag, firstn_O, app_nil_r. apply firstn_all2. lia.
      - cbn [bind]. eexists. split; [reflexivity|]. repeat split; [assumption|assumption|].
        replace (length s mod bs) with 0 by lia. symmetry. apply length_zero_iff_nil. lia. }
    unfold update_block_soak.
    assert (HF : length (firstn size buf) = size) by (rewrite firstn_length; lia).
    destruct (Nat.ltb_spec 0 size) as [Hz|Hz].
    - destruct (Nat.ltb_spec bs size) as [?|_]; [lia|].
      set (todo := Nat.min (bs - size) (length src)).
      rewrite rds_prefix by (unfold todo; lia). cbn [bind].
      assert (HT : length (firstn todo src) = todo) by (rewrite firstn_length; unfold todo; lia).
      rewrite wrs_some by (rewrite HT; unfold todo; lia). cbn [bind].
      set (buf1 := firstn size buf ++ firstn todo src ++ skipn (size + length (firstn todo src)) buf).
      assert (Hb1 : bytes buf1).
      { unfold buf1. apply bytes_app. split; [apply bytes_firstn; assumption|].
        apply bytes_app. split; [apply bytes_firstn; assumption|apply bytes_skipn; assumption]. }
      assert (Hl1 : length buf1 = length buf).
      { unfold buf1. rewrite !app_length, skipn_length, HF, HT. unfold todo. lia. }
      destruct (Nat.ltb_spec todo (bs - size)) as [Ht|Ht].
      + assert (Et : todo = length src) by (unfold todo in *; lia).
        assert (Lm : length m < bs) by (unfold m; rewrite app_length, HF; lia).
        exists buf1. rewrite absorb_small, rest_small, Nat.mod_small by assumption.
        unfold m at 1 2. rewrite app_length, HF, <- Et. repeat split; [assumption|assumption|].
        unfold buf1. rewrite app_assoc, firstn_app.
        rewrite app_length, HF, HT, Nat.sub_diag, firstn_O, app_nil_r.
        rewrite firstn_all2 by (rewrite app_length; lia). unfold m. f_equal.
        apply firstn_all2. lia.
      + assert (Et : todo = bs - size) by (unfold todo in *; lia).
        rewrite Hinv by (try assumption; lia). cbn [bind iter_blocks].
        assert (E1 : firstn bs buf1 = firstn size buf ++ firstn todo src).
        { unfold buf1. rewrite app_assoc, firstn_app, app_length, HF, HT.
          replace (bs - (size + todo)) with 0 by lia. rewrite firstn_O, app_nil_r.
          apply firstn_all2. rewrite app_length. lia. }
        rewrite E1.
        destruct (Tail buf1 (skipn todo src) (f st (firstn size buf ++ firstn todo src)))
          as (buf' & E & L' & B' & F').
        * apply Hok; [assumption| |rewrite app_length; lia].
          apply bytes_app. split; apply bytes_firstn; assumption.
        * assumption.
        * apply bytes_skipn. assumption.
        * assumption.
        * exists buf'.
          assert (Em : m = (firstn size buf ++ firstn todo src) ++ skipn todo src).
          { unfold m. rewrite <- app_assoc, firstn_skipn. reflexivity. }
          set (h := firstn size buf ++ firstn todo src) in *.
          assert (Lh : length h = bs) by (unfold h; rewrite app_length; lia).
          assert (Rh : rest bs h = []).
          { unfold rest. rewrite Lh, Nat.div_same, Nat.mul_1_l, <- Lh by lia. apply skipn_all. }
          assert (Ah : absorb bs f st h = f st h).
          { unfold absorb. rewrite Lh, Nat.div_same by lia. cbn [iter_blocks]. rewrite <- Lh, firstn_all. reflexivity. }
          rewrite Em, absorb_app, rest_app, Rh, Ah by assumption. cbn [app].
          assert (Lm : (length (h ++ skipn todo src)) mod bs = length (skipn todo src) mod bs).
          { rewrite app_length, Lh, Nat.add_comm. replace bs with (1 * bs) at 1 by lia. apply Nat.mod_add. lia. }
          rewrite Lm. split; [|auto]. exact E.
    - assert (size = 0) by lia. subst size. unfold m. cbn [firstn app].
      apply (Tail buf src st); assumption || reflexivity.
  Qed.
End Soak.
