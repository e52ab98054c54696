(** Ranges of a flat memory: reading and overwriting them. *)
From Verif Require Export Spec_Range.
From Verif Require Import Base BaseLemmas Proof_Memory2 Proof_ShaCore.
Local Open Scope nat_scope.

Section R.
  Context {A : Type}.
  Implicit Types (m l : list A).

  Lemma nth_skipn m (x : A) : forall s i, nth i (skipn s m) x = nth (s + i) m x.
  Proof.
    induction m as [|a m IH]; intros s i; destruct s; try reflexivity.
    - cbn [skipn Nat.add nth]. destruct i; reflexivity.
    - cbn [skipn Nat.add nth]. apply IH.
  Qed.
  Lemma slice_length m s n : s + n <= length m -> length (slice m s n) = n.
  Proof. intros H. unfold slice. rewrite firstn_length, skipn_length. lia. Qed.
  Lemma put_length m d l : d + length l <= length m -> length (put m d l) = length m.
  Proof. intros H. unfold put. rewrite !app_length, firstn_length, skipn_length. lia. Qed.
  Lemma put_nil m d : put m d [] = m.
  Proof. unfold put. cbn [app length]. rewrite Nat.add_0_r. apply firstn_skipn. Qed.

  Lemma nth_slice m s n i (x : A) : i < n -> nth i (slice m s n) x = nth (s + i) m x.
  Proof. intros H. unfold slice. rewrite nth_firstn_lt by assumption. apply nth_skipn. Qed.
  Lemma nth_put m l d i (x : A) : d + length l <= length m ->
    nth i (put m d l) x = if (d <=? i) && (i <? d + length l) then nth (i - d) l x else nth i m x.
  Proof.
    intros H. unfold put.
    destruct (Nat.leb_spec d i) as [H1|H1]; cbn [andb].
    - rewrite app_nth2 by (rewrite firstn_length; lia). rewrite firstn_length, Nat.min_l by lia.
      destruct (Nat.ltb_spec i (d + length l)) as [H2|H2].
      + rewrite app_nth1 by lia. reflexivity.
      + rewrite app_nth2 by lia. rewrite nth_skipn. f_equal. lia.
    - rewrite app_nth1 by (rewrite firstn_length; lia). apply nth_firstn_lt. lia.
  Qed.

  Lemma list_ext m l : length m = length l -> (forall i x, i < length m -> nth i m x = nth i l x) -> m = l.
  Proof.
    intros H E. destruct m as [|a m]; [destruct l; [reflexivity|discriminate]|].
    apply (nth_ext _ _ a a H). intros i Hi. apply E, Hi.
  Qed.

  Lemma put_put m d l l' e : e = d + length l -> d + length l + length l' <= length m ->
    put (put m d l) e l' = put m d (l ++ l').
  Proof.
    intros -> H. assert (P : length (put m d l) = length m) by (apply put_length; lia).
    apply list_ext.
    - rewrite !put_length; rewrite ?app_length, ?put_length; lia.
    - intros i x _. rewrite (nth_put (put m d l)) by lia. rewrite !nth_put by (rewrite ?app_length; lia).
      rewrite app_length.
      repeat match goal with |- context [Nat.leb ?a ?b] => destruct (Nat.leb_spec a b) end;
      repeat match goal with |- context [Nat.ltb ?a ?b] => destruct (Nat.ltb_spec a b) end; cbn [andb]; try lia; try reflexivity.
      + rewrite app_nth2 by lia. f_equal. lia.
      + rewrite app_nth1 by lia. reflexivity.
  Qed.
  Lemma slice_put_other m d l s n : d + length l <= length m -> s + n <= length m ->
    d + length l <= s \/ s + n <= d -> slice (put m d l) s n = slice m s n.
  Proof.
    intros H1 H2 H3. apply list_ext.
    - rewrite !slice_length; rewrite ?put_length; lia.
    - intros i x Hi. rewrite slice_length in Hi by (rewrite put_length; lia).
      rewrite !nth_slice by assumption. rewrite nth_put by assumption.
      destruct (Nat.leb_spec d (s + i)); destruct (Nat.ltb_spec (s + i) (d + length l)); cbn [andb]; try lia; reflexivity.
  Qed.
  Lemma slice_put_same m d l : d + length l <= length m -> slice (put m d l) d (length l) = l.
  Proof.
    intros H. apply list_ext.
    - apply slice_length. rewrite put_length; lia.
    - intros i x Hi. rewrite slice_length in Hi by (rewrite put_length; lia).
      rewrite nth_slice by assumption. rewrite nth_put by assumption.
      destruct (Nat.leb_spec d (d + i)); destruct (Nat.ltb_spec (d + i) (d + length l)); cbn [andb]; try lia.
      f_equal. lia.
  Qed.
  Lemma slice_slice m s n a b : a + b <= n -> slice (slice m s n) a b = slice m (s + a) b.
  Proof.
    intros H. unfold slice. rewrite skipn_firstn_comm, skipn_skipn, firstn_firstn.
    replace (a + s) with (s + a) by lia. f_equal. lia.
  Qed.
  Lemma slice_app m s a b : slice m s (a + b) = slice m s a ++ slice m (s + a) b.
  Proof.
    unfold slice. rewrite (Nat.add_comm s a), <- (skipn_skipn a s m).
    generalize (skipn s m) as l. clear. induction a as [|a IH]; intros l; [reflexivity|].
    destruct l as [|x l]; [cbn; rewrite firstn_nil; reflexivity|]. cbn [Nat.add firstn skipn app]. f_equal. apply IH.
  Qed.
  Lemma slice_0 m n : slice m 0 n = firstn n m.
  Proof. reflexivity. Qed.
  Lemma slice_all m : slice m 0 (length m) = m.
  Proof. apply firstn_all. Qed.

  Lemma rd_nth m i (x : A) : i < length m -> rd m i = Some (nth i m x).
  Proof. intros H. unfold rd. apply nth_error_nth'. exact H. Qed.
  Lemma wrs_put m d l : d + length l <= length m -> wrs m d l = Some (put m d l).
  Proof. apply wrs_some. Qed.
  Lemma wr_put m d x : d < length m -> wr m d x = Some (put m d [x]).
  Proof. intros H. apply wrs_some. cbn. lia. Qed.
  Lemma rds_slice m s n : s + n <= length m -> rds m s n = Some (slice m s n).
  Proof. apply rds_some. Qed.
End R.

Lemma slice_bytes m s n : bytes m -> bytes (slice m s n).
Proof. intros H. apply bytes_firstn, bytes_skipn, H. Qed.
Lemma put_bytes m d l : bytes m -> bytes l -> bytes (put m d l).
Proof.
  intros H1 H2. apply bytes_app. split; [apply bytes_firstn, H1|]. apply bytes_app. split; [exact H2|apply bytes_skipn, H1].
Qed.
