(** Lemmas about little/big endian encodings and object representations. *)
From Verif Require Import Base BaseLemmas Spec_Bytes Model_Memory.
Local Open Scope N_scope.

Lemma pow256 n : 2 ^ bits n = 256 ^ N.of_nat n.
Proof. unfold bits. rewrite N.pow_mul_r. reflexivity. Qed.

Lemma bits_add a b : bits (a + b) = bits a + bits b.
Proof. unfold bits. lia. Qed.

Lemma pow256_S n : 256 ^ N.of_nat (S n) = 256 * 256 ^ N.of_nat n.
Proof. rewrite Nat2N.inj_succ, N.pow_succ_r'. reflexivity. Qed.

Lemma pow256_pos n : 0 < 256 ^ n.
Proof. apply N.neq_0_lt_0. apply N.pow_nonzero. lia. Qed.

Lemma le_enc_length n x : length (le_enc n x) = n.
Proof. revert x. induction n as [|n IH]; intros x; cbn [le_enc length]; [|rewrite IH]; reflexivity. Qed.

Lemma be_enc_length n x : length (be_enc n x) = n.
Proof. unfold be_enc. rewrite rev_length. apply le_enc_length. Qed.

Lemma obj_bytes_length b n x : length (obj_bytes b n x) = n.
Proof. destruct b; [apply be_enc_length|apply le_enc_length]. Qed.

Lemma le_enc_bytes n x : bytes (le_enc n x).
Proof.
  revert x. induction n as [|n IH]; intros x; cbn [le_enc]; constructor; [|apply IH].
  unfold is_byte. apply N.mod_lt. lia.
Qed.

Lemma bytes_rev l : bytes l -> bytes (rev l).
Proof. unfold bytes. intros H. apply Forall_rev. exact H. Qed.

Lemma be_enc_bytes n x : bytes (be_enc n x).
Proof. apply bytes_rev, le_enc_bytes. Qed.

Lemma obj_bytes_bytes b n x : bytes (obj_bytes b n x).
Proof. destruct b; [apply be_enc_bytes|apply le_enc_bytes]. Qed.

Lemma le_enc_app m n x : le_enc (m + n) x = le_enc m x ++ le_enc n (x / 256 ^ N.of_nat m).
Proof.
  revert x. induction m as [|m IH]; intros x.
  - cbn. rewrite N.div_1_r. reflexivity.
  - cbn [Nat.add le_enc app]. rewrite IH. do 2 f_equal. f_equal.
    rewrite pow256_S, N.div_div by (try apply N.pow_nonzero; lia). reflexivity.
Qed.

Lemma le_dec_enc n x : le_dec (le_enc n x) = x mod 256 ^ N.of_nat n.
Proof.
  revert x. induction n as [|n IH]; intros x.
  - cbn. rewrite N.mod_1_r. reflexivity.
  - cbn [le_enc le_dec]. rewrite IH, pow256_S.
    rewrite N.mod_mul_r by (try apply N.pow_nonzero; lia). reflexivity.
Qed.

Lemma le_enc_mod n x : le_enc n (x mod 256 ^ N.of_nat n) = le_enc n x.
Proof.
  revert x. induction n as [|n IH]; intros x; [reflexivity|].
  cbn [le_enc]. rewrite pow256_S.
  rewrite N.mod_mul_r by (try apply N.pow_nonzero; lia).
  f_equal.
  - rewrite (N.mul_comm 256), N.mod_add, N.mod_mod by lia. reflexivity.
  - replace ((x mod 256 + 256 * ((x / 256) mod 256 ^ N.of_nat n)) / 256)
      with ((x / 256) mod 256 ^ N.of_nat n); [apply IH|].
    rewrite (N.mul_comm 256), N.div_add by lia. rewrite (N.div_small (x mod 256)) by (apply N.mod_lt; lia).
    lia.
Qed.

Lemma le_dec_app a b : le_dec (a ++ b) = le_dec a + 256 ^ N.of_nat (length a) * le_dec b.
Proof.
  induction a as [|x a IH].
  - cbn [app le_dec length]. change (256 ^ N.of_nat 0) with 1. lia.
  - cbn [app le_dec length]. rewrite IH, pow256_S. lia.
Qed.

Lemma le_dec_lt l : bytes l -> le_dec l < 256 ^ N.of_nat (length l).
Proof.
  induction l as [|b l IH]; intros Hb.
  - cbn. lia.
  - inversion Hb as [|? ? Hx Hl]; subst. unfold is_byte in Hx. specialize (IH Hl).
    cbn [le_dec length]. rewrite pow256_S. lia.
Qed.

Lemma le_enc_dec l n : bytes l -> n = length l -> le_enc n (le_dec l) = l.
Proof.
  intros Hb ->. induction l as [|b l IH]; [reflexivity|].
  inversion Hb as [|? ? Hx Hl]; subst. unfold is_byte in Hx.
  cbn [length le_enc le_dec].
  rewrite (N.mul_comm 256), N.mod_add, N.div_add, N.mod_small, N.div_small by lia.
  rewrite N.add_0_l, IH by assumption. reflexivity.
Qed.

Lemma be_dec_fold l a : fold_left (fun a b => a * 256 + b) l a = a * 256 ^ N.of_nat (length l) + le_dec (rev l).
Proof.
  revert a. induction l as [|b l IH]; intros a.
  - cbn. lia.
  - cbn [fold_left rev length]. rewrite IH, le_dec_app, rev_length, pow256_S. cbn [le_dec]. lia.
Qed.

Lemma be_dec_le l : be_dec l = le_dec (rev l).
Proof. unfold be_dec. rewrite be_dec_fold. lia. Qed.

Lemma be_dec_enc n x : be_dec (be_enc n x) = x mod 256 ^ N.of_nat n.
Proof. rewrite be_dec_le. unfold be_enc. rewrite rev_involutive. apply le_dec_enc. Qed.

Lemma be_enc_dec l n : bytes l -> n = length l -> be_enc n (be_dec l) = l.
Proof.
  intros Hb ->. rewrite be_dec_le. unfold be_enc. rewrite le_enc_dec.
  - apply rev_involutive.
  - apply bytes_rev. exact Hb.
  - rewrite rev_length. reflexivity.
Qed.

Lemma be_dec_lt l : bytes l -> be_dec l < 256 ^ N.of_nat (length l).
Proof. intros H. rewrite be_dec_le, <- rev_length. apply le_dec_lt, bytes_rev, H. Qed.

Lemma be_dec_app a b : be_dec (a ++ b) = be_dec a * 256 ^ N.of_nat (length b) + be_dec b.
Proof. rewrite !be_dec_le, rev_app_distr, le_dec_app, rev_length. lia. Qed.

Lemma obj_value_bytes b n x : obj_value b (obj_bytes b n x) = x mod 2 ^ bits n.
Proof. rewrite pow256. destruct b; [apply be_dec_enc|apply le_dec_enc]. Qed.

Lemma obj_bytes_value b l n : bytes l -> n = length l -> obj_bytes b n (obj_value b l) = l.
Proof. destruct b; [apply be_enc_dec|apply le_enc_dec]. Qed.

Lemma obj_value_lt b l n : bytes l -> n = length l -> obj_value b l < 2 ^ bits n.
Proof. intros H ->. rewrite pow256. destruct b; [apply be_dec_lt|apply le_dec_lt]; assumption. Qed.

(** Arrays *)
Lemma arr_bytes_length b ps arr : length (arr_bytes b ps arr) = (length arr * ps)%nat.
Proof.
  unfold arr_bytes. induction arr as [|w arr IH]; [reflexivity|].
  cbn [flat_map length]. rewrite app_length, IH, obj_bytes_length. lia.
Qed.

Lemma arr_bytes_app b ps x y : arr_bytes b ps (x ++ y) = arr_bytes b ps x ++ arr_bytes b ps y.
Proof. apply flat_map_app. Qed.

Lemma arr_bytes_bytes b ps arr : bytes (arr_bytes b ps arr).
Proof.
  unfold arr_bytes. induction arr as [|w arr IH]; [constructor|].
  cbn [flat_map]. apply bytes_app. split; [apply obj_bytes_bytes|apply IH].
Qed.

Lemma arr_of_bytes_arr b ps arr : words (bits ps) arr -> arr_of_bytes b ps (length arr) (arr_bytes b ps arr) = arr.
Proof.
  induction arr as [|w arr IH]; intros Hw; [reflexivity|].
  inversion Hw as [|? ? Hx Hl]; subst. unfold is_word in Hx.
  unfold arr_bytes in *. cbn [flat_map length arr_of_bytes].
  rewrite firstn_app, firstn_all2 by (rewrite obj_bytes_length; lia).
  rewrite obj_bytes_length, Nat.sub_diag. cbn [firstn]. rewrite app_nil_r, obj_value_bytes, N.mod_small by assumption.
  f_equal. rewrite skipn_app, skipn_all_le, obj_bytes_length, Nat.sub_diag by (rewrite obj_bytes_length; lia).
  cbn [app skipn]. apply IH. assumption.
Qed.

Lemma arr_bytes_arr_of b ps k : forall l, bytes l -> length l = (k * ps)%nat ->
  arr_bytes b ps (arr_of_bytes b ps k l) = l.
Proof.
  induction k as [|k IH]; intros l Hb Hl.
  - destruct l; [reflexivity|discriminate].
  - unfold arr_bytes in *. cbn [arr_of_bytes flat_map]. rewrite IH.
    + rewrite obj_bytes_value.
      * apply firstn_skipn.
      * apply bytes_firstn. assumption.
      * rewrite firstn_length. lia.
    + apply bytes_skipn. assumption.
    + rewrite skipn_length. lia.
Qed.

Lemma arr_of_bytes_length b ps k : forall l, length (arr_of_bytes b ps k l) = k.
Proof. induction k as [|k IH]; intros l; cbn [arr_of_bytes length]; [|rewrite IH]; reflexivity. Qed.

Lemma arr_of_bytes_words b ps k : forall l, bytes l -> length l = (k * ps)%nat ->
  words (bits ps) (arr_of_bytes b ps k l).
Proof.
  induction k as [|k IH]; intros l Hb Hl; [constructor|].
  cbn [arr_of_bytes]. constructor.
  - apply obj_value_lt; [apply bytes_firstn; assumption|rewrite firstn_length; lia].
  - apply IH; [apply bytes_skipn; assumption|rewrite skipn_length; lia].
Qed.

(** Word arrays of single bytes are their own representation. *)
Lemma arr_bytes_1 b l : bytes l -> arr_bytes b 1 l = l.
Proof.
  unfold arr_bytes. induction l as [|x l IH]; intros Hb; [reflexivity|].
  inversion Hb as [|? ? Hx Hl]; subst. unfold is_byte in Hx. cbn [flat_map]. rewrite IH by assumption.
  destruct b; cbn; rewrite N.mod_small by assumption; reflexivity.
Qed.

Lemma firstn_skipn_rev {A} (l : list A) (a b : nat) : (a + b <= length l)%nat ->
  firstn b (skipn a (rev l)) = rev (firstn b (skipn (length l - a - b) l)).
Proof.
  intros H. rewrite skipn_rev, firstn_rev.
  rewrite firstn_length. f_equal.
  replace (Nat.min (length l - a) (length l) - b)%nat with (length l - a - b)%nat by lia.
  rewrite skipn_firstn_comm. f_equal. lia.
Qed.

Lemma firstn_skipn_le_enc n a b x : (a + b <= n)%nat ->
  firstn b (skipn a (le_enc n x)) = le_enc b (x / 256 ^ N.of_nat a).
Proof.
  intros H. replace n with (a + (b + (n - a - b)))%nat by lia.
  rewrite le_enc_app, skipn_app, skipn_all_le, le_enc_length, Nat.sub_diag by (rewrite le_enc_length; lia).
  cbn [app skipn]. rewrite le_enc_app, firstn_app, le_enc_length, Nat.sub_diag. cbn [firstn].
  rewrite app_nil_r, firstn_all2 by (rewrite le_enc_length; lia). reflexivity.
Qed.
