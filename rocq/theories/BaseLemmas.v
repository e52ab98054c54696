(** Lemmas about the base notions. *)
From Verif Require Import Base.
From Coq Require Export ZifyBool ZifyNat ZifyN.

Lemma bind_some {A B} (x : A) (f : A -> option B) : bind (Some x) f = f x.
Proof. reflexivity. Qed.

Lemma skipn_all_le {A} (n : nat) (l : list A) : (length l <= n)%nat -> skipn n l = [].
Proof. intros H. apply length_zero_iff_nil. rewrite skipn_length. lia. Qed.

Lemma wrs_app {A} (pre mid post l : list A) (n : nat) :
  n = length pre -> length l = length mid ->
  wrs (pre ++ mid ++ post) n l = Some (pre ++ l ++ post).
Proof.
  intros -> Hl. unfold wrs.
  rewrite !app_length.
  destruct (Nat.leb_spec (length pre + length l) (length pre + (length mid + length post))); [|lia].
  f_equal. rewrite firstn_app, firstn_all, Nat.sub_diag. cbn [firstn]. rewrite app_nil_r.
  f_equal. f_equal.
  rewrite skipn_app, skipn_all_le by lia. cbn [app].
  replace (length pre + length l - length pre)%nat with (length mid) by lia.
  rewrite skipn_app, skipn_all_le, Nat.sub_diag by lia. reflexivity.
Qed.

Lemma wr_app {A} (pre post : list A) (x v : A) (n : nat) :
  n = length pre -> wr (pre ++ x :: post) n v = Some (pre ++ v :: post).
Proof. intros ->. unfold wr. apply (wrs_app pre [x] post [v]); reflexivity. Qed.

Lemma rds_app {A} (pre mid post : list A) (n m : nat) :
  n = length pre -> m = length mid -> rds (pre ++ mid ++ post) n m = Some mid.
Proof.
  intros -> ->. unfold rds. rewrite !app_length.
  destruct (Nat.leb_spec (length pre + length mid) (length pre + (length mid + length post))); [|lia].
  f_equal. rewrite skipn_app, skipn_all_le, Nat.sub_diag by lia. cbn [app skipn].
  rewrite firstn_app, firstn_all, Nat.sub_diag. cbn [firstn]. apply app_nil_r.
Qed.

Lemma rd_app {A} (pre post : list A) (x : A) (n : nat) :
  n = length pre -> rd (pre ++ x :: post) n = Some x.
Proof. intros ->. unfold rd. rewrite nth_error_app2, Nat.sub_diag by lia. reflexivity. Qed.

Lemma rd_some {A} (l : list A) (i : nat) : (i < length l)%nat -> exists x, rd l i = Some x.
Proof.
  intros H. unfold rd. destruct (nth_error l i) eqn:E; [eauto|].
  apply nth_error_None in E. lia.
Qed.

Lemma wr_some {A} (l : list A) (i : nat) (v : A) :
  (i < length l)%nat ->
  exists l1 x l2, l = l1 ++ x :: l2 /\ length l1 = i /\ wr l i v = Some (l1 ++ v :: l2).
Proof.
  intros H. exists (firstn i l).
  destruct (skipn i l) as [|x r] eqn:E.
  - assert (length (skipn i l) = 0)%nat by (rewrite E; reflexivity). rewrite skipn_length in *. lia.
  - exists x, r.
    assert (Hl : length (firstn i l) = i) by (rewrite firstn_length; lia).
    assert (Hs : l = firstn i l ++ x :: r) by (rewrite <- E; symmetry; apply firstn_skipn).
    repeat split; [exact Hs | exact Hl |].
    rewrite Hs at 1. apply wr_app. lia.
Qed.

(** Writing inside a prefix keeps the prefix length and the tail. *)
Lemma wr_prefix {A} (d tl : list A) (i : nat) (v : A) :
  (i < length d)%nat ->
  exists d', wr (d ++ tl) i v = Some (d' ++ tl) /\ length d' = length d.
Proof.
  intros H. destruct (wr_some d i v H) as (l1 & x & l2 & -> & Hl & _).
  exists (l1 ++ v :: l2). split.
  - rewrite <- !app_assoc. cbn [app]. apply wr_app. lia.
  - rewrite !app_length. reflexivity.
Qed.

Lemma wrs_length {A} (b b' : list A) (off : nat) (l : list A) :
  wrs b off l = Some b' -> length b' = length b.
Proof.
  unfold wrs. destruct (Nat.leb_spec (off + length l) (length b)); [|discriminate].
  intros [= <-]. rewrite !app_length, firstn_length, skipn_length. lia.
Qed.

Lemma wrs_some {A} (b : list A) (off : nat) (l : list A) :
  (off + length l <= length b)%nat ->
  wrs b off l = Some (firstn off b ++ l ++ skipn (off + length l) b).
Proof. intros H. unfold wrs. destruct (Nat.leb_spec (off + length l) (length b)); [reflexivity|lia]. Qed.

Lemma rds_some {A} (b : list A) (off n : nat) :
  (off + n <= length b)%nat -> rds b off n = Some (firstn n (skipn off b)).
Proof. intros H. unfold rds. destruct (Nat.leb_spec (off + n) (length b)); [reflexivity|lia]. Qed.

(** A statement decided for all 256 byte values. *)
Definition all_bytes : list N := map N.of_nat (seq 0 256).

Lemma byte_sweep (P : N -> bool) :
  forallb P all_bytes = true -> forall b, (b < 256)%N -> P b = true.
Proof.
  intros H b Hb. rewrite forallb_forall in H. apply H.
  unfold all_bytes. apply in_map_iff. exists (N.to_nat b). split; [lia|].
  apply in_seq. lia.
Qed.

Definition all_below (n : N) : list N := map N.of_nat (seq 0 (N.to_nat n)).

Lemma below_sweep (n : N) (P : N -> bool) :
  forallb P (all_below n) = true -> forall b, (b < n)%N -> P b = true.
Proof.
  intros H b Hb. rewrite forallb_forall in H. apply H.
  unfold all_below. apply in_map_iff. exists (N.to_nat b). split; [lia|].
  apply in_seq. lia.
Qed.

Lemma bytes_app (a b : list N) : bytes (a ++ b) <-> bytes a /\ bytes b.
Proof. apply Forall_app. Qed.

Lemma bytes_firstn n (l : list N) : bytes l -> bytes (firstn n l).
Proof. unfold bytes; intros H. rewrite <- (firstn_skipn n l) in H. apply Forall_app in H. tauto. Qed.

Lemma bytes_skipn n (l : list N) : bytes l -> bytes (skipn n l).
Proof. unfold bytes; intros H. rewrite <- (firstn_skipn n l) in H. apply Forall_app in H. tauto. Qed.

Lemma bytes_repeat0 n : bytes (repeat 0%N n).
Proof. induction n; constructor; auto. unfold is_byte; lia. Qed.

(** Disjoint or is addition. *)
Lemma land_shiftl_low a b k : (b < 2 ^ k)%N -> N.land (N.shiftl a k) b = 0%N.
Proof.
  intros H. apply N.bits_inj. intros i. rewrite N.land_spec, N.bits_0.
  destruct (N.lt_ge_cases i k) as [Hi|Hi].
  - rewrite N.shiftl_spec_low by assumption. reflexivity.
  - destruct (N.eq_dec b 0) as [->|Hb].
    + rewrite N.bits_0. apply andb_false_r.
    + rewrite (N.bits_above_log2 b i), andb_false_r; [reflexivity|].
      apply N.log2_lt_pow2; [lia|]. eapply N.lt_le_trans; [exact H|].
      apply N.pow_le_mono_r; lia.
Qed.

Lemma lor_shiftl_add a b k : (b < 2 ^ k)%N -> N.lor (N.shiftl a k) b = (a * 2 ^ k + b)%N.
Proof.
  intros H. pose proof (land_shiftl_low a b k H) as Hl.
  rewrite <- N.lxor_lor by assumption. rewrite <- N.add_nocarry_lxor by assumption.
  rewrite N.shiftl_mul_pow2. reflexivity.
Qed.

Lemma land_ones_mod x k : N.land x (2 ^ k - 1) = (x mod 2 ^ k)%N.
Proof. rewrite N.sub_1_r, <- N.ones_equiv. apply N.land_ones. Qed.

Lemma skipn_skipn {A} (x y : nat) (l : list A) : skipn x (skipn y l) = skipn (x + y) l.
Proof.
  revert l. induction y as [|y IH]; intros l.
  - rewrite Nat.add_0_r. reflexivity.
  - destruct l as [|a l]; [rewrite !skipn_nil; reflexivity|].
    rewrite Nat.add_succ_r. cbn [skipn]. apply IH.
Qed.
