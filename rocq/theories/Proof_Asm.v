(** Lemmas about the address-level machine. *)
From Verif Require Import Base BaseLemmas Spec_Bytes Model_Memory BytesLemmas Model_X86 Model_ChaChaAsm Model_ShaAsm Model_Asm Proof_X86Sym Proof_ChaChaAsm.
Local Open Scope N_scope.

(** *** Memory *)
Lemma mread_length f a n : length (mread f a n) = n.
Proof. unfold mread. rewrite map_length, seq_length. reflexivity. Qed.
Lemma nth_mread f a n i : (i < n)%nat -> nth i (mread f a n) 0 = f (a + N.of_nat i).
Proof.
  intros H. unfold mread. rewrite nth_indep with (d' := f (a + N.of_nat 0)) by (rewrite map_length, seq_length; exact H).
  rewrite (map_nth (fun i => f (a + N.of_nat i))). rewrite seq_nth by exact H. reflexivity.
Qed.
Lemma list_ext (l1 l2 : list N) : length l1 = length l2 -> (forall i, (i < length l1)%nat -> nth i l1 0 = nth i l2 0) -> l1 = l2.
Proof. intros L H. apply (nth_ext l1 l2 0 0 L H). Qed.
Lemma mread_eq f a n l : length l = n -> (forall i, (i < n)%nat -> nth i l 0 = f (a + N.of_nat i)) -> mread f a n = l.
Proof.
  intros L H. apply list_ext; [rewrite mread_length; lia|]. intros i Hi. rewrite mread_length in Hi.
  rewrite nth_mread by exact Hi. symmetry. apply H. exact Hi.
Qed.
Lemma mread_ext f g a n : (forall x, a <= x < a + N.of_nat n -> f x = g x) -> mread f a n = mread g a n.
Proof. intros H. apply map_ext_in. intros i Hi. apply in_seq in Hi. apply H. lia. Qed.
Lemma mwrite_out f a l x : x < a \/ a + N.of_nat (length l) <= x -> mwrite f a l x = f x.
Proof. intros H. unfold mwrite. destruct (N.leb_spec a x), (N.ltb_spec x (a + N.of_nat (length l))); cbn [andb]; try reflexivity; lia. Qed.
Lemma mwrite_in f a l i : (i < length l)%nat -> mwrite f a l (a + N.of_nat i) = nth i l 0.
Proof.
  intros H. unfold mwrite. destruct (N.leb_spec a (a + N.of_nat i)), (N.ltb_spec (a + N.of_nat i) (a + N.of_nat (length l))); cbn [andb]; try lia.
  f_equal. lia.
Qed.
Lemma mread_mwrite f a l n : n = length l -> mread (mwrite f a l) a n = l.
Proof. intros ->. apply mread_eq; [reflexivity|]. intros i H. symmetry. apply mwrite_in. exact H. Qed.
Lemma mread_mwrite_out f a l x n : x + N.of_nat n <= a \/ a + N.of_nat (length l) <= x -> mread (mwrite f a l) x n = mread f x n.
Proof. intros H. apply mread_ext. intros y Hy. apply mwrite_out. lia. Qed.
Lemma mread_app f a n m : mread f a (n + m) = mread f a n ++ mread f (a + N.of_nat n) m.
Proof.
  unfold mread. rewrite seq_app, map_app. f_equal. rewrite (seq_from (0 + n)), map_map. apply map_ext. intros i. f_equal. lia.
Qed.
Lemma mread_firstn f a n m : (m <= n)%nat -> firstn m (mread f a n) = mread f a m.
Proof.
  intros H. replace n with (m + (n - m))%nat by lia. rewrite mread_app.
  rewrite firstn_app, mread_length, Nat.sub_diag, firstn_O, app_nil_r. apply firstn_all2. rewrite mread_length. lia.
Qed.
Lemma mread_skipn f a n m : (m <= n)%nat -> skipn m (mread f a n) = mread f (a + N.of_nat m) (n - m).
Proof.
  intros H. replace n with (m + (n - m))%nat at 1 by lia. rewrite mread_app.
  rewrite skipn_app, mread_length, Nat.sub_diag, skipn_O. rewrite skipn_all_le by (rewrite mread_length; lia). reflexivity.
Qed.
Lemma mread_bytes f a n : (forall x, is_byte (f x)) -> bytes (mread f a n).
Proof. intros H. apply Forall_forall. intros x Hx. apply in_map_iff in Hx. destruct Hx as (i & <- & _). apply H. Qed.
Lemma nth_bytes l i : bytes l -> nth i l 0 < 256.
Proof.
  intros B. destruct (Nat.lt_ge_cases i (length l)) as [H|H].
  - exact (proj1 (Forall_forall _ _) B _ (nth_In l 0 H)).
  - rewrite nth_overflow by exact H. lia.
Qed.
Lemma mwrite_bytes f a l : (forall x, is_byte (f x)) -> bytes l -> forall x, is_byte (mwrite f a l x).
Proof. intros H B x. unfold mwrite. destruct (_ && _); [apply nth_bytes; exact B|apply H]. Qed.

(** *** Effective addresses *)
Lemma ea_add c r n : c_gpr c r + n < 2 ^ 64 -> ea c r (Z.of_N n) = c_gpr c r + n.
Proof.
  intros H. unfold ea. rewrite Z.mod_small; [lia|]. split; [lia|].
  change (2 ^ 64)%Z with (Z.of_N (2 ^ 64)). lia.
Qed.
Lemma ea_nat c r n : c_gpr c r + N.of_nat n < 2 ^ 64 -> ea c r (Z.of_nat n) = c_gpr c r + N.of_nat n.
Proof. intros H. rewrite <- ea_add by exact H. f_equal. lia. Qed.
Lemma ea_sub c r n : n <= c_gpr c r -> c_gpr c r < 2 ^ 64 -> ea c r (- Z.of_N n) = c_gpr c r - n.
Proof.
  intros H L. unfold ea. rewrite Z.mod_small; [lia|]. split; [lia|].
  change (2 ^ 64)%Z with (Z.of_N (2 ^ 64)). lia.
Qed.

(** *** Access rights *)
Lemma allowed_ok rt low c a n :
  a + N.of_nat n <= 2 ^ 64 -> (forall x, a <= x < a + N.of_nat n -> rt x = true) ->
  (forall x, a <= x < a + N.of_nat n -> x < low \/ c_gpr c rsp <= x) -> allowed rt low c a n = true.
Proof.
  intros H R F. unfold allowed. apply andb_true_intro. split; [apply N.leb_le; exact H|].
  apply forallb_forall. intros i Hi. apply in_seq in Hi. cbv zeta. rewrite R by lia. cbn [andb].
  destruct (F (a + N.of_nat i)) as [Q|Q]; [lia| |].
  - destruct (N.leb_spec low (a + N.of_nat i)); [lia|reflexivity].
  - destruct (N.ltb_spec (a + N.of_nat i) (c_gpr c rsp)); [lia|]. rewrite andb_false_r. reflexivity.
Qed.
Lemma load_ok s c a n :
  a + N.of_nat n <= 2 ^ 64 -> (forall x, a <= x < a + N.of_nat n -> sp_rd s x = true) ->
  (forall x, a <= x < a + N.of_nat n -> x < sp_low s \/ c_gpr c rsp <= x) -> load s c a n = Some (mread (c_mem c) a n).
Proof. intros H R F. unfold load. rewrite allowed_ok by assumption. reflexivity. Qed.
Lemma store_ok s c a l :
  a + N.of_nat (length l) <= 2 ^ 64 -> (forall x, a <= x < a + N.of_nat (length l) -> sp_wr s x = true) ->
  (forall x, a <= x < a + N.of_nat (length l) -> x < sp_low s \/ c_gpr c rsp <= x) ->
  store s c a l = Some (set_mem c (mwrite (c_mem c) a l)).
Proof. intros H R F. unfold store. rewrite allowed_ok by assumption. reflexivity. Qed.

(** *** Vectors *)
Lemma Forall_fs {A} (P : A -> Prop) n l : Forall P l -> Forall P (firstn n l) /\ Forall P (skipn n l).
Proof. intros H. rewrite <- (firstn_skipn n l) in H. apply Forall_app. exact H. Qed.
Lemma le_words_length n : forall k l, length (le_words n k l) = k.
Proof. intros k. induction k as [|k IH]; intros l; [reflexivity|]. cbn [le_words length]. rewrite IH. reflexivity. Qed.
Lemma blanes_length l : length (blanes l) = (length l / 4)%nat.
Proof. apply le_words_length. Qed.
Lemma le_words_words n : forall k l, bytes l -> words (8 * N.of_nat n) (le_words n k l).
Proof.
  intros k. induction k as [|k IH]; intros l B; [constructor|]. cbn [le_words].
  destruct (Forall_fs _ n _ B) as [B1 B2]. constructor; [|apply IH; exact B2].
  pose proof (le_dec_lt _ B1) as Q. unfold is_word. rewrite firstn_length in Q.
  eapply N.lt_le_trans; [exact Q|]. rewrite N.pow_mul_r. change (2 ^ 8) with 256. apply N.pow_le_mono_r; lia.
Qed.
Lemma blanes_words l : bytes l -> words 32 (blanes l).
Proof. intros B. exact (le_words_words 4 _ l B). Qed.
Lemma blanes_ok L l : bytes l -> length l = (4 * L)%nat -> vok L (blanes l).
Proof.
  intros B H. split; [|apply blanes_words; exact B]. rewrite blanes_length, H, Nat.mul_comm. apply Nat.div_mul. lia.
Qed.
Lemma vbytes_bytes v : bytes (vbytes v).
Proof. unfold vbytes. induction v as [|x v IH]; [constructor|]. cbn [flat_map]. apply Forall_app. split; [apply le_enc_bytes|exact IH]. Qed.
Lemma le_words_vbytes v : words 32 v -> le_words 4 (length v) (vbytes v) = v.
Proof.
  intros W. induction W as [|x v Hx W IH]; [reflexivity|]. cbn [length le_words]. unfold vbytes in *. cbn [flat_map].
  rewrite firstn_app, skipn_app, le_enc_length. rewrite firstn_all2, skipn_all_le by (rewrite le_enc_length; lia).
  rewrite Nat.sub_diag, firstn_O, skipn_O, app_nil_r. cbn [app]. rewrite IH. f_equal.
  rewrite le_dec_enc. apply N.mod_small. exact Hx.
Qed.
Lemma blanes_vbytes v : words 32 v -> blanes (vbytes v) = v.
Proof.
  intros W. unfold blanes. rewrite vbytes_length, Nat.mul_comm, Nat.div_mul by lia. apply le_words_vbytes. exact W.
Qed.
Lemma vbytes_blanes l n : bytes l -> length l = (4 * n)%nat -> vbytes (blanes l) = l.
Proof.
  intros B H. unfold blanes. rewrite H, Nat.mul_comm, Nat.div_mul by lia. revert l B H.
  induction n as [|n IH]; intros l B H.
  - destruct l; [reflexivity|cbn in H; lia].
  - cbn [le_words]. unfold vbytes in *. cbn [flat_map]. destruct (Forall_fs _ 4 _ B) as [B1 B2].
    rewrite (IH (skipn 4 l)); [|exact B2|rewrite skipn_length; lia].
    rewrite le_enc_dec; [apply firstn_skipn|exact B1|]. rewrite firstn_length. lia.
Qed.

(** The results of the operations. *)
Lemma list4 (a : vec) : length a = 4%nat -> exists x y z t, a = [x; y; z; t].
Proof. destruct a as [|x [|y [|z [|t [|]]]]]; try discriminate. eauto. Qed.
Lemma list8 (a : vec) : length a = 8%nat -> exists x y z t x' y' z' t', a = [x; y; z; t; x'; y'; z'; t'].
Proof. destruct a as [|x [|y [|z [|t [|x' [|y' [|z' [|t' [|]]]]]]]]]; try discriminate. eauto 9. Qed.
Lemma words_In v : words 32 v <-> forall x, In x v -> x < 2 ^ 32.
Proof. apply Forall_forall. Qed.
Lemma per128_ok f L a b : (L = 4%nat \/ L = 8%nat) ->
  (forall a0 a1 a2 a3 b0 b1 b2 b3, length (f a0 a1 a2 a3 b0 b1 b2 b3) = 4%nat /\
     forall x, In x (f a0 a1 a2 a3 b0 b1 b2 b3) -> In x [a0; a1; a2; a3; b0; b1; b2; b3]) ->
  vok L a -> vok L b -> vok L (per128 f a b).
Proof.
  intros HL Hf [La Wa] [Lb Wb].
  assert (Q : forall a0 a1 a2 a3 b0 b1 b2 b3, words 32 [a0; a1; a2; a3] -> words 32 [b0; b1; b2; b3] -> vok 4 (f a0 a1 a2 a3 b0 b1 b2 b3)).
  { intros a0 a1 a2 a3 b0 b1 b2 b3 Ha Hb. destruct (Hf a0 a1 a2 a3 b0 b1 b2 b3) as [H1 H2]. split; [exact H1|].
    apply words_In. intros x Hx. apply H2 in Hx. apply (proj1 (words_In ([a0; a1; a2; a3] ++ [b0; b1; b2; b3]))); [|exact Hx].
    apply Forall_app. split; assumption. }
  destruct HL; subst L.
  - destruct (list4 a La) as (a0 & a1 & a2 & a3 & ->). destruct (list4 b Lb) as (b0 & b1 & b2 & b3 & ->).
    cbn [per128]. rewrite app_nil_r. apply Q; assumption.
  - destruct (list8 a La) as (a0 & a1 & a2 & a3 & a4 & a5 & a6 & a7 & ->). destruct (list8 b Lb) as (b0 & b1 & b2 & b3 & b4 & b5 & b6 & b7 & ->).
    destruct (Forall_fs _ 4 _ Wa) as [Wa1 Wa2]. destruct (Forall_fs _ 4 _ Wb) as [Wb1 Wb2].
    cbn [per128]. rewrite app_nil_r. destruct (Q _ _ _ _ _ _ _ _ Wa1 Wb1) as [L1 W1]. destruct (Q _ _ _ _ _ _ _ _ Wa2 Wb2) as [L2 W2].
    split; [rewrite app_length; lia|apply Forall_app; split; assumption].
Qed.
Lemma fun3_ok o L a b : (L = 4%nat \/ L = 8%nat) -> vok L a -> vok L b -> vok L (fun3 o a b).
Proof.
  intros HL Ha Hb. destruct o; cbn [fun3]; [apply paddd_ok; assumption|apply pxor_ok; assumption|..];
    apply per128_ok; try assumption; intros; (split; [reflexivity|cbn; tauto]).
Qed.
Lemma sel4_in a0 a1 a2 a3 k : In (sel4 a0 a1 a2 a3 k) [a0; a1; a2; a3].
Proof. unfold sel4. cbn. destruct k as [|[p|[p|p|]|]]; auto. Qed.
Lemma pshufd_ok imm L a : (L = 4%nat \/ L = 8%nat) -> vok L a -> vok L (pshufd imm a).
Proof.
  intros HL Ha. unfold pshufd. apply per128_ok; try assumption. intros. split; [reflexivity|]. intros x Hx.
  change ([a0; a1; a2; a3; b0; b1; b2; b3]) with ([a0; a1; a2; a3] ++ [b0; b1; b2; b3]). apply in_or_app. left.
  destruct Hx as [<-|[<-|[<-|[<-|[]]]]]; apply sel4_in.
Qed.
Lemma half128_ok a b k : vok 8 a -> vok 8 b -> vok 4 (half128 a b k).
Proof.
  intros [La Wa] [Lb Wb]. destruct (Forall_fs _ 4 _ Wa) as [Wa1 Wa2]. destruct (Forall_fs _ 4 _ Wb) as [Wb1 Wb2].
  assert (Q : vok 4 (firstn 4 a) /\ vok 4 (skipn 4 a) /\ vok 4 (firstn 4 b) /\ vok 4 (skipn 4 b)).
  { unfold vok. rewrite !firstn_length, !skipn_length. unfold vec in *. rewrite La, Lb. repeat split; assumption. }
  destruct Q as (Q1 & Q2 & Q3 & Q4). unfold half128. destruct k as [|[p|[p|p|]|]]; assumption.
Qed.
Lemma vperm_ok imm a b : vok 8 a -> vok 8 b -> vok 8 (vperm2i128 imm a b).
Proof.
  intros Ha Hb. unfold vperm2i128. destruct (half128_ok a b (imm mod 4) Ha Hb) as [L1 W1]. destruct (half128_ok a b (imm / 16 mod 4) Ha Hb) as [L2 W2].
  split; [rewrite app_length; lia|apply Forall_app; split; assumption].
Qed.
Lemma shufb_16_ok src : forall mask, bytes src -> length (shufb_16 src mask) = length mask /\ bytes (shufb_16 src mask).
Proof.
  intros mask B. induction mask as [|b mask [IHl IHb]]; [split; [reflexivity|constructor]|]. cbn [shufb_16 length]. split; [lia|].
  constructor; [|exact IHb]. destruct (128 <=? b); [unfold is_byte; lia|]. apply nth_bytes. exact B.
Qed.
Lemma pshufb_ok L a mask : length mask = (4 * L)%nat -> vok L a -> vok L (pshufb a mask).
Proof.
  intros Hm [La Wa]. unfold pshufb, shufb_bytes. apply blanes_ok.
  - apply Forall_app. split; (apply shufb_16_ok; apply Forall_fs; apply vbytes_bytes).
  - rewrite app_length.
    rewrite (proj1 (shufb_16_ok _ (firstn 16 mask) (proj1 (Forall_fs _ 16 _ (vbytes_bytes a))))).
    rewrite (proj1 (shufb_16_ok _ (skipn 16 mask) (proj2 (Forall_fs _ 16 _ (vbytes_bytes a))))).
    rewrite firstn_length, skipn_length. lia.
Qed.
Lemma le_words_skip k : forall j l, skipn j (le_words 4 (j + k) l) = le_words 4 k (skipn (4 * j) l).
Proof.
  induction j as [|j IH]; intros l; [rewrite Nat.mul_0_r, !skipn_O; reflexivity|]. cbn [Nat.add le_words]. change (skipn (S j) (le_dec (firstn 4 l) :: le_words 4 (j + k) (skipn 4 l))) with (skipn j (le_words 4 (j + k) (skipn 4 l))). rewrite IH.
  rewrite skipn_skipn. f_equal. f_equal. lia.
Qed.
Lemma le_words_first k : forall j l, firstn j (le_words 4 (j + k) l) = le_words 4 j (firstn (4 * j) l).
Proof.
  induction j as [|j IH]; intros l; [reflexivity|]. cbn [Nat.add le_words]. change (firstn (S j) (le_dec (firstn 4 l) :: le_words 4 (j + k) (skipn 4 l))) with (le_dec (firstn 4 l) :: firstn j (le_words 4 (j + k) (skipn 4 l))). rewrite IH. f_equal.
  - f_equal. rewrite firstn_firstn. f_equal. lia.
  - f_equal. rewrite skipn_firstn_comm. f_equal. lia.
Qed.
Lemma blanes_range f a n j k : (j + k <= n)%nat ->
  firstn k (skipn j (blanes (mread f a (4 * n)))) = blanes (mread f (a + N.of_nat (4 * j)) (4 * k)).
Proof.
  intros H. unfold blanes. rewrite !mread_length. rewrite !(Nat.mul_comm 4), !Nat.div_mul by lia. rewrite !(Nat.mul_comm _ 4).
  replace n with (j + (k + (n - j - k)))%nat at 1 by lia. rewrite le_words_skip, le_words_first.
  rewrite mread_skipn, mread_firstn by lia. reflexivity.
Qed.
