(** The differential test of ciphers. *)
From Verif Require Import Base BaseLemmas Proof_ShaCore Proof_Range Spec_Bytes BytesLemmas Proof_Memory Proof_Memory2 Model_Memory Model_Container Model_Cipher Spec_ChaCha Spec_Cipher
  Proof_ChaChaCore Proof_ChaCha Model_Test Spec_Test Proof_Test Proof_Range.
Local Open Scope N_scope.

(** *** Keys *)
Lemma rounds_length len i : length (rounds len i) = len.
Proof. unfold rounds. rewrite map_length, seq_length. reflexivity. Qed.
Lemma rounds_bytes len i : bytes (rounds len i).
Proof.
  apply Forall_forall. intros x Hx. apply in_map_iff in Hx. destruct Hx as (k & <- & _). unfold is_byte.
  destruct (k <? i)%nat; [apply N.mod_lt|]; lia.
Qed.
Lemma rounds_nth len i p : (p < len)%nat ->
  nth p (rounds len i) 0 = if (p <? i)%nat then N.of_nat (p + len * ((i - 1 - p) / len)) mod 256 else 0.
Proof.
  intros H. unfold rounds. set (f := fun p => if (p <? i)%nat then N.of_nat (p + len * ((i - 1 - p) / len)) mod 256 else 0).
  rewrite (nth_indep _ 0 (f 0%nat)) by (rewrite map_length, seq_length; exact H). rewrite map_nth, seq_nth by exact H. reflexivity.
Qed.
Lemma rounds_0 len : rounds len 0 = repeat 0 len.
Proof.
  apply (nth_ext _ _ 0 0); [rewrite rounds_length, repeat_length; reflexivity|].
  intros n Hn. rewrite rounds_length in Hn. rewrite rounds_nth by exact Hn. rewrite nth_repeat. reflexivity.
Qed.
Lemma rounds_next len i : (0 < len)%nat -> wr (rounds len i) (i mod len) (N.of_nat i mod 256) = Some (rounds len (S i)).
Proof.
  intros H. pose proof (Nat.mod_upper_bound i len ltac:(lia)) as Hm. pose proof (Nat.div_mod i len ltac:(lia)) as Hd.
  destruct (wr_nth (rounds len i) (i mod len) (N.of_nat i mod 256)) as (l & E & L & X); [rewrite rounds_length; exact Hm|].
  rewrite E. f_equal. rewrite rounds_length in L. apply (nth_ext _ _ 0 0); [rewrite rounds_length; exact L|].
  intros k Hk. rewrite L in Hk. rewrite X, !rounds_nth by exact Hk. destruct (Nat.eqb_spec k (i mod len)) as [->|Hne].
  - assert (i mod len <= i)%nat by (apply Nat.mod_le; lia). destruct (Nat.ltb_spec (i mod len) (S i)); [|lia].
    replace (S i - 1 - i mod len)%nat with ((i / len) * len)%nat by lia. rewrite Nat.div_mul by lia. f_equal. f_equal. lia.
  - destruct (Nat.ltb_spec k i).
    + destruct (Nat.ltb_spec k (S i)); [|lia]. f_equal. f_equal. f_equal. f_equal.
      set (a := ((i - 1 - k) / len)%nat). pose proof (Nat.div_mod (i - 1 - k) len ltac:(lia)) as D. fold a in D.
      pose proof (Nat.mod_upper_bound (i - 1 - k) len ltac:(lia)) as U. set (r := ((i - 1 - k) mod len)%nat) in *. clearbody a r.
      apply (Nat.div_unique _ _ _ (r + 1)); [|lia].
      destruct (Nat.eq_dec (r + 1) len) as [Er|]; [|lia]. exfalso. apply Hne.
      assert (Ei : i = (k + (a + 1) * len)%nat) by nia. rewrite Ei, Nat.mod_add by lia. symmetry. apply Nat.mod_small. exact Hk.
    + destruct (Nat.ltb_spec k (S i)); [|reflexivity]. assert (k = i) by lia. subst k. exfalso. apply Hne. symmetry. apply Nat.mod_small. exact Hk.
Qed.

(** *** A cipher as a black box *)
Lemma cipher_run_app B cx : forall a b o, cipher_run B cx o (a ++ b)
  = ('(o, x) <- cipher_run B cx o a ;; '(o, y) <- cipher_run B cx o b ;; Some (o, x ++ y)).
Proof.
  induction a as [|c a IH]; intros b o; cbn [app cipher_run].
  - cbn [bind]. destruct (cipher_run B cx o b) as [[? ?]|]; reflexivity.
  - destruct (cipher_step B cx o c) as [[q r]|]; [|reflexivity]. cbn [bind]. rewrite IH.
    destruct (cipher_run B cx q a) as [[q' x]|]; [|reflexivity]. cbn [bind].
    destruct (cipher_run B cx q' b) as [[q'' y]|]; reflexivity.
Qed.
Fixpoint where_to (key iv : list N) (pos : nat) (calls : list cipher_call) : list N * list N * nat :=
  match calls with
  | [] => (key, iv, pos)
  | CInit k v :: calls => where_to k v 0 calls
  | c :: calls => where_to key iv (pos + ctext c) calls
  end.
Lemma where_to_app : forall a b k v p, where_to k v p (a ++ b) = let '(k, v, p) := where_to k v p a in where_to k v p b.
Proof. induction a as [|c a IH]; intros b k v p; [reflexivity|]. destruct c; cbn [app where_to]; apply IH. Qed.
Lemma sexpected_app F : forall a b k v p, sexpected F k v p (a ++ b) = sexpected F k v p a ++ let '(k, v, p) := where_to k v p a in sexpected F k v p b.
Proof. induction a as [|c a IH]; intros b k v p; [reflexivity|]. destruct c; cbn [app where_to sexpected]; rewrite IH; reflexivity. Qed.
Definition at_pos (B : backend) (cx : ctx) (key iv : list N) (pos : nat) (o : cc_obj) : Prop :=
  exists k v calls outs, bytes k /\ bytes v /\ Forall ccall_ok calls /\ cipher_run B cx cc_new (CInit k v :: calls) = Some (o, outs) /\
    where_to k v 0 calls = (key, iv, pos).
Definition ready (B : backend) (cx : ctx) (o : cc_obj) : Prop := o = cc_new \/ exists key iv pos, at_pos B cx key iv pos o.

Lemma ready_init cx B F key iv o : streams cx B F -> bytes key -> bytes iv -> ready B cx o ->
  exists o', capie_initialize cx o key iv = Some o' /\ at_pos B cx key iv 0 o'.
Proof.
  intros [_ SF] Hk Hv [->|(k0 & v0 & p0 & k & v & calls & outs & Bk & Bv & Hc & R & W)].
  - destruct (SF key iv [] Hk Hv ltac:(constructor)) as (o & R). pose proof R as R'. cbn [cipher_run cipher_step] in R.
    destruct (capie_initialize cx cc_new key iv) as [o'|]; [|discriminate]. cbn [bind] in R. assert (o' = o) by congruence. subst o'.
    exists o. split; [reflexivity|]. exists key, iv, [], (CNone :: sexpected F key iv 0 []). repeat split; try assumption. constructor.
  - assert (Hc' : Forall ccall_ok (calls ++ [CInit key iv])) by (apply Forall_app; split; [exact Hc|constructor; [split; assumption|constructor]]).
    destruct (SF k v _ Bk Bv Hc') as (o' & R'). pose proof R' as R2. rewrite app_comm_cons, cipher_run_app, R in R2. cbn [bind cipher_run cipher_step] in R2.
    destruct (capie_initialize cx o key iv) as [o2|]; [|discriminate]. cbn [bind] in R2. assert (o2 = o') by congruence. subst o2.
    exists o'. split; [reflexivity|]. exists k, v, (calls ++ [CInit key iv]). eexists. split; [exact Bk|]. split; [exact Bv|]. split; [exact Hc'|]. split; [exact R'|].
    rewrite where_to_app, W. reflexivity.
Qed.
Lemma at_crypt cx B F dir key iv pos o m s n d : streams cx B F -> at_pos B cx key iv pos o -> bytes m ->
  (s + n <= length m)%nat -> (d + n <= length m)%nat -> apart d s n ->
  exists o', capie_crypt dir B cx o m s n d = Some (o', put m d (xor_with (F key iv) pos (slice m s n)), n) /\ at_pos B cx key iv (pos + n) o'.
Proof.
  intros [_ SF] (k & v & calls & outs & Bk & Bv & Hc & R & W) Hm Hs Hd Ha.
  assert (Hc' : Forall ccall_ok (calls ++ [CCrypt dir m s n d])) by (apply Forall_app; split; [exact Hc|constructor; [repeat split; assumption|constructor]]).
  destruct (SF k v _ Bk Bv Hc') as (o' & R').
  assert (R0 : outs = CNone :: sexpected F k v 0 calls). { destruct (SF k v calls Bk Bv Hc) as (? & R0). congruence. }
  pose proof R' as R2. rewrite app_comm_cons, cipher_run_app, R in R2. cbn [bind cipher_run cipher_step] in R2.
  rewrite sexpected_app, W in R2. cbn [sexpected cout] in R2.
  destruct (capie_crypt dir B cx o m s n d) as [[[o2 m2] n2]|]; [|discriminate]. cbn [bind] in R2.
  assert (E1 : o2 = o') by congruence. assert (E2 : outs ++ [CMem m2 n2] = (CNone :: sexpected F k v 0 calls) ++ [CMem (put m d (xor_with (F key iv) pos (slice m s n))) n])
    by (cbn [app]; congruence).
  apply app_inj_tail in E2. destruct E2 as [_ E2]. assert (m2 = put m d (xor_with (F key iv) pos (slice m s n))) by congruence. assert (n2 = n) by congruence. subst.
  exists o'. split; [reflexivity|]. exists k, v, (calls ++ [CCrypt dir m s n d]). eexists. split; [exact Bk|]. split; [exact Bv|]. split; [exact Hc'|]. split; [exact R'|].
  rewrite where_to_app, W. reflexivity.
Qed.

(** *** One pass over a buffer *)
Lemma mem_equal_c_bytes cx a b : bytes a -> bytes b -> exists r, mem_equal_c cx 1 1 a b = Some r /\ (r = true <-> a = b).
Proof.
  intros Ha Hb. destruct (mem_equal_c_spec cx 1 1 a b) as (r & E & H); try assumption; try (left; reflexivity).
  rewrite !arr_bytes_1 in H by assumption. eauto.
Qed.
Lemma cipher_pass_spec cx B F dir key iv size upd src dst o m : streams cx B F -> bytes key -> bytes iv -> ready B cx o -> bytes m -> (1 <= upd)%nat ->
  (src + size <= length m)%nat -> (dst + size <= length m)%nat -> (dst + size <= src \/ src + size <= dst)%nat ->
  exists o', cipher_pass dir B cx key iv size upd src dst o m = Some (o', put m dst (xor_with (F key iv) 0 (slice m src size))) /\ ready B cx o'.
Proof.
  intros SF Hk Hv Ro Hm Hu Hs Hd Ha. unfold cipher_pass. destruct (ready_init cx B F key iv o SF Hk Hv Ro) as (o1 & E1 & I1). rewrite E1. cbn [bind].
  match goal with |- exists o', update_loop ?p _ _ _ = _ /\ _ => set (piece := p) end.
  destruct (update_loop_spec piece (fun pos s => at_pos B cx key iv pos (fst s) /\ (pos <= size)%nat /\ snd s = put m dst (xor_with (F key iv) 0 (slice m src pos)))
              size upd (o1, m) Hu) as ((o2 & m2) & E2 & A2 & _ & M2).
  - intros [q mm] offs n (A & Ho & M) Hn H1. cbn [fst snd] in A, M. unfold piece.
    assert (Lx : length (xor_with (F key iv) 0 (slice m src offs)) = offs) by (rewrite xor_with_length; apply slice_length; lia).
    assert (Lm : length mm = length m) by (rewrite M; apply put_length; lia).
    assert (Bm : bytes mm).
    { rewrite M. apply put_bytes; [exact Hm|]. apply xor_with_bytes; [intros j; apply (proj1 SF); assumption|apply slice_bytes, Hm]. }
    destruct (at_crypt cx B F dir key iv offs q mm (src + offs) n (dst + offs) SF A Bm ltac:(lia) ltac:(lia) ltac:(right; lia)) as (q' & E & A').
    rewrite E. cbn [bind]. eexists. split; [reflexivity|]. cbn [fst snd]. split; [exact A'|]. split; [lia|].
    assert (Es : slice mm (src + offs) n = slice m (src + offs) n) by (rewrite M; apply slice_put_other; lia). rewrite Es, M.
    assert (Lp : length (xor_with (F key iv) offs (slice m (src + offs) n)) = n) by (rewrite xor_with_length; apply slice_length; lia).
    rewrite put_put by lia. f_equal. rewrite slice_app, xor_with_app. f_equal. f_equal. rewrite slice_length by lia. reflexivity.
  - cbn [fst snd]. split; [exact I1|]. split; [lia|]. symmetry. apply put_nil.
  - cbn [fst snd] in A2, M2. rewrite E2. exists o2. split; [rewrite M2; reflexivity|]. right. exists key, iv, size. exact A2.
Qed.
Lemma equal_at_spec cx m size i j : bytes m -> (i * size + size <= length m)%nat -> (j * size + size <= length m)%nat ->
  equal_at cx m size i j = Some (same_bytes (slice m (i * size) size) (slice m (j * size) size)).
Proof.
  intros Hm Hi Hj. unfold equal_at. rewrite !rds_slice by assumption. cbn [bind].
  assert (B1 : bytes (slice m (i * size) size)) by (apply slice_bytes, Hm). assert (B2 : bytes (slice m (j * size) size)) by (apply slice_bytes, Hm).
  destruct (mem_equal_c_bytes cx _ _ B1 B2) as (r & E & V). rewrite E. f_equal.
  destruct r, (same_bytes (slice m (i * size) size) (slice m (j * size) size)) eqn:Q; try reflexivity.
  - assert (T : slice m (i * size) size = slice m (j * size) size) by (apply V; reflexivity). apply same_bytes_spec in T. congruence.
  - apply same_bytes_spec in Q. apply V in Q. discriminate.
Qed.
Lemma xor_with_same f g : forall t p, xor_with f p t = xor_with g p t <-> forall j, (j < length t)%nat -> f (p + j)%nat = g (p + j)%nat.
Proof.
  induction t as [|a t IH]; intros p; cbn [xor_with length].
  - split; [intros _ j Hj; lia|reflexivity].
  - split.
    + intros H j Hj. assert (H1 : N.lxor a (f p) = N.lxor a (g p)) by congruence. assert (H2 : xor_with f (S p) t = xor_with g (S p) t) by congruence.
      destruct j as [|j]; [|rewrite <- Nat.add_succ_comm; apply IH; [exact H2|lia]]. rewrite Nat.add_0_r.
      assert (H3 : N.lxor a (N.lxor a (f p)) = N.lxor a (N.lxor a (g p))) by congruence. rewrite <- !N.lxor_assoc, !N.lxor_nilpotent, !N.lxor_0_l in H3. exact H3.
    + intros H. f_equal; [rewrite <- (Nat.add_0_r p); rewrite (H 0%nat) by lia; reflexivity|]. apply IH. intros j Hj. rewrite Nat.add_succ_comm. apply H. lia.
Qed.
Definition cipher_inv B0 B1 cx size i (s : cc_obj * cc_obj * list N) : Prop :=
  let '(o0, o1, m) := s in ready B0 cx o0 /\ ready B1 cx o1 /\ bytes m /\ length m = (5 * size)%nat /\ slice m 0 size = sample size i.
Lemma cipher_compare_spec cx B0 B1 F0 F1 key iv size i s n0 n1 : streams cx B0 F0 -> streams cx B1 F1 -> bytes key -> bytes iv ->
  cipher_inv B0 B1 cx size i s -> (1 <= n0)%nat -> (1 <= n1)%nat ->
  exists s', cipher_compare B0 B1 cx key iv size s n0 n1
    = Some (s', same_bytes (xor_with (F0 key iv) 0 (sample size i)) (xor_with (F1 key iv) 0 (sample size i))) /\ cipher_inv B0 B1 cx size i s'.
Proof.
  intros S0 S1 Hk Hv Is H0 H1. destruct s as [[o0 o1] m]. destruct Is as (R0 & R1 & Bm & Lm & D). unfold cipher_compare.
  set (x0 := xor_with (F0 key iv) 0 (sample size i)). set (x1 := xor_with (F1 key iv) 0 (sample size i)).
  assert (L0 : length x0 = size) by (unfold x0; rewrite xor_with_length; apply sample_length).
  assert (L1 : length x1 = size) by (unfold x1; rewrite xor_with_length; apply sample_length).
  assert (B0' : bytes x0) by (apply xor_with_bytes; [intros j; apply (proj1 S0); assumption|apply sample_bytes]).
  assert (B1' : bytes x1) by (apply xor_with_bytes; [intros j; apply (proj1 S1); assumption|apply sample_bytes]).
  destruct (cipher_pass_spec cx B0 F0 Encrypt key iv size n0 0 (1 * size) o0 m S0 Hk Hv R0 Bm H0 ltac:(lia) ltac:(lia) ltac:(lia)) as (p0 & E & Q0).
  rewrite E. clear E. cbn [bind]. rewrite D. fold x0. set (m1 := put m (1 * size) x0).
  assert (Lm1 : length m1 = (5 * size)%nat) by (unfold m1; rewrite put_length; lia).
  assert (Bm1 : bytes m1) by (apply put_bytes; assumption).
  assert (D1 : slice m1 0 size = sample size i) by (rewrite <- D; apply slice_put_other; lia).
  destruct (cipher_pass_spec cx B1 F1 Encrypt key iv size n1 0 (3 * size) o1 m1 S1 Hk Hv R1 Bm1 H1 ltac:(lia) ltac:(lia) ltac:(lia)) as (p1 & E & Q1).
  rewrite E. clear E. cbn [bind]. rewrite D1. fold x1. set (m2 := put m1 (3 * size) x1).
  assert (Lm2 : length m2 = (5 * size)%nat) by (unfold m2; rewrite put_length; lia).
  assert (Bm2 : bytes m2) by (apply put_bytes; assumption).
  assert (D2 : slice m2 0 size = sample size i) by (rewrite <- D1; apply slice_put_other; lia).
  assert (X0 : slice m2 (1 * size) size = x0).
  { transitivity (slice m1 (1 * size) size); [apply slice_put_other; lia|]. rewrite <- L0 at 2. apply slice_put_same. lia. }
  assert (X1 : slice m2 (3 * size) size = x1) by (rewrite <- L1 at 2; apply slice_put_same; lia).
  rewrite equal_at_spec by (try exact Bm2; lia). rewrite X0, X1. cbn [bind].
  destruct (same_bytes x0 x1) eqn:Q; cbn [negb].
  2:{ eexists. split; [reflexivity|]. repeat split; assumption. }
  apply same_bytes_spec in Q.
  destruct (cipher_pass_spec cx B0 F0 Decrypt key iv size n0 (3 * size) (2 * size) p0 m2 S0 Hk Hv Q0 Bm2 H0 ltac:(lia) ltac:(lia) ltac:(lia)) as (q0 & E & T0).
  rewrite E. clear E. cbn [bind]. assert (Tw0 : xor_with (F0 key iv) 0 x0 = sample size i) by (apply xor_with_twice). rewrite X1, <- Q, Tw0. set (m3 := put m2 (2 * size) (sample size i)).
  pose proof (sample_length size i) as Ls. pose proof (sample_bytes size i) as Bs.
  assert (Lm3 : length m3 = (5 * size)%nat) by (unfold m3; rewrite put_length; lia).
  assert (Bm3 : bytes m3) by (apply put_bytes; assumption).
  assert (D3 : slice m3 0 size = sample size i) by (rewrite <- D2; apply slice_put_other; lia).
  assert (X3 : slice m3 (1 * size) size = x1) by (rewrite <- Q, <- X0; apply slice_put_other; lia).
  assert (Y3 : slice m3 (2 * size) size = sample size i) by (rewrite <- Ls at 2; apply slice_put_same; lia).
  destruct (cipher_pass_spec cx B1 F1 Decrypt key iv size n1 (1 * size) (4 * size) p1 m3 S1 Hk Hv Q1 Bm3 H1 ltac:(lia) ltac:(lia) ltac:(lia)) as (q1 & E & T1).
  rewrite E. clear E. cbn [bind]. assert (Tw1 : xor_with (F1 key iv) 0 x1 = sample size i) by (apply xor_with_twice). rewrite X3, Tw1. set (m4 := put m3 (4 * size) (sample size i)).
  assert (Lm4 : length m4 = (5 * size)%nat) by (unfold m4; rewrite put_length; lia).
  assert (Bm4 : bytes m4) by (apply put_bytes; assumption).
  assert (D4 : slice m4 0 size = sample size i) by (rewrite <- D3; apply slice_put_other; lia).
  assert (Y4 : slice m4 (2 * size) size = sample size i) by (rewrite <- Y3; apply slice_put_other; lia).
  assert (Z4 : slice m4 (4 * size) size = sample size i) by (rewrite <- Ls at 2; apply slice_put_same; lia).
  assert (K : same_bytes (sample size i) (sample size i) = true) by (apply same_bytes_spec; reflexivity).
  rewrite (equal_at_spec cx m4 size 0 2) by (try exact Bm4; lia). rewrite Y4. change (0 * size)%nat with 0%nat. rewrite D4, K. cbn [bind negb].
  rewrite (equal_at_spec cx m4 size 0 4) by (try exact Bm4; lia). rewrite Z4. change (0 * size)%nat with 0%nat. rewrite D4, K. cbn [bind negb].
  rewrite (equal_at_spec cx m4 size 2 4) by (try exact Bm4; lia). rewrite Y4, Z4, K. cbn [bind negb].
  eexists. split; [reflexivity|]. repeat split; assumption.
Qed.
Lemma cipher_loop_spec cx B0 B1 F0 F1 size steps : streams cx B0 F0 -> streams cx B1 F1 -> (2 * (size + 1) <= steps)%nat ->
  forall n i s, (i + n = size)%nat -> cipher_inv B0 B1 cx size i s ->
  exists v, cipher_loop B0 B1 cx size steps i n (S i) s (rounds 32 i) (rounds 16 i) = Some v /\
    (v = true <-> forall k j, (i <= k < size)%nat -> (j < size)%nat -> F0 (rounds 32 k) (rounds 16 k) j = F1 (rounds 32 k) (rounds 16 k) j).
Proof.
  intros S0 S1 Hst. induction n as [|n IH]; intros i s Hi Is.
  - exists true. split; [reflexivity|]. split; [intros _ k j Hk; lia|reflexivity].
  - cbn [cipher_loop]. set (key := rounds 32 i). set (iv := rounds 16 i).
    assert (Hk : bytes key) by apply rounds_bytes. assert (Hv : bytes iv) by apply rounds_bytes.
    set (b := same_bytes (xor_with (F0 key iv) 0 (sample size i)) (xor_with (F1 key iv) 0 (sample size i))).
    assert (Vb : b = true <-> forall j, (j < size)%nat -> F0 key iv j = F1 key iv j).
    { unfold b. rewrite same_bytes_spec, xor_with_same, sample_length. reflexivity. }
    destruct (size_loop_spec (cipher_compare B0 B1 cx key iv size) size (S i) (fun _ => cipher_inv B0 B1 cx size i) (fun _ => b) (passes size (S i)))
      with (r := passes size (S i)) (k := 0%nat) (s := s) (steps := steps) as (s' & k' & v & E & Q & V);
      [intros k Hk'; apply passes_in; [lia|exact Hk']|apply passes_out; lia| |lia| |exact Is|].
    + intros k t _ It. apply cipher_compare_spec; try assumption; apply le_n_S, Nat.le_0_l.
    + transitivity (2 * (size + 1))%nat; [|exact Hst]. unfold passes.
      apply Nat.mul_le_mono_l, Nat.add_le_mono_r. clear. apply Nat.lt_succ_r. apply Nat.div_lt_upper_bound; [lia|]. replace (S i * S size)%nat with (size + i * size + S i)%nat by lia. pose proof (Nat.le_0_l (i * size)). lia.
    + change (1 + S i * ((0 + 1) / 2))%nat with (1 + S i * 0)%nat in E. change (0 / 2)%nat with 0%nat in E. rewrite Nat.mul_0_r in E. change (1 + 0)%nat with 1%nat in E.
      rewrite E. cbn [bind]. assert (Evb : v = b).
      { destruct b; [apply V; reflexivity|]. destruct v; [|reflexivity].
        assert (1 <= passes size (S i))%nat by (unfold passes; lia). symmetry. apply (proj1 V eq_refl 0%nat). lia. }
      subst v. destruct b.
      * destruct s' as [[o0 o1] m]. destruct Q as (R0 & R1 & Bm & Lm & D).
        assert (W1 : wr key (i mod length key) (N.of_nat i mod 256) = Some (rounds 32 (S i))) by (unfold key; rewrite rounds_length; apply rounds_next; lia).
        assert (W2 : wr iv (i mod length iv) (N.of_nat i mod 256) = Some (rounds 16 (S i))) by (unfold iv; rewrite rounds_length; apply rounds_next; lia).
        rewrite W1. cbn [bind]. rewrite W2. cbn [bind]. rewrite wr_put by lia. cbn [bind]. clear W1 W2.
        destruct (IH (S i) (o0, o1, put m i [N.of_nat i mod 256])) as (v & E2 & V2); [lia| |].
        { split; [exact R0|]. split; [exact R1|]. split; [apply put_bytes; [exact Bm|constructor; [apply N.mod_lt; lia|constructor]]|].
          split; [rewrite put_length by (cbn [length]; lia); exact Lm|].
          pose proof (sample_next size i ltac:(lia)) as T. rewrite wr_put in T by (rewrite sample_length; lia).
          assert (T' : put (sample size i) i [N.of_nat i mod 256] = sample size (S i)) by congruence. rewrite <- T', <- D.
          apply list_ext.
          - rewrite put_length by (rewrite slice_length by lia; cbn [length]; lia). rewrite !slice_length; rewrite ?put_length; cbn [length]; lia.
          - intros q x Hq. rewrite slice_length in Hq by (rewrite put_length; cbn [length]; lia).
            rewrite nth_slice by exact Hq. rewrite !nth_put by (rewrite ?slice_length by lia; cbn [length]; lia). cbn [Nat.add].
            destruct ((i <=? q)%nat && (q <? i + length [(N.of_nat i mod 256)%N])%nat); [reflexivity|]. rewrite nth_slice by exact Hq. reflexivity. }
        exists v. split; [exact E2|]. rewrite V2. pose proof (proj1 Vb eq_refl) as G. split; intros H k j Hk' Hj.
        -- destruct (Nat.eq_dec k i) as [->|]; [apply G, Hj|apply H; lia].
        -- apply H; lia.
      * exists false. split; [reflexivity|]. split; [discriminate|]. intros H. apply Vb. intros j Hj. apply H; lia.
Qed.
Lemma cipher_differential_spec cx B0 B1 F0 F1 size steps : streams cx B0 F0 -> streams cx B1 F1 -> (2 * (size + 1) <= steps)%nat ->
  exists v, cipher_differential_size B0 B1 cx size steps = Some v /\
    (v = true <-> forall i j, (i < size)%nat -> (j < size)%nat -> F0 (rounds 32 i) (rounds 16 i) j = F1 (rounds 32 i) (rounds 16 i) j).
Proof.
  intros S0 S1 Hst. unfold cipher_differential_size. rewrite <- (rounds_0 32), <- (rounds_0 16).
  destruct (cipher_loop_spec cx B0 B1 F0 F1 size steps S0 S1 Hst size 0%nat (cc_new, cc_new, repeat 0 (5 * size))) as (v & E & V); [lia| |].
  - split; [left; reflexivity|]. split; [left; reflexivity|]. split; [apply bytes_repeat0|]. split; [apply repeat_length|].
    rewrite sample_0. apply list_ext; [rewrite slice_length; rewrite ?repeat_length; lia|].
    intros q x Hq. rewrite slice_length in Hq by (rewrite repeat_length; lia). rewrite nth_slice by exact Hq.
    rewrite (nth_indep _ x 0) by (rewrite repeat_length; lia). rewrite (nth_indep (repeat 0 size) x 0) by (rewrite repeat_length; lia). rewrite !nth_repeat. reflexivity.
  - exists v. split; [exact E|]. rewrite V. split; intros H i j Hi Hj; apply H; lia.
Qed.
Lemma backend_streams cx B : backend_ok cx B -> streams cx B api_byte.
Proof.
  intros BO. split; [intros key iv j Hk Hv; rewrite api_byte_state; apply st_byte_byte|].
  intros key iv calls Hk Hv Hc. cbn [cipher_run cipher_step].
  destruct (initialize_spec cx B cc_new key iv cc_new_wf Hk Hv) as (o & E & I). rewrite E. cbn [bind].
  destruct (cipher_run_spec cx B BO calls key iv 0 o Hk Hv Hc I) as (o' & R & _). rewrite R. cbn [bind]. exists o'. f_equal. f_equal. f_equal.
  clear. generalize 0%nat. revert key iv. induction calls as [|c calls IH]; intros key iv p; [reflexivity|]. destruct c; cbn [sexpected cexpected]; rewrite IH; reflexivity.
Qed.
