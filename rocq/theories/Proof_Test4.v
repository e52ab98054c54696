(** The differential test of key derivation. *)
From Verif Require Import Base BaseLemmas BytesLemmas Spec_Bytes Spec_Range Spec_Hash Spec_Kdf Model_Memory Model_Update Model_Container
  Model_Sha Model_Mac Model_Hmac Model_Cipher Model_Kdf Proof_Memory Proof_Memory2 Proof_ShaCore Proof_Hmac Proof_Mac Proof_Kdf Proof_Kdf2 Proof_Kdf3 Spec_Sha Spec_Hmac Model_Test Spec_Test Proof_Test Proof_Range.
Local Open Scope N_scope.

Lemma derive_all_app cx K args : forall a b o, derive_all cx K args o (a ++ b)
  = ('(o, x) <- derive_all cx K args o a ;; '(o, y) <- derive_all cx K args o b ;; Some (o, x ++ y)).
Proof.
  induction a as [|[[[i env] key] n] a IH]; intros b o; cbn [app derive_all].
  - cbn [bind]. destruct (derive_all cx K args o b) as [[? ?]|]; reflexivity.
  - destruct (ka_initialize K cx env o (args i)) as [o1|]; [|reflexivity]. cbn [bind].
    destruct (ka_derive K cx env o1 key n) as [[[o2 k2] n2]|]; [|reflexivity]. cbn [bind]. rewrite IH.
    destruct (derive_all cx K args o2 a) as [[q' x]|]; [|reflexivity]. cbn [bind].
    destruct (derive_all cx K args q' b) as [[q'' y]|]; reflexivity.
Qed.
Lemma mem_equal_bytes cx a b n : bytes a -> bytes b -> (n <= length a)%nat -> (n <= length b)%nat ->
  exists r, mem_equal cx 1 1 a b n = Some r /\ (r = true <-> firstn n a = firstn n b).
Proof.
  intros Ha Hb H1 H2. destruct (mem_equal_spec cx 1 1 a b n) as (r & E & H); try assumption; try (left; reflexivity); try lia.
  rewrite !arr_bytes_1 in H by assumption. eauto.
Qed.
Definition kuse (size : nat) (u : nat * list N * list N * nat) : Prop := let '(i, env, key, n) := u in
    (i < size)%nat /\ bytes env /\ length env = size /\ bytes key /\ (n <= length key)%nat /\ (n < size)%nat.
Definition kreached cx K size args o : Prop := exists uses keys, Forall (kuse size) uses /\ derive_all cx K args (ka_new K) uses = Some (o, keys).
Lemma kreached_use cx K size args D o i env key n : derives cx K size args D -> kreached cx K size args o -> kuse size (i, env, key, n) ->
  exists o1 o2 z, ka_initialize K cx env o (args i) = Some o1 /\ ka_derive K cx env o1 key n = Some (o2, D i env n ++ skipn n key, z) /\ kreached cx K size args o2.
Proof.
  intros [_ HD] (uses & keys & Hu & R) H.
  assert (Hu' : Forall (kuse size) (uses ++ [(i, env, key, n)])) by (apply Forall_app; split; [exact Hu|constructor; [exact H|constructor]]).
  destruct (HD _ Hu') as (o2 & R2). destruct (HD _ Hu) as (o' & R1).
  assert (Ek : keys = map (fun u => let '(i, env, key, n) := u in D i env n ++ skipn n key) uses) by congruence.
  pose proof R2 as R3. rewrite derive_all_app, R in R3. cbn [bind derive_all] in R3.
  destruct (ka_initialize K cx env o (args i)) as [o1|]; [|discriminate]. cbn [bind] in R3.
  destruct (ka_derive K cx env o1 key n) as [[[o3 k3] n3]|] eqn:Ed; [|discriminate]. cbn [bind] in R3.
  rewrite map_app, <- Ek in R3. cbn [map] in R3.
  assert (E1 : o3 = o2) by congruence. assert (E2 : keys ++ [k3] = keys ++ [D i env n ++ skipn n key]) by congruence.
  apply app_inj_tail in E2. destruct E2 as [_ ->]. subst o3.
  exists o1, o2, n3. split; [reflexivity|]. split; [exact Ed|]. eexists. eexists. split; [exact Hu'|exact R2].
Qed.
Section D.
  Variables (cx : ctx) (K0 K1 : kdf_alg) (size : nat) (a0 : nat -> ka_arg K0) (a1 : nat -> ka_arg K1) (D0 D1 : nat -> list N -> nat -> list N).
  Hypothesis H0 : derives cx K0 size a0 D0.
  Hypothesis H1 : derives cx K1 size a1 D1.
  Definition kinv (s : ka_obj K0 * ka_obj K1 * list N * list N) : Prop := let '(o0, o1, k0, k1) := s in
    kreached cx K0 size a0 o0 /\ kreached cx K1 size a1 o1 /\ bytes k0 /\ bytes k1 /\ length k0 = size /\ length k1 = size.
  Lemma kdf_sizes_spec i input : (i < size)%nat -> bytes input -> length input = size -> forall n j s, (j + n = size)%nat -> kinv s ->
    exists s' v, kdf_sizes cx K0 K1 (a0 i) (a1 i) input j n s = Some (s', v) /\ kinv s' /\
      (v = true <-> forall l, (j <= l < size)%nat -> D0 i input l = D1 i input l).
  Proof.
    intros Hi Bi Li. induction n as [|n IH]; intros j s Hj Is.
    - exists s, true. split; [reflexivity|]. split; [exact Is|]. split; [intros _ l Hl; lia|reflexivity].
    - destruct s as [[[o0 o1] k0] k1]. destruct Is as (R0 & R1 & B0 & B1 & L0 & L1). cbn [kdf_sizes].
      assert (U0 : kuse size (i, input, k0, j)) by (repeat split; try assumption; lia).
      assert (U1 : kuse size (i, input, k1, j)) by (repeat split; try assumption; lia).
      destruct (kreached_use cx K0 size a0 D0 o0 i input k0 j H0 R0 U0) as (p0 & q0 & z0 & I0 & E0 & Q0).
      destruct (kreached_use cx K1 size a1 D1 o1 i input k1 j H1 R1 U1) as (p1 & q1 & z1 & I1 & E1 & Q1).
      destruct (proj1 H0 i input k0 j U0) as [DB0 DL0]. destruct (proj1 H1 i input k1 j U1) as [DB1 DL1].
      rewrite I0. cbn [bind]. rewrite I1. cbn [bind]. rewrite E0. cbn [bind]. rewrite E1. cbn [bind].
      set (x0 := D0 i input j ++ skipn j k0). set (x1 := D1 i input j ++ skipn j k1).
      assert (X0 : bytes x0 /\ length x0 = size) by (split; [apply bytes_app; split; [exact DB0|apply bytes_skipn, B0]|unfold x0; rewrite app_length, skipn_length; lia]).
      assert (X1 : bytes x1 /\ length x1 = size) by (split; [apply bytes_app; split; [exact DB1|apply bytes_skipn, B1]|unfold x1; rewrite app_length, skipn_length; lia]).
      destruct (mem_equal_bytes cx x0 x1 j (proj1 X0) (proj1 X1)) as (r & E & V); [lia|lia|]. rewrite E. cbn [bind].
      assert (F0 : firstn j x0 = D0 i input j) by (unfold x0; rewrite firstn_app, DL0, Nat.sub_diag, firstn_O, app_nil_r; apply firstn_all2; lia).
      assert (F1 : firstn j x1 = D1 i input j) by (unfold x1; rewrite firstn_app, DL1, Nat.sub_diag, firstn_O, app_nil_r; apply firstn_all2; lia).
      rewrite F0, F1 in V. destruct r.
      + destruct (IH (S j) (q0, q1, x0, x1)) as (s' & v & E2 & I2 & V2); [lia|repeat split; try assumption; try apply X0; apply X1|].
        exists s', v. split; [exact E2|]. split; [exact I2|]. rewrite V2. pose proof (proj1 V eq_refl) as G. split; intros H l Hl.
        * destruct (Nat.eq_dec l j) as [->|]; [exact G|apply H; lia].
        * apply H; lia.
      + exists (q0, q1, x0, x1), false. split; [reflexivity|]. split; [repeat split; try assumption; try apply X0; apply X1|]. split; [discriminate|].
        intros H. apply V. apply H. lia.
  Qed.
  Lemma kdf_inputs_spec : forall n i s, (i + n = size)%nat -> kinv s ->
    exists v, kdf_inputs cx K0 K1 a0 a1 size i n s (sample size i) = Some v /\
      (v = true <-> forall k l, (i <= k < size)%nat -> (l < size)%nat -> D0 k (sample size k) l = D1 k (sample size k) l).
  Proof.
    induction n as [|n IH]; intros i s Hi Is.
    - exists true. split; [reflexivity|]. split; [intros _ k l Hk; lia|reflexivity].
    - cbn [kdf_inputs]. destruct (kdf_sizes_spec i (sample size i) ltac:(lia) (sample_bytes _ _) (sample_length _ _) size 0%nat s eq_refl Is) as (s' & v & E & I & V).
      rewrite E. cbn [bind]. destruct v.
      + rewrite sample_next by lia. cbn [bind]. destruct (IH (S i) s' ltac:(lia) I) as (v & E2 & V2). exists v. split; [exact E2|]. rewrite V2.
        pose proof (proj1 V eq_refl) as G. split; intros H k l Hk Hl.
        * destruct (Nat.eq_dec k i) as [->|]; [apply G; lia|apply H; lia].
        * apply H; lia.
      + exists false. split; [reflexivity|]. split; [discriminate|]. intros H. apply V. intros l Hl. apply H; lia.
  Qed.
  Lemma kdf_differential_spec : exists v, kdf_differential_size cx K0 K1 a0 a1 size = Some v /\
      (v = true <-> forall i j, (i < size)%nat -> (j < size)%nat -> D0 i (sample size i) j = D1 i (sample size i) j).
  Proof.
    unfold kdf_differential_size.
    destruct (kdf_inputs_spec size 0%nat (ka_new K0, ka_new K1, repeat 0 size, repeat 0 size)) as (v & E & V); [lia| |].
    - split; [exists [], []; split; [constructor|reflexivity]|]. split; [exists [], []; split; [constructor|reflexivity]|].
      repeat split; try (apply bytes_repeat0); apply repeat_length.
    - rewrite sample_0 in E. exists v. split; [exact E|]. rewrite V. split; intros H i j Hi Hj; apply H; lia.
  Qed.
End D.

(** *** HKDF and PBKDF2 *)
Section Ok.
  Context {K : kdf_alg} {cx : ctx} {V : Type} {D : V -> nat -> list N} {lim : nat -> nat -> Prop}
    {argv : list N -> ka_arg K -> V -> Prop} {keq : list N -> ka_obj K -> ka_obj K -> Prop}
    {hold : V -> nat -> ka_obj K -> Prop} {sees : list N -> V -> ka_obj K -> Prop}
    {later : list N -> ka_arg K -> V -> Prop}
    (OK : kdf_ok K cx D lim argv keq hold sees later).
  Context (size : nat) (args : nat -> ka_arg K) (val : nat -> list N -> V).
  Hypothesis Hmove : forall env env' o, keq env o o -> length env' = length env -> bytes env' -> length env' = size -> keq env' o o.
  Hypothesis Hval : forall i env, (i < size)%nat -> bytes env -> length env = size -> argv env (args i) (val i env).
  Hypothesis Hlim : forall n, (n < size)%nat -> lim 0%nat n.
  Lemma ok_derives : derives cx K size args (fun i env n => D (val i env) n).
  Proof.
    assert (ST : forall i env key n o, (i < size)%nat /\ bytes env /\ length env = size /\ bytes key /\ (n <= length key)%nat /\ (n < size)%nat -> keq env o o ->
              exists o1 o2, ka_initialize K cx env o (args i) = Some o1 /\ ka_derive K cx env o1 key n = Some (o2, D (val i env) n ++ skipn n key, n) /\ keq env o2 o2 /\ bytes (D (val i env) n)).
    { intros i env key n o (U1 & U2 & U3 & U4 & U5 & U6) E. pose proof (Hval i env U1 U2 U3) as A.
      destruct (ko_init _ _ _ _ _ _ _ _ _ OK env o o (args i) (val i env) E E A) as (o1 & oz & I1 & _ & E1 & H & S & _).
      pose proof (proj1 (ko_lr _ _ _ _ _ _ _ _ _ OK _ _ _ E1)) as E2.
      destruct (ko_hold _ _ _ _ _ _ _ _ _ OK env (val i env) 0 o1 key n H S (Hlim n U6) U4 U5) as (o2 & X & _).
      destruct (ko_der _ _ _ _ _ _ _ _ _ OK env o1 o1 n E2) as (r & Br & Lr & Y). destruct (Y key U4 U5) as (p1 & p2 & X1 & X2 & E3).
      exists o1, o2. split; [exact I1|]. split; [exact X|]. assert (p1 = o2) by congruence. subst p1.
      split; [apply (ko_lr _ _ _ _ _ _ _ _ _ OK _ _ _ E3)|].
      assert (Q : r ++ skipn n key = piece (D (val i env)) 0 n ++ skipn n key) by congruence. apply app_inv_tail in Q.
      change (piece (D (val i env)) 0 n) with (D (val i env) n) in Q. rewrite <- Q. exact Br. }
    split.
    - intros i env key n U. destruct (ST i env key n (ka_new K) U (ko_new _ _ _ _ _ _ _ _ _ OK env)) as (_ & _ & _ & _ & _ & B). split; [exact B|].
      apply (ko_len _ _ _ _ _ _ _ _ _ OK env (args i)). apply Hval; apply U.
    - intros uses Hu. assert (G : forall o, (forall env, bytes env -> length env = size -> keq env o o) -> exists o', derive_all cx K args o uses
        = Some (o', map (fun u => let '(i, env, key, n) := u in D (val i env) n ++ skipn n key) uses)).
      { induction uses as [|[[[i env] key] n] uses IH]; intros o Ho; [exists o; reflexivity|]. inversion Hu as [|? ? U1 U2]; subst.
        assert (Eo : keq env o o) by (apply Ho; apply U1).
        destruct (ST i env key n o U1 Eo) as (o1 & o2 & I1 & X & E2 & _). cbn [derive_all map]. rewrite I1. cbn [bind]. rewrite X. cbn [bind].
        destruct (IH U2 o2) as (o' & R).
        - intros env' B' L'. destruct U1 as (_ & _ & L1 & _). apply (Hmove env env' o2 E2); [congruence|exact B'|exact L'].
        - rewrite R. cbn [bind]. exists o'. reflexivity. }
      apply G. intros env _ _. apply (ko_new _ _ _ _ _ _ _ _ _ OK env).
  Qed.
End Ok.
Lemma view_moves env env' v l : view_read env v = Some l -> length env' = length env -> exists l', view_read env' v = Some l' /\ (l' = l \/ exists o n, l' = slice env' o n).
Proof.
  intros H L. destruct v as [o [|n]|c]; cbn [view_read] in *; [exists []; split; [reflexivity|left; congruence]| |exists c; split; [reflexivity|left; congruence]].
  unfold rds in *. rewrite L. destruct (o + S n <=? length env)%nat; [|discriminate]. eexists. split; [reflexivity|]. right. exists o, (S n). reflexivity.
Qed.
Lemma view_chunk env env' v l size : view_read env v = Some l -> chunk l -> length env' = length env -> bytes env' -> length env' = size -> N.of_nat size < 2 ^ 64 ->
  exists l', view_read env' v = Some l' /\ chunk l'.
Proof.
  intros H C L B Ls Hs. destruct (view_moves env env' v l H L) as (l' & E & [->|(o & n & ->)]); [exists l; auto|]. eexists. split; [exact E|].
  split; [apply slice_bytes, B|]. unfold slice. rewrite firstn_length, skipn_length. lia.
Qed.
Lemma hkdf_derives cx a dsz size (Hd : (1 <= dsz <= sha_digest_size a)%nat) : (size <= 255)%nat \/ size = 256%nat ->
  derives cx (kdf_hkdf (mac_hmac (milo_hash a) dsz)) size (fun _ => ((0%nat, size), (0%nat, size), (0%nat, size)))
    (fun _ env n => hkdf (hmac_tag a dsz) dsz env env env n).
Proof.
  intros Hs. refine (ok_derives (hkdf_ok (milo_hmac_ok cx a dsz (proj2 Hd)) (hmac_es a dsz Hd) (hmac_tag_ok a dsz (proj2 Hd))) size _ (fun _ env => (env, env, env)) _ _ _).
  - intros env env' o [(info & W & _) _ _ _ _] L B Ls. destruct W as [Wm Wv Wi Wc Wp Wb Ws].
    destruct (view_chunk env env' _ info size Wv Wi L B Ls ltac:(lia)) as (i' & V' & C').
    apply (hkeq_refl env' i'). constructor; assumption.
  - intros i env _ B L. assert (A : has env (0%nat, size) env).
    { split; [cbn [fst]; lia|]. split; [cbn [snd]; congruence|]. cbn [fst]. rewrite skipn_O. apply firstn_all. }
    assert (C : chunk env) by (split; [exact B|rewrite L; lia]).
    unfold hargv. cbn [fst snd]. auto 10.
  - intros n Hn. cbn [Nat.add mac_hmac ma_digest_size]. nia.
Qed.
Lemma pbkdf2_derives cx a dsz size (Hd : (1 <= dsz <= sha_digest_size a)%nat) : N.of_nat size < 2 ^ 64 ->
  derives cx (kdf_pbkdf_2 (mac_hmac (milo_hash a) dsz)) size (fun i => ((0%nat, size), (0%nat, size), N.of_nat i))
    (fun i env n => pbkdf2 (hmac_tag a dsz) dsz env env (Nat.max 1 i) n).
Proof.
  intros Hs. pose proof (ok_derives (pbkdf2_ok (milo_hmac_ok cx a dsz (proj2 Hd)) (hmac_es a dsz Hd) (hmac_tag_ok a dsz (proj2 Hd))) size
    (fun i => ((0%nat, size), (0%nat, size), N.of_nat i)) (fun i env => (env, env, N.of_nat i))) as G.
  unfold pD in G. cbn [fst snd] in G.
  assert (E : forall i, Nat.max 1 (N.to_nat (N.of_nat i)) = Nat.max 1 i) by (intros i; rewrite Nat2N.id; reflexivity).
  assert (G' : derives cx (kdf_pbkdf_2 (mac_hmac (milo_hash a) dsz)) size (fun i => ((0%nat, size), (0%nat, size), N.of_nat i))
    (fun i env n => pbkdf2 (hmac_tag a dsz) dsz env env (Nat.max 1 (N.to_nat (N.of_nat i))) n)).
  { apply G.
    - intros env env' o [(P & S' & W & _) _ _ _ _] L B Ls. destruct W as [Wm Wi Ws Wci Wcs Wc Wb Wz].
      destruct (view_chunk env env' _ P size Wi Wci L B Ls Hs) as (P' & V1 & C1). destruct (view_chunk env env' _ S' size Ws Wcs L B Ls Hs) as (S2 & V2 & C2).
      apply (pbeq_refl env' P' S2). constructor; assumption.
    - intros i env _ B L. assert (A : has env (0%nat, size) env).
      { split; [cbn [fst]; lia|]. split; [cbn [snd]; congruence|]. cbn [fst]. rewrite skipn_O. apply firstn_all. }
      assert (C : chunk env) by (split; [exact B|rewrite L; exact Hs]).
      unfold pargv. cbn [fst snd]. auto 10.
    - intros n Hn. exact I. }
  destruct G' as [G1 G2]. split.
  - intros i env key n U. rewrite <- E. exact (G1 i env key n U).
  - intros uses Hu. destruct (G2 uses Hu) as (o & R). exists o. rewrite R. f_equal. f_equal. apply map_ext. intros [[[i env] key] n]. rewrite E. reflexivity.
Qed.
