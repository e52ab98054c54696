(** The testing interface. *)
From Verif Require Import Base BaseLemmas Proof_ShaCore Proof_Range Model_Memory Model_Container Model_Update Model_Sha Model_Mac Spec_Hash Spec_Mac Model_Cipher Model_Aead Model_Kdf Model_Test Spec_Test.
Local Open Scope N_scope.

(** *** Loops *)
Lemma size_loop_spec {A} (body : A -> nat -> nat -> option (A * bool)) (limit grow : nat) (I : nat -> A -> Prop) (b : nat -> bool) (K : nat) :
  (forall k, (k < K)%nat -> (1 + grow * (k / 2) <= limit + grow)%nat) -> (limit + grow < 1 + grow * (K / 2))%nat ->
  (forall k s, (k < K)%nat -> I k s ->
     exists s', body s (1 + grow * ((k + 1) / 2))%nat (1 + grow * (k / 2))%nat = Some (s', b k) /\ I (S k) s') ->
  forall r k s steps, (k + r = K)%nat -> (r <= steps)%nat -> I k s ->
  exists s' k' v, size_loop body limit grow steps s (1 + grow * ((k + 1) / 2))%nat (1 + grow * (k / 2))%nat = Some (s', v) /\
    I k' s' /\ (v = true <-> forall j, (k <= j < K)%nat -> b j = true).
Proof.
  intros HL HK HB. induction r as [|r IH]; intros k s steps E Hs Hi.
  - assert (k = K) by lia. subst k.
    assert (M : (K / 2 <= (K + 1) / 2)%nat) by (apply Nat.div_le_mono; lia).
    assert (C1 : (1 + grow * ((K + 1) / 2) <=? limit + grow)%nat = false) by (apply Nat.leb_gt; nia).
    assert (C2 : (1 + grow * (K / 2) <=? limit + grow)%nat = false) by (apply Nat.leb_gt; lia).
    exists s, K, true. split; [destruct steps; cbn [size_loop]; rewrite C1, C2; reflexivity|]. split; [exact Hi|]. split; [intros _ j Hj; lia|reflexivity].
  - destruct steps as [|steps]; [lia|]. assert (Hk : (k < K)%nat) by lia.
    assert (C2 : (1 + grow * (k / 2) <=? limit + grow)%nat = true) by (apply Nat.leb_le, HL, Hk).
    cbn [size_loop]. rewrite C2, orb_true_r.
    destruct (HB k s Hk Hi) as (s' & E1 & I1). rewrite E1. cbn [bind].
    destruct (b k) eqn:Eb.
    + replace (1 + grow * (k / 2) + grow)%nat with (1 + grow * ((S k + 1) / 2))%nat.
      2:{ replace (S k + 1)%nat with (k + 1 * 2)%nat by lia. rewrite Nat.div_add by lia. lia. }
      replace (k + 1)%nat with (S k) by lia.
      destruct (IH (S k) s' steps ltac:(lia) ltac:(lia) I1) as (s'' & k' & v & E2 & I2 & V). exists s'', k', v. split; [exact E2|]. split; [exact I2|].
      rewrite V. split; intros H j Hj; [destruct (Nat.eq_dec j k) as [->|]; [exact Eb|apply H; lia]|apply H; lia].
    + exists s', (S k), false. split; [reflexivity|]. split; [exact I1|]. split; [discriminate|].
      intros H. rewrite (H k ltac:(lia)) in Eb. discriminate.
Qed.

Lemma piece_loop_spec {A} (piece : A -> nat -> nat -> option A) (P : nat -> A -> Prop) size upd :
  (1 <= upd)%nat ->
  (forall s offs n, P offs s -> (offs + n <= size)%nat -> (1 <= n)%nat -> exists s', piece s offs n = Some s' /\ P (offs + n)%nat s') ->
  forall n offs s, (offs + upd * n <= size)%nat -> P offs s ->
  exists s', piece_loop piece upd offs n s = Some (s', (offs + upd * n)%nat) /\ P (offs + upd * n)%nat s'.
Proof.
  intros Hu HP. induction n as [|n IH]; intros offs s Hn Hs.
  - exists s. cbn [piece_loop]. rewrite Nat.mul_0_r, Nat.add_0_r. auto.
  - cbn [piece_loop]. destruct (HP s offs upd Hs ltac:(nia) Hu) as (s' & E & Q). rewrite E. cbn [bind].
    destruct (IH (offs + upd)%nat s' ltac:(nia) Q) as (s'' & E2 & Q2). exists s''.
    replace (offs + upd * S n)%nat with (offs + upd + upd * n)%nat by nia. auto.
Qed.
Lemma update_loop_spec {A} (piece : A -> nat -> nat -> option A) (P : nat -> A -> Prop) size upd s :
  (1 <= upd)%nat ->
  (forall s offs n, P offs s -> (offs + n <= size)%nat -> (1 <= n)%nat -> exists s', piece s offs n = Some s' /\ P (offs + n)%nat s') ->
  P 0%nat s -> exists s', update_loop piece size upd s = Some s' /\ P size s'.
Proof.
  intros Hu HP H0. unfold update_loop. destruct (Nat.eqb_spec upd 0) as [|_]; [lia|].
  pose proof (Nat.mul_div_le size upd ltac:(lia)) as Hd.
  destruct (piece_loop_spec piece P size upd Hu HP (size / upd) 0 s ltac:(lia) H0) as (s' & E & Q). rewrite E. cbn [bind].
  destruct (Nat.ltb_spec (0 + upd * (size / upd)) size).
  - destruct (HP s' _ (size - (0 + upd * (size / upd)))%nat Q ltac:(lia) ltac:(lia)) as (s'' & E2 & Q2). exists s''. split; [exact E2|].
    replace size with (0 + upd * (size / upd) + (size - (0 + upd * (size / upd))))%nat by lia.
    replace (0 + upd * (size / upd) + (size - (0 + upd * (size / upd))))%nat with size in Q2 |- * by lia. exact Q2.
  - exists s'. split; [reflexivity|]. replace size with (0 + upd * (size / upd))%nat by lia. exact Q.
Qed.

Lemma sample_length size i : length (sample size i) = size.
Proof. unfold sample. rewrite map_length, seq_length. reflexivity. Qed.
Lemma sample_bytes size i : bytes (sample size i).
Proof.
  apply Forall_forall. intros x Hx. apply in_map_iff in Hx. destruct Hx as (k & <- & _). unfold is_byte.
  destruct (k <? i)%nat; [apply N.mod_lt|]; lia.
Qed.
Lemma sample_nth size i k : (k < size)%nat -> nth k (sample size i) 0 = if (k <? i)%nat then N.of_nat k mod 256 else 0.
Proof.
  intros H. unfold sample. set (f := fun k => if (k <? i)%nat then N.of_nat k mod 256 else 0).
  rewrite (nth_indep _ 0 (f 0%nat)) by (rewrite map_length, seq_length; exact H). rewrite map_nth, seq_nth by exact H. reflexivity.
Qed.
Lemma sample_0 size : sample size 0 = repeat 0 size.
Proof.
  apply (nth_ext _ _ 0 0); [rewrite sample_length, repeat_length; reflexivity|].
  intros n Hn. rewrite sample_length in Hn. rewrite sample_nth by exact Hn. rewrite nth_repeat. reflexivity.
Qed.
Lemma wr_nth (l : list N) i v : (i < length l)%nat ->
  exists l', wr l i v = Some l' /\ length l' = length l /\ forall k, nth k l' 0 = if (k =? i)%nat then v else nth k l 0.
Proof.
  intros H. unfold wr, wrs. cbn [length]. destruct (Nat.leb_spec (i + 1) (length l)); [|lia].
  eexists. split; [reflexivity|]. split.
  - rewrite !app_length, firstn_length, skipn_length. cbn [length]. lia.
  - intros k. destruct (Nat.eqb_spec k i) as [->|Hk].
    + rewrite app_nth2 by (rewrite firstn_length; lia). rewrite firstn_length, Nat.min_l by lia. rewrite Nat.sub_diag. reflexivity.
    + destruct (Nat.ltb_spec k i).
      * rewrite app_nth1 by (rewrite firstn_length; lia). apply nth_firstn_lt. assumption.
      * rewrite app_nth2 by (rewrite firstn_length; lia). rewrite firstn_length, Nat.min_l by lia.
        rewrite app_nth2 by (cbn; lia). cbn [length]. rewrite nth_skipn. f_equal. lia.
Qed.
Lemma sample_next size i : (i < size)%nat -> wr (sample size i) i (N.of_nat i mod 256) = Some (sample size (S i)).
Proof.
  intros H. destruct (wr_nth (sample size i) i (N.of_nat i mod 256)) as (l & E & L & X); [rewrite sample_length; exact H|].
  rewrite E. f_equal. rewrite sample_length in L. apply (nth_ext _ _ 0 0); [rewrite sample_length; exact L|].
  intros k Hk. rewrite L in Hk. rewrite X, !sample_nth by exact Hk. destruct (Nat.eqb_spec k i) as [->|].
  - destruct (Nat.ltb_spec i (S i)); [reflexivity|lia].
  - destruct (Nat.ltb_spec k i), (Nat.ltb_spec k (S i)); try reflexivity; lia.
Qed.
Lemma input_loop_spec {A} (pass : A -> list N -> option (A * bool)) (I : A -> Prop) (b : nat -> bool) size :
  (forall s i, (i < size)%nat -> I s -> exists s', pass s (sample size i) = Some (s', b i) /\ I s') ->
  forall n i s, (i + n = size)%nat -> I s ->
  exists v, input_loop pass i n s (sample size i) = Some v /\ (v = true <-> forall j, (i <= j < size)%nat -> b j = true).
Proof.
  intros HP. induction n as [|n IH]; intros i s E Hs.
  - exists true. split; [reflexivity|]. split; [intros _ j Hj; lia|reflexivity].
  - cbn [input_loop]. destruct (HP s i ltac:(lia) Hs) as (s' & E1 & I1). rewrite E1. cbn [bind]. destruct (b i) eqn:Eb.
    + rewrite sample_next by lia. cbn [bind]. destruct (IH (S i) s' ltac:(lia) I1) as (v & E2 & V). exists v. split; [exact E2|].
      rewrite V. split; intros H j Hj; [destruct (Nat.eq_dec j i) as [->|]; [exact Eb|apply H; lia]|apply H; lia].
    + exists false. split; [reflexivity|]. split; [discriminate|]. intros H. rewrite (H i ltac:(lia)) in Eb. discriminate.
Qed.
Lemma same_bytes_spec a b : same_bytes a b = true <-> a = b.
Proof. unfold same_bytes. destruct (list_eq_dec N.eq_dec a b); split; intros H; congruence. Qed.

(** *** Hashes *)
Lemma hash_run_app cx al : forall a b p, hash_run cx al p (a ++ b)
  = ('(p, x) <- hash_run cx al p a ;; '(p, y) <- hash_run cx al p b ;; Some (p, x ++ y)).
Proof.
  induction a as [|c a IH]; intros b p; cbn [app hash_run].
  - cbn [bind]. destruct (hash_run cx al p b) as [[? ?]|]; reflexivity.
  - destruct (hash_step cx al p c) as [[q o]|]; [|reflexivity]. cbn [bind]. rewrite IH.
    destruct (hash_run cx al q a) as [[q' x]|]; [|reflexivity]. cbn [bind].
    destruct (hash_run cx al q' b) as [[q'' y]|]; reflexivity.
Qed.
Lemma orderly_init : forall a d b, orderly d (a ++ HInit :: b) = orderly d a && orderly false b.
Proof.
  induction a as [|c a IH]; intros d b; [destruct d; reflexivity|]. destruct c; cbn [app orderly]; rewrite ?IH, ?andb_assoc; reflexivity.
Qed.
Lemma orderly_updates : forall ms c, orderly false (map HUpdate ms ++ [c]) = true.
Proof. induction ms as [|m ms IH]; intros c; [destruct c; reflexivity|]. cbn [map app orderly negb andb]. apply IH. Qed.
Lemma orderly_updates' : forall ms, orderly false (map HUpdate ms) = true.
Proof. induction ms as [|m ms IH]; [reflexivity|]. cbn [map orderly negb andb]. apply IH. Qed.
Lemma expected_init F : forall a fed b, exists x, expected F fed (a ++ HInit :: b) = x ++ ONone :: expected F [] b /\ length x = length a.
Proof.
  induction a as [|c a IH]; intros fed b; [exists []; split; reflexivity|].
  destruct c; cbn [app expected];
  match goal with |- exists x, _ :: expected F ?f _ = _ /\ _ => destruct (IH f b) as (x & E & L); rewrite E;
    match goal with |- exists x0, ?h :: _ = _ /\ _ => exists (h :: x); split; [reflexivity|cbn; congruence] end end.
Qed.
Lemma expected_updates F : forall ms fed c, expected F fed (map HUpdate ms ++ [c]) = map (fun _ => ONone) ms ++ expected F (fed ++ concat ms) [c].
Proof.
  induction ms as [|m ms IH]; intros fed c; cbn [map app expected concat]; [rewrite app_nil_r; reflexivity|]. rewrite IH, app_assoc. reflexivity.
Qed.
Lemma hash_run_last cx al : forall p calls q outs c x, hash_run cx al p calls = Some (q, outs) ->
  forall r xs, hash_run cx al p (calls ++ [c]) = Some (r, xs ++ [x]) -> hash_step cx al q c = Some (r, x).
Proof.
  intros p calls q outs c x E r xs H. rewrite hash_run_app, E in H. cbn [bind hash_run] in H.
  destruct (hash_step cx al q c) as [[r' y]|]; [|discriminate]. cbn [bind] in H.
  assert (H1 : r' = r) by congruence. assert (H2 : outs ++ [y] = xs ++ [x]) by congruence. apply app_inj_tail in H2. destruct H2 as [_ ->]. subst. reflexivity.
Qed.

(** An object that has been used in an orderly way. *)
Definition used cx al (p : hash_apie) : Prop := exists calls outs, Forall (hcall_ok al) calls /\ orderly false calls = true /\
  hash_run cx al (hapie_new al) calls = Some (p, outs).
Definition fed_with cx al (m : list N) (p : hash_apie) : Prop := exists calls ms outs, Forall (hcall_ok al) calls /\ orderly false calls = true /\ Forall chunk ms /\ concat ms = m /\
  hash_run cx al (hapie_new al) (calls ++ HInit :: map HUpdate ms) = Some (p, outs).
Lemma used_new cx al : used cx al (hapie_new al).
Proof. exists [], []. split; [constructor|]. split; reflexivity. Qed.
Lemma used_init cx al p : used cx al p -> fed_with cx al [] (hapie_initialize al p).
Proof.
  intros (calls & outs & H1 & H2 & H3). exists calls, [], (outs ++ [ONone]). split; [exact H1|]. split; [exact H2|]. split; [constructor|]. split; [reflexivity|].
  cbn [map]. rewrite hash_run_app, H3. reflexivity.
Qed.
Lemma calls_ok (al : hash_alg) calls ms : Forall (hcall_ok al) calls -> Forall chunk ms -> Forall (hcall_ok al) (calls ++ HInit :: map HUpdate ms).
Proof. intros H1 H2. apply Forall_app. split; [exact H1|]. constructor; [exact I|]. apply Forall_map. exact H2. Qed.
Lemma fed_update cx al F m p x : computes cx al F -> fed_with cx al m p -> chunk x -> exists p', hapie_update cx al p x = Some p' /\ fed_with cx al (m ++ x) p'.
Proof.
  intros [_ HC] (calls & ms & outs & H1 & H2 & H3 & H4 & H5) Hx.
  assert (E : calls ++ HInit :: map HUpdate (ms ++ [x]) = (calls ++ HInit :: map HUpdate ms) ++ [HUpdate x]) by (rewrite map_app, <- app_assoc; reflexivity).
  destruct (HC (calls ++ HInit :: map HUpdate (ms ++ [x]))) as (p' & R).
  { apply calls_ok; [exact H1|]. apply Forall_app. split; [exact H3|]. constructor; [exact Hx|constructor]. }
  { rewrite orderly_init, H2. apply orderly_updates'. }
  pose proof R as R'. rewrite E, hash_run_app, H5 in R. cbn [bind hash_run hash_step] in R.
  destruct (hapie_update cx al p x) as [q|] eqn:Eu; [|discriminate]. cbn [bind] in R. assert (q = p') by congruence. subst q.
  exists p'. split; [reflexivity|]. exists calls, (ms ++ [x]), (expected F [] (calls ++ HInit :: map HUpdate (ms ++ [x]))).
  split; [exact H1|]. split; [exact H2|]. split; [apply Forall_app; split; [exact H3|constructor; [exact Hx|constructor]]|].
  split; [rewrite concat_app, H4; cbn [concat]; rewrite app_nil_r; reflexivity|]. exact R'.
Qed.
Lemma fed_digest cx al F m p junk : computes cx al F -> fed_with cx al m p -> chunk m -> bytes junk -> length junk = ha_digest_size al ->
  exists p', hapie_digest_static cx al p junk = Some (p', F m) /\ used cx al p'.
Proof.
  intros [HL HC] (calls & ms & outs & H1 & H2 & H3 & H4 & H5) Hm Hj Lj.
  set (c := HDigestC (Static junk) (length junk)).
  assert (E : calls ++ HInit :: (map HUpdate ms ++ [c]) = (calls ++ HInit :: map HUpdate ms) ++ [c]) by (rewrite <- app_assoc; reflexivity).
  assert (K1 : Forall (hcall_ok al) (calls ++ HInit :: (map HUpdate ms ++ [c]))).
  { rewrite E. apply Forall_app. split; [apply calls_ok; assumption|]. constructor; [exact Hj|constructor]. }
  assert (K2 : orderly false (calls ++ HInit :: (map HUpdate ms ++ [c])) = true) by (rewrite orderly_init, H2; apply orderly_updates).
  destruct (HC _ K1 K2) as (p' & R).
  destruct (expected_init F calls [] (map HUpdate ms ++ [c])) as (x & X & _). rewrite expected_updates in X. cbn [app] in X. rewrite H4 in X.
  pose proof R as R'. rewrite X, E in R.
  change (x ++ ONone :: map (fun _ : list N => ONone) ms ++ expected F m [c]) with (x ++ (ONone :: map (fun _ : list N => ONone) ms) ++ [hprefix (F m) c]) in R.
  rewrite app_assoc in R. pose proof (hash_run_last _ _ _ _ _ _ _ _ H5 _ _ R) as T. unfold c in T. cbn [hash_step] in T.
  unfold hapie_digest_static. destruct (hapie_digest_c cx al p (Static junk) (length junk)) as [[[q d] n]|]; [|discriminate]. cbn [bind] in T |- *.
  exists p'. split; [|exists (calls ++ HInit :: (map HUpdate ms ++ [c])), (expected F [] (calls ++ HInit :: (map HUpdate ms ++ [c]))); auto].
  assert (q = p') by congruence. subst q. f_equal. f_equal.
  assert (D : d = Static (firstn (Nat.min (Nat.min (length junk) (length (F m))) (length junk)) (F m) ++ skipn (Nat.min (Nat.min (length junk) (length (F m))) (length junk)) junk)) by (cbn [hprefix] in T; congruence).
  rewrite D. cbn [cdata]. rewrite (HL m Hm), Lj, !Nat.min_id. rewrite firstn_all2 by (rewrite (HL m Hm); lia). rewrite skipn_all2 by lia. apply app_nil_r.
Qed.
Lemma slice_step {A} (l : list A) offs n : firstn offs l ++ firstn n (skipn offs l) = firstn (offs + n) l.
Proof.
  revert l. induction offs as [|o IH]; intros l; [reflexivity|]. destruct l as [|a l]; cbn [firstn skipn Nat.add app]; [rewrite firstn_nil; reflexivity|].
  f_equal. apply IH.
Qed.
Lemma hash_feed_spec cx al F input upd p : computes cx al F -> bytes input -> N.of_nat (length input) < 2 ^ 64 -> (1 <= upd)%nat -> used cx al p ->
  exists p', hash_feed cx al input upd p = Some p' /\ fed_with cx al input p'.
Proof.
  intros HC Hb Hl Hu U. unfold hash_feed.
  destruct (update_loop_spec (fun p offs n => m <- rds input offs n ;; hapie_update cx al p m) (fun pos p => fed_with cx al (firstn pos input) p)
              (length input) upd (hapie_initialize al p) Hu) as (p' & E & Q).
  - intros q offs n Hq Ho Hn. unfold rds. destruct (Nat.leb_spec (offs + n) (length input)); [|lia]. cbn [bind].
    destruct (fed_update cx al F _ q (firstn n (skipn offs input)) HC Hq) as (q' & E & Q).
    + split; [apply bytes_firstn, bytes_skipn, Hb|]. rewrite firstn_length, skipn_length. lia.
    + exists q'. split; [exact E|]. rewrite slice_step in Q. exact Q.
  - apply used_init, U.
  - exists p'. split; [exact E|]. rewrite firstn_all in Q. exact Q.
Qed.
Definition passes (size grow : nat) : nat := (2 * ((size + grow - 1) / grow + 1))%nat.
Lemma passes_in size grow k : (1 <= grow)%nat -> (k < passes size grow)%nat -> (1 + grow * (k / 2) <= size + grow)%nat.
Proof.
  unfold passes. intros Hg Hk. pose proof (Nat.mul_div_le (size + grow - 1) grow ltac:(lia)).
  assert (k / 2 <= (size + grow - 1) / grow)%nat. { apply Nat.lt_succ_r. apply Nat.div_lt_upper_bound; lia. } nia.
Qed.
Lemma passes_out size grow : (1 <= grow)%nat -> (size + grow < 1 + grow * (passes size grow / 2))%nat.
Proof.
  unfold passes. intros Hg. rewrite (Nat.mul_comm 2), Nat.div_mul by lia. pose proof (Nat.mul_succ_div_gt (size + grow - 1) grow ltac:(lia)). nia.
Qed.
Lemma hash_differential_spec cx al0 al1 F0 F1 junk size steps : computes cx al0 F0 -> computes cx al1 F1 ->
  ha_digest_size al0 = ha_digest_size al1 -> bytes junk -> length junk = ha_digest_size al0 -> N.of_nat size < 2 ^ 64 -> (passes size 3 <= steps)%nat ->
  exists v, hash_differential_size cx al0 al1 junk size steps = Some v /\
    (v = true <-> forall i, (i < size)%nat -> F0 (sample size i) = F1 (sample size i)).
Proof.
  intros C0 C1 Ed Hj Lj Hs Hst. unfold hash_differential_size. rewrite <- sample_0.
  set (b := fun i => same_bytes (F0 (sample size i)) (F1 (sample size i))).
  match goal with |- exists v, input_loop ?p _ _ _ _ = _ /\ _ => set (pass := p) end.
  destruct (input_loop_spec pass (fun s => used cx al0 (fst s) /\ used cx al1 (snd s)) b size) with (n := size) (i := 0%nat) (s := (hapie_new al0, hapie_new al1)) as (v & E & V);
    [|lia|split; apply used_new|exists v; split; [exact E|]].
  2:{ rewrite V. unfold b. split; intros H i Hi; [apply same_bytes_spec, H; lia|apply same_bytes_spec, H; lia]. }
  intros s i Hi Is. unfold pass. clear pass.
  assert (Hc : chunk (sample size i)) by (split; [apply sample_bytes|rewrite sample_length; exact Hs]).
  match goal with |- exists s', size_loop ?bd _ _ _ _ _ _ = _ /\ _ => set (body := bd) end.
  destruct (size_loop_spec body size 3 (fun (_ : nat) s => used cx al0 (fst s) /\ used cx al1 (snd s)) (fun _ => b i) (passes size 3))
    with (r := passes size 3) (k := 0%nat) (s := s) (steps := steps) as (s' & k' & v & E & Q & V);
    [intros k Hk; apply passes_in; [lia|exact Hk]|apply passes_out; lia| |lia|exact Hst|exact Is|].
  - intros k [p0 p1] Hk [U0 U1]. cbn [fst snd] in U0, U1.
    destruct (hash_feed_spec cx al0 F0 (sample size i) (1 + 3 * ((k + 1) / 2)) p0 C0 (sample_bytes _ _) ltac:(rewrite sample_length; exact Hs) ltac:(lia) U0) as (q0 & E0 & Q0).
    destruct (hash_feed_spec cx al1 F1 (sample size i) (1 + 3 * (k / 2)) p1 C1 (sample_bytes _ _) ltac:(rewrite sample_length; exact Hs) ltac:(lia) U1) as (q1 & E1 & Q1).
    destruct (fed_digest cx al0 F0 _ q0 junk C0 Q0 Hc Hj Lj) as (r0 & D0 & W0).
    destruct (fed_digest cx al1 F1 _ q1 junk C1 Q1 Hc Hj ltac:(congruence)) as (r1 & D1 & W1).
    exists (r0, r1). split; [|exact (conj W0 W1)]. unfold body. rewrite E0. cbn [bind]. rewrite E1. cbn [bind]. rewrite D0. cbn [bind]. rewrite D1. reflexivity.
  - exists s'. split; [|exact Q].
    assert (Vb : v = b i).
    { destruct (b i); [apply V; reflexivity|]. destruct v; [|reflexivity].
      assert (1 <= passes size 3)%nat by (unfold passes; lia). symmetry. apply (proj1 V eq_refl 0%nat). lia. }
    rewrite <- Vb. exact E.
Qed.
