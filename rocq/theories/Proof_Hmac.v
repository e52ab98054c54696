(** HMAC meets the conditions of [Proof_Mac] with RFC 2104 as tag function. *)
From Verif Require Import Base BaseLemmas Spec_Bytes Spec_Sha Spec_Hmac Model_Memory Model_Update Model_Container
  Model_Sha Model_Mac Model_Hmac Spec_Hash Spec_Mac
  BytesLemmas Proof_Memory Proof_Memory2 Proof_ShaCore Proof_Soak Proof_Sha Proof_ShaHist Proof_ShaApi Proof_Mac.
Local Open Scope N_scope.

Lemma wrs_0_repeat (arr : list N) v n : (n <= length arr)%nat -> wrs arr 0 (repeat v n) = Some (repeat v n ++ skipn n arr).
Proof. intros H. rewrite wrs_some by (rewrite repeat_length; lia). rewrite repeat_length. reflexivity. Qed.

Lemma mem_stor_1 cx arr i v : (i < length arr)%nat -> mem_stor cx 1 1 arr i v = wr arr i v.
Proof. intros H. unfold mem_stor. reflexivity. Qed.

Lemma set_loop_1 cx v : forall n i arr, (i + n <= length arr)%nat ->
  set_loop cx 1 arr v i n = Some (firstn i arr ++ repeat v n ++ skipn (i + n) arr).
Proof.
  induction n as [|n IH]; intros i arr H; cbn [set_loop].
  - rewrite Nat.add_0_r. cbn [repeat app]. rewrite firstn_skipn. reflexivity.
  - rewrite mem_stor_1, wr_firstn by lia. cbn [bind].
    assert (HF : length (firstn i arr) = i) by (rewrite firstn_length; lia).
    assert (HS : length (skipn (S i) arr) = (length arr - S i)%nat) by (rewrite skipn_length; reflexivity).
    rewrite IH by (rewrite app_length; cbn [length]; lia).
    change (v :: skipn (S i) arr) with ([v] ++ skipn (S i) arr). rewrite (app_assoc (firstn i arr) [v]).
    rewrite firstn_app, (firstn_all2 (firstn i arr ++ [v])) by (rewrite app_length; cbn [length]; lia).
    rewrite app_length, HF. cbn [length]. replace (S i - (i + 1))%nat with 0%nat by lia.
    rewrite firstn_O, app_nil_r, skipn_app.
    rewrite (skipn_all2 (firstn i arr ++ [v])) by (rewrite app_length; cbn [length]; lia).
    rewrite app_length, HF. cbn [length app]. rewrite skipn_skipn.
    rewrite <- app_assoc. cbn [app repeat]. do 4 f_equal. f_equal. lia.
Qed.

Lemma mem_set_1 cx arr v n : bytes arr -> v < 256 -> (n <= length arr)%nat ->
  mem_set cx 1 arr v n = Some (repeat v n ++ skipn n arr).
Proof.
  intros Hb Hv H. unfold mem_set. destruct (cx_ce cx).
  - rewrite set_loop_1 by lia. reflexivity.
  - rewrite stor_bytes_bytes; [apply wrs_0_repeat; assumption| |assumption|rewrite repeat_length; lia].
    apply Forall_forall. intros x Hx. apply repeat_spec in Hx. subst. exact Hv.
Qed.

Lemma skipn_nth {A} (d : A) : forall (l : list A) i, (i < length l)%nat -> skipn i l = nth i l d :: skipn (S i) l.
Proof.
  induction l as [|x l IH]; intros i H; [cbn [length] in H; lia|].
  destruct i as [|i]; [reflexivity|]. cbn [length] in H. change (skipn (S i) (x :: l)) with (skipn i l).
  change (skipn (S (S i)) (x :: l)) with (skipn (S i) l). cbn [nth]. apply IH. lia.
Qed.

(** The xor loop. *)
Lemma pad_loop bs p q : length p = bs -> length q = bs ->
  foldM (hmac_pad_step bs) (seq 0 bs) (p ++ q) = Some (map (N.lxor 0x5c) p ++ map (N.lxor 0x36) q).
Proof.
  intros Lp Lq.
  set (g := fun i => (firstn i (map (N.lxor 0x5c) p) ++ skipn i p) ++ (firstn i (map (N.lxor 0x36) q) ++ skipn i q)).
  assert (LM : forall c (l : list N), length (map (N.lxor c) l) = length l) by (intros; apply map_length).
  replace (p ++ q) with (g 0%nat) by reflexivity.
  replace (map (N.lxor 0x5c) p ++ map (N.lxor 0x36) q) with (g (0 + bs)%nat).
  2:{ unfold g. cbn [Nat.add]. rewrite !firstn_all2, !skipn_all2, !app_nil_r by (rewrite ?LM; lia). reflexivity. }
  apply foldM_seq. intros i Hi. unfold hmac_pad_step, g.
  set (p1 := firstn i (map (N.lxor 92) p)). set (q1 := firstn i (map (N.lxor 54) q)).
  assert (Lp1 : length p1 = i) by (unfold p1; rewrite firstn_length, LM; lia).
  assert (Lq1 : length q1 = i) by (unfold q1; rewrite firstn_length, LM; lia).
  assert (Ep : skipn i p = nth i p 0 :: skipn (S i) p) by (apply skipn_nth; lia).
  assert (Eq : skipn i q = nth i q 0 :: skipn (S i) q) by (apply skipn_nth; lia).
  rewrite Ep, Eq.
  replace ((p1 ++ nth i p 0 :: skipn (S i) p) ++ q1 ++ nth i q 0 :: skipn (S i) q)
    with (p1 ++ nth i p 0 :: (skipn (S i) p ++ q1 ++ nth i q 0 :: skipn (S i) q)) by (rewrite <- app_assoc; reflexivity).
  rewrite rd_app by (symmetry; assumption). cbn [bind]. rewrite wr_app by (symmetry; assumption). cbn [bind].
  set (x := N.lxor (nth i p 0) 92).
  replace (p1 ++ x :: skipn (S i) p ++ q1 ++ nth i q 0 :: skipn (S i) q)
    with ((p1 ++ x :: skipn (S i) p ++ q1) ++ nth i q 0 :: skipn (S i) q)
    by (rewrite <- app_assoc; cbn [app]; rewrite <- app_assoc; reflexivity).
  assert (LL : length (p1 ++ x :: skipn (S i) p ++ q1) = (i + bs)%nat).
  { rewrite app_length. cbn [length]. rewrite app_length, skipn_length. lia. }
  rewrite rd_app by (symmetry; assumption). cbn [bind]. rewrite wr_app by (symmetry; assumption).
  rewrite (firstn_S_nth 0 (map (N.lxor 92) p)), (firstn_S_nth 0 (map (N.lxor 54) q)) by (rewrite ?LM; lia).
  fold p1. fold q1.
  rewrite (nth_indep (map (N.lxor 92) p) 0 (N.lxor 92 0)), (map_nth (N.lxor 92)) by (rewrite LM; lia).
  rewrite (nth_indep (map (N.lxor 54) q) 0 (N.lxor 54 0)), (map_nth (N.lxor 54)) by (rewrite LM; lia).
  unfold x. rewrite (N.lxor_comm (nth i p 0)), (N.lxor_comm (nth i q 0)).
  f_equal. rewrite <- !app_assoc. cbn [app]. rewrite <- !app_assoc. reflexivity.
Qed.

  Lemma at_off_app f (p q r : list N) n : length p = n -> f q = Some r -> at_off (p ++ q) n f = Some (p ++ r).
  Proof.
    intros L E. unfold at_off. rewrite (proj2 (Nat.leb_le _ _)) by (rewrite app_length; lia).
    rewrite skipn_app, (skipn_all2 p) by lia. rewrite L, Nat.sub_diag, skipn_O. cbn [app]. rewrite E. cbn [bind].
    rewrite firstn_app, (firstn_all2 p) by lia. rewrite L, Nat.sub_diag, firstn_O, app_nil_r. reflexivity.
  Qed.

Section Hmac.
  Context (a : sha) (al : hash_alg) (AO : alg_ok a al)
          (Hdsz : (ha_digest_size al <= sha_nst a * sha_word_size a)%nat)
          (hdsz : nat) (Hh : (hdsz <= ha_digest_size al)%nat).
  Let bs := sha_block_size a.
  Let H := D_of a al.

  Lemma dsz_bs : (ha_digest_size al <= bs)%nat.
  Proof. unfold bs. destruct a; cbn in *; lia. Qed.
  Lemma bs_small : (0 < bs)%nat /\ (bs <= 128)%nat.
  Proof. unfold bs. destruct a; cbn; lia. Qed.

  Lemma H_length m : bytes m -> length (H m) = ha_digest_size al.
  Proof. apply (full_len a al Hdsz). Qed.
  Lemma flat_be_bytes n l : bytes (flat_map (be_enc n) l).
  Proof. induction l as [|x l IH]; [constructor|]. cbn [flat_map]. apply bytes_app. split; [apply be_enc_bytes|exact IH]. Qed.
  Lemma H_bytes m : bytes (H m).
  Proof. apply bytes_firstn, flat_be_bytes. Qed.

  Lemma new_hwf : hwf a (hash_new al).
  Proof.
    constructor; cbn [hash_new ho_state ho_count ho_buffer ho_size].
    - split; [rewrite repeat_length, (ao_iv _ _ AO); apply sha_iv_ok|apply words_zero].
    - rewrite (count_init a al AO). exists 0. reflexivity.
    - rewrite repeat_length, (ao_bs _ _ AO). reflexivity.
    - apply bytes_repeat0.
    - apply bs_small.
  Qed.

  Lemma holds_heq m o1 o2 : holds a m o1 -> holds a m o2 -> heq a o1 o2.
  Proof.
    intros [W1 S1 C1 Z1 P1] [W2 S2 C2 Z2 P2]. constructor; try assumption; congruence.
  Qed.

  Definition hmwf (o : hmac_obj) : Prop :=
    hwf a (hm_hash o) /\ length (hm_buffer o) = (2 * bs)%nat /\ bytes (hm_buffer o).
  Definition hmeq (o1 o2 : hmac_obj) : Prop :=
    hmwf o1 /\ hmwf o2 /\ heq a (hm_hash o1) (hm_hash o2) /\
    firstn bs (hm_buffer o1) = firstn bs (hm_buffer o2).
  Definition opad (k : list N) := map (N.lxor 0x5c) (hmac_key H bs k).
  Definition ipad (k : list N) := map (N.lxor 0x36) (hmac_key H bs k).
  Definition hmhold (k m : list N) (o : hmac_obj) : Prop :=
    hmwf o /\ bytes k /\ bytes m /\ holds a (ipad k ++ m) (hm_hash o) /\ firstn bs (hm_buffer o) = opad k.

  Lemma hmeq_refl o : hmwf o -> hmeq o o.
  Proof. intros W. repeat split; try apply W; try reflexivity; apply heq_refl; apply W. Qed.

  Lemma key_bytes k : bytes k -> bytes (hmac_key H bs k).
  Proof.
    intros Hk. unfold hmac_key. apply bytes_app. split; [|apply bytes_repeat0]. apply bytes_firstn.
    destruct (bs <? length k)%nat; [apply H_bytes|assumption].
  Qed.
  Lemma key_length k : length (hmac_key H bs k) = bs.
  Proof. apply pad_to_length. Qed.
  Lemma xor_bytes c l : c < 256 -> bytes l -> bytes (map (N.lxor c) l).
  Proof.
    intros Hc Hl. unfold bytes. apply Forall_map. apply (Forall_impl _ (P := is_byte)); [|exact Hl].
    intros x Hx. exact (lxor_lt 8 c x Hc Hx).
  Qed.
  Lemma pad_len c k : length (map (N.lxor c) (hmac_key H bs k)) = bs.
  Proof. rewrite map_length. apply key_length. Qed.

  (** The state of a finalized hash, as digest bytes. *)
  Definition hd (h : hash_obj) : list N := firstn (ha_digest_size al) (flat_map (be_enc (sha_word_size a)) (ho_state h)).
  Lemma hd_length h : hwf a h -> length (hd h) = ha_digest_size al.
  Proof.
    intros W. unfold hd. rewrite firstn_length.
    pose proof (dig_length a {| hp_impl := h; hp_finalized := true |} W) as L. unfold dig in L. cbn [hp_impl] in L.
    rewrite L. lia.
  Qed.
  Lemma hd_bytes h : bytes (hd h).
  Proof. apply bytes_firstn, flat_be_bytes. Qed.

  Lemma digest_full cx h dst : hwf a h -> bytes dst -> (ha_digest_size al <= length dst)%nat ->
    hash_digest cx al h dst (ha_digest_size al)
    = Some (hd h ++ skipn (ha_digest_size al) dst, ha_digest_size al).
  Proof.
    intros W Hb Hl. rewrite (digest_spec a al AO) by (try assumption; lia). rewrite Nat.min_id. reflexivity.
  Qed.

  Lemma holds_final_hd cx m h : holds a m h -> exists h', hash_finalize cx al h = Some h' /\ hwf a h' /\ hd h' = H m.
  Proof.
    intros Hh0. destruct (holds_finalize a al AO cx m h Hh0) as (h' & E & W & S).
    exists h'. split; [exact E|]. split; [exact W|]. unfold hd, H, D_of. rewrite S. reflexivity.
  Qed.

  Lemma init_spec cx o k : hmwf o -> chunk k ->
    exists o', hmac_initialize cx al o k = Some o' /\ hmhold k [] o' /\ hm_buffer o' = opad k ++ ipad k.
  Proof.
    intros (W & LB & BB) [Hk Hkl]. pose proof dsz_bs as DB. pose proof bs_small as [BP BS].
    unfold hmac_initialize. cbv zeta. rewrite (ao_bs _ _ AO). fold bs.
    set (K := if (bs <? length k)%nat then H k else k).
    assert (LK : (length K <= bs)%nat).
    { unfold K. destruct (Nat.ltb_spec bs (length k)) as [L|L]; [rewrite H_length by assumption; lia|lia]. }
    assert (BK : bytes K).
    { unfold K. destruct (bs <? length k)%nat; [apply H_bytes|assumption]. }
    assert (EK : K ++ repeat 0 (bs - length K) = hmac_key H bs k).
    { unfold hmac_key, pad_to. fold K. rewrite firstn_all2 by assumption. reflexivity. }
    (* the first half of the function leaves K at both places *)
    assert (First : exists h p q, length p = (bs - length K)%nat /\ length q = (bs - length K)%nat /\
      bytes p /\ bytes q /\ hwf a h /\
      (if (bs <? length k)%nat then
         h <- hash_update cx al (hash_initialize al (hm_hash o)) k ;;
         h <- hash_finalize cx al h ;;
         '(b, _) <- hash_digest cx al h (hm_buffer o) (ha_digest_size al) ;;
         l <- rds b 0 (ha_digest_size al) ;;
         b <- wrs b bs l ;;
         Some (h, b, ha_digest_size al)
       else
         b <- wrs (hm_buffer o) 0 k ;;
         b <- wrs b bs k ;;
         Some (hm_hash o, b, length k)) = Some (h, (K ++ p) ++ (K ++ q), length K)).
    { assert (Two : forall b, length b = (2 * bs)%nat -> bytes b ->
        exists p q, length p = (bs - length K)%nat /\ length q = (bs - length K)%nat /\ bytes p /\ bytes q /\
          wrs (K ++ skipn (length K) b) bs K = Some ((K ++ p) ++ (K ++ q))).
      { intros b Lb Bb. exists (firstn (bs - length K) (skipn (length K) b)), (skipn (bs + length K) b).
        assert (E1 : length (firstn (bs - length K) (skipn (length K) b)) = (bs - length K)%nat).
        { rewrite firstn_length, skipn_length. lia. }
        split; [exact E1|]. split; [rewrite skipn_length; lia|].
        split; [apply bytes_firstn, bytes_skipn; assumption|]. split; [apply bytes_skipn; assumption|].
        rewrite wrs_some by (rewrite app_length, skipn_length; lia). f_equal. f_equal; [|f_equal].
        - rewrite firstn_app, firstn_all2 by lia. reflexivity.
        - rewrite skipn_app, (skipn_all2 K) by lia. cbn [app]. rewrite skipn_skipn. f_equal. lia. }
      destruct (Nat.ltb_spec bs (length k)) as [L|L].
      - assert (EqK : K = H k) by reflexivity.
        destruct (holds_update a al AO cx [] (hash_initialize al (hm_hash o)) k
                    (holds_init a al AO _ W) Hk ltac:(auto)) as (h1 & E1 & Hh1). cbn [app] in Hh1.
        rewrite E1. cbn [bind]. destruct (holds_final_hd cx k h1 Hh1) as (h2 & E2 & W2 & D2).
        rewrite E2. cbn [bind]. rewrite digest_full by (try assumption; lia). cbn [bind]. rewrite D2, <- EqK.
        assert (LKd : length K = ha_digest_size al) by (rewrite EqK; apply H_length; assumption).
        rewrite <- LKd. rewrite rds_prefix by (rewrite app_length; lia).
        rewrite firstn_app, firstn_all, Nat.sub_diag, firstn_O, app_nil_r. cbn [bind].
        destruct (Two (hm_buffer o) LB BB) as (p & q & Lp & Lq & Bp & Bq & E).
        exists h2, p, q. repeat (split; [assumption|]). rewrite E. reflexivity.
      - assert (EqK : K = k) by reflexivity. clearbody K. subst K.
        rewrite wrs_some by lia. cbn [firstn app bind Nat.add].
        destruct (Two (hm_buffer o) LB BB) as (p & q & Lp & Lq & Bp & Bq & E).
        exists (hm_hash o), p, q. repeat (split; [assumption|]). rewrite E. reflexivity. }
    destruct First as (h & p & q & Lp & Lq & Bp & Bq & Wh & EF). rewrite EF. cbn [bind].
    destruct (Nat.ltb_spec bs (length K)) as [?|_]; [lia|].
    rewrite <- (app_assoc K p).
    rewrite (at_off_app _ K _ (repeat 0 (bs - length K) ++ K ++ q)); [|reflexivity|].
    2:{ rewrite mem_set_1; [|repeat (apply bytes_app; split; try assumption)|lia|rewrite !app_length; lia].
        f_equal. rewrite skipn_app, (skipn_all2 p) by lia.
        replace (bs - length K - length p)%nat with 0%nat by lia. reflexivity. }
    cbn [bind].
    replace (K ++ repeat 0 (bs - length K) ++ K ++ q) with ((K ++ repeat 0 (bs - length K) ++ K) ++ q)
      by (rewrite <- !app_assoc; reflexivity).
    rewrite (at_off_app _ _ q (repeat 0 (bs - length K))).
    2:{ rewrite !app_length, repeat_length. lia. }
    2:{ rewrite mem_set_1; [|assumption|lia|lia]. f_equal. rewrite skipn_all2 by lia. apply app_nil_r. }
    cbn [bind].
    replace ((K ++ repeat 0 (bs - length K) ++ K) ++ repeat 0 (bs - length K))
      with (hmac_key H bs k ++ hmac_key H bs k) by (rewrite <- EK, <- !app_assoc; reflexivity).
    rewrite pad_loop by apply key_length. cbn [bind]. fold (opad k). fold (ipad k).
    assert (Lo : length (opad k) = bs) by apply pad_len. assert (Li : length (ipad k) = bs) by apply pad_len.
    assert (Bo : bytes (opad k)) by (apply xor_bytes; [lia|apply key_bytes; assumption]).
    assert (Bi : bytes (ipad k)) by (apply xor_bytes; [lia|apply key_bytes; assumption]).
    rewrite rds_some by (rewrite app_length; lia). cbn [bind].
    assert (Es : firstn bs (skipn bs (opad k ++ ipad k)) = ipad k).
    { rewrite skipn_app, (skipn_all2 (opad k)) by lia. rewrite Lo, Nat.sub_diag, skipn_O. cbn [app].
      apply firstn_all2. lia. }
    rewrite Es.
    destruct (holds_update a al AO cx [] (hash_initialize al h) (ipad k) (holds_init a al AO _ Wh) Bi ltac:(intros _; lia))
      as (h2 & E2 & Hh2). cbn [app] in Hh2. rewrite E2. cbn [bind]. eexists. split; [reflexivity|].
    cbn [hm_hash hm_buffer]. split; [|reflexivity].
    split; [|split; [assumption|split; [constructor|split]]].
    - split; [exact (hd_wf _ _ _ Hh2)|]. cbn [hm_buffer]. split; [rewrite app_length; lia|apply bytes_app; auto].
    - cbn [hm_hash]. rewrite app_nil_r. exact Hh2.
    - cbn [hm_buffer]. rewrite firstn_app, (firstn_all2 (opad k)) by lia.
      rewrite Lo, Nat.sub_diag, firstn_O, app_nil_r. reflexivity.
  Qed.

  Lemma fin_spec cx o : hmwf o ->
    exists h1 h2 o', hash_finalize cx al (hm_hash o) = Some h1 /\ hwf a h1 /\
      hmac_finalize cx al o = Some o' /\ hmwf o' /\ firstn bs (hm_buffer o') = firstn bs (hm_buffer o) /\
      holds a (firstn bs (hm_buffer o) ++ hd h1) h2 /\ hash_finalize cx al h2 = Some (hm_hash o').
  Proof.
    intros (W & LB & BB). pose proof dsz_bs as DB. pose proof bs_small as [BP BS].
    destruct (heq_finalize a al AO cx _ _ (heq_refl a _ W)) as (h1 & h1' & E1 & _ & HE).
    pose proof (he_wf1 _ _ _ HE) as W1. exists h1.
    unfold hmac_finalize. cbv zeta. rewrite (ao_bs _ _ AO). fold bs. rewrite E1. cbn [bind].
    set (p := firstn bs (hm_buffer o)). set (q := skipn bs (hm_buffer o)).
    assert (Lp : length p = bs) by (unfold p; rewrite firstn_length; lia).
    assert (Lq : length q = bs) by (unfold q; rewrite skipn_length; lia).
    assert (Bp : bytes p) by (apply bytes_firstn; assumption).
    assert (Bq : bytes q) by (apply bytes_skipn; assumption).
    rewrite <- (firstn_skipn bs (hm_buffer o)). fold p. fold q.
    rewrite (at_off_app _ p q (hd h1 ++ skipn (ha_digest_size al) q)); [|assumption|].
    2:{ rewrite digest_full by (try assumption; lia). reflexivity. }
    cbn [bind]. pose proof (hd_length h1 W1) as Lh.
    rewrite rds_some by (rewrite !app_length, skipn_length; lia). cbn [bind skipn].
    rewrite app_assoc. rewrite (firstn_app (bs + ha_digest_size al)).
    rewrite (firstn_all2 (p ++ hd h1)) by (rewrite app_length; lia).
    replace (bs + ha_digest_size al - length (p ++ hd h1))%nat with 0%nat by (rewrite app_length; lia).
    rewrite firstn_O, app_nil_r.
    destruct (holds_update a al AO cx [] (hash_initialize al h1) (p ++ hd h1) (holds_init a al AO _ W1))
      as (h2 & E2 & Hh2).
    { apply bytes_app. split; [assumption|apply hd_bytes]. }
    { intros _. rewrite app_length. lia. }
    cbn [app] in Hh2. rewrite E2. cbn [bind].
    destruct (holds_finalize a al AO cx _ h2 Hh2) as (h3 & E3 & W3 & _). rewrite E3. cbn [bind].
    exists h2. eexists. split; [reflexivity|]. split; [assumption|]. split; [reflexivity|].
    cbn [hm_hash hm_buffer]. split; [|split; [|split; [|exact E3]]].
    - split; [exact W3|]. cbn [hm_buffer]. split.
      + rewrite !app_length, skipn_length. lia.
      + apply bytes_app. split; [apply bytes_app; split; [assumption|apply hd_bytes]|apply bytes_skipn; assumption].
    - rewrite <- app_assoc, firstn_app, (firstn_all2 p) by lia.
      rewrite Lp, Nat.sub_diag, firstn_O, app_nil_r. reflexivity.
    - exact Hh2.
  Qed.

  Lemma hmac_ok cx : mac_ok (mac_hmac al hdsz) cx chunk (fun k m => firstn hdsz (hmac H bs k m)) hmeq hmhold
    (fun o => flat_map (be_enc (sha_word_size a)) (ho_state (hm_hash o))).
  Proof.
    pose proof dsz_bs as DB. pose proof bs_small as [BP BS].
    constructor; cbn [mac_hmac ma_obj ma_new ma_initialize ma_update ma_finalize ma_digest ma_digest_size].
    - apply hmeq_refl. split; [exact new_hwf|]. cbn [hmac_new hm_buffer].
      rewrite repeat_length, (ao_bs _ _ AO). split; [reflexivity|apply bytes_repeat0].
    - intros o1 o2 k (W1 & _) (W2 & _) Hk.
      destruct (init_spec cx o1 k W1 Hk) as (o1' & E1 & H1 & B1).
      destruct (init_spec cx o2 k W2 Hk) as (o2' & E2 & H2 & B2).
      exists o1', o2'. split; [exact E1|]. split; [exact E2|]. split; [|exact H1].
      destruct H1 as (W1' & _ & _ & H1 & _). destruct H2 as (W2' & _ & _ & H2 & _).
      split; [assumption|]. split; [assumption|]. split; [exact (holds_heq _ _ _ H1 H2)|congruence].
    - intros o1 o2 m (W1 & W2 & He & Hb) Hm.
      destruct (heq_update a al AO cx _ _ m He Hm) as (h1 & h2 & E1 & E2 & He').
      unfold hmac_update. rewrite E1, E2. cbn [bind]. do 2 eexists. split; [reflexivity|]. split; [reflexivity|].
      split; [split; [exact (he_wf1 _ _ _ He')|exact (proj2 W1)]|].
      split; [split; [exact (he_wf2 _ _ _ He')|exact (proj2 W2)]|]. split; assumption.
    - intros k m o x o' (W & Bk & Bm & Hh0 & Hb) [Hx Hl] E. unfold hmac_update in E.
      destruct (holds_update a al AO cx _ _ x Hh0 Hx ltac:(auto)) as (h & Eh & Hh'). rewrite Eh in E. injection E as <-.
      split; [split; [exact (hd_wf _ _ _ Hh')|exact (proj2 W)]|]. split; [assumption|].
      split; [apply bytes_app; auto|]. split; [cbn [hm_hash]; rewrite app_assoc; exact Hh'|exact Hb].
    - intros o1 o2 (W1 & W2 & He & Hb).
      destruct (fin_spec cx o1 W1) as (h1 & g1 & o1' & F1 & Wh1 & E1 & W1' & B1 & G1 & K1).
      destruct (fin_spec cx o2 W2) as (h2 & g2 & o2' & F2 & Wh2 & E2 & W2' & B2 & G2 & K2).
      exists o1', o2'. split; [exact E1|]. split; [exact E2|]. split; [assumption|]. split; [assumption|].
      split; [|congruence].
      destruct (heq_finalize a al AO cx _ _ He) as (x1 & x2 & X1 & X2 & HX).
      assert (x1 = h1) by congruence. assert (x2 = h2) by congruence. subst x1 x2.
      assert (Ed : hd h1 = hd h2) by (unfold hd; rewrite (he_st _ _ _ HX); reflexivity).
      rewrite Ed, Hb in G1. pose proof (holds_heq _ _ _ G1 G2) as HG.
      destruct (heq_finalize a al AO cx _ _ HG) as (y1 & y2 & Y1 & Y2 & HY).
      assert (y1 = hm_hash o1') by congruence. assert (y2 = hm_hash o2') by congruence. subst. exact HY.
    - intros k m o o' (W & Bk & Bm & Hh0 & Hb) E.
      destruct (fin_spec cx o W) as (h1 & g1 & o1' & F1 & Wh1 & E1 & W1' & B1 & G1 & K1).
      assert (o1' = o') by congruence. subst o1'.
      destruct (holds_final_hd cx _ _ Hh0) as (x & X & Wx & Dx). assert (x = h1) by congruence. subst x.
      destruct (holds_final_hd cx _ _ G1) as (y & Y & Wy & Dy). assert (y = hm_hash o') by congruence. subst y.
      rewrite Dx, Hb in Dy. unfold hmac. cbv zeta. fold (opad k). fold (ipad k). rewrite <- Dy. unfold hd.
      rewrite firstn_firstn, Nat.min_l by assumption. reflexivity.
    - intros k m o Hh0. apply hmeq_refl. exact (proj1 Hh0).
    - intros o1 o2 (W1 & W2 & _). split; apply hmeq_refl; assumption.
    - intros o1 o2 (_ & _ & He & _). rewrite (he_st _ _ _ He). reflexivity.
    - intros o (W & _). pose proof (dig_length a {| hp_impl := hm_hash o; hp_finalized := true |} (proj1 W)) as L.
      unfold dig in L. cbn [hp_impl] in L. rewrite L. lia.
    - intros o dst size (W & _) Hb Hl. unfold hmac_digest.
      rewrite (digest_spec a al AO) by (try assumption; try apply W; lia).
      rewrite (Nat.min_l _ (ha_digest_size al)) by lia. reflexivity.
  Qed.
End Hmac.

(** *** HMAC over the hashes of the library, specified with [fips] *)
Lemma hmac_ext H1 H2 bs k m : (forall x, H1 x = H2 x) -> hmac H1 bs k m = hmac H2 bs k m.
Proof. intros E. unfold hmac, hmac_key. rewrite !E. reflexivity. Qed.

Lemma mac_ok_ext M cx keyok T T' eqv hold out : (forall k m, T k m = T' k m) ->
  mac_ok M cx keyok T eqv hold out -> mac_ok M cx keyok T' eqv hold out.
Proof.
  intros E [A1 A2 A3 A4 A5 A6 A7 A8 A9 A10 A11]. constructor; try assumption.
  intros k m o o' H F. rewrite <- E. exact (A6 k m o o' H F).
Qed.

Definition hmac_tag (a : sha) (dsz : nat) (k m : list N) : list N :=
  firstn dsz (hmac (fips a) (sha_block_size a) k m).

Lemma milo_hmac_ok cx a dsz : (dsz <= sha_digest_size a)%nat ->
  mac_ok (mac_hmac (milo_hash a) dsz) cx chunk (hmac_tag a dsz)
    (hmeq a) (hmhold a (milo_hash a)) (fun o => flat_map (be_enc (sha_word_size a)) (ho_state (hm_hash o))).
Proof.
  intros Hd. apply (mac_ok_ext _ _ _ (fun k m => firstn dsz (hmac (D_of a (milo_hash a)) (sha_block_size a) k m))).
  - intros k m. unfold hmac_tag. rewrite (hmac_ext _ (fips a)); [reflexivity|]. intros x. apply D_fips.
  - apply hmac_ok; [apply default_ok|apply dsz_default|rewrite dsz_sha; assumption].
Qed.

Lemma hmac_correct cx a dsz k ms : (dsz <= sha_digest_size a)%nat -> chunk k -> Forall chunk ms ->
  mreturns cx (mac_hmac (milo_hash a) dsz) k ms (firstn dsz (hmac (fips a) (sha_block_size a) k (concat ms))).
Proof. intros Hd Hk Hm. exact (mstream_returns (milo_hmac_ok cx a dsz Hd) k ms Hk Hm). Qed.
Lemma hmac_free_correct cx a dsz k m : (dsz <= sha_digest_size a)%nat -> chunk k -> chunk m ->
  mfree_returns cx (mac_hmac (milo_hash a) dsz) k m (firstn dsz (hmac (fips a) (sha_block_size a) k m)).
Proof. intros Hd Hk Hm. exact (mfree_all (milo_hmac_ok cx a dsz Hd) k m Hk Hm). Qed.
Lemma hmac_length a k m : bytes k -> bytes m -> length (hmac (fips a) (sha_block_size a) k m) = sha_digest_size a.
Proof.
  intros Hk Hm. apply fips_length.
  assert (F : forall x, fips a x = D_of a (milo_hash a) x) by (intros; rewrite D_fips; reflexivity).
  assert (FB : forall x, bytes (fips a x)) by (intros x; rewrite F; apply H_bytes).
  apply bytes_app. split; [|apply FB].
  apply xor_bytes; [lia|]. unfold hmac_key, pad_to. apply bytes_app. split; [|apply bytes_repeat0].
  apply bytes_firstn. destruct (_ <? _)%nat; [apply FB|assumption].
Qed.
