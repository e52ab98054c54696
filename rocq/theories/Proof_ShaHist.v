(** Call histories of hash objects. *)
From Verif Require Import Base BaseLemmas Spec_Bytes Spec_Sha Model_Memory Model_Update Model_Container Model_Sha Spec_Hash
  BytesLemmas Proof_Memory2 Proof_ShaCore Proof_Soak Proof_Sha.
Local Open Scope N_scope.

Section Hist.
  Context (a : sha) (al : hash_alg) (AO : alg_ok a al)
          (Hdsz : (ha_digest_size al <= sha_nst a * sha_word_size a)%nat).
  Let bs := sha_block_size a.
  Let f := sha_compress a.

  (** Indistinguishable objects: stale bytes of the block buffer may differ. *)
  Record heq (o1 o2 : hash_obj) : Prop := {
    he_wf1 : hwf a o1; he_wf2 : hwf a o2;
    he_st : ho_state o1 = ho_state o2;
    he_count : ho_count o1 = ho_count o2;
    he_size : ho_size o1 = ho_size o2;
    he_pend : pend o1 = pend o2
  }.
  Definition aeq (p1 p2 : hash_apie) : Prop :=
    heq (hp_impl p1) (hp_impl p2) /\ hp_finalized p1 = hp_finalized p2.

  Lemma heq_refl o : hwf a o -> heq o o.
  Proof. intros H. constructor; auto. Qed.

  Lemma heq_init o1 o2 : hwf a o1 -> hwf a o2 -> heq (hash_initialize al o1) (hash_initialize al o2).
  Proof.
    intros H1 H2. constructor; cbn [hash_initialize ho_state ho_count ho_size]; try reflexivity;
      apply (init_wf a al AO); assumption.
  Qed.

  Lemma heq_update cx o1 o2 m : heq o1 o2 -> chunk m ->
    exists o1' o2', hash_update cx al o1 m = Some o1' /\ hash_update cx al o2 m = Some o2' /\ heq o1' o2'.
  Proof.
    intros [W1 W2 Es Ec Ez Ep] [Hm Hl]. destruct (hw_count a o1 W1) as [n Hn].
    assert (Hn2 : ho_count o2 = count_of (sha_wide a) n) by (rewrite <- Ec; assumption).
    destruct (update_spec a al AO cx o1 m n W1 Hm ltac:(auto) Hn) as (o1' & E1 & W1' & S1 & C1 & Z1 & P1).
    destruct (update_spec a al AO cx o2 m n W2 Hm ltac:(auto) Hn2) as (o2' & E2 & W2' & S2 & C2 & Z2 & P2).
    exists o1', o2'. split; [exact E1|]. split; [exact E2|]. constructor; try assumption.
    - rewrite S1, S2, Es, Ep. reflexivity.
    - rewrite C1, C2. reflexivity.
    - rewrite Z1, Z2, Ep. reflexivity.
    - rewrite P1, P2, Ep. reflexivity.
  Qed.

  Lemma heq_finalize cx o1 o2 : heq o1 o2 ->
    exists o1' o2', hash_finalize cx al o1 = Some o1' /\ hash_finalize cx al o2 = Some o2' /\ heq o1' o2'.
  Proof.
    intros [W1 W2 Es Ec Ez Ep]. destruct (hw_count a o1 W1) as [n Hn].
    assert (Hn2 : ho_count o2 = count_of (sha_wide a) n) by (rewrite <- Ec; assumption).
    destruct (finalize_spec a al AO cx o1 n W1 Hn) as (o1' & E1 & W1' & S1 & C1 & Z1 & P1).
    destruct (finalize_spec a al AO cx o2 n W2 Hn2) as (o2' & E2 & W2' & S2 & C2 & Z2 & P2).
    exists o1', o2'. split; [exact E1|]. split; [exact E2|]. constructor; try assumption.
    - rewrite S1, S2, Es, Ep, Ez. reflexivity.
    - rewrite C1, C2. assumption.
    - rewrite Z1, Z2. assumption.
    - rewrite P1, P2. assumption.
  Qed.

  Lemma aeq_update cx p1 p2 m : aeq p1 p2 -> chunk m ->
    exists p1' p2', hapie_update cx al p1 m = Some p1' /\ hapie_update cx al p2 m = Some p2' /\ aeq p1' p2'.
  Proof.
    intros [H Hf] Hm. destruct (heq_update cx _ _ m H Hm) as (o1 & o2 & E1 & E2 & H').
    unfold hapie_update. rewrite E1, E2. cbn [bind]. do 2 eexists. split; [reflexivity|]. split; [reflexivity|].
    split; [exact H'|exact Hf].
  Qed.

  Lemma aeq_do_finalize cx p1 p2 : aeq p1 p2 ->
    exists p1' p2', hapie_do_finalize cx al p1 = Some p1' /\ hapie_do_finalize cx al p2 = Some p2' /\
      aeq p1' p2' /\ hp_finalized p1' = true.
  Proof.
    intros [H Hf]. unfold hapie_do_finalize. rewrite <- Hf. destruct (hp_finalized p1) eqn:F.
    - do 2 eexists. split; [reflexivity|]. split; [reflexivity|]. split; [split; [assumption|congruence]|assumption].
    - destruct (heq_finalize cx _ _ H) as (o1 & o2 & E1 & E2 & H'). rewrite E1, E2. cbn [bind].
      do 2 eexists. split; [reflexivity|]. split; [reflexivity|]. split; [split; [exact H'|reflexivity]|reflexivity].
  Qed.

  (** The bytes [digest] exposes. *)
  Definition dig (p : hash_apie) : list N := flat_map (be_enc (sha_word_size a)) (ho_state (hp_impl p)).

  Lemma final_idem cx p : hp_finalized p = true -> hapie_do_finalize cx al p = Some p.
  Proof. intros H. unfold hapie_do_finalize. rewrite H. reflexivity. Qed.

  Lemma digest_closed cx p d s : hwf a (hp_impl p) -> hp_finalized p = true ->
    bytes d -> (Nat.min s (ha_digest_size al) <= length d)%nat ->
    hapie_digest cx al p d s
    = Some (p, firstn (Nat.min s (ha_digest_size al)) (dig p) ++ skipn (Nat.min s (ha_digest_size al)) d,
            Nat.min s (ha_digest_size al)).
  Proof.
    intros W F Hd Hl. unfold hapie_digest. rewrite final_idem by assumption. cbn [bind].
    rewrite (digest_spec a al AO) by assumption. reflexivity.
  Qed.

  Lemma digest_c_closed cx p c s : hwf a (hp_impl p) -> hp_finalized p = true -> bytes (cdata c) ->
    let n := match c with Dynamic _ => Nat.min s (ha_digest_size al)
             | Static l => Nat.min (Nat.min s (ha_digest_size al)) (length l) end in
    hapie_digest_c cx al p c s
    = Some (p, cset c (firstn n (dig p) ++ match c with Dynamic _ => [] | Static l => skipn n l end), n).
  Proof.
    intros W F Hc n. unfold hapie_digest_c. rewrite final_idem by assumption. cbn [bind].
    destruct c as [l|l]; cbn [cresize cdata cset] in *.
    - rewrite digest_closed; [|assumption|assumption|apply (bytes_resize); assumption|rewrite resize_length; lia].
      cbn [bind]. rewrite (Nat.min_l _ (ha_digest_size al)) by lia.
      rewrite (skipn_all2 (resize_list _ _)) by (rewrite resize_length; lia). reflexivity.
    - rewrite digest_closed; [|assumption|assumption|assumption|lia].
      cbn [bind]. rewrite (Nat.min_l _ (ha_digest_size al)) by lia. reflexivity.
  Qed.

  Lemma digest_split cx p d s :
    hapie_digest cx al p d s = (q <- hapie_do_finalize cx al p ;; hapie_digest cx al q d s).
  Proof.
    unfold hapie_digest, hapie_do_finalize. destruct (hp_finalized p) eqn:F; cbn [bind]; [rewrite F; reflexivity|].
    destruct (hash_finalize cx al (hp_impl p)); reflexivity.
  Qed.
  Lemma digest_c_split cx p c s :
    hapie_digest_c cx al p c s = (q <- hapie_do_finalize cx al p ;; hapie_digest_c cx al q c s).
  Proof.
    unfold hapie_digest_c, hapie_do_finalize. destruct (hp_finalized p) eqn:F; cbn [bind]; [rewrite F; reflexivity|].
    destruct (hash_finalize cx al (hp_impl p)); reflexivity.
  Qed.

  Lemma aeq_dig p1 p2 : aeq p1 p2 -> dig p1 = dig p2.
  Proof. intros [H _]. unfold dig. rewrite (he_st _ _ H). reflexivity. Qed.

  Lemma aeq_step cx p1 p2 c : aeq p1 p2 -> hcall_ok al c ->
    exists p1' p2' out, hash_step cx al p1 c = Some (p1', out) /\ hash_step cx al p2 c = Some (p2', out) /\ aeq p1' p2'.
  Proof.
    intros H Hc. destruct c as [|m|d s|c s]; cbn [hash_step hcall_ok] in *.
    - do 3 eexists. split; [reflexivity|]. split; [reflexivity|]. split; [|reflexivity].
      destruct H as [H _]. apply heq_init; [exact (he_wf1 _ _ H)|exact (he_wf2 _ _ H)].
    - destruct (aeq_update cx p1 p2 m H Hc) as (q1 & q2 & E1 & E2 & H'). rewrite E1, E2. cbn [bind].
      exists q1, q2, ONone. auto.
    - destruct Hc as [Hd Hl]. destruct (aeq_do_finalize cx p1 p2 H) as (q1 & q2 & E1 & E2 & H' & F).
      destruct H' as [H' F']. rewrite digest_split, E1, (digest_split cx p2), E2. cbn [bind].
      rewrite !digest_closed; try assumption; try congruence; try (apply (he_wf1 _ _ H')); try (apply (he_wf2 _ _ H')).
      cbn [bind]. rewrite (aeq_dig q1 q2) by (split; assumption).
      do 3 eexists. split; [reflexivity|]. split; [reflexivity|]. split; assumption.
    - destruct (aeq_do_finalize cx p1 p2 H) as (q1 & q2 & E1 & E2 & H' & F).
      destruct H' as [H' F']. rewrite digest_c_split, E1, (digest_c_split cx p2), E2. cbn [bind].
      rewrite !digest_c_closed; try assumption; try congruence; try (apply (he_wf1 _ _ H')); try (apply (he_wf2 _ _ H')).
      cbn [bind]. rewrite (aeq_dig q1 q2) by (split; assumption).
      do 3 eexists. split; [reflexivity|]. split; [reflexivity|]. split; assumption.
  Qed.

  Lemma aeq_run cx : forall calls p1 p2, aeq p1 p2 -> Forall (hcall_ok al) calls ->
    exists p1' p2' outs, hash_run cx al p1 calls = Some (p1', outs) /\ hash_run cx al p2 calls = Some (p2', outs) /\
      aeq p1' p2'.
  Proof.
    induction calls as [|c calls IH]; intros p1 p2 H Hc.
    - exists p1, p2, []. auto.
    - inversion Hc as [|? ? Hc1 Hc2]; subst.
      destruct (aeq_step cx p1 p2 c H Hc1) as (q1 & q2 & o & E1 & E2 & H').
      destruct (IH q1 q2 H' Hc2) as (r1 & r2 & os & F1 & F2 & H'').
      cbn [hash_run]. rewrite E1, E2. cbn [bind]. rewrite F1, F2. cbn [bind].
      exists r1, r2, (o :: os). auto.
  Qed.

  Lemma aeq_refl p : hwf a (hp_impl p) -> aeq p p.
  Proof. intros H. split; [apply heq_refl; assumption|reflexivity]. Qed.

  Lemma new_awf : hwf a (hp_impl (hapie_new al)).
  Proof. apply (new_wf a al AO). Qed.

  Lemma run_total cx p calls : hwf a (hp_impl p) -> Forall (hcall_ok al) calls ->
    exists p' outs, hash_run cx al p calls = Some (p', outs) /\ hwf a (hp_impl p').
  Proof.
    intros W H. destruct (aeq_run cx calls p p (aeq_refl p W) H) as (p1 & p2 & os & E & _ & [H' _]).
    exists p1, os. split; [exact E|exact (he_wf1 _ _ H')].
  Qed.

  (** C19 *)
  Lemma run_init cx before later : Forall (hcall_ok al) before -> Forall (hcall_ok al) later ->
    exists p p' p'' outs, hash_run cx al (hapie_new al) before = Some p /\
      hash_run cx al (hapie_initialize al (fst p)) later = Some (p', outs) /\
      hash_run cx al (hapie_new al) later = Some (p'', outs).
  Proof.
    intros Hb Hl. destruct (run_total cx _ before new_awf Hb) as (p & os & E & W).
    destruct (aeq_run cx later (hapie_initialize al p) (hapie_new al)) as (p1 & p2 & outs & E1 & E2 & _).
    - split; [|reflexivity]. cbn [hp_impl hapie_initialize hapie_new]. constructor;
        try reflexivity; [apply (init_wf a al AO); assumption|apply new_awf].
    - assumption.
    - exists (p, os), p1, p2, outs. auto.
  Qed.

  (** C18: from any reachable object, every digest call returns a prefix of one value. *)
  Lemma dig_length p : hwf a (hp_impl p) -> length (dig p) = (sha_nst a * sha_word_size a)%nat.
  Proof.
    intros H. unfold dig. destruct (hw_st _ _ H) as [L _]. rewrite <- L.
    generalize (ho_state (hp_impl p)) as l.
    induction l as [|x l IH]; [reflexivity|]. cbn [flat_map length Nat.mul].
    rewrite app_length, be_enc_length, IH. reflexivity.
  Qed.

  Lemma closed_step cx p c : hwf a (hp_impl p) -> hp_finalized p = true -> is_digest c -> hcall_ok al c ->
    hash_step cx al p c = Some (p, hprefix (firstn (ha_digest_size al) (dig p)) c).
  Proof.
    intros W F Hd Hc.
    assert (L : length (firstn (ha_digest_size al) (dig p)) = ha_digest_size al).
    { rewrite firstn_length, dig_length by assumption. lia. }
    destruct c as [|m|d s|c s]; try destruct Hd; cbn [hash_step hcall_ok] in *.
    - destruct Hc. rewrite digest_closed by assumption. cbn [bind hprefix].
      rewrite L, firstn_firstn. reflexivity.
    - rewrite digest_c_closed by assumption. cbn [bind]. destruct c as [l|l]; cbn [hprefix cset]; rewrite L.
      + rewrite firstn_firstn, app_nil_r. reflexivity.
      + cbv zeta. rewrite firstn_firstn. do 4 f_equal. f_equal. f_equal. lia.
  Qed.

  Lemma open_step cx p c : hwf a (hp_impl p) -> is_digest c -> hcall_ok al c ->
    exists q, hapie_do_finalize cx al p = Some q /\ hwf a (hp_impl q) /\ hp_finalized q = true /\
      hash_step cx al p c = Some (q, hprefix (firstn (ha_digest_size al) (dig q)) c).
  Proof.
    intros W Hd Hc. destruct (aeq_do_finalize cx p p (aeq_refl p W)) as (q & q' & E & _ & [H' _] & F).
    exists q. split; [exact E|]. split; [exact (he_wf1 _ _ H')|]. split; [exact F|].
    rewrite <- (closed_step cx q c (he_wf1 _ _ H') F Hd Hc).
    destruct c as [|m|d s|c s]; try destruct Hd; cbn [hash_step].
    - rewrite digest_split, E. reflexivity.
    - rewrite digest_c_split, E. reflexivity.
  Qed.

  Lemma closed_run cx : forall calls p, hwf a (hp_impl p) -> hp_finalized p = true ->
    Forall is_digest calls -> Forall (hcall_ok al) calls ->
    hash_run cx al p calls = Some (p, map (hprefix (firstn (ha_digest_size al) (dig p))) calls).
  Proof.
    induction calls as [|c calls IH]; intros p W F Hd Hc; [reflexivity|].
    inversion Hd; subst. inversion Hc; subst. cbn [hash_run].
    rewrite closed_step by assumption. cbn [bind]. rewrite IH by assumption. reflexivity.
  Qed.

  Lemma digests_run cx p calls : hwf a (hp_impl p) -> Forall is_digest calls -> Forall (hcall_ok al) calls ->
    exists D p', length D = ha_digest_size al /\ hash_run cx al p calls = Some (p', map (hprefix D) calls).
  Proof.
    intros W Hd Hc. destruct calls as [|c calls].
    - exists (firstn (ha_digest_size al) (dig p)), p. split; [|reflexivity].
      rewrite firstn_length, dig_length by assumption. lia.
    - inversion Hd; subst. inversion Hc; subst.
      destruct (open_step cx p c W) as (q & E & Wq & F & Es); try assumption.
      exists (firstn (ha_digest_size al) (dig q)), q. split.
      + rewrite firstn_length, dig_length by assumption. lia.
      + cbn [hash_run]. rewrite Es. cbn [bind]. rewrite closed_run by assumption. reflexivity.
  Qed.

  Lemma digests_after cx before calls : Forall (hcall_ok al) before -> Forall is_digest calls -> Forall (hcall_ok al) calls ->
    exists p outs D p', hash_run cx al (hapie_new al) before = Some (p, outs) /\
      length D = ha_digest_size al /\ hash_run cx al p calls = Some (p', map (hprefix D) calls).
  Proof.
    intros Hb Hd Hc. destruct (run_total cx _ before new_awf Hb) as (p & os & E & W).
    destruct (digests_run cx p calls W Hd Hc) as (D & p' & L & R). exists p, os, D, p'. auto.
  Qed.

  (** *** Values *)
  Lemma stream_holds cx : forall ms m p, aholds a m p -> hp_finalized p = false -> Forall chunk ms ->
    exists p', foldM (hapie_update cx al) ms p = Some p' /\ aholds a (m ++ concat ms) p' /\ hp_finalized p' = false.
  Proof.
    induction ms as [|x ms IH]; intros m p H F Hc.
    - exists p. rewrite app_nil_r. auto.
    - inversion Hc as [|? ? [Hb Hl] Hc2]; subst. cbn [foldM concat].
      destruct (aholds_update a al AO cx m p x H F Hb ltac:(auto)) as (q & E & H' & F'). rewrite E. cbn [bind].
      destruct (IH (m ++ x) q H' F' Hc2) as (r & E2 & H2 & F2). exists r. rewrite <- app_assoc in H2. auto.
  Qed.

  Lemma hash_stream_holds cx ms : Forall chunk ms ->
    exists p, hash_stream cx al ms = Some p /\ aholds a (concat ms) p.
  Proof.
    intros H. destruct (stream_holds cx ms [] (hapie_new al) (aholds_new a al AO) eq_refl H) as (p & E & H' & _).
    exists p. auto.
  Qed.

  Lemma aholds_wf m p : aholds a m p -> hwf a (hp_impl p).
  Proof. intros [o H|o H _]; [exact (hd_wf _ _ _ H)|exact H]. Qed.

  Lemma orderly_run cx : forall calls m p, aholds a m p -> bytes m -> Forall (hcall_ok al) calls ->
    orderly (hp_finalized p) calls = true ->
    exists p', hash_run cx al p calls
      = Some (p', expected (fun m => firstn (ha_digest_size al) (fips_full a m)) m calls).
  Proof.
    induction calls as [|c calls IH]; intros m p H Hb Hc Ho; [exists p; reflexivity|].
    inversion Hc as [|? ? Hc1 Hc2]; subst. cbn [hash_run].
    assert (Dg : is_digest c -> orderly true calls = true ->
      exists p', ('(p0, o) <- hash_step cx al p c;; '(p1, os) <- hash_run cx al p0 calls;; Some (p1, o :: os))
        = Some (p', hprefix (firstn (ha_digest_size al) (fips_full a m)) c
                      :: expected (fun m => firstn (ha_digest_size al) (fips_full a m)) m calls)).
    { intros Hd Ho'. destruct (open_step cx p c (aholds_wf m p H) Hd Hc1) as (q & E & W & F & Es).
      destruct (aholds_finalize a al AO cx m p H) as (q' & E' & H' & F' & _ & S & _).
      assert (q' = q) by congruence. subst q'.
      destruct (IH m q H' Hb Hc2) as (r & Er); [rewrite F; assumption|].
      rewrite Es. cbn [bind]. rewrite Er. cbn [bind]. exists r.
      unfold dig. rewrite S. reflexivity. }
    destruct c as [|x|d s|c s]; cbn [orderly expected] in *.
    - destruct (IH [] (hapie_initialize al p)) as (r & Er); try assumption.
      + apply ah_open. apply (holds_init a al AO). apply (aholds_wf m p H).
      + constructor.
      + cbn [hash_step bind]. rewrite Er. cbn [bind]. exists r. reflexivity.
    - apply andb_true_iff in Ho. destruct Ho as [F Ho]. apply negb_true_iff in F.
      destruct Hc1 as [Hx Hl].
      destruct (aholds_update a al AO cx m p x H F Hx ltac:(auto)) as (q & E & H' & F').
      cbn [hash_step]. rewrite E. cbn [bind].
      destruct (IH (m ++ x) q H') as (r & Er); try assumption.
      + apply bytes_app. auto.
      + rewrite F', <- F. assumption.
      + rewrite Er. cbn [bind]. exists r. reflexivity.
    - apply Dg; [exact I|exact Ho].
    - apply Dg; [exact I|exact Ho].
  Qed.

  (** *** All overloads *)
  Lemma chunk_nil : chunk [].
  Proof. split; [constructor|cbn; lia]. Qed.

  Lemma full_len m : bytes m -> length (firstn (ha_digest_size al) (fips_full a m)) = ha_digest_size al.
  Proof.
    intros H. rewrite firstn_length. change (fips_full a m) with (full a m). rewrite full_length by assumption. lia.
  Qed.

  Definition D_of (m : list N) := firstn (ha_digest_size al) (fips_full a m).

  Lemma ov_ptr cx m p dst size : aholds a m p -> bytes m -> bytes dst ->
    (Nat.min size (ha_digest_size al) <= length dst)%nat ->
    exists p', hapie_digest cx al p dst size
      = Some (p', firstn size (D_of m) ++ skipn (Nat.min size (ha_digest_size al)) dst,
              Nat.min size (ha_digest_size al)).
  Proof.
    intros H Hm Hd Hl. destruct (aholds_digest a al AO Hdsz cx m p dst size H Hd Hl) as (p' & E & _).
    exists p'. rewrite E. unfold D_of. rewrite firstn_firstn. reflexivity.
  Qed.

  Lemma ov_dyn cx m p l size : aholds a m p -> bytes m -> bytes l ->
    exists p', hapie_digest_c cx al p (Dynamic l) size
      = Some (p', Dynamic (firstn size (D_of m)), Nat.min size (ha_digest_size al)).
  Proof.
    intros H Hm Hd. destruct (aholds_digest_c a al AO Hdsz cx m p (Dynamic l) size H Hd) as (p' & n & En & E & _).
    exists p'. rewrite E. unfold D_of. rewrite firstn_firstn, app_nil_r. cbn [cset].
    replace n with (Nat.min size (ha_digest_size al)) by lia. reflexivity.
  Qed.

  Lemma ov_static cx m p l size : aholds a m p -> bytes m -> bytes l ->
    let n := Nat.min (Nat.min size (ha_digest_size al)) (length l) in
    exists p', hapie_digest_c cx al p (Static l) size
      = Some (p', Static (firstn n (D_of m) ++ skipn n l), n).
  Proof.
    intros H Hm Hd n. destruct (aholds_digest_c a al AO Hdsz cx m p (Static l) size H Hd) as (p' & n' & En & E & _).
    exists p'. rewrite E. unfold D_of. rewrite firstn_firstn. cbn [cset].
    replace n' with n by (unfold n; lia). rewrite (Nat.min_l n) by (unfold n; lia). reflexivity.
  Qed.
End Hist.
