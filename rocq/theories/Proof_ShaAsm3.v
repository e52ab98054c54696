(** Hash objects with different backends, contexts: indistinguishable. *)
From Verif Require Import Base BaseLemmas Spec_Bytes Spec_Sha Model_Memory Model_Update Model_Container Model_Sha Spec_Hash
  BytesLemmas Proof_ShaCore Proof_Sha2Core Proof_Soak Proof_Sha Proof_ShaHist Proof_ShaApi Model_Dispatch Model_X86 Model_ShaAsm Proof_ShaAsm Proof_ShaAsm2.
Local Open Scope N_scope.

Section Two.
  Context (a : sha) (al1 al2 : hash_alg) (AO1 : alg_ok a al1) (AO2 : alg_ok a al2)
          (Hd1 : (ha_digest_size al1 <= sha_nst a * sha_word_size a)%nat)
          (Hd : ha_digest_size al1 = ha_digest_size al2).

  Lemma heq2_init o1 o2 : hwf a o1 -> hwf a o2 -> heq a (hash_initialize al1 o1) (hash_initialize al2 o2).
  Proof.
    intros H1 H2. constructor; cbn [hash_initialize ho_state ho_count ho_size]; try reflexivity.
    - apply (init_wf a al1 AO1); assumption.
    - apply (init_wf a al2 AO2); assumption.
    - rewrite (ao_iv _ _ AO1), (ao_iv _ _ AO2). reflexivity.
    - rewrite (ao_wide _ _ AO1), (ao_wide _ _ AO2). reflexivity.
  Qed.
  Lemma heq2_update cx1 cx2 o1 o2 m : heq a o1 o2 -> chunk m ->
    exists o1' o2', hash_update cx1 al1 o1 m = Some o1' /\ hash_update cx2 al2 o2 m = Some o2' /\ heq a o1' o2'.
  Proof.
    intros [W1 W2 Es Ec Ez Ep] [Hm Hl]. destruct (hw_count a o1 W1) as [n Hn].
    assert (Hn2 : ho_count o2 = count_of (sha_wide a) n) by (rewrite <- Ec; assumption).
    destruct (update_spec a al1 AO1 cx1 o1 m n W1 Hm ltac:(auto) Hn) as (o1' & E1 & W1' & S1 & C1 & Z1 & P1).
    destruct (update_spec a al2 AO2 cx2 o2 m n W2 Hm ltac:(auto) Hn2) as (o2' & E2 & W2' & S2 & C2 & Z2 & P2).
    exists o1', o2'. split; [exact E1|]. split; [exact E2|]. constructor; try assumption.
    - rewrite S1, S2, Es, Ep. reflexivity.
    - rewrite C1, C2. reflexivity.
    - rewrite Z1, Z2, Ep. reflexivity.
    - rewrite P1, P2, Ep. reflexivity.
  Qed.
  Lemma heq2_finalize cx1 cx2 o1 o2 : heq a o1 o2 ->
    exists o1' o2', hash_finalize cx1 al1 o1 = Some o1' /\ hash_finalize cx2 al2 o2 = Some o2' /\ heq a o1' o2'.
  Proof.
    intros [W1 W2 Es Ec Ez Ep]. destruct (hw_count a o1 W1) as [n Hn].
    assert (Hn2 : ho_count o2 = count_of (sha_wide a) n) by (rewrite <- Ec; assumption).
    destruct (finalize_spec a al1 AO1 cx1 o1 n W1 Hn) as (o1' & E1 & W1' & S1 & C1 & Z1 & P1).
    destruct (finalize_spec a al2 AO2 cx2 o2 n W2 Hn2) as (o2' & E2 & W2' & S2 & C2 & Z2 & P2).
    exists o1', o2'. split; [exact E1|]. split; [exact E2|]. constructor; try assumption.
    - rewrite S1, S2, Es, Ep, Ez. reflexivity.
    - rewrite C1, C2. assumption.
    - rewrite Z1, Z2. assumption.
    - rewrite P1, P2. assumption.
  Qed.
  Lemma aeq2_do_finalize cx1 cx2 p1 p2 : aeq a p1 p2 ->
    exists p1' p2', hapie_do_finalize cx1 al1 p1 = Some p1' /\ hapie_do_finalize cx2 al2 p2 = Some p2' /\
      aeq a p1' p2' /\ hp_finalized p1' = true.
  Proof.
    intros [H Hf]. unfold hapie_do_finalize. rewrite <- Hf. destruct (hp_finalized p1) eqn:F.
    - do 2 eexists. split; [reflexivity|]. split; [reflexivity|]. split; [split; [assumption|congruence]|assumption].
    - destruct (heq2_finalize cx1 cx2 _ _ H) as (o1 & o2 & E1 & E2 & H'). rewrite E1, E2. cbn [bind].
      do 2 eexists. split; [reflexivity|]. split; [reflexivity|]. split; [split; [exact H'|reflexivity]|reflexivity].
  Qed.
  Lemma aeq2_step cx1 cx2 p1 p2 c : aeq a p1 p2 -> hcall_ok al1 c ->
    exists p1' p2' out, hash_step cx1 al1 p1 c = Some (p1', out) /\ hash_step cx2 al2 p2 c = Some (p2', out) /\ aeq a p1' p2'.
  Proof.
    assert (Hd2 : (ha_digest_size al2 <= sha_nst a * sha_word_size a)%nat) by lia.
    intros H Hc. destruct c as [|m|d s|c s]; cbn [hash_step hcall_ok] in *.
    - do 3 eexists. split; [reflexivity|]. split; [reflexivity|]. split; [|reflexivity].
      destruct H as [H _]. apply heq2_init; [exact (he_wf1 _ _ _ H)|exact (he_wf2 _ _ _ H)].
    - destruct H as [H Hf]. destruct (heq2_update cx1 cx2 _ _ m H Hc) as (o1 & o2 & E1 & E2 & H').
      unfold hapie_update. rewrite E1, E2. cbn [bind]. do 3 eexists. split; [reflexivity|]. split; [reflexivity|].
      split; [exact H'|exact Hf].
    - destruct Hc as [Hb Hl]. destruct (aeq2_do_finalize cx1 cx2 p1 p2 H) as (q1 & q2 & E1 & E2 & H' & F).
      destruct H' as [H' F']. rewrite digest_split, E1, (digest_split al2 cx2 p2), E2. cbn [bind].
      rewrite (digest_closed a al1 AO1 Hd1) by (try assumption; apply (he_wf1 _ _ _ H')).
      rewrite (digest_closed a al2 AO2 Hd2) by first [assumption|congruence|lia|apply (he_wf2 _ _ _ H')].
      cbn [bind]. rewrite (aeq_dig a q1 q2) by (split; assumption). rewrite Hd.
      do 3 eexists. split; [reflexivity|]. split; [reflexivity|]. split; assumption.
    - destruct (aeq2_do_finalize cx1 cx2 p1 p2 H) as (q1 & q2 & E1 & E2 & H' & F).
      destruct H' as [H' F']. rewrite digest_c_split, E1, (digest_c_split al2 cx2 p2), E2. cbn [bind].
      rewrite (digest_c_closed a al1 AO1 Hd1) by (try assumption; apply (he_wf1 _ _ _ H')).
      rewrite (digest_c_closed a al2 AO2 Hd2) by first [assumption|congruence|apply (he_wf2 _ _ _ H')].
      cbn [bind]. rewrite (aeq_dig a q1 q2) by (split; assumption). rewrite Hd.
      do 3 eexists. split; [reflexivity|]. split; [reflexivity|]. split; assumption.
  Qed.
  Lemma aeq2_run cx1 cx2 : forall calls p1 p2, aeq a p1 p2 -> Forall (hcall_ok al1) calls ->
    exists p1' p2' outs, hash_run cx1 al1 p1 calls = Some (p1', outs) /\ hash_run cx2 al2 p2 calls = Some (p2', outs) /\
      aeq a p1' p2'.
  Proof.
    induction calls as [|c calls IH]; intros p1 p2 H Hc.
    - exists p1, p2, []. auto.
    - inversion Hc as [|? ? Hc1 Hc2]; subst.
      destruct (aeq2_step cx1 cx2 p1 p2 c H Hc1) as (q1 & q2 & o & E1 & E2 & H').
      destruct (IH q1 q2 H' Hc2) as (r1 & r2 & os & F1 & F2 & H'').
      cbn [hash_run]. rewrite E1, E2. cbn [bind]. rewrite F1, F2. cbn [bind].
      exists r1, r2, (o :: os). auto.
  Qed.
  Lemma new_wfs : hwf a (hash_new al1) /\ hwf a (hash_new al2).
  Proof.
    assert (G : forall al, alg_ok a al -> hwf a (hash_new al)).
    { intros al AO. pose proof (sha_iv_ok a) as [IVl _].
      constructor; cbn [hash_new ho_state ho_count ho_buffer ho_size].
      - rewrite (ao_iv _ _ AO), IVl. split; [apply repeat_length|]. apply Forall_forall. intros x Hx. apply repeat_spec in Hx. subst x.
        unfold is_word. apply pow2_pos.
      - exists 0. rewrite (ao_wide _ _ AO). destruct (sha_wide a); reflexivity.
      - rewrite (ao_bs _ _ AO). apply repeat_length.
      - apply Forall_forall. intros x Hx. apply repeat_spec in Hx. subst x. reflexivity.
      - destruct a; cbn; lia. }
    split; apply G; assumption.
  Qed.
  Lemma aeq2_new : aeq a (hapie_new al1) (hapie_new al2).
  Proof. destruct new_wfs as [W1 W2]. split; [|reflexivity]. apply heq2_init; assumption. Qed.
  Lemma same_outs cx1 cx2 calls : Forall (hcall_ok al1) calls ->
    exists p1 p2 outs, hash_run cx1 al1 (hapie_new al1) calls = Some (p1, outs) /\ hash_run cx2 al2 (hapie_new al2) calls = Some (p2, outs).
  Proof. intros H. destruct (aeq2_run cx1 cx2 calls _ _ aeq2_new H) as (p1 & p2 & outs & E1 & E2 & _). eauto. Qed.
End Two.

(** *** The assembly backends are hash algorithms. *)
Lemma ni_alg_ok a j dsz : (forall n st src, length (j n st src) = 16%nat) -> alg_ok a (ni_hash_opt a j dsz).
Proof.
  intros J. destruct (milo_alg_ok a dsz) as [B1 B2 B3 B4 B5 B6]. constructor; try assumption.
  intros cx n st src Hst Hb Hn. cbn [ni_hash_opt ha_blocks]. unfold ni_blocks. destruct (cx_ce cx); [apply B6; assumption|].
  destruct Hst as [Hl Hw]. destruct a; try (apply B6; [split|exact Hb|exact Hn]; assumption).
  - exact (sha1_ni_blocks_spec _ n st src (J _ _ _) Hb Hn Hl Hw).
  - exact (sha2_ni_blocks_spec _ n st src (J _ _ _) Hb Hn Hl Hw).
  - exact (sha2_ni_blocks_spec _ n st src (J _ _ _) Hb Hn Hl Hw).
Qed.
