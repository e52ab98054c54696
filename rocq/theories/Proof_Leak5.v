(** The traces of the hashes, MACs, the cipher and the key derivation functions do not depend on the bytes. *)
From Verif Require Import Base BaseLemmas BytesLemmas Spec_Sha Model_Memory Model_Update Model_Container Model_X86 Model_Sha Model_ShaAsm Model_Mac Model_Hmac Model_Poly
  Model_Cipher Model_Kdf Model_Leak Model_Leak2 Spec_Leak Spec_Leak2 Proof_Leak2.
Local Open Scope N_scope.

Lemma s_for {A B} (R : A -> A -> Prop) (f g : A -> B -> L A) : (forall a a' x, R a a' -> same R (f a x) (g a' x)) ->
  forall l a a', R a a' -> same R (l_for f l a) (l_for g l a').
Proof.
  intros Hf. induction l as [|x l IH]; intros a a' Ha; cbn [l_for]; (apply same_emit; [reflexivity|]).
  - apply same_ret. exact Ha.
  - eapply same_bind; [apply Hf; exact Ha|]. intros b b' Hb. apply IH. exact Hb.
Qed.
Lemma s_seq {A B} (R : A -> A -> Prop) (Q : B -> B -> Prop) (f g : A -> B -> L A) : (forall a a' x y, R a a' -> Q x y -> same R (f a x) (g a' y)) ->
  forall l l' a a', Forall2 Q l l' -> R a a' -> same R (l_seq f l a) (l_seq g l' a').
Proof.
  intros Hf l l' a a' H. revert a a'. induction H as [|x y l l' Hx _ IH]; intros a a' Ha; cbn [l_seq].
  - apply same_ret. exact Ha.
  - eapply same_bind; [apply Hf; [exact Ha|exact Hx]|]. intros b b' Hb. apply IH. exact Hb.
Qed.
Lemma put_length cap sch i v s : put cap sch i v = Some s -> length s = S (length sch).
Proof.
  unfold put. destruct ((i =? length sch)%nat && (i <? cap)%nat); [|discriminate]. intros E.
  assert (s = sch ++ [v]) as -> by congruence. rewrite app_length. cbn [length]. lia.
Qed.
Lemma s_put cap sch sch' i v v' : RL sch sch' -> same RL (l_put cap sch i v) (l_put cap sch' i v').
Proof.
  intros H. unfold l_put. apply same_emit; [reflexivity|]. apply same_lift. intros a b Ea Eb. apply put_length in Ea, Eb. unfold RL in *. congruence.
Qed.
#[global] Hint Resolve s_put : sm.

(** *** SHA-1 *)
Lemma s_sha1_round k fn s s' v v' j : same RA (l_sha1_round k fn s v j) (l_sha1_round k fn s' v' j).
Proof. unfold l_sha1_round. sm. Qed.
Lemma s_sha1_load cx q src src' p p' j : RP RL RA p p' -> same (RP RL RA) (l_sha1_load cx q src p j) (l_sha1_load cx q src' p' j).
Proof.
  intros [H _]. unfold l_sha1_load, l_sha1_00_15. destruct p as [s v], p' as [s' v']. cbn [fst snd] in *.
  eapply same_bind; [eapply same_bind; [apply s_load_be|intros ? ? _; apply s_put; exact H]|]. intros t t' Ht.
  eapply same_bind; [apply s_sha1_round|]. intros ? ? _. apply same_ret. split; [exact Ht|exact I].
Qed.
Lemma s_sha1_mix k fn p p' j : RP RL RA p p' -> same (RP RL RA) (l_sha1_mix k fn p j) (l_sha1_mix k fn p' j).
Proof.
  intros [H _]. unfold l_sha1_mix, l_sha1_16_79. destruct p as [s v], p' as [s' v']. cbn [fst snd] in *.
  eapply same_bind with (R := RL); [do 4 (eapply same_bind; [apply s_lrd|intros ? ? _]); apply s_put; exact H|]. intros t t' Ht.
  eapply same_bind; [apply s_sha1_round|]. intros ? ? _. apply same_ret. split; [exact Ht|exact I].
Qed.
Lemma s_sha1_block cx v v' q src src' : same RA (l_sha1_block cx v q src) (l_sha1_block cx v' q src').
Proof.
  unfold l_sha1_block.
  eapply same_bind; [apply s_for with (R := RP RL RA); [intros; apply s_sha1_load; assumption|split; [reflexivity|exact I]]|]. intros ? ? ?.
  do 4 (eapply same_bind; [apply s_for with (R := RP RL RA); [intros; apply s_sha1_mix; assumption|eassumption]|]; intros ? ? ?).
  apply same_ret. exact I.
Qed.
Lemma s_sha1_loop cx : forall n v v' q src src', same RA (l_sha1_loop cx n v q src) (l_sha1_loop cx n v' q src').
Proof.
  induction n as [|n IH]; intros v v' q src src'; cbn [l_sha1_loop]; (apply same_emit; [reflexivity|]).
  - apply same_ret. exact I.
  - eapply same_bind; [apply s_sha1_block|]. intros ? ? _. apply IH.
Qed.
Lemma s_sha1_blocks cx n st st' q src src' : RL st st' -> same RL (l_sha1_blocks cx n st q src) (l_sha1_blocks cx n st' q src').
Proof.
  intros H. unfold l_sha1_blocks. do 5 (eapply same_bind; [apply s_lrd|intros ? ? _]).
  eapply same_bind; [apply s_sha1_loop|]. intros [[[[? ?] ?] ?] ?] [[[[? ?] ?] ?] ?] _. sm.
Qed.
(** *** SHA-2 *)
Lemma s_sha2_round p s s' v v' j : same RA (l_sha2_round p s v j) (l_sha2_round p s' v' j).
Proof. unfold l_sha2_round. sm. Qed.
Lemma s_sha2_load cx p q src src' x x' j : RP RL RA x x' -> same (RP RL RA) (l_sha2_load cx p q src x j) (l_sha2_load cx p q src' x' j).
Proof.
  intros [H _]. unfold l_sha2_load, l_sha2_00_15. destruct x as [s v], x' as [s' v']. cbn [fst snd] in *.
  eapply same_bind; [eapply same_bind; [apply s_load_be|intros ? ? _; apply s_put; exact H]|]. intros t t' Ht.
  eapply same_bind; [apply s_sha2_round|]. intros ? ? _. apply same_ret. split; [exact Ht|exact I].
Qed.
Lemma s_sha2_mix p x x' j : RP RL RA x x' -> same (RP RL RA) (l_sha2_mix p x j) (l_sha2_mix p x' j).
Proof.
  intros [H _]. unfold l_sha2_mix, l_sha2_16. destruct x as [s v], x' as [s' v']. cbn [fst snd] in *.
  eapply same_bind with (R := RL); [do 4 (eapply same_bind; [apply s_lrd|intros ? ? _]); apply s_put; exact H|]. intros t t' Ht.
  eapply same_bind; [apply s_sha2_round|]. intros ? ? _. apply same_ret. split; [exact Ht|exact I].
Qed.
Lemma s_sha2_block cx p v v' q src src' : same RA (l_sha2_block cx p v q src) (l_sha2_block cx p v' q src').
Proof.
  unfold l_sha2_block.
  eapply same_bind; [apply s_for with (R := RP RL RA); [intros; apply s_sha2_load; assumption|split; [reflexivity|exact I]]|]. intros ? ? ?.
  (eapply same_bind; [apply s_for with (R := RP RL RA); [intros; apply s_sha2_mix; assumption|eassumption]|]; intros ? ? ?).
  apply same_ret. exact I.
Qed.
Lemma s_sha2_loop cx p : forall n v v' q src src', same RA (l_sha2_loop cx p n v q src) (l_sha2_loop cx p n v' q src').
Proof.
  induction n as [|n IH]; intros v v' q src src'; cbn [l_sha2_loop]; (apply same_emit; [reflexivity|]).
  - apply same_ret. exact I.
  - eapply same_bind; [apply s_sha2_block|]. intros ? ? _. apply IH.
Qed.
Lemma s_sha2_blocks cx p n st st' q src src' : RL st st' -> same RL (l_sha2_blocks cx p n st q src) (l_sha2_blocks cx p n st' q src').
Proof.
  intros H. unfold l_sha2_blocks. cbv zeta. do 8 (eapply same_bind; [apply s_lrd|intros ? ? _]).
  eapply same_bind; [apply s_sha2_loop|]. intros [[[[[[[? ?] ?] ?] ?] ?] ?] ?] [[[[[[[? ?] ?] ?] ?] ?] ?] ?] _. sm.
Qed.
(** The assembly code leaves the length of the state. *)
Ltac inv_bind H := match type of H with bind ?x _ = Some _ => let E := fresh "E" in destruct x eqn:E; [cbn [bind] in H|discriminate H] end.
Lemma sset_state m d v m' : sset m d v = Some m' -> length (sm_state m') = length (sm_state m).
Proof. unfold sset. intros H. inv_bind H. assert (m' = {| sm_reg := l; sm_mem := sm_mem m; sm_src := sm_src m; sm_state := sm_state m |}) as -> by congruence. reflexivity. Qed.
Lemma sstore_state m i v m' : sstore m i v = Some m' -> length (sm_state m') = length (sm_state m).
Proof.
  unfold sstore. destruct (i mod 4 =? 0)%nat; [|discriminate]. intros H. inv_bind H.
  assert (m' = {| sm_reg := sm_reg m; sm_mem := sm_mem m; sm_src := sm_src m; sm_state := l |}) as -> by congruence. cbn [sm_state]. exact (wrs_length _ _ _ _ E).
Qed.
Lemma sexec_state m i m' : sexec m i = Some m' -> length (sm_state m') = length (sm_state m).
Proof.
  destruct i; cbn [sexec]; intros H; repeat inv_bind H;
    try match type of H with (if ?b then _ else _) = _ => destruct b; [|discriminate H] end;
    first [exact (sset_state _ _ _ _ H)|exact (sstore_state _ _ _ _ H)|idtac].
  assert (m' = {| sm_reg := sm_reg m; sm_mem := sm_mem m; sm_src := (sm_src m + k)%nat; sm_state := sm_state m |}) as -> by congruence. reflexivity.
Qed.
Lemma srun_state : forall p m m', srun p m = Some m' -> length (sm_state m') = length (sm_state m).
Proof.
  induction p as [|i p IH]; intros m m' H; cbn [srun] in H.
  - assert (m' = m) as -> by congruence. reflexivity.
  - inv_bind H. rewrite (IH _ _ H). exact (sexec_state _ _ _ E).
Qed.
Lemma sloop_state p : forall n m m', sloop p n m = Some m' -> length (sm_state m') = length (sm_state m).
Proof.
  induction n as [|n IH]; intros m m' H; cbn [sloop] in H.
  - assert (m' = m) as -> by congruence. reflexivity.
  - inv_bind H. rewrite (IH _ _ H). exact (srun_state _ _ _ E).
Qed.
Lemma routine_state a b c j n st src st' : routine a b c j n st src = Some st' -> length st' = length st.
Proof.
  unfold routine. intros H. inv_bind H. inv_bind H. inv_bind H. assert (st' = sm_state s1) as -> by congruence.
  rewrite (srun_state _ _ _ E1), (sloop_state _ _ _ _ E0), (srun_state _ _ _ E). reflexivity.
Qed.

(** *** The hash classes *)
Definition lh_silent (cx : ctx) (H : lhash) : Prop :=
  forall n st st' q l l', RL st st' -> RL l l' -> same RL (lh_blocks H cx n st q l) (lh_blocks H cx n st' q l').
Lemma lh_sw_silent cx a dsz : lh_silent cx (lh_sw a dsz).
Proof.
  intros n st st' q l l' Hs _. destruct a; cbn [lh_sw lh_blocks]; first [exact (s_sha1_blocks cx n st st' q l l' Hs)|exact (s_sha2_blocks cx _ n st st' q l l' Hs)].
Qed.
Lemma lh_ni_silent cx a j dsz : lh_silent cx (lh_ni a j dsz).
Proof.
  intros n st st' q l l' Hs Hl. cbn [lh_ni lh_blocks]. destruct (cx_ce cx) eqn:C; [exact (lh_sw_silent cx a dsz n st st' q l l' Hs Hl)|].
  destruct a; first [exact (lh_sw_silent cx _ dsz n st st' q l l' Hs Hl)|idtac];
    (apply same_emit; [reflexivity|]); unfold ni_hash_opt, ni_blocks; cbn [ha_blocks]; rewrite C; apply same_lift; intros x y Ex Ey;
    unfold sha1_ni_blocks, sha2_ni_blocks in Ex, Ey; apply routine_state in Ex, Ey; unfold RL in *; congruence.
Qed.
Definition Rho (o o' : hash_obj) : Prop := RL (ho_state o) (ho_state o') /\ RL (ho_buffer o) (ho_buffer o') /\ ho_size o = ho_size o'.
Lemma s_hash_initialize H o o' : Rho o o' -> same Rho (l_hash_initialize H o) (l_hash_initialize H o').
Proof.
  intros (_ & Hb & _). unfold l_hash_initialize. apply same_emit; [reflexivity|]. apply same_ret.
  split; [|split]; cbn [hash_initialize ho_state ho_buffer ho_size]; [reflexivity|exact Hb|reflexivity].
Qed.
Lemma length_words_len wide c ws : length_words wide c = Some ws -> length ws = (if wide then 2 else 1)%nat.
Proof.
  unfold length_words. generalize (wshl 64). intros f. destruct wide; intros H; repeat inv_bind H.
  - assert (ws = [N.lor (f n0 3) (N.shiftr n 61); f n 3]) as -> by congruence. reflexivity.
  - assert (ws = [f n 3]) as -> by congruence. reflexivity.
Qed.
Lemma s_stor_words64 cx p : forall ws ws' a a' i, RL ws ws' -> RL a a' -> same RL (l_stor_words64 cx p a i ws) (l_stor_words64 cx p a' i ws').
Proof.
  induction ws as [|w ws IH]; intros [|w' ws'] a a' i Hw Ha; try discriminate Hw; cbn [l_stor_words64].
  - apply same_ret. exact Ha.
  - eapply same_bind; [apply s_stor_be; exact Ha|]. intros b b' Hb. apply IH; [unfold RL in *; cbn [length] in Hw; congruence|exact Hb].
Qed.
Section Hash.
Variables (cx : ctx) (H : lhash).
Hypothesis HS : lh_silent cx H.
Lemma s_hash_update o o' q m m' : Rho o o' -> RL m m' -> same Rho (l_hash_update cx H o q m) (l_hash_update cx H o' q m').
Proof.
  intros (Hs & Hb & Hz) Hm. unfold l_hash_update. apply same_emit; [reflexivity|]. eapply same_bind; [apply same_any|]. intros c c' _. rewrite Hz.
  eapply same_bind; [apply s_soak with (R := RL); [intros; apply HS; assumption|assumption..]|]. intros ? ? ?. dR. apply same_ret.
  split; [|split]; cbn [ho_state ho_buffer ho_size]; assumption || reflexivity.
Qed.
Lemma s_hash_finalize o o' : Rho o o' -> same Rho (l_hash_finalize cx H o) (l_hash_finalize cx H o').
Proof.
  intros (Hs & Hb & Hz). unfold l_hash_finalize. cbv zeta. rewrite Hz.
  eapply same_bind; [apply s_lwr; exact Hb|]. intros b1 b1' Hb1.
  eapply same_bind; [apply s_zero_loop; exact Hb1|]. intros b2 b2' Hb2.
  apply same_emit; [reflexivity|].
  eapply same_bind with (R := RL); [apply same_lift; intros w w' Ew Ew'; apply length_words_len in Ew, Ew'; unfold RL; congruence|]. intros w w' Hw.
  eapply same_bind; [apply s_stor_words64; [exact Hw|unfold RL in *; rewrite !skipn_length; congruence]|]. intros t t' Ht.
  assert (Hb3 : forall n, RL (firstn n b2 ++ t) (firstn n b2' ++ t')) by (intros n; unfold RL in *; rewrite !app_length, !firstn_length; congruence).
  eapply same_bind; [apply HS; [exact Hs|apply Hb3]|]. intros s s' Hs1. apply same_ret.
  split; [|split]; cbn [ho_state ho_buffer ho_size]; [exact Hs1|apply Hb3|reflexivity].
Qed.
Lemma s_hash_digest o o' p d d' size : RL d d' -> same (RP RL eq) (l_hash_digest cx H o p d size) (l_hash_digest cx H o' p d' size).
Proof. intros Hd. unfold l_hash_digest. cbv zeta. eapply same_bind; [apply s_copy_be; exact Hd|]. intros ? ? ?. apply same_ret. split; [assumption|reflexivity]. Qed.
Definition Rhp (p p' : hash_apie) : Prop := Rho (hp_impl p) (hp_impl p') /\ hp_finalized p = hp_finalized p'.
Lemma s_hapie_finalize p p' : Rhp p p' -> same Rhp (l_hapie_do_finalize cx H p) (l_hapie_do_finalize cx H p').
Proof.
  intros Hp. pose proof Hp as (Ho & Hf). unfold l_hapie_do_finalize. apply same_lif; [exact Hf|apply same_ret; exact Hp|].
  eapply same_bind; [apply s_hash_finalize; exact Ho|]. intros o o' Eo. apply same_ret. split; [exact Eo|reflexivity].
Qed.
Lemma s_hapie_digest p p' d d' size : Rhp p p' -> RL d d' -> same (RP (RP Rhp RL) eq) (l_hapie_digest cx H p d size) (l_hapie_digest cx H p' d' size).
Proof.
  intros Hp Hd. unfold l_hapie_digest. eapply same_bind; [apply s_hapie_finalize; exact Hp|]. intros r r' Hr.
  eapply same_bind; [apply s_hash_digest; exact Hd|]. intros ? ? ?. dR. apply same_ret. split; [split; assumption|reflexivity].
Qed.
Lemma s_hapie_digest_c p p' c c' size : Rhp p p' -> RC c c' -> same (RP (RP Rhp RC) eq) (l_hapie_digest_c cx H p c size) (l_hapie_digest_c cx H p' c' size).
Proof.
  intros Hp Hc. unfold l_hapie_digest_c. eapply same_bind; [apply s_hapie_finalize; exact Hp|]. intros r r' Hr. cbv zeta.
  pose proof (RC_resize c c' (Nat.min size (ha_digest_size (lh_al H))) Hc) as X.
  destruct (cresize c _) as [c1 z1], (cresize c' _) as [c2 z2]. destruct X as [X Hz]. cbn [fst snd] in X, Hz. subst z2.
  eapply same_bind; [apply s_hapie_digest; [exact Hr|exact (RC_len _ _ X)]|].
  intros ? ? ?. dR. apply same_ret. split; [split; [assumption|]|reflexivity]. cbn [fst snd]. apply RC_set; assumption.
Qed.
Lemma s_hash_step p p' c c' : Rhp p p' -> hash_shape c = hash_shape c' -> same (RP Rhp RA) (l_hash_step cx H p c) (l_hash_step cx H p' c').
Proof.
  intros Hp Hc. pose proof Hp as (Ho & Hf). destruct c, c'; try discriminate Hc; cbn [hash_shape] in Hc; unfold l_hash_step.
  - unfold l_hapie_initialize. eapply same_bind with (R := Rhp); [eapply same_bind; [apply s_hash_initialize; exact Ho|]|]; intros ? ? ?; apply same_ret.
    + split; [assumption|reflexivity].
    + split; [assumption|exact I].
  - assert (blank msg = blank msg0) as H1 by congruence. unfold l_hapie_update.
    eapply same_bind with (R := Rhp); [eapply same_bind; [apply s_hash_update; [exact Ho|apply shape_len; exact H1]|]|]; intros ? ? ?; apply same_ret.
    + split; [assumption|exact Hf].
    + split; [assumption|exact I].
  - assert (blank dst = blank dst0 /\ size = size0) as (H1 & ->) by (split; congruence).
    eapply same_bind; [apply s_hapie_digest; [exact Hp|apply shape_len; exact H1]|]. intros ? ? ?. dR. apply same_ret. split; [assumption|exact I].
  - assert (size = size0 /\ blank_c c = blank_c c0) as (-> & H2) by (split; congruence).
    eapply same_bind; [apply s_hapie_digest_c; [exact Hp|exact H2]|]. intros ? ? ?. dR. apply same_ret. split; [assumption|exact I].
Qed.
Lemma s_hash_run : forall calls calls' p p', Rhp p p' -> map hash_shape calls = map hash_shape calls' ->
  same (RP Rhp RA) (l_hash_run cx H p calls) (l_hash_run cx H p' calls').
Proof.
  induction calls as [|c calls IH]; intros [|c' calls'] p p' Hp Hc; try discriminate Hc; cbn [l_hash_run].
  - apply same_ret. split; [exact Hp|exact I].
  - cbn [map] in Hc. assert (hash_shape c = hash_shape c' /\ map hash_shape calls = map hash_shape calls') as [H1 H2] by (split; congruence).
    eapply same_bind; [apply s_hash_step; [exact Hp|exact H1]|]. intros ? ? ?. dR.
    eapply same_bind; [apply IH; [eassumption|exact H2]|]. intros ? ? ?. dR. apply same_ret. split; [assumption|exact I].
Qed.

(** *** HMAC *)
Definition Rhm (o o' : hmac_obj) : Prop := Rho (hm_hash o) (hm_hash o') /\ RL (hm_buffer o) (hm_buffer o').
Lemma s_pad_step bs b b' i : RL b b' -> same RL (l_pad_step bs b i) (l_pad_step bs b' i).
Proof. intros Hb. unfold l_pad_step. sm. Qed.
Lemma s_hmac_initialize o o' q key key' : Rhm o o' -> RL key key' -> same Rhm (l_hmac_initialize cx H o q key) (l_hmac_initialize cx H o' q key').
Proof.
  intros (Ho & Hb) Hk. unfold l_hmac_initialize. cbv zeta. pose proof Hk as E. unfold RL in E. rewrite E.
  eapply same_bind with (R := RP (RP Rho RL) eq).
  - apply same_lif; [reflexivity| |].
    + eapply same_bind; [apply s_hash_initialize; exact Ho|]. intros h1 h1' H1.
      eapply same_bind; [apply s_hash_update; [exact H1|exact Hk]|]. intros h2 h2' H2.
      eapply same_bind; [apply s_hash_finalize; exact H2|]. intros h3 h3' H3.
      eapply same_bind; [apply s_hash_digest; exact Hb|]. intros ? ? ?. dR.
      eapply same_bind; [apply s_lrds|]. intros ? ? ?.
      eapply same_bind; [apply s_lwrs; [eassumption|assumption]|]. intros ? ? ?.
      apply same_ret. split; [split; assumption|reflexivity].
    + eapply same_bind; [apply s_lrds|]. intros ? ? ?.
      eapply same_bind; [apply s_lwrs; [exact Hb|assumption]|]. intros ? ? ?.
      eapply same_bind; [apply s_lrds|]. intros ? ? ?.
      eapply same_bind; [apply s_lwrs; [eassumption|assumption]|]. intros ? ? ?.
      apply same_ret. split; [split; assumption|reflexivity].
  - intros ? ? ?. dR. apply same_if; [reflexivity|apply same_none|].
    eapply same_bind; [apply s_lat; [eassumption|intros; apply s_set; assumption]|]. intros ? ? ?.
    eapply same_bind; [apply s_lat; [eassumption|intros; apply s_set; assumption]|]. intros ? ? ?.
    eapply same_bind; [apply s_for with (R := RL); [intros; apply s_pad_step; assumption|eassumption]|]. intros ? ? ?.
    eapply same_bind; [apply s_rds|]. intros ? ? ?.
    eapply same_bind; [apply s_hash_initialize; eassumption|]. intros ? ? ?.
    eapply same_bind; [apply s_hash_update; [eassumption|assumption]|]. intros ? ? ?.
    apply same_ret. split; assumption.
Qed.
Lemma s_hmac_update o o' q m m' : Rhm o o' -> RL m m' -> same Rhm (l_hmac_update cx H o q m) (l_hmac_update cx H o' q m').
Proof.
  intros (Ho & Hb) Hm. unfold l_hmac_update. eapply same_bind; [apply s_hash_update; [exact Ho|exact Hm]|]. intros ? ? ?. apply same_ret. split; assumption.
Qed.
Lemma s_hmac_finalize o o' : Rhm o o' -> same Rhm (l_hmac_finalize cx H o) (l_hmac_finalize cx H o').
Proof.
  intros (Ho & Hb). unfold l_hmac_finalize. cbv zeta.
  eapply same_bind; [apply s_hash_finalize; exact Ho|]. intros ? ? ?.
  eapply same_bind; [apply s_lat; [exact Hb|]|].
  { intros p l l' Hl. eapply same_bind; [apply s_hash_digest; exact Hl|]. intros ? ? ?. dR. apply same_ret. assumption. }
  intros ? ? ?.
  eapply same_bind; [apply s_rds|]. intros ? ? ?.
  eapply same_bind; [apply s_hash_initialize; eassumption|]. intros ? ? ?.
  eapply same_bind; [apply s_hash_update; [eassumption|assumption]|]. intros ? ? ?.
  eapply same_bind; [apply s_hash_finalize; eassumption|]. intros ? ? ?.
  apply same_ret. split; assumption.
Qed.
End Hash.

(** *** MAC classes: some relation between objects is kept *)
Record lm_silent (cx : ctx) (M : lmac) (R : ma_obj (lm_M M) -> ma_obj (lm_M M) -> Prop) : Prop := {
  ms_new : R (ma_new (lm_M M)) (ma_new (lm_M M));
  ms_initialize : forall o o' q k k', R o o' -> RL k k' -> same R (lm_initialize M cx o q k) (lm_initialize M cx o' q k');
  ms_update : forall o o' q m m', R o o' -> RL m m' -> same R (lm_update M cx o q m) (lm_update M cx o' q m');
  ms_finalize : forall o o', R o o' -> same R (lm_finalize M cx o) (lm_finalize M cx o');
  ms_digest : forall o o' p d d' s, R o o' -> RL d d' -> same (RP RL eq) (lm_digest M cx o p d s) (lm_digest M cx o' p d' s) }.
Lemma lm_hmac_silent cx H dsz : lh_silent cx H -> lm_silent cx (lm_hmac H dsz) Rhm.
Proof.
  intros HS. split; cbn [lm_hmac lm_M mac_hmac ma_new lm_initialize lm_update lm_finalize lm_digest].
  - repeat split.
  - intros. apply s_hmac_initialize; assumption.
  - intros. apply s_hmac_update; assumption.
  - intros. apply s_hmac_finalize; assumption.
  - intros. unfold l_hmac_digest. apply s_hash_digest. assumption.
Qed.
Lemma lm_poly_silent cx dsz : lm_silent cx (lm_poly dsz) Rpo.
Proof.
  split; cbn [lm_poly lm_M mac_poly_ov ma_new lm_initialize lm_update lm_finalize lm_digest].
  - repeat split.
  - intros. apply s_poly_initialize; assumption.
  - intros. apply s_poly_update; assumption.
  - intros. apply s_poly_finalize; assumption.
  - intros. apply s_poly_digest; assumption.
Qed.
Section Mac.
Variables (cx : ctx) (M : lmac) (R : ma_obj (lm_M M) -> ma_obj (lm_M M) -> Prop).
Hypothesis HM : lm_silent cx M R.
Definition Rmp (p p' : mac_apie (lm_M M)) : Prop := R (mp_impl p) (mp_impl p') /\ mp_finalized p = mp_finalized p'.
Lemma s_mapie_finalize p p' : Rmp p p' -> same Rmp (l_mapie_do_finalize cx M p) (l_mapie_do_finalize cx M p').
Proof.
  intros Hp. pose proof Hp as (Ho & Hf). unfold l_mapie_do_finalize. apply same_lif; [exact Hf|apply same_ret; exact Hp|].
  eapply same_bind; [apply (ms_finalize _ _ _ HM); exact Ho|]. intros o o' Eo. apply same_ret. split; [exact Eo|reflexivity].
Qed.
Lemma s_mapie_digest p p' d d' size : Rmp p p' -> RL d d' -> same (RP (RP Rmp RL) eq) (l_mapie_digest cx M p d size) (l_mapie_digest cx M p' d' size).
Proof.
  intros Hp Hd. unfold l_mapie_digest. eapply same_bind; [apply s_mapie_finalize; exact Hp|]. intros r r' Hr.
  eapply same_bind; [apply (ms_digest _ _ _ HM); [exact (proj1 Hr)|exact Hd]|]. intros ? ? ?. dR. apply same_ret. split; [split; assumption|reflexivity].
Qed.
Lemma s_mapie_digest_c p p' c c' size : Rmp p p' -> RC c c' -> same (RP (RP Rmp RC) eq) (l_mapie_digest_c cx M p c size) (l_mapie_digest_c cx M p' c' size).
Proof.
  intros Hp Hc. unfold l_mapie_digest_c. eapply same_bind; [apply s_mapie_finalize; exact Hp|]. intros r r' Hr. cbv zeta.
  pose proof (RC_resize c c' (Nat.min size (ma_digest_size (lm_M M))) Hc) as X.
  destruct (cresize c _) as [c1 z1], (cresize c' _) as [c2 z2]. destruct X as [X Hz]. cbn [fst snd] in X, Hz. subst z2.
  eapply same_bind; [apply s_mapie_digest; [exact Hr|exact (RC_len _ _ X)]|].
  intros ? ? ?. dR. apply same_ret. split; [split; [assumption|]|reflexivity]. cbn [fst snd]. apply RC_set; assumption.
Qed.
Lemma s_mac_step p p' c c' : Rmp p p' -> mac_shape c = mac_shape c' -> same (RP Rmp RA) (l_mac_step cx M p c) (l_mac_step cx M p' c').
Proof.
  intros Hp Hc. pose proof Hp as (Ho & Hf). destruct c, c'; try discriminate Hc; cbn [mac_shape] in Hc; unfold l_mac_step.
  - assert (blank key = blank key0) as H1 by congruence. unfold l_mapie_initialize.
    eapply same_bind with (R := Rmp); [eapply same_bind; [apply (ms_initialize _ _ _ HM); [exact Ho|apply shape_len; exact H1]|]|]; intros ? ? ?; apply same_ret.
    + split; [assumption|reflexivity].
    + split; [assumption|exact I].
  - assert (blank msg = blank msg0) as H1 by congruence. unfold l_mapie_update.
    eapply same_bind with (R := Rmp); [eapply same_bind; [apply (ms_update _ _ _ HM); [exact Ho|apply shape_len; exact H1]|]|]; intros ? ? ?; apply same_ret.
    + split; [assumption|exact Hf].
    + split; [assumption|exact I].
  - assert (blank dst = blank dst0 /\ size = size0) as (H1 & ->) by (split; congruence).
    eapply same_bind; [apply s_mapie_digest; [exact Hp|apply shape_len; exact H1]|]. intros ? ? ?. dR. apply same_ret. split; [assumption|exact I].
  - assert (size = size0 /\ blank_c c = blank_c c0) as (-> & H2) by (split; congruence).
    eapply same_bind; [apply s_mapie_digest_c; [exact Hp|exact H2]|]. intros ? ? ?. dR. apply same_ret. split; [assumption|exact I].
Qed.
Lemma s_mac_run : forall calls calls' p p', Rmp p p' -> map mac_shape calls = map mac_shape calls' ->
  same (RP Rmp RA) (l_mac_run cx M p calls) (l_mac_run cx M p' calls').
Proof.
  induction calls as [|c calls IH]; intros [|c' calls'] p p' Hp Hc; try discriminate Hc; cbn [l_mac_run].
  - apply same_ret. split; [exact Hp|exact I].
  - cbn [map] in Hc. assert (mac_shape c = mac_shape c' /\ map mac_shape calls = map mac_shape calls') as [H1 H2] by (split; congruence).
    eapply same_bind; [apply s_mac_step; [exact Hp|exact H1]|]. intros ? ? ?. dR.
    eapply same_bind; [apply IH; [eassumption|exact H2]|]. intros ? ? ?. dR. apply same_ret. split; [assumption|exact I].
Qed.

(** *** Key derivation *)
Definition Rv (v v' : view) : Prop :=
  match v, v' with VPtr o n, VPtr o' n' => o = o' /\ n = n' | VCopy l, VCopy l' => RL l l' | _, _ => False end.
Lemma Rv_ptr k v v' : Rv v v' -> view_ptr k v = view_ptr k v'.
Proof. destruct v, v'; cbn; intros X; try contradiction; [destruct X as [-> _]|]; reflexivity. Qed.
Lemma s_view_of env env' r : same Rv (l_view_of cx env r) (l_view_of cx env' r).
Proof.
  unfold l_view_of. apply same_emit; [reflexivity|]. apply same_lift. intros v v' E E'. unfold view_of in *. destruct (cx_ce cx).
  - inv_bind E. inv_bind E'. injection E as <-. injection E' as <-. cbn [Rv]. unfold RL. rewrite (rds_length _ _ _ _ E0), (rds_length _ _ _ _ E1). reflexivity.
  - injection E as <-. injection E' as <-. cbn [Rv]. auto.
Qed.
Lemma s_view_read env env' v v' : Rv v v' -> same RL (lift (view_read env v)) (lift (view_read env' v')).
Proof.
  intros X. destruct v, v'; cbn [Rv] in X; try contradiction.
  - destruct X as [-> ->]. destruct size0; cbn [view_read]; [apply same_ret; reflexivity|apply s_rds].
  - cbn [view_read]. apply same_ret. exact X.
Qed.
Lemma s_range_read env env' r : same RL (lift (range_read env r)) (lift (range_read env' r)).
Proof. unfold range_read. destruct (snd r); [apply same_ret; reflexivity|apply s_rds]. Qed.
Definition Rmsg (x y : ptr * list N) : Prop := fst x = fst y /\ RL (snd x) (snd y).
Lemma s_mac_once h h' q key key' msgs msgs' p dst dst' off : R h h' -> RL key key' -> Forall2 Rmsg msgs msgs' -> RL dst dst' ->
  same (RP R RL) (l_mac_once cx M h q key msgs p dst off) (l_mac_once cx M h' q key' msgs' p dst' off).
Proof.
  intros Hh Hk Hm Hd. unfold l_mac_once.
  eapply same_bind; [apply (ms_initialize _ _ _ HM); [exact Hh|exact Hk]|]. intros ? ? ?.
  eapply same_bind; [apply s_seq with (R := R) (Q := Rmsg); [|exact Hm|eassumption]|].
  { intros z z' [x1 x2] [y1 y2] Ha [E1 E2]. cbn [fst snd] in *. subst y1. apply (ms_update _ _ _ HM); assumption. }
  intros ? ? ?.
  eapply same_bind; [apply (ms_finalize _ _ _ HM); eassumption|]. intros h1 h1' H1.
  eapply same_bind; [apply s_lat; [exact Hd|]|].
  { intros p0 l l' Hl. eapply same_bind; [apply (ms_digest _ _ _ HM); [exact H1|exact Hl]|]. intros ? ? ?. dR. apply same_ret. assumption. }
  intros ? ? ?. apply same_ret. split; assumption.
Qed.
Definition Rhk (o o' : hk_obj (lm_M M)) : Prop :=
  R (hk_mac o) (hk_mac o') /\ Rv (hk_info o) (hk_info o') /\ hk_counter o = hk_counter o' /\ RL (hk_prk o) (hk_prk o') /\
  RL (hk_buffer o) (hk_buffer o') /\ hk_size o = hk_size o'.
Lemma s_hk_initialize env env' o o' ikm salt info : Rhk o o' ->
  same Rhk (l_hk_initialize cx M env o ikm salt info) (l_hk_initialize cx M env' o' ikm salt info).
Proof.
  intros (Hm & Hv & Hc & Hp & Hb & Hz). unfold l_hk_initialize.
  eapply same_bind; [apply s_view_of|]. intros v v' Ev.
  eapply same_bind; [apply s_range_read|]. intros i i' Ei.
  eapply same_bind; [apply s_range_read|]. intros s s' Es.
  eapply same_bind; [apply s_mac_once; [exact Hm|exact Es|constructor; [split; [reflexivity|exact Ei]|constructor]|exact Hp]|]. intros ? ? ?. dR.
  apply same_ret. repeat split; cbn [hk_mac hk_info hk_counter hk_prk hk_buffer hk_size]; assumption || reflexivity.
Qed.
Lemma s_hk_expand env env' h h' prk prk' v v' c qp prev prev' p dst dst' off : R h h' -> RL prk prk' -> Rv v v' -> RL prev prev' -> RL dst dst' ->
  same (RP R RL) (l_hk_expand cx M env h prk v c qp prev p dst off) (l_hk_expand cx M env' h' prk' v' c qp prev' p dst' off).
Proof.
  intros Hh Hk Hv Hp Hd. unfold l_hk_expand. eapply same_bind; [apply s_view_read; exact Hv|]. intros i i' Ei. rewrite (Rv_ptr 17 _ _ Hv).
  apply s_mac_once; [exact Hh|exact Hk| |exact Hd]. repeat constructor; cbn [fst snd]; assumption.
Qed.
Lemma s_hk_loop env env' prk prk' v v' : RL prk prk' -> Rv v v' -> forall n h h' c key key' tmp, R h h' -> RL key key' ->
  same (RP (RP (RP R eq) RL) eq) (l_hk_loop cx M env prk v h c key tmp n) (l_hk_loop cx M env' prk' v' h' c key' tmp n).
Proof.
  intros Hk Hv. induction n as [|n IH]; intros h h' c key key' tmp Hh Hy; cbn [l_hk_loop]; (apply same_emit; [reflexivity|]).
  - apply same_ret. split; [split; [split|]|]; assumption || reflexivity.
  - cbv zeta. eapply same_bind; [apply s_rds|]. intros ? ? ?.
    eapply same_bind; [apply s_hk_expand; [exact Hh|exact Hk|exact Hv|eassumption|exact Hy]|]. intros ? ? ?. dR. apply IH; assumption.
Qed.
Lemma s_hk_derive env env' o o' key key' size : Rhk o o' -> RL key key' ->
  same (RP (RP Rhk RL) eq) (l_hk_derive cx M env o key size) (l_hk_derive cx M env' o' key' size).
Proof.
  intros (Hm & Hv & Hc & Hp & Hb & Hz) Hk. unfold l_hk_derive. cbv zeta. rewrite Hc, Hz.
  eapply same_bind with (R := RL).
  { apply same_lif; [reflexivity| |apply same_ret; exact Hk]. apply s_lat; [exact Hk|intros; apply s_copy; assumption]. }
  intros k1 k1' H1. apply same_lif; [reflexivity| |].
  { apply same_ret. split; [split|]; cbn [fst snd]; [|exact H1|reflexivity]. repeat split; cbn [hk_mac hk_info hk_counter hk_prk hk_buffer hk_size]; assumption || reflexivity. }
  apply same_if; [reflexivity|apply same_none|].
  apply same_emit; [reflexivity|].
  assert (Hbeg : RL (if hk_counter o' =? 1 then [] else hk_buffer o) (if hk_counter o' =? 1 then [] else hk_buffer o')) by (destruct (hk_counter o' =? 1); [reflexivity|exact Hb]).
  eapply same_bind with (R := RP (RP (RP (RP R eq) RL) RL) eq).
  - apply same_lif; [reflexivity| |].
    + eapply same_bind; [apply s_hk_expand; [exact Hm|exact Hp|exact Hv|exact Hbeg|exact Hb]|]. intros ? ? ?. dR. apply same_ret.
      split; [split; [split; [split|]|]|]; assumption || reflexivity.
    + eapply same_bind; [apply s_hk_expand; [exact Hm|exact Hp|exact Hv|exact Hbeg|exact H1]|]. intros ? ? ?. dR.
      eapply same_bind; [apply s_hk_loop; [exact Hp|exact Hv|eassumption|eassumption]|]. intros ? ? ?. dR.
      eapply same_bind; [apply s_rds|]. intros ? ? ?.
      eapply same_bind; [apply s_hk_expand; [eassumption|exact Hp|exact Hv|eassumption|exact Hb]|]. intros ? ? ?. dR. apply same_ret.
      split; [split; [split; [split|]|]|]; assumption || reflexivity.
  - intros ? ? ?. dR. eapply same_bind; [apply s_lat; [eassumption|intros; apply s_copy; assumption]|]. intros ? ? ?. apply same_ret.
    split; [split|]; cbn [fst snd]; [|assumption|reflexivity]. repeat split; cbn [hk_mac hk_info hk_counter hk_prk hk_buffer hk_size]; assumption || reflexivity.
Qed.
Definition Rpb (o o' : pb_obj (lm_M M)) : Prop :=
  R (pb_mac o) (pb_mac o') /\ Rv (pb_ikm o) (pb_ikm o') /\ Rv (pb_salt o) (pb_salt o') /\ pb_iterations o = pb_iterations o' /\ pb_counter o = pb_counter o' /\
  RL (pb_buffer o) (pb_buffer o') /\ pb_size o = pb_size o'.
Lemma s_pb_initialize env env' o o' ikm salt it : Rpb o o' -> same Rpb (l_pb_initialize cx M env o ikm salt it) (l_pb_initialize cx M env' o' ikm salt it).
Proof.
  intros (Hm & Hi & Hs & Ht & Hc & Hb & Hz). unfold l_pb_initialize.
  eapply same_bind; [apply s_view_of|]. intros v v' Ev.
  eapply same_bind; [apply s_view_of|]. intros w w' Ew.
  apply same_ret. repeat split; cbn [pb_mac pb_ikm pb_salt pb_iterations pb_counter pb_buffer pb_size]; assumption || reflexivity.
Qed.
Lemma s_pb_loop env env' v v' : Rv v v' -> forall n h h' b0 b0' b1 b1', R h h' -> RL b0 b0' -> RL b1 b1' ->
  same (RP R RL) (l_pb_loop cx M env v h b0 b1 n) (l_pb_loop cx M env' v' h' b0' b1' n).
Proof.
  intros Hv. induction n as [|n IH]; intros h h' b0 b0' b1 b1' Hh H0 H1; cbn [l_pb_loop]; (apply same_emit; [reflexivity|]).
  - apply same_ret. split; assumption.
  - eapply same_bind; [apply s_view_read; exact Hv|]. intros k k' Hk. rewrite (Rv_ptr 18 _ _ Hv).
    eapply same_bind; [apply s_mac_once; [exact Hh|exact Hk|constructor; [split; [reflexivity|exact H0]|constructor]|exact H0]|]. intros ? ? ?. dR.
    eapply same_bind; [apply s_mxor; exact H1|]. intros ? ? ?. apply IH; assumption.
Qed.
Lemma s_pb_expand env env' h h' v v' w w' it c p dst dst' off : R h h' -> Rv v v' -> Rv w w' -> RL dst dst' ->
  same (RP R RL) (l_pb_expand cx M env h v w it c p dst off) (l_pb_expand cx M env' h' v' w' it c p dst' off).
Proof.
  intros Hh Hv Hw Hd. unfold l_pb_expand. cbv zeta.
  eapply same_bind; [apply s_stor_be; reflexivity|]. intros bc bc' Hbc.
  eapply same_bind; [apply s_view_read; exact Hv|]. intros k k' Hk.
  eapply same_bind; [apply s_view_read; exact Hw|]. intros s s' Hs. rewrite (Rv_ptr 18 _ _ Hv), (Rv_ptr 19 _ _ Hw).
  eapply same_bind; [apply s_mac_once; [exact Hh|exact Hk|repeat constructor; cbn [fst snd]; assumption|reflexivity]|]. intros ? ? ?. dR.
  eapply same_bind; [apply s_copy; reflexivity|]. intros ? ? ?.
  eapply same_bind; [apply s_pb_loop; [exact Hv|eassumption|eassumption|eassumption]|]. intros ? ? ?. dR.
  eapply same_bind; [apply s_lat; [exact Hd|intros; apply s_copy; assumption]|]. intros ? ? ?. apply same_ret. split; assumption.
Qed.
Lemma s_pb_blocks env env' v v' w w' it : Rv v v' -> Rv w w' -> forall n h h' c key key' off, R h h' -> RL key key' ->
  same (RP (RP (RP R eq) RL) eq) (l_pb_blocks cx M env v w it h c key off n) (l_pb_blocks cx M env' v' w' it h' c key' off n).
Proof.
  intros Hv Hw. induction n as [|n IH]; intros h h' c key key' off Hh Hk; cbn [l_pb_blocks]; (apply same_emit; [reflexivity|]).
  - apply same_ret. split; [split; [split|]|]; assumption || reflexivity.
  - eapply same_bind; [apply s_pb_expand; [exact Hh|exact Hv|exact Hw|exact Hk]|]. intros ? ? ?. dR. apply IH; assumption.
Qed.
Lemma s_pb_derive env env' o o' key key' size : Rpb o o' -> RL key key' ->
  same (RP (RP Rpb RL) eq) (l_pb_derive cx M env o key size) (l_pb_derive cx M env' o' key' size).
Proof.
  intros (Hm & Hi & Hs & Ht & Hc & Hb & Hz) Hk. unfold l_pb_derive. cbv zeta. rewrite Hc, Hz, Ht.
  eapply same_bind with (R := RL).
  { apply same_lif; [reflexivity| |apply same_ret; exact Hk]. apply s_lat; [exact Hk|intros; apply s_copy; assumption]. }
  intros k1 k1' H1. apply same_lif; [reflexivity| |].
  { apply same_ret. split; [split|]; cbn [fst snd]; [|exact H1|reflexivity]. repeat split; cbn [pb_mac pb_ikm pb_salt pb_iterations pb_counter pb_buffer pb_size]; assumption || reflexivity. }
  apply same_if; [reflexivity|apply same_none|].
  eapply same_bind; [apply s_pb_blocks; [exact Hi|exact Hs|exact Hm|exact H1]|]. intros ? ? ?. dR.
  apply same_lif; [reflexivity| |].
  - eapply same_bind; [apply s_pb_expand; [eassumption|exact Hi|exact Hs|exact Hb]|]. intros ? ? ?. dR.
    eapply same_bind; [apply s_lat; [eassumption|intros; apply s_copy; assumption]|]. intros ? ? ?. apply same_ret.
    split; [split|]; cbn [fst snd]; [|assumption|reflexivity]. repeat split; cbn [pb_mac pb_ikm pb_salt pb_iterations pb_counter pb_buffer pb_size]; assumption || reflexivity.
  - apply same_ret.
    split; [split|]; cbn [fst snd]; [|assumption|reflexivity]. repeat split; cbn [pb_mac pb_ikm pb_salt pb_iterations pb_counter pb_buffer pb_size]; assumption || reflexivity.
Qed.
End Mac.

Record lk_silent (cx : ctx) (K : lkdf) (R : ka_obj (lk_K K) -> ka_obj (lk_K K) -> Prop) : Prop := {
  ks_new : R (ka_new (lk_K K)) (ka_new (lk_K K));
  ks_initialize : forall env env' o o' a, RL env env' -> R o o' -> same R (lk_initialize K cx env o a) (lk_initialize K cx env' o' a);
  ks_derive : forall env env' o o' k k' s, RL env env' -> R o o' -> RL k k' -> same (RP (RP R RL) eq) (lk_derive K cx env o k s) (lk_derive K cx env' o' k' s) }.
Lemma lk_hkdf_silent cx M R : lm_silent cx M R -> lk_silent cx (lk_hkdf M) (Rhk M R).
Proof.
  intros HM. split; cbn [lk_hkdf lk_K kdf_hkdf ka_new lk_initialize lk_derive].
  - repeat split. exact (ms_new _ _ _ HM).
  - intros. apply (s_hk_initialize cx M R HM). assumption.
  - intros. apply (s_hk_derive cx M R HM); assumption.
Qed.
Lemma lk_pbkdf_2_silent cx M R : lm_silent cx M R -> lk_silent cx (lk_pbkdf_2 M) (Rpb M R).
Proof.
  intros HM. split; cbn [lk_pbkdf_2 lk_K kdf_pbkdf_2 ka_new lk_initialize lk_derive].
  - repeat split. exact (ms_new _ _ _ HM).
  - intros. apply s_pb_initialize. assumption.
  - intros. apply (s_pb_derive cx M R HM); assumption.
Qed.
Lemma s_kdf_run cx K R : lk_silent cx K R -> forall calls calls' o o', R o o' -> map kdf_shape calls = map kdf_shape calls' ->
  same (RP R RA) (l_kdf_run_in cx K o calls) (l_kdf_run_in cx K o' calls').
Proof.
  intros HK. induction calls as [|[env c] calls IH]; intros [|[env' c'] calls'] o o' Ho Hc; try discriminate Hc; cbn [l_kdf_run_in].
  - apply same_ret. split; [exact Ho|exact I].
  - cbn [map] in Hc. assert (kdf_shape (env, c) = kdf_shape (env', c') /\ map kdf_shape calls = map kdf_shape calls') as [H1 H2] by (split; congruence).
    unfold kdf_shape in H1. cbn [fst snd] in H1.
    assert (blank env = blank env') as He by congruence. apply shape_len in He.
    eapply same_bind with (R := RP R RA); [|intros ? ? ?; dR; eapply same_bind; [apply IH; [eassumption|exact H2]|]; intros ? ? ?; dR; apply same_ret; split; [assumption|exact I]].
    destruct c, c'; try discriminate H1; unfold l_kdf_step.
    + assert (a = a0) as -> by congruence. eapply same_bind; [apply (ks_initialize _ _ _ HK); [exact He|exact Ho]|]. intros ? ? ?. apply same_ret. split; [assumption|exact I].
    + assert (blank key = blank key0 /\ size = size0) as (H3 & ->) by (split; congruence).
      eapply same_bind; [apply (ks_derive _ _ _ HK); [exact He|exact Ho|apply shape_len; exact H3]|]. intros ? ? ?. dR. apply same_ret. split; [assumption|exact I].
    + assert (size = size0 /\ blank_c c = blank_c c0) as (-> & H3) by (split; congruence). unfold l_kapie_derive_c.
      pose proof (RC_resize c c0 size0 H3) as X. destruct (cresize c _) as [c1 z1], (cresize c0 _) as [c2 z2]. destruct X as [X Hz]. cbn [fst snd] in X, Hz. subst z2.
      eapply same_bind with (R := RP (RP R RA) RA).
      { eapply same_bind; [apply (ks_derive _ _ _ HK); [exact He|exact Ho|exact (RC_len _ _ X)]|]. intros ? ? ?. dR. apply same_ret. repeat split. assumption. }
      intros ? ? ?. dR. apply same_ret. split; [assumption|exact I].
Qed.

(** *** The cipher *)
Lemma s_cipher_run B cx : lb_silent cx B -> forall calls calls' o o', Rcc o o' -> map cipher_shape calls = map cipher_shape calls' ->
  same (RP Rcc RA) (l_cipher_run B cx o calls) (l_cipher_run B cx o' calls').
Proof.
  intros HB. induction calls as [|c calls IH]; intros [|c' calls'] o o' Ho Hc; try discriminate Hc; cbn [l_cipher_run].
  - apply same_ret. split; [exact Ho|exact I].
  - cbn [map] in Hc. assert (cipher_shape c = cipher_shape c' /\ map cipher_shape calls = map cipher_shape calls') as [H1 H2] by (split; congruence).
    eapply same_bind with (R := RP Rcc RA); [|intros ? ? ?; dR; eapply same_bind; [apply IH; [eassumption|exact H2]|]; intros ? ? ?; dR; apply same_ret; split; [assumption|exact I]].
    destruct c as [k v|dir m s n t|dir t c|dir c], c' as [k' v'|dir' m' s' n' t'|dir' t' c'|dir' c']; try discriminate H1; cbn [cipher_shape] in H1; unfold l_cipher_step.
    + assert (blank k = blank k' /\ blank v = blank v') as [E1 E2] by (split; congruence).
      eapply same_bind; [apply s_cc_initialize; [exact Ho|apply shape_len; assumption..]|]. intros ? ? ?. apply same_ret. split; [assumption|exact I].
    + assert (blank m = blank m' /\ s = s' /\ n = n' /\ t = t') as (E1 & -> & -> & ->) by (repeat split; congruence).
      eapply same_bind; [apply s_cc_crypt; [exact HB|exact Ho|apply shape_len; assumption]|]. intros ? ? ?. dR. apply same_ret. split; [assumption|exact I].
    + assert (blank t = blank t' /\ dir = dir' /\ blank_c c = blank_c c') as (E1 & -> & E2) by (repeat split; congruence).
      apply shape_len in E1. unfold l_capie_crypt_c. pose proof E1 as E3. unfold RL in E3. rewrite E3.
      match goal with |- context [cresize c ?k] => pose proof (RC_resize c c' k E2) as X; destruct (cresize c k) as [c1 z1], (cresize c' k) as [c2 z2] end.
      destruct X as [X _]. cbn [fst] in X.
      eapply same_bind with (R := RP (RP Rcc RA) RA).
      { eapply same_bind; [apply s_cc_crypt; [exact HB|exact Ho|unfold RL; rewrite !app_length, E3, (RC_len _ _ X); reflexivity]|].
        intros ? ? ?. dR. cbv zeta. repeat match goal with |- context [cresize ?a ?b] => destruct (cresize a b) end. apply same_ret. repeat split; apply Ra0. }
      intros ? ? ?. dR. apply same_ret. split; [assumption|exact I].
    + assert (dir = dir' /\ blank_c c = blank_c c') as (-> & E2) by (repeat split; congruence).
      unfold l_capie_crypt_same. rewrite (RC_len _ _ E2).
      match goal with |- context [cresize c ?k] => pose proof (RC_resize c c' k E2) as X; destruct (cresize c k) as [c1 z1], (cresize c' k) as [c2 z2] end.
      destruct X as [X _]. cbn [fst] in X. rewrite (RC_len _ _ X).
      eapply same_bind with (R := RP (RP Rcc RA) RA).
      { eapply same_bind; [apply s_cc_crypt; [exact HB|exact Ho|exact (RC_len _ _ X)]|].
        intros ? ? ?. dR. cbv zeta. repeat match goal with |- context [cresize ?a ?b] => destruct (cresize a b) end. apply same_ret. repeat split; apply Ra0. }
      intros ? ? ?. dR. apply same_ret. split; [assumption|exact I].
Qed.
