(** Objects that were not initialized. *)
From Verif Require Import Base BaseLemmas BytesLemmas Spec_Bytes Spec_ChaCha Spec_Poly Spec_Range Spec_Cipher Spec_Hash Spec_Mac Spec_Aead
  Model_Memory Model_Update Model_Container Model_Sha Model_Mac Model_Hmac Model_Poly Model_Cipher Model_Aead Model_Default Spec_Default
  Proof_Memory Proof_Memory2 Proof_Memory3 Proof_CodecApi Spec_Sha Proof_Soak Proof_Mac Proof_PolyCore Proof_Poly Proof_Range Proof_ChaChaCore Proof_ChaCha Proof_Aead.
Local Open Scope N_scope.

(** *** MAC objects *)
Section Mac.
  Context {M : mac_alg} {cx : ctx} {keyok : list N -> Prop} {T : list N -> list N -> list N}
    {eqv : ma_obj M -> ma_obj M -> Prop} {hold : list N -> list N -> ma_obj M -> Prop}
    {out : ma_obj M -> list N} (OK : mac_ok M cx keyok T eqv hold out).
  Let dsz := ma_digest_size M.
  Let uok := use_ok (mcall_ok keyok dsz).

  Lemma dmac_call (q : mac_apie M) c : dmac_step cx M (dmac_set q) (Call c)
    = ('(q', o) <- mac_step cx M q c ;; Some (dmac_set q', o)).
  Proof.
    destruct q as [o f]. destruct c as [k|m|d s|c s]; cbn [dmac_step mac_step dmac_set dm_impl dm_finalized mp_impl mp_finalized bind].
    - unfold mapie_initialize. cbn [mp_impl]. destruct (ma_initialize M cx o k); reflexivity.
    - unfold mapie_update. cbn [mp_impl mp_finalized]. destruct (ma_update M cx o m); reflexivity.
    - destruct (mapie_digest cx M _ d s) as [[[q d'] n]|]; reflexivity.
    - destruct (mapie_digest_c cx M _ c s) as [[[q d'] n]|]; reflexivity.
  Qed.
  Lemma dmac_set_run : forall us (q : mac_apie M), dmac_run cx M (dmac_set q) us
    = ('(q', os) <- mac_run cx M q (plain_calls us) ;; Some (dmac_set q', with_copies ONone us os)).
  Proof.
    induction us as [|[c|] us IH]; intros q; [reflexivity| |].
    - cbn [dmac_run plain_calls mac_run]. rewrite dmac_call. destruct (mac_step cx M q c) as [[q1 o]|]; [|reflexivity].
      cbn [bind]. rewrite IH. destruct (mac_run cx M q1 (plain_calls us)) as [[q2 os]|]; reflexivity.
    - cbn [dmac_run plain_calls]. change (dmac_step cx M (dmac_set q) Copy) with (Some (dmac_set q, ONone)). cbn [bind]. rewrite IH.
      destruct (mac_run cx M q (plain_calls us)) as [[q2 os]|]; reflexivity.
  Qed.
  Lemma plain_ok : forall us, Forall uok us -> Forall (mcall_ok keyok dsz) (plain_calls us).
  Proof.
    induction us as [|[c|] us IH]; intros H; inversion H as [|? ? H1 H2]; subst; cbn [plain_calls]; auto.
  Qed.
  Lemma dmac_set_total us q : mawf (eqv := eqv) q -> Forall uok us ->
    exists q' os, dmac_run cx M (dmac_set q) us = Some (dmac_set q', os) .
  Proof.
    intros W H. destruct (maeq_run OK (plain_calls us) q q (maeq_refl q W) (plain_ok us H)) as (q' & _ & os & R & _).
    rewrite dmac_set_run, R. cbn [bind]. eauto.
  Qed.

  Lemma early_cons u us : minit u = false -> mupdate u = true -> early_mac (u :: us) <-> early_mac us.
  Proof.
    intros I U. split.
    - intros (b & x & a & E & F & X & Y). destruct b as [|z b].
      + cbn [app] in E. assert (u = x) by congruence. congruence.
      + cbn [app] in E. inversion F; subst. exists b, x, a. repeat split; try assumption. congruence.
    - intros (b & x & a & -> & F & X & Y). exists (u :: b), x, a. repeat split; auto.
  Qed.

  (** From the first [initialize] on, what was there before makes no difference. *)
  Lemma dmac_init_any (p1 p2 : dmac M) k us : eqv (dm_impl p1) (dm_impl p1) -> eqv (dm_impl p2) (dm_impl p2) ->
    keyok k -> Forall uok us ->
    exists q1 q2 os, dmac_run cx M p1 (Call (MInit k) :: us) = Some (q1, os) /\ dmac_run cx M p2 (Call (MInit k) :: us) = Some (q2, os).
  Proof.
    intros E1 E2 Hk Hu. destruct (mo_init _ _ _ _ _ _ _ OK _ _ k E1 E2 Hk) as (o1 & o2 & I1 & I2 & E & _).
    cbn [dmac_run dmac_step]. rewrite I1, I2. cbn [bind].
    set (r1 := {| mp_impl := o1; mp_finalized := false |}). set (r2 := {| mp_impl := o2; mp_finalized := false |}).
    change {| dm_impl := o1; dm_finalized := Some false |} with (dmac_set r1).
    change {| dm_impl := o2; dm_finalized := Some false |} with (dmac_set r2).
    destruct (maeq_run OK (plain_calls us) r1 r2 (conj E eq_refl) (plain_ok us Hu)) as (q1 & q2 & os & R1 & R2 & _).
    rewrite !dmac_set_run, R1, R2. cbn [bind]. eauto.
  Qed.

  Lemma dmac_from : forall us o1 o2 f, eqv o1 o2 -> Forall uok us ->
    (dmac_run cx M {| dm_impl := o1; dm_finalized := None |} us = None <-> early_mac us) /\
    (~ early_mac us -> exists q1 q2 os, dmac_run cx M {| dm_impl := o1; dm_finalized := None |} us = Some (q1, os) /\
       dmac_run cx M {| dm_impl := o2; dm_finalized := Some f |} us = Some (q2, os)).
  Proof.
    induction us as [|u us IH]; intros o1 o2 f E H.
    - split.
      + split; [discriminate|]. intros (b & x & a & X & _). destruct b; discriminate X.
      + intros _. do 3 eexists. split; reflexivity.
    - inversion H as [|? ? H1 H2]; subst. destruct (mo_l _ _ _ _ _ _ _ OK _ _ E) as [L1 L2].
      destruct u as [[k|m|d s|c s]|].
      + destruct (dmac_init_any {| dm_impl := o1; dm_finalized := None |} {| dm_impl := o2; dm_finalized := Some f |} k us L1 L2 H1 H2)
          as (q1 & q2 & os & R1 & R2). rewrite R1, R2. split; [|eauto]. split; [discriminate|].
        intros (b & x & a & X & F & Y & _). destruct b as [|z b]; cbn [app] in X.
        * assert (Call (MInit k) = x) by congruence. subst x. discriminate Y.
        * inversion F as [|? ? F1 F2]; subst. assert (Call (MInit k) = z) by congruence. subst z. discriminate F1.
      + destruct (mo_upd _ _ _ _ _ _ _ OK o1 o2 m E H1) as (o1' & o2' & U1 & U2 & E').
        destruct (IH o1' o2' f E' H2) as [I1 I2]. cbn [dmac_run dmac_step dm_impl dm_finalized]. rewrite U1, U2. cbn [bind].
        rewrite early_cons by reflexivity. split.
        * destruct (dmac_run cx M {| dm_impl := o1'; dm_finalized := None |} us) as [[q1 os]|]; cbn [bind].
          -- rewrite <- I1. split; discriminate.
          -- rewrite <- I1. split; reflexivity.
        * intros Q. destruct (I2 Q) as (q1 & q2 & os & R1 & R2). rewrite R1, R2. cbn [bind]. eauto.
      + split; [split; [intros _; exists [], (Call (MDigest d s)), us; repeat split; constructor|reflexivity]|].
        intros Q. destruct Q. exists [], (Call (MDigest d s)), us. repeat split; constructor.
      + split; [split; [intros _; exists [], (Call (MDigestC c s)), us; repeat split; constructor|reflexivity]|].
        intros Q. destruct Q. exists [], (Call (MDigestC c s)), us. repeat split; constructor.
      + split; [split; [intros _; exists [], Copy, us; repeat split; constructor|reflexivity]|].
        intros Q. destruct Q. exists [], Copy, us. repeat split; constructor.
  Qed.

  Lemma dmac_plain us : Forall uok us ->
    (dmac_run cx M (dmac_new M Plain) us = None <-> early_mac us) /\
    (~ early_mac us -> exists p p' os, dmac_run cx M (dmac_new M Plain) us = Some (p, os) /\ dmac_run cx M (dmac_new M Braces) us = Some (p', os)).
  Proof. intros H. exact (dmac_from us (ma_new M) (ma_new M) false (mo_new _ _ _ _ _ _ _ OK) H). Qed.

  (** A history that begins with [initialize] is that of an object constructed with the key. *)
  Lemma dmac_init_first d k us : keyok k -> Forall uok us ->
    exists q q' os p, dmac_run cx M (dmac_new M d) (Call (MInit k) :: us) = Some (q, ONone :: with_copies ONone us os) /\
      mapie_new cx M k = Some p /\ mac_run cx M p (plain_calls us) = Some (q', os).
  Proof.
    intros Hk Hu. pose proof (mo_new _ _ _ _ _ _ _ OK) as E.
    destruct (mo_init _ _ _ _ _ _ _ OK _ _ k E E Hk) as (o1 & o2 & I1 & I2 & E' & _).
    unfold mapie_new, mapie_initialize. cbn [dmac_run dmac_step dmac_new dm_impl mp_impl]. rewrite I1. cbn [bind].
    set (r1 := {| mp_impl := o1; mp_finalized := false |}).
    change {| dm_impl := o1; dm_finalized := Some false |} with (dmac_set r1).
    destruct (maeq_run OK (plain_calls us) r1 r1) as (q1 & q2 & os & R1 & R2 & _);
      [split; [apply (mo_l _ _ _ _ _ _ _ OK _ _ E')|reflexivity]|exact (plain_ok us Hu)|].
    rewrite dmac_set_run, R1. cbn [bind]. exists (dmac_set q1), q1, os, r1. auto.
  Qed.
End Mac.

(** *** Poly1305 with r = 0 and s = 0 *)
Record pzero (o : poly_obj) : Prop := {
  pz_w : pwf o; pz_r : po_r o = repeat 0 8; pz_s : po_s o = repeat 0 4; pz_a : po_acc o = repeat 0 5 }.
Lemma pzero_new : pzero poly_new.
Proof. constructor; try reflexivity. exact new_pwf. Qed.
Lemma pstep_zero add acc blk : pstep (repeat 0 8) add acc blk = repeat 0 5.
Proof.
  unfold pstep, pblock. destruct (pure_add _ _ _ _ _ _) as [[[[a0 a1] a2] a3] a4]. reflexivity.
Qed.
Lemma absorb_zero m : absorb 16 (pstep (repeat 0 8) 1) (repeat 0 5) m = repeat 0 5.
Proof.
  unfold absorb. generalize (length m / 16)%nat as n. intros n. revert m.
  induction n as [|n IH]; intros m; [reflexivity|]. cbn [iter_blocks]. rewrite pstep_zero. apply IH.
Qed.
Lemma pzero_update cx o m : pzero o -> bytes m -> exists o', poly_update true cx o m = Some o' /\ pzero o'.
Proof.
  intros [Wo Hr Hs Ha] Hm. destruct (update_spec true cx o m Wo Hm) as (b & E & L & Bb & F & A).
  rewrite Hr, Ha, absorb_zero in E. rewrite Hr, Ha, absorb_zero in A. eexists. split; [exact E|].
  constructor; cbn [po_r po_s po_acc po_buffer po_size]; try reflexivity; [|exact Hs].
  constructor; cbn [po_r po_s po_acc po_buffer po_size]; try assumption.
  - rewrite <- Hr. apply Wo.
  - apply Wo.
  - apply Nat.mod_upper_bound. lia.
Qed.
Lemma pzero_finalize cx o : pzero o -> exists o', poly_finalize true cx o = Some o' /\ pzero o'.
Proof.
  intros [Wo Hr Hs Ha].
  destruct (finalize_spec cx o Wo) as (b & a & X & L & Bb & F & A & G & b0 & b1 & b2 & b3 & b4 & s0 & s1 & s2 & s3 & Ea & Es & B0 & B1 & B2 & B3 & V).
  destruct (X true) as (b' & E & ->). eexists. split; [exact E|].
  assert (LA : last_acc o = repeat 0 5).
  { unfold last_acc. rewrite Hr, Ha. destruct (0 <? po_size o)%nat; [apply pstep_zero|reflexivity]. }
  specialize (G true). rewrite LA, Hs in G.
  assert (Z : poly_finish true (repeat 0 4) (repeat 0 5) = Some (repeat 0 5)) by (vm_compute; reflexivity).
  rewrite Z in G. assert (HZ : a = repeat 0 5) by congruence.
  constructor; cbn [po_r po_s po_acc po_buffer po_size]; [|exact Hr|exact Hs|assumption].
  constructor; cbn [po_r po_s po_acc po_buffer po_size]; try assumption; apply Wo.
Qed.
Lemma pzero_out dsz o : (dsz <= 16)%nat -> pzero o -> firstn dsz (flat_map (le_enc 4) (po_acc o)) = repeat 0 dsz.
Proof.
  intros Hd H. rewrite (pz_a _ H). change (flat_map (le_enc 4) (repeat 0 5)) with (repeat 0 20).
  rewrite <- (firstn_all (repeat 0 dsz)), repeat_length. replace (repeat 0 20) with (repeat 0 dsz ++ repeat 0 (20 - dsz)).
  - rewrite firstn_app, repeat_length, Nat.sub_diag, firstn_O, app_nil_r. reflexivity.
  - rewrite <- repeat_app. f_equal. lia.
Qed.

Section PolyZero.
  Context (cx : ctx) (dsz : nat) (Hd : (dsz <= 16)%nat).
  Let M := mac_poly dsz.
  Let OK : mac_ok M cx bytes (fun k m => poly_tag dsz (host_key (cx_big cx) k) m) peq (fun k m o => phold (host_key (cx_big cx) k) m o) (fun o => flat_map (le_enc 4) (po_acc o)) := poly_host true cx dsz Hd.

  Lemma pzero_fin (p q : mac_apie M) : pzero (mp_impl p) -> mapie_do_finalize cx M p = Some q -> pzero (mp_impl q).
  Proof.
    intros Z. unfold mapie_do_finalize. destruct (mp_finalized p).
    - intros E. assert (q = p) by congruence. subst q. exact Z.
    - destruct (pzero_finalize cx _ Z) as (o' & G & Z').
      change (ma_finalize M cx (mp_impl p)) with (poly_finalize true cx (mp_impl p)). rewrite G. cbn [bind].
      intros E. injection E as <-. exact Z'.
  Qed.
  Lemma pzero_step (p : mac_apie M) c : pzero (mp_impl p) -> mcall_ok bytes dsz c -> no_key c ->
    exists p', mac_step cx M p c = Some (p', zanswer dsz c) /\ pzero (mp_impl p').
  Proof.
    intros Z Hc Nk.
    assert (Dg : mis_digest c -> exists p', mac_step cx M p c = Some (p', zanswer dsz c) /\ pzero (mp_impl p')).
    { intros D. assert (W : mawf (M := M) (eqv := peq) p) by (apply peq_refl, Z).
      destruct (mopen_step OK p c W D Hc) as (q & E & Wq & F & X). exists q. pose proof (pzero_fin p q Z E) as Zq.
      split; [|exact Zq]. rewrite X. unfold zanswer. do 3 f_equal. exact (pzero_out dsz _ Hd Zq). }
    destruct c as [k|m|d s|c s]; [destruct Nk| |exact (Dg I)|exact (Dg I)].
    destruct (pzero_update cx (mp_impl p) m Z (proj1 Hc)) as (o' & U & Z').
    cbn [mac_step]. unfold mapie_update. change (ma_update M cx (mp_impl p) m) with (poly_update true cx (mp_impl p) m).
    rewrite U. cbn [bind]. eexists. split; [reflexivity|exact Z'].
  Qed.
  Lemma pzero_run : forall calls (p : mac_apie M), pzero (mp_impl p) -> Forall (mcall_ok bytes dsz) calls -> Forall no_key calls ->
    exists p', mac_run cx M p calls = Some (p', map (zanswer dsz) calls).
  Proof.
    induction calls as [|c calls IH]; intros p Z Hc Nk; [exists p; reflexivity|].
    inversion Hc; subst. inversion Nk; subst. destruct (pzero_step p c Z) as (q & E & Z'); [assumption|assumption|].
    destruct (IH q Z') as (r & R); [assumption|assumption|]. exists r. cbn [mac_run map]. rewrite E. cbn [bind]. rewrite R. reflexivity.
  Qed.
  Lemma poly_braces us : Forall (use_ok (mcall_ok bytes dsz)) us -> Forall no_key (plain_calls us) ->
    exists p, dmac_run cx M (dmac_new M Braces) us = Some (p, with_copies ONone us (map (zanswer dsz) (plain_calls us))).
  Proof.
    intros H Nk. change (dmac_new M Braces) with (dmac_set {| mp_impl := poly_new : ma_obj M; mp_finalized := false |}).
    destruct (pzero_run (plain_calls us) {| mp_impl := poly_new : ma_obj M; mp_finalized := false |} pzero_new) as (p & R).
    - exact (plain_ok (M := M) us H).
    - exact Nk.
    - rewrite dmac_set_run, R. cbn [bind]. eauto.
  Qed.
End PolyZero.

(** *** AEAD objects *)
Section AeadDefault.
  Context (cx : ctx) (B : backend) (BO : backend_ok cx B) (dsz : nat) (Hd : (dsz <= 16)%nat).
  Let uok := use_ok (acall_ok dsz).

  Lemma daead_fin_aad q : daead_finalize_aad cx (daead_set q) = (q' <- aapie_finalize_aad cx q ;; Some (daead_set q')).
  Proof.
    destruct q as [[c h a e] f g]. unfold daead_finalize_aad, aapie_finalize_aad, aead_aadover, daead_set.
    cbn [da_cipher da_mac da_aad da_edd da_aad_done da_done ap_impl ao_cipher ao_mac ao_aad ao_edd ap_aad_done ap_done bind].
    destruct f; [reflexivity|]. destruct (aead_zeros a) as [z|]; [|reflexivity]. cbn [bind].
    destruct (poly_update true cx h z); reflexivity.
  Qed.
  Lemma daead_crypt_set dir q m s n d : daead_crypt dir B cx (daead_set q) m s n d
    = ('(q', m, n) <- aapie_crypt dir B cx q m s n d ;; Some (daead_set q', m, n)).
  Proof.
    unfold daead_crypt, aapie_crypt. rewrite daead_fin_aad. destruct (aapie_finalize_aad cx q) as [[[c h a e] f g]|]; [|reflexivity].
    cbn [bind]. unfold daead_set at 1 2 3 4 5 6 7 8.
    cbn [da_cipher da_mac da_aad da_edd da_aad_done da_done ap_impl ao_cipher ao_mac ao_aad ao_edd ap_aad_done ap_done].
    destruct dir; unfold aead_encrypt, aead_decrypt; cbn [ao_cipher ao_mac ao_aad ao_edd].
    - destruct (cc_encrypt B cx c m s n d) as [[[c' m'] n']|]; [|reflexivity]. cbn [bind].
      destruct (rds m' d n') as [ct|]; [|reflexivity]. cbn [bind]. destruct (poly_update true cx h ct); reflexivity.
    - destruct (rds m s n) as [ct|]; [|reflexivity]. cbn [bind]. destruct (poly_update true cx h ct); [|reflexivity]. cbn [bind].
      destruct (cc_decrypt B cx c m s n d) as [[[c' m'] n']|]; reflexivity.
  Qed.
  Lemma daead_fin_set q : daead_finalize cx (daead_set q) = (q' <- aapie_finalize cx q ;; Some (daead_set q')).
  Proof.
    destruct q as [[c h a e] f g]. unfold daead_finalize, aapie_finalize, daead_set.
    cbn [da_cipher da_mac da_aad da_edd da_aad_done da_done ap_impl ao_cipher ao_mac ao_aad ao_edd ap_aad_done ap_done bind].
    destruct g; [reflexivity|]. unfold aead_finalize. cbn [ao_cipher ao_mac ao_aad ao_edd].
    destruct (aead_zeros e) as [z|]; [|reflexivity]. cbn [bind]. destruct (poly_update true cx h z) as [h1|]; [|reflexivity]. cbn [bind].
    destruct (mem_stor_le cx 8 1 (repeat 0 16) 0 a) as [b|]; [|reflexivity]. cbn [bind].
    destruct (mem_stor_le cx 8 1 b 1 e) as [b1|]; [|reflexivity]. cbn [bind].
    destruct (poly_update true cx h1 b1) as [h2|]; [|reflexivity]. cbn [bind]. destruct (poly_finalize true cx h2); reflexivity.
  Qed.
  Lemma daead_digest_set q d s : daead_digest cx dsz (daead_set q) d s
    = ('(q', d, n) <- aapie_digest cx dsz q d s ;; Some (daead_set q', d, n)).
  Proof.
    unfold daead_digest, aapie_digest, aead_digest. rewrite daead_fin_set. destruct (aapie_finalize cx q) as [q1|]; [|reflexivity]. cbn [bind].
    change (da_mac (daead_set q1)) with (ao_mac (ap_impl q1)). destruct (poly_digest cx dsz (ao_mac (ap_impl q1)) d s) as [[? ?]|]; reflexivity.
  Qed.
  Lemma daead_digest_c_set q c s : daead_digest_c cx dsz (daead_set q) c s
    = ('(q', c, n) <- aapie_digest_c cx dsz q c s ;; Some (daead_set q', c, n)).
  Proof.
    unfold daead_digest_c, aapie_digest_c. rewrite daead_fin_set. destruct (aapie_finalize cx q) as [q1|]; [|reflexivity]. cbn [bind].
    destruct (cresize c (Nat.min s dsz)) as [c1 z]. rewrite daead_digest_set.
    destruct (aapie_digest cx dsz q1 (cdata c1) z) as [[[? ?] ?]|]; reflexivity.
  Qed.
  Lemma daead_call q c : daead_step B cx dsz (daead_set q) (Call c)
    = ('(q', o) <- aead_step B cx dsz q c ;; Some (daead_set q', o)).
  Proof.
    destruct c as [k v|a|dir m s n d|dir t c|dir c|d s|c s|j m]; cbn [daead_step aead_step].
    - unfold daead_initialize, aapie_initialize, aead_initialize. cbn [ap_impl ao_cipher ao_mac daead_set da_cipher da_mac].
      destruct (at_off _ _ _) as [iv|]; [|reflexivity]. cbn [bind].
      destruct (cc_initialize cx _ k iv) as [c0|]; [|reflexivity]. cbn [bind].
      destruct (cc_encrypt B cx c0 _ _ _ _) as [[[c1 mk] n1]|]; [|reflexivity]. cbn [bind].
      destruct (poly_initialize true cx _ mk); reflexivity.
    - unfold daead_aad, aapie_aad, aead_aad. destruct q as [[c h a0 e] f g].
      cbn [daead_set da_cipher da_mac da_aad da_edd da_aad_done da_done ap_impl ao_cipher ao_mac ao_aad ao_edd ap_aad_done ap_done].
      destruct (poly_update true cx h a); reflexivity.
    - rewrite daead_crypt_set. destruct (aapie_crypt dir B cx q m s n d) as [[[? ?] ?]|]; reflexivity.
    - unfold daead_crypt_c, aapie_crypt_c. destruct (cresize c _) as [c1 z]. rewrite daead_crypt_set.
      destruct (aapie_crypt dir B cx q _ _ _ _) as [[[q1 m1] n1]|]; [|reflexivity]. cbn [bind].
      destruct (cresize _ n1); reflexivity.
    - unfold daead_crypt_same, aapie_crypt_same. destruct (cresize c _) as [c1 z]. rewrite daead_crypt_set.
      destruct (aapie_crypt dir B cx q _ _ _ _) as [[[q1 m1] n1]|]; [|reflexivity]. cbn [bind].
      destruct (cresize _ n1); reflexivity.
    - rewrite daead_digest_set. destruct (aapie_digest cx dsz q d s) as [[[? ?] ?]|]; reflexivity.
    - rewrite daead_digest_c_set. destruct (aapie_digest_c cx dsz q c s) as [[[? ?] ?]|]; reflexivity.
    - unfold daead_verify, aapie_verify, aapie_digest_static. rewrite daead_digest_c_set.
      destruct (aapie_digest_c cx dsz q (Static j) (length j)) as [[[? c1] ?]|]; [|reflexivity]. cbn [bind].
      destruct (mem_match_c cx 1 1 (cdata c1) m); reflexivity.
  Qed.
  Lemma daead_copy q : daead_step B cx dsz (daead_set q) Copy = Some (daead_set q, ANone).
  Proof. destruct q as [[c h a e] f g]. reflexivity. Qed.
  Lemma daead_set_run : forall us q, daead_run B cx dsz (daead_set q) us
    = ('(q', os) <- aead_run B cx dsz q (plain_calls us) ;; Some (daead_set q', with_copies ANone us os)).
  Proof.
    induction us as [|[c|] us IH]; intros q; [reflexivity| |].
    - cbn [daead_run plain_calls aead_run]. rewrite daead_call. destruct (aead_step B cx dsz q c) as [[q1 o]|]; [|reflexivity].
      cbn [bind]. rewrite IH. destruct (aead_run B cx dsz q1 (plain_calls us)) as [[q2 os]|]; reflexivity.
    - cbn [daead_run plain_calls]. rewrite daead_copy. cbn [bind]. rewrite IH.
      destruct (aead_run B cx dsz q (plain_calls us)) as [[q2 os]|]; reflexivity.
  Qed.
  Lemma aplain_ok : forall us, Forall uok us -> Forall (acall_ok dsz) (plain_calls us).
  Proof.
    induction us as [|[c|] us IH]; intros H; inversion H as [|? ? H1 H2]; subst; cbn [plain_calls]; auto.
  Qed.

  Lemma daead_init_first d k v us : bytes k -> bytes v -> Forall uok us ->
    exists q q' os p, daead_run B cx dsz (daead_new d) (Call (AInit k v) :: us) = Some (q, ANone :: with_copies ANone us os) /\
      aapie_new B cx k v = Some p /\ aead_run B cx dsz p (plain_calls us) = Some (q', os).
  Proof.
    intros Hk Hv Hu. destruct (anew cx B BO dsz Hd k v Hk Hv) as (p & E & H & _).
    pose proof (aholds_aeq cx B dsz _ _ _ _ _ H) as Q.
    destruct (aeq_run cx B BO dsz Hd (plain_calls us) p p Q (aplain_ok us Hu)) as (q & _ & os & R & _).
    cbn [daead_run daead_step]. unfold daead_initialize. cbn [da_cipher da_mac daead_new].
    unfold aapie_new, aapie_new_from, aead_new in E. rewrite E. cbn [bind]. rewrite daead_set_run, R. cbn [bind].
    exists (daead_set q), q, os, p. unfold aapie_new, aapie_new_from, aead_new. auto.
  Qed.
  Lemma daead_plain us : Forall uok us ->
    (daead_run B cx dsz (daead_new Plain) us = None <-> early_aead us).
  Proof.
    intros H. destruct us as [|u us].
    - split; [discriminate|]. intros (u & a & X & _). discriminate X.
    - inversion H as [|? ? H1 H2]; subst. destruct (ainit_use u) eqn:I.
      + destruct u as [[k v|a|dir m s n d|dir t c|dir c|d s|c s|j m]|]; try discriminate I.
        destruct (daead_init_first Plain k v us (proj1 H1) (proj2 H1) H2) as (q & q' & os & p & R & _). rewrite R.
        split; [discriminate|]. intros (u & a & X & Y). assert (u = Call (AInit k v)) by congruence. subst u. discriminate Y.
      + split; [intros _; exists u, us; auto|intros _].
        destruct u as [[k v|a|dir m s n d|dir t c|dir c|d s|c s|j m]|]; try discriminate I; cbn [daead_run daead_step]; try reflexivity.
        * unfold daead_aad. cbn [daead_new da_mac da_aad unset]. destruct (poly_update true cx poly_new a); reflexivity.
        * unfold daead_crypt_c. destruct (cresize c _); reflexivity.
        * unfold daead_crypt_same. destruct (cresize c _); reflexivity.
  Qed.

  (** *** Never initialized, but zeroed *)
  Definition zst : list N := repeat 0 16.
  Lemma zst_ok : length zst = 16%nat /\ words 32 zst.
  Proof. split; [reflexivity|]. unfold words, is_word, zst. apply Forall_forall. intros x Hx. apply repeat_spec in Hx. subst. reflexivity. Qed.
  Record azero (pos : nat) (p : aead_apie) : Prop := {
    az_c : stream_at B zst pos (ao_cipher (ap_impl p));
    az_m : pzero (ao_mac (ap_impl p));
    az_a : exists n, ao_aad (ap_impl p) = N.of_nat n mod 2 ^ 64;
    az_e : exists n, ao_edd (ap_impl p) = N.of_nat n mod 2 ^ 64 }.
  Lemma cc_new_at : stream_at B zst 0 cc_new.
  Proof.
    exists 0%nat. split; [reflexivity|]. split; [reflexivity|]. split; [apply bytes_repeat0|]. left. split; reflexivity.
  Qed.
  Lemma azero_new : azero 0 {| ap_impl := aead_new 0 0; ap_aad_done := false; ap_done := false |}.
  Proof.
    constructor; cbn [ap_impl aead_new ao_cipher ao_mac ao_aad ao_edd].
    - exact cc_new_at.
    - exact pzero_new.
    - exists 0%nat. reflexivity.
    - exists 0%nat. reflexivity.
  Qed.
  Lemma azero_over pos p : azero pos p -> exists p', aapie_finalize_aad cx p = Some p' /\ azero pos p'.
  Proof.
    intros Z. unfold aapie_finalize_aad. destruct (ap_aad_done p); [exists p; auto|]. destruct Z as [C Mz (n & A) E].
    unfold aead_aadover. rewrite A, zeros_spec. cbn [bind]. destruct (pzero_update cx _ (pad16 n) Mz (pad16_bytes n)) as (h & U & Z').
    rewrite U. cbn [bind]. eexists. split; [reflexivity|].
    constructor; cbn [ap_impl ao_cipher ao_mac ao_aad ao_edd]; auto. exists n. reflexivity.
  Qed.
  Lemma azero_crypt dir pos p m s n d : azero pos p -> textok m s n d ->
    exists p', aapie_crypt dir B cx p m s n d = Some (p', put m d (xor_with zero_byte pos (slice m s n)), n) /\ azero (pos + n) p'.
  Proof.
    intros Z (Hm & Hs & Hdm & Ha & Hn). destruct (azero_over pos p Z) as (q & E & Z'). unfold aapie_crypt. rewrite E. cbn [bind].
    clear Z E. destruct Z' as [C Mz A (k & G)]. destruct zst_ok as [L W].
    destruct (crypt_spec cx B BO zst L W dir _ pos m d s n C Hm Hdm Hs Ha) as (c1 & K & S1).
    change (xor_with zero_byte pos (slice m s n)) with (xor_with (st_byte zst) pos (slice m s n)).
    set (r := xor_with (st_byte zst) pos (slice m s n)) in *.
    assert (Lr : length r = n) by (unfold r; rewrite xor_with_length; apply slice_length; exact Hs).
    assert (Br : bytes r) by (apply xor_with_bytes; [apply st_byte_byte|apply slice_bytes, Hm]).
    destruct dir; cbn [capie_crypt] in K.
    - unfold aead_encrypt. rewrite K. cbn [bind]. rewrite rds_slice by (rewrite put_length; lia). cbn [bind].
      assert (Sr : slice (put m d r) d n = r) by (rewrite <- Lr at 1; apply slice_put_same; lia). rewrite Sr.
      destruct (pzero_update cx _ r Mz Br) as (h & U & Zh). rewrite U. cbn [bind]. eexists. split; [reflexivity|].
      constructor; cbn [ap_impl ao_cipher ao_mac ao_aad ao_edd]; auto. exists (k + n)%nat. rewrite G, wadd_count. reflexivity.
    - unfold aead_decrypt. rewrite rds_slice by lia. cbn [bind].
      destruct (pzero_update cx _ (slice m s n) Mz (slice_bytes _ _ _ Hm)) as (h & U & Zh). rewrite U. cbn [bind]. rewrite K. cbn [bind].
      eexists. split; [reflexivity|].
      constructor; cbn [ap_impl ao_cipher ao_mac ao_aad ao_edd]; auto. exists (k + n)%nat. rewrite G, wadd_count. reflexivity.
  Qed.
  Lemma azero_fin pos p : azero pos p -> exists p', aapie_finalize cx p = Some p' /\ azero pos p' /\ ap_done p' = true.
  Proof.
    intros Z. unfold aapie_finalize. destruct (ap_done p) eqn:F; [exists p; auto|]. destruct Z as [C Mz (n & A) (k & E)].
    unfold aead_finalize. rewrite A, E, zeros_spec. cbn [bind].
    destruct (pzero_update cx _ (pad16 k) Mz (pad16_bytes k)) as (h1 & U1 & Z1). rewrite U1. cbn [bind].
    pose proof (lengths_spec cx (N.of_nat n mod 2 ^ 64) (N.of_nat k mod 2 ^ 64)) as Ls.
    destruct (mem_stor_le cx 8 1 (repeat 0 16) 0 (N.of_nat n mod 2 ^ 64)) as [b|];
      [|discriminate Ls; apply N.mod_lt; discriminate]. cbn [bind] in *.
    rewrite Ls by (apply N.mod_lt; discriminate). cbn [bind].
    destruct (pzero_update cx h1 (le_enc 8 (N.of_nat n mod 2 ^ 64) ++ le_enc 8 (N.of_nat k mod 2 ^ 64)) Z1) as (h2 & U2 & Z2);
      [apply bytes_app; split; apply le_enc_bytes|].
    rewrite U2. cbn [bind]. destruct (pzero_finalize cx h2 Z2) as (h3 & U3 & Z3). rewrite U3. cbn [bind].
    eexists. split; [reflexivity|]. cbn [ap_done]. split; [|reflexivity].
    constructor; cbn [ap_impl ao_cipher ao_mac ao_aad ao_edd]; auto; eexists; reflexivity.
  Qed.

  Lemma azero_run : forall calls pos p, azero pos p -> Forall (acall_ok dsz) calls -> Forall no_init calls ->
    exists p', aead_run B cx dsz p calls = Some (p', zexpected dsz pos calls).
  Proof.
    induction calls as [|c calls IH]; intros pos p Z Hc Nk; [exists p; reflexivity|].
    inversion Hc as [|? ? Hc1 Hc2]; subst. inversion Nk as [|? ? Nk1 Nk2]; subst. cbn [aead_run].
    destruct (call_kind c) as [(k & v & ->)|[(d & ->)|[Ht|Ht]]].
    - destruct Nk1.
    - destruct Z as [C Mz (n & A) E]. destruct (pzero_update cx _ d Mz (proj1 Hc1)) as (h & U & Z').
      cbn [aead_step]. unfold aapie_aad, aead_aad. rewrite U. cbn [bind].
      destruct (IH pos {| ap_impl := {| ao_cipher := ao_cipher (ap_impl p); ao_mac := h; ao_aad := wadd 64 (ao_aad (ap_impl p)) (N.of_nat (length d));
                   ao_edd := ao_edd (ap_impl p) |}; ap_aad_done := ap_aad_done p; ap_done := ap_done p |}) as (p' & R); [|assumption|assumption|].
      + constructor; cbn [ap_impl ao_cipher ao_mac ao_aad ao_edd]; auto. exists (n + length d)%nat. rewrite A, wadd_count. reflexivity.
      + rewrite R. cbn [bind zexpected]. exists p'. reflexivity.
    - destruct (text_lower cx B dsz Hd c Ht Hc1) as (m & s & n & d & Tk & Sl & X).
      destruct (azero_crypt (adir c) pos p m s n d Z Tk) as (q & E & Z').
      assert (Lr : length (xor_with zero_byte pos (slice m s n)) = n) by (rewrite xor_with_length; apply slice_length; apply Tk).
      rewrite (X _ _ _ Lr E). cbn [bind]. destruct (IH (pos + n)%nat q Z' Hc2 Nk2) as (p' & R). rewrite R. cbn [bind].
      exists p'. rewrite Sl. assert (Ln : length (atext_in c) = n) by (rewrite <- Sl; apply slice_length; apply Tk).
      destruct c as [k v|a|dir m0 s0 n0 d0|dir t c|dir c|d0 s0|c s0|j m0]; try destruct Ht; cbn [zexpected is_tag_call]; rewrite Ln; reflexivity.
    - destruct (azero_fin pos p Z) as (q & E & Z' & F). rewrite atag_open by exact Ht. rewrite E. cbn [bind].
      rewrite (atag_step cx B dsz Hd q c (peq_refl _ (pz_w _ (az_m _ _ Z'))) F Ht Hc1). cbn [bind].
      destruct (IH pos q Z' Hc2 Nk2) as (p' & R). rewrite R. cbn [bind]. exists p'.
      assert (TZ : atag dsz q = repeat 0 dsz) by (apply pzero_out; [exact Hd|apply Z']). rewrite TZ.
      destruct c as [k v|a|dir m0 s0 n0 d0|dir t c|dir c|d0 s0|c s0|j m0]; try discriminate Ht; reflexivity.
  Qed.
  Lemma daead_braces us : Forall uok us -> Forall no_init (plain_calls us) ->
    exists p, daead_run B cx dsz (daead_new Braces) us = Some (p, with_copies ANone us (zexpected dsz 0 (plain_calls us))).
  Proof.
    intros H Nk. change (daead_new Braces) with (daead_set {| ap_impl := aead_new 0 0; ap_aad_done := false; ap_done := false |}).
    destruct (azero_run (plain_calls us) 0 _ azero_new (aplain_ok us H) Nk) as (p & R). rewrite daead_set_run, R. cbn [bind]. eauto.
  Qed.
End AeadDefault.

(** *** Ciphers *)
Lemma zero_first j : (j < 64)%nat -> zero_byte j = 0.
Proof.
  intros H. unfold zero_byte, st_byte. rewrite Nat.mod_small, Nat.div_small by exact H.
  assert (E : core_block (at_ctr (repeat 0 16) (N.of_nat 0)) = repeat 0 64) by (vm_compute; reflexivity).
  rewrite E. apply nth_repeat.
Qed.
Lemma zero_clear : forall t, firstn 64 (xor_with zero_byte 0 t) = firstn 64 t.
Proof.
  assert (G : forall n t pos, (pos + n <= 64)%nat -> firstn n (xor_with zero_byte pos t) = firstn n t).
  { induction n as [|n IH]; intros t pos H; [reflexivity|]. destruct t as [|x t]; [reflexivity|].
    cbn [xor_with firstn]. rewrite zero_first by lia. rewrite N.lxor_0_r, IH by lia. reflexivity. }
  intros t. apply G. lia.
Qed.
Lemma cipher_default cx B dir ts : backend_ok cx B -> Forall bytes ts ->
  exists o' rs, crypt_pieces dir B cx cc_new ts = Some (o', rs) /\ concat rs = xor_with zero_byte 0 (concat ts) /\
    map (@length N) rs = map (@length N) ts.
Proof.
  intros BO H. destruct zst_ok as [L W].
  exact (pieces_spec cx B dir zst BO L W ts cc_new 0%nat H (cc_new_at B)).
Qed.
