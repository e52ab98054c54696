(** Objects that are used in several contexts. *)
From Verif Require Import Base BaseLemmas BytesLemmas Spec_Bytes Spec_Sha Model_Memory Model_Update Model_Container Model_Sha Spec_Hash
  Proof_Soak Proof_ShaCore Proof_Sha Proof_ShaHist Proof_ShaApi Model_Mac Spec_Mac Proof_Mac Model_Hmac Spec_Hmac Proof_Hmac
  Spec_Poly Model_Poly Proof_Poly Spec_ChaCha Spec_Range Model_Cipher Spec_Cipher Proof_ChaChaCore Proof_ChaCha Model_X86 Model_ShaAsm Proof_ShaAsm3 Spec_Portable.
Local Open Scope N_scope.

(** *** Hashes *)
Section Hash.
  Context (a : sha) (al1 al2 : hash_alg) (AO1 : alg_ok a al1) (AO2 : alg_ok a al2)
          (Hd1 : (ha_digest_size al1 <= sha_nst a * sha_word_size a)%nat)
          (Hd : ha_digest_size al1 = ha_digest_size al2).
  Lemma hash_mixed cx : forall calls p1 p2, aeq a p1 p2 -> Forall (hcall_ok al1) (map snd calls) ->
    exists p1' p2' outs, hash_run cx al1 p1 (map snd calls) = Some (p1', outs) /\
      run_in (fun cx => hash_step cx al2) p2 calls = Some (p2', outs) /\ aeq a p1' p2'.
  Proof.
    induction calls as [|[cx' c] calls IH]; intros p1 p2 H Hc.
    - exists p1, p2, []. auto.
    - cbn [map snd] in *. inversion Hc as [|? ? Hc1 Hc2]; subst.
      destruct (aeq2_step a al1 al2 AO1 AO2 Hd1 Hd cx cx' p1 p2 c H Hc1) as (q1 & q2 & o & E1 & E2 & H').
      destruct (IH q1 q2 H' Hc2) as (r1 & r2 & os & F1 & F2 & H'').
      cbn [hash_run run_in]. rewrite E1, E2. cbn [bind]. rewrite F1, F2. cbn [bind].
      exists r1, r2, (o :: os). auto.
  Qed.
End Hash.

(** *** MACs *)
Record mac_two (M : mac_alg) (cx1 cx2 : ctx) (keyok : list N -> Prop) (eqv : ma_obj M -> ma_obj M -> Prop) : Prop := {
  tw_init : forall o1 o2 k, eqv o1 o1 -> eqv o2 o2 -> keyok k ->
    exists o1' o2', ma_initialize M cx1 o1 k = Some o1' /\ ma_initialize M cx2 o2 k = Some o2' /\ eqv o1' o2';
  tw_upd : forall o1 o2 m, eqv o1 o2 -> chunk m ->
    exists o1' o2', ma_update M cx1 o1 m = Some o1' /\ ma_update M cx2 o2 m = Some o2' /\ eqv o1' o2';
  tw_fin : forall o1 o2, eqv o1 o2 ->
    exists o1' o2', ma_finalize M cx1 o1 = Some o1' /\ ma_finalize M cx2 o2 = Some o2' /\ eqv o1' o2'
}.

Section Mac.
  Context {M : mac_alg} {good : ctx -> Prop} {keyok : list N -> Prop} {T : list N -> list N -> list N}
    {eqv : ma_obj M -> ma_obj M -> Prop} {hold : list N -> list N -> ma_obj M -> Prop} {out : ma_obj M -> list N}
    (OK : forall cx, good cx -> mac_ok M cx keyok T eqv hold out)
    (TW : forall cx1 cx2, good cx1 -> good cx2 -> mac_two M cx1 cx2 keyok eqv).
  Let dsz := ma_digest_size M.

  Lemma fin2 cx1 cx2 p1 p2 : good cx1 -> good cx2 -> maeq (eqv := eqv) p1 p2 ->
    exists p1' p2', mapie_do_finalize cx1 M p1 = Some p1' /\ mapie_do_finalize cx2 M p2 = Some p2' /\ maeq (eqv := eqv) p1' p2'.
  Proof.
    intros G1 G2 [H Hf]. unfold mapie_do_finalize. rewrite <- Hf. destruct (mp_finalized p1) eqn:F.
    - do 2 eexists. split; [reflexivity|]. split; [reflexivity|]. split; [assumption|congruence].
    - destruct (tw_fin _ _ _ _ _ (TW cx1 cx2 G1 G2) _ _ H) as (o1 & o2 & E1 & E2 & H'). rewrite E1, E2. cbn [bind].
      do 2 eexists. split; [reflexivity|]. split; [reflexivity|]. split; [exact H'|reflexivity].
  Qed.
  Lemma step2 cx1 cx2 p1 p2 c : good cx1 -> good cx2 -> maeq (eqv := eqv) p1 p2 -> mcall_ok keyok dsz c ->
    exists p1' p2' o, mac_step cx1 M p1 c = Some (p1', o) /\ mac_step cx2 M p2 c = Some (p2', o) /\ maeq (eqv := eqv) p1' p2'.
  Proof.
    intros G1 G2 H Hc. pose proof (OK cx1 G1) as O1. pose proof (OK cx2 G2) as O2.
    destruct (maeq_wf O1 _ _ H) as [W1 W2].
    assert (Dg : mis_digest c -> exists p1' p2' o, mac_step cx1 M p1 c = Some (p1', o) /\ mac_step cx2 M p2 c = Some (p2', o) /\ maeq (eqv := eqv) p1' p2').
    { intros Hd. destruct (mopen_step O1 p1 c W1 Hd Hc) as (q1 & E1 & Wq1 & F1 & S1).
      destruct (mopen_step O2 p2 c W2 Hd Hc) as (q2 & E2 & Wq2 & F2 & S2).
      destruct (fin2 cx1 cx2 p1 p2 G1 G2 H) as (r1 & r2 & R1 & R2 & R).
      assert (r1 = q1) by congruence. assert (r2 = q2) by congruence. subst.
      rewrite (maeq_out O1 _ _ R) in S1. exists q1, q2. eexists. split; [exact S1|]. split; [exact S2|exact R]. }
    destruct c as [k|m|d s|c s]; [| |apply Dg; exact I|apply Dg; exact I].
    - destruct (tw_init _ _ _ _ _ (TW cx1 cx2 G1 G2) (mp_impl p1) (mp_impl p2) k W1 W2 Hc) as (o1 & o2 & E1 & E2 & E).
      cbn [mac_step]. unfold mapie_initialize. rewrite E1, E2. cbn [bind]. do 3 eexists.
      split; [reflexivity|]. split; [reflexivity|]. split; [exact E|reflexivity].
    - destruct H as [H F]. destruct (tw_upd _ _ _ _ _ (TW cx1 cx2 G1 G2) _ _ m H Hc) as (o1 & o2 & E1 & E2 & E).
      cbn [mac_step]. unfold mapie_update. rewrite E1, E2. cbn [bind]. do 3 eexists.
      split; [reflexivity|]. split; [reflexivity|]. split; [exact E|exact F].
  Qed.
  Lemma mac_mixed_run cx : good cx -> forall calls p1 p2, maeq (eqv := eqv) p1 p2 ->
    Forall (fun x => good (fst x)) calls -> Forall (mcall_ok keyok dsz) (map snd calls) ->
    exists p1' p2' outs, mac_run cx M p1 (map snd calls) = Some (p1', outs) /\
      run_in (fun cx => mac_step cx M) p2 calls = Some (p2', outs) /\ maeq (eqv := eqv) p1' p2'.
  Proof.
    intros G. induction calls as [|[cx' c] calls IH]; intros p1 p2 H Hg Hc.
    - exists p1, p2, []. auto.
    - cbn [map snd] in *. inversion Hc as [|? ? Hc1 Hc2]; subst. inversion Hg as [|? ? Hg1 Hg2]; subst. cbn [fst] in Hg1.
      destruct (step2 cx cx' p1 p2 c G Hg1 H Hc1) as (q1 & q2 & o & E1 & E2 & H').
      destruct (IH q1 q2 H' Hg2 Hc2) as (r1 & r2 & os & F1 & F2 & H'').
      cbn [mac_run run_in]. rewrite E1, E2. cbn [bind]. rewrite F1, F2. cbn [bind].
      exists r1, r2, (o :: os). auto.
  Qed.
  Lemma mac_mixed cx cx' k calls : good cx -> good cx' -> keyok k ->
    Forall (fun x => good (fst x)) calls -> Forall (mcall_ok keyok dsz) (map snd calls) ->
    exists p q p' q' outs, mapie_new cx M k = Some p /\ mac_run cx M p (map snd calls) = Some (p', outs) /\
      mapie_new cx' M k = Some q /\ run_in (fun cx => mac_step cx M) q calls = Some (q', outs).
  Proof.
    intros G G' Hk Hg Hc.
    destruct (step2 cx cx' {| mp_impl := ma_new M; mp_finalized := false |} {| mp_impl := ma_new M; mp_finalized := false |} (MInit k) G G')
      as (p & q & o & E1 & E2 & H); [split; [exact (mo_new _ _ _ _ _ _ _ (OK cx G))|reflexivity]|exact Hk|].
    cbn [mac_step] in E1, E2. unfold mapie_new.
    destruct (mapie_initialize cx M {| mp_impl := ma_new M; mp_finalized := false |} k) as [p0|]; [|discriminate].
    destruct (mapie_initialize cx' M {| mp_impl := ma_new M; mp_finalized := false |} k) as [q0|]; [|discriminate].
    cbn [bind] in E1, E2. assert (p0 = p) by congruence. assert (q0 = q) by congruence. subst p0 q0.
    destruct (mac_mixed_run cx G calls p q H Hg Hc) as (p' & q' & outs & R1 & R2 & _).
    exists p, q, p', q', outs. auto.
  Qed.
End Mac.

Lemma hmac_two a al cx1 cx2 dsz : alg_ok a al -> (ha_digest_size al <= sha_nst a * sha_word_size a)%nat ->
  mac_two (mac_hmac al dsz) cx1 cx2 chunk (hmeq a).
Proof.
  intros AO Hdsz. constructor; cbn [mac_hmac ma_obj ma_initialize ma_update ma_finalize].
  - intros o1 o2 k (W1 & _) (W2 & _) Hk.
    destruct (Proof_Hmac.init_spec a al AO Hdsz 0%nat (Nat.le_0_l _) cx1 o1 k W1 Hk) as (o1' & E1 & H1 & B1).
    destruct (Proof_Hmac.init_spec a al AO Hdsz 0%nat (Nat.le_0_l _) cx2 o2 k W2 Hk) as (o2' & E2 & H2 & B2).
    exists o1', o2'. split; [exact E1|]. split; [exact E2|].
    destruct H1 as (W1' & _ & _ & H1 & _). destruct H2 as (W2' & _ & _ & H2 & _).
    split; [assumption|]. split; [assumption|]. split; [exact (holds_heq a _ _ _ H1 H2)|congruence].
  - intros o1 o2 m (W1 & W2 & He & Hb) Hm.
    destruct (heq2_update a al al AO AO cx1 cx2 _ _ m He Hm) as (h1 & h2 & E1 & E2 & He').
    unfold hmac_update. rewrite E1, E2. cbn [bind]. do 2 eexists. split; [reflexivity|]. split; [reflexivity|].
    split; [split; [exact (he_wf1 _ _ _ He')|exact (proj2 W1)]|].
    split; [split; [exact (he_wf2 _ _ _ He')|exact (proj2 W2)]|]. split; assumption.
  - intros o1 o2 (W1 & W2 & He & Hb).
    destruct (fin_spec a al AO Hdsz 0%nat (Nat.le_0_l _) cx1 o1 W1) as (h1 & g1 & o1' & F1 & Wh1 & E1 & W1' & B1 & G1 & K1).
    destruct (fin_spec a al AO Hdsz 0%nat (Nat.le_0_l _) cx2 o2 W2) as (h2 & g2 & o2' & F2 & Wh2 & E2 & W2' & B2 & G2 & K2).
    exists o1', o2'. split; [exact E1|]. split; [exact E2|]. split; [assumption|]. split; [assumption|].
    split; [|congruence].
    destruct (heq2_finalize a al al AO AO cx1 cx2 _ _ He) as (x1 & x2 & X1 & X2 & HX).
    assert (x1 = h1) by congruence. assert (x2 = h2) by congruence. subst x1 x2.
    assert (Ed : hd a al h1 = hd a al h2) by (unfold hd; rewrite (he_st _ _ _ HX); reflexivity).
    rewrite Ed, Hb in G1. pose proof (holds_heq a _ _ _ G1 G2) as HG.
    destruct (heq2_finalize a al al AO AO cx1 cx2 _ _ HG) as (y1 & y2 & Y1 & Y2 & HY).
    assert (y1 = hm_hash o1') by congruence. assert (y2 = hm_hash o2') by congruence. subst. exact HY.
Qed.

Lemma poly_two ov cx1 cx2 dsz : cx_big cx1 = cx_big cx2 ->
  mac_two (mac_poly_ov ov dsz) cx1 cx2 bytes peq.
Proof.
  intros C. constructor; cbn [mac_poly_ov ma_obj ma_initialize ma_update ma_finalize].
  - intros o1 o2 k H1 H2 Hk.
    pose proof (mo_init _ _ _ _ _ _ _ (poly_host ov cx1 0 ltac:(lia)) o1 o2 k H1 H2 Hk) as (x1 & x2 & E1 & E2 & E & _).
    pose proof (mo_init _ _ _ _ _ _ _ (poly_host ov cx2 0 ltac:(lia)) o1 o2 k H1 H2 Hk) as (y1 & y2 & F1 & F2 & F & _).
    cbn [mac_poly_ov ma_obj ma_initialize] in *.
    exists x1, y2. split; [exact E1|]. split; [exact F2|].
    pose proof (pe_1 _ _ H2) as W2.
    rewrite (Proof_Poly.init_host ov cx1 o2 k W2 Hk), C in E2. rewrite (Proof_Poly.init_host ov cx2 o2 k W2 Hk) in F2.
    assert (x2 = y2) by congruence. subst. exact E.
  - intros o1 o2 m H Hm. pose proof H as [W1 W2 Er Es Ea En Eb].
    pose proof (mo_upd _ _ _ _ _ _ _ (poly_host ov cx1 0 ltac:(lia)) o1 o2 m H Hm) as (x1 & x2 & E1 & E2 & E).
    cbn [mac_poly_ov ma_obj ma_update] in *. destruct Hm as [Hm _].
    destruct (Proof_Poly.update_spec ov cx1 o2 m W2 Hm) as (b1 & E1' & L1 & B1 & F1 & A1).
    destruct (Proof_Poly.update_spec ov cx2 o2 m W2 Hm) as (b2 & E2' & L2 & B2 & F2 & A2).
    exists x1. eexists. split; [exact E1|]. split; [exact E2'|].
    assert (X : x2 = {| po_r := po_r o2; po_s := po_s o2;
       po_acc := absorb 16 (pstep (po_r o2) 1) (po_acc o2) (firstn (po_size o2) (po_buffer o2) ++ m);
       po_buffer := b1; po_size := (length (firstn (po_size o2) (po_buffer o2) ++ m) mod 16)%nat |}) by congruence.
    subst x2. destruct E as [W1' W2' Er' Es' Ea' En' Eb']. cbn [po_r po_s po_acc po_buffer po_size] in *.
    constructor; cbn [po_r po_s po_acc po_buffer po_size]; try assumption.
    + constructor; cbn [po_r po_s po_acc po_buffer po_size]; try assumption; try apply W2'.
    + congruence.
  - intros o1 o2 H. pose proof H as [W1 W2 Er Es Ea En Eb].
    destruct (Proof_Poly.finalize_spec cx1 o1 W1) as (b1 & a1 & X1 & L1 & B1 & F1 & A1 & G1 & _).
    destruct (Proof_Poly.finalize_spec cx2 o2 W2) as (b2 & a2 & X2 & L2 & B2 & F2 & A2 & G2 & _).
    destruct (X1 ov) as (c1 & E1 & ->). destruct (X2 ov) as (c2 & E2 & ->).
    do 2 eexists. split; [exact E1|]. split; [exact E2|].
    assert (Ela : last_acc o1 = last_acc o2) by (unfold last_acc; rewrite Er, Ea, En, <- En, Eb, En; reflexivity).
    assert (a1 = a2). { specialize (G1 ov). specialize (G2 ov). rewrite Es, Ela in G1. congruence. }
    constructor; cbn [po_r po_s po_acc po_buffer po_size]; try congruence.
    + constructor; cbn [po_r po_s po_acc po_buffer po_size]; try assumption; apply W1.
    + constructor; cbn [po_r po_s po_acc po_buffer po_size]; try assumption; apply W2.
Qed.

(** *** Ciphers *)
Lemma prod_xor_size B cx cb buf z m d s n st b z' st' m' : (0 < bk_block B)%nat -> (z < bk_block B)%nat ->
  update_block_prod_xor B cx cb buf z m d s n st = Some (b, z', st', m') -> z' = ((z + n) mod bk_block B)%nat.
Proof.
  intros H0 Hz. unfold update_block_prod_xor. set (BS := bk_block B) in *. clearbody BS.
  assert (Tl : forall m d s n,
    ('(st, m, dst, src) <-
      (if (0 <? n / BS)%nat then
         '(m, done) <- bk_transform B cx (n / BS) st m d s ;;
         st <- cb st done ;;
         Some (st, m, (d + n / BS * BS)%nat, (s + n / BS * BS)%nat)
       else Some (st, m, d, s)) ;;
    if (0 <? n mod BS)%nat then
      '(buf, done) <- bk_generate B cx 1%nat st buf ;;
      st <- cb st done ;;
      m <- mxor_loop m dst src buf 0 0 (n mod BS) ;;
      Some (buf, (n mod BS)%nat, st, m)
    else Some (buf, (n mod BS)%nat, st, m)) = Some (b, z', st', m') -> z' = (n mod BS)%nat).
  { clear. intros m d s n.
    destruct (0 <? n / BS)%nat; cbn [bind].
    - destruct (bk_transform B cx (n / BS) st m d s) as [[m1 k1]|]; [|discriminate]. cbn [bind].
      destruct (cb st k1) as [st1|]; [|discriminate]. cbn [bind].
      destruct (0 <? n mod BS)%nat; [|congruence].
      destruct (bk_generate B cx 1%nat st1 buf) as [[b2 k2]|]; [|discriminate]. cbn [bind].
      destruct (cb st1 k2) as [st2|]; [|discriminate]. cbn [bind].
      destruct (mxor_loop m1 _ _ b2 0 0 (n mod BS)); [|discriminate]. cbn [bind]. congruence.
    - destruct (0 <? n mod BS)%nat; [|congruence].
      destruct (bk_generate B cx 1%nat st buf) as [[b2 k2]|]; [|discriminate]. cbn [bind].
      destruct (cb st k2) as [st2|]; [|discriminate]. cbn [bind].
      destruct (mxor_loop m _ _ b2 0 0 (n mod BS)); [|discriminate]. cbn [bind]. congruence. }
  cbv zeta. destruct (Nat.ltb_spec 0 z) as [Hp|Hp].
  - destruct (Nat.ltb_spec BS z); [discriminate|].
    destruct (mxor_loop m d s buf z 0 (Nat.min (BS - z) n)) as [m1|]; [|discriminate]. cbn [bind].
    destruct (Nat.ltb_spec (Nat.min (BS - z) n) (BS - z)) as [Hl|Hl].
    + intros E. assert (z' = (z + Nat.min (BS - z) n)%nat) by congruence. subst z'.
      rewrite Nat.min_r by lia. symmetry. apply Nat.mod_small. lia.
    + intros E. apply Tl in E. subst z'. rewrite Nat.min_l by lia.
      replace (z + n)%nat with (n - (BS - z) + 1 * BS)%nat by lia. rewrite Nat.mod_add by lia. reflexivity.
  - intros E. apply Tl in E. subst z'. f_equal. lia.
Qed.

Lemma crypt_size dir B cx o m s n d o' m' k : (0 < bk_block B)%nat -> (cc_size o < bk_block B)%nat ->
  capie_crypt dir B cx o m s n d = Some (o', m', k) -> cc_size o' = ((cc_size o + n) mod bk_block B)%nat.
Proof.
  intros H0 Hz E. assert (E' : cc_encrypt B cx o m s n d = Some (o', m', k)) by (destruct dir; exact E).
  unfold cc_encrypt in E'.
  destruct (update_block_prod_xor B cx cc_count (cc_buffer o) (cc_size o) m d s n (cc_state o)) as [[[[b z] st] m1]|] eqn:U; [|discriminate].
  cbn [bind] in E'. apply prod_xor_size in U; [|assumption|assumption].
  assert (X : o' = {| cc_state := st; cc_buffer := b; cc_size := z |}) by congruence. subst o'. exact U.
Qed.

Lemma step_size B cx o c o' r : (0 < bk_block B)%nat -> (cc_size o < bk_block B)%nat -> (forall k v, c <> CInit k v) ->
  cipher_step B cx o c = Some (o', r) -> cc_size o' = ((cc_size o + ctext c) mod bk_block B)%nat.
Proof.
  intros H0 Hz Hc. destruct c as [k v|dir m s n t|dir t c|dir c]; cbn [cipher_step ctext].
  - destruct (Hc k v eq_refl).
  - destruct (capie_crypt dir B cx o m s n t) as [[[o1 m1] n1]|] eqn:E; [|discriminate]. cbn [bind]. intros X.
    assert (o1 = o') by congruence. subst o1. exact (crypt_size _ _ _ _ _ _ _ _ _ _ _ H0 Hz E).
  - unfold capie_crypt_c. destruct (cresize c _) as [c1 k1].
    destruct (capie_crypt dir B cx o _ 0 (length t) (length t)) as [[[o1 m1] n1]|] eqn:E; [|discriminate]. cbn [bind].
    destruct (cresize (cset c1 _) n1) as [c2 k2]. cbn [bind]. intros X.
    assert (o1 = o') by congruence. subst o1. exact (crypt_size _ _ _ _ _ _ _ _ _ _ _ H0 Hz E).
  - unfold capie_crypt_same.
    replace (match dir with Encrypt => cc_encrypt_size | Decrypt => cc_decrypt_size end (length (cdata c))) with (length (cdata c)) by (destruct dir; reflexivity).
    assert (L : length (cdata (fst (cresize c (length (cdata c))))) = length (cdata c)).
    { destruct c as [l|l]; cbn [cresize cdata fst]; [|reflexivity]. unfold resize_list. rewrite app_length, firstn_length, repeat_length. lia. }
    destruct (cresize c (length (cdata c))) as [c1 k1]. cbn [fst] in L.
    destruct (capie_crypt dir B cx o _ 0 _ 0) as [[[o1 m1] n1]|] eqn:E; [|discriminate]. cbn [bind].
    destruct (cresize (cset c1 _) n1) as [c2 k2]. cbn [bind]. intros X.
    assert (o1 = o') by congruence. subst o1. rewrite <- L. exact (crypt_size _ _ _ _ _ _ _ _ _ _ _ H0 Hz E).
Qed.

Lemma step_spec cx B key iv pos o c : backend_ok cx B -> bytes key -> bytes iv -> ccall_ok c -> (forall k v, c <> CInit k v) ->
  stream_at B (api_state key iv) pos o ->
  exists o', cipher_step B cx o c = Some (o', cout (api_byte key iv) pos c) /\ stream_at B (api_state key iv) (pos + ctext c) o'.
Proof.
  intros BO Hk Hv Hc Hn Ho. destruct (api_state_ok key iv Hk Hv) as [L W].
  assert (X : forall c, cout (st_byte (api_state key iv)) pos c = cout (api_byte key iv) pos c)
    by (intros; apply cout_ext; intros; symmetry; apply api_byte_state).
  assert (XX : forall t, xor_with (st_byte (api_state key iv)) pos t = xor_with (api_byte key iv) pos t)
    by (intros; apply xor_with_ext; intros; symmetry; apply api_byte_state).
  destruct c as [k v|d m s n t|d t c|d c]; cbn [cipher_step ctext].
  - destruct (Hn k v eq_refl).
  - destruct Hc as (Hm & Hs & Hd & Ha).
    destruct (crypt_spec cx B BO _ L W d o pos m t s n Ho Hm Hd Hs Ha) as (o1 & E & I).
    rewrite E. cbn [bind]. exists o1. split; [|exact I]. rewrite XX. reflexivity.
  - destruct (crypt_c_spec cx B BO _ L W d o pos t c Ho Hc) as (o1 & E & I).
    destruct (capie_crypt_c d B cx o t c) as [[[o1' c1] n1]|]; [|discriminate].
    cbn [option_map fst snd bind] in *. set (w := cout (st_byte (api_state key iv)) pos (CCryptC d t c)) in *.
    assert (E2 : w = CCon c1 n1 /\ o1' = o1) by (clearbody w; split; congruence). destruct E2 as [E2 ->]. rewrite <- E2.
    unfold w. clear w E E2. exists o1. split; [|exact I]. rewrite X. reflexivity.
  - destruct (crypt_same_spec cx B BO _ L W d o pos c Ho Hc) as (o1 & E & I).
    rewrite E. cbn [bind]. exists o1. split; [|exact I]. rewrite XX. reflexivity.
Qed.

(** The object stands at byte [pos], [r] blocks are made at a time, and [q] bytes were used since the first of them. *)
Definition stands (r q : nat) (st0 : list N) (pos : nat) (o : cc_obj) : Prop :=
  (1 <= r <= 8)%nat /\ cc_size o = (q mod (64 * r))%nat /\ forall B, bk_ratio B = r -> stream_at B st0 pos o.

Lemma stands_wf r q st0 pos o : length st0 = 16%nat -> words 32 st0 -> stands r q st0 pos o -> cc_wf o.
Proof.
  intros L W (_ & _ & H). set (B := {| bk_ratio := r; bk_transform := bk_transform bk_sw; bk_generate := bk_generate bk_sw |}).
  exact (stream_at_wf B _ _ _ L W (H B eq_refl)).
Qed.
Lemma stands_other r r' q st0 pos o : (1 <= r' <= 8)%nat -> (q mod (64 * r) = 0)%nat -> stands r q st0 pos o -> stands r' 0 st0 pos o.
Proof.
  intros Hr Hq (Hr0 & Hz & H). rewrite Hq in Hz. split; [exact Hr|]. split.
  { rewrite Nat.mod_0_l by lia. exact Hz. }
  intros B' _. set (B := {| bk_ratio := r; bk_transform := bk_transform bk_sw; bk_generate := bk_generate bk_sw |}).
  destruct (H B eq_refl) as (gen & E & Lb & Hb & Hc). exists gen. split; [exact E|]. split; [exact Lb|]. split; [exact Hb|].
  left. destruct Hc as [Hc|[Hc _]]; [exact Hc|lia].
Qed.

Lemma stands_step cx B q key iv pos o c : backend_ok cx B -> bytes key -> bytes iv -> ccall_ok c -> (forall k v, c <> CInit k v) ->
  stands (bk_ratio B) q (api_state key iv) pos o ->
  exists o', cipher_step B cx o c = Some (o', cout (api_byte key iv) pos c) /\
    stands (bk_ratio B) (q + ctext c) (api_state key iv) (pos + ctext c) o'.
Proof.
  intros BO Hk Hv Hc Hn (Hr & Hz & H).
  destruct (step_spec cx B key iv pos o c BO Hk Hv Hc Hn (H B eq_refl)) as (o' & E & I).
  exists o'. split; [exact E|]. split; [exact Hr|]. split.
  - apply step_size in E; [|unfold bk_block; lia| |exact Hn].
    + rewrite E, Hz. unfold bk_block. apply Nat.add_mod_idemp_l. lia.
    + rewrite Hz. unfold bk_block. apply Nat.mod_upper_bound. lia.
  - intros B' HB. destruct I as (gen & Es & I). exists gen. split; [exact Es|]. unfold bk_block in *. rewrite HB. exact I.
Qed.

Lemma cipher_mixed : forall calls r q key iv pos o,
  Forall (fun x => backend_ok (snd (fst x)) (fst (fst x))) calls -> Forall ccall_ok (map snd calls) ->
  smooth r q calls -> bytes key -> bytes iv -> stands r q (api_state key iv) pos o ->
  exists o', run_in cipher_in o calls = Some (o', cexpected key iv pos (map snd calls)).
Proof.
  induction calls as [|[[B cx] c] calls IH]; intros r q key iv pos o Hb Hc Hs Hk Hv Ho.
  - exists o. reflexivity.
  - inversion Hb as [|? ? Hb1 Hb2]; subst. cbn [map snd fst] in *. inversion Hc as [|? ? Hc1 Hc2]; subst.
    destruct (api_state_ok key iv Hk Hv) as [L W].
    assert (Hrr : (1 <= bk_ratio B <= 8)%nat) by apply (bo_ratio _ _ Hb1).
    assert (G : (forall k v, c <> CInit k v) ->
      ((bk_ratio B = r /\ smooth r (q + ctext c) calls) \/ ((q mod (64 * r) = 0)%nat /\ smooth (bk_ratio B) (ctext c) calls)) ->
      exists o', run_in cipher_in o ((B, cx, c) :: calls) = Some (o', cout (api_byte key iv) pos c :: cexpected key iv (pos + ctext c) (map snd calls))).
    { intros Hn [[<- Hs']|[Hq Hs']].
      - destruct (stands_step cx B q key iv pos o c Hb1 Hk Hv Hc1 Hn Ho) as (o1 & E & I).
        destruct (IH _ _ key iv _ o1 Hb2 Hc2 Hs' Hk Hv I) as (o2 & R).
        exists o2. cbn [run_in cipher_in]. unfold cipher_in at 1. cbn [fst snd]. rewrite E. cbn [bind]. rewrite R. reflexivity.
      - pose proof (stands_other r (bk_ratio B) q _ pos o Hrr Hq Ho) as Ho'.
        destruct (stands_step cx B 0 key iv pos o c Hb1 Hk Hv Hc1 Hn Ho') as (o1 & E & I).
        destruct (IH _ _ key iv _ o1 Hb2 Hc2 Hs' Hk Hv I) as (o2 & R).
        exists o2. cbn [run_in cipher_in]. unfold cipher_in at 1. cbn [fst snd]. rewrite E. cbn [bind]. rewrite R. reflexivity. }
    destruct c as [k v|d m s n t|d t c|d c]; [|apply G; [discriminate|exact Hs]..].
    clear G. destruct Hc1 as [Hk' Hv']. cbn [smooth] in Hs. cbn [cexpected].
    destruct (initialize_spec cx B o k v (stands_wf _ _ _ _ _ L W Ho) Hk' Hv') as (o1 & E & I).
    assert (I' : stands (bk_ratio B) 0 (api_state k v) 0 o1).
    { split; [exact Hrr|]. split.
      - rewrite Nat.mod_0_l by lia. unfold capie_initialize, cc_initialize in E. revert E. clear.
        repeat match goal with |- context [bind ?x _] => destruct x; cbn [bind]; [|discriminate] end.
        intros E. injection E as <-. reflexivity.
      - intros B' HB. destruct I as (gen & Es & I). exists gen. split; [exact Es|]. unfold bk_block in *. rewrite HB. exact I. }
    destruct (IH _ _ k v _ o1 Hb2 Hc2 Hs Hk' Hv' I') as (o2 & R).
    exists o2. cbn [run_in]. unfold cipher_in at 1. cbn [fst snd cipher_step]. rewrite E. cbn [bind]. rewrite R. reflexivity.
Qed.
