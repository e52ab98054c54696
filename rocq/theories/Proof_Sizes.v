(** C45: proofs. *)
From Verif Require Import Base BaseLemmas BytesLemmas Spec_Bytes Spec_Range Spec_ChaCha Spec_Hash Spec_Mac Spec_Cipher Spec_Aead Spec_Kdf Spec_Sha Spec_Hmac
  Spec_Sizes Spec_Codec Model_Memory Model_Update Model_Container Model_Codec Model_Sha Model_Mac Model_Hmac Model_Poly Model_Cipher Model_Aead Model_Kdf
  Proof_Codec16 Proof_CodecApi Proof_Mac Proof_ShaApi Proof_Hmac Proof_Poly Proof_ChaChaCore Proof_ChaCha Proof_Aead Proof_Kdf Proof_Kdf2 Proof_Kdf3 Proof_Test Proof_Test2 Proof_Range.
Local Open Scope N_scope.

(** An answer that starts with [r] and keeps the rest. *)
Lemma keeps (r l : list N) n : length r = n -> (n <= length l)%nat -> length (r ++ skipn n l) = length l /\ skipn n (r ++ skipn n l) = skipn n l.
Proof.
  intros Lr Hn. split; [rewrite app_length, skipn_length; lia|].
  rewrite skipn_app, Lr, Nat.sub_diag, skipn_O, skipn_all2 by lia. reflexivity.
Qed.
Lemma filled_dyn (r l : list N) n : length r = n -> filled n (Dynamic l) (Dynamic r) n.
Proof. intros H. split; [exact H|reflexivity]. Qed.
Lemma filled_sta (r l : list N) n ask : n = Nat.min ask (length l) -> length r = n -> filled ask (Static l) (Static (r ++ skipn n l)) n.
Proof. intros En Lr. destruct (keeps r l n Lr) as [A B]; [lia|]. split; [exact En|]. split; assumption. Qed.
Lemma written_pre (r l : list N) n : length r = n -> (n <= length l)%nat -> written n l (r ++ skipn n l) n.
Proof. intros Lr Hn. destruct (keeps r l n Lr Hn) as [A B]. split; [reflexivity|]. split; assumption. Qed.
Lemma written_put (m r : list N) d n : length r = n -> (d + n <= length m)%nat -> written_at n d m (put m d r) n.
Proof.
  intros Lr Hd. split; [reflexivity|]. split; [apply put_length; lia|]. unfold put. split.
  - rewrite firstn_app, firstn_length_le by lia. rewrite Nat.sub_diag, firstn_O, app_nil_r. rewrite firstn_firstn, Nat.min_id. reflexivity.
  - rewrite skipn_app, firstn_length_le by lia. rewrite (skipn_all2 (firstn d m)) by (rewrite firstn_length; lia). cbn [app].
    rewrite skipn_app, Lr. rewrite (skipn_all2 r) by lia. cbn [app]. replace (d + n - d - n)%nat with 0%nat by lia. rewrite skipn_O. reflexivity.
Qed.

(** *** Hashes and MACs *)
Lemma hprefix_sized D c : is_digest c -> match c with HDigest d s => (Nat.min s (length D) <= length d)%nat | _ => True end ->
  hsized (length D) c (hprefix D c).
Proof.
  destruct c as [|m|d s|[l|l] s]; intros H R; try destruct H; cbn [hsized hprefix].
  - apply written_pre; [apply firstn_length|exact R].
  - apply filled_dyn. apply firstn_length.
  - apply filled_sta; [reflexivity|]. apply firstn_length_le. lia.
Qed.
Lemma msized_h ds c c' o : match c, c' with MDigest d s, HDigest d' s' => d = d' /\ s = s' | MDigestC d s, HDigestC d' s' => d = d' /\ s = s' | _, _ => False end ->
  hsized ds c' o -> msized ds c o.
Proof. destruct c, c'; intros X H; try destruct X; subst; exact H. Qed.
Lemma mprefix_sized D c : mis_digest c -> match c with MDigest d s => (Nat.min s (length D) <= length d)%nat | _ => True end ->
  msized (length D) c (mprefix D c).
Proof.
  destruct c as [k|m|d s|c s]; intros H R; try destruct H; cbn [mprefix].
  - exact (hprefix_sized D (HDigest d s) I R).
  - exact (hprefix_sized D (HDigestC c s) I I).
Qed.

Lemma hash_sized cx a calls : Forall (hcall_ok (milo_hash a)) calls ->
  exists p outs, hash_run cx (milo_hash a) (hapie_new (milo_hash a)) calls = Some (p, outs) /\ Forall2 (hsized (sha_digest_size a)) calls outs.
Proof.
  induction calls as [|c l IH] using rev_ind; intros H; [exists (hapie_new (milo_hash a)), []; split; [reflexivity|constructor]|].
  apply Forall_app in H. destruct H as [Hl Hc]. destruct (IH Hl) as (p & outs & R & F).
  assert (X : exists p' o, hash_step cx (milo_hash a) p c = Some (p', o) /\ hsized (sha_digest_size a) c o).
  { assert (Q : is_digest c \/ ~ is_digest c) by (destruct c; cbn; auto). destruct Q as [Q|Q].
    - destruct (milo_digests_after cx a l [c] Hl (Forall_cons _ Q (Forall_nil _)) Hc) as (p0 & outs0 & D & p' & R0 & LD & R1).
      assert (p0 = p) by congruence. subst p0. cbn [hash_run map] in R1.
      destruct (hash_step cx (milo_hash a) p c) as [[p1 o]|] eqn:E; [|discriminate]. cbn [bind] in R1.
      assert (o = hprefix D c) by congruence. subst o. exists p1, (hprefix D c). split; [reflexivity|].
      rewrite <- LD. apply hprefix_sized; [exact Q|]. inversion Hc as [|? ? Hc1 _]; subst. destruct c; try exact I.
      cbn [hcall_ok] in Hc1. rewrite LD, <- dsz_sha. exact (proj2 Hc1).
    - destruct (milo_run_total cx a (l ++ [c])) as [[p' os] T]; [apply Forall_app; split; assumption|].
      rewrite hash_run_app, R in T. cbn [bind hash_run] in T.
      destruct (hash_step cx (milo_hash a) p c) as [[p1 o]|] eqn:E; [|discriminate]. exists p1, o. split; [reflexivity|].
      destruct c as [|m|d s|c s]; cbn in Q; try (exfalso; exact (Q I)); cbn [hash_step] in E.
      + assert (o = ONone) by congruence. subst. exact I.
      + destruct (hapie_update cx (milo_hash a) p m); [|discriminate]. cbn [bind] in E. assert (o = ONone) by congruence. subst. exact I. }
  destruct X as (p' & o & E & So). exists p', (outs ++ [o]). split.
  - rewrite hash_run_app, R. cbn [bind hash_run]. rewrite E. reflexivity.
  - apply Forall2_app; [exact F|]. constructor; [exact So|constructor].
Qed.

Lemma mac_sized {M cx keyok T eqv hold out} (OK : mac_ok M cx keyok T eqv hold out) key calls : keyok key -> Forall (mcall_ok keyok (ma_digest_size M)) calls ->
  exists p p' outs, mapie_new cx M key = Some p /\ mac_run cx M p calls = Some (p', outs) /\ Forall2 (msized (ma_digest_size M)) calls outs.
Proof.
  intros Hk. induction calls as [|c l IH] using rev_ind; intros H.
  { destruct (mrun_total OK key [] Hk (Forall_nil _)) as (p & r & E & _). exists p, p, []. split; [exact E|]. split; [reflexivity|constructor]. }
  apply Forall_app in H. destruct H as [Hl Hc]. destruct (IH Hl) as (p & q & outs & N0 & R & F).
  assert (X : exists p' o, mac_step cx M q c = Some (p', o) /\ msized (ma_digest_size M) c o).
  { assert (Q : mis_digest c \/ ~ mis_digest c) by (destruct c; cbn; auto). destruct Q as [Q|Q].
    - destruct (mdigests_after OK key l [c] Hk Hl (Forall_cons _ Q (Forall_nil _)) Hc) as (p0 & q0 & outs0 & D & p' & N1 & R0 & LD & R1).
      assert (p0 = p) by congruence. subst p0. assert (q0 = q) by congruence. subst q0. cbn [mac_run map] in R1.
      destruct (mac_step cx M q c) as [[p1 o]|] eqn:E; [|discriminate]. cbn [bind] in R1.
      assert (o = mprefix D c) by congruence. subst o. exists p1, (mprefix D c). split; [reflexivity|].
      rewrite <- LD. apply mprefix_sized; [exact Q|]. inversion Hc as [|? ? Hc1 _]; subst. destruct c; try exact I.
      cbn [mcall_ok] in Hc1. rewrite LD. exact (proj2 Hc1).
    - destruct (mrun_total OK key (l ++ [c]) Hk) as (p0 & [p' os] & N1 & T1 & _); [apply Forall_app; split; assumption|].
      assert (p0 = p) by congruence. subst p0. rewrite mac_run_app, R in T1. cbn [bind mac_run] in T1.
      destruct (mac_step cx M q c) as [[p1 o]|] eqn:E; [|discriminate]. exists p1, o. split; [reflexivity|].
      destruct c as [k|m|d s|c s]; cbn in Q; try (exfalso; exact (Q I)); cbn [mac_step] in E.
      + destruct (mapie_initialize cx M q k); [|discriminate]. cbn [bind] in E. assert (o = ONone) by congruence. subst. exact I.
      + destruct (mapie_update cx M q m); [|discriminate]. cbn [bind] in E. assert (o = ONone) by congruence. subst. exact I. }
  destruct X as (p' & o & E & So). exists p, p', (outs ++ [o]). split; [exact N0|]. split.
  - rewrite mac_run_app, R. cbn [bind mac_run]. rewrite E. reflexivity.
  - apply Forall2_app; [exact F|]. constructor; [exact So|constructor].
Qed.

(** *** Ciphers *)
Lemma cexpected_sized : forall calls key iv pos, Forall ccall_ok calls -> Forall2 csized calls (cexpected key iv pos calls).
Proof.
  induction calls as [|c calls IH]; intros key iv pos H; [constructor|]. inversion H as [|? ? Hc Hl]; subst.
  destruct c as [k v|dir m s n d|dir t [l|l]|dir [l|l]]; cbn [cexpected]; constructor; try (apply IH; exact Hl); cbn [csized cout cset cdata] in *.
  - exact I.
  - destruct Hc as (_ & Hs & Hd & _). apply written_put; [rewrite xor_with_length; apply slice_length; exact Hs|exact Hd].
  - apply filled_dyn. apply xor_with_length.
  - destruct Hc as (_ & _ & Hr). apply filled_sta; [lia|apply xor_with_length].
  - apply filled_dyn. apply xor_with_length.
  - pose proof (filled_sta (xor_with (api_byte key iv) pos l) l (length l) (length l)) as X.
    rewrite skipn_all, app_nil_r in X. apply X; [lia|apply xor_with_length].
Qed.

(** *** AEAD *)
Section A.
  Variables (cx : ctx) (B : backend) (BO : backend_ok cx B) (dsz : nat) (Hd : (dsz <= 16)%nat).
  Lemma atext_sized r c : is_text c -> acall_ok dsz c -> length r = length (atext_in c) -> asized dsz c (atext_out r c).
  Proof.
    intros Ht Hc Lr. destruct c as [k v|a|dir m s n d|dir t [l|l]|dir [l|l]|d s|c s|j m]; try destruct Ht; cbn [acall_ok asized atext_out atext_in cset cdata] in *.
    - destruct Hc as (_ & Hs & Hdm & _). rewrite slice_length in Lr by exact Hs. apply written_put; assumption.
    - rewrite Lr. apply filled_dyn. exact Lr.
    - rewrite Lr. apply filled_sta; [|exact Lr]. destruct Hc as (_ & _ & Hr). lia.
    - rewrite Lr. apply filled_dyn. exact Lr.
    - rewrite Lr. pose proof (filled_sta r l (length l) (length l)) as X.
      rewrite skipn_all, app_nil_r in X. apply X; [lia|exact Lr].
  Qed.
  Lemma atag_sized D c : length D = dsz -> is_tag_call c = true -> acall_ok dsz c -> asized dsz c (atag_out D c).
  Proof.
    intros LD Ht Hc. destruct c as [k v|a|dir m s n d|dir t c|dir c|d s|[l|l] s|j m]; try discriminate Ht; cbn [acall_ok asized atag_out] in *.
    - rewrite LD. apply written_pre; [rewrite firstn_length, LD; reflexivity|apply Hc].
    - rewrite LD. apply filled_dyn. rewrite firstn_length, LD. reflexivity.
    - rewrite LD. apply filled_sta; [reflexivity|]. apply firstn_length_le. lia.
    - exact I.
  Qed.
  Lemma astep_sized p c : aeq B p p -> acall_ok dsz c ->
    exists p' o, aead_step B cx dsz p c = Some (p', o) /\ aeq B p' p' /\ asized dsz c o.
  Proof.
    intros H Hc. destruct (aeq_step cx B BO dsz Hd p p c H Hc) as (p1 & p2 & o & E & E2 & Q).
    assert (p2 = p1) by congruence. subst p2. exists p1, o. split; [exact E|]. split; [exact Q|]. clear E2 Q.
    destruct (call_kind c) as [(k & v & ->)|[(d & ->)|[Ht|Ht]]].
    - cbn [aead_step] in E. destruct (aapie_initialize B cx p k v); [|discriminate]. cbn [bind] in E. assert (o = ANone) by congruence. subst. exact I.
    - cbn [aead_step] in E. destruct (aapie_aad cx p d); [|discriminate]. cbn [bind] in E. assert (o = ANone) by congruence. subst. exact I.
    - destruct (text_lower cx B dsz Hd c Ht Hc) as (m & s & n & d & T & Sx & X).
      destruct (crypt_pair cx B BO dsz Hd (adir c) p p m s n d H T) as (q1 & q2 & r & E1 & _ & Lr & _).
      pose proof (X _ _ _ Lr E1) as Y. assert (o = atext_out r c) by congruence. subst o.
      apply atext_sized; [exact Ht|exact Hc|]. rewrite Lr, <- Sx. symmetry. apply slice_length. apply T.
    - destruct (afin_pair cx B dsz Hd p p H) as (q1 & q2 & E1 & _ & Q & F).
      rewrite atag_open in E by exact Ht. rewrite E1 in E. cbn [bind] in E.
      assert (P1 : peq (ao_mac (ap_impl q1)) (ao_mac (ap_impl q1))) by (apply peq_refl; apply (ae_m _ _ _ Q)).
      rewrite (atag_step cx B dsz Hd q1 c P1 F Ht Hc) in E. assert (o = atag_out (atag dsz q1) c) by congruence. subst o.
      apply atag_sized; [exact (out_len cx dsz Hd _ P1)|exact Ht|exact Hc].
  Qed.
  Lemma arun_sized : forall calls p, aeq B p p -> Forall (acall_ok dsz) calls ->
    exists p' outs, aead_run B cx dsz p calls = Some (p', outs) /\ Forall2 (asized dsz) calls outs.
  Proof.
    induction calls as [|c calls IH]; intros p H Hc; [exists p, []; split; [reflexivity|constructor]|]. inversion Hc as [|? ? Hc1 Hc2]; subst.
    destruct (astep_sized p c H Hc1) as (p1 & o & E & H1 & S1). destruct (IH p1 H1 Hc2) as (p2 & outs & R & F).
    exists p2, (o :: outs). split; [cbn [aead_run]; rewrite E; cbn [bind]; rewrite R; reflexivity|]. constructor; assumption.
  Qed.
  Lemma aead_sized key iv calls : bytes key -> bytes iv -> Forall (acall_ok dsz) calls ->
    exists p p' outs, aapie_new B cx key iv = Some p /\ aead_run B cx dsz p calls = Some (p', outs) /\ Forall2 (asized dsz) calls outs.
  Proof.
    intros Hk Hv Hc. destruct (anew cx B BO dsz Hd key iv Hk Hv) as (p & E & H & _).
    destruct (arun_sized calls p (aholds_aeq cx B dsz _ _ _ _ _ H) Hc) as (p' & outs & R & F). exists p, p', outs. auto.
  Qed.
End A.

(** *** KDFs *)
Section K.
  Context {K : kdf_alg} {cx : ctx} {V : Type} {D : V -> nat -> list N} {lim : nat -> nat -> Prop}
    {argv : list N -> ka_arg K -> V -> Prop} {keq : list N -> ka_obj K -> ka_obj K -> Prop}
    {hold : V -> nat -> ka_obj K -> Prop} {sees : list N -> V -> ka_obj K -> Prop}
    {later : list N -> ka_arg K -> V -> Prop}
    (OK : kdf_ok K cx D lim argv keq hold sees later).
  Lemma kstep_sized env o c : keq env o o -> kcall_ok (argok (argv := argv) env) c ->
    exists o' x, kdf_step cx K env o c = Some (o', x) /\ keq env o' o' /\ ksized c x.
  Proof.
    intros E Hc. destruct (kstep_eq OK env o o c E Hc) as (o1 & o2 & x & X1 & X2 & Q). assert (o2 = o1) by congruence. subst o2.
    exists o1, x. split; [exact X1|]. split; [exact Q|]. clear X2 Q. destruct c as [a|k s|[l|l] s]; cbn [kcall_ok kdf_step cdata] in *.
    - destruct (ka_initialize K cx env o a); [|discriminate]. cbn [bind] in X1. assert (x = KNone) by congruence. subst. exact I.
    - destruct (ko_der _ _ _ _ _ _ _ _ _ OK env o o s E) as (r & Br & Lr & X).
      destruct (X k (proj1 Hc) (proj2 Hc)) as (o1' & _ & X2 & _). rewrite X2 in X1. cbn [bind] in X1.
      assert (x = KKey (r ++ skipn s k) s) by congruence. subst x. apply written_pre; [exact Lr|apply Hc].
    - unfold kapie_derive_c in X1. cbn [cresize cdata] in X1.
      destruct (ko_der _ _ _ _ _ _ _ _ _ OK env o o s E) as (r & Br & Lr & X).
      destruct (X (resize_list l s) (resize_bytes l s Hc)) as (o1' & _ & X2 & _); [rewrite resize_list_length; lia|].
      rewrite X2 in X1. cbn [bind cset] in X1. assert (x = KCon (Dynamic (r ++ skipn s (resize_list l s))) s) by congruence. subst x.
      apply filled_dyn. rewrite app_length, skipn_length, resize_list_length. lia.
    - unfold kapie_derive_c in X1. cbn [cresize cdata] in X1.
      destruct (ko_der _ _ _ _ _ _ _ _ _ OK env o o (Nat.min s (length l)) E) as (r & Br & Lr & X).
      destruct (X l Hc) as (o1' & _ & X2 & _); [lia|]. rewrite X2 in X1. cbn [bind cset] in X1.
      assert (x = KCon (Static (r ++ skipn (Nat.min s (length l)) l)) (Nat.min s (length l))) by congruence. subst x.
      apply filled_sta; [reflexivity|exact Lr].
  Qed.
  Lemma krun_sized env : forall calls o, keq env o o -> Forall (kcall_ok (argok (argv := argv) env)) calls ->
    exists o' outs, kdf_run cx K env o calls = Some (o', outs) /\ Forall2 ksized calls outs.
  Proof.
    induction calls as [|c calls IH]; intros o E Hc; [exists o, []; split; [reflexivity|constructor]|]. inversion Hc as [|? ? Hc1 Hc2]; subst.
    destruct (kstep_sized env o c E Hc1) as (o1 & x & X & E1 & S1). destruct (IH o1 E1 Hc2) as (o2 & outs & R & F).
    exists o2, (x :: outs). split; [cbn [kdf_run]; rewrite X; cbn [bind]; rewrite R; reflexivity|]. constructor; assumption.
  Qed.
  Lemma kdf_sized env a calls : argok (argv := argv) env a -> Forall (kcall_ok (argok (argv := argv) env)) calls ->
    exists o o' outs, kapie_new cx K env a = Some o /\ kdf_run cx K env o calls = Some (o', outs) /\ Forall2 ksized calls outs.
  Proof.
    intros [v A] Hc. pose proof (ko_new _ _ _ _ _ _ _ _ _ OK env) as E0.
    destruct (ko_init _ _ _ _ _ _ _ _ _ OK env _ _ a v E0 E0 A) as (o & oz & I1 & _ & E & _).
    destruct (krun_sized env calls o (proj1 (ko_lr _ _ _ _ _ _ _ _ _ OK _ _ _ E)) Hc) as (o' & xs & R & F).
    exists o, o', xs. auto.
  Qed.
End K.

(** *** Codecs *)
Lemma sized_room sg from l : bytes from ->
  ((2 * length from <= length l)%nat -> exists c' n, apie_encode (base_16 sg) from (Static l) = Some (c', n) /\ filled (2 * length from) (Static l) c' n) /\
  ((length (spec_b64 from) <= length l)%nat ->
   exists c' n, apie_encode (base_64 sg) from (Static l) = Some (c', n) /\ filled (length (spec_b64 from)) (Static l) c' n).
Proof.
  intros Hb. split; intros H.
  - pose proof (static_room16 sg from (firstn (2 * length from) l) (skipn (2 * length from) l) Hb (firstn_length_le l H)) as X.
    rewrite firstn_skipn in X. eexists. eexists. split; [exact X|]. apply filled_sta; [lia|apply spec_hex_length].
  - pose proof (static_room64 sg from (firstn (length (spec_b64 from)) l) (skipn (length (spec_b64 from)) l) Hb (firstn_length_le l H)) as X.
    rewrite firstn_skipn in X. eexists. eexists. split; [exact X|]. apply filled_sta; [lia|reflexivity].
Qed.
Lemma codec_sized sg from c : bytes from -> N.of_nat (length from) < 2 ^ 62 ->
  (match c with Dynamic _ => True | Static l => (2 * length from <= length l)%nat end ->
   exists c' n, apie_encode (base_16 sg) from c = Some (c', n) /\ filled (2 * length from) c c' n) /\
  (match c with Dynamic _ => True | Static l => (length (spec_b64 from) <= length l)%nat end ->
   exists c' n, apie_encode (base_64 sg) from c = Some (c', n) /\ filled (length (spec_b64 from)) c c' n).
Proof.
  intros Hb Hn. destruct c as [l|l].
  - split; intros _.
    + eexists. eexists. split; [apply apie_encode16; [exact Hb|lia]|]. rewrite spec_hex_length. apply filled_dyn, spec_hex_length.
    + eexists. eexists. split; [apply apie_encode64; [exact Hb|exact Hn]|]. apply filled_dyn. reflexivity.
  - exact (sized_room sg from l Hb).
Qed.
