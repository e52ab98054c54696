(** C49 for ChaCha20-Poly1305 objects that go from one circumstance to another, and the sizes of C45. *)
From Verif Require Import Base BaseLemmas BytesLemmas Spec_Bytes Spec_ChaCha Spec_Poly Spec_Range Spec_Cipher Spec_Hash Spec_Aead
  Model_Memory Model_Update Model_Container Model_Sha Model_Mac Model_Hmac Model_Poly Model_Cipher Model_Aead Proof_Mac Proof_Poly Proof_ChaChaCore Proof_ChaCha Proof_Aead
  Spec_Portable Proof_Portable Proof_Range.
Local Open Scope N_scope.

(** A backend of [r] blocks that does what the contract says: only used in proofs. *)
Definition ideal (r : nat) : backend := {|
  bk_ratio := r;
  bk_transform := fun _ n st m d s => Some (put m d (xor_with (st_byte st) 0 (slice m s (64 * r * n))), (r * n)%nat);
  bk_generate := fun _ n st buf => Some (put buf 0 (stream_bytes (st_byte st) 0 (64 * r)), r) |}.
Lemma ideal_ok cx r : (1 <= r <= 8)%nat -> backend_ok cx (ideal r).
Proof. intros H. constructor; [exact H|intros; reflexivity|intros; reflexivity]. Qed.

Lemma stream_at_ratio B B' st pos o : bk_ratio B = bk_ratio B' -> stream_at B st pos o -> stream_at B' st pos o.
Proof. intros E (gen & Es & H). exists gen. split; [exact Es|]. unfold bk_block in *. rewrite <- E. exact H. Qed.
Lemma aholds_ratio {cx} B B' dsz key iv aad ct p : bk_ratio B = bk_ratio B' -> aholds cx B dsz key iv aad ct p -> aholds cx B' dsz key iv aad ct p.
Proof. intros E [H1 H2 H3 H4 H5 H6 H7 H8]. constructor; try assumption. exact (stream_at_ratio _ _ _ _ _ E H5). Qed.
(** No key stream byte is left over: any backend may go on. *)
Lemma aholds_empty {cx} B B' dsz key iv aad ct p : cc_size (ao_cipher (ap_impl p)) = 0%nat -> aholds cx B dsz key iv aad ct p -> aholds cx B' dsz key iv aad ct p.
Proof.
  intros Z [H1 H2 H3 H4 H5 H6 H7 H8]. constructor; try assumption.
  destruct H5 as (gen & Es & Lb & Hb & [Hc|[Hc _]]); [|lia]. exists gen. split; [exact Es|]. split; [exact Lb|]. split; [exact Hb|]. left. exact Hc.
Qed.

Definition asize (p : aead_apie) : nat := cc_size (ao_cipher (ap_impl p)).
Lemma over_size cx p q : aapie_finalize_aad cx p = Some q -> asize q = asize p.
Proof.
  unfold aapie_finalize_aad. destruct (ap_aad_done p); [congruence|]. unfold aead_aadover.
  destruct (aead_zeros _); [|discriminate]. cbn [bind]. destruct (poly_update _ _ _ _); [|discriminate]. cbn [bind]. intros E.
  assert (X : q = {| ap_impl := {| ao_cipher := ao_cipher (ap_impl p); ao_mac := p0; ao_aad := ao_aad (ap_impl p); ao_edd := ao_edd (ap_impl p) |}; ap_aad_done := true; ap_done := ap_done p |}) by congruence.
  rewrite X. reflexivity.
Qed.
Lemma fin_size cx p q : aapie_finalize cx p = Some q -> asize q = asize p.
Proof.
  unfold aapie_finalize. destruct (ap_done p); [congruence|].
  destruct (aead_finalize cx (ap_impl p)) as [o|] eqn:F; [|discriminate]. cbn [bind]. intros E.
  assert (X : ao_cipher o = ao_cipher (ap_impl p)).
  { clear E. revert F. unfold aead_finalize. repeat match goal with |- context [bind ?x _] => destruct x; cbn [bind]; [|discriminate] end.
    intros F. injection F as <-. reflexivity. }
  injection E as <-. unfold asize. cbn [ap_impl]. rewrite X. reflexivity.
Qed.
Lemma acrypt_size dir B cx p m s n d q m' k : (0 < bk_block B)%nat -> (asize p < bk_block B)%nat ->
  aapie_crypt dir B cx p m s n d = Some (q, m', k) -> asize q = ((asize p + n) mod bk_block B)%nat.
Proof.
  intros H0 Hz. unfold aapie_crypt. destruct (aapie_finalize_aad cx p) as [p1|] eqn:F; [|discriminate]. apply over_size in F. cbn [bind].
  rewrite <- F in Hz |- *. clear F p.
  assert (G : forall c m1 m2 k2, capie_crypt dir B cx (ao_cipher (ap_impl p1)) m1 s n d = Some (c, m2, k2) -> cc_size c = ((asize p1 + n) mod bk_block B)%nat)
    by (intros c m1 m2 k2 E; exact (crypt_size _ _ _ _ _ _ _ _ _ _ _ H0 Hz E)).
  destruct dir.
  - unfold aead_encrypt. change (cc_encrypt B cx) with (capie_crypt Encrypt B cx).
    destruct (capie_crypt Encrypt B cx (ao_cipher (ap_impl p1)) m s n d) as [[[c m2] k2]|] eqn:E; [|discriminate]. cbn [bind].
    apply G in E. destruct (rds m2 d k2); [|discriminate]. cbn [bind]. destruct (poly_update _ _ _ _); [|discriminate]. cbn [bind].
    intros X. injection X as <- _ _. exact E.
  - unfold aead_decrypt. destruct (rds m s n); [|discriminate]. cbn [bind]. destruct (poly_update _ _ _ _); [|discriminate]. cbn [bind].
    change (cc_decrypt B cx) with (capie_crypt Decrypt B cx).
    destruct (capie_crypt Decrypt B cx (ao_cipher (ap_impl p1)) m s n d) as [[[c m2] k2]|] eqn:E; [|discriminate]. cbn [bind].
    apply G in E. intros X. injection X as <- _ _. exact E.
Qed.

Lemma text_step_size cx B dsz key iv aad ct p c : backend_ok cx B -> (dsz <= 16)%nat -> (asize p < bk_block B)%nat ->
  aholds cx B dsz key iv aad ct p -> ap_done p = false -> is_text c -> acall_ok dsz c ->
  let x := atext_in c in
  let r := xor_with (chacha20_byte (pad_to 32 key) 1 (pad_to 12 iv)) (length ct) x in
  exists p', aead_step B cx dsz p c = Some (p', atext_out r c) /\ aholds cx B dsz key iv aad (ct ++ acipher c x r) p' /\
    ap_aad_done p' = true /\ ap_done p' = false /\ asize p' = ((asize p + length x) mod bk_block B)%nat.
Proof.
  intros BO Hd Hz H F Ht Hc x r. destruct (text_lower cx B dsz Hd c Ht Hc) as (m & s & n & d & T & Sx & X).
  destruct (crypt_hold cx B BO dsz Hd (adir c) key iv aad ct p m s n d H F T) as (p' & E & Lr & H' & F1 & F2).
  assert (Lx : length (slice m s n) = n) by (apply slice_length; apply T).
  rewrite Sx in *. exists p'. split; [exact (X _ _ _ Lr E)|]. split; [|split; [exact F1|split; [exact F2|]]].
  - replace (acipher c x r) with (match adir c with Encrypt => r | Decrypt => x end); [exact H'|].
    destruct c as [k v|a|[] m1 s1 n1 d1|[] t1 c1|[] c1|d1 s1|c1 s1|j1 m1]; try destruct Ht; reflexivity.
  - unfold x. rewrite Lx. pose proof (bo_ratio _ _ BO) as Hrr. assert (H0 : (0 < bk_block B)%nat) by (unfold bk_block; lia). exact (acrypt_size _ _ _ _ _ _ _ _ _ _ _ H0 Hz E).
Qed.

Lemma init_size B cx p k v q : (1 <= bk_ratio B)%nat -> aapie_initialize B cx p k v = Some q -> asize q = (64 mod bk_block B)%nat.
Proof.
  intros Hr. unfold aapie_initialize, aead_initialize. destruct (at_off _ 4 _) as [iv|]; [|discriminate]. cbn [bind].
  destruct (cc_initialize cx _ k iv) as [c|] eqn:I; [|discriminate]. cbn [bind].
  assert (Zc : cc_size c = 0%nat).
  { revert I. unfold cc_initialize. repeat match goal with |- context [bind ?x _] => destruct x; cbn [bind]; [|discriminate] end.
    intros I. injection I as <-. reflexivity. }
  destruct (cc_encrypt B cx c _ 0 64 0) as [[[c' m'] n']|] eqn:E; [|discriminate]. cbn [bind].
  destruct (poly_initialize _ _ _ _); [|discriminate]. cbn [bind]. intros X. injection X as <-.
  change (cc_encrypt B cx) with (capie_crypt Encrypt B cx) in E. unfold asize. cbn [ap_impl ao_cipher].
  assert (H0 : (0 < bk_block B)%nat) by (unfold bk_block; lia). assert (H1 : (cc_size c < bk_block B)%nat) by lia.
  rewrite (crypt_size _ _ _ _ _ _ _ _ _ _ _ H0 H1 E), Zc. reflexivity.
Qed.

Lemma nontext_step B B' cx dsz p c : ~ is_text c -> (forall k v, c <> AInit k v) -> aead_step B cx dsz p c = aead_step B' cx dsz p c.
Proof. intros Ht Hi. destruct c; try (destruct (Ht I)); try reflexivity. destruct (Hi _ _ eq_refl). Qed.
Lemma nontext_size B cx dsz p c q o : ~ is_text c -> (forall k v, c <> AInit k v) -> aead_step B cx dsz p c = Some (q, o) -> asize q = asize p.
Proof.
  intros Ht Hi. destruct c as [k v|a|dir m s n d|dir t c|dir c|d s|c s|j m]; try (destruct (Ht I)); [destruct (Hi _ _ eq_refl)|..]; cbn [aead_step].
  - unfold aapie_aad, aead_aad. destruct (poly_update _ _ _ _); [|discriminate]. cbn [bind]. intros E. injection E as <- _. reflexivity.
  - unfold aapie_digest. destruct (aapie_finalize cx p) as [p1|] eqn:F; [|discriminate]. cbn [bind]. apply fin_size in F.
    destruct (aead_digest _ _ _ _ _) as [[x y]|]; [|discriminate]. cbn [bind]. intros E. injection E as <- _. exact F.
  - unfold aapie_digest_c, aapie_digest. destruct (aapie_finalize cx p) as [p1|] eqn:F; [|discriminate]. cbn [bind]. apply fin_size in F.
    destruct (cresize c _) as [c1 z]. destruct (aapie_finalize cx p1) as [p2|] eqn:G; [|discriminate]. cbn [bind]. apply fin_size in G.
    destruct (aead_digest _ _ _ _ _) as [[x y]|]; [|discriminate]. cbn [bind]. intros E. injection E as <- _. congruence.
  - unfold aapie_verify, aapie_digest_static, aapie_digest_c, aapie_digest. destruct (aapie_finalize cx p) as [p1|] eqn:F; [|discriminate]. cbn [bind]. apply fin_size in F.
    destruct (cresize _ _) as [c1 z]. destruct (aapie_finalize cx p1) as [p2|] eqn:G; [|discriminate]. cbn [bind]. apply fin_size in G.
    destruct (aead_digest _ _ _ _ _) as [[x y]|]; [|discriminate]. cbn [bind]. destruct (mem_match_c _ _ _ _ _); [|discriminate]. cbn [bind].
    intros E. injection E as <- _. congruence.
Qed.

Lemma aholds_host cx cx' B dsz key iv aad ct p : cx_big cx = cx_big cx' -> aholds cx B dsz key iv aad ct p -> aholds cx' B dsz key iv aad ct p.
Proof. intros E [Hk Hv Ba Bc C A D M]. rewrite E in M. constructor; assumption. Qed.

Lemma aead_mixed cx0 dsz : (dsz <= 16)%nat -> forall calls r q key iv aad ct p,
  Forall (fun x => backend_ok (snd (fst x)) (fst (fst x)) /\ cx_big (snd (fst x)) = cx_big cx0) calls -> Forall (acall_ok dsz) (map snd calls) ->
  asmooth r q calls -> (1 <= r <= 8)%nat -> asize p = (q mod (64 * r))%nat -> aholds cx0 (ideal r) dsz key iv aad ct p ->
  aorderly (ap_aad_done p) (ap_done p) (length aad) (map snd calls) = true ->
  exists p', run_in (aead_in dsz) p calls = Some (p', aexpected_on (cx_big cx0) dsz key iv aad ct (map snd calls)).
Proof.
  intros Hd. induction calls as [|[[B cx] c] calls IH]; intros r q key iv aad ct p Hb Hc Hs Hr Hz H Ho; [exists p; reflexivity|].
  inversion Hb as [|? ? [BO Hbig] Hb2]; subst. cbn [map snd fst] in *. inversion Hc as [|? ? Hc1 Hc2]; subst.
  cbn [run_in]. unfold aead_in at 1. cbn [fst snd]. pose proof (bo_ratio _ _ BO) as HrB.
  apply (aholds_host cx0 cx) in H; [|symmetry; exact Hbig].
  destruct (call_kind c) as [(k & v & ->)|[(d & ->)|[Ht|Ht]]].
  - cbn [aorderly aexpected_on aead_step asmooth] in *. destruct Hc1 as [Hk Hv].
    destruct (aeq_awf _ _ _ (aholds_aeq _ _ _ _ _ _ _ _ H)) as [W _].
    destruct (ainit cx B BO dsz Hd p p k v W W Hk Hv) as (p1 & _ & E & _ & _ & H' & F1 & F2). rewrite E. cbn [bind].
    apply init_size in E; [|lia].
    destruct (IH (bk_ratio B) 64%nat k v [] [] p1 Hb2 Hc2 Hs HrB E (aholds_ratio B (ideal (bk_ratio B)) _ _ _ _ _ _ eq_refl (aholds_host cx cx0 _ _ _ _ _ _ _ Hbig H'))) as (r' & Er); [rewrite F1, F2; exact Ho|].
    rewrite Er. cbn [bind]. exists r'. reflexivity.
  - assert (S1 : aead_step B cx dsz p (AAad d) = aead_step (ideal r) cx dsz p (AAad d)) by reflexivity.
    cbn [aorderly aexpected_on asmooth] in *. apply andb_true_iff in Ho. destruct Ho as [Ho Ho2].
    apply andb_true_iff in Ho. destruct Ho as [F1 F2]. apply negb_true_iff in F1, F2. rewrite F1, F2 in Ho2.
    destruct (aad_hold cx (ideal r) dsz Hd key iv aad ct p d H Hc1 F1 F2) as (p1 & E & H' & G1 & G2).
    assert (E' : aead_step B cx dsz p (AAad d) = Some (p1, ANone)) by (rewrite S1; cbn [aead_step]; rewrite E; reflexivity).
    rewrite E'. cbn [bind]. apply nontext_size in E'; [|intros []|discriminate].
    destruct (IH r q key iv _ ct p1 Hb2 Hc2 Hs Hr ltac:(congruence) (aholds_host cx cx0 _ _ _ _ _ _ _ Hbig H')) as (r' & Er); [rewrite G1, G2, app_length; exact Ho2|].
    rewrite Er. cbn [bind]. exists r'. reflexivity.
  - assert (Ho' : negb (ap_done p) && aorderly true (ap_done p) (length aad) (map snd calls) = true)
      by (destruct c; try destruct Ht; exact Ho).
    apply andb_true_iff in Ho'. destruct Ho' as [F Ho']. apply negb_true_iff in F. rewrite F in Ho'.
    assert (Hs' : (bk_ratio B = r /\ asmooth r (q + length (atext_in c)) calls) \/ ((q mod (64 * r) = 0)%nat /\ asmooth (bk_ratio B) (length (atext_in c)) calls))
      by (destruct c; try destruct Ht; exact Hs).
    assert (G : exists q', aholds cx B dsz key iv aad ct p /\ asize p = (q' mod bk_block B)%nat /\ asmooth (bk_ratio B) (q' + length (atext_in c)) calls).
    { destruct Hs' as [[Er Hs']|[Hq Hs']].
      - exists q. subst r. split; [exact (aholds_ratio (ideal (bk_ratio B)) B _ _ _ _ _ _ eq_refl H)|]. split; [exact Hz|exact Hs'].
      - exists 0%nat. rewrite Hq in Hz. split; [exact (aholds_empty (ideal r) B _ _ _ _ _ _ Hz H)|]. split; [|exact Hs'].
        rewrite Nat.mod_0_l by (unfold bk_block; lia). exact Hz. }
    destruct G as (q' & H1 & Z1 & S1). clear Hs Hs' Hz H.
    assert (Zb : (asize p < bk_block B)%nat) by (rewrite Z1; apply Nat.mod_upper_bound; unfold bk_block; lia).
    destruct (text_step_size cx B dsz key iv aad ct p c BO Hd Zb H1 F Ht Hc1) as (p1 & E & H' & G1 & G2 & Z2). rewrite E. cbn [bind].
    assert (Z3 : asize p1 = ((q' + length (atext_in c)) mod (64 * bk_ratio B))%nat).
    { rewrite Z2, Z1. unfold bk_block. apply Nat.add_mod_idemp_l. lia. }
    destruct (IH (bk_ratio B) _ key iv aad _ p1 Hb2 Hc2 S1 HrB Z3 (aholds_ratio B (ideal (bk_ratio B)) _ _ _ _ _ _ eq_refl (aholds_host cx cx0 _ _ _ _ _ _ _ Hbig H'))) as (r' & Er); [rewrite G1, G2; exact Ho'|].
    rewrite Er. cbn [bind]. exists r'. destruct c; try destruct Ht; reflexivity.
  - assert (Nt : ~ is_text c) by (destruct c; try discriminate Ht; intros []).
    assert (Ni : forall k v, c <> AInit k v) by (destruct c; try discriminate Ht; discriminate).
    assert (Ho' : (ap_aad_done p || (length aad mod 16 =? 0)%nat) && aorderly (ap_aad_done p) true (length aad) (map snd calls) = true)
      by (destruct c; try discriminate Ht; exact Ho).
    assert (Hs' : asmooth r q calls) by (destruct c; try discriminate Ht; exact Hs).
    apply andb_true_iff in Ho'. destruct Ho' as [F Ho'].
    destruct (tag_step cx (ideal r) dsz Hd key iv aad ct p c H F Ht Hc1) as (p1 & E & H' & G1 & G2).
    rewrite <- (nontext_step B _ _ _ _ _ Nt Ni) in E. rewrite E. cbn [bind]. apply (nontext_size _ _ _ _ _ _ _ Nt Ni) in E.
    destruct (IH r q key iv aad ct p1 Hb2 Hc2 Hs' Hr ltac:(congruence) (aholds_host cx cx0 _ _ _ _ _ _ _ Hbig H')) as (r' & Er); [rewrite G1, G2; exact Ho'|]. rewrite Er. cbn [bind].
    exists r'. rewrite Hbig. destruct c; try discriminate Ht; reflexivity.
Qed.

Lemma aead_mixed_new dsz cx B key iv calls : (dsz <= 16)%nat -> backend_ok cx B -> bytes key -> bytes iv ->
  Forall (fun x => backend_ok (snd (fst x)) (fst (fst x)) /\ cx_big (snd (fst x)) = cx_big cx) calls -> Forall (acall_ok dsz) (map snd calls) ->
  asmooth (bk_ratio B) 64 calls -> aorderly false false 0 (map snd calls) = true ->
  exists p p', aapie_new B cx key iv = Some p /\ run_in (aead_in dsz) p calls = Some (p', aexpected_on (cx_big cx) dsz key iv [] [] (map snd calls)).
Proof.
  intros Hd BO Hk Hv Hbs Hc Hs Ho. pose proof (bo_ratio _ _ BO) as HrB.
  destruct (anew cx B BO dsz Hd key iv Hk Hv) as (p & E & H & F1 & F2). pose proof E as E'. unfold aapie_new, aapie_new_from in E'.
  apply init_size in E'; [|lia].
  destruct (aead_mixed cx dsz Hd calls (bk_ratio B) 64 key iv [] [] p Hbs Hc Hs HrB E' (aholds_ratio B (ideal (bk_ratio B)) _ _ _ _ _ _ eq_refl H)) as (p' & R).
  - rewrite F1, F2. exact Ho.
  - exists p, p'. auto.
Qed.
