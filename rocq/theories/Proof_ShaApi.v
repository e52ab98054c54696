(** Statements of Prop_Sha.v, assembled. *)
From Verif Require Import Base BaseLemmas Spec_Bytes Spec_Sha Model_Memory Model_Update Model_Container Model_Sha Spec_Hash
  BytesLemmas Proof_ShaCore Proof_Soak Proof_Sha Proof_ShaHist.
Local Open Scope N_scope.

Lemma dsz_default a : (ha_digest_size (milo_hash a) <= sha_nst a * sha_word_size a)%nat.
Proof. destruct a; vm_compute; lia. Qed.
Lemma dsz_sha a : ha_digest_size (milo_hash a) = sha_digest_size a.
Proof. destruct a; reflexivity. Qed.
Lemma dsz_opt a d : ha_digest_size (milo_hash_opt a d) = d.
Proof. destruct a; reflexivity. Qed.
Lemma default_ok a : alg_ok a (milo_hash a).
Proof. apply milo_alg_ok. Qed.

Lemma D_fips a m : D_of a (milo_hash a) m = fips a m.
Proof. unfold D_of, fips. rewrite dsz_sha. reflexivity. Qed.

Lemma chunks_bytes ms : Forall chunk ms -> bytes (concat ms).
Proof.
  induction 1 as [|x l [Hb _] _ IH]; [constructor|]. cbn [concat]. apply bytes_app. auto.
Qed.

Lemma fips_length a m : bytes m -> length (fips a m) = sha_digest_size a.
Proof.
  intros H. rewrite <- D_fips. unfold D_of. rewrite (full_len a _ (dsz_default a)) by assumption. apply dsz_sha.
Qed.

Lemma min_static {A} (junk D : list A) (n : nat) : n = Nat.min (Nat.min (length junk) (length D)) (length junk) ->
  firstn n D ++ skipn n junk = firstn (length junk) D ++ skipn (length D) junk.
Proof.
  intros ->. destruct (Nat.le_gt_cases (length junk) (length D)) as [H|H].
  - rewrite (Nat.min_l (length junk)) by lia. rewrite Nat.min_id, skipn_all, (skipn_all2 junk) by lia. reflexivity.
  - rewrite (Nat.min_r (length junk)), Nat.min_l by lia.
    rewrite firstn_all, (firstn_all2 D) by lia. reflexivity.
Qed.

Lemma holds_returns cx a m p al : alg_ok a al -> (ha_digest_size al <= sha_nst a * sha_word_size a)%nat ->
  aholds a m p -> bytes m ->
  forall D, D = D_of a al m ->
  (forall dst size, bytes dst -> (Nat.min size (length D) <= length dst)%nat ->
     exists p', hapie_digest cx al p dst size
       = Some (p', firstn size D ++ skipn (Nat.min size (length D)) dst, Nat.min size (length D))) /\
  (forall l size, bytes l ->
     exists p', hapie_digest_c cx al p (Dynamic l) size
       = Some (p', Dynamic (firstn size D), Nat.min size (length D))) /\
  (forall l size, bytes l ->
     let n := Nat.min (Nat.min size (length D)) (length l) in
     exists p', hapie_digest_c cx al p (Static l) size = Some (p', Static (firstn n D ++ skipn n l), n)) /\
  (forall size, exists p', hapie_digest_new cx al p size = Some (p', firstn size D)) /\
  (forall junk, bytes junk ->
     exists p', hapie_digest_static cx al p junk
       = Some (p', firstn (length junk) D ++ skipn (length D) junk)).
Proof.
  intros AO Hd H Hm D ->.
  assert (L : length (D_of a al m) = ha_digest_size al) by (apply (full_len a al Hd); assumption).
  rewrite L. split; [|split; [|split; [|split]]].
  - intros dst size Hb Hl. apply (ov_ptr a al AO Hd cx m p dst size); assumption.
  - intros l size Hb. apply (ov_dyn a al AO Hd cx m p l size); assumption.
  - intros l size Hb. apply (ov_static a al AO Hd cx m p l size); assumption.
  - intros size. destruct (ov_dyn a al AO Hd cx m p [] size H Hm ltac:(constructor)) as (p' & E).
    exists p'. unfold hapie_digest_new. rewrite E. reflexivity.
  - intros junk Hj. destruct (ov_static a al AO Hd cx m p junk (length junk) H Hm Hj) as (p' & E).
    exists p'. unfold hapie_digest_static. rewrite E. cbn [bind cdata]. rewrite <- L.
    rewrite (min_static junk (D_of a al m)) by reflexivity. reflexivity.
Qed.

Lemma stream_returns cx a al ms : alg_ok a al -> (ha_digest_size al <= sha_nst a * sha_word_size a)%nat ->
  Forall chunk ms -> returns cx al ms (D_of a al (concat ms)).
Proof.
  intros AO Hd Hc. destruct (hash_stream_holds a al AO cx ms Hc) as (p & E & H).
  exists p. split; [exact E|]. apply (holds_returns cx a (concat ms) p al AO Hd H (chunks_bytes ms Hc)). reflexivity.
Qed.

Lemma free_all cx a al m : alg_ok a al -> (ha_digest_size al <= sha_nst a * sha_word_size a)%nat ->
  chunk m -> free_returns cx al m (D_of a al m).
Proof.
  intros AO Hd Hc. destruct (stream_returns cx a al [m] AO Hd ltac:(constructor; [assumption|constructor]))
    as (p & E & H1 & H2 & H3 & H4 & H5).
  unfold hash_stream in E. cbn [foldM] in E.
  destruct (hapie_update cx al (hapie_new al) m) as [q|] eqn:U; [|discriminate E]. injection E as ->.
  cbn [concat] in *. rewrite app_nil_r in *.
  split; [|split; [|split; [|split]]].
  - intros dst size Hb Hl. unfold hash_free_digest. rewrite U. cbn [bind].
    destruct (H1 dst size Hb Hl) as (p' & E). rewrite E. reflexivity.
  - intros l size Hb. unfold hash_free_digest_c. rewrite U. cbn [bind].
    destruct (H2 l size Hb) as (p' & E). rewrite E. reflexivity.
  - intros l size Hb n. unfold hash_free_digest_c. rewrite U. cbn [bind].
    destruct (H3 l size Hb) as (p' & E). unfold n. rewrite E. reflexivity.
  - intros size. unfold hash_free_digest_new. rewrite U. cbn [bind].
    destruct (H4 size) as (p' & E). rewrite E. reflexivity.
  - intros junk Hb. unfold hash_free_digest_static. rewrite U. cbn [bind].
    destruct (H5 junk Hb) as (p' & E). rewrite E. reflexivity.
Qed.

Lemma sha_correct cx a ms : Forall chunk ms -> returns cx (milo_hash a) ms (fips a (concat ms)).
Proof.
  intros H. rewrite <- D_fips. apply stream_returns; [apply default_ok|apply dsz_default|assumption].
Qed.
Lemma sha_free_correct cx a m : chunk m -> free_returns cx (milo_hash a) m (fips a m).
Proof.
  intros H. rewrite <- D_fips. apply free_all; [apply default_ok|apply dsz_default|assumption].
Qed.

(** C14 *)
Lemma split_independent cx a ms dst size : Forall chunk ms -> chunk (concat ms) -> bytes dst ->
  (size <= length dst)%nat ->
  exists p q p' q' r, hash_stream cx (milo_hash a) ms = Some p /\
    hash_stream cx (milo_hash a) [concat ms] = Some q /\
    hapie_digest cx (milo_hash a) p dst size = Some (p', fst r, snd r) /\
    hapie_digest cx (milo_hash a) q dst size = Some (q', fst r, snd r).
Proof.
  intros H1 H2 Hb Hl.
  destruct (sha_correct cx a ms H1) as (p & Ep & Hp & _).
  destruct (sha_correct cx a [concat ms] ltac:(constructor; [assumption|constructor])) as (q & Eq & Hq & _).
  cbn [concat] in Hq. rewrite app_nil_r in Hq.
  destruct (Hp dst size Hb ltac:(lia)) as (p' & E1). destruct (Hq dst size Hb ltac:(lia)) as (q' & E2).
  exists p, q, p', q', (firstn size (fips a (concat ms)) ++ skipn (Nat.min size (length (fips a (concat ms)))) dst,
                        Nat.min size (length (fips a (concat ms)))).
  auto.
Qed.

(** C18-C20, C46 for the library's hashes *)
Lemma milo_digests_after cx a before calls : Forall (hcall_ok (milo_hash a)) before ->
  Forall is_digest calls -> Forall (hcall_ok (milo_hash a)) calls ->
  exists p outs D p', hash_run cx (milo_hash a) (hapie_new (milo_hash a)) before = Some (p, outs) /\
    length D = sha_digest_size a /\ hash_run cx (milo_hash a) p calls = Some (p', map (hprefix D) calls).
Proof.
  intros H1 H2 H3. rewrite <- dsz_sha.
  exact (digests_after a (milo_hash a) (default_ok a) (dsz_default a) cx before calls H1 H2 H3).
Qed.

Lemma milo_run_init cx a before later : Forall (hcall_ok (milo_hash a)) before -> Forall (hcall_ok (milo_hash a)) later ->
  exists p outs0 p' p'' outs, hash_run cx (milo_hash a) (hapie_new (milo_hash a)) before = Some (p, outs0) /\
    hash_run cx (milo_hash a) (hapie_initialize (milo_hash a) p) later = Some (p', outs) /\
    hash_run cx (milo_hash a) (hapie_new (milo_hash a)) later = Some (p'', outs).
Proof.
  intros H1 H2. destruct (run_init a (milo_hash a) (default_ok a) (dsz_default a) cx before later H1 H2)
    as ([p o] & p' & p'' & outs & E). exists p, o, p', p'', outs. exact E.
Qed.

Lemma milo_run_total cx a calls : Forall (hcall_ok (milo_hash a)) calls ->
  exists r, hash_run cx (milo_hash a) (hapie_new (milo_hash a)) calls = Some r.
Proof.
  intros H. destruct (run_total a (milo_hash a) (default_ok a) (dsz_default a) cx (hapie_new (milo_hash a)) calls)
    as (p & o & E & _); [apply new_awf; apply default_ok|assumption|]. eexists. exact E.
Qed.

Lemma milo_orderly cx a calls : Forall (hcall_ok (milo_hash a)) calls -> orderly false calls = true ->
  exists p, hash_run cx (milo_hash a) (hapie_new (milo_hash a)) calls = Some (p, expected (fips a) [] calls).
Proof.
  intros H1 H2.
  destruct (orderly_run a (milo_hash a) (default_ok a) (dsz_default a) cx calls [] (hapie_new (milo_hash a)))
    as (p & E); try assumption.
  - apply aholds_new. apply default_ok.
  - constructor.
  - exists p. rewrite E. unfold fips. rewrite dsz_sha. reflexivity.
Qed.

(** C21 *)
Lemma digest_size_option cx a dsz ms : (dsz <= length (fips_full a []))%nat -> Forall chunk ms ->
  returns cx (milo_hash_opt a dsz) ms (firstn dsz (fips_full a (concat ms))).
Proof.
  intros H Hc.
  assert (H' : (ha_digest_size (milo_hash_opt a dsz) <= sha_nst a * sha_word_size a)%nat).
  { rewrite dsz_opt. change (fips_full a []) with (full a []) in H.
    rewrite (full_length a []) in H by constructor. exact H. }
  pose proof (stream_returns cx a (milo_hash_opt a dsz) ms (milo_alg_ok a dsz) H' Hc) as R.
  unfold D_of in R. rewrite dsz_opt in R. exact R.
Qed.

Lemma copy_words_range stor src : forall n i dst d, copy_words stor dst src i n = Some d -> n = 0%nat \/ (i + n <= length src)%nat.
Proof.
  induction n as [|n IH]; intros i dst d H; [left; reflexivity|right]. cbn [copy_words] in H.
  destruct (rd src i) as [w|] eqn:R; [|discriminate H]. cbn [bind] in H.
  assert (i < length src)%nat by (apply nth_error_Some; unfold rd in R; congruence).
  destruct (stor dst i w) as [d1|]; [|discriminate H]. cbn [bind] in H.
  apply IH in H. lia.
Qed.

Lemma mem_copy_be_overread cx ss dst src n : (0 < ss)%nat -> (length src * ss < n)%nat ->
  mem_copy_be cx 1 ss dst src n = None.
Proof.
  intros Hs H. unfold mem_copy_be. pose proof (Nat.div_mod n ss ltac:(lia)) as E.
  destruct (copy_words _ dst src 0 (n / ss)) as [d|] eqn:C; [|reflexivity]. cbn [bind].
  apply copy_words_range in C. pose proof (Nat.mod_upper_bound n ss ltac:(lia)) as M.
  destruct (Nat.ltb_spec 0 (n mod ss)) as [L|L].
  - replace (rd src (n / ss)) with (@None N); [reflexivity|]. symmetry. apply nth_error_None.
    set (q := (n / ss)%nat) in *. nia.
  - set (q := (n / ss)%nat) in *. exfalso. destruct C as [C|C]; [|nia]. rewrite C in E. lia.
Qed.

Lemma digest_size_overread cx a dsz ms dst size : (length (fips_full a []) < dsz)%nat -> Forall chunk ms ->
  (dsz <= size)%nat ->
  exists p, hash_stream cx (milo_hash_opt a dsz) ms = Some p /\
    hapie_digest cx (milo_hash_opt a dsz) p dst size = None.
Proof.
  intros H Hc Hs. change (fips_full a []) with (full a []) in H. rewrite (full_length a []) in H by constructor.
  destruct (hash_stream_holds a _ (milo_alg_ok a dsz) cx ms Hc) as (p & E & A). exists p. split; [exact E|].
  destruct (aholds_finalize a _ (milo_alg_ok a dsz) cx _ p A) as (q & Eq & _ & _ & W & _).
  unfold hapie_digest. rewrite Eq. cbn [bind]. unfold hash_digest. rewrite dsz_opt, Nat.min_r by lia.
  rewrite (ao_word _ _ (milo_alg_ok a dsz)). destruct (hw_st _ _ W) as [L _].
  rewrite mem_copy_be_overread; [reflexivity|destruct a; cbn; lia|rewrite L; exact H].
Qed.
