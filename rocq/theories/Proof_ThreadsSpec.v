(** What the objects of a program of several threads compute. *)
From Verif Require Import Base BaseLemmas BytesLemmas Spec_Bytes Spec_Sha Spec_ChaCha Spec_Poly Spec_Cipher Spec_Hash Spec_Mac Spec_Hmac Spec_Aead Spec_Kdf Spec_KdfMem
  Model_Memory Model_Update Model_Container Model_Sha Model_Mac Model_Hmac Model_Poly Model_Cipher Model_Aead Model_Kdf Model_KdfMem Model_Threads
  Proof_Memory Proof_Memory2 Proof_Memory3 Proof_ShaApi Proof_ChaChaCore Proof_ChaCha Proof_Aead Proof_Hmac Proof_Kdf Proof_Kdf2 Proof_Kdf3 Proof_KdfMem Proof_Threads
  Prop_Hmac Prop_Poly Prop_Kdf Prop_KdfMem Spec_Threads Spec_Range Proof_Range.
Local Open Scope N_scope.

(** The calls on one object alone. *)
Fixpoint jobrun (B : backend) (cx : ctx) (cs : list scall) (x : thing) (m : list N) : option (thing * list N * list sout) :=
  match cs with
  | [] => Some (x, m, [])
  | c :: cs => '(x, m, o) <- step B cx x m c ;; '(x, m, os) <- jobrun B cx cs x m ;; Some (x, m, o :: os)
  end.
Lemma jobrun_run B cx i : forall cs xs m x' m' os, jobrun B cx cs (xs i) m = Some (x', m', os) ->
  exists xs', run B cx (map (pair i) cs) xs m = Some (xs', m', map (pair i) os).
Proof.
  induction cs as [|c cs IH]; intros xs m x' m' os H; cbn [jobrun] in H; cbn [map run].
  - exists xs. assert (m' = m) by congruence. assert (os = []) by congruence. subst. reflexivity.
  - destruct (step B cx (xs i) m c) as [[[x1 m1] o1]|]; [|discriminate]. cbn [bind] in *.
    destruct (jobrun B cx cs x1 m1) as [[[x2 m2] os2]|] eqn:E; [|discriminate]. cbn [bind] in H.
    assert (S : setat xs i x1 i = x1) by (unfold setat; rewrite Nat.eqb_refl; reflexivity).
    rewrite <- S in E. destruct (IH _ _ _ _ _ E) as (xs' & R). rewrite R. cbn [bind]. exists xs'.
    assert (m' = m2) by congruence. assert (os = o1 :: os2) by congruence. subst. reflexivity.
Qed.
Lemma jobrun_app B cx : forall cs ds x m, jobrun B cx (cs ++ ds) x m =
  ('(x, m, os) <- jobrun B cx cs x m ;; '(x, m, os') <- jobrun B cx ds x m ;; Some (x, m, os ++ os')).
Proof.
  induction cs as [|c cs IH]; intros ds x m; cbn [app jobrun bind].
  - destruct (jobrun B cx ds x m) as [[[x1 m1] o1]|]; reflexivity.
  - destruct (step B cx x m c) as [[[x1 m1] o1]|]; cbn [bind]; [|reflexivity]. rewrite IH.
    destruct (jobrun B cx cs x1 m1) as [[[x2 m2] o2]|]; cbn [bind]; [|reflexivity].
    destruct (jobrun B cx ds x2 m2) as [[[x3 m3] o3]|]; reflexivity.
Qed.

Lemma mine_in {A} i (l : list (nat * A)) c : In (i, c) (mine i l) <-> In (i, c) l.
Proof. unfold mine. rewrite filter_In. cbn [fst]. rewrite Nat.eqb_refl. tauto. Qed.

Lemma conclude cx B xs m tr i cs x' g outs : program cx B xs m tr -> does tr i cs -> jobrun B cx cs (xs i) m = Some (x', g, outs) ->
  length g = length m ->
  exists m', ends cx B xs m tr i m' outs /\ length m' = length m /\
    (forall d n, (d + n <= length m)%nat -> (forall a, within (d, n) a -> exists c, In c cs /\ writes (tag_size (xs i)) c a) -> slice m' d n = slice g d n).
Proof.
  intros [BO Hc Hm Hl Hr Hk] D J Lg.
  destruct (isolated cx B BO (length m) tr xs m Hc Hm Hl Hr Hk eq_refl) as (xs' & m' & os & R & Lm & _ & I & _).
  destruct (I i) as (ys & g' & R2 & Lg' & E). rewrite D in R2.
  destruct (jobrun_run B cx i cs xs m x' g outs J) as (zs & R3). rewrite R3 in R2.
  assert (g' = g) by congruence. assert (Mo : mine i os = map (pair i) outs) by congruence. subst g'.
  exists m'. split; [exists xs', os; split; assumption|]. split; [exact Lm|].
  intros d n Hd W. apply slice_agree; [lia|congruence|]. intros a Ha. apply E.
  destruct (W a Ha) as (c & Hin & Hw). exists c. split; [|right; exact Hw].
  apply mine_in. rewrite D. apply in_map, Hin.
Qed.
Lemma job_legal cx B xs m tr i cs : program cx B xs m tr -> does tr i cs -> forall c, In c cs -> legal (xs i) (length m) c.
Proof.
  intros P D c Hc. apply (pr_legal _ _ _ _ _ P). apply mine_in. rewrite D. apply in_map, Hc.
Qed.

(** *** Hash and MAC *)
Lemma feed_hash B cx al m : bytes m -> forall rs p q, (forall r, In r rs -> inside (length m) r) ->
  foldM (hapie_update cx al) (map (content m) rs) p = Some q ->
  jobrun B cx (map SFeed rs) (THash al p) m = Some (THash al q, m, map (fun _ => SNone) rs).
Proof.
  intros Hm. induction rs as [|[s n] rs IH]; intros p q Hr E; cbn [map foldM jobrun step] in *.
  - congruence.
  - assert (Hi : (s + n <= length m)%nat) by exact (proj1 (Hr (s, n) (or_introl eq_refl))).
    rewrite rds_slice by exact Hi. cbn [bind]. unfold content at 1 in E. cbn [fst snd] in E.
    destruct (hapie_update cx al p (slice m s n)) as [p1|]; [|discriminate]. cbn [bind] in *.
    rewrite (IH p1 q); [reflexivity| |exact E]. intros r Hin. apply Hr. right. exact Hin.
Qed.
Lemma feed_mac B cx M m : bytes m -> forall rs p q, (forall r, In r rs -> inside (length m) r) ->
  foldM (mapie_update cx M) (map (content m) rs) p = Some q ->
  jobrun B cx (map SFeed rs) (TMac M p) m = Some (TMac M q, m, map (fun _ => SNone) rs).
Proof.
  intros Hm. induction rs as [|[s n] rs IH]; intros p q Hr E; cbn [map foldM jobrun step] in *.
  - congruence.
  - assert (Hi : (s + n <= length m)%nat) by exact (proj1 (Hr (s, n) (or_introl eq_refl))).
    rewrite rds_slice by exact Hi. cbn [bind]. unfold content at 1 in E. cbn [fst snd] in E.
    destruct (mapie_update cx M p (slice m s n)) as [p1|]; [|discriminate]. cbn [bind] in *.
    rewrite (IH p1 q); [reflexivity| |exact E]. intros r Hin. apply Hr. right. exact Hin.
Qed.
Lemma chunks_of m rs : bytes m -> (forall r, In r rs -> inside (length m) r) -> Forall chunk (map (content m) rs).
Proof.
  intros Hm H. apply Forall_forall. intros x Hx. apply in_map_iff in Hx. destruct Hx as ([s n] & <- & Hin).
  destruct (H _ Hin) as [H1 H2]. unfold content. cbn [fst snd] in *. split; [apply slice_bytes, Hm|]. rewrite slice_length by exact H1. exact H2.
Qed.
(** A digest function that answers as [returns] and [mreturns] say, at a pointer. *)
Lemma tag_at {A} (f : list N -> option (A * list N * nat)) D m d n : bytes m -> (d + Nat.min n (length D) <= length m)%nat ->
  (forall dst, bytes dst -> (Nat.min n (length D) <= length dst)%nat ->
     exists p, f dst = Some (p, firstn n D ++ skipn (Nat.min n (length D)) dst, Nat.min n (length D))) ->
  exists p, at_mem m d f = Some (p, put m d (firstn n D), Nat.min n (length D)).
Proof.
  intros Hm Hd F. unfold at_mem. destruct (Nat.leb_spec d (length m)); [|lia].
  destruct (F (skipn d m)) as (p & E); [apply bytes_skipn, Hm|rewrite skipn_length; lia|]. rewrite E. cbn [bind]. exists p.
  rewrite (put_in m d (firstn n D) _ (Nat.min n (length D))); [reflexivity|lia|reflexivity|rewrite firstn_length; reflexivity].
Qed.

Lemma hash_job cx B xs m tr i a z rs d n : program cx B xs m tr -> xs i = THash (milo_hash_opt a z) (hapie_new (milo_hash_opt a z)) ->
  does tr i (map SFeed rs ++ [STag d n]) ->
  exists m', ends cx B xs m tr i m' (map (fun _ => SNone) rs ++ [SSize (Nat.min n z)]) /\
    slice m' d (Nat.min n z) = firstn n (firstn z (fips a (concat (map (content m) rs)))).
Proof.
  intros P X D. pose proof (pr_memory _ _ _ _ _ P) as Hm.
  assert (Hz : (z <= sha_digest_size a)%nat).
  { pose proof (pr_objects _ _ _ _ _ P i) as C. rewrite X in C. cbn [constructed] in C. destruct C as [(a' & n' & E & H) _].
    assert (z = n') by (apply (f_equal ha_digest_size) in E; destruct a, a'; exact E).
    assert (a' = a) by (destruct a, a'; try reflexivity; exfalso; apply (f_equal ha_iv) in E; vm_compute in E; discriminate E). subst. exact H. }
  pose proof (job_legal _ _ _ _ _ _ _ P D) as L. rewrite X in L.
  assert (Li : forall r, In r rs -> inside (length m) r).
  { intros r Hr. apply (L (SFeed r)). apply in_or_app. left. apply in_map, Hr. }
  assert (Ld : (d + Nat.min n z <= length m)%nat).
  { assert (Q : legal (THash (milo_hash_opt a z) (hapie_new (milo_hash_opt a z))) (length m) (STag d n)) by (apply L, in_or_app; right; left; reflexivity).
    cbn [legal tag_size] in Q. replace (ha_digest_size (milo_hash_opt a z)) with z in Q by (destruct a; reflexivity). exact Q. }
  pose proof (chunks_of m rs Hm Li) as Ck.
  assert (Hf : (z <= length (fips_full a []))%nat).
  { pose proof (fips_length a [] (Forall_nil _)) as F. unfold fips in F. rewrite firstn_length in F. lia. }
  destruct (digest_size_option cx a z _ Hf Ck) as (p & E1 & E2 & _). unfold hash_stream in E1.
  set (msg := concat (map (content m) rs)) in *.
  assert (Bmsg : bytes msg).
  { unfold msg. clear -Ck. induction Ck as [|x l [Hx _] _ IH]; cbn [concat]; [constructor|]. apply bytes_app. auto. }
  assert (Ez : firstn z (fips_full a msg) = firstn z (fips a msg)).
  { unfold fips. rewrite firstn_firstn. f_equal. lia. }
  rewrite Ez in E2. set (T := firstn z (fips a msg)) in *.
  assert (LT : length T = z) by (unfold T; rewrite firstn_length, fips_length by exact Bmsg; lia).
  destruct (tag_at (fun l => hapie_digest cx (milo_hash_opt a z) p l n) T m d n Hm) as (q & Eq); [rewrite LT; exact Ld|intros dst; exact (E2 dst n)|].
  rewrite LT in Eq.
  assert (J : jobrun B cx (map SFeed rs ++ [STag d n]) (xs i) m
    = Some (THash (milo_hash_opt a z) q, put m d (firstn n T), map (fun _ => SNone) rs ++ [SSize (Nat.min n z)])).
  { rewrite X, jobrun_app, (feed_hash B cx _ m Hm rs _ p Li E1). cbn [bind jobrun step]. rewrite Eq. reflexivity. }
  assert (Lw : length (firstn n T) = Nat.min n z) by (rewrite firstn_length, LT; reflexivity).
  destruct (conclude _ _ _ _ _ _ _ _ _ _ P D J) as (m' & En & Lm & Sl); [rewrite put_length; lia|].
  exists m'. split; [exact En|]. rewrite Sl; [rewrite <- Lw at 1; apply slice_put_same; lia|exact Ld|].
  intros b Hb. exists (STag d n). split; [apply in_or_app; right; left; reflexivity|]. rewrite X. cbn [writes tag_size].
  replace (ha_digest_size (milo_hash_opt a z)) with z by (destruct a; reflexivity). exact Hb.
Qed.

Lemma mac_job cx B xs m tr i M p rs d n key T : program cx B xs m tr -> xs i = TMac M p -> mapie_new cx M key = Some p ->
  (forall ms, Forall chunk ms -> mreturns cx M key ms (T (concat ms))) -> (forall t, bytes t -> length (T t) = ma_digest_size M) ->
  does tr i (map SFeed rs ++ [STag d n]) ->
  exists m', ends cx B xs m tr i m' (map (fun _ => SNone) rs ++ [SSize (Nat.min n (ma_digest_size M))]) /\
    slice m' d (Nat.min n (ma_digest_size M)) = firstn n (T (concat (map (content m) rs))).
Proof.
  intros P X Ep R LT D. pose proof (pr_memory _ _ _ _ _ P) as Hm.
  pose proof (job_legal _ _ _ _ _ _ _ P D) as L. rewrite X in L.
  assert (Li : forall r, In r rs -> inside (length m) r).
  { intros r Hr. apply (L (SFeed r)). apply in_or_app. left. apply in_map, Hr. }
  assert (Ld : (d + Nat.min n (ma_digest_size M) <= length m)%nat).
  { exact (L (STag d n) ltac:(apply in_or_app; right; left; reflexivity)). }
  pose proof (chunks_of m rs Hm Li) as Ck.
  destruct (R _ Ck) as (q0 & E1 & E2 & _). unfold mac_stream in E1. rewrite Ep in E1. cbn [bind] in E1.
  set (msg := concat (map (content m) rs)) in *.
  assert (Bmsg : bytes msg).
  { unfold msg. clear -Ck. induction Ck as [|x l [Hx _] _ IH]; cbn [concat]; [constructor|]. apply bytes_app. auto. }
  specialize (LT _ Bmsg).
  destruct (tag_at (fun l => mapie_digest cx M q0 l n) (T msg) m d n Hm) as (q & Eq); [rewrite LT; exact Ld|intros dst; exact (E2 dst n)|].
  rewrite LT in Eq.
  assert (J : jobrun B cx (map SFeed rs ++ [STag d n]) (xs i) m
    = Some (TMac M q, put m d (firstn n (T msg)), map (fun _ => SNone) rs ++ [SSize (Nat.min n (ma_digest_size M))])).
  { rewrite X, jobrun_app, (feed_mac B cx M m Hm rs _ q0 Li E1). cbn [bind jobrun step]. rewrite Eq. reflexivity. }
  assert (Lw : length (firstn n (T msg)) = Nat.min n (ma_digest_size M)) by (rewrite firstn_length, LT; reflexivity).
  destruct (conclude _ _ _ _ _ _ _ _ _ _ P D J) as (m' & En & Lm & Sl); [rewrite put_length; lia|].
  exists m'. split; [exact En|]. rewrite Sl; [rewrite <- Lw at 1; apply slice_put_same; lia|exact Ld|].
  intros b Hb. exists (STag d n). split; [apply in_or_app; right; left; reflexivity|]. rewrite X. exact Hb.
Qed.

(** *** Cipher *)
Lemma cipher_job cx B xs m tr i key iv o dir s n d : program cx B xs m tr -> xs i = TCipher o -> bytes key -> bytes iv -> capie_new cx key iv = Some o ->
  does tr i [SCrypt dir s n d] ->
  exists m', ends cx B xs m tr i m' [SSize n] /\
    slice m' d n = chacha20 (pad_to 32 key) (iv_counter iv) (iv_nonce iv) (content m (s, n)).
Proof.
  intros P X Hk Hv Eo D. pose proof (pr_memory _ _ _ _ _ P) as Hm. pose proof (pr_backend _ _ _ _ _ P) as BO.
  pose proof (job_legal _ _ _ _ _ _ _ P D (SCrypt dir s n d) (or_introl eq_refl)) as L. rewrite X in L. cbn [legal] in L.
  destruct L as ([Ls _] & [Ld _] & Ha). cbn [fst snd] in Ls, Ld.
  destruct (api_state_ok key iv Hk Hv) as [La W]. destruct (initialize_spec cx B cc_new key iv cc_new_wf Hk Hv) as (o' & E & I).
  unfold capie_new in Eo. assert (o' = o) by congruence. subst o'.
  destruct (crypt_spec cx B BO _ La W dir o 0 m d s n I Hm Ld Ls Ha) as (q & R & _).
  assert (Er : xor_with (st_byte (api_state key iv)) 0 (slice m s n) = chacha20 (pad_to 32 key) (iv_counter iv) (iv_nonce iv) (slice m s n)).
  { apply xor_with_ext. intros j _. unfold api_state. rewrite chacha20_byte_state. reflexivity. }
  rewrite Er in R. unfold content. cbn [fst snd]. set (w := chacha20 (pad_to 32 key) (iv_counter iv) (iv_nonce iv) (slice m s n)) in *.
  assert (Lw : length w = n) by (unfold w, chacha20; rewrite xor_with_length; apply slice_length; exact Ls). clearbody w.
  assert (J : jobrun B cx [SCrypt dir s n d] (xs i) m = Some (TCipher q, put m d w, [SSize n])).
  { rewrite X. cbn [jobrun step]. rewrite R. reflexivity. }
  destruct (conclude _ _ _ _ _ _ _ _ _ _ P D J) as (m' & En & Lm & Sl); [rewrite put_length; lia|].
  exists m'. split; [exact En|]. rewrite Sl; [rewrite <- Lw at 1; apply slice_put_same; lia|exact Ld|].
  intros b Hb. exists (SCrypt dir s n d). split; [left; reflexivity|]. exact Hb.
Qed.

(** *** AEAD *)
Lemma aead_text_octets key iv t : bytes t -> bytes (aead_text key iv t).
Proof. intros H. unfold aead_text. exact (chacha20_bytes key 1 iv t H). Qed.
Lemma aead_start cx B xs m tr i key iv z p dir r s n d rest : program cx B xs m tr -> xs i = TAead z p -> bytes key -> bytes iv -> aapie_new B cx key iv = Some p ->
  does tr i (SFeed r :: SCrypt dir s n d :: rest) ->
  (z <= 16)%nat /\ exists q, let w := aead_text (pad_to 32 key) (pad_to 12 iv) (content m (s, n)) in length w = n /\ bytes w /\ (d + n <= length m)%nat /\
    jobrun B cx [SFeed r; SCrypt dir s n d] (xs i) m = Some (TAead z q, put m d w, [SNone; SSize n]) /\
    aholds cx B z key iv (content m r) (match dir with Encrypt => w | Decrypt => content m (s, n) end) q /\ ap_aad_done q = true.
Proof.
  intros P X Hk Hv Ep D. pose proof (pr_memory _ _ _ _ _ P) as Hm. pose proof (pr_backend _ _ _ _ _ P) as BO.
  pose proof (job_legal _ _ _ _ _ _ _ P D) as L. rewrite X in L.
  pose proof (L (SFeed r) (or_introl eq_refl)) as Lr. pose proof (L (SCrypt dir s n d) (or_intror (or_introl eq_refl))) as Lc.
  cbn [legal] in Lr, Lc. destruct Lc as ([Ls Ns] & [Ld _] & Ha). cbn [fst snd] in Ls, Ns, Ld.
  assert (Hz : (z <= 16)%nat) by (pose proof (pr_objects _ _ _ _ _ P i) as C; rewrite X in C; exact (proj1 C)).
  split; [exact Hz|]. destruct r as [u v].
  assert (Ck : chunk (content m (u, v))).
  { destruct Lr as [H1 H2]. unfold content. cbn [fst snd] in *. split; [apply slice_bytes, Hm|rewrite slice_length by exact H1; exact H2]. }
  destruct (new_aad cx B BO z Hz key iv _ Hk Hv Ck) as (p0 & p1 & E0 & E1 & H & F). assert (p0 = p) by congruence. subst p0.
  destruct (crypt_hold cx B BO z Hz dir key iv _ [] p1 m s n d H F) as (q & E2 & Lw & H' & F1 & F2); [repeat split; assumption|].
  cbn [length app] in *. change (xor_with (chacha20_byte (pad_to 32 key) 1 (pad_to 12 iv)) 0 (slice m s n))
    with (aead_text (pad_to 32 key) (pad_to 12 iv) (content m (s, n))) in *.
  exists q. cbv zeta. set (w := aead_text (pad_to 32 key) (pad_to 12 iv) (content m (s, n))) in *.
  split; [exact Lw|]. split; [unfold w; apply aead_text_octets; apply slice_bytes, Hm|]. split; [exact Ld|].
  split; [|split; [exact H'|exact F1]].
  rewrite X. cbn [jobrun step]. rewrite rds_slice by exact (proj1 Lr). cbn [bind].
  unfold content in E1 at 1. cbn [fst snd] in E1. rewrite E1. cbn [bind step]. rewrite E2. reflexivity.
Qed.
Lemma aead_job cx B xs m tr i key iv z p dir r s n d t k : program cx B xs m tr -> xs i = TAead z p -> bytes key -> bytes iv -> aapie_new B cx key iv = Some p ->
  does tr i [SFeed r; SCrypt dir s n d; STag t k] -> (forall b, within (d, n) b -> ~ within (t, Nat.min k z) b) ->
  let w := aead_text (pad_to 32 key) (pad_to 12 iv) (content m (s, n)) in
  exists m', ends cx B xs m tr i m' [SNone; SSize n; SSize (Nat.min k z)] /\ slice m' d n = w /\
    slice m' t (Nat.min k z) = firstn k (firstn z (aead_tag_on (cx_big cx) (pad_to 32 key) (pad_to 12 iv) (content m r)
      (match dir with Encrypt => w | Decrypt => content m (s, n) end))).
Proof.
  intros P X Hk Hv Ep D Hdis w. pose proof (pr_memory _ _ _ _ _ P) as Hm.
  destruct (aead_start cx B xs m tr i key iv z p dir r s n d [STag t k] P X Hk Hv Ep D) as (Hz & q & Lw & Bw & Ld & J1 & H & F). fold w in Lw, Bw, J1, H. clearbody w.
  assert (Lt : (t + Nat.min k z <= length m)%nat).
  { pose proof (job_legal _ _ _ _ _ _ _ P D (STag t k) (or_intror (or_intror (or_introl eq_refl)))) as L. rewrite X in L. exact L. }
  destruct (aholds_returns cx B z Hz key iv _ _ q H) as (E2 & _); [rewrite F; reflexivity|].
  set (ct := match dir with Encrypt => w | Decrypt => content m (s, n) end) in *. clearbody ct.
  pose proof (ktag_length cx z Hz key iv (content m r) ct) as LT. unfold ktag in LT.
  set (T := firstn z (aead_tag_on (cx_big cx) (pad_to 32 key) (pad_to 12 iv) (content m r) ct)) in *. clearbody T.
  assert (Hm1 : bytes (put m d w)) by (apply put_bytes; assumption).
  assert (L1 : length (put m d w) = length m) by (apply put_length; lia).
  destruct (tag_at (fun l => aapie_digest cx z q l k) T (put m d w) t k Hm1) as (q' & Eq); [rewrite LT, L1; exact Lt|intros dst; exact (E2 dst k)|].
  rewrite LT in Eq.
  assert (J : jobrun B cx [SFeed r; SCrypt dir s n d; STag t k] (xs i) m = Some (TAead z q', put (put m d w) t (firstn k T), [SNone; SSize n; SSize (Nat.min k z)])).
  { change [SFeed r; SCrypt dir s n d; STag t k] with ([SFeed r; SCrypt dir s n d] ++ [STag t k]). rewrite jobrun_app, J1.
    cbn [bind jobrun step]. rewrite Eq. reflexivity. }
  assert (Lf : length (firstn k T) = Nat.min k z) by (rewrite firstn_length, LT; reflexivity).
  destruct (conclude _ _ _ _ _ _ _ _ _ _ P D J) as (m' & En & Lm & Sl); [rewrite put_length; lia|].
  exists m'. split; [exact En|]. split.
  - rewrite Sl; [|exact Ld|intros b Hb; exists (SCrypt dir s n d); split; [right; left; reflexivity|exact Hb]].
    destruct (Nat.eq_dec n 0) as [->|Nn]; [destruct w; [reflexivity|discriminate]|].
    destruct (Nat.eq_dec (Nat.min k z) 0) as [Z|Nz].
    + destruct (firstn k T); [|cbn [length] in Lf; lia]. rewrite put_nil. rewrite <- Lw at 1. apply slice_put_same. lia.
    + rewrite slice_put_other; [rewrite <- Lw at 1; apply slice_put_same; lia|lia|lia|].
      destruct (Compare_dec.le_dec (d + n) t); [lia|]. destruct (Compare_dec.le_dec (t + Nat.min k z) d); [lia|]. exfalso.
      apply (Hdis (Nat.max d t)); unfold within; cbn [fst snd]; lia.
  - rewrite Sl; [rewrite <- Lf at 1; apply slice_put_same; lia|exact Lt|].
    intros b Hb. exists (STag t k). split; [right; right; left; reflexivity|]. rewrite X. exact Hb.
Qed.
Lemma verify_job cx B xs m tr i key iv z p r s n d junk t : program cx B xs m tr -> xs i = TAead z p -> bytes key -> bytes iv -> aapie_new B cx key iv = Some p ->
  does tr i [SFeed r; SCrypt Decrypt s n d; SVerify junk t] -> (forall b, within (d, n) b -> ~ within t b) ->
  let tag := firstn z (aead_tag_on (cx_big cx) (pad_to 32 key) (pad_to 12 iv) (content m r) (content m (s, n))) in
  exists m' e, ends cx B xs m tr i m' [SNone; SSize n; SError e] /\ slice m' d n = aead_text (pad_to 32 key) (pad_to 12 iv) (content m (s, n)) /\
    (content m t = tag -> e = err_none) /\ (content m t <> tag -> e = err_aead_verify).
Proof.
  intros P X Hk Hv Ep D Hdis tag. pose proof (pr_memory _ _ _ _ _ P) as Hm.
  destruct (aead_start cx B xs m tr i key iv z p Decrypt r s n d [SVerify junk t] P X Hk Hv Ep D) as (Hz & q & Lw & Bw & Ld & J1 & H & F).
  set (w := aead_text (pad_to 32 key) (pad_to 12 iv) (content m (s, n))) in *. clearbody w.
  pose proof (job_legal _ _ _ _ _ _ _ P D (SVerify junk t) (or_intror (or_intror (or_introl eq_refl)))) as L. rewrite X in L. cbn [legal tag_size] in L.
  destruct L as ([Li Ni] & Bj & Lj). destruct t as [u v]. cbn [fst snd] in Li, Ni.
  assert (L1 : length (put m d w) = length m) by (apply put_length; lia).
  assert (Es : slice (put m d w) u v = slice m u v).
  { destruct (Nat.eq_dec v 0) as [->|Nv]; [reflexivity|]. destruct (Nat.eq_dec n 0) as [Zn|Nn].
    - assert (w = []) by (destruct w; [reflexivity|cbn [length] in Lw; lia]). subst w. rewrite put_nil. reflexivity.
    - apply slice_put_other; [lia|lia|]. destruct (Compare_dec.le_dec (d + n) u); [lia|]. destruct (Compare_dec.le_dec (u + v) d); [lia|]. exfalso.
      apply (Hdis (Nat.max d u)); unfold within; cbn [fst snd]; lia. }
  destruct (step_verify cx B z Hz key iv (content m r) (content m (s, n)) q junk (slice m u v) H F Bj Lj (slice_bytes m u v Hm)) as (q' & Ev).
  change (ktag cx z key iv (content m r) (content m (s, n))) with tag in Ev.
  set (e := if list_eq_dec N.eq_dec (slice m u v) tag then err_none else err_aead_verify) in *.
  assert (J : jobrun B cx [SFeed r; SCrypt Decrypt s n d; SVerify junk (u, v)] (xs i) m = Some (TAead z q', put m d w, [SNone; SSize n; SError e])).
  { change [SFeed r; SCrypt Decrypt s n d; SVerify junk (u, v)] with ([SFeed r; SCrypt Decrypt s n d] ++ [SVerify junk (u, v)]). rewrite jobrun_app, J1.
    cbn [bind jobrun step]. rewrite rds_slice by lia. cbn [bind]. rewrite Es, Ev. reflexivity. }
  destruct (conclude _ _ _ _ _ _ _ _ _ _ P D J) as (m' & En & Lm & Sl); [exact L1|].
  exists m', e. split; [exact En|]. split; [|split].
  - rewrite Sl; [rewrite <- Lw at 1; apply slice_put_same; lia|exact Ld|intros b Hb; exists (SCrypt Decrypt s n d); split; [right; left; reflexivity|exact Hb]].
  - unfold content, e. cbn [fst snd]. intros E. destruct (list_eq_dec N.eq_dec (slice m u v) tag); [reflexivity|contradiction].
  - unfold content, e. cbn [fst snd]. intros E. destruct (list_eq_dec N.eq_dec (slice m u v) tag); [contradiction|reflexivity].
Qed.

(** *** Key derivation *)
Lemma hk_derive_at_size cx M o m d n o' m' k : hk_derive_at cx M o m d n = Some (o', m', k) -> k = n.
Proof.
  intros H. unfold hk_derive_at in H.
  destruct (if (0 <? hk_size o)%nat then _ else _) as [m0|]; [|discriminate]. cbn [bind] in H.
  destruct (_ =? 0)%nat in H; [congruence|]. destruct (_ =? 0)%nat in H; [discriminate|].
  destruct (if _ : bool then _ else _) as [[[[[h c] m1] b] t]|] in H; [|discriminate]. cbn [bind] in H.
  destruct (at_off _ _ _) as [m2|] in H; [|discriminate]. cbn [bind] in H. congruence.
Qed.
Lemma pb_derive_at_size cx M o m d n o' m' k : pb_derive_at cx M o m d n = Some (o', m', k) -> k = n.
Proof.
  intros H. unfold pb_derive_at in H.
  destruct (if (0 <? pb_size o)%nat then _ else _) as [m0|]; [|discriminate]. cbn [bind] in H.
  destruct (_ =? 0)%nat in H; [congruence|]. destruct (_ =? 0)%nat in H; [discriminate|].
  destruct (pb_blocks_at _ _ _ _ _ _ _ _ _ _) as [[[[h c] m1] b]|] in H; [|discriminate]. cbn [bind] in H.
  destruct (_ <? _)%nat in H; [|congruence].
  destruct (pb_expand _ _ _ _ _ _ _ _ _ _) as [[h' b']|] in H; [|discriminate]. cbn [bind] in H.
  destruct (at_off _ _ _) as [m2|] in H; [|discriminate]. cbn [bind] in H. congruence.
Qed.
Lemma apart_avoids d n (r : range) : (forall b, within r b -> ~ within (d, n) b) -> avoids (d, n) r.
Proof.
  intros Kp. unfold avoids. cbn [fst snd]. destruct r as [u v]. cbn [fst snd].
  destruct (Nat.eq_dec v 0); [tauto|]. destruct (Nat.eq_dec n 0); [tauto|].
  destruct (Compare_dec.le_dec (d + n) u); [tauto|]. destruct (Compare_dec.le_dec (u + v) d); [tauto|]. exfalso.
  apply (Kp (Nat.max d u)); unfold within; cbn [fst snd]; lia.
Qed.
Lemma hkdf_job cx B xs m tr i a z ki ks kf d n : program cx B xs m tr -> xs i = THkdf (mac_hmac (milo_hash a) z) (hk_new _) ->
  (1 <= z <= sha_digest_size a)%nat -> does tr i [SKey ki ks kf; SDerive d n] -> (n <= 255 * z)%nat ->
  exists m', ends cx B xs m tr i m' [SNone; SSize n] /\
    slice m' d n = hkdf (prf a z) z (content m ki) (content m ks) (content m kf) n.
Proof.
  intros P X Hz D Hn. pose proof (pr_memory _ _ _ _ _ P) as Hm.
  pose proof (job_legal _ _ _ _ _ _ _ P D) as L. rewrite X in L.
  destruct (L _ (or_introl eq_refl)) as (L1 & L2 & L3). pose proof (L _ (or_intror (or_introl eq_refl))) as L4. cbn [legal] in L4.
  assert (Kp : forall b, within kf b -> ~ within (d, n) b).
  { intros b Hb. apply (pr_kept _ _ _ _ _ P i d n (SKey ki ks kf) b); [| |exact Hb]; apply mine_in; rewrite D; cbn [map In]; auto. }
  assert (Ck : forall r, inside (length m) r -> has m r (content m r) /\ chunk (content m r)).
  { intros r Hr. split; [exact (has_slice m r Hr)|]. destruct r as [u v]. destruct Hr as [H1 H2]. unfold content. cbn [fst snd] in *.
    split; [apply slice_bytes, Hm|rewrite slice_length by exact H1; exact H2]. }
  destruct (Ck _ L1) as [A1 B1]. destruct (Ck _ L2) as [A2 B2]. destruct (Ck _ L3) as [A3 B3].
  assert (H3 : holds3 m (ki, ks, kf) (content m ki) (content m ks) (content m kf)) by exact (conj A1 (conj A2 (conj A3 (conj B1 (conj B2 B3))))).
  destruct (C62_hkdf cx a z m (ki, ks, kf) _ _ _ [(d, n)] Hz H3 Hm) as (o & o' & E1 & E2).
  - constructor; [exact L4|constructor].
  - constructor; [|constructor]. right. exact (apart_avoids _ _ _ Kp).
  - unfold total. cbn [map fold_right snd]. lia.
  - cbn [derive_run_at laid] in E2.
    destruct (hk_derive_at cx (mac_hmac (milo_hash a) z) o m d n) as [[[o1 m1] k]|] eqn:E3; [|discriminate]. cbn [bind] in E2.
    pose proof (hk_derive_at_size _ _ _ _ _ _ _ _ _ E3) as Ek. subst k. unfold piece in E2. cbn [Nat.add skipn] in E2.
    set (w := hkdf (prf a z) z (content m ki) (content m ks) (content m kf) n) in *.
    assert (m1 = put m d w) by congruence. subst m1.
    assert (Lw : length w = n) by (exact (ko_len _ _ _ _ _ _ _ _ _ (hkdf_ok (milo_hmac_ok cx a z (proj2 Hz)) (hmac_es a z Hz) (hmac_tag_ok a z (proj2 Hz))) m (ki, ks, kf) (content m ki, content m ks, content m kf) n (h3 _ _ _ _ _ H3))).
    assert (J : jobrun B cx [SKey ki ks kf; SDerive d n] (xs i) m = Some (THkdf _ o1, put m d w, [SNone; SSize n])).
    { rewrite X. cbn [jobrun step]. unfold kapie_new in E1. cbn [HKDF kdf_hkdf ka_initialize ka_new fst snd] in E1. rewrite E1. cbn [bind jobrun step]. rewrite E3. reflexivity. }
    clearbody w. destruct (conclude _ _ _ _ _ _ _ _ _ _ P D J) as (m' & En & Lm & Sl); [rewrite put_length; lia|].
    exists m'. split; [exact En|]. rewrite Sl; [rewrite <- Lw at 1; apply slice_put_same; lia|exact L4|].
    intros b Hb. exists (SDerive d n). split; [right; left; reflexivity|exact Hb].
Qed.
Lemma pbkdf2_job cx B xs m tr i a z ki ks it d n : program cx B xs m tr -> xs i = TPbkdf2 (mac_hmac (milo_hash a) z) (pb_new _) ->
  (1 <= z <= sha_digest_size a)%nat -> does tr i [SPass ki ks it; SDerive d n] -> 1 <= it < 2 ^ 32 ->
  exists m', ends cx B xs m tr i m' [SNone; SSize n] /\
    slice m' d n = pbkdf2 (prf a z) z (content m ki) (content m ks) (N.to_nat it) n.
Proof.
  intros P X Hz D Hi. pose proof (pr_memory _ _ _ _ _ P) as Hm.
  pose proof (job_legal _ _ _ _ _ _ _ P D) as L. rewrite X in L.
  destruct (L _ (or_introl eq_refl)) as (L1 & L2). pose proof (L _ (or_intror (or_introl eq_refl))) as L4. cbn [legal] in L4.
  assert (Kp : forall b, within ki b \/ within ks b -> ~ within (d, n) b).
  { intros b Hb. apply (pr_kept _ _ _ _ _ P i d n (SPass ki ks it) b); [| |exact Hb]; apply mine_in; rewrite D; cbn [map In]; auto. }
  assert (Ck : forall r, inside (length m) r -> has m r (content m r) /\ chunk (content m r)).
  { intros r Hr. split; [exact (has_slice m r Hr)|]. destruct r as [u v]. destruct Hr as [H1 H2]. unfold content. cbn [fst snd] in *.
    split; [apply slice_bytes, Hm|rewrite slice_length by exact H1; exact H2]. }
  destruct (Ck _ L1) as [A1 B1]. destruct (Ck _ L2) as [A2 B2].
  assert (H2 : holds2 m (ki, ks, it) (content m ki) (content m ks)) by exact (conj A1 (conj A2 (conj B1 B2))).
  destruct (C62_pbkdf2 cx a z m (ki, ks, it) _ _ [(d, n)] Hz H2 Hi Hm) as (o & o' & E1 & E2).
  - constructor; [exact L4|constructor].
  - constructor; [|constructor]. right. cbn [fst snd]. split; apply apart_avoids; auto.
  - cbn [derive_run_at laid] in E2.
    destruct (pb_derive_at cx (mac_hmac (milo_hash a) z) o m d n) as [[[o1 m1] k]|] eqn:E3; [|discriminate]. cbn [bind] in E2.
    pose proof (pb_derive_at_size _ _ _ _ _ _ _ _ _ E3) as Ek. subst k. unfold piece in E2. cbn [Nat.add skipn snd] in E2.
    assert (Lw : length (pbkdf2 (prf a z) z (content m ki) (content m ks) (N.to_nat it) n) = n).
    { replace (N.to_nat it) with (Nat.max 1 (N.to_nat it)) by lia.
      exact (ko_len _ _ _ _ _ _ _ _ _ (pbkdf2_ok (milo_hmac_ok cx a z (proj2 Hz)) (hmac_es a z Hz) (hmac_tag_ok a z (proj2 Hz))) m (ki, ks, it) (content m ki, content m ks, it) n (h2 _ _ _ _ H2)). }
    set (w := pbkdf2 (prf a z) z (content m ki) (content m ks) (N.to_nat it) n) in *.
    assert (m1 = put m d w) by congruence. subst m1.
    assert (J : jobrun B cx [SPass ki ks it; SDerive d n] (xs i) m = Some (TPbkdf2 _ o1, put m d w, [SNone; SSize n])).
    { rewrite X. cbn [jobrun step]. unfold kapie_new in E1. cbn [PBKDF2 kdf_pbkdf_2 ka_initialize ka_new fst snd] in E1. rewrite E1. cbn [bind jobrun step]. rewrite E3. reflexivity. }
    clearbody w. destruct (conclude _ _ _ _ _ _ _ _ _ _ P D J) as (m' & En & Lm & Sl); [rewrite put_length; lia|].
    exists m'. split; [exact En|]. rewrite Sl; [rewrite <- Lw at 1; apply slice_put_same; lia|exact L4|].
    intros b Hb. exists (SDerive d n). split; [right; left; reflexivity|exact Hb].
Qed.
