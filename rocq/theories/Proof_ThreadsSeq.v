(** Objects used for several messages, in a program of several threads. *)
From Verif Require Import Base BaseLemmas BytesLemmas Spec_Bytes Spec_Sha Spec_ChaCha Spec_Poly Spec_Cipher Spec_Hash Spec_Mac Spec_Hmac Spec_Aead Spec_Test
  Model_Memory Model_Update Model_Container Model_Sha Model_Mac Model_Hmac Model_Poly Model_Cipher Model_Aead Model_Kdf Model_Threads
  Proof_Memory2 Proof_ShaCore Proof_Sha Proof_ShaApi Proof_ChaChaCore Proof_ChaCha Proof_Aead Proof_Threads Proof_ThreadsSpec Proof_Test Proof_Test2
  Spec_Threads Spec_Range Proof_Range.
From Verif Require Proof_ShaHist.
Local Open Scope N_scope.

(** *** A digest at a pointer, from an object that was used before *)
Lemma fed_digest_at cx al F m p dst n : computes cx al F -> fed_with cx al m p -> chunk m -> bytes dst -> (Nat.min n (ha_digest_size al) <= length dst)%nat ->
  exists p', hapie_digest cx al p dst n = Some (p', firstn n (F m) ++ skipn (Nat.min n (length (F m))) dst, Nat.min n (length (F m))) /\ used cx al p'.
Proof.
  intros [HL HC] (calls & ms & outs & H1 & H2 & H3 & H4 & H5) Hm Hj Lj. set (c := HDigest dst n).
  assert (E : calls ++ HInit :: (map HUpdate ms ++ [c]) = (calls ++ HInit :: map HUpdate ms) ++ [c]) by (rewrite <- app_assoc; reflexivity).
  assert (K1 : Forall (hcall_ok al) (calls ++ HInit :: (map HUpdate ms ++ [c]))).
  { rewrite E. apply Forall_app. split; [apply calls_ok; assumption|]. constructor; [split; assumption|constructor]. }
  assert (K2 : orderly false (calls ++ HInit :: (map HUpdate ms ++ [c])) = true) by (rewrite orderly_init, H2; apply orderly_updates).
  destruct (HC _ K1 K2) as (p' & R).
  destruct (expected_init F calls [] (map HUpdate ms ++ [c])) as (x & X & _). rewrite expected_updates in X. cbn [app] in X. rewrite H4 in X.
  pose proof R as R'. rewrite X, E in R.
  change (x ++ ONone :: map (fun _ : list N => ONone) ms ++ expected F m [c]) with (x ++ (ONone :: map (fun _ : list N => ONone) ms) ++ [hprefix (F m) c]) in R.
  rewrite app_assoc in R. pose proof (hash_run_last _ _ _ _ _ _ _ _ H5 _ _ R) as T. unfold c in T. cbn [hash_step hprefix] in T.
  destruct (hapie_digest cx al p dst n) as [[[q d] k]|]; [|discriminate]. cbn [bind] in T.
  exists p'. split; [congruence|]. exists (calls ++ HInit :: (map HUpdate ms ++ [c])), (expected F [] (calls ++ HInit :: (map HUpdate ms ++ [c]))); auto.
Qed.
Lemma mfed_digest_at cx M T key m p dst n : mcomputes cx M T -> mfed cx M T key m p -> chunk key -> chunk m -> bytes dst -> (Nat.min n (ma_digest_size M) <= length dst)%nat ->
  exists p', mapie_digest cx M p dst n = Some (p', firstn n (T key m) ++ skipn (Nat.min n (length (T key m))) dst, Nat.min n (length (T key m))) /\ mused cx M p'.
Proof.
  intros HC (k0 & calls & ms & p0 & outs & H1 & (U1 & U2 & U3) & H3 & H4 & H5 & H6) Hk Hm Hj Lj. set (c := MDigest dst n).
  assert (E : calls ++ (map MUpdate ms ++ [c]) = (calls ++ map MUpdate ms) ++ [c]) by (rewrite <- app_assoc; reflexivity).
  assert (K1 : Forall (mcall_ok chunk (ma_digest_size M)) (calls ++ (map MUpdate ms ++ [c]))).
  { apply Forall_app. split; [exact U1|]. apply Forall_app. split; [apply Forall_map; exact H3|]. constructor; [split; assumption|constructor]. }
  assert (K2 : morderly false (calls ++ (map MUpdate ms ++ [c])) = true) by (apply U2, morderly_updates).
  destruct (proj2 HC k0 _ H1 K1 K2) as (q0 & p' & E0 & R). assert (q0 = p0) by congruence. subst q0.
  destruct (U3 (map MUpdate ms ++ [c])) as (x & X). rewrite mexpected_updates in X. cbn [app] in X. rewrite H4 in X.
  pose proof R as R'. rewrite X, E in R. rewrite mac_run_app, H6 in R. cbn [bind mac_run] in R.
  change (mexpected T key m [c]) with [mprefix (T key m) c] in R. unfold c in R at 1. cbn [mac_step] in R.
  destruct (mapie_digest cx M p dst n) as [[[q d] k]|]; [|discriminate]. cbn [bind] in R.
  assert (q = p') by congruence. subst q.
  assert (Y : outs ++ [ODigest d k] = (x ++ map (fun _ : list N => ONone) ms) ++ [mprefix (T key m) c]) by (rewrite <- app_assoc; congruence).
  apply app_inj_tail in Y. destruct Y as [_ Y]. unfold c in Y. cbn [mprefix hprefix] in Y.
  exists p'. split; [congruence|]. right. exists k0, (calls ++ (map MUpdate ms ++ [c])), p0, (mexpected T k0 [] (calls ++ (map MUpdate ms ++ [c]))); auto.
Qed.

(** *** Sessions *)
Section Sessions.
  Variables (cx : ctx) (B : backend) (z len : nat) (m0 : list N) (Inv : thing -> Prop).
  (** [cs] leaves the outcomes [os] and memories that satisfy [Q], whatever else the memory holds. *)
  Definition session (cs : list scall) (os : list sout) (Q : list N -> Prop) : Prop :=
    (forall x g, Inv x -> bytes g -> length g = len -> (forall c a, In c cs -> touches z c a -> nth a g 0 = nth a m0 0) ->
       exists x' g', jobrun B cx cs x g = Some (x', g', os) /\ Inv x' /\ bytes g' /\ length g' = len /\
         (forall a, (forall c, In c cs -> ~ writes z c a) -> nth a g' 0 = nth a g 0) /\ Q g') /\
    (forall g1 g2, length g1 = len -> length g2 = len -> (forall c a, In c cs -> writes z c a -> nth a g1 0 = nth a g2 0) -> Q g1 -> Q g2).
  Lemma pairs_app (cs ds : list scall) : undisturbed z (cs ++ ds) -> undisturbed z cs /\ undisturbed z ds /\
    forall c d a, In c cs -> In d ds -> writes z c a -> ~ touches z d a.
  Proof.
    unfold undisturbed. induction cs as [|c cs IH]; cbn [app]; intros H.
    - split; [constructor|]. split; [exact H|]. intros c d a [].
    - inversion H as [|? ? H1 H2]; subst. destruct (IH H2) as (A1 & A2 & A3). apply Forall_app in H1 as [F1 F2].
      split; [constructor; assumption|]. split; [exact A2|]. intros c' d a [<-|Hc] Hd; [exact (proj1 (Forall_forall _ _) F2 d Hd a)|exact (A3 c' d a Hc Hd)].
  Qed.
  (** [E e]: calls, outcomes and result of entry [e]. *)
  Lemma sessions {E} (calls : E -> list scall) (outs : E -> list sout) (Q : E -> list N -> Prop) : forall es,
    (forall e, In e es -> session (calls e) (outs e) (Q e)) -> undisturbed z (flat_map calls es) ->
    forall x g, Inv x -> bytes g -> length g = len -> (forall c a, In c (flat_map calls es) -> touches z c a -> nth a g 0 = nth a m0 0) ->
    exists x' g', jobrun B cx (flat_map calls es) x g = Some (x', g', flat_map outs es) /\ Inv x' /\ bytes g' /\ length g' = len /\
      (forall a, (forall c, In c (flat_map calls es) -> ~ writes z c a) -> nth a g' 0 = nth a g 0) /\ Forall (fun e => Q e g') es.
  Proof.
    induction es as [|e es IH]; intros HS HU x g HI Hb Hl Hg.
    - exists x, g. repeat split; try assumption; try reflexivity. constructor.
    - cbn [flat_map] in *. destruct (pairs_app _ _ HU) as (_ & U2 & U3).
      destruct (HS e (or_introl eq_refl)) as [S1 S2].
      destruct (S1 x g HI Hb Hl) as (x1 & g1 & J1 & I1 & B1 & L1 & O1 & Q1); [intros c a Hc; apply Hg; apply in_or_app; left; exact Hc|].
      destruct (IH (fun e' H => HS e' (or_intror H)) U2 x1 g1 I1 B1 L1) as (x2 & g2 & J2 & I2 & B2 & L2 & O2 & Q2).
      { intros c a Hc Ht. rewrite O1; [apply (Hg c); [apply in_or_app; right; exact Hc|exact Ht]|]. intros c' Hc' Hw. exact (U3 c' c a Hc' Hc Hw Ht). }
      exists x2, g2. rewrite jobrun_app, J1. cbn [bind]. rewrite J2. cbn [bind]. split; [reflexivity|]. split; [exact I2|]. split; [exact B2|]. split; [exact L2|]. split.
      + intros a Ha. rewrite O2, O1; [reflexivity| |]; intros c Hc; apply Ha; apply in_or_app; [left|right]; exact Hc.
      + constructor; [|exact Q2]. apply (S2 g1 g2 L1 L2); [|exact Q1]. intros c a Hc Hw. symmetry. apply O2. intros d Hd Hw2.
        apply (U3 c d a Hc Hd Hw). right. exact Hw2.
  Qed.
End Sessions.
Lemma sessions_end cx B xs m tr i {E} (calls : E -> list scall) (outs : E -> list sout) (Q : E -> list N -> Prop) es (Inv : thing -> Prop) : program cx B xs m tr -> Inv (xs i) ->
  does tr i (flat_map calls es) -> undisturbed (tag_size (xs i)) (flat_map calls es) ->
  (forall e, In e es -> session cx B (tag_size (xs i)) (length m) m Inv (calls e) (outs e) (Q e)) ->
  exists m', ends cx B xs m tr i m' (flat_map outs es) /\ Forall (fun e => Q e m') es.
Proof.
  intros P HI D U HS. pose proof (pr_memory _ _ _ _ _ P) as Hm. pose proof (pr_backend _ _ _ _ _ P) as BO.
  destruct (sessions cx B (tag_size (xs i)) (length m) m Inv calls outs Q es HS U (xs i) m HI Hm eq_refl (fun _ _ _ _ => eq_refl)) as (x' & g & J & _ & _ & Lg & _ & HQ).
  destruct (isolated cx B BO (length m) tr xs m (pr_objects _ _ _ _ _ P) Hm (pr_legal _ _ _ _ _ P) (pr_race _ _ _ _ _ P) (pr_kept _ _ _ _ _ P) eq_refl) as (xs' & m' & os & R & Lm & _ & Is & _).
  destruct (Is i) as (ys & g' & R2 & Lg' & Eq). rewrite D in R2.
  destruct (jobrun_run B cx i _ xs m x' g _ J) as (zs & R3). rewrite R3 in R2.
  assert (g' = g) by congruence. assert (Mo : mine i os = map (pair i) (flat_map outs es)) by congruence. subst g'.
  exists m'. split; [exists xs', os; split; assumption|].
  apply Forall_forall. intros e He. apply (proj2 (HS e He) g m' Lg Lm); [|exact (proj1 (Forall_forall _ _) HQ e He)].
  intros c a Hc Hw. symmetry. apply Eq. exists c. split; [|right; exact Hw]. apply mine_in. rewrite D. apply in_map. apply in_flat_map. exists e. split; assumption.
Qed.
Lemma calls_legal cx B xs m tr i cs : program cx B xs m tr -> does tr i cs -> forall c, In c cs -> legal (xs i) (length m) c.
Proof. exact (job_legal cx B xs m tr i cs). Qed.

(** *** Hash *)
Lemma feed_used cx B al F m g : computes cx al F -> bytes g -> length g = length m -> forall rs p fed, (forall r, In r rs -> inside (length m) r) ->
  (forall r a, In r rs -> within r a -> nth a g 0 = nth a m 0) -> fed_with cx al fed p ->
  exists q, jobrun B cx (map SFeed rs) (THash al p) g = Some (THash al q, g, map (fun _ => SNone) rs) /\ fed_with cx al (fed ++ concat (map (content m) rs)) q.
Proof.
  intros HC Hb Hl. induction rs as [|[s n] rs IH]; intros p fed Hr Hg Hf.
  - exists p. cbn [map concat jobrun]. rewrite app_nil_r. split; [reflexivity|exact Hf].
  - destruct (Hr (s, n) (or_introl eq_refl)) as [Hi Hn]. cbn [fst snd] in Hi, Hn.
    assert (Es : slice g s n = slice m s n) by (apply slice_agree; [lia|exact Hl|intros a Ha; apply (Hg (s, n)); [left; reflexivity|exact Ha]]).
    destruct (fed_update cx al F fed p (slice m s n) HC Hf) as (p1 & E1 & F1).
    { rewrite <- Es. split; [apply slice_bytes, Hb|rewrite slice_length by lia; exact Hn]. }
    destruct (IH p1 (fed ++ slice m s n) (fun r H => Hr r (or_intror H)) (fun r a H => Hg r a (or_intror H)) F1) as (q & Eq & Fq).
    exists q. cbn [map jobrun step]. rewrite rds_slice by lia. cbn [bind]. rewrite Es, E1. cbn [bind]. rewrite Eq. cbn [bind]. split; [reflexivity|].
    cbn [map concat]. change (content m (s, n)) with (slice m s n). rewrite app_assoc. exact Fq.
Qed.
Lemma nth_put (m : list N) d w a : (d + length w <= length m)%nat -> ~ within (d, length w) a -> nth a (put m d w) 0 = nth a m 0.
Proof. exact (nth_put_out m w d a). Qed.
Lemma hash_session cx B al F m e : computes cx al F -> (forall t, bytes t -> bytes (F t)) -> bytes m -> (forall c, In c (hash_calls e) -> legal (THash al (hapie_new al)) (length m) c) ->
  let '(rs, d, n) := e in N.of_nat (length (concat (map (content m) rs))) < 2 ^ 64 ->
  session cx B (ha_digest_size al) (length m) m (fun x => exists p, x = THash al p /\ used cx al p) (hash_calls e)
    (SNone :: map (fun _ => SNone) rs ++ [SSize (Nat.min n (ha_digest_size al))])
    (fun g => content g (d, Nat.min n (ha_digest_size al)) = firstn n (F (concat (map (content m) rs)))).
Proof.
  destruct e as [[rs d] n]. cbn [hash_calls]. intros HC HF Hm L Hlen. set (msg := concat (map (content m) rs)) in *. set (z := ha_digest_size al) in *.
  assert (Li : forall r, In r rs -> inside (length m) r) by (intros r Hr; apply (L (SFeed r)); right; apply in_or_app; left; apply in_map, Hr).
  assert (Ld : (d + Nat.min n z <= length m)%nat) by (apply (L (STag d n)); right; apply in_or_app; right; left; reflexivity).
  assert (Cm : chunk msg).
  { split; [|exact Hlen]. pose proof (chunks_of m rs Hm Li) as Ck. unfold msg. clear -Ck. induction Ck as [|x l [Hx _] _ IH]; cbn [map concat]; [constructor|]. apply bytes_app. auto. }
  assert (LT : length (F msg) = z) by exact (proj1 HC msg Cm).
  split.
  - intros x g (p & -> & Up) Hb Hl Hg.
    destruct (feed_used cx B al F m g HC Hb Hl rs (hapie_initialize al p) [] Li) as (q & Jq & Fq);
      [intros r a Hr Ha; apply (Hg (SFeed r)); [right; apply in_or_app; left; apply in_map, Hr|left; exact Ha]|exact (used_init cx al p Up)|].
    cbn [app] in Fq. fold msg in Fq.
    assert (Tg : exists p', at_mem g d (fun l => hapie_digest cx al q l n) = Some (p', put g d (firstn n (F msg)), Nat.min n z) /\ used cx al p').
    { unfold at_mem. destruct (Nat.leb_spec d (length g)); [|lia].
      destruct (fed_digest_at cx al F msg q (skipn d g) n HC Fq Cm) as (p' & E & Up'); [apply bytes_skipn, Hb|fold z; rewrite skipn_length; lia|].
      rewrite E. cbn [bind]. exists p'. split; [|exact Up']. rewrite LT. rewrite (put_in g d (firstn n (F msg)) _ (Nat.min n z)); [reflexivity|lia|reflexivity|rewrite firstn_length, LT; reflexivity]. }
    destruct Tg as (p' & Eg & Up'). assert (Lf : length (firstn n (F msg)) = Nat.min n z) by (rewrite firstn_length, LT; reflexivity).
    exists (THash al p'), (put g d (firstn n (F msg))). split.
    { cbn [jobrun step bind]. rewrite jobrun_app, Jq. cbn [bind jobrun step]. rewrite Eg. cbn [bind]. reflexivity. }
    split; [exists p'; split; [reflexivity|exact Up']|]. split; [apply put_bytes; [exact Hb|apply bytes_firstn, HF, Cm]|].
    split; [rewrite put_length; lia|]. split.
    + intros a Ha. apply nth_put; [lia|]. rewrite Lf. intros W. apply (Ha (STag d n)); [right; apply in_or_app; right; left; reflexivity|]. exact W.
    + unfold content. cbn [fst snd]. rewrite <- Lf at 1. apply slice_put_same. lia.
  - intros g1 g2 L1 L2 H <-. unfold content. cbn [fst snd]. apply slice_agree; [lia|congruence|].
    intros a Ha. symmetry. apply (H (STag d n)); [right; apply in_or_app; right; left; reflexivity|exact Ha].
Qed.

(** *** MAC *)
Lemma feed_mused cx B M T key m g : mcomputes cx M T -> bytes g -> length g = length m -> forall rs p fed, (forall r, In r rs -> inside (length m) r) ->
  (forall r a, In r rs -> within r a -> nth a g 0 = nth a m 0) -> mfed cx M T key fed p ->
  exists q, jobrun B cx (map SFeed rs) (TMac M p) g = Some (TMac M q, g, map (fun _ => SNone) rs) /\ mfed cx M T key (fed ++ concat (map (content m) rs)) q.
Proof.
  intros HC Hb Hl. induction rs as [|[s n] rs IH]; intros p fed Hr Hg Hf.
  - exists p. cbn [map concat jobrun]. rewrite app_nil_r. split; [reflexivity|exact Hf].
  - destruct (Hr (s, n) (or_introl eq_refl)) as [Hi Hn]. cbn [fst snd] in Hi, Hn.
    assert (Es : slice g s n = slice m s n) by (apply slice_agree; [lia|exact Hl|intros a Ha; apply (Hg (s, n)); [left; reflexivity|exact Ha]]).
    destruct (mfed_update cx M T HC key fed p (slice m s n) Hf) as (p1 & E1 & F1).
    { rewrite <- Es. split; [apply slice_bytes, Hb|rewrite slice_length by lia; exact Hn]. }
    destruct (IH p1 (fed ++ slice m s n) (fun r H => Hr r (or_intror H)) (fun r a H => Hg r a (or_intror H)) F1) as (q & Eq & Fq).
    exists q. cbn [map jobrun step]. rewrite rds_slice by lia. cbn [bind]. rewrite Es, E1. cbn [bind]. rewrite Eq. cbn [bind]. split; [reflexivity|].
    cbn [map concat]. change (content m (s, n)) with (slice m s n). rewrite app_assoc. exact Fq.
Qed.
Lemma mac_session cx B M p0 T m e : mcomputes cx M T -> (forall k t, chunk k -> bytes t -> bytes (T k t)) -> bytes m -> (forall c, In c (mac_calls e) -> legal (TMac M p0) (length m) c) ->
  let '(k, rs, d, n) := e in N.of_nat (length (concat (map (content m) rs))) < 2 ^ 64 ->
  session cx B (ma_digest_size M) (length m) m (fun x => exists p, x = TMac M p /\ mused cx M p) (mac_calls e)
    (SNone :: map (fun _ => SNone) rs ++ [SSize (Nat.min n (ma_digest_size M))])
    (fun g => content g (d, Nat.min n (ma_digest_size M)) = firstn n (T (content m k) (concat (map (content m) rs)))).
Proof.
  destruct e as [[[[ks kn] rs] d] n]. cbn [mac_calls]. intros HC HF Hm L Hlen. set (msg := concat (map (content m) rs)) in *. set (z := ma_digest_size M) in *.
  assert (Lk : inside (length m) (ks, kn)) by (apply (L (SInit (ks, kn) (0, 0)%nat)); left; reflexivity).
  assert (Li : forall r, In r rs -> inside (length m) r) by (intros r Hr; apply (L (SFeed r)); right; apply in_or_app; left; apply in_map, Hr).
  assert (Ld : (d + Nat.min n z <= length m)%nat) by (apply (L (STag d n)); right; apply in_or_app; right; left; reflexivity).
  assert (Cm : chunk msg).
  { split; [|exact Hlen]. pose proof (chunks_of m rs Hm Li) as Ck. unfold msg. clear -Ck. induction Ck as [|x l [Hx _] _ IH]; cbn [map concat]; [constructor|]. apply bytes_app. auto. }
  destruct Lk as [Lk Nk]. cbn [fst snd] in Lk, Nk. change (content m (ks, kn)) with (slice m ks kn). set (key := slice m ks kn).
  assert (Ck : chunk key) by (split; [apply slice_bytes, Hm|unfold key; rewrite slice_length by lia; exact Nk]).
  assert (LT : length (T key msg) = z) by exact (proj1 HC key msg Ck Cm).
  split.
  - intros x g (p & -> & Up) Hb Hl Hg.
    assert (Ek : slice g ks kn = key) by (apply slice_agree; [lia|exact Hl|intros a Ha; apply (Hg (SInit (ks, kn) (0, 0)%nat)); [left; reflexivity|left; left; exact Ha]]).
    destruct (mused_init cx M T HC p key Ck Up) as (p1 & E1 & F1).
    destruct (feed_mused cx B M T key m g HC Hb Hl rs p1 [] Li) as (q & Jq & Fq);
      [intros r a Hr Ha; apply (Hg (SFeed r)); [right; apply in_or_app; left; apply in_map, Hr|left; exact Ha]|exact F1|].
    cbn [app] in Fq. fold msg in Fq.
    assert (Tg : exists p', at_mem g d (fun l => mapie_digest cx M q l n) = Some (p', put g d (firstn n (T key msg)), Nat.min n z) /\ mused cx M p').
    { unfold at_mem. destruct (Nat.leb_spec d (length g)); [|lia].
      destruct (mfed_digest_at cx M T key msg q (skipn d g) n HC Fq Ck Cm) as (p' & E & Up'); [apply bytes_skipn, Hb|fold z; rewrite skipn_length; lia|].
      rewrite E. cbn [bind]. exists p'. split; [|exact Up']. rewrite LT. rewrite (put_in g d (firstn n (T key msg)) _ (Nat.min n z)); [reflexivity|lia|reflexivity|rewrite firstn_length, LT; reflexivity]. }
    destruct Tg as (p' & Eg & Up'). assert (Lf : length (firstn n (T key msg)) = Nat.min n z) by (rewrite firstn_length, LT; reflexivity).
    exists (TMac M p'), (put g d (firstn n (T key msg))). split.
    { cbn [jobrun step]. rewrite rds_slice by lia. rewrite Ek. cbn [bind]. rewrite E1. cbn [bind]. rewrite jobrun_app, Jq. cbn [bind jobrun step]. rewrite Eg. cbn [bind]. reflexivity. }
    split; [exists p'; split; [reflexivity|exact Up']|]. split; [apply put_bytes; [exact Hb|apply bytes_firstn, HF; [exact Ck|apply Cm]]|].
    split; [rewrite put_length; lia|]. split.
    + intros a Ha. apply nth_put; [lia|]. rewrite Lf. intros W. apply (Ha (STag d n)); [right; apply in_or_app; right; left; reflexivity|]. exact W.
    + unfold content. cbn [fst snd]. rewrite <- Lf at 1. apply slice_put_same. lia.
  - intros g1 g2 L1 L2 H <-. unfold content. cbn [fst snd]. apply slice_agree; [lia|congruence|].
    intros a Ha. symmetry. apply (H (STag d n)); [right; apply in_or_app; right; left; reflexivity|exact Ha].
Qed.

(** *** Cipher *)
Lemma outputs_agree (g1 g2 : list N) l : length g1 = length g2 -> (forall c, In c (crypts l) -> forall o, legal (TCipher o) (length g1) c) ->
  (forall c a, In c (crypts l) -> writes 0 c a -> nth a g1 0 = nth a g2 0) -> outputs_of g1 l = outputs_of g2 l.
Proof.
  intros Hl. induction l as [|[[[dir s] n] d] l IH]; intros L H; [reflexivity|]. unfold outputs_of in *. cbn [map concat]. f_equal.
  - assert (Q : legal (TCipher cc_new) (length g1) (SCrypt dir s n d)) by (apply L; left; reflexivity). cbn [legal] in Q. destruct Q as (_ & [Ld _] & _). cbn [fst snd] in Ld.
    unfold content. cbn [fst snd]. apply slice_agree; [lia|exact Hl|]. intros a Ha. apply (H (SCrypt dir s n d)); [left; reflexivity|exact Ha].
  - apply IH; [intros c Hc; apply L; right; exact Hc|intros c a Hc; apply H; right; exact Hc].
Qed.
Lemma crypts_run cx B st m : backend_ok cx B -> length st = 16%nat -> words 32 st -> forall l pos o g, stream_at B st pos o -> bytes g -> length g = length m ->
  (forall c, In c (crypts l) -> forall o, legal (TCipher o) (length m) c) -> undisturbed 0 (crypts l) ->
  (forall c a, In c (crypts l) -> touches 0 c a -> nth a g 0 = nth a m 0) ->
  exists q g' pos', jobrun B cx (crypts l) (TCipher o) g = Some (TCipher q, g', crypt_outs l) /\ stream_at B st pos' q /\ bytes g' /\ length g' = length m /\
    (forall a, (forall c, In c (crypts l) -> ~ writes 0 c a) -> nth a g' 0 = nth a g 0) /\
    outputs_of g' l = xor_with (st_byte st) pos (inputs_of m l).
Proof.
  intros BO Ls Ws. induction l as [|[[[dir s] n] d] l IH]; intros pos o g Ho Hb Hl L U Hg.
  - exists o, g, pos. repeat split; try assumption.
  - assert (Q : legal (TCipher cc_new) (length m) (SCrypt dir s n d)) by (apply L; left; reflexivity). cbn [legal] in Q.
    destruct Q as ([Hs _] & [Hd _] & Ha). cbn [fst snd] in Hs, Hd.
    destruct (crypt_spec cx B BO st Ls Ws dir o pos g d s n Ho Hb ltac:(lia) ltac:(lia) Ha) as (o1 & E1 & Ho1).
    assert (Es : slice g s n = slice m s n) by (apply slice_agree; [lia|exact Hl|intros a Ha'; apply (Hg (SCrypt dir s n d)); [left; reflexivity|left; exact Ha']]).
    rewrite Es in E1. remember (xor_with (st_byte st) pos (slice m s n)) as w eqn:Ew.
    assert (Lw : length w = n) by (rewrite Ew, xor_with_length; apply slice_length; lia).
    assert (Bw : bytes w) by (rewrite Ew; apply xor_with_bytes; [intros j; apply st_byte_byte|rewrite <- Es; apply slice_bytes, Hb]). subst n.
    cbn [crypts map] in U. inversion U as [|? ? U1 U2]; subst. fold (crypts l) in U1, U2.
    assert (Un : forall c a, In c (crypts l) -> within (d, length w) a -> ~ touches 0 c a).
    { intros c a Hc Hw. exact (proj1 (Forall_forall _ _) U1 c Hc a Hw). }
    destruct (IH (pos + length w)%nat o1 (put g d w)) as (q & g' & pos' & J & Hq & Bg & Lg & O & R).
    + exact Ho1.
    + apply put_bytes; assumption.
    + rewrite put_length; lia.
    + intros c Hc. apply L. right. exact Hc.
    + exact U2.
    + intros c a Hc Ht. rewrite nth_put; [apply (Hg c); [right; exact Hc|exact Ht]|lia|]. intros W. exact (Un c a Hc W Ht).
    + exists q, g', pos'. split.
      { cbn [crypts map jobrun step]. rewrite E1. cbn [bind]. fold (crypts l). rewrite J. cbn [bind crypt_outs map]. reflexivity. }
      split; [exact Hq|]. split; [exact Bg|]. split; [exact Lg|]. split.
      * intros a Ha'. rewrite O; [apply nth_put; [lia|]|].
        -- exact (Ha' (SCrypt dir s (length w) d) (or_introl eq_refl)).
        -- intros c Hc. apply Ha'. right. exact Hc.
      * unfold outputs_of, inputs_of in *. cbn [map concat]. rewrite R, xor_with_app.
        change (content m (s, length w)) with (slice m s (length w)). rewrite <- Ew. rewrite (slice_length m s (length w)) by lia. f_equal.
        unfold content. cbn [fst snd]. transitivity (slice (put g d w) d (length w)); [|apply slice_put_same; lia].
        apply slice_agree; [lia|rewrite put_length; lia|]. intros a Hw. apply O. intros c Hc Hc2. apply (Un c a Hc Hw). right. exact Hc2.
Qed.
Lemma cipher_session cx B m e : backend_ok cx B -> bytes m -> (forall c, In c (cipher_calls e) -> forall o, legal (TCipher o) (length m) c) -> undisturbed 0 (cipher_calls e) ->
  let '(k, v, l) := e in
  session cx B 0 (length m) m (fun x => exists o, x = TCipher o /\ cc_wf o) (cipher_calls e) (SNone :: crypt_outs l)
    (fun g => outputs_of g l = chacha20 (pad_to 32 (content m k)) (iv_counter (content m v)) (iv_nonce (content m v)) (inputs_of m l)).
Proof.
  destruct e as [[[ks kn] [vs vn]] l]. cbn [cipher_calls]. intros BO Hm L U.
  destruct (L (SInit (ks, kn) (vs, vn)) (or_introl eq_refl) cc_new) as [[Lk _] [Lv _]]. cbn [fst snd] in Lk, Lv.
  inversion U as [|? ? _ U2]; subst. change (content m (ks, kn)) with (slice m ks kn). change (content m (vs, vn)) with (slice m vs vn).
  set (key := slice m ks kn). set (iv := slice m vs vn).
  assert (Bk : bytes key) by apply slice_bytes, Hm. assert (Bv : bytes iv) by apply slice_bytes, Hm.
  destruct (api_state_ok key iv Bk Bv) as [La W]. split.
  - intros x g (o & -> & Ho) Hb Hl Hg.
    assert (Ek : slice g ks kn = key) by (apply slice_agree; [lia|exact Hl|intros a Ha; apply (Hg (SInit (ks, kn) (vs, vn))); [left; reflexivity|left; left; exact Ha]]).
    assert (Ev : slice g vs vn = iv) by (apply slice_agree; [lia|exact Hl|intros a Ha; apply (Hg (SInit (ks, kn) (vs, vn))); [left; reflexivity|left; right; exact Ha]]).
    destruct (initialize_spec cx B o key iv Ho Bk Bv) as (o1 & E1 & I1).
    destruct (crypts_run cx B _ m BO La W l 0 o1 g I1 Hb Hl (fun c H => L c (or_intror H)) U2 (fun c a H => Hg c a (or_intror H))) as (q & g' & pos' & J & Hq & Bg & Lg & O & R).
    exists (TCipher q), g'. split.
    { cbn [jobrun step]. rewrite !rds_slice by lia. rewrite Ek, Ev. cbn [bind]. rewrite E1. cbn [bind]. rewrite J. reflexivity. }
    split; [exists q; split; [reflexivity|exact (stream_at_wf B _ _ q La W Hq)]|]. split; [exact Bg|]. split; [exact Lg|]. split.
    + intros a Ha. apply O. intros c Hc. apply Ha. right. exact Hc.
    + rewrite R. apply xor_with_ext. intros j _. unfold api_state. rewrite chacha20_byte_state. reflexivity.
  - intros g1 g2 L1 L2 H <-. symmetry. apply outputs_agree; [congruence|rewrite L1; intros c Hc; apply L; right; exact Hc|intros c a Hc; apply H; right; exact Hc].
Qed.

(** *** For the theorems *)
Lemma milo_opt_size cx B xs m tr i a z : program cx B xs m tr -> xs i = THash (milo_hash_opt a z) (hapie_new (milo_hash_opt a z)) -> (z <= sha_digest_size a)%nat.
Proof.
  intros P X. pose proof (pr_objects _ _ _ _ _ P i) as C. rewrite X in C. cbn [constructed] in C. destruct C as [(a' & n' & E & H) _].
  assert (z = n') by (apply (f_equal ha_digest_size) in E; destruct a, a'; exact E).
  assert (a' = a) by (destruct a, a'; try reflexivity; exfalso; apply (f_equal ha_iv) in E; vm_compute in E; discriminate E). subst. exact H.
Qed.
Lemma milo_opt_computes cx a z : (z <= sha_digest_size a)%nat -> computes cx (milo_hash_opt a z) (fun t => firstn z (fips a t)).
Proof.
  intros Hz. assert (Ez : ha_digest_size (milo_hash_opt a z) = z) by (destruct a; reflexivity). split.
  - intros t [Ht _]. rewrite firstn_length, fips_length by exact Ht. lia.
  - intros calls Hc Ho.
    assert (H' : (ha_digest_size (milo_hash_opt a z) <= sha_nst a * sha_word_size a)%nat) by (rewrite Ez; destruct a; cbn in *; lia).
    destruct (Proof_ShaHist.orderly_run a (milo_hash_opt a z) (milo_alg_ok a z) H' cx calls [] (hapie_new (milo_hash_opt a z))) as (p & E); try assumption.
    + apply Proof_Sha.aholds_new. apply milo_alg_ok.
    + constructor.
    + exists p. rewrite E. f_equal. f_equal. unfold Proof_ShaHist.D_of. rewrite Ez.
      assert (Ef : forall fed, firstn z (fips_full a fed) = firstn z (fips a fed)) by (intros fed; unfold fips; rewrite firstn_firstn; f_equal; lia).
      assert (G : forall cs fed, expected (fun t => firstn z (fips_full a t)) fed cs = expected (fun t => firstn z (fips a t)) fed cs).
      { induction cs as [|c cs IH]; intros fed; [reflexivity|]. destruct c; cbn [expected]; rewrite IH, ?Ef; reflexivity. }
      apply G.
Qed.
Lemma undisturbed_part {E} z (calls : E -> list scall) e : forall es, undisturbed z (flat_map calls es) -> In e es -> undisturbed z (calls e).
Proof.
  induction es as [|x es IH]; intros U []; cbn [flat_map] in U; destruct (pairs_app _ _ _ U) as (U1 & U2 & _); [subst; exact U1|exact (IH U2 H)].
Qed.
Lemma mac_messages cx B xs m tr i M p T es : mcomputes cx M T -> (forall k t, chunk k -> bytes t -> bytes (T k t)) -> program cx B xs m tr -> xs i = TMac M p ->
  does tr i (flat_map mac_calls es) -> undisturbed (ma_digest_size M) (flat_map mac_calls es) ->
  Forall (fun '(k, rs, d, n) => N.of_nat (length (concat (map (content m) rs))) < 2 ^ 64) es ->
  exists m', ends cx B xs m tr i m' (flat_map (fun '(k, rs, d, n) => SNone :: map (fun _ => SNone) rs ++ [SSize (Nat.min n (ma_digest_size M))]) es) /\
    Forall (fun '(k, rs, d, n) => content m' (d, Nat.min n (ma_digest_size M)) = firstn n (T (content m k) (concat (map (content m) rs)))) es.
Proof.
  intros HC HF P X D U Hl. pose proof (pr_objects _ _ _ _ _ P i) as C. rewrite X in C. destruct C as (_ & key & Hk & Ep).
  apply (sessions_end cx B xs m tr i mac_calls (fun '(k, rs, d, n) => SNone :: map (fun _ => SNone) rs ++ [SSize (Nat.min n (ma_digest_size M))])
    (fun e g => let '(k, rs, d, n) := e in content g (d, Nat.min n (ma_digest_size M)) = firstn n (T (content m k) (concat (map (content m) rs)))) es
    (fun x => exists p, x = TMac M p /\ mused cx M p) P).
  - rewrite X. exists p. split; [reflexivity|]. right. exists key, [], p, []. split; [exact Hk|]. split; [constructor|]. split; [reflexivity|]. split; [exact Ep|reflexivity].
  - exact D.
  - rewrite X. exact U.
  - intros e He. pose proof (calls_legal cx B xs m tr i _ P D) as L. rewrite X in L |- *. cbn [tag_size].
    pose proof (mac_session cx B M p T m e HC HF (pr_memory _ _ _ _ _ P)) as Se.
    specialize (Se (fun c Hc => L c (proj2 (in_flat_map _ _ _) (ex_intro _ e (conj He Hc))))).
    pose proof (proj1 (Forall_forall _ _) Hl e He) as Hle. destruct e as [[[k rs] d] n]. exact (Se Hle).
Qed.

(** *** AEAD *)
Section AeadSeq.
  Variables (cx : ctx) (B : backend) (BO : backend_ok cx B) (z : nat) (Hz : (z <= 16)%nat).
  Lemma feed_aad key iv m g : bytes g -> length g = length m -> forall rs p fed, (forall r, In r rs -> inside (length m) r) ->
    (forall r a, In r rs -> within r a -> nth a g 0 = nth a m 0) -> aholds cx B z key iv fed [] p -> ap_aad_done p = false -> ap_done p = false ->
    exists q, jobrun B cx (map SFeed rs) (TAead z p) g = Some (TAead z q, g, map (fun _ => SNone) rs) /\
      aholds cx B z key iv (fed ++ concat (map (content m) rs)) [] q /\ ap_done q = false.
  Proof.
    intros Hb Hl. induction rs as [|[s n] rs IH]; intros p fed Hr Hg Hf D1 D2.
    - exists p. cbn [map concat jobrun]. rewrite app_nil_r. split; [reflexivity|]. split; assumption.
    - destruct (Hr (s, n) (or_introl eq_refl)) as [Hi Hn]. cbn [fst snd] in Hi, Hn.
      assert (Es : slice g s n = slice m s n) by (apply slice_agree; [lia|exact Hl|intros a Ha; apply (Hg (s, n)); [left; reflexivity|exact Ha]]).
      destruct (aad_hold cx B z Hz key iv fed [] p (slice m s n) Hf) as (p1 & E1 & F1 & G1 & G2); [|exact D1|exact D2|].
      { rewrite <- Es. split; [apply slice_bytes, Hb|rewrite slice_length by lia; exact Hn]. }
      destruct (IH p1 (fed ++ slice m s n) (fun r H => Hr r (or_intror H)) (fun r a H => Hg r a (or_intror H)) F1 G1 G2) as (q & Eq & Fq & Dq).
      exists q. cbn [map jobrun step]. rewrite rds_slice by lia. cbn [bind]. rewrite Es, E1. cbn [bind]. rewrite Eq. cbn [bind]. split; [reflexivity|].
      cbn [map concat]. change (content m (s, n)) with (slice m s n). rewrite app_assoc. split; assumption.
  Qed.
  Definition piece (dir : direction) (e : nat * nat * nat) : direction * nat * nat * nat := let '(s, n, d) := e in (dir, s, n, d).
  Lemma crypts_aead dir key iv aad m : bytes key -> bytes iv -> forall l ct p g, aholds cx B z key iv aad ct p -> ap_done p = false -> (l <> [] \/ ap_aad_done p = true) -> bytes g -> length g = length m ->
    (forall c, In c (crypts (map (piece dir) l)) -> legal (TAead z p) (length m) c) -> undisturbed z (crypts (map (piece dir) l)) ->
    (forall c a, In c (crypts (map (piece dir) l)) -> touches z c a -> nth a g 0 = nth a m 0) ->
    let w := xor_with (chacha20_byte (pad_to 32 key) 1 (pad_to 12 iv)) (length ct) (inputs_of m (map (piece dir) l)) in
    exists q g', jobrun B cx (crypts (map (piece dir) l)) (TAead z p) g = Some (TAead z q, g', crypt_outs (map (piece dir) l)) /\
      aholds cx B z key iv aad (ct ++ match dir with Encrypt => w | Decrypt => inputs_of m (map (piece dir) l) end) q /\ ap_done q = false /\ ap_aad_done q = true /\
      bytes g' /\ length g' = length m /\ (forall a, (forall c, In c (crypts (map (piece dir) l)) -> ~ writes z c a) -> nth a g' 0 = nth a g 0) /\
      outputs_of g' (map (piece dir) l) = w.
  Proof.
    intros Hk Hv. induction l as [|[[s n] d] l IH]; intros ct p g Ho Hd0 Hne Hb Hl L U Hg w.
    - destruct Hne as [Hne|Hne]; [contradiction|]. exists p, g. subst w. cbn [map inputs_of concat] in *.
      replace (ct ++ match dir with Encrypt => _ | Decrypt => _ end) with ct by (destruct dir; cbn; rewrite app_nil_r; reflexivity).
      split; [reflexivity|]. split; [exact Ho|]. split; [exact Hd0|]. split; [exact Hne|]. split; [exact Hb|]. split; [exact Hl|]. split; [reflexivity|reflexivity].
    - subst w. assert (Q : legal (TAead z p) (length m) (SCrypt dir s n d)) by (apply L; left; reflexivity). cbn [legal] in Q.
      destruct Q as ([Hs Hn] & [Hd _] & Ha). cbn [fst snd] in Hs, Hn, Hd.
      destruct (crypt_hold cx B BO z Hz dir key iv aad ct p g s n d Ho Hd0) as (p1 & E1 & Lw & Ho1 & A1 & D1); [repeat split; try assumption; lia|].
      assert (Es : slice g s n = slice m s n) by (apply slice_agree; [lia|exact Hl|intros a Ha'; apply (Hg (SCrypt dir s n d)); [left; reflexivity|left; exact Ha']]).
      rewrite Es in E1, Lw, Ho1. set (F := chacha20_byte (pad_to 32 key) 1 (pad_to 12 iv)) in *.
      assert (FB : forall j, F j < 256) by (intros j; unfold F; rewrite <- ast_byte; apply st_byte_byte).
      remember (xor_with F (length ct) (slice m s n)) as w eqn:Ew.
      assert (Bw : bytes w) by (rewrite Ew; apply xor_with_bytes; [exact FB|rewrite <- Es; apply slice_bytes, Hb]). subst n.
      cbn [crypts map piece] in U. inversion U as [|? ? U1 U2]; subst. fold (crypts (map (piece dir) l)) in U1, U2.
      assert (Un : forall c a, In c (crypts (map (piece dir) l)) -> within (d, length w) a -> ~ touches z c a).
      { intros c a Hc Hw. exact (proj1 (Forall_forall _ _) U1 c Hc a Hw). }
      set (ct1 := ct ++ match dir with Encrypt => w | Decrypt => slice m s (length w) end) in *.
      assert (Lc : length ct1 = (length ct + length w)%nat) by (unfold ct1; rewrite app_length; f_equal; destruct dir; [reflexivity|apply slice_length; lia]).
      destruct (IH ct1 p1 (put g d w)) as (q & g' & J & Hq & Dq & Aq & Bg & Lg & O & R).
      + exact Ho1.
      + exact D1.
      + right. exact A1.
      + apply put_bytes; assumption.
      + rewrite put_length; lia.
      + intros c Hc. exact (L c (or_intror Hc)).
      + exact U2.
      + intros c a Hc Ht. rewrite nth_put; [apply (Hg c); [right; exact Hc|exact Ht]|lia|]. intros W. exact (Un c a Hc W Ht).
      + assert (EI : inputs_of m (map (piece dir) ((s, length w, d) :: l)) = slice m s (length w) ++ inputs_of m (map (piece dir) l)) by reflexivity.
        assert (EW : xor_with F (length ct) (inputs_of m (map (piece dir) ((s, length w, d) :: l))) = w ++ xor_with F (length ct1) (inputs_of m (map (piece dir) l))).
        { rewrite EI, xor_with_app, <- Ew, Lc. rewrite (slice_length m s (length w)) by lia. reflexivity. }
        exists q, g'. split.
        { cbn [crypts map piece jobrun step]. rewrite E1. cbn [bind]. fold (crypts (map (piece dir) l)). rewrite J. cbn [bind crypt_outs map piece]. reflexivity. }
        rewrite EW, EI. split.
        { replace (ct ++ match dir with Encrypt => _ | Decrypt => _ end) with
            (ct1 ++ match dir with Encrypt => xor_with F (length ct1) (inputs_of m (map (piece dir) l)) | Decrypt => inputs_of m (map (piece dir) l) end); [exact Hq|].
          unfold ct1 at 1. destruct dir; rewrite <- app_assoc; reflexivity. }
        split; [exact Dq|]. split; [exact Aq|]. split; [exact Bg|]. split; [exact Lg|]. split.
        * intros a Ha'. rewrite O; [apply nth_put; [lia|]|].
          -- exact (Ha' (SCrypt dir s (length w) d) (or_introl eq_refl)).
          -- intros c Hc. apply Ha'. right. exact Hc.
        * change (outputs_of g' (map (piece dir) ((s, length w, d) :: l))) with (slice g' d (length w) ++ outputs_of g' (map (piece dir) l)). rewrite R. f_equal.
          transitivity (slice (put g d w) d (length w)); [|apply slice_put_same; lia].
          apply slice_agree; [lia|rewrite put_length; lia|]. intros a Hw. apply O. intros c Hc Hc2. apply (Un c a Hc Hw). right. exact Hc2.
  Qed.
  Definition tag_bytes (m : list N) (e : aead_message) (g : list N) : Prop :=
    match am_last e with STag t n => content g (t, Nat.min n z) = firstn n (tag_of cx z m e) | _ => True end.
  Lemma aead_session m p0 e : bytes m -> complete e -> (forall c, In c (aead_calls e) -> legal (TAead z p0) (length m) c) -> undisturbed z (aead_calls e) ->
    session cx B z (length m) m (fun x => exists p, x = TAead z p /\ awf p) (aead_calls e)
      (SNone :: map (fun _ => SNone) (am_aad e) ++ crypt_outs (parts e) ++ [last_out cx z m e])
      (fun g => outputs_of g (parts e) = text_of m e /\ tag_bytes m e g).
  Proof.
    destruct e as [[ks kn] [vs vn] rs dir l lst]. unfold aead_calls, complete, tag_bytes, last_out, tag_of, text_of, parts. cbn [am_key am_iv am_aad am_dir am_text am_last].
    intros Hm [Hne Hlast] L U. fold (piece dir) in *. change (map (fun '(s, n, d) => (dir, s, n, d)) l) with (map (piece dir) l) in *.
    destruct (L (SInit (ks, kn) (vs, vn)) (or_introl eq_refl)) as [[Lk _] [Lv _]]. cbn [fst snd] in Lk, Lv.
    change (content m (ks, kn)) with (slice m ks kn). change (content m (vs, vn)) with (slice m vs vn). set (key := slice m ks kn). set (iv := slice m vs vn).
    assert (Bk : bytes key) by apply slice_bytes, Hm. assert (Bv : bytes iv) by apply slice_bytes, Hm.
    set (P := map (piece dir) l) in *. set (w := aead_text (pad_to 32 key) (pad_to 12 iv) (inputs_of m P)).
    set (aad := concat (map (content m) rs)). set (ct := match dir with Encrypt => w | Decrypt => inputs_of m P end).
    set (T := firstn z (aead_tag_on (cx_big cx) (pad_to 32 key) (pad_to 12 iv) aad ct)).
    assert (LT : length T = z) by exact (ktag_length cx z Hz key iv aad ct).
    assert (BT : bytes T) by (apply bytes_firstn; unfold aead_tag_on, poly1305_on, poly1305; apply le_enc_bytes).
    assert (Li : forall r, In r rs -> inside (length m) r) by (intros r Hr; apply (L (SFeed r)); right; apply in_or_app; left; apply in_map, Hr).
    destruct (pairs_app z [SInit (ks, kn) (vs, vn)] _ U) as (_ & U1 & _). destruct (pairs_app z _ _ U1) as (_ & U2 & _). destruct (pairs_app z _ _ U2) as (U3 & _ & U4).
    assert (Lc : forall c, In c (crypts P) -> legal (TAead z p0) (length m) c) by (intros c Hc; apply L; right; apply in_or_app; right; apply in_or_app; left; exact Hc).
    assert (Ll : legal (TAead z p0) (length m) lst) by (apply L; right; apply in_or_app; right; apply in_or_app; right; left; reflexivity).
    assert (Hl0 : In lst [lst]) by (left; reflexivity).
    split.
    - intros x g (p & -> & Hw) Hb Hl Hg.
      assert (Ek : slice g ks kn = key) by (apply slice_agree; [lia|exact Hl|intros a Ha; apply (Hg (SInit (ks, kn) (vs, vn))); [left; reflexivity|left; left; exact Ha]]).
      assert (Ev : slice g vs vn = iv) by (apply slice_agree; [lia|exact Hl|intros a Ha; apply (Hg (SInit (ks, kn) (vs, vn))); [left; reflexivity|left; right; exact Ha]]).
      destruct (ainit cx B BO z Hz p p key iv Hw Hw Bk Bv) as (p1 & _ & E1 & _ & _ & H1 & F1 & G1).
      destruct (feed_aad key iv m g Hb Hl rs p1 [] Li) as (p2 & J2 & H2 & G2); [intros r a Hr Ha; apply (Hg (SFeed r)); [right; apply in_or_app; left; apply in_map, Hr|left; exact Ha]|exact H1|exact F1|exact G1|].
      cbn [app] in H2. fold aad in H2.
      destruct (crypts_aead dir key iv aad m Bk Bv l [] p2 g H2 G2 (or_introl Hne) Hb Hl) as (p3 & g' & J3 & H3 & G3 & A3 & Bg & Lg & O & R).
      { exact Lc. } { exact U3. } { intros c a Hc. apply Hg. right. apply in_or_app. right. apply in_or_app. left. exact Hc. }
      fold P in J3, H3, O, R. cbn [length app] in H3, R. change (xor_with (chacha20_byte (pad_to 32 key) 1 (pad_to 12 iv)) 0 (inputs_of m P)) with w in H3, R. fold ct in H3.
      assert (Jall : forall x' g'' o, step B cx (TAead z p3) g' lst = Some (x', g'', o) ->
        jobrun B cx (SInit (ks, kn) (vs, vn) :: map SFeed rs ++ crypts P ++ [lst]) (TAead z p) g = Some (x', g'', SNone :: map (fun _ => SNone) rs ++ crypt_outs P ++ [o])).
      { intros x' g'' o Es. cbn [jobrun step]. rewrite !rds_slice by lia. rewrite Ek, Ev. cbn [bind]. rewrite E1. cbn [bind].
        rewrite jobrun_app, J2. cbn [bind]. rewrite jobrun_app, J3. cbn [bind jobrun]. rewrite Es. cbn [bind]. reflexivity. }
      assert (Agr : forall a, touches z lst a -> nth a g' 0 = nth a m 0).
      { intros a Ha. rewrite O.
        - apply (Hg lst); [right; apply in_or_app; right; apply in_or_app; right; left; reflexivity|exact Ha].
        - intros c Hc Hw2. exact (U4 c lst a Hc Hl0 Hw2 Ha). }
      assert (Out : forall a, (forall c, In c (SInit (ks, kn) (vs, vn) :: map SFeed rs ++ crypts P ++ [lst]) -> ~ writes z c a) -> nth a g' 0 = nth a g 0).
      { intros a Ha. apply O. intros c Hc. apply Ha. right. apply in_or_app. right. apply in_or_app. left. exact Hc. }
      destruct lst as [?|?|?|t n|junk [u v]|?|?|?]; try destruct Hlast.
      + cbn [legal tag_size] in Ll.
        destruct (tag_step cx B z Hz key iv aad ct p3 (ADigest (skipn t g') n) H3) as (p4 & E4 & H4 & _); [rewrite A3; reflexivity|reflexivity|split; [apply bytes_skipn, Bg|rewrite skipn_length; lia]|].
        fold T in E4. cbn [aead_step atag_out] in E4. rewrite LT in E4.
        assert (E5 : aapie_digest cx z p3 (skipn t g') n = Some (p4, firstn n T ++ skipn (Nat.min n z) (skipn t g'), Nat.min n z)).
        { destruct (aapie_digest cx z p3 (skipn t g') n) as [[[q d] k]|]; [|discriminate E4]. cbn [bind] in E4. congruence. }
        assert (Lf : length (firstn n T) = Nat.min n z) by (rewrite firstn_length, LT; reflexivity).
        assert (Es : step B cx (TAead z p3) g' (STag t n) = Some (TAead z p4, put g' t (firstn n T), SSize (Nat.min n z))).
        { cbn [step]. unfold at_mem. destruct (Nat.leb_spec t (length g')); [|lia]. rewrite E5. cbn [bind].
          rewrite (put_in g' t (firstn n T) _ (Nat.min n z)); [reflexivity|lia|reflexivity|symmetry; exact Lf]. }
        exists (TAead z p4), (put g' t (firstn n T)). split; [exact (Jall _ _ _ Es)|].
        split; [exists p4; split; [reflexivity|exact (proj1 (aeq_awf B _ _ (aholds_aeq cx B z _ _ _ _ _ H4)))]|].
        split; [apply put_bytes; [exact Bg|apply bytes_firstn, BT]|]. split; [rewrite put_length; lia|]. split.
        * intros a Ha. rewrite nth_put; [apply Out, Ha|lia|]. rewrite Lf. intros W.
          apply (Ha (STag t n)); [right; apply in_or_app; right; apply in_or_app; right; left; reflexivity|exact W].
        * split; [|change (slice (put g' t (firstn n T)) t (Nat.min n z) = firstn n T); rewrite <- Lf; apply slice_put_same; rewrite Lf, Lg; exact Ll].
          change (outputs_of (put g' t (firstn n T)) P = w). rewrite <- R. symmetry. apply (outputs_agree g' _ P); [rewrite put_length; lia|rewrite Lg; intros c Hc o; pose proof (Lc c Hc) as Q; unfold crypts in Hc; apply in_map_iff in Hc; destruct Hc as ([[[? ?] ?] ?] & <- & _); exact Q|].
          intros c a Hc Hw2. symmetry. apply nth_put; [lia|]. rewrite Lf. intros W.
          assert (Wz : writes z c a) by (unfold crypts in Hc; apply in_map_iff in Hc; destruct Hc as ([[[? ?] ?] ?] & <- & _); exact Hw2).
          apply (U4 c (STag t n) a Hc Hl0 Wz). right. exact W.
      + cbn [legal tag_size] in Ll. destruct Ll as ([Lu _] & Bj & Lj). cbn [fst snd] in Lu.
        assert (Eu : slice g' u v = slice m u v) by (apply slice_agree; [lia|exact Lg|intros a Ha; apply Agr; left; exact Ha]).
        destruct (tag_step cx B z Hz key iv aad ct p3 (AVerify junk (slice m u v)) H3) as (p4 & E4 & H4 & _); [rewrite A3; reflexivity|reflexivity|split; [exact Bj|split; [exact Lj|apply slice_bytes, Hm]]|].
        fold T in E4. cbn [aead_step atag_out] in E4.
        exists (TAead z p4), g'. change (content m (u, v)) with (slice m u v). set (er := if list_eq_dec N.eq_dec (slice m u v) T then err_none else err_aead_verify) in *. clearbody er. split.
        { apply Jall. cbn [step]. rewrite rds_slice by lia. rewrite Eu. cbn [bind].
          destruct (aapie_verify cx z p3 junk (slice m u v)) as [[q d]|]; [|discriminate E4]. cbn [bind] in E4 |- *. congruence. }
        split; [exists p4; split; [reflexivity|exact (proj1 (aeq_awf B _ _ (aholds_aeq cx B z _ _ _ _ _ H4)))]|].
        split; [exact Bg|]. split; [exact Lg|]. split; [exact Out|]. split; [exact R|exact I].
    - intros g1 g2 L1 L2 H [Q1 Q2].
      assert (Hin : forall c, In c (crypts P) \/ c = lst -> In c (SInit (ks, kn) (vs, vn) :: map SFeed rs ++ crypts P ++ [lst])).
      { intros c [Hc| ->]; right; apply in_or_app; right; apply in_or_app; [left; exact Hc|right; left; reflexivity]. }
      split.
      + rewrite <- Q1. symmetry. apply (outputs_agree g1 g2 P); [congruence|rewrite L1; intros c Hc o; pose proof (Lc c Hc) as Q; unfold crypts in Hc; apply in_map_iff in Hc; destruct Hc as ([[[? ?] ?] ?] & <- & _); exact Q|].
        intros c a Hc Hw2. apply (H c); [apply Hin; left; exact Hc|]. unfold crypts in Hc; apply in_map_iff in Hc; destruct Hc as ([[[? ?] ?] ?] & <- & _); exact Hw2.
      + destruct lst as [?|?|?|t n|?|?|?|?]; try exact I. rewrite <- Q2. cbn [legal tag_size] in Ll. unfold content. cbn [fst snd]. apply slice_agree; [lia|congruence|].
        intros a Ha. symmetry. apply (H (STag t n)); [apply Hin; right; reflexivity|exact Ha].
  Qed.
End AeadSeq.
