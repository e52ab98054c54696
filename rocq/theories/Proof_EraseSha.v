(** Proofs for the SHA part of C42. *)
From Verif Require Import Base BaseLemmas Spec_Bytes Spec_Sha Spec_Hash Spec_Hmac Model_Memory Model_Update Model_Container
  Model_Sha Model_Mac Model_Hmac Model_EraseSha
  BytesLemmas Proof_Memory Proof_Memory2 Proof_ShaCore Proof_Sha2Core Proof_Soak Proof_Sha Proof_ShaHist Proof_ShaApi Proof_Mac Proof_Hmac.
Local Open Scope N_scope.

(** *** Frame versions are the functions plus the frame *)
Lemma sha1_block_proj cx v src : sha1_sw_block cx v src = ('(v, _) <- sha1_sw_block_f cx v src ;; Some v).
Proof.
  unfold sha1_sw_block, sha1_sw_block_f. destruct v as [[[[ap bp] cp] dp] ep].
  do 5 (match goal with |- context [bind (foldM ?f ?l ?x)] => destruct (foldM f l x) as [[? ?]|]; cbn [bind]; [|reflexivity] end).
  repeat match goal with v : vars5 |- _ => destruct v as [[[[? ?] ?] ?] ?] end. reflexivity.
Qed.
Lemma sha1_loop_proj cx : forall n v fr src, sha1_sw_loop cx n v src = ('(v, _) <- sha1_sw_loop_f cx n v fr src ;; Some v).
Proof.
  induction n as [|n IH]; intros v fr src; cbn [sha1_sw_loop sha1_sw_loop_f]; [reflexivity|].
  rewrite sha1_block_proj. destruct (sha1_sw_block_f cx v src) as [[v' fr']|]; cbn [bind]; [|reflexivity]. apply IH.
Qed.
Lemma sha1_blocks_proj cx n st fr src : sha1_sw_blocks cx n st src = ('(st, _) <- sha1_sw_blocks_f cx n st fr src ;; Some st).
Proof.
  unfold sha1_sw_blocks, sha1_sw_blocks_f.
  do 5 (match goal with |- context [bind (rd st ?i)] => destruct (rd st i); cbn [bind]; [|reflexivity] end).
  rewrite (sha1_loop_proj cx n _ fr src).
  match goal with |- context [sha1_sw_loop_f ?a ?b ?c ?d ?e] => destruct (sha1_sw_loop_f a b c d e) as [[[[[[a' b'] c'] d'] e'] fr']|] end;
    cbn [bind]; [|reflexivity].
  match goal with |- ?x = bind (bind ?y _) _ => change x with y; destruct y end; reflexivity.
Qed.

Lemma sha2_block_proj cx p v src : sha2_sw_block cx p v src = ('(v, _) <- sha2_sw_block_f cx p v src ;; Some v).
Proof.
  unfold sha2_sw_block, sha2_sw_block_f. destruct v as [[[[[[[ap bp] cp] dp] ep] fp] gp] hp].
  do 2 (match goal with |- context [bind (foldM ?f ?l ?x)] => destruct (foldM f l x) as [[? ?]|]; cbn [bind]; [|reflexivity] end).
  repeat match goal with v : vars8 |- _ => destruct v as [[[[[[[? ?] ?] ?] ?] ?] ?] ?] end. reflexivity.
Qed.
Lemma sha2_loop_proj cx p : forall n v fr src, sha2_sw_loop cx p n v src = ('(v, _) <- sha2_sw_loop_f cx p n v fr src ;; Some v).
Proof.
  induction n as [|n IH]; intros v fr src; cbn [sha2_sw_loop sha2_sw_loop_f]; [reflexivity|].
  rewrite sha2_block_proj. destruct (sha2_sw_block_f cx p v src) as [[v' fr']|]; cbn [bind]; [|reflexivity]. apply IH.
Qed.
Lemma sha2_blocks_proj cx p n st fr src : sha2_sw_blocks cx p n st src = ('(st, _) <- sha2_sw_blocks_f cx p n st fr src ;; Some st).
Proof.
  unfold sha2_sw_blocks, sha2_sw_blocks_f.
  do 8 (match goal with |- context [bind (rd st ?i)] => destruct (rd st i); cbn [bind]; [|reflexivity] end).
  rewrite (sha2_loop_proj cx p n _ fr src).
  match goal with |- context [sha2_sw_loop_f ?a ?b ?c ?d ?e ?f] => destruct (sha2_sw_loop_f a b c d e f) as [[[[[[[[[a' b'] c'] d'] e'] f'] g'] h'] fr']|] end;
    cbn [bind]; [|reflexivity].
  match goal with |- ?x = bind (bind ?y _) _ => change x with y; destruct y end; reflexivity.
Qed.
Lemma sha_blocks_proj a cx n st fr src :
  ha_blocks (milo_hash a) cx n st src = ('(st, _) <- sha_blocks_f a cx n st fr src ;; Some st).
Proof.
  destruct a; cbn [sha_blocks_f]; first [exact (sha1_blocks_proj cx n st fr src)
    | exact (sha2_blocks_proj cx sha_2_256_sw n st fr src) | exact (sha2_blocks_proj cx sha_2_512_sw n st fr src)].
Qed.

Lemma soak_proj {A B : Type} bs (f : nat -> A -> list N -> option A) (g : nat -> A * B -> list N -> option (A * B)) :
  (forall n s src, f n (fst s) src = ('(a, _) <- g n s src ;; Some a)) ->
  forall buf size src s,
  update_block_soak bs f buf size src (fst s) = ('(b, n, s) <- update_block_soak bs g buf size src s ;; Some (b, n, fst s)).
Proof.
  intros H.
  assert (HT : forall buf src s,
    ('(st, src0) <- (if (0 <? length src / bs)%nat
                     then st <- f (length src / bs)%nat (fst s) src ;; Some (st, skipn (length src / bs * bs) src)
                     else Some (fst s, src)) ;;
     buf0 <- (if (0 <? length src mod bs)%nat then l <- rds src0 0 (length src mod bs) ;; wrs buf 0 l else Some buf) ;;
     Some (buf0, (length src mod bs)%nat, st)) =
    ('(b, n, s) <-
      ('(st, src0) <- (if (0 <? length src / bs)%nat
                       then st <- g (length src / bs)%nat s src ;; Some (st, skipn (length src / bs * bs) src)
                       else Some (s, src)) ;;
       buf0 <- (if (0 <? length src mod bs)%nat then l <- rds src0 0 (length src mod bs) ;; wrs buf 0 l else Some buf) ;;
       Some (buf0, (length src mod bs)%nat, st)) ;; Some (b, n, fst s))).
  { intros buf src s. destruct (0 <? length src / bs)%nat.
    - rewrite H. destruct (g (length src / bs)%nat s src) as [[a b]|]; cbn [bind fst]; [|reflexivity].
      match goal with |- bind ?x _ = _ => destruct x end; reflexivity.
    - cbn [bind]. match goal with |- bind ?x _ = _ => destruct x end; reflexivity. }
  intros buf size src s. unfold update_block_soak. cbv zeta.
  destruct (0 <? size)%nat; [|apply HT].
  destruct (bs <? size)%nat; [reflexivity|].
  destruct (rds src 0 (Nat.min (bs - size) (length src))) as [l|]; cbn [bind]; [|reflexivity].
  destruct (wrs buf size l) as [buf'|]; cbn [bind]; [|reflexivity].
  destruct (Nat.min (bs - size) (length src) <? bs - size)%nat; [reflexivity|].
  rewrite H. destruct (g 1%nat s buf') as [[a b]|]; cbn [bind]; [|reflexivity].
  apply (HT buf' _ (a, b)).
Qed.

Lemma hash_update_proj cx a o fr msg : hash_update cx (milo_hash a) o msg = ('(o, _) <- hash_update_f cx a o fr msg ;; Some o).
Proof.
  unfold hash_update, hash_update_f. cbv zeta.
  destruct (count_add _ _ _) as [c|]; cbn [bind]; [|reflexivity].
  assert (E := soak_proj (ha_block_size (milo_hash a)) (ha_blocks (milo_hash a) cx)
    (fun n s src => sha_blocks_f a cx n (fst s) (snd s) src)
    (fun n s src => sha_blocks_proj a cx n (fst s) (snd s) src) (ho_buffer o) (ho_size o) msg (ho_state o, fr)).
  cbn [fst] in E. rewrite E.
  match goal with |- context [update_block_soak ?x ?y ?z ?t ?u ?v] =>
    destruct (update_block_soak x y z t u v) as [[[b n] [st fr']]|] end; reflexivity.
Qed.

Lemma hmac_initialize_proj cx a o fr key :
  hmac_initialize cx (milo_hash a) o key = ('(o, _) <- hmac_initialize_f cx a o fr key ;; Some o).
Proof.
  unfold hmac_initialize, hmac_initialize_f. cbv zeta.
  match goal with |- bind ?x _ = _ => destruct x as [[[h b] ksz]|]; cbn [bind]; [|reflexivity] end.
  match goal with |- (if ?c then _ else _) = _ => destruct c; [reflexivity|] end.
  do 4 (match goal with |- bind ?x _ = _ => destruct x; cbn [bind]; [|reflexivity] end).
  rewrite (hash_update_proj cx a _ fr).
  match goal with |- context [hash_update_f ?x ?y ?z ?t ?u] => destruct (hash_update_f x y z t u) as [[h' fr']|] end; reflexivity.
Qed.

(** *** What the array holds *)
Lemma put_app cap sch i v sch' : put cap sch i v = Some sch' -> sch' = sch ++ [v] /\ i = length sch.
Proof.
  unfold put. destruct (Nat.eqb_spec i (length sch)) as [E|]; cbn [andb]; [|discriminate].
  destruct (i <? cap)%nat; [|discriminate]. intros H. split; [congruence|exact E].
Qed.

Lemma bind_inv {A B} (x : option A) (f : A -> option B) (r : B) : bind x f = Some r -> exists a, x = Some a /\ f a = Some r.
Proof. destruct x as [a|]; cbn [bind]; [|discriminate]. intros H. exists a. auto. Qed.

(** Steps that load a word and append it; steps that append something. *)
Lemma foldM_appends {V : Type} (f : list N * V -> nat -> option (list N * V)) :
  (forall sch v j sch' v', f (sch, v) j = Some (sch', v') -> exists x, sch' = sch ++ [x]) ->
  forall n i sch v sch' v', foldM f (seq i n) (sch, v) = Some (sch', v') -> exists t, sch' = sch ++ t.
Proof.
  intros Hf. induction n as [|n IH]; intros i sch v sch' v' H; cbn [seq foldM] in H.
  - exists []. rewrite app_nil_r. congruence.
  - apply bind_inv in H. destruct H as ([s1 v1] & H1 & H2). destruct (Hf _ _ _ _ _ H1) as [x ->].
    destruct (IH _ _ _ _ _ H2) as [t ->]. exists (x :: t). rewrite <- app_assoc. reflexivity.
Qed.
Lemma foldM_loads {V : Type} (f : list N * V -> nat -> option (list N * V)) (w : nat -> N) :
  (forall sch v j sch' v', (j < 16)%nat -> f (sch, v) j = Some (sch', v') -> sch' = sch ++ [w j]) ->
  forall n i sch v sch' v', (i + n <= 16)%nat -> foldM f (seq i n) (sch, v) = Some (sch', v') -> sch' = sch ++ map w (seq i n).
Proof.
  intros Hf. induction n as [|n IH]; intros i sch v sch' v' Hi H; cbn [seq foldM] in H.
  - cbn [seq map]. rewrite app_nil_r. congruence.
  - apply bind_inv in H. destruct H as ([s1 v1] & H1 & H2). assert (Hi' : (i < 16)%nat) by lia. assert (Hn' : (S i + n <= 16)%nat) by lia.
    apply (Hf _ _ _ _ _ Hi') in H1. subst s1.
    rewrite (IH _ _ _ _ _ Hn' H2). rewrite <- app_assoc. reflexivity.
Qed.

Lemma map_nth_seq k : forall (l : list N), length l = k -> map (fun j => nth j l 0) (seq 0 k) = l.
Proof.
  induction k as [|k IH]; intros l Hl.
  - destruct l; [reflexivity|discriminate].
  - destruct l as [|x l]; [discriminate|]. cbn [seq map nth]. f_equal.
    rewrite <- seq_shift, map_map. apply IH. cbn [length] in Hl. lia.
Qed.

Lemma sha1_block_frame cx v src v' fr : bytes src -> (64 <= length src)%nat ->
  sha1_sw_block_f cx v src = Some (v', fr) -> exists t, fr = be_words 4 16 (firstn 64 src) ++ t.
Proof.
  intros Hb Hl H. unfold sha1_sw_block_f in H. destruct v as [[[[ap bp] cp] dp] ep].
  apply bind_inv in H. destruct H as ([s0 v0] & H0 & H).
  apply bind_inv in H. destruct H as ([s1 v1] & H1 & H).
  apply bind_inv in H. destruct H as ([s2 v2] & H2 & H).
  apply bind_inv in H. destruct H as ([s3 v3] & H3 & H).
  apply bind_inv in H. destruct H as ([s4 v4] & H4 & H).
  destruct v4 as [[[[a b] c] d] e]. assert (fr = s4) by congruence. subst fr. clear H.
  assert (M : forall k fn n i sch v sch' v', foldM (sha1_step_mix k fn) (seq i n) (sch, v) = Some (sch', v') -> exists t, sch' = sch ++ t).
  { intros k fn. apply foldM_appends. intros sch v j sch' v'' E. unfold sha1_step_mix, sha1_schedule_16_79 in E.
    apply bind_inv in E. destruct E as (s & E1 & E2).
    do 4 (apply bind_inv in E1; destruct E1 as (? & _ & E1)).
    apply put_app in E1. destruct E1 as [E1 _].
    apply bind_inv in E2. destruct E2 as (? & _ & E2). eexists. assert (sch' = s) by congruence. subst sch'. exact E1. }
  apply (foldM_loads (sha1_step_load cx src) (fun j => nth j (be_words 4 16 (firstn 64 src)) 0)) in H0.
  - rewrite map_nth_seq in H0 by apply be_words_length. cbn [app] in H0. subst s0.
    apply M in H1. destruct H1 as [t1 ->]. apply M in H2. destruct H2 as [t2 ->].
    apply M in H3. destruct H3 as [t3 ->]. apply M in H4. destruct H4 as [t4 ->].
    exists (t1 ++ t2 ++ t3 ++ t4). rewrite <- !app_assoc. reflexivity.
  - intros sch v j sch' v'' Hj E. unfold sha1_step_load, sha1_schedule_00_15 in E.
    apply bind_inv in E. destruct E as (s & E1 & E2).
    rewrite (load_be_word cx 4 16) in E1 by (try assumption; try lia; unfold int_size; tauto). cbn [bind] in E1.
    apply put_app in E1. destruct E1 as [E1 _].
    apply bind_inv in E2. destruct E2 as (? & _ & E2). assert (sch' = s) by congruence. subst sch'. exact E1.
  - lia.
Qed.

Lemma sha2_block_frame cx p q v src v' fr : sha2_match p q -> bytes src -> (16 * s2_b p <= length src)%nat ->
  sha2_sw_block_f cx q v src = Some (v', fr) -> exists t, fr = be_words (s2_b p) 16 (firstn (16 * s2_b p) src) ++ t.
Proof.
  intros Mt Hb Hl H. unfold sha2_sw_block_f in H. cbv zeta in H. destruct v as [[[[[[[ap bp] cp] dp] ep] fp] gp] hp].
  apply bind_inv in H. destruct H as ([s0 v0] & H0 & H).
  apply bind_inv in H. destruct H as ([s1 v1] & H1 & H).
  destruct v1 as [[[[[[[a b] c] d] e] f] g] h]. assert (fr = s1) by congruence. subst fr. clear H.
  assert (M : forall n i sch v sch' v', foldM (sha2_step_mix q) (seq i n) (sch, v) = Some (sch', v') -> exists t, sch' = sch ++ t).
  { apply foldM_appends. intros sch v j sch' v'' E. unfold sha2_step_mix, sha2_schedule_16 in E.
    apply bind_inv in E. destruct E as (s & E1 & E2).
    do 4 (apply bind_inv in E1; destruct E1 as (? & _ & E1)).
    apply put_app in E1. destruct E1 as [E1 _].
    apply bind_inv in E2. destruct E2 as (? & _ & E2). eexists. assert (sch' = s) by congruence. subst sch'. exact E1. }
  apply (foldM_loads (sha2_step_load cx q src) (fun j => nth j (be_words (s2_b p) 16 (firstn (16 * s2_b p) src)) 0)) in H0.
  - rewrite map_nth_seq in H0 by apply be_words_length. cbn [app] in H0. subst s0.
    apply M in H1. destruct H1 as [t1 ->]. exists t1. reflexivity.
  - intros sch v j sch' v'' Hj E. unfold sha2_step_load, sha2_schedule_00_15 in E. rewrite (m_b _ _ Mt) in E.
    apply bind_inv in E. destruct E as (s & E1 & E2).
    rewrite (load_be_word cx (s2_b p) 16) in E1 by (try assumption; try lia; apply (m_int _ _ Mt)). cbn [bind] in E1.
    apply put_app in E1. destruct E1 as [E1 _].
    apply bind_inv in E2. destruct E2 as (? & _ & E2). assert (sch' = s) by congruence. subst sch'. exact E1.
  - lia.
Qed.

(** After [n + 1] blocks: the last one. *)
Lemma sha1_loop_frame cx : forall n v fr0 src v' fr, bytes src -> (S n * 64 <= length src)%nat ->
  sha1_sw_loop_f cx (S n) v fr0 src = Some (v', fr) -> exists t, fr = be_words 4 16 (firstn 64 (skipn (n * 64) src)) ++ t.
Proof.
  induction n as [|n IH]; intros v fr0 src v' fr Hb Hl H; cbn [sha1_sw_loop_f] in H; apply bind_inv in H; destruct H as ([v1 fr1] & H1 & H2).
  - cbn [Nat.mul]. rewrite skipn_O. assert (fr = fr1) by congruence. subst fr.
    apply (sha1_block_frame cx v src v1 fr1 Hb ltac:(lia) H1).
  - apply (IH v1 fr1 (skipn 64 src) v' fr) in H2; [|apply bytes_skipn; assumption|rewrite skipn_length; lia].
    rewrite skipn_skipn in H2. replace (n * 64 + 64)%nat with (S n * 64)%nat in H2 by lia. exact H2.
Qed.
Lemma sha2_loop_S cx q n v fr src : sha2_sw_loop_f cx q (S n) v fr src =
  ('(v, fr) <- sha2_sw_block_f cx q v src ;; sha2_sw_loop_f cx q n v fr (skipn (16 * sw_b q) src)).
Proof. reflexivity. Qed.
Lemma sha2_loop_frame cx p q : sha2_match p q -> forall n v fr0 src v' fr, bytes src -> (S n * (16 * s2_b p) <= length src)%nat ->
  sha2_sw_loop_f cx q (S n) v fr0 src = Some (v', fr) ->
  exists t, fr = be_words (s2_b p) 16 (firstn (16 * s2_b p) (skipn (n * (16 * s2_b p)) src)) ++ t.
Proof.
  intros Mt. induction n as [|n IH]; intros v fr0 src v' fr Hb Hl H; rewrite sha2_loop_S in H; apply bind_inv in H; destruct H as ([v1 fr1] & H1 & H2).
  - cbn [Nat.mul]. rewrite skipn_O. cbn [sha2_sw_loop_f] in H2. assert (fr = fr1) by congruence. subst fr.
    apply (sha2_block_frame cx p q v src v1 fr1 Mt Hb ltac:(lia) H1).
  - rewrite (m_b _ _ Mt) in H2.
    apply (IH v1 fr1 (skipn (16 * s2_b p) src) v' fr) in H2; [|apply bytes_skipn; assumption|rewrite skipn_length; lia].
    rewrite skipn_skipn in H2. replace (n * (16 * s2_b p) + 16 * s2_b p)%nat with (S n * (16 * s2_b p))%nat in H2 by lia. exact H2.
Qed.

Lemma sha_blocks_frame a cx n st fr0 src st' fr : bytes src -> (S n * sha_block_size a <= length src)%nat ->
  sha_blocks_f a cx (S n) st fr0 src = Some (st', fr) ->
  exists t, fr = be_words (sha_word_size a) 16 (firstn (sha_block_size a) (skipn (n * sha_block_size a) src)) ++ t.
Proof.
  intros Hb Hl H.
  assert (S1 : forall st, sha1_sw_blocks_f cx (S n) st fr0 src = Some (st', fr) -> exists v v', sha1_sw_loop_f cx (S n) v fr0 src = Some (v', fr)).
  { clear. intros st H. unfold sha1_sw_blocks_f in H.
    do 5 (apply bind_inv in H; destruct H as (? & _ & H)). apply bind_inv in H. destruct H as ([v' fr'] & H1 & H).
    destruct v' as [[[[a' b'] c'] d'] e']. apply bind_inv in H. destruct H as (? & _ & H). assert (fr' = fr) by congruence. subst fr'.
    eexists. eexists. exact H1. }
  assert (S2 : forall q st, sha2_sw_blocks_f cx q (S n) st fr0 src = Some (st', fr) -> exists v v', sha2_sw_loop_f cx q (S n) v fr0 src = Some (v', fr)).
  { clear. intros q st H. unfold sha2_sw_blocks_f in H.
    do 8 (apply bind_inv in H; destruct H as (? & _ & H)). apply bind_inv in H. destruct H as ([v' fr'] & H1 & H).
    destruct v' as [[[[[[[a' b'] c'] d'] e'] f'] g'] h']. apply bind_inv in H. destruct H as (? & _ & H). assert (fr' = fr) by congruence. subst fr'.
    eexists. eexists. exact H1. }
  destruct a; cbn [sha_blocks_f] in H; try (apply S2 in H); try (apply S1 in H); destruct H as (v & v' & H).
  - exact (sha1_loop_frame cx n v fr0 src v' fr Hb Hl H).
  - exact (sha2_loop_frame cx sha2_32 sha_2_256_sw match_256 n v fr0 src v' fr Hb Hl H).
  - exact (sha2_loop_frame cx sha2_32 sha_2_256_sw match_256 n v fr0 src v' fr Hb Hl H).
  - exact (sha2_loop_frame cx sha2_64 sha_2_512_sw match_512 n v fr0 src v' fr Hb Hl H).
  - exact (sha2_loop_frame cx sha2_64 sha_2_512_sw match_512 n v fr0 src v' fr Hb Hl H).
  - exact (sha2_loop_frame cx sha2_64 sha_2_512_sw match_512 n v fr0 src v' fr Hb Hl H).
  - exact (sha2_loop_frame cx sha2_64 sha_2_512_sw match_512 n v fr0 src v' fr Hb Hl H).
Qed.

(** Theorem-level: the call succeeds and leaves the last block. *)
Lemma sha_blocks_left a cx n st fr0 src : st_ok a st -> bytes src -> (S n * sha_block_size a <= length src)%nat ->
  exists st' fr, sha_blocks_f a cx (S n) st fr0 src = Some (st', fr) /\ ha_blocks (milo_hash a) cx (S n) st src = Some st' /\
    firstn 16 fr = be_words (sha_word_size a) 16 (firstn (sha_block_size a) (skipn (n * sha_block_size a) src)).
Proof.
  intros Hs Hb Hl. pose proof (ao_blocks _ _ (default_ok a) cx (S n) st src Hs Hb Hl) as E.
  pose proof (sha_blocks_proj a cx (S n) st fr0 src) as P. rewrite E in P.
  destruct (sha_blocks_f a cx (S n) st fr0 src) as [[st' fr]|] eqn:F; [|discriminate]. cbn [bind] in P.
  exists st', fr. split; [reflexivity|]. split; [rewrite E; exact P|].
  destruct (sha_blocks_frame a cx n st fr0 src st' fr Hb Hl F) as [t ->].
  rewrite firstn_app, be_words_length, firstn_all2 by (rewrite be_words_length; lia). cbn [Nat.sub]. rewrite firstn_O. apply app_nil_r.
Qed.

Lemma hmac_key_ext H1 H2 bs k : (forall x, H1 x = H2 x) -> hmac_key H1 bs k = hmac_key H2 bs k.
Proof. intros E. unfold hmac_key. rewrite E. reflexivity. Qed.

Lemma hmac_frame cx a fr0 key : chunk key ->
  exists o fr, hmac_initialize_f cx a (hmac_new (milo_hash a)) fr0 key = Some (o, fr) /\
    hmac_initialize cx (milo_hash a) (hmac_new (milo_hash a)) key = Some o /\
    firstn 16 fr = be_words (sha_word_size a) 16 (map (N.lxor 0x36) (hmac_key (fips a) (sha_block_size a) key)).
Proof.
  intros Hk.
  assert (Hd : (ha_digest_size (milo_hash a) <= sha_nst a * sha_word_size a)%nat) by apply dsz_default.
  assert (W : hmwf a (hmac_new (milo_hash a))).
  { split; [exact (new_hwf a (milo_hash a) (default_ok a) Hd 0 (Nat.le_0_l _))|]. cbn [hmac_new hm_buffer].
    rewrite repeat_length, (ao_bs _ _ (default_ok a)). split; [reflexivity|apply bytes_repeat0]. }
  destruct (init_spec a (milo_hash a) (default_ok a) Hd 0 (Nat.le_0_l _) cx (hmac_new (milo_hash a)) key W Hk) as (o & E & _ & B).
  pose proof (hmac_initialize_proj cx a (hmac_new (milo_hash a)) fr0 key) as P. rewrite E in P.
  destruct (hmac_initialize_f cx a (hmac_new (milo_hash a)) fr0 key) as [[o' fr]|] eqn:F; [|discriminate].
  cbn [bind] in P. assert (o' = o) by congruence. subst o'. clear P.
  exists o, fr. split; [reflexivity|]. split; [exact E|].
  unfold hmac_initialize_f in F. cbv zeta in F.
  apply bind_inv in F. destruct F as ([[h b] ksz] & _ & F).
  match type of F with (if ?c then _ else _) = _ => destruct c; [discriminate|] end.
  do 2 (apply bind_inv in F; destruct F as (? & _ & F)).
  apply bind_inv in F. destruct F as (b' & _ & F).
  apply bind_inv in F. destruct F as (l & Fl & F).
  apply bind_inv in F. destruct F as ([h' fr'] & Fu & F).
  assert (Hb' : b' = hm_buffer o /\ fr' = fr) by (split; [|congruence]; assert (o = {| hm_hash := h'; hm_buffer := b' |}) by congruence; subst o; reflexivity).
  destruct Hb' as [-> ->]. clear F.
  set (ip := map (N.lxor 0x36) (hmac_key (D_of a (milo_hash a)) (sha_block_size a) key)) in *.
  assert (Eip : map (N.lxor 0x36) (hmac_key (fips a) (sha_block_size a) key) = ip).
  { unfold ip. f_equal. apply hmac_key_ext. intros y. symmetry. apply D_fips. }
  rewrite Eip.
  assert (Lip : length ip = sha_block_size a) by (apply pad_len).
  assert (Bip : bytes ip).
  { apply xor_bytes; [lia|]. apply (key_bytes a (milo_hash a)). exact (proj1 Hk). }
  assert (El : l = ip).
  { rewrite B in Fl. unfold opad, ipad in Fl. fold ip in Fl. rewrite (ao_bs _ _ (default_ok a)) in Fl.
    rewrite rds_some in Fl.
    - assert (El : l = firstn (sha_block_size a) (skipn (sha_block_size a)
         (map (N.lxor 0x5c) (hmac_key (D_of a (milo_hash a)) (sha_block_size a) key) ++ ip))) by congruence.
      rewrite El, skipn_app, skipn_all2 by (rewrite pad_len; lia). rewrite pad_len, Nat.sub_diag, skipn_O. cbn [app].
      apply firstn_all2. lia.
    - rewrite app_length. fold ip. rewrite (pad_len a (milo_hash a) 0x5c). lia. }
  subst l. unfold hash_update_f in Fu. cbv zeta in Fu.
  apply bind_inv in Fu. destruct Fu as (c & _ & Fu).
  cbn [hash_initialize ho_size ho_state ho_buffer] in Fu.
  unfold update_block_soak in Fu. cbn [Nat.ltb Nat.leb] in Fu.
  rewrite (ao_bs _ _ (default_ok a)), Lip in Fu.
  assert (Hpos : (0 < sha_block_size a)%nat) by (destruct a; cbn; lia).
  rewrite Nat.div_same, Nat.mod_same in Fu by lia.
  apply bind_inv in Fu. destruct Fu as ([[b2 n2] [st2 fr2]] & Fu & Fe).
  assert (fr2 = fr) by congruence. subst fr2. clear Fe.
  cbn [Nat.ltb Nat.leb] in Fu.
  apply bind_inv in Fu. destruct Fu as ([s3 src3] & Fu1 & Fu).
  apply bind_inv in Fu1. destruct Fu1 as (s4 & Fb & Fe). cbn [fst snd] in Fb.
  apply bind_inv in Fu. destruct Fu as (? & _ & Fu).
  assert (s3 = (st2, fr)) by congruence. assert (s4 = (st2, fr)) by congruence. subst s3 s4.
  destruct (sha_blocks_frame a cx 0 _ _ _ _ _ Bip ltac:(lia) Fb) as [t Et].
  cbn [Nat.mul] in Et. rewrite skipn_O, firstn_all2 in Et by lia. rewrite Et.
  rewrite firstn_app, be_words_length, firstn_all2 by (rewrite be_words_length; lia). cbn [Nat.sub]. rewrite firstn_O. apply app_nil_r.
Qed.

(** Reading the bytes off the words. *)
Lemma be_words_read ps : forall k l, bytes l -> length l = (k * ps)%nat -> flat_map (be_enc ps) (be_words ps k l) = l.
Proof.
  induction k as [|k IH]; intros l Hb Hl; cbn [be_words flat_map].
  - destruct l; [reflexivity|discriminate].
  - rewrite IH; [|apply bytes_skipn; exact Hb|rewrite skipn_length; lia].
    rewrite be_enc_dec; [apply firstn_skipn|apply bytes_firstn; exact Hb|rewrite firstn_length; lia].
Qed.
Lemma xor_back c l : map (N.lxor c) (map (N.lxor c) l) = l.
Proof.
  rewrite map_map. rewrite <- (map_id l) at 2. apply map_ext. intros x.
  rewrite <- N.lxor_assoc, N.lxor_nilpotent. apply N.lxor_0_l.
Qed.

Lemma hmac_key_read cx a fr0 key : chunk key ->
  exists o fr, hmac_initialize_f cx a (hmac_new (milo_hash a)) fr0 key = Some (o, fr) /\
    hmac_initialize cx (milo_hash a) (hmac_new (milo_hash a)) key = Some o /\
    map (N.lxor 0x36) (flat_map (be_enc (sha_word_size a)) (firstn 16 fr)) = hmac_key (fips a) (sha_block_size a) key.
Proof.
  intros Hk. destruct (hmac_frame cx a fr0 key Hk) as (o & fr & E1 & E2 & E3). exists o, fr. split; [exact E1|]. split; [exact E2|].
  rewrite E3. assert (Ek : hmac_key (fips a) (sha_block_size a) key = hmac_key (D_of a (milo_hash a)) (sha_block_size a) key)
    by (apply hmac_key_ext; intros y; symmetry; apply D_fips).
  rewrite be_words_read; [apply xor_back| |].
  - apply xor_bytes; [lia|]. rewrite Ek. apply (key_bytes a (milo_hash a)). exact (proj1 Hk).
  - rewrite Ek, (pad_len a (milo_hash a)). destruct a; reflexivity.
Qed.
Lemma hmac_key_short H bs key : (length key <= bs)%nat -> firstn (length key) (hmac_key H bs key) = key.
Proof.
  intros L. unfold hmac_key. destruct (Nat.ltb_spec bs (length key)); [lia|]. unfold pad_to.
  rewrite (firstn_all2 (n := bs) key) by lia. rewrite firstn_app, Nat.sub_diag, firstn_O, app_nil_r. apply firstn_all.
Qed.

Lemma sha_last_block_read a cx n st fr0 src :
  length st = (match a with SHA1 => 5 | _ => 8 end)%nat -> Forall (fun x => x < 2 ^ bits (sha_word_size a)) st ->
  bytes src -> length src = (S n * sha_block_size a)%nat ->
  exists st' fr, sha_blocks_f a cx (S n) st fr0 src = Some (st', fr) /\ ha_blocks (milo_hash a) cx (S n) st src = Some st' /\
    flat_map (be_enc (sha_word_size a)) (firstn 16 fr) = skipn (n * sha_block_size a) src.
Proof.
  intros H1 H2 Hb Hl. destruct (sha_blocks_left a cx n st fr0 src (conj H1 H2) Hb ltac:(lia)) as (st' & fr & E1 & E2 & E3).
  exists st', fr. split; [exact E1|]. split; [exact E2|]. rewrite E3.
  assert (L : length (skipn (n * sha_block_size a) src) = sha_block_size a) by (rewrite skipn_length; lia).
  rewrite (firstn_all2 (n := sha_block_size a) (skipn (n * sha_block_size a) src)) by lia.
  apply be_words_read; [apply bytes_skipn; exact Hb|]. rewrite L. destruct a; reflexivity.
Qed.
