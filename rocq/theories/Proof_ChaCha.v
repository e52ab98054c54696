(** ChaCha20: the stream object over any backend, and the API. *)
From Verif Require Import Base BaseLemmas BytesLemmas Spec_Bytes Spec_ChaCha Model_Memory Model_Update Model_Container
  Model_Hmac Model_Cipher Spec_Cipher Proof_Memory Proof_Memory2 Proof_Memory3 Proof_CodecApi Proof_Hmac Proof_Range Proof_ChaChaCore.
Local Open Scope N_scope.

Lemma bk_sw_ok cx : backend_ok cx bk_sw.
Proof.
  constructor.
  - cbn. lia.
  - intros n st m d s L W Hm Hd Hs Ha. unfold bk_block in *. cbn [bk_sw bk_ratio bk_transform] in *. rewrite Nat.mul_1_r in *.
    unfold cc_transform. rewrite rds_slice by lia. cbn [bind].
    replace (slice st 0 16) with st by (rewrite <- L; symmetry; apply slice_all).
    rewrite cc_blocks_mv by (try assumption; apply apart_movable; assumption). cbn [bind]. rewrite Nat.mul_1_l. reflexivity.
  - intros st buf L W Hb Hl. exact (cc_generate_spec cx st buf L W Hb Hl).
Qed.

Lemma stream_bytes_length f p n : length (stream_bytes f p n) = n.
Proof. unfold stream_bytes. rewrite map_length. apply seq_length. Qed.
Lemma nth_stream f p n i : (i < n)%nat -> nth i (stream_bytes f p n) 0 = f (p + i)%nat.
Proof.
  intros H. unfold stream_bytes. rewrite (nth_indep _ 0 (f 0%nat)) by (rewrite map_length, seq_length; exact H).
  rewrite map_nth, seq_nth by exact H. reflexivity.
Qed.
Lemma stream_bytes_bytes f p n : (forall j, f j < 256) -> bytes (stream_bytes f p n).
Proof. intros H. apply Forall_forall. intros x Hx. apply in_map_iff in Hx. destruct Hx as (j & <- & _). apply H. Qed.

Section Stream.
  Context (cx : ctx) (B : backend) (BO : backend_ok cx B).
  Let BS := bk_block B.

  Lemma bs_pos : (64 <= BS <= 512)%nat.
  Proof. pose proof (bo_ratio _ _ BO). unfold BS, bk_block. lia. Qed.

  (** The object stands at byte [pos] of the key stream of [st0]. *)
  Definition stream_at (st0 : list N) (pos : nat) (o : cc_obj) : Prop :=
    exists gen, cc_state o = at_ctr st0 (N.of_nat gen) /\ length (cc_buffer o) = 512%nat /\ bytes (cc_buffer o) /\
      ((cc_size o = 0%nat /\ pos = (64 * gen)%nat) \/
       ((0 < cc_size o < BS)%nat /\ (pos + BS = 64 * gen + cc_size o)%nat /\
        forall i, (i < BS)%nat -> nth i (cc_buffer o) 0 = st_byte st0 (pos + i - cc_size o))).

  (** The backend handles ranges that lie like these correctly. *)
  Definition pair_ok (d s n : nat) : Prop := forall a k st m, length st = 16%nat -> words 32 st -> bytes m ->
    (a + BS * k <= n)%nat -> (d + n <= length m)%nat -> (s + n <= length m)%nat ->
    bk_transform B cx k st m (d + a) (s + a)
    = Some (put m (d + a) (xor_with (st_byte st) 0 (slice m (s + a) (BS * k))), (bk_ratio B * k)%nat).
  Lemma pair_apart d s n : apart d s n -> pair_ok d s n.
  Proof.
    intros H a k st m L W Hm Ha Hd Hs. apply (bo_transform _ _ BO); try assumption; fold BS; try lia. unfold apart in *. lia.
  Qed.
  Lemma pair_shift d s n x : (x <= n)%nat -> pair_ok d s n -> pair_ok (d + x) (s + x) (n - x).
  Proof.
    intros Hx H a k st m L W Hm Ha Hd Hs. rewrite <- !Nat.add_assoc. apply H; try assumption; lia.
  Qed.

  Context (st0 : list N) (L0 : length st0 = 16%nat) (W0 : words 32 st0).

  Lemma cc_count_spec gen n : cc_count (at_ctr st0 (N.of_nat gen)) n = Some (at_ctr st0 (N.of_nat (gen + n))).
  Proof.
    destruct (at_ctr_ok st0 (N.of_nat gen) L0 W0) as [L W].
    unfold cc_count. rewrite (rd_nth _ 12 0) by lia. cbn [bind]. rewrite wr_upd by lia.
    rewrite Nat2N.inj_add, <- at_ctr_at_ctr by exact L0. reflexivity.
  Qed.

  (** The whole groups go through the backend, which uses [T] for the text; the rest is done by the bytes. *)
  Lemma tail_mv buf m d s n gen T : length buf = 512%nat -> bytes buf -> bytes m ->
    (d + n <= length m)%nat -> (s + n <= length m)%nat -> movable d s n ->
    let full := (n / BS)%nat in let last := (n mod BS)%nat in
    length T = (BS * full)%nat -> bytes T ->
    ((0 < full)%nat -> bk_transform B cx full (at_ctr st0 (N.of_nat gen)) m d s
       = Some (put m d (xor_with (st_byte (at_ctr st0 (N.of_nat gen))) 0 T), (bk_ratio B * full)%nat)) ->
    exists buf' gen',
      ('(st, m, dst, src) <-
        (if (0 <? full)%nat then
           '(m, done) <- bk_transform B cx full (at_ctr st0 (N.of_nat gen)) m d s ;;
           st <- cc_count (at_ctr st0 (N.of_nat gen)) done ;;
           Some (st, m, (d + full * BS)%nat, (s + full * BS)%nat)
         else Some (at_ctr st0 (N.of_nat gen), m, d, s)) ;;
       if (0 <? last)%nat then
         '(buf, done) <- bk_generate B cx 1%nat st buf ;;
         st <- cc_count st done ;;
         m <- mxor_loop m dst src buf 0 0 last ;;
         Some (buf, last, st, m)
       else Some (buf, last, st, m))
      = Some (buf', last, at_ctr st0 (N.of_nat gen'), put m d (xor_with (st_byte st0) (64 * gen) (T ++ slice m (s + BS * full) last)))
      /\ stream_at st0 (64 * gen + n) {| cc_state := at_ctr st0 (N.of_nat gen'); cc_buffer := buf'; cc_size := last |}.
  Proof.
    intros Lb Hb Hm Hd Hs Ha full last LT BT HTr. pose proof bs_pos as Hbs.
    assert (E : n = (BS * full + last)%nat) by (apply Nat.div_mod; lia).
    assert (Hlast : (last < BS)%nat) by (apply Nat.mod_upper_bound; lia).
    clearbody full last.
    assert (S1 : (if (0 <? full)%nat then
           '(m, done) <- bk_transform B cx full (at_ctr st0 (N.of_nat gen)) m d s ;;
           st <- cc_count (at_ctr st0 (N.of_nat gen)) done ;;
           Some (st, m, (d + full * BS)%nat, (s + full * BS)%nat)
         else Some (at_ctr st0 (N.of_nat gen), m, d, s))
        = Some (at_ctr st0 (N.of_nat (gen + bk_ratio B * full)),
                put m d (xor_with (st_byte st0) (64 * gen) T), (d + BS * full)%nat, (s + BS * full)%nat)).
    { destruct (Nat.ltb_spec 0 full) as [Hf|Hf].
      - destruct (at_ctr_ok st0 (N.of_nat gen) L0 W0) as [L W].
        rewrite HTr by exact Hf. cbn [bind]. rewrite cc_count_spec. cbn [bind]. fold BS. rewrite (Nat.mul_comm full BS).
        do 4 f_equal. f_equal. apply xor_with_ext. intros i _. rewrite st_byte_shift by exact L0. f_equal; lia.
      - assert (full = 0%nat) by lia. subst full. rewrite !Nat.mul_0_r, !Nat.add_0_r.
        replace T with (@nil N) by (destruct T; [reflexivity|cbn in LT; lia]). cbn [xor_with]. rewrite put_nil. reflexivity. }
    rewrite S1. clear S1. cbn [bind].
    set (m1 := put m d _).
    assert (Lx : length (xor_with (st_byte st0) (64 * gen) T) = (BS * full)%nat)
      by (rewrite xor_with_length; exact LT).
    assert (Lm1 : length m1 = length m) by (apply put_length; lia).
    assert (Hr : (64 * (bk_ratio B * full) = BS * full)%nat) by (unfold BS, bk_block; lia).
    assert (Hr1 : (64 * bk_ratio B = BS)%nat) by (unfold BS, bk_block; lia).
    destruct (Nat.ltb_spec 0 last) as [Hl|Hl].
    - destruct (at_ctr_ok st0 (N.of_nat (gen + bk_ratio B * full)) L0 W0) as [L W].
      rewrite (bo_generate _ _ BO) by (assumption || (unfold BS in *; lia)). cbn [bind]. fold BS.
      rewrite cc_count_spec. cbn [bind].
      set (b1 := put buf 0 _).
      assert (Lb1 : length b1 = 512%nat) by (unfold b1; rewrite put_length; rewrite ?stream_bytes_length; lia).
      rewrite mxor_loop_mv by (unfold movable in *; lia). cbn [bind].
      exists b1, (gen + bk_ratio B * full + bk_ratio B)%nat.
      assert (Nb : forall i, (i < BS)%nat -> nth i b1 0 = st_byte st0 (64 * gen + BS * full + i)).
      { intros i Hi. unfold b1. rewrite nth_put by (rewrite stream_bytes_length; lia). rewrite stream_bytes_length.
        destruct (Nat.leb_spec 0 i); [|lia]. destruct (Nat.ltb_spec i (0 + BS)); [|lia]. cbn [andb]. rewrite Nat.sub_0_r.
        rewrite nth_stream by exact Hi. rewrite st_byte_shift by exact L0. f_equal; lia. }
      split.
      + do 2 f_equal. unfold m1. rewrite put_put; [|lia|].
        2:{ rewrite Lx, xor_with_length. rewrite slice_length by (fold m1; lia). lia. }
        rewrite slice_put_other by (rewrite ?Lx; unfold movable in *; lia).
        rewrite xor_with_app, LT. do 2 f_equal.
        apply xor_with_ext. intros i Hi. rewrite slice_length in Hi by lia. rewrite Nat.add_0_l. apply Nb. lia.
      + exists (gen + bk_ratio B * full + bk_ratio B)%nat. cbn [cc_state cc_buffer cc_size].
        split; [reflexivity|]. split; [exact Lb1|]. split.
        { apply put_bytes; [exact Hb|]. apply stream_bytes_bytes, st_byte_byte. }
        right. split; [lia|]. split; [lia|]. intros i Hi. rewrite Nb by exact Hi. f_equal; lia.
    - exists buf, (gen + bk_ratio B * full)%nat. split.
      + do 2 f_equal. replace last with 0%nat by lia. change (slice m (s + BS * full) 0) with (@nil N). rewrite app_nil_r. reflexivity.
      + exists (gen + bk_ratio B * full)%nat. cbn [cc_state cc_buffer cc_size].
        split; [reflexivity|]. split; [exact Lb|]. split; [exact Hb|]. left. lia.
  Qed.

  Lemma tail_spec buf m d s n gen : length buf = 512%nat -> bytes buf -> bytes m ->
    (d + n <= length m)%nat -> (s + n <= length m)%nat -> movable d s n -> pair_ok d s n ->
    let full := (n / BS)%nat in let last := (n mod BS)%nat in
    exists buf' gen',
      ('(st, m, dst, src) <-
        (if (0 <? full)%nat then
           '(m, done) <- bk_transform B cx full (at_ctr st0 (N.of_nat gen)) m d s ;;
           st <- cc_count (at_ctr st0 (N.of_nat gen)) done ;;
           Some (st, m, (d + full * BS)%nat, (s + full * BS)%nat)
         else Some (at_ctr st0 (N.of_nat gen), m, d, s)) ;;
       if (0 <? last)%nat then
         '(buf, done) <- bk_generate B cx 1%nat st buf ;;
         st <- cc_count st done ;;
         m <- mxor_loop m dst src buf 0 0 last ;;
         Some (buf, last, st, m)
       else Some (buf, last, st, m))
      = Some (buf', last, at_ctr st0 (N.of_nat gen'), put m d (xor_with (st_byte st0) (64 * gen) (slice m s n)))
      /\ stream_at st0 (64 * gen + n) {| cc_state := at_ctr st0 (N.of_nat gen'); cc_buffer := buf'; cc_size := last |}.
  Proof.
    intros Lb Hb Hm Hd Hs Ha Hp full last. pose proof bs_pos as Hbs.
    assert (E : n = (BS * full + last)%nat) by (apply Nat.div_mod; lia).
    destruct (tail_mv buf m d s n gen (slice m s (BS * full)) Lb Hb Hm Hd Hs Ha) as (b & g & E1 & I).
    - apply slice_length. fold full. lia.
    - apply slice_bytes, Hm.
    - intros Hf. destruct (at_ctr_ok st0 (N.of_nat gen) L0 W0) as [L W].
      pose proof (Hp 0%nat full _ m L W Hm ltac:(lia) Hd Hs) as Q. rewrite !Nat.add_0_r in Q. exact Q.
    - exists b, g. split; [|exact I]. refine (eq_trans E1 _). do 4 f_equal. fold full last. rewrite <- slice_app. f_equal. symmetry. exact E.
  Qed.

  Lemma prod_xor_mv o pos m d s n : stream_at st0 pos o -> bytes m ->
    (d + n <= length m)%nat -> (s + n <= length m)%nat -> movable d s n -> pair_ok d s n ->
    exists b sz st, update_block_prod_xor B cx cc_count (cc_buffer o) (cc_size o) m d s n (cc_state o)
      = Some (b, sz, st, put m d (xor_with (st_byte st0) pos (slice m s n)))
    /\ stream_at st0 (pos + n) {| cc_state := st; cc_buffer := b; cc_size := sz |}.
  Proof.
    intros (gen & Es & Lb & Hb & Hc) Hm Hd Hs Ha Hpo. unfold update_block_prod_xor. fold BS. rewrite Es.
    destruct Hc as [[-> ->] | (Hz & Hp & Hk)].
    - cbn [Nat.ltb Nat.leb].
      destruct (tail_spec (cc_buffer o) m d s n gen Lb Hb Hm Hd Hs Ha Hpo) as (b & g & E & I).
      do 3 eexists. split; [exact E|exact I].
    - destruct (Nat.ltb_spec 0 (cc_size o)); [|lia]. destruct (Nat.ltb_spec BS (cc_size o)); [lia|].
      pose proof bs_pos as Hbs.
      set (todo := Nat.min (BS - cc_size o) n).
      rewrite mxor_loop_mv by (unfold movable in *; lia). cbn [bind].
      replace (xor_with (fun j => nth j (cc_buffer o) 0) (cc_size o) (slice m s todo))
        with (xor_with (st_byte st0) pos (slice m s todo)).
      2:{ apply xor_with_ext. intros i Hi. rewrite slice_length in Hi by lia. rewrite Hk by lia. f_equal; lia. }
      destruct (Nat.ltb_spec todo (BS - cc_size o)) as [Ht|Ht].
      + assert (En : todo = n) by lia. rewrite En.
        do 3 eexists. split; [reflexivity|].
        exists gen. cbn [cc_state cc_buffer cc_size]. split; [reflexivity|]. split; [exact Lb|]. split; [exact Hb|].
        right. split; [lia|]. split; [lia|]. intros i Hi. rewrite Hk by exact Hi. f_equal; lia.
      + assert (Et : todo = (BS - cc_size o)%nat) by lia.
        assert (Ep : (pos + todo = 64 * gen)%nat) by lia.
        set (o1 := xor_with (st_byte st0) pos (slice m s todo)).
        assert (Lo1 : length o1 = todo) by (unfold o1; rewrite xor_with_length; apply slice_length; lia).
        assert (Lm1 : length (put m d o1) = length m) by (apply put_length; lia).
        destruct (tail_spec (cc_buffer o) (put m d o1) (d + todo) (s + todo) (n - todo) gen Lb Hb) as (b & g & E & I).
        * apply put_bytes; [exact Hm|]. apply xor_with_bytes; [apply st_byte_byte|apply slice_bytes, Hm].
        * rewrite Lm1. lia.
        * rewrite Lm1. lia.
        * unfold movable in *. lia.
        * apply pair_shift; [lia|exact Hpo].
        * exists b, ((n - todo) mod BS)%nat, (at_ctr st0 (N.of_nat g)). split.
          -- refine (eq_trans E _). do 2 f_equal.
             rewrite put_put by (rewrite ?xor_with_length, ?slice_length; rewrite ?Lm1; lia).
             rewrite slice_put_other by (unfold movable in *; lia).
             replace n with (todo + (n - todo))%nat at 2 by lia. rewrite slice_app, xor_with_app, slice_length by lia.
             rewrite Ep. reflexivity.
          -- replace (pos + n)%nat with (64 * gen + (n - todo))%nat by lia. exact I.
  Qed.

  Lemma crypt_mv dir o pos m d s n : stream_at st0 pos o -> bytes m ->
    (d + n <= length m)%nat -> (s + n <= length m)%nat -> movable d s n -> pair_ok d s n ->
    exists o', capie_crypt dir B cx o m s n d = Some (o', put m d (xor_with (st_byte st0) pos (slice m s n)), n)
      /\ stream_at st0 (pos + n) o'.
  Proof.
    intros Ho Hm Hd Hs Ha Hp. destruct (prod_xor_mv o pos m d s n Ho Hm Hd Hs Ha Hp) as (b & sz & st & E & I).
    eexists. split; [|exact I]. destruct dir; cbn [capie_crypt]; [unfold cc_encrypt|unfold cc_decrypt]; rewrite E; reflexivity.
  Qed.
  Lemma crypt_spec dir o pos m d s n : stream_at st0 pos o -> bytes m ->
    (d + n <= length m)%nat -> (s + n <= length m)%nat -> apart d s n ->
    exists o', capie_crypt dir B cx o m s n d = Some (o', put m d (xor_with (st_byte st0) pos (slice m s n)), n)
      /\ stream_at st0 (pos + n) o'.
  Proof. intros Ho Hm Hd Hs Ha. apply crypt_mv; try assumption; [apply apart_movable|apply pair_apart]; exact Ha. Qed.
End Stream.

(** *** initialize *)
Lemma le_words_length ps k : forall l, length (le_words ps k l) = k.
Proof. induction k as [|k IH]; intros l; [reflexivity|]. cbn [le_words length]. rewrite IH. reflexivity. Qed.
Lemma le_words_words k : forall l, bytes l -> words 32 (le_words 4 k l).
Proof.
  induction k as [|k IH]; intros l H; [constructor|]. cbn [le_words]. constructor; [|apply IH, bytes_skipn, H].
  unfold is_word. assert (Q : le_dec (firstn 4 l) < 256 ^ N.of_nat (length (firstn 4 l))) by (apply le_dec_lt, bytes_firstn, H).
  eapply N.lt_le_trans; [exact Q|]. change (2 ^ 32) with (256 ^ 4). apply N.pow_le_mono_r; [lia|].
  rewrite firstn_length. lia.
Qed.

Definition api_state (key iv : list N) : list N := chacha20_state (pad_to 32 key) (iv_counter iv) (iv_nonce iv).
Lemma api_state_ok key iv : bytes key -> bytes iv -> length (api_state key iv) = 16%nat /\ words 32 (api_state key iv).
Proof.
  intros Hk Hv. unfold api_state, chacha20_state, iv_counter, iv_nonce.
  set (K := le_words 4 8 (pad_to 32 key)). set (V := pad_to 16 iv).
  change (le_dec (firstn 4 V) :: le_words 4 3 (skipn 4 V)) with (le_words 4 4 V).
  split; [rewrite !app_length; unfold K; rewrite !le_words_length; reflexivity|].
  apply Forall_app. split; [repeat constructor; unfold is_word; lia|].
  apply Forall_app. split; apply le_words_words, pad_to_bytes; assumption.
Qed.
Lemma chacha20_byte_state key c nonce j :
  chacha20_byte key c nonce j = st_byte (chacha20_state key c nonce) j.
Proof.
  unfold chacha20_byte, st_byte, chacha20_block. apply (f_equal (fun s => nth (j mod 64) (core_block s) 0)). reflexivity.
Qed.
Lemma api_byte_state key iv j : api_byte key iv j = st_byte (api_state key iv) j.
Proof. unfold api_byte, api_state. rewrite chacha20_byte_state. reflexivity. Qed.

Definition cc_wf (o : cc_obj) : Prop := length (cc_state o) = 16%nat /\ length (cc_buffer o) = 512%nat /\ bytes (cc_buffer o).
Lemma cc_new_wf : cc_wf cc_new.
Proof. split; [reflexivity|]. split; [reflexivity|]. apply bytes_repeat0. Qed.
Lemma stream_at_wf B st0 pos o : length st0 = 16%nat -> words 32 st0 -> stream_at B st0 pos o -> cc_wf o.
Proof.
  intros L W (g & E & Lb & Hb & _). split; [|split; assumption]. rewrite E. apply at_ctr_ok; assumption.
Qed.

Lemma initialize_spec cx B o key iv : cc_wf o -> bytes key -> bytes iv ->
  exists o', capie_initialize cx o key iv = Some o' /\ stream_at B (api_state key iv) 0 o'.
Proof.
  intros (L & Lb & Hb) Hk Hv. unfold capie_initialize, cc_initialize.
  destruct (list16 _ L) as (a0 & a1 & a2 & a3 & a4 & a5 & a6 & a7 & a8 & a9 & a10 & a11 & a12 & a13 & a14 & a15 & ->).
  cbn [wr wrs length Nat.add Nat.leb firstn skipn app bind rds].
  rewrite init_bytes_le by (exact is4 || assumption). cbn [bind length Nat.mul Nat.add].
  pose proof (le_words_length 4 8 (pad_to 32 key)) as LK. set (K := le_words 4 8 (pad_to 32 key)) in *.
  assert (EK : exists k0 k1 k2 k3 k4 k5 k6 k7, K = [k0; k1; k2; k3; k4; k5; k6; k7]).
  { clearbody K. do 8 (destruct K as [|? K]; [discriminate LK|]). destruct K; [|discriminate LK]. do 8 eexists. reflexivity. }
  destruct EK as (k0 & k1 & k2 & k3 & k4 & k5 & k6 & k7 & EK). rewrite EK.
  unfold wrs at 1. cbn [length Nat.add Nat.leb firstn skipn app bind rds].
  rewrite init_bytes_le by (exact is4 || assumption). cbn [bind length Nat.mul Nat.add].
  pose proof (le_words_length 4 4 (pad_to 16 iv)) as LV. set (V := le_words 4 4 (pad_to 16 iv)) in *.
  assert (EV : exists v0 v1 v2 v3, V = [v0; v1; v2; v3]).
  { clearbody V. do 4 (destruct V as [|? V]; [discriminate LV|]). destruct V; [|discriminate LV]. do 4 eexists. reflexivity. }
  destruct EV as (v0 & v1 & v2 & v3 & EV). rewrite EV.
  unfold wrs at 1. cbn [length Nat.add Nat.leb firstn skipn app bind rds].
  eexists. split; [reflexivity|].
  destruct (api_state_ok key iv Hk Hv) as [La Wa].
  exists 0%nat. cbn [cc_state cc_buffer cc_size]. split; [|split; [exact Lb|split; [exact Hb|left; split; reflexivity]]].
  change (N.of_nat 0) with 0. rewrite at_ctr_0 by assumption.
  unfold api_state, chacha20_state, iv_counter, iv_nonce.
  change (le_dec (firstn 4 (pad_to 16 iv)) :: le_words 4 3 (skipn 4 (pad_to 16 iv))) with V. fold K. rewrite EK, EV. reflexivity.
Qed.

(** *** Containers *)
Section Api.
  Context (cx : ctx) (B : backend) (BO : backend_ok cx B).
  Context (st0 : list N) (L0 : length st0 = 16%nat) (W0 : words 32 st0).

  Lemma put_after (t l x : list N) : length x = length t -> (length t <= length l)%nat ->
    skipn (length t) (put (t ++ l) (length t) x) = x ++ skipn (length t) l.
  Proof.
    intros E H. unfold put. rewrite firstn_app, firstn_all, Nat.sub_diag, firstn_O, app_nil_r.
    rewrite skipn_app, skipn_all, Nat.sub_diag, skipn_O. cbn [app]. f_equal.
    rewrite skipn_app, skipn_all2 by lia. cbn [app]. f_equal. lia.
  Qed.
  Lemma slice_app_l (t l : list N) : slice (t ++ l) 0 (length t) = t.
  Proof. unfold slice. rewrite skipn_O, firstn_app, firstn_all, Nat.sub_diag, firstn_O. apply app_nil_r. Qed.

  Lemma put_all (l x : list N) : length x = length l -> put l 0 x = x.
  Proof. intros H. unfold put. rewrite firstn_O, skipn_all2 by lia. apply app_nil_r. Qed.

  Lemma crypt_c_spec dir o pos t c : stream_at B st0 pos o -> ccall_ok (CCryptC dir t c) ->
    exists o', option_map (fun x => (fst (fst x), CCon (snd (fst x)) (snd x))) (capie_crypt_c dir B cx o t c)
      = Some (o', cout (st_byte st0) pos (CCryptC dir t c))
      /\ stream_at B st0 (pos + length t) o'.
  Proof.
    intros Ho (Ht & Hc & Hr). unfold capie_crypt_c.
    replace (match dir with Encrypt => cc_encrypt_size | Decrypt => cc_decrypt_size end (length t)) with (length t) by (destruct dir; reflexivity).
    destruct c as [l|l]; cbn [cresize cdata] in *.
    - destruct (crypt_spec cx B BO st0 L0 W0 dir o pos (t ++ resize_list l (length t)) (length t) 0 (length t) Ho) as (o' & E & I).
      + apply bytes_app. split; [exact Ht|]. apply bytes_app. split; [apply bytes_firstn, Hc|apply bytes_repeat0].
      + rewrite app_length, resize_list_length. lia.
      + rewrite app_length. lia.
      + right. right. lia.
      + rewrite E. cbn [bind]. rewrite slice_app_l.
        rewrite put_after by (rewrite ?xor_with_length, ?resize_list_length; lia).
        rewrite (skipn_all2 (resize_list l (length t))) by (rewrite resize_list_length; lia). rewrite app_nil_r.
        cbn [cset cresize]. rewrite resize_list_same by apply xor_with_length.
        exists o'. split; [reflexivity|exact I].
    - destruct (crypt_spec cx B BO st0 L0 W0 dir o pos (t ++ l) (length t) 0 (length t) Ho) as (o' & E & I).
      + apply bytes_app. split; assumption.
      + rewrite app_length. lia.
      + rewrite app_length. lia.
      + right. right. lia.
      + rewrite E. cbn [bind]. rewrite slice_app_l. rewrite put_after by (rewrite ?xor_with_length; lia).
        cbn [cset cresize]. exists o'. split; [reflexivity|exact I].
  Qed.

  Lemma crypt_same_spec dir o pos c : stream_at B st0 pos o -> bytes (cdata c) ->
    exists o', capie_crypt_same dir B cx o c
      = Some (o', cset c (xor_with (st_byte st0) pos (cdata c)), length (cdata c))
      /\ stream_at B st0 (pos + length (cdata c)) o'.
  Proof.
    intros Ho Hc. unfold capie_crypt_same.
    replace (match dir with Encrypt => cc_encrypt_size | Decrypt => cc_decrypt_size end (length (cdata c))) with (length (cdata c)) by (destruct dir; reflexivity).
    assert (Ec : fst (cresize c (length (cdata c))) = c).
    { destruct c; cbn [cresize fst cdata]; [rewrite resize_list_same by reflexivity|]; reflexivity. }
    destruct (cresize c (length (cdata c))) as [c' z]. cbn [fst] in Ec. subst c'.
    destruct (crypt_spec cx B BO st0 L0 W0 dir o pos (cdata c) 0 0 (length (cdata c)) Ho Hc) as (o' & E & I);
      [lia|lia|left; reflexivity|].
    rewrite E. cbn [bind]. rewrite slice_all. rewrite put_all by apply xor_with_length.
    exists o'. split; [|exact I]. destruct c; cbn [cset cresize cdata]; [rewrite resize_list_same by apply xor_with_length|]; reflexivity.
  Qed.

  Lemma crypt_new_spec dir o pos t : stream_at B st0 pos o -> bytes t ->
    exists o', capie_crypt_new dir B cx o t = Some (o', xor_with (st_byte st0) pos t) /\ stream_at B st0 (pos + length t) o'.
  Proof.
    intros Ho Ht. destruct (crypt_c_spec dir o pos t (Dynamic []) Ho) as (o' & E & I).
    { split; [exact Ht|]. split; [constructor|exact Logic.I]. }
    exists o'. split; [|exact I]. unfold capie_crypt_new. destruct (capie_crypt_c dir B cx o t (Dynamic [])) as [[[o1 c1] n1]|]; [|discriminate].
    cbn [option_map fst snd bind] in *. injection E. intros _ -> ->. reflexivity.
  Qed.
End Api.

Lemma cout_ext f g pos c : (forall j, f j = g j) -> cout f pos c = cout g pos c.
Proof.
  intros H. assert (X : forall p t, xor_with f p t = xor_with g p t) by (intros p t; apply xor_with_ext; intros; apply H).
  destruct c as [k v|d m s n t|d t [l|l]|d [l|l]]; cbn; rewrite ?X; reflexivity.
Qed.

(** *** Histories *)
Lemma cipher_run_spec cx B : backend_ok cx B -> forall calls key iv pos o, bytes key -> bytes iv ->
  Forall ccall_ok calls -> stream_at B (api_state key iv) pos o ->
  exists o', cipher_run B cx o calls = Some (o', cexpected key iv pos calls) /\
    exists key' iv' pos', bytes key' /\ bytes iv' /\ stream_at B (api_state key' iv') pos' o'.
Proof.
  intros BO. induction calls as [|c calls IH]; intros key iv pos o Hk Hv Hcs Ho.
  - exists o. split; [reflexivity|]. exists key, iv, pos. auto.
  - inversion Hcs as [|? ? Hc Hcs']; subst. destruct (api_state_ok key iv Hk Hv) as [L W].
    assert (X : forall c, cout (st_byte (api_state key iv)) pos c = cout (api_byte key iv) pos c)
      by (intros; apply cout_ext; intros; symmetry; apply api_byte_state).
    assert (XX : forall t, xor_with (st_byte (api_state key iv)) pos t = xor_with (api_byte key iv) pos t)
      by (intros; apply xor_with_ext; intros; symmetry; apply api_byte_state).
    cbn [cipher_run]. destruct c as [k v|d m s n t|d t c|d c]; cbn [cipher_step].
    + destruct Hc as [Hk' Hv'].
      destruct (initialize_spec cx B o k v (stream_at_wf _ _ _ _ L W Ho) Hk' Hv') as (o1 & E & I).
      rewrite E. cbn [bind]. destruct (IH k v 0%nat o1 Hk' Hv' Hcs' I) as (o2 & R & J). rewrite R. cbn [bind].
      exists o2. split; [reflexivity|exact J].
    + destruct Hc as (Hm & Hs & Hd & Ha).
      destruct (crypt_spec cx B BO _ L W d o pos m t s n Ho Hm Hd Hs Ha) as (o1 & E & I).
      rewrite E. cbn [bind]. destruct (IH key iv _ o1 Hk Hv Hcs' I) as (o2 & R & J). rewrite R. cbn [bind].
      exists o2. split; [|exact J]. rewrite XX. reflexivity.
    + destruct (crypt_c_spec cx B BO _ L W d o pos t c Ho Hc) as (o1 & E & I).
      destruct (capie_crypt_c d B cx o t c) as [[[o1' c1] n1]|]; [|discriminate].
      cbn [option_map fst snd bind] in *. set (w := cout (st_byte (api_state key iv)) pos (CCryptC d t c)) in *.
      assert (E2 : w = CCon c1 n1 /\ o1' = o1) by (clearbody w; split; congruence). destruct E2 as [E2 ->]. rewrite <- E2.
      unfold w. clear w E E2.
      destruct (IH key iv _ o1 Hk Hv Hcs' I) as (o2 & R & J). rewrite R. cbn [bind].
      exists o2. split; [|exact J]. rewrite X. reflexivity.
    + destruct (crypt_same_spec cx B BO _ L W d o pos c Ho Hc) as (o1 & E & I).
      rewrite E. cbn [bind]. destruct (IH key iv _ o1 Hk Hv Hcs' I) as (o2 & R & J). rewrite R. cbn [bind].
      exists o2. split; [|exact J]. rewrite XX. reflexivity.
Qed.

Lemma cipher_history cx B key iv calls : backend_ok cx B -> bytes key -> bytes iv -> Forall ccall_ok calls ->
  exists o o', capie_new cx key iv = Some o /\ cipher_run B cx o calls = Some (o', cexpected key iv 0 calls).
Proof.
  intros BO Hk Hv Hc. destruct (initialize_spec cx B cc_new key iv cc_new_wf Hk Hv) as (o & E & I).
  destruct (cipher_run_spec cx B BO calls key iv 0 o Hk Hv Hc I) as (o' & R & _).
  exists o, o'. split; assumption.
Qed.

Lemma cipher_reinit cx B key iv before key' iv' later : backend_ok cx B ->
  bytes key -> bytes iv -> Forall ccall_ok before -> bytes key' -> bytes iv' -> Forall ccall_ok later ->
  exists o1 o2 outs1 o3 o4 o5 o6 outs,
    capie_new cx key iv = Some o1 /\ cipher_run B cx o1 before = Some (o2, outs1) /\
    capie_initialize cx o2 key' iv' = Some o3 /\ cipher_run B cx o3 later = Some (o4, outs) /\
    capie_new cx key' iv' = Some o5 /\ cipher_run B cx o5 later = Some (o6, outs).
Proof.
  intros BO Hk Hv Hb Hk' Hv' Hl.
  destruct (initialize_spec cx B cc_new key iv cc_new_wf Hk Hv) as (o1 & E1 & I1).
  destruct (cipher_run_spec cx B BO before key iv 0 o1 Hk Hv Hb I1) as (o2 & R2 & k2 & v2 & p2 & Hk2 & Hv2 & I2).
  destruct (api_state_ok k2 v2 Hk2 Hv2) as [L W].
  destruct (initialize_spec cx B o2 key' iv' (stream_at_wf _ _ _ _ L W I2) Hk' Hv') as (o3 & E3 & I3).
  destruct (cipher_run_spec cx B BO later key' iv' 0 o3 Hk' Hv' Hl I3) as (o4 & R4 & _).
  destruct (initialize_spec cx B cc_new key' iv' cc_new_wf Hk' Hv') as (o5 & E5 & I5).
  destruct (cipher_run_spec cx B BO later key' iv' 0 o5 Hk' Hv' Hl I5) as (o6 & R6 & _).
  exists o1, o2, (cexpected key iv 0 before), o3, o4, o5, o6, (cexpected key' iv' 0 later).
  repeat split; assumption.
Qed.

(** Pieces. *)
Lemma pieces_spec cx B dir st0 : backend_ok cx B -> length st0 = 16%nat -> words 32 st0 ->
  forall ts o pos, Forall bytes ts -> stream_at B st0 pos o ->
  exists o' rs, crypt_pieces dir B cx o ts = Some (o', rs) /\ concat rs = xor_with (st_byte st0) pos (concat ts)
    /\ map (@length N) rs = map (@length N) ts.
Proof.
  intros BO L W. induction ts as [|t ts IH]; intros o pos Ht Ho.
  - exists o, []. auto.
  - inversion Ht; subst. cbn [crypt_pieces concat map].
    destruct (crypt_new_spec cx B BO st0 L W dir o pos t Ho) as (o1 & E & I); [assumption|]. rewrite E. cbn [bind].
    destruct (IH o1 _ ltac:(assumption) I) as (o2 & rs & R & C & M). rewrite R. cbn [bind].
    exists o2, (xor_with (st_byte st0) pos t :: rs). split; [reflexivity|]. split.
    + cbn [concat]. rewrite C, xor_with_app. reflexivity.
    + cbn [map]. rewrite xor_with_length, M. reflexivity.
Qed.

Lemma pad_to_id n l : length l = n -> pad_to n l = l.
Proof. intros <-. unfold pad_to. rewrite firstn_all, Nat.sub_diag. apply app_nil_r. Qed.

Lemma api_rfc key counter nonce : length key = 32%nat -> counter < 2 ^ 32 -> length nonce = 12%nat ->
  pad_to 32 key = key /\ iv_counter (le_enc 4 counter ++ nonce) = counter /\ iv_nonce (le_enc 4 counter ++ nonce) = nonce.
Proof.
  intros Lk Hc Ln. split; [apply pad_to_id, Lk|]. unfold iv_counter, iv_nonce.
  rewrite pad_to_id by (rewrite app_length, le_enc_length; lia).
  rewrite firstn_app, skipn_app, le_enc_length, Nat.sub_diag, firstn_O, skipn_O, app_nil_r.
  rewrite firstn_all2, skipn_all2 by (rewrite le_enc_length; lia). split; [|reflexivity].
  rewrite le_dec_enc. apply N.mod_small. exact Hc.
Qed.

Lemma pieces_api cx B dir key iv ts : backend_ok cx B -> bytes key -> bytes iv -> Forall bytes ts ->
  exists o o' rs, capie_new cx key iv = Some o /\ crypt_pieces dir B cx o ts = Some (o', rs) /\
    map (@length N) rs = map (@length N) ts /\
    concat rs = chacha20 (pad_to 32 key) (iv_counter iv) (iv_nonce iv) (concat ts).
Proof.
  intros BO Hk Hv Ht. destruct (api_state_ok key iv Hk Hv) as [L W].
  destruct (initialize_spec cx B cc_new key iv cc_new_wf Hk Hv) as (o & E & I).
  destruct (pieces_spec cx B dir _ BO L W ts o 0 Ht I) as (o' & rs & R & C & M).
  exists o, o', rs. split; [exact E|]. split; [exact R|]. split; [exact M|]. rewrite C. apply xor_with_ext.
  intros i _. unfold api_state. rewrite chacha20_byte_state. reflexivity.
Qed.

Lemma pieces_rfc cx B dir key counter nonce ts : backend_ok cx B ->
  bytes key -> length key = 32%nat -> counter < 2 ^ 32 -> bytes nonce -> length nonce = 12%nat -> Forall bytes ts ->
  exists o o' rs, capie_new cx key (le_enc 4 counter ++ nonce) = Some o /\ crypt_pieces dir B cx o ts = Some (o', rs) /\
    map (@length N) rs = map (@length N) ts /\ concat rs = chacha20 key counter nonce (concat ts).
Proof.
  intros BO Hk Lk Hc Hn Ln Ht.
  destruct (pieces_api cx B dir key (le_enc 4 counter ++ nonce) ts BO Hk) as (o & o' & rs & E & R & M & C).
  - apply bytes_app. split; [apply le_enc_bytes|exact Hn].
  - exact Ht.
  - exists o, o', rs. split; [exact E|]. split; [exact R|]. split; [exact M|]. rewrite C.
    destruct (api_rfc key counter nonce Lk Hc Ln) as (-> & -> & ->). reflexivity.
Qed.

Lemma chacha20_twice key c nonce t : chacha20 key c nonce (chacha20 key c nonce t) = t.
Proof. apply xor_with_twice. Qed.
Lemma chacha20_bytes key c nonce t : bytes t -> bytes (chacha20 key c nonce t).
Proof. intros H. apply xor_with_bytes; [|exact H]. intros j. rewrite chacha20_byte_state. apply st_byte_byte. Qed.

Lemma bytes_concat ts : Forall bytes ts <-> bytes (concat ts).
Proof.
  induction ts as [|t ts IH]; [split; constructor|]. cbn [concat]. split.
  - intros H. inversion H; subst. apply bytes_app. split; [assumption|apply IH; assumption].
  - intros H. apply bytes_app in H. destruct H. constructor; [assumption|apply IH; assumption].
Qed.

Lemma round_trip cx1 cx2 B1 B2 key iv ts : backend_ok cx1 B1 -> backend_ok cx2 B2 -> bytes key -> bytes iv -> Forall bytes ts ->
  exists o o' rs, capie_new cx1 key iv = Some o /\ crypt_pieces Encrypt B1 cx1 o ts = Some (o', rs) /\
  forall cs, concat cs = concat rs ->
  exists p p' qs, capie_new cx2 key iv = Some p /\ crypt_pieces Decrypt B2 cx2 p cs = Some (p', qs) /\
    concat qs = concat ts.
Proof.
  intros B1O B2O Hk Hv Ht.
  destruct (pieces_api cx1 B1 Encrypt key iv ts B1O Hk Hv Ht) as (o & o' & rs & E & R & _ & C).
  exists o, o', rs. split; [exact E|]. split; [exact R|]. intros cs Hcs.
  assert (Hb : Forall bytes cs).
  { apply bytes_concat. rewrite Hcs, C. apply chacha20_bytes, bytes_concat, Ht. }
  destruct (pieces_api cx2 B2 Decrypt key iv cs B2O Hk Hv Hb) as (p & p' & qs & E' & R' & _ & C').
  exists p, p', qs. split; [exact E'|]. split; [exact R'|]. rewrite C', Hcs, C. apply chacha20_twice.
Qed.

(** Free functions. *)
Lemma cipher_free_spec cx B dir key iv t : backend_ok cx B -> bytes key -> bytes iv -> bytes t ->
  let r := chacha20 (pad_to 32 key) (iv_counter iv) (iv_nonce iv) t in
  cipher_free_new dir B cx key iv t = Some r /\
  (forall l, bytes l -> cipher_free_c dir B cx key iv t (Dynamic l) = Some (Dynamic r, length t)) /\
  (forall l, bytes l -> (length t <= length l)%nat ->
     cipher_free_c dir B cx key iv t (Static l) = Some (Static (r ++ skipn (length t) l), length t)).
Proof.
  intros BO Hk Hv Ht r. destruct (api_state_ok key iv Hk Hv) as [L W].
  destruct (initialize_spec cx B cc_new key iv cc_new_wf Hk Hv) as (o & E & I).
  assert (Er : xor_with (st_byte (api_state key iv)) 0 t = r).
  { apply xor_with_ext. intros i _. unfold api_state. rewrite chacha20_byte_state. reflexivity. }
  unfold cipher_free_new, cipher_free_c, capie_new. rewrite E. cbn [bind]. split; [|split].
  - destruct (crypt_new_spec cx B BO _ L W dir o 0 t I Ht) as (o1 & R & _). rewrite R. cbn [bind]. rewrite Er. reflexivity.
  - intros l Hl. destruct (crypt_c_spec cx B BO _ L W dir o 0 t (Dynamic l) I) as (o1 & R & _).
    { split; [exact Ht|]. split; [exact Hl|exact Logic.I]. }
    destruct (capie_crypt_c _ _ _ _ _ _) as [[[? c1] n1]|]; [|discriminate].
    cbn [option_map fst snd bind cout] in *. injection R. intros -> -> _. rewrite Er. reflexivity.
  - intros l Hl Hlen. destruct (crypt_c_spec cx B BO _ L W dir o 0 t (Static l) I) as (o1 & R & _).
    { split; [exact Ht|]. split; [exact Hl|exact Hlen]. }
    destruct (capie_crypt_c _ _ _ _ _ _) as [[[? c1] n1]|]; [|discriminate].
    cbn [option_map fst snd bind cout] in *. injection R. intros -> -> _. rewrite Er. reflexivity.
Qed.
