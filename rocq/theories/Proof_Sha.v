(** The hash objects: invariant, [update], [finalize], [digest]. *)
From Verif Require Import Base BaseLemmas Spec_Bytes Spec_Sha Model_Memory Model_Update Model_Container Model_Sha
  BytesLemmas Proof_Memory Proof_Memory2 Proof_ShaCore Proof_Sha2Core Proof_Soak.
Local Open Scope N_scope.

Definition sha_nst (a : sha) : nat := match a with SHA1 => 5 | _ => 8 end.
Definition sha_wide (a : sha) : bool := match a with SHA1 | SHA224 | SHA256 => false | _ => true end.
Definition st_ok (a : sha) (st : list N) : Prop :=
  length st = sha_nst a /\ words (bits (sha_word_size a)) st.

(** What a class must satisfy to be a hash class for algorithm [a]. *)
Record alg_ok (a : sha) (al : hash_alg) : Prop := {
  ao_bs : ha_block_size al = sha_block_size a;
  ao_word : ha_word al = sha_word_size a;
  ao_iv : ha_iv al = sha_iv a;
  ao_wide : ha_wide al = sha_wide a;
  ao_limit : ha_limit al = (sha_block_size a - sha_len_size a)%nat;
  ao_blocks : forall cx n st src, st_ok a st -> bytes src -> (n * sha_block_size a <= length src)%nat ->
    ha_blocks al cx n st src = Some (iter_blocks (sha_block_size a) n (sha_compress a) st src)
}.

Lemma compress_ok a st b : st_ok a st -> bytes b -> length b = sha_block_size a -> st_ok a (sha_compress a st b).
Proof.
  intros _ _ _. destruct a; cbn [sha_compress]; unfold sha1_compress, sha2_compress.
  all: match goal with |- context [fold_left ?f ?l ?v] => generalize (fold_left f l v) end.
  1: intros [[[[? ?] ?] ?] ?].
  2-7: intros [[[[[[[? ?] ?] ?] ?] ?] ?] ?].
  all: split; [reflexivity|]; repeat constructor; apply wadd_lt.
Qed.

Lemma words_check w l : forallb (fun x => x <? 2 ^ w) l = true -> words w l.
Proof.
  intros H. apply Forall_forall. intros x Hx. rewrite forallb_forall in H.
  apply N.ltb_lt, H, Hx.
Qed.
Lemma sha_iv_ok a : st_ok a (sha_iv a).
Proof.
  split; [destruct a; vm_compute; reflexivity|].
  destruct a; apply words_check; vm_compute; reflexivity.
Qed.

Lemma milo_alg_ok a dsz : alg_ok a (milo_hash_opt a dsz).
Proof.
  assert (IV : ha_iv (milo_hash_opt a dsz) = sha_iv a) by (destruct a; vm_compute; reflexivity).
  constructor; [destruct a; reflexivity|destruct a; reflexivity|exact IV|destruct a; reflexivity
               |destruct a; reflexivity|].
  intros cx n st src [Hl Hw] Hb Hn. destruct a.
  - exact (sha1_blocks_spec cx n st src Hb Hn Hl Hw).
  - exact (sha2_blocks_spec cx sha2_32 sha_2_256_sw n st src match_256 Hb Hn Hl Hw).
  - exact (sha2_blocks_spec cx sha2_32 sha_2_256_sw n st src match_256 Hb Hn Hl Hw).
  - exact (sha2_blocks_spec cx sha2_64 sha_2_512_sw n st src match_512 Hb Hn Hl Hw).
  - exact (sha2_blocks_spec cx sha2_64 sha_2_512_sw n st src match_512 Hb Hn Hl Hw).
  - exact (sha2_blocks_spec cx sha2_64 sha_2_512_sw n st src match_512 Hb Hn Hl Hw).
  - exact (sha2_blocks_spec cx sha2_64 sha_2_512_sw n st src match_512 Hb Hn Hl Hw).
Qed.

(** *** Byte counters *)
Definition count_of (wide : bool) (n : N) : list N :=
  if wide then [n mod 2 ^ 64; (n / 2 ^ 64) mod 2 ^ 64] else [n mod 2 ^ 64].

Definition count_ok (wide : bool) (c : list N) : Prop := exists n, c = count_of wide n.

Lemma count_add_spec wide n s : (wide = true -> s < 2 ^ 64) ->
  count_add wide (count_of wide n) s = Some (count_of wide (n + s)).
Proof.
  intros Hs. destruct wide; cbn [count_add count_of rd nth_error bind]; unfold wadd.
  - specialize (Hs eq_refl). do 2 f_equal.
    + apply N.add_mod_idemp_l. lia.
    + f_equal. rewrite <- N.add_mod_idemp_l by lia. rewrite N.mod_mod, N.add_mod_idemp_l by lia. f_equal.
      pose proof (N.div_mod n (2 ^ 64) ltac:(lia)) as E. pose proof (N.mod_lt n (2 ^ 64) ltac:(lia)) as L.
      set (r := n mod 2 ^ 64) in *. set (q := n / 2 ^ 64) in *.
      destruct (N.ltb_spec (2 ^ 64 - 1 - s) r) as [H|H].
      * apply (N.div_unique _ _ _ (r + s - 2 ^ 64)); lia.
      * rewrite N.add_0_r. apply (N.div_unique _ _ _ (r + s)); lia.
  - do 2 f_equal. apply N.add_mod_idemp_l. lia.
Qed.

Lemma length_words_spec wide n : exists ws, length_words wide (count_of wide n) = Some ws /\
  length ws = (if wide then 2 else 1)%nat /\ words 64 ws /\
  flat_map (be_enc 8) ws = be_enc (if wide then 16 else 8) (8 * n).
Proof.
  assert (E3 : forall x, wshl 64 (x mod 2 ^ 64) 3 = (8 * x) mod 2 ^ 64).
  { intros x. unfold wshl. rewrite N.shiftl_mul_pow2. change (2 ^ 3) with 8. rewrite N.mul_comm.
    apply N.mul_mod_idemp_r. lia. }
  assert (Elo : forall x, be_enc 8 (x mod 2 ^ 64) = be_enc 8 x).
  { intros x. unfold be_enc. f_equal. apply (le_enc_mod 8). }
  destruct wide; cbn [length_words count_of rd nth_error bind].
  - eexists. split; [reflexivity|]. split; [reflexivity|]. split.
    + constructor; [|constructor; [|constructor]]; unfold is_word.
      * rewrite E3. apply (N.lt_le_trans _ (2 ^ 64)); [|lia].
        destruct (N.eq_dec (N.lor ((8 * (n / 2 ^ 64)) mod 2 ^ 64) (N.shiftr (n mod 2 ^ 64) 61)) 0) as [->|Hne]; [lia|].
        apply N.log2_lt_pow2; [lia|]. rewrite N.log2_lor. apply N.max_lub_lt.
        -- destruct (N.eq_dec ((8 * (n / 2 ^ 64)) mod 2 ^ 64) 0) as [->|H0]; [cbn; lia|].
           apply N.log2_lt_pow2; [lia|]. apply N.mod_lt. lia.
        -- destruct (N.eq_dec (N.shiftr (n mod 2 ^ 64) 61) 0) as [->|H0]; [cbn; lia|].
           apply N.log2_lt_pow2; [lia|]. rewrite N.shiftr_div_pow2.
           pose proof (N.mod_lt n (2 ^ 64) ltac:(lia)).
           pose proof (N.div_le_upper_bound (n mod 2 ^ 64) (2 ^ 61) (2 ^ 3) ltac:(lia) ltac:(lia)). lia.
      * rewrite E3. apply N.mod_lt. lia.
    + cbn [flat_map]. rewrite app_nil_r, !E3, Elo.
      assert (EE : forall x, be_enc 16 x = be_enc 8 (x / 2 ^ 64) ++ be_enc 8 x).
      { intros x. unfold be_enc. rewrite <- rev_app_distr. f_equal. apply (le_enc_app 8 8). }
      rewrite EE. f_equal. rewrite <- (Elo (8 * n / 2 ^ 64)). f_equal.
      assert (E8 : (8 * (n / 2 ^ 64)) mod 2 ^ 64 = N.shiftl ((n / 2 ^ 64) mod 2 ^ 61) 3).
      { rewrite N.shiftl_mul_pow2. change (2 ^ 64) with (2 ^ 3 * 2 ^ 61) at 2.
        change 8 with (2 ^ 3). rewrite N.mul_mod_distr_l by lia. lia. }
      assert (Hs : N.shiftr (n mod 2 ^ 64) 61 < 2 ^ 3).
      { rewrite N.shiftr_div_pow2. pose proof (N.mod_lt n (2 ^ 64) ltac:(lia)).
        apply N.div_lt_upper_bound; lia. }
      rewrite E8, lor_shiftl_add by assumption. rewrite N.shiftr_div_pow2.
      pose proof (N.div_mod n (2 ^ 64) ltac:(lia)) as E. pose proof (N.mod_lt n (2 ^ 64) ltac:(lia)) as L.
      set (r := n mod 2 ^ 64) in *. set (q := n / 2 ^ 64) in *.
      pose proof (N.div_mod q (2 ^ 61) ltac:(lia)) as Eq. pose proof (N.mod_lt q (2 ^ 61) ltac:(lia)) as Lq.
      pose proof (N.div_mod r (2 ^ 61) ltac:(lia)) as Er. pose proof (N.mod_lt r (2 ^ 61) ltac:(lia)) as Lr.
      assert (E1 : 8 * n / 2 ^ 64 = 8 * q + r / 2 ^ 61).
      { symmetry. apply (N.div_unique _ _ _ (8 * (r mod 2 ^ 61))); lia. }
      rewrite E1. apply (N.mod_unique _ _ (q / 2 ^ 61)); [|]; change (2 ^ 3) with 8 in *; lia.
  - eexists. split; [reflexivity|]. split; [reflexivity|]. split.
    + constructor; [|constructor]. unfold is_word. rewrite E3. apply N.mod_lt. lia.
    + cbn [flat_map]. rewrite app_nil_r, E3, Elo. reflexivity.
Qed.

Lemma stor_words64_spec cx : forall ws pre post, bytes pre -> bytes post -> words 64 ws ->
  (8 * length ws <= length post)%nat -> forall i, length pre = (i * 8)%nat ->
  stor_words64 cx (pre ++ post) i ws
  = Some (pre ++ flat_map (be_enc 8) ws ++ skipn (8 * length ws) post).
Proof.
  induction ws as [|w ws IH]; intros pre post Hpre Hpost Hw Hl i Hi; [reflexivity|].
  inversion Hw as [|? ? Hw1 Hw2]; subst. cbn [length] in Hl.
  assert (I8 : int_size 8) by (unfold int_size; auto).
  cbn [stor_words64]. rewrite mem_stor_be_bytes;
    [|assumption|apply bytes_app; auto|exact Hw1|rewrite app_length; lia].
  rewrite wrs_some by (rewrite be_enc_length, app_length; lia). cbn [bind].
  rewrite be_enc_length, <- Hi.
  rewrite firstn_app, firstn_all, Nat.sub_diag, firstn_O, app_nil_r.
  rewrite skipn_app, (skipn_all2 pre) by lia. cbn [app].
  replace (length pre + 8 - length pre)%nat with 8%nat by lia.
  rewrite app_assoc, IH.
  - cbn [flat_map length]. rewrite <- !app_assoc, skipn_skipn.
    replace (8 * S (length ws))%nat with (8 * length ws + 8)%nat by lia. reflexivity.
  - apply bytes_app. split; [assumption|apply be_enc_bytes].
  - apply bytes_skipn. assumption.
  - assumption.
  - rewrite skipn_length. lia.
  - rewrite app_length, be_enc_length. lia.
Qed.

Lemma bytes_resize l n : bytes l -> bytes (resize_list l n).
  Proof. intros H. apply bytes_app. split; [apply bytes_firstn; assumption|apply bytes_repeat0]. Qed.
Lemma resize_length l n : length (resize_list l n) = n.
  Proof. unfold resize_list. rewrite app_length, firstn_length, repeat_length. lia. Qed.

(** *** Well-formed objects *)
Section Hash.
  Context (a : sha) (al : hash_alg) (AO : alg_ok a al).
  Let bs := sha_block_size a.
  Let lenb := sha_len_size a.
  Let f := sha_compress a.

  Lemma bs_pos : (0 < bs)%nat.
  Proof. unfold bs. destruct a; cbn; lia. Qed.
  Lemma lenb_wide : lenb = if sha_wide a then 16%nat else 8%nat.
  Proof. unfold lenb. destruct a; reflexivity. Qed.
  Lemma lenb_bs : (lenb < bs)%nat.
  Proof. unfold lenb, bs. destruct a; cbn; lia. Qed.
  Lemma word_int : int_size (sha_word_size a).
  Proof. unfold int_size. destruct a; cbn; lia. Qed.
  Lemma word_gt1 : (1 < sha_word_size a)%nat.
  Proof. destruct a; cbn; lia. Qed.

  Definition pend (o : hash_obj) : list N := firstn (ho_size o) (ho_buffer o).

  Record hwf (o : hash_obj) : Prop := {
    hw_st : st_ok a (ho_state o);
    hw_count : count_ok (sha_wide a) (ho_count o);
    hw_buf : length (ho_buffer o) = (2 * bs)%nat;
    hw_bytes : bytes (ho_buffer o);
    hw_size : (ho_size o < bs)%nat
  }.

  Lemma pend_length o : hwf o -> length (pend o) = ho_size o.
  Proof. intros H. unfold pend. rewrite firstn_length. pose proof (hw_buf o H). pose proof (hw_size o H). lia. Qed.
  Lemma pend_bytes o : hwf o -> bytes (pend o).
  Proof. intros H. apply bytes_firstn, hw_bytes. assumption. Qed.

  Lemma count_init : (if ha_wide al then [0; 0] else [0]) = count_of (sha_wide a) 0.
  Proof. rewrite (ao_wide _ _ AO). destruct (sha_wide a); reflexivity. Qed.

  Lemma new_wf : hwf (hash_initialize al (hash_new al)).
  Proof.
    constructor; cbn [hash_initialize hash_new ho_state ho_count ho_buffer ho_size].
    - rewrite (ao_iv _ _ AO). apply sha_iv_ok.
    - rewrite count_init. exists 0. reflexivity.
    - rewrite repeat_length, (ao_bs _ _ AO). reflexivity.
    - apply bytes_repeat0.
    - apply bs_pos.
  Qed.

  Lemma init_wf o : hwf o -> hwf (hash_initialize al o).
  Proof.
    intros H. constructor; cbn [hash_initialize ho_state ho_count ho_buffer ho_size].
    - rewrite (ao_iv _ _ AO). apply sha_iv_ok.
    - rewrite count_init. exists 0. reflexivity.
    - apply hw_buf. assumption.
    - apply hw_bytes. assumption.
    - apply bs_pos.
  Qed.

  Lemma absorb_ok st m : st_ok a st -> bytes m -> st_ok a (absorb bs f st m).
  Proof.
    intros Hs Hm. unfold absorb. apply (iter_blocks_inv (st_ok a)); [|assumption|assumption|apply div_mul_le].
    apply compress_ok.
  Qed.

  Lemma update_spec cx o msg n : hwf o -> bytes msg -> (sha_wide a = true -> N.of_nat (length msg) < 2 ^ 64) ->
    ho_count o = count_of (sha_wide a) n ->
    exists o', hash_update cx al o msg = Some o' /\ hwf o' /\
      ho_state o' = absorb bs f (ho_state o) (pend o ++ msg) /\
      ho_count o' = count_of (sha_wide a) (n + N.of_nat (length msg)) /\
      ho_size o' = (length (pend o ++ msg) mod bs)%nat /\
      pend o' = rest bs (pend o ++ msg).
  Proof.
    intros H Hm Hs Hc. unfold hash_update. rewrite (ao_wide _ _ AO), Hc, count_add_spec by assumption.
    cbn [bind]. rewrite (ao_bs _ _ AO). fold bs.
    destruct (soak_spec (st_ok a) bs f (ha_blocks al cx) bs_pos (compress_ok a)
                (ao_blocks _ _ AO cx) (ho_buffer o) (ho_size o) msg (ho_state o)) as (buf' & E & L & B & F).
    - apply hw_st. assumption.
    - apply hw_bytes. assumption.
    - assumption.
    - apply hw_size. assumption.
    - rewrite hw_buf by assumption. lia.
    - fold (pend o) in *. rewrite E. cbn [bind]. eexists. split; [reflexivity|].
      split; [|cbn [ho_state ho_count ho_size]; repeat split; try reflexivity; exact F].
      constructor; cbn [ho_state ho_count ho_size ho_buffer].
      + apply absorb_ok; [apply hw_st; assumption|]. apply bytes_app. split; [apply pend_bytes; assumption|assumption].
      + eexists. reflexivity.
      + rewrite L. apply hw_buf. assumption.
      + assumption.
      + apply Nat.mod_upper_bound. pose proof bs_pos. lia.
  Qed.

  Lemma pad_zeros_small size : (size < bs)%nat ->
    (size + 1 + pad_zeros bs lenb size + lenb = if (bs - lenb <=? size) then 2 * bs else bs)%nat.
  Proof.
    intros H. pose proof lenb_bs as HL. pose proof bs_pos as HB. unfold pad_zeros.
    destruct (Nat.leb_spec (bs - lenb) size) as [H1|H1].
    - assert (E : ((size + 1 + lenb) mod bs = size + 1 + lenb - bs)%nat).
      { symmetry. apply (Nat.mod_unique _ _ 1); lia. }
      rewrite E, Nat.mod_small by lia. lia.
    - destruct (Nat.eq_dec (size + 1 + lenb) bs) as [E|E].
      + rewrite E, Nat.mod_same, Nat.sub_0_r, Nat.mod_same by lia. lia.
      + rewrite (Nat.mod_small (size + 1 + lenb)) by lia. rewrite Nat.mod_small by lia. lia.
  Qed.

  Lemma pad_zeros_mod len : pad_zeros bs lenb len = pad_zeros bs lenb (len mod bs).
  Proof.
    pose proof bs_pos. unfold pad_zeros. f_equal. f_equal.
    rewrite <- !Nat.add_assoc. symmetry. apply Nat.add_mod_idemp_l. lia.
  Qed.

  (** What [finalize] appends to the buffered bytes. *)
  Definition tail_pad (size : nat) (n : N) : list N :=
    [128] ++ repeat 0 (pad_zeros bs lenb size) ++ be_enc lenb (8 * n).

  Lemma tail_pad_bytes size n : bytes (tail_pad size n).
  Proof.
    unfold tail_pad. apply bytes_app. split; [constructor; [unfold is_byte; lia|constructor]|].
    apply bytes_app. split; [apply bytes_repeat0|apply be_enc_bytes].
  Qed.

  Lemma finalize_spec cx o n : hwf o -> ho_count o = count_of (sha_wide a) n ->
    exists o', hash_finalize cx al o = Some o' /\ hwf o' /\
      ho_state o' = absorb bs f (ho_state o) (pend o ++ tail_pad (ho_size o) n) /\
      ho_count o' = ho_count o /\ ho_size o' = ho_size o /\ pend o' = pend o.
  Proof.
    intros H Hc. pose proof (pend_length o H) as PL. pose proof (pend_bytes o H) as PB.
    pose proof (hw_buf o H) as HB. pose proof (hw_size o H) as HS. pose proof (hw_bytes o H) as HBy.
    pose proof bs_pos as BP. pose proof lenb_bs as LB. pose proof (pad_zeros_small (ho_size o) HS) as PZ.
    unfold hash_finalize. cbv zeta. rewrite (ao_bs _ _ AO), (ao_limit _ _ AO), (ao_wide _ _ AO).
    fold bs. fold lenb. rewrite <- lenb_wide.
    set (last := (if (bs - lenb <=? ho_size o)%nat then (2 * bs)%nat else bs)) in *.
    assert (Hlast : (last = 2 * bs \/ last = bs)%nat).
    { unfold last. destruct (bs - lenb <=? ho_size o)%nat; auto. }
    set (z := pad_zeros bs lenb (ho_size o)) in *.
    rewrite wr_firstn by lia. cbn [bind]. fold (pend o).
    set (t1 := skipn (S (ho_size o)) (ho_buffer o)).
    assert (Lt1 : length t1 = (2 * bs - S (ho_size o))%nat) by (unfold t1; rewrite skipn_length; lia).
    assert (Bt1 : bytes t1) by (apply bytes_skipn; assumption).
    replace (last - lenb - (ho_size o + 1))%nat with z by lia.
    rewrite zero_loop_spec by (rewrite app_length; cbn [length]; lia). cbn [bind].
    change (128 :: t1) with ([128] ++ t1). rewrite (app_assoc (pend o)).
    rewrite (firstn_app (ho_size o + 1)).
    rewrite (firstn_all2 (pend o ++ [128])) by (rewrite app_length; cbn [length]; lia).
    rewrite app_length, PL. cbn [length]. rewrite Nat.sub_diag, firstn_O, app_nil_r.
    rewrite (skipn_app (ho_size o + 1 + z)).
    rewrite (skipn_all2 (pend o ++ [128])) by (rewrite app_length; cbn [length]; lia). cbn [app].
    rewrite app_length, PL. cbn [length].
    replace (ho_size o + 1 + z - (ho_size o + 1))%nat with z by lia.
    rewrite app_assoc. set (h := (pend o ++ [128]) ++ repeat 0 z).
    assert (Lh : length h = (last - lenb)%nat).
    { unfold h. rewrite !app_length, repeat_length. cbn [length]. lia. }
    assert (Bh : bytes h).
    { unfold h. apply bytes_app. split; [apply bytes_app; split; [assumption|]|apply bytes_repeat0].
      constructor; [unfold is_byte; lia|constructor]. }
    rewrite Hc. destruct (length_words_spec (sha_wide a) n) as (ws & Ew & Lw & Ww & Fw). rewrite Ew. cbn [bind].
    rewrite <- Lh. rewrite skipn_app, skipn_all, Nat.sub_diag, skipn_O. cbn [app].
    rewrite firstn_app, firstn_all, Nat.sub_diag, firstn_O, app_nil_r.
    assert (Lz : length (skipn z t1) = (2 * bs - last + lenb)%nat) by (rewrite skipn_length; lia).
    assert (LW : (8 * length ws = lenb)%nat) by (rewrite Lw, lenb_wide; destruct (sha_wide a); reflexivity).
    pose proof (stor_words64_spec cx ws [] (skipn z t1) ltac:(constructor) ltac:(apply bytes_skipn; assumption) Ww
                  ltac:(lia) 0%nat eq_refl) as Es. cbn [app] in Es. rewrite Es. cbn [bind].
    rewrite Fw, <- lenb_wide, LW. set (t3 := skipn lenb (skipn z t1)).
    assert (B3 : bytes t3) by (apply bytes_skipn, bytes_skipn; assumption).
    assert (L3 : length t3 = (2 * bs - last)%nat) by (unfold t3; rewrite skipn_length; lia).
    assert (EP : h ++ be_enc lenb (8 * n) ++ t3 = (pend o ++ tail_pad (ho_size o) n) ++ t3).
    { unfold h, tail_pad. rewrite <- !app_assoc. reflexivity. }
    rewrite EP.
    assert (LP : length (pend o ++ tail_pad (ho_size o) n) = last).
    { unfold tail_pad. rewrite !app_length, repeat_length, be_enc_length. cbn [length]. fold z. lia. }
    assert (BPd : bytes (pend o ++ tail_pad (ho_size o) n)).
    { apply bytes_app. split; [assumption|apply tail_pad_bytes]. }
    assert (BP3 : bytes ((pend o ++ tail_pad (ho_size o) n) ++ t3)) by (apply bytes_app; auto).
    pose proof (div_mul_le last bs) as HD.
    rewrite (ao_blocks _ _ AO);
      [|apply hw_st; assumption|assumption|rewrite app_length, LP; fold bs; lia].
    cbn [bind]. fold bs. fold f. rewrite iter_blocks_prefix by (rewrite LP; assumption).
    eexists. split; [reflexivity|].
    split; [|cbn [ho_state ho_count ho_size]; repeat split].
    - constructor; cbn [ho_state ho_count ho_size ho_buffer].
      + rewrite <- LP at 1. change (iter_blocks bs (length ?m / bs)%nat f ?s ?m) with (absorb bs f s m).
        apply absorb_ok; [apply hw_st; assumption|assumption].
      + exists n. reflexivity.
      + rewrite app_length, LP. lia.
      + assumption.
      + assumption.
    - unfold absorb. rewrite LP. reflexivity.
    - unfold pend at 1. cbn [ho_size ho_buffer]. rewrite <- app_assoc, firstn_app.
      rewrite (firstn_all2 (pend o)) by lia. rewrite PL, Nat.sub_diag, firstn_O, app_nil_r. reflexivity.
  Qed.

  Lemma digest_spec cx o dst size : hwf o -> bytes dst ->
    (ha_digest_size al <= sha_nst a * sha_word_size a)%nat ->
    (Nat.min size (ha_digest_size al) <= length dst)%nat ->
    hash_digest cx al o dst size
    = Some (firstn (Nat.min size (ha_digest_size al)) (flat_map (be_enc (sha_word_size a)) (ho_state o))
              ++ skipn (Nat.min size (ha_digest_size al)) dst,
            Nat.min size (ha_digest_size al)).
  Proof.
    intros H Hb Hd Hl. unfold hash_digest. rewrite (ao_word _ _ AO).
    destruct (hw_st o H) as [Ls Ws].
    rewrite mem_copy_be_spec; [reflexivity|apply word_int|apply word_gt1|assumption|assumption|assumption|].
    rewrite Ls. lia.
  Qed.

  (** *** Objects that hold a message *)
  Record holds (msg : list N) (o : hash_obj) : Prop := {
    hd_wf : hwf o;
    hd_st : ho_state o = absorb bs f (sha_iv a) msg;
    hd_count : ho_count o = count_of (sha_wide a) (N.of_nat (length msg));
    hd_size : ho_size o = (length msg mod bs)%nat;
    hd_pend : pend o = rest bs msg
  }.

  Lemma holds_init o : hwf o -> holds [] (hash_initialize al o).
  Proof.
    intros H. constructor; cbn [hash_initialize ho_state ho_count ho_buffer ho_size length].
    - apply init_wf. assumption.
    - rewrite (ao_iv _ _ AO). rewrite absorb_small; [reflexivity|apply bs_pos].
    - apply count_init.
    - rewrite Nat.mod_small; [reflexivity|apply bs_pos].
    - rewrite rest_small; [reflexivity|apply bs_pos].
  Qed.

  Lemma holds_new : holds [] (hash_initialize al (hash_new al)).
  Proof.
    constructor; cbn [hash_initialize ho_state ho_count ho_buffer ho_size length].
    - apply new_wf.
    - rewrite (ao_iv _ _ AO). rewrite absorb_small; [reflexivity|apply bs_pos].
    - apply count_init.
    - rewrite Nat.mod_small; [reflexivity|apply bs_pos].
    - rewrite rest_small; [reflexivity|apply bs_pos].
  Qed.

  Lemma holds_update cx m o msg : holds m o -> bytes msg ->
    (sha_wide a = true -> N.of_nat (length msg) < 2 ^ 64) ->
    exists o', hash_update cx al o msg = Some o' /\ holds (m ++ msg) o'.
  Proof.
    intros [H Hst Hc Hs Hp] Hm Hl.
    destruct (update_spec cx o msg _ H Hm Hl Hc) as (o' & E & W & S & C & Z & P).
    exists o'. split; [exact E|]. constructor; [exact W|..].
    - rewrite S, Hst, Hp. symmetry. apply absorb_app. apply bs_pos.
    - rewrite C, app_length. f_equal. lia.
    - rewrite Z, Hp, !app_length, rest_length by apply bs_pos. pose proof bs_pos. rewrite Nat.add_mod_idemp_l by lia.
      reflexivity.
    - rewrite P, Hp. symmetry. apply rest_app. apply bs_pos.
  Qed.

  (** The state [finalize] reaches, as FIPS output words. *)
  Lemma holds_finalize cx m o : holds m o ->
    exists o', hash_finalize cx al o = Some o' /\ hwf o' /\
      ho_state o' = sha_final bs lenb f (sha_iv a) m.
  Proof.
    intros [H Hst Hc Hs Hp]. destruct (finalize_spec cx o _ H Hc) as (o' & E & W & S & _).
    exists o'. split; [exact E|]. split; [exact W|].
    rewrite S, Hst, Hp, Hs. unfold sha_final. cbv zeta.
    fold (absorb bs f (sha_iv a) (sha_pad bs lenb m)).
    replace (sha_pad bs lenb m) with (m ++ tail_pad (length m mod bs) (N.of_nat (length m))).
    - symmetry. apply absorb_app. apply bs_pos.
    - unfold sha_pad, tail_pad. rewrite <- pad_zeros_mod. reflexivity.
  Qed.

  (** *** hash/apie.h *)
  Inductive aholds (m : list N) : hash_apie -> Prop :=
  | ah_open o : holds m o -> aholds m {| hp_impl := o; hp_finalized := false |}
  | ah_final o : hwf o -> ho_state o = sha_final bs lenb f (sha_iv a) m ->
      aholds m {| hp_impl := o; hp_finalized := true |}.

  Lemma aholds_new : aholds [] (hapie_new al).
  Proof. apply ah_open, holds_new. Qed.

  Lemma aholds_update cx m p msg : aholds m p -> hp_finalized p = false -> bytes msg ->
    (sha_wide a = true -> N.of_nat (length msg) < 2 ^ 64) ->
    exists p', hapie_update cx al p msg = Some p' /\ aholds (m ++ msg) p' /\ hp_finalized p' = false.
  Proof.
    intros H Hf Hm Hl. destruct H as [o Ho|o Ho Hs]; [|discriminate].
    destruct (holds_update cx m o msg Ho Hm Hl) as (o' & E & H').
    unfold hapie_update. cbn [hp_impl]. rewrite E. cbn [bind hp_finalized]. eexists. split; [reflexivity|].
    split; [apply ah_open; assumption|reflexivity].
  Qed.

  Lemma aholds_finalize cx m p : aholds m p ->
    exists p', hapie_do_finalize cx al p = Some p' /\ aholds m p' /\ hp_finalized p' = true /\
      hwf (hp_impl p') /\ ho_state (hp_impl p') = sha_final bs lenb f (sha_iv a) m /\
      hapie_do_finalize cx al p' = Some p'.
  Proof.
    intros H. destruct H as [o Ho|o Ho Hs]; unfold hapie_do_finalize; cbn [hp_finalized hp_impl].
    - destruct (holds_finalize cx m o Ho) as (o' & E & W & S). rewrite E. cbn [bind].
      eexists. split; [reflexivity|]. cbn [hp_finalized hp_impl].
      split; [apply ah_final; assumption|auto].
    - eexists. split; [reflexivity|]. cbn [hp_finalized hp_impl].
      split; [apply ah_final; assumption|auto].
  Qed.

  Definition full (m : list N) : list N := flat_map (be_enc (sha_word_size a)) (sha_final bs lenb f (sha_iv a) m).

  Lemma full_fips m : full m = fips_full a m.
  Proof. reflexivity. Qed.

  Lemma final_ok m : bytes m -> st_ok a (sha_final bs lenb f (sha_iv a) m).
  Proof.
    intros Hm. unfold sha_final. cbv zeta. fold (absorb bs f (sha_iv a) (sha_pad bs lenb m)).
    apply absorb_ok; [apply sha_iv_ok|]. unfold sha_pad. apply bytes_app. split; [assumption|].
    apply (tail_pad_bytes (length m) (N.of_nat (length m))).
  Qed.

  Lemma full_length m : bytes m -> length (full m) = (sha_nst a * sha_word_size a)%nat.
  Proof.
    intros Hm. unfold full. destruct (final_ok m Hm) as [L _]. rewrite <- L.
    generalize (sha_final bs lenb f (sha_iv a) m) as l.
    induction l as [|x l IH]; [reflexivity|]. cbn [flat_map length Nat.mul].
    rewrite app_length, be_enc_length, IH. reflexivity.
  Qed.

  Context (Hdsz : (ha_digest_size al <= sha_nst a * sha_word_size a)%nat).

  Lemma aholds_digest cx m p dst size : aholds m p -> bytes dst ->
    (Nat.min size (ha_digest_size al) <= length dst)%nat ->
    exists p', hapie_digest cx al p dst size
      = Some (p', firstn (Nat.min size (ha_digest_size al)) (full m)
                    ++ skipn (Nat.min size (ha_digest_size al)) dst,
              Nat.min size (ha_digest_size al)) /\ aholds m p' /\ hp_finalized p' = true.
  Proof.
    intros H Hd Hl. destruct (aholds_finalize cx m p H) as (p' & E & H' & Hf & W & S & _).
    exists p'. unfold hapie_digest. rewrite E. cbn [bind].
    rewrite digest_spec by assumption. cbn [bind]. rewrite S. auto.
  Qed.

  Lemma aholds_digest_c cx m p c size : aholds m p -> bytes (cdata c) ->
    exists p' n, n = Nat.min (Nat.min size (ha_digest_size al))
                        (match c with Dynamic _ => size | Static l => length l end) /\
      hapie_digest_c cx al p c size
      = Some (p', cset c (firstn n (full m) ++ match c with Dynamic _ => [] | Static l => skipn n l end), n) /\
      aholds m p' /\ hp_finalized p' = true.
  Proof.
    intros H Hc. destruct (aholds_finalize cx m p H) as (p1 & E & H1 & Hf1 & W1 & S1 & E1).
    unfold hapie_digest_c. rewrite E. cbn [bind].
    destruct c as [l|l]; cbn [cresize cdata cset] in *.
    - destruct (aholds_digest cx m p1 (resize_list l (Nat.min size (ha_digest_size al)))
                  (Nat.min size (ha_digest_size al)) H1) as (p2 & E2 & H2 & F2).
      + apply bytes_resize. assumption.
      + rewrite resize_length. lia.
      + exists p2, (Nat.min size (ha_digest_size al)).
        split; [lia|]. split; [|auto]. rewrite E2. cbn [bind].
        rewrite (Nat.min_l _ (ha_digest_size al)) by lia.
        rewrite (skipn_all2 (resize_list _ _)) by (rewrite resize_length; lia). reflexivity.
    - destruct (aholds_digest cx m p1 l (Nat.min (Nat.min size (ha_digest_size al)) (length l)) H1)
        as (p2 & E2 & H2 & F2).
      + assumption.
      + lia.
      + exists p2, (Nat.min (Nat.min size (ha_digest_size al)) (length l)).
        split; [lia|]. split; [|auto]. rewrite E2. cbn [bind].
        rewrite (Nat.min_l _ (ha_digest_size al)) by lia. reflexivity.
  Qed.
End Hash.
