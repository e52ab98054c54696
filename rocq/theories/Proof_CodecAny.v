(** The decoders on every text and every platform. *)
From Coq Require Import Ascii.
From Verif Require Import Base BaseLemmas Model_Codec Spec_Codec Proof_Codec16 Proof_Codec64 Proof_CodecApi
  Spec_CodecAny.
Local Open Scope N_scope.

Lemma hex_value_high c : 128 <= c -> hex_value c = None.
Proof.
  intros H. destruct (hex_value c) as [v|] eqn:E; [|reflexivity]. apply hex_value_ascii in E. lia.
Qed.

Lemma b64_value_high c : 128 <= c -> b64_value c = None.
Proof.
  intros H. destruct (b64_value c) as [v|] eqn:E; [|reflexivity]. apply b64_value_ascii in E. lia.
Qed.

Lemma hex_value_on_eq sg c :
  hex_value_on sg c = if b16_accepts sg c then Some (b16_cval sg c) else None.
Proof.
  unfold hex_value_on, b16_accepts, b16_cval.
  destruct sg; cbn [andb].
  - destruct (N.leb_spec 128 c) as [H|H].
    + rewrite (hex_value_high c H). reflexivity.
    + destruct (hex_value c); reflexivity.
  - destruct (hex_value c); reflexivity.
Qed.

Lemma b64_value_on_eq sg c :
  b64_value_on sg c = if b64_accepts sg c then Some (b64_cval c) else None.
Proof.
  unfold b64_value_on, b64_accepts, b64_cval.
  destruct sg; cbn [andb].
  - destruct (N.leb_spec 128 c) as [H|H].
    + rewrite (b64_value_high c H). reflexivity.
    + destruct (b64_value c); reflexivity.
  - destruct (b64_value c); reflexivity.
Qed.

Lemma b16_pair_byte sg c d : b16_pair sg c d = hex_byte (b16_cval sg c) (b16_cval sg d).
Proof. unfold b16_pair, hex_byte. rewrite N.shiftl_mul_pow2. reflexivity. Qed.

Lemma hex_run_eq sg t : Nat.odd (length t) = false ->
  hex_run sg t = match b16_values sg t with
                 | Some l => (l, true)
                 | None => (b16_prefix sg t, false) end.
Proof.
  induction t as [|a|c d t IH] using pair_ind; intros Ho.
  - reflexivity.
  - discriminate.
  - cbn [hex_run b16_values b16_prefix]. rewrite !hex_value_on_eq.
    destruct (b16_accepts sg c); destruct (b16_accepts sg d); cbn [andb]; try reflexivity.
    rewrite IH by (cbn [length] in Ho; exact Ho). rewrite b16_pair_byte.
    destruct (b16_values sg t); reflexivity.
Qed.

Lemma b16_prefix_of_values sg t l : b16_values sg t = Some l -> b16_prefix sg t = l.
Proof.
  revert l. induction t as [|a|c d t IH] using pair_ind; intros l H.
  - cbn in *. congruence.
  - discriminate.
  - cbn [b16_values b16_prefix] in *.
    destruct (b16_accepts sg c && b16_accepts sg d); [|discriminate].
    destruct (b16_values sg t) as [l'|]; [|discriminate].
    cbn [option_map] in H. rewrite (IH l' eq_refl). congruence.
Qed.

(** Base 16, every text. *)
Lemma b16_decode_any sg t to e :
  bytes t -> (b16_decode_size t <= length to)%nat ->
  b16_decode sg t to e =
  let '(d, n, ok) := hex_decoding sg t to in
  Some (d, n, if ok then err_none else err_codec_base_16_decode).
Proof.
  intros Hb Hl. unfold b16_decode_size in Hl. unfold hex_decoding.
  destruct (Nat.odd (length t)) eqn:Ho.
  - destruct t as [|c r]; [discriminate|].
    inversion Hb as [|? ? Hc Hr]; subst.
    destruct to as [|x to]; [cbn [length] in Hl; lia|].
    unfold b16_decode. rewrite Ho.
    change (rd (c :: r) 0) with (Some c). cbn [bind].
    destruct (b16_char sg c Hc) as [Ec Vc]. rewrite Ec, Vc.
    rewrite hex_value_on_eq.
    destruct (b16_accepts sg c); cbn [negb]; [|reflexivity].
    set (v := b16_cval sg c). clearbody v. clear Ec Vc.
    assert (Hw : wr (x :: to) 0 v = Some (v :: to)) by reflexivity.
    rewrite Hw. cbn [bind].
    assert (Ho' : Nat.odd (length r) = false).
    { cbn [length] in Ho. rewrite Nat.odd_succ in Ho. rewrite <- Nat.negb_even, Ho. reflexivity. }
    pose proof (Nat.div2_odd (length r)) as Hd2. rewrite Ho' in Hd2. cbn [Nat.b2n] in Hd2.
    assert (Hdiv : Nat.div2 (length (c :: r)) = Nat.div2 (length r)).
    { cbn [length]. replace (S (length r)) with (1 + 2 * Nat.div2 (length r))%nat by lia.
      change (1 + 2 * Nat.div2 (length r))%nat with (S (2 * Nat.div2 (length r))).
      apply Nat.div2_succ_double. }
    rewrite Hdiv in *. set (k := Nat.div2 (length r)) in *.
    assert (Hsz : Nat.div2 (length (c :: r) + 1) = S k).
    { cbn [length]. replace (S (length r) + 1)%nat with (2 * S k)%nat by lia. apply div2_twice. }
    rewrite Hsz. cbn [length] in Hl.
    destruct (Nat.eq_dec k 0) as [Hk|Hk].
    + rewrite Hk in *. destruct r; [|cbn [length] in Hd2; lia].
      cbn [Nat.sub b16_decode_loop bind length firstn hex_run skipn app Nat.add].
      destruct to; reflexivity.
    + destruct to as [|y to]; [cbn [length] in Hl; lia|]. cbn [length] in Hl.
      set (u := firstn (length r - 2) r).
      set (post := skipn (length r - 2) r).
      assert (Hu : r = u ++ post) by (symmetry; apply firstn_skipn).
      assert (Hul : length u = (2 * (k - 1))%nat).
      { subst u. rewrite firstn_length_le by lia. lia. }
      assert (Hbu : bytes u) by (rewrite Hu in Hr; apply Forall_app in Hr; exact (proj1 Hr)).
      pose proof (b16_decode_loop_spec sg u (k - 1)%nat [c] post [v; y] to 1 1 1 Hbu Hul
                    eq_refl eq_refl ltac:(lia)) as H.
      cbn [app] in H. change (c :: u ++ post) with ([c] ++ (u ++ post)) in H.
      rewrite <- Hu in H. cbn [app] in H. rewrite H. clear H.
      rewrite hex_run_eq by (rewrite Hul; apply even_twice).
      cbn [skipn firstn app Nat.add].
      destruct (b16_values sg u) as [l|] eqn:E; cbn [bind].
      * apply b16_values_length in E.
        replace (k - 1)%nat with (length l) by lia.
        replace (k + 1)%nat with (S k) by lia. reflexivity.
      * reflexivity.
  - rewrite b16_decode_even by (assumption || lia).
    rewrite hex_run_eq by exact Ho.
    destruct (b16_values sg t); reflexivity.
Qed.

(** Through the interface: a caller of the function returning a fresh container. *)
Lemma base16_new_any sg t : bytes t ->
  apie_decode_new (base_16 sg) t =
  Some (match hex_decoding sg t (repeat 0 (b16_decode_size t)) with
        | (d, _, true) => Returns d
        | (_, _, false) => Throws err_codec_base_16_decode end).
Proof.
  intros Hb. unfold apie_decode_new, apie_decode_throw.
  cbn [base_16 co_decode co_decode_size cresize cdata cset bind].
  assert (Hz : resize_list [] (b16_decode_size t) = repeat 0 (b16_decode_size t)).
  { unfold resize_list. rewrite firstn_nil. cbn [length app]. rewrite Nat.sub_0_r. reflexivity. }
  rewrite Hz.
  assert (Hr := b16_decode_any sg t (repeat 0 (b16_decode_size t)) err_none Hb
                  ltac:(rewrite repeat_length; lia)).
  rewrite Hr. clear Hr.
  destruct (hex_decoding sg t (repeat 0 (b16_decode_size t))) as [[d n] ok] eqn:E.
  cbn [bind]. destruct ok; [|reflexivity].
  cbn [err_bool bind cresize cset].
  assert (Hdn : length d = n).
  { clear Hz. unfold hex_decoding, b16_decode_size in E.
    destruct (Nat.odd (length t)) eqn:Ho.
    - destruct t as [|c r]; [discriminate|].
      destruct (hex_value_on sg c) as [v|]; [|discriminate].
      assert (Ho' : Nat.odd (length r) = false).
      { cbn [length] in Ho. rewrite Nat.odd_succ in Ho. rewrite <- Nat.negb_even, Ho. reflexivity. }
      pose proof (Nat.div2_odd (length r)) as Hd2. rewrite Ho' in Hd2. cbn [Nat.b2n] in Hd2.
      set (k := Nat.div2 (length r)) in *.
      assert (Hdiv : Nat.div2 (length (c :: r)) = k).
      { cbn [length]. replace (S (length r)) with (S (2 * k)) by lia. apply Nat.div2_succ_double. }
      assert (Hsz : Nat.div2 (length (c :: r) + 1) = S k).
      { cbn [length]. replace (S (length r) + 1)%nat with (2 * S k)%nat by lia. apply div2_twice. }
      rewrite Hdiv, Hsz in E.
      set (u := firstn (length r - 2) r) in *.
      assert (Hul : length u = (length r - 2)%nat) by (subst u; apply firstn_length_le; lia).
      assert (Hue : length u = (2 * (k - 1))%nat) by lia.
      rewrite hex_run_eq in E by (rewrite Hue; apply even_twice).
      destruct (b16_values sg u) as [l|] eqn:Ev; [|congruence].
      apply b16_values_length in Ev.
      assert (Hd : d = v :: firstn 1 (skipn 1 (repeat 0 (k + 1))) ++ l
                         ++ skipn (2 + length l) (repeat 0 (k + 1))) by congruence.
      assert (n = S k) by congruence. subst n. rewrite Hd. clear E Hd.
      cbn [length]. rewrite !app_length, firstn_length, !skipn_length, !repeat_length. lia.
    - rewrite hex_run_eq in E by exact Ho.
      pose proof (Nat.div2_odd (length t)) as Hd2. rewrite Ho in Hd2. cbn [Nat.b2n] in Hd2.
      destruct (b16_values sg t) as [l|] eqn:Ev; [|congruence].
      apply b16_values_length in Ev.
      assert (Hd : d = l ++ skipn (length l) (repeat 0 (Nat.div2 (length t) + 0))) by congruence.
      assert (n = length l) by congruence. subst n. rewrite Hd.
      rewrite app_length, skipn_length, repeat_length. lia. }
  rewrite resize_list_same by exact Hdn. reflexivity.
Qed.

(** *** Base 64 *)
Lemma g0_byte w x : b64_g0 w x = b64_byte0 w x.
Proof. unfold b64_g0, b64_byte0. rewrite N.shiftl_mul_pow2, N.shiftr_div_pow2. reflexivity. Qed.
Lemma g1_byte w x : b64_g1 w x = b64_byte1 w x.
Proof. unfold b64_g1, b64_byte1. rewrite N.shiftl_mul_pow2, N.shiftr_div_pow2. reflexivity. Qed.
Lemma g2_byte w x : b64_g2 w x = b64_byte2 w x.
Proof. unfold b64_g2, b64_byte2. rewrite N.shiftl_mul_pow2. reflexivity. Qed.

Lemma b64_accepts_pad sg : b64_accepts sg 61 = false.
Proof. destruct sg; vm_compute; reflexivity. Qed.

Lemma b64_tail_last sg w x y z : b64_tail sg w x y z = b64_last sg w x y z.
Proof.
  unfold b64_tail, b64_last. rewrite !b64_value_on_eq. change pad_char with 61.
  rewrite !g0_byte, !g1_byte, !g2_byte.
  destruct (b64_accepts sg w); cbn [negb orb]; [|reflexivity].
  destruct (b64_accepts sg x); cbn [negb orb]; [|reflexivity].
  destruct (N.eqb_spec y 61) as [->|Hy]; destruct (N.eqb_spec z 61) as [->|Hz];
    rewrite ?b64_accepts_pad; cbn [negb orb andb app]; try reflexivity.
  - destruct (b64_accepts sg y); reflexivity.
  - destruct (b64_accepts sg y), (b64_accepts sg z); reflexivity.
Qed.

Lemma b64_run_step sg w x y z r : r <> [] ->
  b64_run sg (w :: x :: y :: z :: r) =
  if b64_all4 sg w x y z then
    let (l, ok) := b64_run sg r in
    (b64_g0 (b64_cval w) (b64_cval x) :: b64_g1 (b64_cval x) (b64_cval y)
       :: b64_g2 (b64_cval y) (b64_cval z) :: l, ok)
  else ([], false).
Proof.
  intros Hr. destruct r as [|a r]; [contradiction|].
  cbn [b64_run]. rewrite !b64_value_on_eq, !g0_byte, !g1_byte, !g2_byte. unfold b64_all4.
  destruct (b64_accepts sg w), (b64_accepts sg x), (b64_accepts sg y), (b64_accepts sg z);
    reflexivity.
Qed.

Lemma b64_run_split sg w x y z : forall body, (length body mod 4 = 0)%nat ->
  b64_run sg (body ++ [w; x; y; z]) =
  let '(l, ok) := b64_body sg body in
  if ok then match b64_tail sg w x y z with Some g => (l ++ g, true) | None => (l, false) end
  else (l, false).
Proof.
  induction body as [|a|a b|a b c|a b c d t IH] using quad_ind; intros Hm; try discriminate.
  - cbn [app b64_run b64_body]. rewrite b64_tail_last. destruct (b64_last sg w x y z); reflexivity.
  - cbn [length] in Hm.
    assert (Hm' : (length t mod 4 = 0)%nat).
    { replace (S (S (S (S (length t))))) with (length t + 1 * 4)%nat in Hm by lia.
      rewrite Nat.mod_add in Hm by lia. exact Hm. }
    cbn [app]. rewrite b64_run_step by (destruct t; discriminate).
    cbn [b64_body]. destruct (b64_all4 sg a b c d); [|reflexivity].
    rewrite IH by exact Hm'. destruct (b64_body sg t) as [l ok].
    destruct ok; [|reflexivity]. destruct (b64_tail sg w x y z); reflexivity.
Qed.

Lemma b64_run_eq sg t : (length t mod 4 = 0)%nat -> b64_run sg t = b64_result sg t.
Proof.
  intros Hm. unfold b64_result.
  destruct (Nat.eq_dec (length t) 0) as [H0|H0].
  - destruct t; [reflexivity|discriminate].
  - set (body := firstn (length t - 4) t). set (tail := skipn (length t - 4) t).
    assert (Ht : t = body ++ tail) by (symmetry; apply firstn_skipn).
    assert (H4 : (4 <= length t)%nat).
    { destruct (Nat.lt_ge_cases (length t) 4) as [H|H]; [|exact H].
      rewrite Nat.mod_small in Hm by exact H. contradiction. }
    assert (Hlt : length tail = 4%nat) by (subst tail; rewrite skipn_length; lia).
    assert (Hlb : (length body mod 4 = 0)%nat).
    { subst body. rewrite firstn_length_le by lia.
      pose proof (Nat.div_mod (length t) 4 ltac:(lia)) as HD. rewrite Hm, Nat.add_0_r in HD.
      replace (length t - 4)%nat with ((length t / 4 - 1) * 4)%nat by lia.
      apply Nat.mod_mul. lia. }
    rewrite Ht at 1. clearbody body tail. clear Ht.
    destruct tail as [|w [|x [|y [|z [|? ?]]]]]; try discriminate.
    apply b64_run_split. exact Hlb.
Qed.

(** The number of bytes decoded never exceeds [decode_size]. *)
Lemma b64_result_fits sg t n : bytes t -> (length t mod 4 = 0)%nat ->
  (Z.of_nat (length t) * 3 < 2 ^ 64)%Z -> b64_decode_size t = Some n ->
  (length (fst (b64_result sg t)) <= n)%nat /\
  forall d e, length d = n ->
  b64_decode sg t d e =
  Some (fst (b64_result sg t) ++ skipn (length (fst (b64_result sg t))) d,
        length (fst (b64_result sg t)),
        if snd (b64_result sg t) then err_none else err_codec_base_64_decode).
Proof.
  intros Hb Hm Hz Hn.
  assert (Hroom : (3 * (length t / 4) <= n + 2)%nat).
  { destruct (b64_decode_size_eq t Hz) as [Hsz Hp].
    assert (Hn' : n = (length t * 3 / 4 - padding t)%nat) by congruence.
    assert (Hp2 : (padding t <= 2)%nat).
    { unfold padding. destruct (rev t) as [|a [|b [|c r]]]; try lia.
      - destruct (a =? 61); lia.
      - destruct (a =? 61); [destruct (b =? 61)|]; lia. }
    assert (H34 : (3 * (length t / 4) = length t * 3 / 4)%nat).
    { pose proof (Nat.div_mod (length t) 4 ltac:(lia)) as HD. rewrite Hm, Nat.add_0_r in HD.
      rewrite HD at 2. replace (4 * (length t / 4) * 3)%nat with (3 * (length t / 4) * 4)%nat by lia.
      rewrite Nat.div_mul by lia. reflexivity. }
    lia. }
  pose proof (fun to e => b64_decode_exact sg t to e Hb Hm) as Hx.
  destruct (b64_result sg t) as [l ok]. cbn [fst snd].
  (** with any two bytes [q] behind the destination, they are left alone *)
  assert (Hkeep : forall d q e, length d = n -> length q = 2%nat ->
            exists d', length d' = n /\
              b64_decode sg t d e = Some (d', length l, if ok then err_none else err_codec_base_64_decode) /\
              l ++ skipn (length l) (d ++ q) = d' ++ q).
  { intros d q e Hd Hq.
    destruct (b64_decode_safe sg t d [] e n Hz Hn Hd) as (d' & s & e' & H & Hl').
    rewrite !app_nil_r in H.
    pose proof (b64_decode_frame _ _ q _ _ _ _ _ H) as Hf.
    rewrite Hx in Hf by (rewrite app_length; lia).
    exists d'. split; [lia|]. split; [|congruence]. rewrite H. congruence. }
  assert (Hln : (length l <= n)%nat).
  { destruct (Compare_dec.le_dec (length l) n) as [H|H]; [exact H|exfalso].
    destruct (Hkeep (repeat 0 n) [0; 0] err_none (repeat_length 0 n) eq_refl) as (d0 & H0 & _ & E0).
    destruct (Hkeep (repeat 0 n) [1; 1] err_none (repeat_length 0 n) eq_refl) as (d1 & H1 & _ & E1).
    apply (f_equal (fun x => nth n x 7)) in E0, E1.
    rewrite (app_nth1 l) in E0 by lia. rewrite (app_nth1 l) in E1 by lia.
    rewrite app_nth2 in E0 by lia. rewrite app_nth2 in E1 by lia.
    rewrite H0, Nat.sub_diag in E0. rewrite H1, Nat.sub_diag in E1. cbn [nth] in E0, E1. congruence. }
  split; [exact Hln|].
  intros d e Hd. destruct (Hkeep d [0; 0] e Hd eq_refl) as (d' & Hd' & -> & E).
  rewrite skipn_app in E. replace (length l - length d)%nat with 0%nat in E by lia.
  rewrite skipn_O, app_assoc in E. apply app_inv_tail in E. rewrite E. reflexivity.
Qed.

Lemma b64_decode_any sg t d e n :
  bytes t -> (Z.of_nat (length t) * 3 < 2 ^ 64)%Z -> b64_decode_size t = Some n -> length d = n ->
  let '(l, ok) := b64_decoding sg t in
  (length l <= n)%nat /\
  b64_decode sg t d e = Some (l ++ skipn (length l) d, length l,
                              if ok then err_none else err_codec_base_64_decode).
Proof.
  intros Hb Hz Hn Hd. unfold b64_decoding.
  destruct (Nat.eqb_spec (length t mod 4) 0) as [Hm|Hm].
  - rewrite b64_run_eq by exact Hm.
    destruct (b64_result_fits sg t n Hb Hm Hz Hn) as [H1 H2].
    specialize (H2 d e Hd). destruct (b64_result sg t) as [l ok]. split; [exact H1|exact H2].
  - split; [cbn; lia|]. rewrite b64_decode_bad_length by exact Hm. reflexivity.
Qed.

(** Through the interface. *)
Lemma base64_any sg t old e :
  bytes t -> (Z.of_nat (length t) * 3 < 2 ^ 64)%Z ->
  let '(l, ok) := b64_decoding sg t in
  apie_decode (base_64 sg) t (Dynamic old) e
    = Some (Dynamic l, length l, if ok then err_none else err_codec_base_64_decode) /\
  apie_decode_new (base_64 sg) t
    = Some (if ok then Returns l else Throws err_codec_base_64_decode).
Proof.
  intros Hb Hz. destruct (b64_decode_size_eq t Hz) as [Hn _].
  set (n := (length t * 3 / 4 - padding t)%nat) in *. clearbody n.
  pose proof (fun d e Hd => b64_decode_any sg t d e n Hb Hz Hn Hd) as H.
  destruct (b64_decoding sg t) as [l ok].
  unfold apie_decode_new, apie_decode, apie_decode_throw.
  cbn [base_64 co_decode co_decode_size cresize]. rewrite Hn. cbn [bind cresize cdata cset].
  destruct (H (resize_list old n) e (resize_list_length old n)) as [Hl ->].
  destruct (H (resize_list [] n) err_none (resize_list_length [] n)) as [_ ->].
  cbn [bind cresize cset cdata]. split.
  - rewrite resize_list_app_same. reflexivity.
  - destruct ok; cbn [err_bool bind cresize cset cdata]; [|reflexivity].
    rewrite resize_list_app_same. reflexivity.
Qed.

(** Relation with the RFC texts. *)
Lemma hex_run_rfc sg t l : spec_unhex t = Some l -> hex_run sg t = (l, true).
Proof.
  intros H. pose proof (spec_unhex_ascii _ _ H) as Ha. pose proof (spec_unhex_length _ _ H) as Hl.
  rewrite hex_run_eq by (rewrite Hl; apply even_twice).
  rewrite b16_values_spec by (right; exact Ha). rewrite H. reflexivity.
Qed.

Lemma base16_even_new sg t : bytes t -> Nat.odd (length t) = false ->
  apie_decode_new (base_16 sg) t =
  Some (let (l, ok) := hex_run sg t in if ok then Returns l else Throws err_codec_base_16_decode).
Proof.
  intros Hb Ho. rewrite apie_decode16_new_exact by assumption. rewrite hex_run_eq by exact Ho.
  destruct (b16_values sg t); reflexivity.
Qed.

(** Odd length, three or more characters: [c], the pairs of [u], and two more. *)
Lemma base16_odd_new sg c u a b : bytes (c :: u ++ [a; b]) -> Nat.odd (length u) = false ->
  apie_decode_new (base_16 sg) (c :: u ++ [a; b]) =
  Some (match hex_value_on sg c, hex_run sg u with
        | Some v, (l, true) => Returns (v :: 0 :: l)
        | _, _ => Throws err_codec_base_16_decode end).
Proof.
  intros Hb Ho. rewrite base16_new_any by exact Hb. unfold hex_decoding, b16_decode_size.
  pose proof (Nat.div2_odd (length u)) as Hd2. rewrite Ho in Hd2. cbn [Nat.b2n] in Hd2.
  set (k := Nat.div2 (length u)) in *.
  assert (Hlen : length (c :: u ++ [a; b]) = S (2 * (k + 1))).
  { cbn [length]. rewrite app_length. cbn [length]. lia. }
  assert (Hodd : Nat.odd (length (c :: u ++ [a; b])) = true).
  { rewrite Hlen, Nat.odd_succ. rewrite <- Nat.negb_odd, even_twice. reflexivity. }
  rewrite Hodd.
  destruct (hex_value_on sg c) as [v|]; [|reflexivity].
  assert (Hu : firstn (length (u ++ [a; b]) - 2) (u ++ [a; b]) = u).
  { rewrite app_length. cbn [length]. replace (length u + 2 - 2)%nat with (length u) by lia.
    rewrite firstn_app, firstn_all, Nat.sub_diag, firstn_O, app_nil_r. reflexivity. }
  rewrite Hu. rewrite Hlen, Nat.div2_succ_double.
  destruct (hex_run sg u) as [l ok] eqn:E. destruct ok; [|reflexivity].
  assert (Hl : length l = k).
  { rewrite hex_run_eq in E by exact Ho. destruct (b16_values sg u) as [l'|] eqn:Ev; [|congruence].
    apply b16_values_length in Ev. assert (l' = l) by congruence. subst l'. lia. }
  do 3 f_equal.
  replace (k + 1 + 1)%nat with (2 + k)%nat by lia. cbn [repeat Nat.add skipn firstn app].
  rewrite skipn_all_le by (rewrite repeat_length; lia). rewrite app_nil_r. reflexivity.
Qed.

Lemma base16_single sg c : c < 128 ->
  apie_decode_new (base_16 sg) [c] =
  Some (match spec_unhex_any [c] with
        | Some l => Returns l
        | None => Throws err_codec_base_16_decode end).
Proof.
  intros Hc.
  assert (Hb : bytes [c]) by (constructor; [red; lia|constructor]).
  rewrite base16_new_any by exact Hb. unfold hex_decoding.
  change (Nat.odd (length [c])) with true.
  unfold spec_unhex_any. change (Nat.odd (length [c])) with true.
  assert (Hz : forall d, spec_unhex [N_of_ascii "0"%char; d] = option_map (fun y => [y]) (hex_value d)).
  { intros d. cbn [spec_unhex]. change (hex_value (N_of_ascii "0"%char)) with (Some 0).
    destruct (hex_value d); reflexivity. }
  rewrite Hz.
  assert (Hv : hex_value_on sg c = hex_value c).
  { unfold hex_value_on. destruct (N.leb_spec 128 c); [lia|]. rewrite andb_false_r. reflexivity. }
  rewrite Hv. destruct (hex_value c); reflexivity.
Qed.

(** The last two characters of a longer odd text have no effect. *)
Lemma base16_odd_ignores sg t a b a' b' to e :
  bytes t -> a < 256 -> b < 256 -> a' < 256 -> b' < 256 -> Nat.odd (length t) = true ->
  (b16_decode_size (t ++ [a; b]) <= length to)%nat ->
  b16_decode sg (t ++ [a; b]) to e = b16_decode sg (t ++ [a'; b']) to e.
Proof.
  intros Hb Ha Hb1 Ha' Hb2 Ho Hl.
  assert (HB : forall x y, x < 256 -> y < 256 -> bytes (t ++ [x; y])).
  { intros x y Hx Hy. apply Forall_app. split; [exact Hb|]. repeat constructor; assumption. }
  assert (HL : forall x y, length (t ++ [x; y]) = S (S (length t))).
  { intros x y. rewrite app_length. cbn [length]. lia. }
  assert (Hs : b16_decode_size (t ++ [a'; b']) = b16_decode_size (t ++ [a; b])).
  { unfold b16_decode_size. rewrite !HL. reflexivity. }
  rewrite (b16_decode_any sg (t ++ [a; b])) by (try apply HB; assumption).
  rewrite (b16_decode_any sg (t ++ [a'; b'])) by (try apply HB; rewrite ?Hs; assumption).
  unfold hex_decoding. rewrite !HL.
  assert (Ho2 : Nat.odd (S (S (length t))) = true) by exact Ho.
  rewrite Ho2. destruct t as [|c u]; [discriminate|]. cbn [app].
  assert (Hu : forall x y, firstn (length (u ++ [x; y]) - 2) (u ++ [x; y]) = u).
  { intros x y. rewrite app_length. cbn [length]. replace (length u + 2 - 2)%nat with (length u) by lia.
    rewrite firstn_app, firstn_all, Nat.sub_diag, firstn_O, app_nil_r. reflexivity. }
  rewrite !Hu. reflexivity.
Qed.
