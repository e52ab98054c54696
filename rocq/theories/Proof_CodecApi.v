(** Proofs about codec/apie.h on top of the two codecs. *)
From Verif Require Import Base BaseLemmas Model_Codec Spec_Codec Proof_Codec16 Proof_Codec64.
Local Open Scope N_scope.

Lemma resize_list_length l n : length (resize_list l n) = n.
Proof. unfold resize_list. rewrite app_length, firstn_length, repeat_length. lia. Qed.

Lemma resize_list_same l n : length l = n -> resize_list l n = l.
Proof.
  intros <-. unfold resize_list. rewrite firstn_all, Nat.sub_diag. apply app_nil_r.
Qed.

Lemma resize_list_app_same l r : resize_list (l ++ r) (length l) = l.
Proof.
  unfold resize_list. rewrite firstn_app, firstn_all, Nat.sub_diag, app_length.
  replace (length l - (length l + length r))%nat with 0%nat by lia.
  cbn [firstn repeat]. rewrite !app_nil_r. reflexivity.
Qed.

(** *** Base 16 *)

Lemma b16_encode_frame from to tail :
  bytes from -> length to = (2 * length from)%nat ->
  b16_encode from (to ++ tail) = Some (spec_hex from ++ tail, (2 * length from)%nat).
Proof.
  intros Hb Hl. rewrite b16_encode_correct by (assumption || rewrite app_length; lia).
  do 3 f_equal. rewrite <- Hl. rewrite skipn_app, skipn_all_le, Nat.sub_diag by lia. reflexivity.
Qed.

Lemma apie_encode16 sg from old :
  bytes from -> N.of_nat (length from) < 2 ^ 63 ->
  apie_encode (base_16 sg) from (Dynamic old)
  = Some (Dynamic (spec_hex from), length (spec_hex from)).
Proof.
  intros Hb Hn. unfold apie_encode. cbn [base_16 co_encode co_encode_size cresize cdata cset].
  unfold b16_encode_size. rewrite N.mod_small by lia.
  replace (N.to_nat (N.of_nat (length from) * 2)) with (2 * length from)%nat by lia.
  rewrite b16_encode_correct by (assumption || rewrite resize_list_length; lia).
  cbn [bind cset cresize].
  rewrite skipn_all_le, app_nil_r by (rewrite resize_list_length; lia).
  rewrite spec_hex_length, resize_list_same by apply spec_hex_length. reflexivity.
Qed.

Lemma apie_decode16_valid sg t l old e :
  spec_unhex t = Some l ->
  apie_decode (base_16 sg) t (Dynamic old) e = Some (Dynamic l, length l, err_none).
Proof.
  intros H. pose proof (spec_unhex_length _ _ H) as Hn.
  unfold apie_decode. cbn [base_16 co_decode co_decode_size cresize cdata cset bind].
  unfold b16_decode_size. rewrite Hn, even_twice, div2_twice, Nat.add_0_r.
  rewrite (b16_decode_valid _ _ _ _ _ H) by (rewrite resize_list_length; lia).
  cbn [bind cset cresize]. rewrite resize_list_app_same. reflexivity.
Qed.

Lemma apie_decode16_throw_valid sg t l old :
  spec_unhex t = Some l ->
  apie_decode_throw (base_16 sg) t (Dynamic old) = Some (Returns (length l), Dynamic l).
Proof.
  intros H. pose proof (spec_unhex_length _ _ H) as Hn.
  unfold apie_decode_throw. cbn [base_16 co_decode co_decode_size cresize cdata cset bind].
  unfold b16_decode_size. rewrite Hn, even_twice, div2_twice, Nat.add_0_r.
  rewrite (b16_decode_valid _ _ _ _ _ H) by (rewrite resize_list_length; lia).
  cbn [bind cset cresize err_bool]. rewrite resize_list_app_same. reflexivity.
Qed.

Lemma apie_decode16_new_valid sg t l :
  spec_unhex t = Some l -> apie_decode_new (base_16 sg) t = Some (Returns l).
Proof.
  intros H. unfold apie_decode_new. rewrite (apie_decode16_throw_valid _ _ _ _ H). reflexivity.
Qed.

Lemma apie_decode16_new_exact sg t :
  bytes t -> Nat.odd (length t) = false ->
  apie_decode_new (base_16 sg) t =
  Some (match b16_values sg t with
        | Some l => Returns l
        | None => Throws err_codec_base_16_decode end).
Proof.
  intros Hb Ho. unfold apie_decode_new, apie_decode_throw.
  cbn [base_16 co_decode co_decode_size cresize cdata cset bind].
  unfold b16_decode_size. rewrite Ho, Nat.add_0_r.
  rewrite b16_decode_even by (assumption || rewrite resize_list_length; lia).
  destruct (b16_values sg t) as [l|]; cbn [bind cset cresize err_bool]; [|reflexivity].
  rewrite resize_list_app_same. reflexivity.
Qed.

(** The full statement of C03 for one signedness. *)
Definition base16_decode_statement (sg : bool) : Prop :=
  forall t, bytes t -> Nat.odd (length t) = false ->
  apie_decode_new (base_16 sg) t =
  Some (match spec_unhex t with
        | Some l => Returns l
        | None => Throws err_codec_base_16_decode end).

Lemma base16_decode_unsigned : base16_decode_statement false.
Proof.
  intros t Hb Ho. rewrite apie_decode16_new_exact by assumption.
  rewrite b16_values_spec by (left; reflexivity). reflexivity.
Qed.

Lemma base16_decode_ascii sg t :
  Forall (fun c => c < 128) t -> Nat.odd (length t) = false ->
  apie_decode_new (base_16 sg) t =
  Some (match spec_unhex t with
        | Some l => Returns l
        | None => Throws err_codec_base_16_decode end).
Proof.
  intros Ha Ho. rewrite apie_decode16_new_exact by (try apply ascii_bytes; assumption).
  rewrite b16_values_spec by (right; assumption). reflexivity.
Qed.

Lemma base16_decode_signed_refuted : ~ base16_decode_statement true.
Proof.
  intros H. specialize (H [255; 255] ltac:(repeat constructor) eq_refl).
  vm_compute in H. discriminate.
Qed.

(** Every pair of bytes with the top bit set is swallowed silently when char is signed. *)
Lemma base16_signed_accepts_high c d :
  128 <= c -> c < 256 -> 128 <= d -> d < 256 ->
  spec_unhex [c; d] = None /\
  exists b, apie_decode_new (base_16 true) [c; d] = Some (Returns [b]).
Proof.
  intros Hc Hc' Hd Hd'.
  assert (Hv : forall x, 128 <= x -> hex_value x = None).
  { intros x Hx. destruct (hex_value x) as [v|] eqn:E; [|reflexivity].
    apply hex_value_ascii in E. lia. }
  split.
  - cbn [spec_unhex]. rewrite Hv by assumption. reflexivity.
  - rewrite apie_decode16_new_exact by (try (repeat constructor; assumption); reflexivity).
    cbn [b16_values]. unfold b16_accepts. rewrite !Hv by assumption.
    destruct (N.leb_spec 128 c); [|lia]. destruct (N.leb_spec 128 d); [|lia].
    cbn [andb option_map]. eexists. reflexivity.
Qed.

(** Odd length. *)
Definition base16_odd_statement : Prop :=
  forall sg t, bytes t -> Nat.odd (length t) = true ->
  (exists e, apie_decode_new (base_16 sg) t = Some (Throws e)) \/
  (exists l, spec_unhex_any t = Some l /\ apie_decode_new (base_16 sg) t = Some (Returns l)).

Lemma base16_odd_refuted : ~ base16_odd_statement.
Proof.
  intros H.
  specialize (H true [97; 98; 99] ltac:(repeat constructor) eq_refl).
  destruct H as [[e H]|[l [H1 H2]]].
  - vm_compute in H. discriminate.
  - vm_compute in H1, H2. congruence.
Qed.

Lemma b16_decode_loop_skip1 sg from : forall n i fp x y d,
  (1 <= i)%nat -> forall r, b16_decode_loop sg from (x :: y :: d) n i fp 1 = Some r ->
  match r with inl to => exists d', to = x :: y :: d' | inr (to, _) => exists d', to = x :: y :: d' end.
Proof.
  induction n as [|n IH]; intros i fp x y d Hi r H; cbn [b16_decode_loop] in H.
  - injection H as <-. eauto.
  - destruct (rd from fp) as [c0|]; [|discriminate]. cbn [bind] in H.
    destruct (rd from (fp + 1)) as [c1|]; [|discriminate]. cbn [bind] in H.
    match type of H with (if ?b then _ else _) = _ => destruct b end.
    + injection H as <-. eauto.
    + match type of H with context [wr (x :: y :: d) (1 + i) ?v] =>
        set (val := v) in H end.
      destruct (wr (x :: y :: d) (1 + i) val) as [to|] eqn:E; [|discriminate]. cbn [bind] in H.
      assert (Hto : exists d', to = x :: y :: d').
      { unfold wr, wrs in E.
        destruct (1 + i + length [val] <=? length (x :: y :: d))%nat; [|discriminate].
        injection E as <-. destruct i as [|i]; [lia|]. cbn [Nat.add firstn app]. eauto. }
      destruct Hto as [d' ->]. eapply IH; [|exact H]. lia.
Qed.

(** For odd lengths of at least 3 the second destination byte is never written. *)
Lemma b16_decode_odd_untouched sg t x y d e to size e' :
  Nat.odd (length t) = true -> (3 <= length t)%nat ->
  b16_decode sg t (x :: y :: d) e = Some (to, size, e') ->
  exists x' d', to = x' :: y :: d'.
Proof.
  intros Ho Hl H. unfold b16_decode in H. rewrite Ho in H.
  destruct (rd t 0) as [c0|]; [|discriminate]. cbn [bind] in H.
  destruct (char_eq_u8 sg c0 (b16_dec sg c0)).
  - injection H as <- _ _. eauto.
  - change (wr (x :: y :: d) 0 (b16_dec sg c0)) with (Some (b16_dec sg c0 :: y :: d)) in H.
    cbn [bind] in H.
    match type of H with context [b16_decode_loop ?a ?b ?c ?n ?i ?f ?g] =>
      destruct (b16_decode_loop a b c n i f g) as [r|] eqn:E; [|discriminate] end.
    apply b16_decode_loop_skip1 in E; [|lia]. cbn [bind] in H.
    destruct r as [to'|[to' s']].
    + destruct E as [d' ->]. injection H as <- _ _. eauto.
    + destruct E as [d' ->]. injection H as <- _ _. eauto.
Qed.

(** The returned size on failure is twice the number of bytes produced. *)
Lemma b16_decode_error_size sg t to e :
  bytes t -> Nat.odd (length t) = false -> (Nat.div2 (length t) <= length to)%nat ->
  b16_values sg t = None ->
  exists g, b16_decode sg t to e
    = Some (g ++ skipn (length g) to, (2 * length g)%nat, err_codec_base_16_decode)
    /\ g = b16_prefix sg t.
Proof.
  intros Hb Ho Hl Hv. exists (b16_prefix sg t). split; [|reflexivity].
  rewrite b16_decode_even by assumption. rewrite Hv. reflexivity.
Qed.

Definition base16_error_size_statement : Prop :=
  forall sg t old size c, bytes t ->
  apie_decode (base_16 sg) t (Dynamic old) err_none = Some (c, size, err_codec_base_16_decode) ->
  (size <= b16_decode_size t)%nat.

Lemma base16_error_size_refuted : ~ base16_error_size_statement.
Proof.
  intros H.
  specialize (H true [48; 49; 50; 51; 52; 53; 54; 55; 56; 57; 97; 98; 48; 120] [] 12%nat).
  specialize (H (Dynamic [1; 35; 69; 103; 137; 171; 0; 0; 0; 0; 0; 0]) ltac:(repeat constructor) eq_refl).
  vm_compute in H. lia.
Qed.

(** *** Base 64 *)

Lemma b64_encode_frame from to tail :
  bytes from -> length to = length (spec_b64 from) ->
  b64_encode from (to ++ tail) = Some (spec_b64 from ++ tail, length (spec_b64 from)).
Proof.
  intros Hb Hl. rewrite b64_encode_correct by (assumption || rewrite app_length; lia).
  do 3 f_equal. rewrite <- Hl. rewrite skipn_app, skipn_all_le, Nat.sub_diag by lia. reflexivity.
Qed.

Lemma b64_encode_size_nat from : N.of_nat (length from) < 2 ^ 62 ->
  N.to_nat (b64_encode_size (N.of_nat (length from))) = length (spec_b64 from).
Proof.
  intros H. rewrite b64_encode_size_correct by assumption. rewrite spec_b64_length.
  pose proof (N2Nat.inj_div (N.of_nat (length from) + 2) 3) as Hd.
  rewrite N2Nat.inj_mul, Hd, N2Nat.inj_add, Nat2N.id. reflexivity.
Qed.

Lemma apie_encode64 sg from old :
  bytes from -> N.of_nat (length from) < 2 ^ 62 ->
  apie_encode (base_64 sg) from (Dynamic old)
  = Some (Dynamic (spec_b64 from), length (spec_b64 from)).
Proof.
  intros Hb Hn. unfold apie_encode. cbn [base_64 co_encode co_encode_size cresize cdata cset].
  rewrite b64_encode_size_nat by assumption.
  rewrite b64_encode_correct by (assumption || rewrite resize_list_length; lia).
  cbn [bind cset cresize].
  rewrite skipn_all_le, app_nil_r by (rewrite resize_list_length; lia).
  rewrite resize_list_same by reflexivity. reflexivity.
Qed.

(** Error result of decoding, with a destination of exactly decode_size bytes. *)
Lemma b64_decode_bad_length sg t to e :
  (length t mod 4 <> 0)%nat -> b64_decode sg t to e = Some (to, 0%nat, err_codec_base_64_decode).
Proof.
  intros H. unfold b64_decode. destruct (Nat.eqb_spec (length t mod 4) 0); [contradiction|]. reflexivity.
Qed.

(** A run that succeeds on a destination gives the same result on a longer one. *)
Lemma wr_frame {A} (d tl : list A) i v d' :
  wr d i v = Some d' -> wr (d ++ tl) i v = Some (d' ++ tl).
Proof.
  intros H. unfold wr, wrs in *. cbn [length] in *.
  destruct (Nat.leb_spec (i + 1) (length d)) as [Hi|Hi]; [|discriminate].
  rewrite app_length. destruct (Nat.leb_spec (i + 1) (length d + length tl)); [|lia].
  injection H as <-. f_equal.
  rewrite firstn_app, skipn_app.
  replace (i - length d)%nat with 0%nat by lia. replace (i + 1 - length d)%nat with 0%nat by lia.
  cbn [firstn skipn]. rewrite app_nil_r, <- !app_assoc. reflexivity.
Qed.

Lemma b64_decode_loop_frame sg from tl : forall n fp tp d r,
  b64_decode_loop sg from d n fp tp = Some r ->
  b64_decode_loop sg from (d ++ tl) n fp tp =
  Some (match r with inl (d', a, b) => inl (d' ++ tl, a, b) | inr (d', s) => inr (d' ++ tl, s) end).
Proof.
  induction n as [|n IH]; intros fp tp d r H; cbn [b64_decode_loop] in *.
  - injection H as <-. reflexivity.
  - destruct (rd from fp) as [c0|]; [|discriminate]. cbn [bind] in *.
    destruct (rd from (fp + 1)) as [c1|]; [|discriminate]. cbn [bind] in *.
    destruct (rd from (fp + 2)) as [c2|]; [|discriminate]. cbn [bind] in *.
    destruct (rd from (fp + 3)) as [c3|]; [|discriminate]. cbn [bind] in *.
    match type of H with (if ?b then _ else _) = _ => destruct b end.
    + injection H as <-. reflexivity.
    + match type of H with context [wr d tp ?v] =>
        destruct (wr d tp v) as [d1|] eqn:E1; [|discriminate] end.
      rewrite (wr_frame _ _ _ _ _ E1). cbn [bind] in *.
      match type of H with context [wr d1 (tp + 1) ?v] =>
        destruct (wr d1 (tp + 1) v) as [d2|] eqn:E2; [|discriminate] end.
      rewrite (wr_frame _ _ _ _ _ E2). cbn [bind] in *.
      match type of H with context [wr d2 (tp + 2) ?v] =>
        destruct (wr d2 (tp + 2) v) as [d3|] eqn:E3; [|discriminate] end.
      rewrite (wr_frame _ _ _ _ _ E3). cbn [bind] in *.
      apply IH. exact H.
Qed.

Lemma b64_decode_frame sg t tl d e d' s e' :
  b64_decode sg t d e = Some (d', s, e') -> b64_decode sg t (d ++ tl) e = Some (d' ++ tl, s, e').
Proof.
  unfold b64_decode. intros H.
  destruct (negb (length t mod 4 =? 0)%nat).
  - injection H as <- <- <-. reflexivity.
  - destruct (b64_decode_loop sg t d (length t / 4 - 1) 0 0) as [r|] eqn:E; [|discriminate].
    rewrite (b64_decode_loop_frame _ _ tl _ _ _ _ _ E). cbn [bind] in *.
    destruct r as [[[d1 fp] tp]|[d1 s1]].
    2:{ injection H as <- <- <-. reflexivity. }
    destruct (0 <? length t / 4)%nat.
    2:{ injection H as <- <- <-. reflexivity. }
    destruct (rd t fp) as [c0|]; [|discriminate]. cbn [bind] in *.
    destruct (rd t (fp + 1)) as [c1|]; [|discriminate]. cbn [bind] in *.
    destruct (rd t (fp + 2)) as [c2|]; [|discriminate]. cbn [bind] in *.
    destruct (rd t (fp + 3)) as [c3|]; [|discriminate]. cbn [bind] in *.
    match type of H with (if ?b then _ else _) = _ => destruct b end.
    { injection H as <- <- <-. reflexivity. }
    match type of H with context [wr d1 tp ?v] =>
      destruct (wr d1 tp v) as [d2|] eqn:E1; [|discriminate] end.
    rewrite (wr_frame _ _ _ _ _ E1). cbn [bind] in *.
    destruct (c2 =? 61); cbn [negb bind] in *.
    + destruct (c3 =? 61); cbn [negb bind] in *.
      * injection H as <- <- <-. reflexivity.
      * match type of H with context [wr d2 ?i ?v] =>
          destruct (wr d2 i v) as [d3|] eqn:E2; [|discriminate] end.
        rewrite (wr_frame _ _ _ _ _ E2). cbn [bind] in *.
        injection H as <- <- <-. reflexivity.
    + match type of H with context [wr d2 ?i ?v] =>
        destruct (wr d2 i v) as [d3|] eqn:E2; [|discriminate] end.
      rewrite (wr_frame _ _ _ _ _ E2). cbn [bind] in *.
      destruct (c3 =? 61); cbn [negb bind] in *.
      * injection H as <- <- <-. reflexivity.
      * match type of H with context [wr d3 ?i ?v] =>
          destruct (wr d3 i v) as [d4|] eqn:E3; [|discriminate] end.
        rewrite (wr_frame _ _ _ _ _ E3). cbn [bind] in *.
        injection H as <- <- <-. reflexivity.
Qed.

(** Decoding into exactly decode_size bytes. *)
Lemma b64_decode_tight sg t d e n :
  bytes t -> char_safe sg t -> (Z.of_nat (length t) * 3 < 2 ^ 64)%Z ->
  b64_decode_size t = Some n -> length d = n ->
  match spec_unb64 t with
  | Some l => b64_decode sg t d e = Some (l, length l, err_none) /\ length l = n
  | None => exists g, b64_decode sg t d e
              = Some (g ++ skipn (length g) d, length g, err_codec_base_64_decode)
              /\ (length g <= n)%nat
  end.
Proof.
  intros Hb Hs Hz Hn Hd.
  destruct (b64_decode_safe sg t d [] e n Hz Hn Hd) as (d' & s & e' & H & Hl').
  rewrite !app_nil_r in H.
  destruct (Nat.eq_dec (length t mod 4) 0) as [Hm|Hm].
  2:{ destruct (spec_unb64 t) as [l|] eqn:E; [apply spec_unb64_mod4 in E; contradiction|].
      exists []. rewrite b64_decode_bad_length by assumption. split; [reflexivity|cbn; lia]. }
  pose proof (b64_decode_frame _ _ [0; 0] _ _ _ _ _ H) as Hf.
  destruct (b64_decode_size_eq t Hz) as [Hsz Hp].
  assert (Hn' : n = (length t * 3 / 4 - padding t)%nat) by congruence.
  assert (Hp2 : (padding t <= 2)%nat).
  { unfold padding. destruct (rev t) as [|a [|b [|c r]]]; try lia.
    - destruct (a =? 61); lia.
    - destruct (a =? 61); [destruct (b =? 61)|]; lia. }
  assert (H34 : (3 * (length t / 4) = length t * 3 / 4)%nat).
  { pose proof (Nat.div_mod (length t) 4 ltac:(lia)) as HD. rewrite Hm, Nat.add_0_r in HD.
    rewrite HD at 2. replace (4 * (length t / 4) * 3)%nat with (3 * (length t / 4) * 4)%nat by lia.
    rewrite Nat.div_mul by lia. reflexivity. }
  rewrite b64_decode_exact in Hf
    by (try assumption; rewrite app_length; cbn [length]; lia).
  rewrite (b64_result_spec sg) by assumption.
  pose proof (b64_result_spec sg t Hs Hm) as Hr.
  destruct (b64_result sg t) as [l ok] eqn:Er.
  assert (Hf1 : l ++ skipn (length l) (d ++ [0; 0]) = d' ++ [0; 0]) by congruence.
  assert (Hf2 : length l = s) by congruence.
  assert (Hf3 : (if ok then err_none else err_codec_base_64_decode) = e') by congruence.
  clear Hf.
  destruct ok.
  - pose proof (spec_unb64_size sg t l Hr Hs) as Hll.
    assert (Hln : length l = n) by lia.
    split; [|exact Hln].
    rewrite H. rewrite skipn_app, skipn_all_le in Hf1 by lia.
    replace (length l - length d)%nat with 0%nat in Hf1 by lia. cbn [app skipn] in Hf1.
    apply app_inv_tail in Hf1. congruence.
  - exists l.
    assert (Hll : (length l <= n)%nat).
    { assert (HL : (length l <= 3 * (length t / 4) - 3)%nat \/ length t = 0%nat).
      { unfold b64_result in Er.
        destruct (Nat.eq_dec (length t) 0) as [H0|H0]; [right; assumption|left].
        pose proof (b64_body_length sg (firstn (length t - 4) t)) as HB.
        rewrite firstn_length_le in HB by lia.
        assert (Hq : ((length t - 4) mod 4 = 0 /\ 3 * ((length t - 4) / 4) = 3 * (length t / 4) - 3)%nat).
        { pose proof (Nat.div_mod (length t) 4 ltac:(lia)) as HD. rewrite Hm, Nat.add_0_r in HD.
          assert (1 <= length t / 4)%nat by lia.
          replace (length t - 4)%nat with ((length t / 4 - 1) * 4)%nat by lia.
          rewrite Nat.mod_mul, Nat.div_mul by lia. lia. }
        destruct Hq as [Hq1 Hq2]. destruct (HB Hq1) as [_ HB2]. rewrite Hq2 in HB2.
        destruct (b64_body sg (firstn (length t - 4) t)) as [lb okb]. cbn [fst] in HB2.
        destruct okb; [|assert (l = lb) by congruence; subst l; exact HB2].
        destruct (skipn (length t - 4) t) as [|w [|x [|y [|z [|? ?]]]]];
          try (assert (l = lb) by congruence; subst l; exact HB2).
        destruct (b64_tail sg w x y z); [congruence|assert (l = lb) by congruence; subst l; exact HB2]. }
      destruct HL as [HL|HL]; [lia|]. destruct t; [|discriminate]. cbn in Er. inversion Er; subst; cbn; lia. }
    split; [|exact Hll].
    rewrite H. rewrite skipn_app in Hf1.
    replace (length l - length d)%nat with 0%nat in Hf1 by lia. cbn [skipn] in Hf1.
    rewrite app_assoc in Hf1. apply app_inv_tail in Hf1. congruence.
Qed.

Lemma apie_decode64_exact sg t old e :
  bytes t -> char_safe sg t -> (Z.of_nat (length t) * 3 < 2 ^ 64)%Z ->
  match spec_unb64 t with
  | Some l => apie_decode (base_64 sg) t (Dynamic old) e = Some (Dynamic l, length l, err_none)
              /\ apie_decode_throw (base_64 sg) t (Dynamic old) = Some (Returns (length l), Dynamic l)
              /\ co_decode_size (base_64 sg) t = Some (length l)
  | None =>
      (exists g, apie_decode (base_64 sg) t (Dynamic old) e
                 = Some (Dynamic g, length g, err_codec_base_64_decode)
              /\ exists n, co_decode_size (base_64 sg) t = Some n /\ (length g <= n)%nat) /\
      (exists c, apie_decode_throw (base_64 sg) t (Dynamic old)
                 = Some (Throws err_codec_base_64_decode, c))
  end.
Proof.
  intros Hb Hs Hz. destruct (b64_decode_size_eq t Hz) as [Hn _].
  set (n := (length t * 3 / 4 - padding t)%nat) in *. clearbody n.
  pose proof (fun e => b64_decode_tight sg t (resize_list old n) e n Hb Hs Hz Hn
                (resize_list_length old n)) as H.
  unfold apie_decode, apie_decode_throw.
  cbn [base_64 co_decode co_decode_size cresize]. rewrite Hn. cbn [bind cresize cdata cset].
  destruct (spec_unb64 t) as [l|].
  - destruct (H e) as [-> Hl]. destruct (H err_none) as [-> _]. cbn [bind cresize cset err_bool].
    rewrite resize_list_same by reflexivity. rewrite Hl. repeat split; reflexivity.
  - destruct (H e) as (g & -> & Hg). destruct (H err_none) as (g' & -> & Hg').
    cbn [bind cresize cset err_bool]. split.
    + exists g. rewrite resize_list_app_same. split; [reflexivity|]. exists n. split; [reflexivity|exact Hg].
    + eexists. reflexivity.
Qed.

Definition base64_decode_statement (sg : bool) : Prop :=
  forall t, bytes t -> (Z.of_nat (length t) * 3 < 2 ^ 64)%Z ->
  apie_decode_new (base_64 sg) t =
  Some (match spec_unb64 t with
        | Some l => Returns l
        | None => Throws err_codec_base_64_decode end).

Lemma base64_decode_safe_chars sg t :
  bytes t -> char_safe sg t -> (Z.of_nat (length t) * 3 < 2 ^ 64)%Z ->
  apie_decode_new (base_64 sg) t =
  Some (match spec_unb64 t with
        | Some l => Returns l
        | None => Throws err_codec_base_64_decode end).
Proof.
  intros Hb Hs Hz. pose proof (apie_decode64_exact sg t [] err_none Hb Hs Hz) as H.
  unfold apie_decode_new.
  destruct (spec_unb64 t) as [l|].
  - destruct H as (_ & -> & _). reflexivity.
  - destruct H as (_ & c & ->). reflexivity.
Qed.

Lemma base64_decode_unsigned : base64_decode_statement false.
Proof. intros t Hb Hz. apply base64_decode_safe_chars; try assumption. left. reflexivity. Qed.

Lemma base64_decode_ascii sg t :
  Forall (fun c => c < 128) t -> (Z.of_nat (length t) * 3 < 2 ^ 64)%Z ->
  apie_decode_new (base_64 sg) t =
  Some (match spec_unb64 t with
        | Some l => Returns l
        | None => Throws err_codec_base_64_decode end).
Proof.
  intros Ha Hz. apply base64_decode_safe_chars; try assumption.
  - apply ascii_bytes. assumption.
  - right. assumption.
Qed.

Lemma base64_decode_signed_refuted : ~ base64_decode_statement true.
Proof.
  intros H. specialize (H [255; 255; 255; 255] ltac:(repeat constructor) ltac:(cbn; lia)).
  vm_compute in H. discriminate.
Qed.

Lemma base64_roundtrip sg l :
  bytes l -> N.of_nat (length l) < 2 ^ 60 ->
  apie_encode_new (base_64 sg) l = Some (spec_b64 l) /\
  co_decode_size (base_64 sg) (spec_b64 l) = Some (length l) /\
  apie_decode_new (base_64 sg) (spec_b64 l) = Some (Returns l).
Proof.
  intros Hb Hn.
  assert (Hlen : (Z.of_nat (length (spec_b64 l)) * 3 < 2 ^ 64)%Z).
  { rewrite spec_b64_length. change (2 ^ 64)%Z with 18446744073709551616%Z.
    change (2 ^ 60) with 1152921504606846976 in Hn.
    pose proof (Nat.div_mod (length l + 2) 3 ltac:(lia)). lia. }
  pose proof (spec_b64_ascii l) as Ha.
  pose proof (apie_decode64_exact sg (spec_b64 l) [] err_none (ascii_bytes _ Ha)
                (or_intror Ha) Hlen) as H.
  rewrite spec_unb64_b64 in H by assumption. destruct H as (_ & H1 & H2).
  split; [|split].
  - unfold apie_encode_new. rewrite apie_encode64; [reflexivity|assumption|].
    change (2 ^ 62) with 4611686018427387904. change (2 ^ 60) with 1152921504606846976 in Hn. lia.
  - exact H2.
  - unfold apie_decode_new. rewrite H1. reflexivity.
Qed.

Lemma base16_roundtrip sg l t :
  bytes l -> N.of_nat (length l) < 2 ^ 63 ->
  Forall2 (fun c d => d = c \/ d = upper c) (spec_hex l) t ->
  apie_encode_new (base_16 sg) l = Some (spec_hex l) /\
  apie_decode_new (base_16 sg) t = Some (Returns l).
Proof.
  intros Hb Hn Ht. split.
  - unfold apie_encode_new. rewrite apie_encode16 by assumption. reflexivity.
  - apply apie_decode16_new_valid. eapply spec_unhex_case; eassumption.
Qed.

(** *** C10 *)
Lemma b16_decode_err sg t to e1 e2 : b16_decode sg t to e1 = b16_decode sg t to e2.
Proof. reflexivity. Qed.
Lemma b64_decode_err sg t to e1 e2 : b64_decode sg t to e1 = b64_decode sg t to e2.
Proof. reflexivity. Qed.

Lemma b16_decode_codes sg t to e d s e' : b16_decode sg t to e = Some (d, s, e') ->
  e' = err_none \/ e' = err_codec_base_16_decode.
Proof.
  unfold b16_decode. intros H. destruct (Nat.odd (length t)).
  - destruct (rd t 0) as [c|]; [|discriminate]. cbn [bind] in H.
    destruct (char_eq_u8 sg c (b16_dec sg c)); [injection H as _ _ <-; auto|].
    destruct (wr to 0 (b16_dec sg c)); [|discriminate]. cbn [bind] in H.
    match type of H with context [b16_decode_loop ?a ?b ?c ?n ?i ?f ?g] =>
      destruct (b16_decode_loop a b c n i f g) as [[r|[r1 r2]]|]; [| |discriminate] end;
      cbn [bind] in H; injection H as _ _ <-; auto.
  - match type of H with context [b16_decode_loop ?a ?b ?c ?n ?i ?f ?g] =>
      destruct (b16_decode_loop a b c n i f g) as [[r|[r1 r2]]|]; [| |discriminate] end;
      cbn [bind] in H; injection H as _ _ <-; auto.
Qed.

Lemma b64_decode_codes sg t to e d s e' : b64_decode sg t to e = Some (d, s, e') ->
  e' = err_none \/ e' = err_codec_base_64_decode.
Proof.
  unfold b64_decode. intros H.
  destruct (negb (length t mod 4 =? 0)%nat); [injection H as _ _ <-; auto|].
  destruct (b64_decode_loop sg t to (length t / 4 - 1) 0 0) as [[[[d1 fp] tp]|[d1 s1]]|];
    [| |discriminate]; cbn [bind] in H; [|injection H as _ _ <-; auto].
  destruct (0 <? length t / 4)%nat; [|injection H as _ _ <-; auto].
  destruct (rd t fp) as [c0|]; [|discriminate]. cbn [bind] in *.
  destruct (rd t (fp + 1)) as [c1|]; [|discriminate]. cbn [bind] in *.
  destruct (rd t (fp + 2)) as [c2|]; [|discriminate]. cbn [bind] in *.
  destruct (rd t (fp + 3)) as [c3|]; [|discriminate]. cbn [bind] in *.
  match type of H with (if ?b then _ else _) = _ => destruct b end; [injection H as _ _ <-; auto|].
  repeat match type of H with
         | bind ?x _ = _ => destruct x; [cbn [bind] in H|discriminate]
         end.
  injection H as _ _ <-. auto.
Qed.

(** The throwing overload throws exactly the error the other overload reports. *)
Lemma apie_throw_agrees k t c e0 :
  (forall to e1 e2, co_decode k t to e1 = co_decode k t to e2) ->
  forall c' s e, apie_decode k t c e0 = Some (c', s, e) ->
  exists c'', apie_decode_throw k t c = Some (if err_bool e then Throws e else Returns s, c'')
              /\ (err_bool e = false -> c'' = c').
Proof.
  intros Hk c' s e H. unfold apie_decode, apie_decode_throw in *.
  destruct (co_decode_size k t) as [n|]; [|discriminate]. cbn [bind] in *.
  destruct (cresize c n) as [to m]. rewrite (Hk _ err_none e0).
  destruct (co_decode k t (cdata to) e0) as [[[d s1] e1]|]; [|discriminate]. cbn [bind] in *.
  destruct (cresize (cset to d) s1) as [to2 m2] eqn:E2.
  injection H as <- <- <-. destruct (err_bool e1).
  - eexists. split; [reflexivity|discriminate].
  - eexists. split; [reflexivity|reflexivity].
Qed.

(** *** Static containers are overrun (C45, codec part). *)
Lemma b16_encode_loop_short : forall from to off,
  (length to < off + 2 * length from)%nat -> from <> [] -> b16_encode_loop from to off = None.
Proof.
  induction from as [|b from IH]; intros to off Hl Hf; [contradiction|]. cbn [b16_encode_loop].
  destruct (wr to off (b16_enc (N.shiftr b 4))) as [t1|] eqn:E1; [|reflexivity]. cbn [bind].
  destruct (wr t1 (off + 1) (b16_enc (N.land b 15))) as [t2|] eqn:E2; [|reflexivity]. cbn [bind].
  assert (Hw : forall (t : list N) i v t', wr t i v = Some t' -> length t' = length t /\ (i + 1 <= length t)%nat).
  { intros t i v t' H. unfold wr in H. split; [eapply wrs_length; exact H|].
    unfold wrs in H. cbn [length] in H. destruct (Nat.leb_spec (i + 1) (length t)); [lia|discriminate]. }
  apply Hw in E1. apply Hw in E2. destruct from as [|c from].
  - cbn [length] in Hl. lia.
  - apply IH; [cbn [length] in *; lia|discriminate].
Qed.

Lemma static_overrun16 sg from l :
  (length l < 2 * length from)%nat -> apie_encode (base_16 sg) from (Static l) = None.
Proof.
  intros Hl. unfold apie_encode. cbn [base_16 co_encode cresize cdata]. unfold b16_encode.
  rewrite b16_encode_loop_short; [reflexivity|lia|]. intros ->. cbn in Hl. lia.
Qed.

(** ... and with enough room the tail is left alone. *)
Lemma static_room16 sg from l tail :
  bytes from -> length l = (2 * length from)%nat ->
  apie_encode (base_16 sg) from (Static (l ++ tail))
  = Some (Static (spec_hex from ++ tail), (2 * length from)%nat).
Proof.
  intros Hb Hl. unfold apie_encode. cbn [base_16 co_encode cresize cdata].
  rewrite b16_encode_frame by assumption. reflexivity.
Qed.
Lemma static_room64 sg from l tail :
  bytes from -> length l = length (spec_b64 from) ->
  apie_encode (base_64 sg) from (Static (l ++ tail))
  = Some (Static (spec_b64 from ++ tail), length (spec_b64 from)).
Proof.
  intros Hb Hl. unfold apie_encode. cbn [base_64 co_encode cresize cdata].
  rewrite b64_encode_frame by assumption. reflexivity.
Qed.
Lemma static_room sg from l tail : bytes from ->
  (length l = (2 * length from)%nat ->
   apie_encode (base_16 sg) from (Static (l ++ tail))
   = Some (Static (spec_hex from ++ tail), (2 * length from)%nat)) /\
  (length l = length (spec_b64 from) ->
   apie_encode (base_64 sg) from (Static (l ++ tail))
   = Some (Static (spec_b64 from ++ tail), length (spec_b64 from))).
Proof. intros Hb. split; intros Hl; [apply static_room16|apply static_room64]; assumption. Qed.

(** *** Remaining facts used by the property file *)
Lemma digit_nth al d : (N.to_nat d < length al)%nat -> nth_error al (N.to_nat d) = Some (digit al d).
Proof. intros H. unfold digit. apply nth_error_nth'. exact H. Qed.

Lemma spec_hex_digits : forall l i b, bytes l -> nth_error l i = Some b ->
  nth_error (spec_hex l) (2 * i) = nth_error hex_lower (N.to_nat (b / 16)) /\
  nth_error (spec_hex l) (2 * i + 1) = nth_error hex_lower (N.to_nat (b mod 16)) /\
  length (spec_hex l) = (2 * length l)%nat.
Proof.
  intros l i b Hb Hi.
  assert (Hl : length (spec_hex l) = (2 * length l)%nat) by apply spec_hex_length.
  rewrite <- and_assoc. split; [|exact Hl]. clear Hl.
  revert i Hi. induction l as [|x l IH]; intros i Hi.
  - destruct i; discriminate.
  - inversion Hb as [|? ? Hx Hb']; subst. destruct i as [|i].
    + cbn in Hi. injection Hi as ->. unfold is_byte in Hx.
      assert (H16 : length hex_lower = 16%nat) by reflexivity.
      rewrite !digit_nth by (rewrite H16; lia). split; reflexivity.
    + replace (2 * S i)%nat with (S (S (2 * i))) by lia.
      replace (S (S (2 * i)) + 1)%nat with (S (S (2 * i + 1))) by lia.
      cbn in Hi. specialize (IH Hb' i Hi). unfold spec_hex in *. cbn [flat_map app nth_error]. exact IH.
Qed.

Lemma b16_encode_size_correct from : N.of_nat (length from) < 2 ^ 63 ->
  b16_encode_size (N.of_nat (length from)) = N.of_nat (length (spec_hex from)).
Proof.
  intros H. unfold b16_encode_size. rewrite spec_hex_length.
  change (2 ^ 63) with 9223372036854775808 in H. change (2 ^ 64) with 18446744073709551616.
  rewrite N.mod_small; lia.
Qed.

Lemma b16_prefix_values : forall t, spec_unhex (firstn (2 * length (b16_prefix false t)) t)
  = Some (b16_prefix false t).
Proof.
  intros t. rewrite <- (b16_values_spec false) by (left; reflexivity).
  induction t as [|a|c d t IH] using pair_ind; try reflexivity.
  cbn [b16_prefix]. destruct (b16_accepts false c && b16_accepts false d) eqn:E; [|reflexivity].
  cbn [length]. replace (2 * S (length (b16_prefix false t)))%nat
    with (S (S (2 * length (b16_prefix false t)))) by lia.
  cbn [firstn b16_values]. rewrite E, IH. reflexivity.
Qed.

Lemma b16_error_doubled t to e :
  bytes t -> Nat.odd (length t) = false -> (Nat.div2 (length t) <= length to)%nat ->
  spec_unhex t = None ->
  exists g, b16_decode false t to e
    = Some (g ++ skipn (length g) to, (2 * length g)%nat, err_codec_base_16_decode)
    /\ spec_unhex (firstn (2 * length g) t) = Some g.
Proof.
  intros Hb Ho Hl Hn. rewrite <- (b16_values_spec false) in Hn by (left; reflexivity).
  destruct (b16_decode_error_size false t to e Hb Ho Hl Hn) as (g & H & ->).
  exists (b16_prefix false t). split; [exact H|apply b16_prefix_values].
Qed.

Lemma base64_error_size sg t old e :
  bytes t -> sg = false \/ Forall (fun c => c < 128) t -> (Z.of_nat (length t) * 3 < 2 ^ 64)%Z ->
  spec_unb64 t = None ->
  exists g n, apie_decode (base_64 sg) t (Dynamic old) e
            = Some (Dynamic g, length g, err_codec_base_64_decode) /\
  co_decode_size (base_64 sg) t = Some n /\ (length g <= n)%nat.
Proof.
  intros Hb Hs Hz Hn. pose proof (apie_decode64_exact sg t old e Hb Hs Hz) as H.
  rewrite Hn in H. destruct H as [(g & H1 & n & H2 & H3) _]. exists g, n. auto.
Qed.

Lemma b64_decode_size_no_wrap t : (Z.of_nat (length t) * 3 < 2 ^ 64)%Z ->
  exists z, b64_decode_size_z t = Some z /\ (0 <= z <= Z.of_nat (length t) * 3 / 4)%Z.
Proof.
  intros _. unfold b64_decode_size_z.
  destruct (Nat.ltb_spec 1 (length t)) as [H1|H1].
  2:{ eexists. split; [reflexivity|]. lia. }
  unfold rd. destruct (nth_error t (length t - 1)) as [c|] eqn:E.
  2:{ apply nth_error_None in E. lia. }
  cbn [bind]. destruct (c =? 61).
  2:{ eexists. split; [reflexivity|]. lia. }
  destruct (Nat.ltb_spec 2 (length t)) as [H2|H2].
  2:{ eexists. split; [reflexivity|]. lia. }
  destruct (nth_error t (length t - 2)) as [d|] eqn:E2.
  2:{ apply nth_error_None in E2. lia. }
  cbn [bind]. eexists. split; [reflexivity|]. destruct (d =? 61); lia.
Qed.

Lemma decode_err_independent sg t to e1 e2 :
  b16_decode sg t to e1 = b16_decode sg t to e2 /\ b64_decode sg t to e1 = b64_decode sg t to e2.
Proof. split; reflexivity. Qed.

Lemma apie_throw_agrees_both k sg t c e0 : k = base_16 sg \/ k = base_64 sg ->
  forall c' s e, apie_decode k t c e0 = Some (c', s, e) ->
  exists c'', apie_decode_throw k t c = Some (if err_bool e then Throws e else Returns s, c'')
              /\ (err_bool e = false -> c'' = c').
Proof. intros Hk. apply apie_throw_agrees. intros to e1 e2. destruct Hk as [->| ->]; reflexivity. Qed.

Lemma spec_unb64_ascii : forall t l, spec_unb64 t = Some l -> Forall (fun c => c < 128) t.
Proof.
  assert (Hp : pad_char < 128) by (vm_compute; reflexivity).
  induction t as [|a|a b|a b c|a b c d t IH] using quad_ind; intros l H; try discriminate.
  - constructor.
  - destruct t as [|e t].
    + cbn [spec_unb64] in H.
      destruct (b64_value a) eqn:Ea; [|discriminate].
      destruct (b64_value b) eqn:Eb; [|discriminate].
      repeat constructor; try (eapply b64_value_ascii; eassumption).
      * destruct (b64_value c) eqn:Ec; [eapply b64_value_ascii; eassumption|].
        destruct (b64_value d); [discriminate|].
        destruct (N.eqb_spec c pad_char) as [->|]; [assumption|discriminate].
      * destruct (b64_value d) eqn:Ed; [eapply b64_value_ascii; eassumption|].
        destruct (b64_value c); [|destruct (c =? pad_char); [cbn [andb] in H|discriminate]];
        (destruct (N.eqb_spec d pad_char) as [->|]; [assumption|discriminate]).
    + rewrite spec_unb64_step in H by discriminate.
      destruct (b64_value a) eqn:Ea; [|discriminate].
      destruct (b64_value b) eqn:Eb; [|discriminate].
      destruct (b64_value c) eqn:Ec; [|discriminate].
      destruct (b64_value d) eqn:Ed; [|discriminate].
      destruct (spec_unb64 (e :: t)) as [l'|] eqn:El; [|discriminate].
      repeat (constructor; [eapply b64_value_ascii; eassumption|]). eapply IH. reflexivity.
Qed.

Lemma apie_decode64_valid sg t l old e :
  spec_unb64 t = Some l -> (Z.of_nat (length t) * 3 < 2 ^ 64)%Z ->
  apie_decode (base_64 sg) t (Dynamic old) e = Some (Dynamic l, length l, err_none).
Proof.
  intros H Hz. pose proof (spec_unb64_ascii _ _ H) as Ha.
  pose proof (apie_decode64_exact sg t old e (ascii_bytes _ Ha) (or_intror Ha) Hz) as He.
  rewrite H in He. apply He.
Qed.
