(** Proofs about the base 16 codec. *)
From Verif Require Import Base BaseLemmas Model_Codec Spec_Codec.
Local Open Scope N_scope.

Lemma b16_enc_digit d : d < 16 -> b16_enc d = digit hex_lower d.
Proof.
  intros H. apply N.eqb_eq. revert d H.
  apply (below_sweep 16 (fun d => b16_enc d =? digit hex_lower d)). vm_compute. reflexivity.
Qed.

Lemma shiftr4_div b : N.shiftr b 4 = b / 16.
Proof. rewrite N.shiftr_div_pow2. reflexivity. Qed.

Lemma land15_mod b : N.land b 15 = b mod 16.
Proof. change 15 with (N.ones 4). rewrite N.land_ones. reflexivity. Qed.

Lemma spec_hex_length l : length (spec_hex l) = (2 * length l)%nat.
Proof.
  induction l as [|b l IH]; [reflexivity|].
  unfold spec_hex in *. cbn [flat_map]. rewrite app_length, IH. cbn [length]. lia.
Qed.

Lemma b16_encode_loop_spec from : forall pre rest off,
  bytes from -> off = length pre -> (2 * length from <= length rest)%nat ->
  b16_encode_loop from (pre ++ rest) off
  = Some (pre ++ spec_hex from ++ skipn (2 * length from) rest).
Proof.
  induction from as [|b from IH]; intros pre rest off Hb Hoff Hlen.
  - reflexivity.
  - inversion Hb as [|? ? Hb0 Hb']; subst.
    cbn [length] in Hlen.
    destruct rest as [|r0 [|r1 rest]]; cbn [length] in Hlen; try lia.
    cbn [b16_encode_loop].
    rewrite wr_app by reflexivity. cbn [bind].
    change (pre ++ b16_enc (N.shiftr b 4) :: r1 :: rest)
      with (pre ++ [b16_enc (N.shiftr b 4)] ++ r1 :: rest).
    rewrite app_assoc. rewrite wr_app by (rewrite app_length; cbn; lia). cbn [bind].
    change ((pre ++ [b16_enc (N.shiftr b 4)]) ++ b16_enc (N.land b 15) :: rest)
      with ((pre ++ [b16_enc (N.shiftr b 4)]) ++ [b16_enc (N.land b 15)] ++ rest).
    rewrite app_assoc.
    rewrite IH; [|assumption|rewrite !app_length; cbn; lia|lia].
    unfold is_byte in Hb0.
    rewrite !b16_enc_digit.
    2:{ rewrite land15_mod. apply N.mod_lt. lia. }
    2:{ rewrite shiftr4_div. apply N.div_lt_upper_bound; lia. }
    rewrite shiftr4_div, land15_mod.
    replace (2 * length (b :: from))%nat with (S (S (2 * length from)))%nat by (cbn [length]; lia).
    unfold spec_hex. cbn [flat_map skipn]. rewrite <- !app_assoc. reflexivity.
Qed.

Lemma b16_encode_correct from to :
  bytes from -> (2 * length from <= length to)%nat ->
  b16_encode from to
  = Some (spec_hex from ++ skipn (2 * length from) to, (2 * length from)%nat).
Proof.
  intros Hb Hl. unfold b16_encode.
  pose proof (b16_encode_loop_spec from [] to 0 Hb eq_refl Hl) as H. cbn [app] in H.
  rewrite H. cbn [bind app]. rewrite Nat.mul_comm. reflexivity.
Qed.

(** Character level: which characters the decoder accepts. *)
Definition b16_accepts (sg : bool) (c : N) : bool :=
  match hex_value c with Some _ => true | None => sg && (128 <=? c) end.

Definition b16_cval (sg : bool) (c : N) : N :=
  match hex_value c with Some v => v | None => c end.

Lemma b16_char sg c : c < 256 ->
  char_eq_u8 sg c (b16_dec sg c) = negb (b16_accepts sg c) /\
  b16_dec sg c = b16_cval sg c.
Proof.
  intros H.
  assert (Hs : Bool.eqb (char_eq_u8 sg c (b16_dec sg c)) (negb (b16_accepts sg c))
               && (b16_dec sg c =? b16_cval sg c) = true).
  { revert c H.
    apply (byte_sweep (fun c => Bool.eqb (char_eq_u8 sg c (b16_dec sg c)) (negb (b16_accepts sg c))
               && (b16_dec sg c =? b16_cval sg c))).
    destruct sg; vm_compute; reflexivity. }
  apply andb_prop in Hs. destruct Hs as [H1 H2].
  apply eqb_prop in H1. apply N.eqb_eq in H2. tauto.
Qed.

Lemma hex_value_lt c v : hex_value c = Some v -> v < 16.
Proof.
  unfold hex_value.
  assert (Hi : forall al c v, index_of al c = Some v -> v < N.of_nat (length al)).
  { induction al as [|x al IH]; intros c' v' H; [discriminate|].
    cbn [index_of] in H. destruct (x =? c').
    - injection H as <-. cbn [length]. lia.
    - destruct (index_of al c') as [w|] eqn:E; [|discriminate].
      cbn in H. injection H as <-. specialize (IH _ _ E). cbn [length]. lia. }
  destruct (index_of hex_lower c) as [w|] eqn:E.
  - intros [= <-]. apply Hi in E. exact E.
  - intros H. apply Hi in H. exact H.
Qed.

Lemma lor_shift4 x y : x < 16 -> y < 16 -> N.lor (N.shiftl x 4) y mod 256 = x * 16 + y.
Proof.
  intros Hx Hy. apply N.eqb_eq.
  assert (H := below_sweep 16 (fun x => forallb (fun y => N.lor (N.shiftl x 4) y mod 256 =? x * 16 + y) (all_below 16)) ltac:(vm_compute; reflexivity) x Hx).
  cbv beta in H. exact (below_sweep 16 _ H y Hy).
Qed.

(** The loop on good pairs, then either the end or a rejected pair.
    [good] = accepted pairs; the value written for a pair of characters. *)
Definition b16_pair (sg : bool) (c d : N) : N :=
  N.lor (N.shiftl (b16_cval sg c) 4) (b16_cval sg d) mod 256.

Fixpoint b16_values (sg : bool) (t : list N) : option (list N) :=
  match t with
  | [] => Some []
  | [_] => None
  | c :: d :: r =>
      if b16_accepts sg c && b16_accepts sg d then
        option_map (cons (b16_pair sg c d)) (b16_values sg r)
      else None
  end.

(** Longest accepted prefix of pairs. *)
Fixpoint b16_prefix (sg : bool) (t : list N) : list N :=
  match t with
  | c :: d :: r =>
      if b16_accepts sg c && b16_accepts sg d then b16_pair sg c d :: b16_prefix sg r else []
  | _ => []
  end.

Lemma pair_ind {A} (P : list A -> Prop) :
  P [] -> (forall a, P [a]) -> (forall a b l, P l -> P (a :: b :: l)) -> forall l, P l.
Proof.
  intros H0 H1 H2. fix IH 1. intros [|a [|b l]]; [exact H0 | exact (H1 a) | exact (H2 a b l (IH l))].
Qed.

Lemma b16_values_length sg t : forall l, b16_values sg t = Some l -> length t = (2 * length l)%nat.
Proof.
  induction t as [|a|a b t IH] using pair_ind; intros l H; cbn in H.
  - injection H as <-. reflexivity.
  - discriminate.
  - destruct (b16_accepts sg a && b16_accepts sg b); [|discriminate].
    destruct (b16_values sg t) as [l'|]; [|discriminate]. cbn in H. injection H as <-.
    specialize (IH _ eq_refl). cbn [length]. lia.
Qed.

Lemma b16_prefix_length sg t : (2 * length (b16_prefix sg t) <= length t)%nat.
Proof.
  induction t as [|a|a b t IH] using pair_ind; cbn [b16_prefix length]; try lia.
  destruct (b16_accepts sg a && b16_accepts sg b); cbn [length]; lia.
Qed.

(** Loop specification, [n] pairs left in [t] (which may have unread characters after them). *)
Lemma b16_decode_loop_spec sg : forall t n pre post dpre drest i fp tb,
  bytes t -> length t = (2 * n)%nat ->
  fp = length pre -> (tb + i)%nat = length dpre -> (n <= length drest)%nat ->
  b16_decode_loop sg (pre ++ t ++ post) (dpre ++ drest) n i fp tb =
  match b16_values sg t with
  | Some l => Some (inl (dpre ++ l ++ skipn n drest))
  | None =>
      let g := b16_prefix sg t in
      Some (inr (dpre ++ g ++ skipn (length g) drest, (fp + 2 * length g)%nat))
  end.
Proof.
  induction t as [|a|c d t IH] using pair_ind; intros n pre post dpre drest i fp tb Hb Hl Hfp Htb Hn.
  - destruct n; [|cbn [length] in Hl; lia]. reflexivity.
  - cbn [length] in Hl. lia.
  - destruct n as [|n]; [cbn [length] in Hl; lia|]. cbn [length] in Hl.
    inversion Hb as [|? ? Hc Hb1]; subst. inversion Hb1 as [|? ? Hd Hb2]; subst.
    cbn [b16_decode_loop].
    change (pre ++ (c :: d :: t) ++ post) with (pre ++ c :: (d :: t ++ post)).
    rewrite rd_app by reflexivity. cbn [bind].
    change (pre ++ c :: d :: t ++ post) with (pre ++ [c] ++ d :: t ++ post).
    rewrite app_assoc, rd_app by (rewrite app_length; cbn; lia). cbn [bind].
    destruct (b16_char sg c Hc) as [Ec Vc]. destruct (b16_char sg d Hd) as [Ed Vd].
    rewrite Ec, Ed, Vc, Vd.
    cbn [b16_values b16_prefix].
    destruct (b16_accepts sg c) eqn:Ac; destruct (b16_accepts sg d) eqn:Ad; cbn [negb orb andb];
      try (cbn [length]; rewrite Nat.mul_0_r, Nat.add_0_r; reflexivity).
    destruct drest as [|x drest]; [cbn [length] in Hn; lia|]. cbn [length] in Hn.
    rewrite wr_app by assumption. cbn [bind].
    replace ((pre ++ [c]) ++ d :: t ++ post) with ((pre ++ [c; d]) ++ t ++ post)
      by (rewrite <- !app_assoc; reflexivity).
    fold (b16_pair sg c d).
    change (dpre ++ b16_pair sg c d :: drest) with (dpre ++ [b16_pair sg c d] ++ drest).
    rewrite (app_assoc dpre).
    rewrite IH; try assumption; try lia.
    2:{ rewrite app_length. cbn. lia. }
    2:{ rewrite app_length. cbn. lia. }
    destruct (b16_values sg t) as [l|]; cbn [option_map].
    + rewrite <- app_assoc. reflexivity.
    + cbv zeta. rewrite <- app_assoc. cbn [length skipn app].
      do 3 f_equal. lia.
Qed.

(** Even-length decoding, exact behaviour for both signednesses of char. *)
Lemma b16_decode_even sg t to e :
  bytes t -> Nat.odd (length t) = false -> (Nat.div2 (length t) <= length to)%nat ->
  b16_decode sg t to e =
  match b16_values sg t with
  | Some l => Some (l ++ skipn (length l) to, length l, err_none)
  | None =>
      let g := b16_prefix sg t in
      Some (g ++ skipn (length g) to, (2 * length g)%nat, err_codec_base_16_decode)
  end.
Proof.
  intros Hb Ho Hl. unfold b16_decode. rewrite Ho.
  assert (Hn : length t = (2 * Nat.div2 (length t))%nat).
  { pose proof (Nat.div2_odd (length t)) as H. rewrite Ho in H. cbn [Nat.b2n] in H. lia. }
  rewrite Nat.sub_0_r.
  pose proof (b16_decode_loop_spec sg t (Nat.div2 (length t)) [] [] [] to 0 0 0 Hb Hn
                eq_refl eq_refl Hl) as H.
  cbn [app] in H. rewrite app_nil_r in H. rewrite H. clear H.
  destruct (b16_values sg t) as [l|] eqn:E; cbn [bind].
  - apply b16_values_length in E.
    replace (Nat.div2 (length t)) with (length l) by lia.
    rewrite Nat.add_0_r. reflexivity.
  - reflexivity.
Qed.

(** ASCII text, or unsigned char: the decoder agrees with the RFC. *)
Definition char_safe (sg : bool) (t : list N) : Prop := sg = false \/ Forall (fun c => c < 128) t.

Lemma b16_values_spec sg t : char_safe sg t -> b16_values sg t = spec_unhex t.
Proof.
  induction t as [|a|c d t IH] using pair_ind; intros Hs.
  - reflexivity.
  - reflexivity.
  - assert (Hs' : char_safe sg t).
    { destruct Hs as [->|Hs]; [left; reflexivity|right].
      inversion Hs as [|? ? ? Hs1]; inversion Hs1; assumption. }
    assert (Hc : sg && (128 <=? c) = false /\ sg && (128 <=? d) = false).
    { destruct Hs as [->|Hs]; [split; reflexivity|].
      inversion Hs as [|? ? Hc Hs1]; subst. inversion Hs1 as [|? ? Hd ?]; subst.
      split; (destruct sg; [cbn; lia|reflexivity]). }
    destruct Hc as [Hc Hd].
    cbn [b16_values spec_unhex]. rewrite IH by assumption.
    unfold b16_accepts, b16_pair, b16_cval. rewrite Hc, Hd.
    destruct (hex_value c) as [x|] eqn:Ex; destruct (hex_value d) as [y|] eqn:Ey;
      cbn [andb]; try reflexivity.
    rewrite lor_shift4 by (eapply hex_value_lt; eassumption).
    destruct (spec_unhex t); reflexivity.
Qed.

(** Digits decode to themselves, in either case. *)
Lemma hex_value_digit d c : d < 16 ->
  c = digit hex_lower d \/ c = upper (digit hex_lower d) -> hex_value c = Some d.
Proof.
  intros Hd Hc.
  assert (H := below_sweep 16 (fun d =>
     match hex_value (digit hex_lower d), hex_value (upper (digit hex_lower d)) with
     | Some x, Some y => (x =? d) && (y =? d) | _, _ => false end)
     ltac:(vm_compute; reflexivity) d Hd).
  cbv beta in H.
  destruct (hex_value (digit hex_lower d)) as [x|] eqn:Ex; [|discriminate].
  destruct (hex_value (upper (digit hex_lower d))) as [y|] eqn:Ey; [|discriminate].
  apply andb_prop in H. destruct H as [Hx Hy]. apply N.eqb_eq in Hx, Hy. subst.
  destruct Hc as [->| ->]; assumption.
Qed.

Lemma spec_unhex_case l : forall t,
  bytes l -> Forall2 (fun c d => d = c \/ d = upper c) (spec_hex l) t -> spec_unhex t = Some l.
Proof.
  induction l as [|b l IH]; intros t Hb Ht.
  - inversion Ht. reflexivity.
  - unfold spec_hex in Ht. cbn [flat_map app] in Ht. fold (spec_hex l) in Ht.
    inversion Ht as [|x c ? ? Hc Ht1]; subst. inversion Ht1 as [|y d ? t' Hd Ht2]; subst.
    inversion Hb as [|? ? Hb0 Hb']; subst. unfold is_byte in Hb0.
    cbn [spec_unhex].
    rewrite (hex_value_digit (b / 16) c) by (auto; apply N.div_lt_upper_bound; lia).
    rewrite (hex_value_digit (b mod 16) d) by (auto; apply N.mod_lt; lia).
    rewrite (IH _ Hb' Ht2). do 2 f_equal. rewrite (N.div_mod' b 16) at 3. lia.
Qed.

Lemma hex_value_ascii c v : hex_value c = Some v -> c < 128.
Proof.
  intros H. unfold hex_value in H.
  assert (Hi : forall al c v, index_of al c = Some v -> In c al).
  { induction al as [|x al IH]; intros c' v' H'; [discriminate|].
    cbn [index_of] in H'. destruct (N.eqb_spec x c') as [->|].
    - left; reflexivity.
    - destruct (index_of al c') as [w|] eqn:E; [|discriminate]. right. eapply IH. exact E. }
  assert (Ha : forallb (fun c => c <? 128) (hex_lower ++ hex_upper) = true) by (vm_compute; reflexivity).
  rewrite forallb_forall in Ha.
  destruct (index_of hex_lower c) as [w|] eqn:E.
  - apply Hi in E. apply N.ltb_lt. apply Ha. apply in_or_app. auto.
  - apply Hi in H. apply N.ltb_lt. apply Ha. apply in_or_app. auto.
Qed.

Lemma spec_unhex_ascii t : forall l, spec_unhex t = Some l -> Forall (fun c => c < 128) t.
Proof.
  induction t as [|a|c d t IH] using pair_ind; intros l H; cbn [spec_unhex] in H.
  - constructor.
  - discriminate.
  - destruct (hex_value c) as [x|] eqn:Ex; [|discriminate].
    destruct (hex_value d) as [y|] eqn:Ey; [|discriminate].
    destruct (spec_unhex t) as [l'|]; [|discriminate].
    repeat constructor; try (eapply hex_value_ascii; eassumption). eapply IH. reflexivity.
Qed.

Lemma spec_unhex_length t : forall l, spec_unhex t = Some l -> length t = (2 * length l)%nat.
Proof.
  induction t as [|a|c d t IH] using pair_ind; intros l H; cbn [spec_unhex] in H.
  - injection H as <-. reflexivity.
  - discriminate.
  - destruct (hex_value c) as [x|] eqn:Ex; [|discriminate].
    destruct (hex_value d) as [y|] eqn:Ey; [|discriminate].
    destruct (spec_unhex t) as [l'|]; [|discriminate]. injection H as <-.
    specialize (IH _ eq_refl). cbn [length]. lia.
Qed.

Lemma ascii_bytes t : Forall (fun c => c < 128) t -> bytes t.
Proof. apply Forall_impl. intros a H. unfold is_byte. lia. Qed.

Lemma even_twice n : Nat.odd (2 * n) = false.
Proof. rewrite Nat.odd_mul. reflexivity. Qed.

Lemma div2_twice n : Nat.div2 (2 * n) = n.
Proof. apply Nat.div2_double. Qed.

(** Valid text always decodes, whatever the signedness. *)
Lemma b16_decode_valid sg t l to e :
  spec_unhex t = Some l -> (length l <= length to)%nat ->
  b16_decode sg t to e = Some (l ++ skipn (length l) to, length l, err_none).
Proof.
  intros H Hl.
  pose proof (spec_unhex_ascii _ _ H) as Ha. pose proof (spec_unhex_length _ _ H) as Hn.
  rewrite b16_decode_even.
  - rewrite b16_values_spec by (right; assumption). rewrite H. reflexivity.
  - apply ascii_bytes. assumption.
  - rewrite Hn. apply even_twice.
  - rewrite Hn, div2_twice. assumption.
Qed.

(** Memory safety of the decoder on every text. *)
Lemma b16_decode_loop_safe sg from : forall n i fp tb d tl,
  (fp + 2 * n <= length from)%nat -> (n = 0 \/ tb + i + n <= length d)%nat ->
  exists d' r, length d' = length d /\
    (b16_decode_loop sg from (d ++ tl) n i fp tb = Some (inl (d' ++ tl)) \/
     b16_decode_loop sg from (d ++ tl) n i fp tb = Some (inr (d' ++ tl, r))).
Proof.
  induction n as [|n IH]; intros i fp tb d tl Hf Hd.
  - exists d, 0%nat. split; [reflexivity|left; reflexivity].
  - cbn [b16_decode_loop].
    destruct (rd_some from fp ltac:(lia)) as [c0 ->]. cbn [bind].
    destruct (rd_some from (fp + 1) ltac:(lia)) as [c1 ->]. cbn [bind].
    destruct (char_eq_u8 sg c0 (b16_dec sg c0) || char_eq_u8 sg c1 (b16_dec sg c1)).
    + exists d, fp. split; [reflexivity|right; reflexivity].
    + destruct (wr_prefix d tl (tb + i) (N.lor (N.shiftl (b16_dec sg c0) 4) (b16_dec sg c1) mod 256)
                  ltac:(lia)) as (d' & -> & Hd').
      cbn [bind].
      destruct (IH (i + 1)%nat (fp + 2)%nat tb d' tl ltac:(lia) ltac:(lia)) as (d2 & r & H2 & H3).
      exists d2, r. split; [lia|exact H3].
Qed.

Lemma b16_decode_safe sg t d tl e :
  length d = b16_decode_size t ->
  exists d' size e', b16_decode sg t (d ++ tl) e = Some (d' ++ tl, size, e') /\ length d' = length d.
Proof.
  unfold b16_decode_size, b16_decode. intros Hd.
  pose proof (Nat.div2_odd (length t)) as Hn.
  destruct (Nat.odd (length t)) eqn:Ho; cbn [Nat.b2n] in Hn.
  - destruct t as [|c t']; [discriminate|].
    cbn [rd nth_error bind]. change (nth_error (c :: t') 0) with (Some c). cbn [bind].
    destruct (char_eq_u8 sg c (b16_dec sg c)).
    + exists d, 0%nat, err_codec_base_16_decode. split; reflexivity.
    + destruct (wr_prefix d tl 0 (b16_dec sg c) ltac:(lia)) as (d1 & -> & Hd1). cbn [bind].
      destruct (b16_decode_loop_safe sg (c :: t') (Nat.div2 (length (c :: t')) - 1) 1 1 1 d1 tl
                  ltac:(lia) ltac:(lia)) as (d2 & r & H2 & [-> | ->]).
      * exists d2. eexists _, _. split; [reflexivity|lia].
      * exists d2. eexists _, _. split; [reflexivity|lia].
  - destruct (b16_decode_loop_safe sg t (Nat.div2 (length t) - 0) 0 0 0 d tl
                ltac:(lia) ltac:(lia)) as (d2 & r & H2 & [-> | ->]).
    * exists d2. eexists _, _. split; [reflexivity|lia].
    * exists d2. eexists _, _. split; [reflexivity|lia].
Qed.
