(** The codecs: runs that happen, and the kinds of characters of an encoding. *)
From Verif Require Import Base BaseLemmas BytesLemmas Spec_Bytes Spec_Codec Spec_CodecAny Model_Container Model_Codec Model_Leak Model_Leak3 Spec_Leak Spec_Leak3
  Proof_Codec16 Proof_Codec64 Proof_CodecApi Proof_CodecAny Proof_CodecMem Proof_Leak Proof_Leak2 Proof_Leak3 Proof_Leak6 Proof_Leak7 Proof_Leak8.
Local Open Scope N_scope.

Lemma kind_hex_digit d : d < 16 -> kind_16 (digit hex_lower d) = Digit.
Proof. intros H. unfold kind_16. rewrite (hex_value_digit d _ H (or_introl eq_refl)). reflexivity. Qed.
Lemma kind_b64_digit d : d < 64 -> kind_64 (digit b64_alphabet d) = Digit.
Proof. intros H. unfold kind_64. rewrite (b64_value_digit d H). reflexivity. Qed.
Lemma kinds_hex l : bytes l -> map kind_16 (spec_hex l) = repeat Digit (2 * length l).
Proof.
  induction l as [|b l IH]; intros H; [reflexivity|]. pose proof (Forall_inv H) as Hb. unfold is_byte in Hb.
  change (spec_hex (b :: l)) with ([digit hex_lower (b / 16); digit hex_lower (b mod 16)] ++ spec_hex l). rewrite map_app, (IH (Forall_inv_tail H)).
  cbn [map app]. rewrite !kind_hex_digit by (apply N.mod_lt || apply N.div_lt_upper_bound; lia).
  cbn [length]. replace (2 * S (length l))%nat with (S (S (2 * length l))) by lia. reflexivity.
Qed.
Fixpoint shape_64 (n : nat) : list kind :=
  match n with
  | O => []
  | 1%nat => [Digit; Digit; Padding; Padding]
  | 2%nat => [Digit; Digit; Digit; Padding]
  | S (S (S n)) => [Digit; Digit; Digit; Digit] ++ shape_64 n
  end.
Lemma three (P : list N -> Prop) : P [] -> (forall a, P [a]) -> (forall a b, P [a; b]) -> (forall a b c l, P l -> P (a :: b :: c :: l)) -> forall l, P l.
Proof.
  intros H0 H1 H2 H3 l. assert (X : P l /\ (forall a, P (a :: l)) /\ forall a b, P (a :: b :: l)); [|exact (proj1 X)].
  induction l as [|x l (A & B & C)]; [repeat split; auto|]. split; [exact (B x)|]. split; [intros a; exact (C a x)|]. intros a b. apply H3, A.
Qed.
Ltac dig := apply kind_b64_digit; first [apply N.mod_lt; discriminate | apply N.div_lt_upper_bound; [discriminate|cbn; lia]].
Lemma kinds_b64 l : bytes l -> map kind_64 (spec_b64 l) = shape_64 (length l).
Proof.
  induction l as [|a|a b|a b c l IH] using three; intros H; [reflexivity|..].
  - pose proof (Forall_inv H) as A. unfold is_byte in A. cbn [spec_b64 map length shape_64]. cbv zeta.
    rewrite !kind_b64_digit; [reflexivity|apply N.mod_lt; discriminate|apply N.div_lt_upper_bound; [discriminate|]; change (2 ^ 4) with 16; lia].
  - pose proof (Forall_inv H) as A. pose proof (Forall_inv (Forall_inv_tail H)) as B. unfold is_byte in A, B. cbn [spec_b64 map length shape_64]. cbv zeta.
    change (2 ^ 8) with 256. change (2 ^ 2) with 4. change (2 ^ 12) with 4096.
    rewrite !kind_b64_digit; [reflexivity|apply N.mod_lt; discriminate|apply N.mod_lt; discriminate|apply N.div_lt_upper_bound; [discriminate|]; lia].
  - pose proof (Forall_inv H) as A. pose proof (Forall_inv (Forall_inv_tail H)) as B. pose proof (Forall_inv (Forall_inv_tail (Forall_inv_tail H))) as C.
    pose proof (Forall_inv_tail (Forall_inv_tail (Forall_inv_tail H))) as T. unfold is_byte in A, B, C. cbn [spec_b64 length shape_64]. cbv zeta.
    rewrite map_app, (IH T). f_equal. cbn [map].
    change (2 ^ 8) with 256. change (2 ^ 16) with 65536. change (2 ^ 18) with 262144. change (2 ^ 12) with 4096.
    rewrite !kind_b64_digit; [reflexivity|apply N.mod_lt; discriminate|apply N.mod_lt; discriminate|apply N.mod_lt; discriminate|apply N.div_lt_upper_bound; [discriminate|]; lia].
Qed.
Lemma hex_is_bytes l : bytes l -> bytes (spec_hex l).
Proof. intros H. pose proof (spec_unhex_ascii _ _ (spec_unhex_hex l H)) as E. eapply Forall_impl; [|exact E]. intros c Hc. unfold is_byte. cbn beta in Hc. lia. Qed.
Lemma b64_is_bytes l : bytes l -> bytes (spec_b64 l).
Proof. intros H. pose proof (spec_unb64_ascii _ _ (spec_unb64_b64 l H)) as E. eapply Forall_impl; [|exact E]. intros c Hc. unfold is_byte. cbn beta in Hc. lia. Qed.

(** *** Runs *)
Definition twice {A} (P : A -> Prop) (Q : A -> Prop) (m1 m2 : L A) : Prop :=
  exists t1 r1 t2 r2, m1 = Some (t1, r1) /\ m2 = Some (t2, r2) /\ P r1 /\ Q r2 /\ same_trace t1 t2.
Lemma runs {A} (R : A -> A -> Prop) (m1 m2 : L A) r1 r2 : erase m1 = Some r1 -> erase m2 = Some r2 -> same R m1 m2 ->
  exists t1 t2, m1 = Some (t1, r1) /\ m2 = Some (t2, r2) /\ same_trace t1 t2.
Proof.
  intros E1 E2 Sm. destruct (erase_some _ _ E1) as [t1 F1]. destruct (erase_some _ _ E2) as [t2 F2]. exists t1, t2. split; [exact F1|]. split; [exact F2|].
  exact (proj1 (Sm _ _ _ _ F1 F2)).
Qed.
Lemma RC_dyn l l' : length l = length l' -> RC (Dynamic l) (Dynamic l').
Proof. intros H. unfold RC. cbn [blank_c]. f_equal. apply blank_RL, H. Qed.
Lemma enc_16 sg x1 x2 o1 o2 : bytes x1 -> bytes x2 -> length x1 = length x2 -> length o1 = length o2 -> N.of_nat (length x1) < 2 ^ 62 ->
  exists t1 t2, l_apie_encode (l_base_16 sg) x1 (Dynamic o1) = Some (t1, (Dynamic (spec_hex x1), length (spec_hex x1))) /\
    l_apie_encode (l_base_16 sg) x2 (Dynamic o2) = Some (t2, (Dynamic (spec_hex x2), length (spec_hex x2))) /\ same_trace t1 t2.
Proof.
  intros B1 B2 Lx Lo Z. eapply runs; [rewrite (e_apie_encode _ _ _ (lok_16 sg))..|eapply s_apie_encode; [apply lct_16|exact Lx|apply RC_dyn, Lo]].
  - apply apie_encode16; [exact B1|lia].
  - apply apie_encode16; [exact B2|rewrite <- Lx; lia].
Qed.
Lemma enc_64 sg x1 x2 o1 o2 : bytes x1 -> bytes x2 -> length x1 = length x2 -> length o1 = length o2 -> N.of_nat (length x1) < 2 ^ 62 ->
  exists t1 t2, l_apie_encode (l_base_64 sg) x1 (Dynamic o1) = Some (t1, (Dynamic (spec_b64 x1), length (spec_b64 x1))) /\
    l_apie_encode (l_base_64 sg) x2 (Dynamic o2) = Some (t2, (Dynamic (spec_b64 x2), length (spec_b64 x2))) /\ same_trace t1 t2.
Proof.
  intros B1 B2 Lx Lo Z. eapply runs; [rewrite (e_apie_encode _ _ _ (lok_64 sg))..|eapply s_apie_encode; [apply lct_64|exact Lx|apply RC_dyn, Lo]].
  - apply apie_encode64; [exact B1|exact Z].
  - apply apie_encode64; [exact B2|rewrite <- Lx; exact Z].
Qed.
Lemma def_16 sg t old e : bytes t -> exists r, apie_decode (base_16 sg) t (Dynamic old) e = Some r.
Proof.
  intros B. unfold apie_decode. cbn [co_decode_size base_16 co_decode cresize]. cbn [bind].
  rewrite b16_decode_any; [|exact B|cbn [cdata]; rewrite resize_list_length; lia].
  destruct (hex_decoding sg t _) as [[d n] ok]. eexists. reflexivity.
Qed.
Lemma def_64 sg t old e : bytes t -> (Z.of_nat (length t) * 3 < 2 ^ 64)%Z -> exists r, apie_decode (base_64 sg) t (Dynamic old) e = Some r.
Proof. intros B Z. pose proof (base64_any sg t old e B Z) as H. destruct (b64_decoding sg t) as [l ok]. eexists. exact (proj1 H). Qed.
Lemma throw_def k t c e : (exists sg, k = base_16 sg \/ k = base_64 sg) -> (exists r, apie_decode k t c e = Some r) -> exists q, apie_decode_throw k t c = Some q.
Proof.
  intros [sg K] [[[c' s] e'] H]. destruct (apie_throw_agrees_both k sg t c e K c' s e' H) as (c'' & E & _). eexists. exact E.
Qed.
Lemma dec_16 sg x1 x2 o1 o2 e : bytes x1 -> bytes x2 -> map kind_16 x1 = map kind_16 x2 -> length o1 = length o2 ->
  (exists t1 r1 t2 r2, l_apie_decode (l_base_16 sg) x1 (Dynamic o1) e = Some (t1, r1) /\ l_apie_decode (l_base_16 sg) x2 (Dynamic o2) e = Some (t2, r2) /\ same_trace t1 t2) /\
  (exists t1 r1 t2 r2, l_apie_decode_throw (l_base_16 sg) x1 (Dynamic o1) = Some (t1, r1) /\ l_apie_decode_throw (l_base_16 sg) x2 (Dynamic o2) = Some (t2, r2) /\ same_trace t1 t2).
Proof.
  intros B1 B2 K Lo. assert (F : RKs kind_16 x1 x2) by (repeat split; assumption). split.
  - eapply two_runs; [rewrite (e_apie_decode _ _ _ _ (lok_16 sg)); apply def_16; assumption..|eapply s_apie_decode; [apply lct_16|exact F|apply RC_dyn, Lo]].
  - eapply two_runs; [rewrite (e_apie_decode_throw _ _ _ (lok_16 sg))..|eapply s_apie_decode_throw; [apply lct_16|exact F|apply RC_dyn, Lo]];
      apply (throw_def _ _ _ e); [exists sg; left; reflexivity|apply def_16; assumption|exists sg; left; reflexivity|apply def_16; assumption].
Qed.
Lemma dec_64 sg x1 x2 o1 o2 e : bytes x1 -> bytes x2 -> map kind_64 x1 = map kind_64 x2 -> length o1 = length o2 -> (Z.of_nat (length x1) * 3 < 2 ^ 64)%Z ->
  (exists t1 r1 t2 r2, l_apie_decode (l_base_64 sg) x1 (Dynamic o1) e = Some (t1, r1) /\ l_apie_decode (l_base_64 sg) x2 (Dynamic o2) e = Some (t2, r2) /\ same_trace t1 t2) /\
  (exists t1 r1 t2 r2, l_apie_decode_throw (l_base_64 sg) x1 (Dynamic o1) = Some (t1, r1) /\ l_apie_decode_throw (l_base_64 sg) x2 (Dynamic o2) = Some (t2, r2) /\ same_trace t1 t2).
Proof.
  intros B1 B2 K Lo Z. assert (F : RKs kind_64 x1 x2) by (repeat split; assumption).
  assert (Z2 : (Z.of_nat (length x2) * 3 < 2 ^ 64)%Z) by (rewrite <- (RKs_length _ _ _ F); exact Z). split.
  - eapply two_runs; [rewrite (e_apie_decode _ _ _ _ (lok_64 sg)); apply def_64; assumption..|eapply s_apie_decode; [apply lct_64|exact F|apply RC_dyn, Lo]].
  - eapply two_runs; [rewrite (e_apie_decode_throw _ _ _ (lok_64 sg))..|eapply s_apie_decode_throw; [apply lct_64|exact F|apply RC_dyn, Lo]];
      apply (throw_def _ _ _ e); [exists sg; right; reflexivity|apply def_64; assumption|exists sg; right; reflexivity|apply def_64; assumption].
Qed.
(** Decoding the encodings of two secrets. *)
Lemma secret_16 sg x1 x2 o1 o2 e : bytes x1 -> bytes x2 -> length x1 = length x2 -> length o1 = length o2 ->
  exists t1 t2, l_apie_decode (l_base_16 sg) (spec_hex x1) (Dynamic o1) e = Some (t1, (Dynamic x1, length x1, err_none)) /\
    l_apie_decode (l_base_16 sg) (spec_hex x2) (Dynamic o2) e = Some (t2, (Dynamic x2, length x2, err_none)) /\ same_trace t1 t2.
Proof.
  intros B1 B2 Lx Lo. assert (F : RKs kind_16 (spec_hex x1) (spec_hex x2)).
  { split; [apply hex_is_bytes, B1|]. split; [apply hex_is_bytes, B2|]. rewrite !kinds_hex by assumption. rewrite Lx. reflexivity. }
  eapply runs; [rewrite (e_apie_decode _ _ _ _ (lok_16 sg)); apply apie_decode16_valid, spec_unhex_hex; assumption..|].
  eapply s_apie_decode; [apply lct_16|exact F|apply RC_dyn, Lo].
Qed.
Lemma secret_64 sg x1 x2 o1 o2 e : bytes x1 -> bytes x2 -> length x1 = length x2 -> length o1 = length o2 -> N.of_nat (length x1) < 2 ^ 60 ->
  exists t1 t2, l_apie_decode (l_base_64 sg) (spec_b64 x1) (Dynamic o1) e = Some (t1, (Dynamic x1, length x1, err_none)) /\
    l_apie_decode (l_base_64 sg) (spec_b64 x2) (Dynamic o2) e = Some (t2, (Dynamic x2, length x2, err_none)) /\ same_trace t1 t2.
Proof.
  intros B1 B2 Lx Lo Z. assert (F : RKs kind_64 (spec_b64 x1) (spec_b64 x2)).
  { split; [apply b64_is_bytes, B1|]. split; [apply b64_is_bytes, B2|]. rewrite !kinds_b64 by assumption. rewrite Lx. reflexivity. }
  assert (Q : forall x : list N, N.of_nat (length x) < 2 ^ 60 -> (Z.of_nat (length (spec_b64 x)) * 3 < 2 ^ 64)%Z).
  { intros x Hx. rewrite spec_b64_length. pose proof (Nat.div_mod (length x + 2) 3 ltac:(discriminate)). lia. }
  eapply runs; [rewrite (e_apie_decode _ _ _ _ (lok_64 sg)); apply apie_decode64_valid; [apply spec_unb64_b64; assumption|apply Q; rewrite <- ?Lx; exact Z]..|].
  eapply s_apie_decode; [apply lct_64|exact F|apply RC_dyn, Lo].
Qed.
