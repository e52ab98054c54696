(** The codecs: the traces depend on sizes and kinds of characters only. *)
From Verif Require Import Base BaseLemmas BytesLemmas Spec_Bytes Spec_Codec Model_Container Model_Codec Model_Leak Model_Leak3 Spec_Leak Spec_Leak3
  Proof_Leak Proof_Leak2 Proof_Leak7.
Local Open Scope N_scope.

(** *** Characters *)
Lemma all_bytes (P : N -> bool) : forallb P (map N.of_nat (seq 0 256)) = true -> forall c, is_byte c -> P c = true.
Proof.
  intros H c Hc. apply (proj1 (forallb_forall P _) H). apply in_map_iff. exists (N.to_nat c). split; [lia|]. apply in_seq. unfold is_byte in Hc. lia.
Qed.
Definition wrong (sg : bool) (k : kind) : bool := match k with Digit => false | High => negb sg | _ => true end.
Lemma test_16 sg c : is_byte c -> char_eq_u8 sg c (b16_dec sg c) = wrong sg (kind_16 c).
Proof.
  intros Hc. apply eqb_prop. apply (all_bytes (fun c => Bool.eqb (char_eq_u8 sg c (b16_dec sg c)) (wrong sg (kind_16 c)))); [|exact Hc].
  destruct sg; vm_compute; reflexivity.
Qed.
Lemma test_64 sg c : is_byte c -> char_eq_u8 sg c (b64_dec sg c) = wrong sg (kind_64 c).
Proof.
  intros Hc. apply eqb_prop. apply (all_bytes (fun c => Bool.eqb (char_eq_u8 sg c (b64_dec sg c)) (wrong sg (kind_64 c)))); [|exact Hc].
  destruct sg; vm_compute; reflexivity.
Qed.
Lemma pad_64 c : is_byte c -> (c =? 0x3d) = match kind_64 c with Padding => true | _ => false end.
Proof.
  intros Hc. apply eqb_prop. apply (all_bytes (fun c => Bool.eqb (c =? 0x3d) (match kind_64 c with Padding => true | _ => false end))); [|exact Hc].
  vm_compute. reflexivity.
Qed.
Definition RK (kd : N -> kind) (c c' : N) : Prop := is_byte c /\ is_byte c' /\ kd c = kd c'.
Definition RKs (kd : N -> kind) (l l' : list N) : Prop := bytes l /\ bytes l' /\ map kd l = map kd l'.
Lemma RKs_length kd l l' : RKs kd l l' -> length l = length l'.
Proof. intros (_ & _ & H). apply (f_equal (@length _)) in H. rewrite !map_length in H. exact H. Qed.
Lemma s_lrd_k kd p l l' i : RKs kd l l' -> same (RK kd) (lrd p l i) (lrd p l' i).
Proof.
  intros (H1 & H2 & H). unfold lrd. apply same_emit; [reflexivity|]. apply same_lift. intros a b Ea Eb.
  unfold rd in *. apply nth_error_In in Ea as Ia. apply nth_error_In in Eb as Ib. unfold bytes in *. rewrite Forall_forall in H1, H2.
  split; [exact (H1 _ Ia)|]. split; [exact (H2 _ Ib)|].
  apply (map_nth_error kd) in Ea. apply (map_nth_error kd) in Eb. congruence.
Qed.
Lemma s_test b b' : b = b' -> same eq (l_test b) (l_test b').
Proof. intros ->. unfold l_test. apply same_emit; [reflexivity|]. apply same_ret. reflexivity. Qed.
Lemma s_or x y x' y' : same eq x x' -> same eq y y' -> same eq (l_or x y) (l_or x' y').
Proof. intros H K. unfold l_or. eapply same_bind; [exact H|]. intros a b ->. destruct b; [apply same_ret; reflexivity|exact K]. Qed.
Lemma s_and x y x' y' : same eq x x' -> same eq y y' -> same eq (l_and x y) (l_and x' y').
Proof. intros H K. unfold l_and. eapply same_bind; [exact H|]. intros a b ->. destruct b; [exact K|apply same_ret; reflexivity]. Qed.
Lemma same_weaken {A} (R Q : A -> A -> Prop) x y : (forall a b, R a b -> Q a b) -> same R x y -> same Q x y.
Proof. intros H K t1 a1 t2 a2 E1 E2. destruct (K _ _ _ _ E1 E2) as [Ht Hr]. split; [exact Ht|exact (H _ _ Hr)]. Qed.

(** *** Encoding *)
Lemma s_b16_encode_loop : forall from from' i to to' off, RL from from' -> RL to to' -> same RL (l_b16_encode_loop i from to off) (l_b16_encode_loop i from' to' off).
Proof.
  induction from as [|b from IH]; intros from' i to to' off H K; destruct from' as [|b' from']; try discriminate H; cbn [l_b16_encode_loop].
  - apply same_emit; [reflexivity|]. apply same_ret, K.
  - apply same_emit; [reflexivity|]. eapply same_bind; [apply s_lwr, K|]. intros t t' Ht. eapply same_bind; [apply s_lwr, Ht|]. intros u u' Hu.
    apply IH; [injection H as H; exact H|exact Hu].
Qed.
Definition RE (x y : list N * nat) : Prop := RP RL eq x y.
Lemma s_b16_encode from from' to to' : RL from from' -> RL to to' -> same RE (l_b16_encode from to) (l_b16_encode from' to').
Proof.
  intros H K. unfold l_b16_encode. eapply same_bind; [apply s_b16_encode_loop; assumption|]. intros a b Hab. apply same_ret. split; cbn [fst snd]; [exact Hab|].
  rewrite H. reflexivity.
Qed.
Definition R3 (x y : list N * nat * nat) : Prop := RP (RP RL eq) eq x y.
Lemma s_b64_encode_loop from from' : forall n to to' fp tp, RL to to' -> same R3 (l_b64_encode_loop from to n fp tp) (l_b64_encode_loop from' to' n fp tp).
Proof.
  induction n as [|n IH]; intros to to' fp tp K; cbn [l_b64_encode_loop]; apply same_emit; try reflexivity.
  - apply same_ret. repeat split; assumption.
  - do 3 (eapply same_bind; [apply s_lrd|intros ? ? _]). cbv zeta.
    do 4 (eapply same_bind; [apply s_lwr; eassumption|intros ? ? ?]). apply IH. assumption.
Qed.
Lemma s_b64_encode from from' to to' : RL from from' -> RL to to' -> same RE (l_b64_encode from to) (l_b64_encode from' to').
Proof.
  intros H K. unfold l_b64_encode. rewrite H. cbv zeta. eapply same_bind; [apply s_b64_encode_loop; exact K|].
  intros [[t fp] tp] [[t' fp'] tp'] [[Ht Hf] Hp]. cbn [fst snd] in *. subst fp' tp'.
  apply same_lif; [reflexivity|apply same_ret; split; [exact Ht|reflexivity]|].
  do 2 (eapply same_bind; [apply s_lrd|intros ? ? _]).
  do 4 (eapply same_bind; [apply s_lwr; eassumption|intros ? ? ?]). apply same_ret. split; [assumption|reflexivity].
Qed.

(** *** Decoding *)
Definition RD (x y : list N * nat * errcode) : Prop := RP (RP RL eq) eq x y.
Definition R16 (x y : list N + list N * nat) : Prop :=
  match x, y with inl a, inl b => RL a b | inr a, inr b => RP RL eq a b | _, _ => False end.
Definition R64 (x y : list N * nat * nat + list N * nat) : Prop :=
  match x, y with inl a, inl b => R3 a b | inr a, inr b => RP RL eq a b | _, _ => False end.
Lemma t16 sg c c' : RK kind_16 c c' -> char_eq_u8 sg c (b16_dec sg c) = char_eq_u8 sg c' (b16_dec sg c').
Proof. intros (A & B & E). rewrite !test_16 by assumption. rewrite E. reflexivity. Qed.
Lemma t64 sg c c' : RK kind_64 c c' -> char_eq_u8 sg c (b64_dec sg c) = char_eq_u8 sg c' (b64_dec sg c').
Proof. intros (A & B & E). rewrite !test_64 by assumption. rewrite E. reflexivity. Qed.
Lemma p64 c c' : RK kind_64 c c' -> (c =? 0x3d) = (c' =? 0x3d).
Proof. intros (A & B & E). rewrite !pad_64 by assumption. rewrite E. reflexivity. Qed.
Lemma s_b16_decode_loop sg from from' : RKs kind_16 from from' -> forall n to to' i fp tb, RL to to' ->
  same R16 (l_b16_decode_loop sg from to n i fp tb) (l_b16_decode_loop sg from' to' n i fp tb).
Proof.
  intros F. induction n as [|n IH]; intros to to' i fp tb K; cbn [l_b16_decode_loop]; apply same_emit; try reflexivity.
  - apply same_ret. exact K.
  - eapply same_bind; [apply (s_lrd_k kind_16), F|intros c0 d0 K0]. eapply same_bind; [apply (s_lrd_k kind_16), F|intros c1 d1 K1]. cbv zeta.
    eapply same_bind; [apply s_or; apply s_test, t16; assumption|]. intros bad bad' ->. destruct bad'; [apply same_ret; split; [exact K|reflexivity]|].
    eapply same_bind; [apply s_lwr, K|]. intros t t' Ht. apply IH, Ht.
Qed.
Lemma s_b16_decode sg from from' to to' e : RKs kind_16 from from' -> RL to to' -> same RD (l_b16_decode sg from to e) (l_b16_decode sg from' to' e).
Proof.
  intros F K. unfold l_b16_decode. rewrite (RKs_length _ _ _ F). cbv zeta.
  assert (Lp : forall t t' fp tb n i x y, RL t t' ->
    same RD (r <~ l_b16_decode_loop sg from t n i fp tb ;; match r with inl to => ret (to, x, y) | inr (to, size) => ret (to, size, err_codec_base_16_decode) end)
      (r <~ l_b16_decode_loop sg from' t' n i fp tb ;; match r with inl to => ret (to, x, y) | inr (to, size) => ret (to, size, err_codec_base_16_decode) end)).
  { intros t t' fp tb n i x y Ht. eapply same_bind; [apply s_b16_decode_loop; assumption|].
    intros [a|[a s]] [b|[b s']] R; cbn [R16] in R.
    - apply same_ret. repeat split. exact R.
    - destruct R.
    - destruct R.
    - destruct R as [Ra Rb]. cbn [fst snd] in *. subst. apply same_ret. repeat split. exact Ra. }
  apply same_lif; [reflexivity| |apply Lp, K].
  eapply same_bind; [apply (s_lrd_k kind_16), F|intros c0 d0 K0]. eapply same_bind; [apply s_test, t16; assumption|]. intros bad bad' ->.
  destruct bad'; [apply same_ret; repeat split; exact K|]. eapply same_bind; [apply s_lwr, K|]. intros t t' Ht. apply Lp, Ht.
Qed.
Lemma s_b64_decode_loop sg from from' : RKs kind_64 from from' -> forall n to to' fp tp, RL to to' ->
  same R64 (l_b64_decode_loop sg from to n fp tp) (l_b64_decode_loop sg from' to' n fp tp).
Proof.
  intros F. induction n as [|n IH]; intros to to' fp tp K; cbn [l_b64_decode_loop]; apply same_emit; try reflexivity.
  - apply same_ret. repeat split; exact K.
  - do 4 (eapply same_bind; [apply (s_lrd_k kind_64), F|intros ? ? ?]). cbv zeta.
    eapply same_bind; [repeat apply s_or; apply s_test, t64; assumption|]. intros bad bad' ->. destruct bad'; [apply same_ret; split; [exact K|reflexivity]|].
    do 3 (eapply same_bind; [apply s_lwr; eassumption|intros ? ? ?]). apply IH. assumption.
Qed.
Lemma s_b64_decode sg from from' to to' e : RKs kind_64 from from' -> RL to to' -> same RD (l_b64_decode sg from to e) (l_b64_decode sg from' to' e).
Proof.
  intros F K. unfold l_b64_decode. rewrite (RKs_length _ _ _ F). cbv zeta.
  apply same_lif; [reflexivity|apply same_ret; repeat split; exact K|].
  eapply same_bind; [apply s_b64_decode_loop; assumption|].
  intros [[[t fp] tp]|[t s]] [[[t' fp'] tp']|[t' s']] R; try (destruct R; fail).
  2:{ destruct R as [Ra Rb]. cbn [fst snd] in *. subst. apply same_ret. repeat split; exact Ra. }
  destruct R as [[Ht Hf] Hp]. cbn [fst snd] in *. subst fp' tp'.
  apply same_lif; [reflexivity| |apply same_ret; repeat split; exact Ht].
  eapply same_bind; [apply (s_lrd_k kind_64), F|intros c0 d0 K0]. eapply same_bind; [apply (s_lrd_k kind_64), F|intros c1 d1 K1].
  eapply same_bind; [apply (s_lrd_k kind_64), F|intros c2 d2 K2]. eapply same_bind; [apply (s_lrd_k kind_64), F|intros c3 d3 K3].
  rewrite (p64 _ _ K2), (p64 _ _ K3).
  eapply same_bind; [repeat (apply s_or || apply s_and); apply s_test; first [reflexivity|apply t64; assumption]|]. intros bad bad' ->.
  destruct bad'; [apply same_ret; repeat split; exact Ht|].
  eapply same_bind; [apply s_lwr; exact Ht|]. intros u u' Hu.
  eapply same_bind; [apply same_lif; [reflexivity|apply s_lwr; exact Hu|apply same_ret; exact Hu]|]. intros v v' Hv.
  eapply same_bind; [apply same_lif; [reflexivity|apply s_lwr; exact Hv|apply same_ret; exact Hv]|]. intros w w' Hw.
  apply same_ret. repeat split; exact Hw.
Qed.
Lemma s_b64_decode_size from from' : RKs kind_64 from from' -> same eq (l_b64_decode_size from) (l_b64_decode_size from').
Proof.
  intros F. unfold l_b64_decode_size. eapply same_bind with (R := eq); [|intros a b ->; apply same_ret; reflexivity].
  unfold l_b64_decode_size_z. rewrite (RKs_length _ _ _ F). cbv zeta. apply same_lif; [reflexivity| |apply same_ret; reflexivity].
  eapply same_bind; [apply (s_lrd_k kind_64), F|intros c d K]. apply same_lif; [apply p64, K| |apply same_ret; reflexivity].
  apply same_lif; [reflexivity| |apply same_ret; reflexivity].
  eapply same_bind; [apply (s_lrd_k kind_64), F|intros c' d' K']. apply same_ret. rewrite (p64 _ _ K'). reflexivity.
Qed.

(** *** The interface *)
Record lct (k : lcodec) (kd : N -> kind) : Prop := {
  ct_encode : forall from from' to to', RL from from' -> RL to to' -> same RE (lc_encode k from to) (lc_encode k from' to');
  ct_encode_size : forall from from', RL from from' -> co_encode_size (lc_codec k) from = co_encode_size (lc_codec k) from';
  ct_decode : forall from from' to to' e, RKs kd from from' -> RL to to' -> same RD (lc_decode k from to e) (lc_decode k from' to' e);
  ct_size : forall from from', RKs kd from from' -> same eq (lc_decode_size k from) (lc_decode_size k from')
}.
Lemma lct_16 sg : lct (l_base_16 sg) kind_16.
Proof.
  constructor; [exact s_b16_encode|intros from from' H; cbn; rewrite H; reflexivity|exact (s_b16_decode sg)|].
  intros from from' F. apply same_ret. unfold b16_decode_size. rewrite (RKs_length _ _ _ F). reflexivity.
Qed.
Lemma lct_64 sg : lct (l_base_64 sg) kind_64.
Proof. constructor; [exact s_b64_encode|intros from from' H; cbn; rewrite H; reflexivity|exact (s_b64_decode sg)|exact s_b64_decode_size]. Qed.
Lemma blank_RL l l' : blank l = blank l' <-> length l = length l'.
Proof. unfold blank. split; [intros H; apply (f_equal (@length _)) in H; rewrite !repeat_length in H; exact H|intros ->; reflexivity]. Qed.
Lemma RC_data c d : RC c d -> RL (cdata c) (cdata d).
Proof. unfold RC, RL. destruct c, d; cbn [blank_c cdata]; intros H; try discriminate H; apply blank_RL; congruence. Qed.
Lemma RC_set c d l l' : RC c d -> RL l l' -> RC (cset c l) (cset d l').
Proof. unfold RC, RL. destruct c, d; cbn [blank_c cset]; intros H K; try discriminate H; f_equal; apply blank_RL, K. Qed.
Lemma s_resize c d n : RC c d -> same RC (l_resize c n) (l_resize d n).
Proof.
  intros H. unfold l_resize. apply same_emit.
  - unfold RC in H. destruct c, d; cbn [blank_c] in H; try discriminate H; reflexivity.
  - apply same_ret. unfold RC in *. destruct c as [l|l], d as [l'|l']; cbn [blank_c] in H; try discriminate H; cbn [cresize fst blank_c].
    + f_equal. assert (E : length l = length l') by (apply blank_RL; congruence). apply blank_RL. unfold resize_list. rewrite !app_length, !firstn_length, !repeat_length, E. reflexivity.
    + exact H.
Qed.
Lemma s_apie_encode k kd from from' to to' : lct k kd -> RL from from' -> RC to to' -> same (RP RC eq) (l_apie_encode k from to) (l_apie_encode k from' to').
Proof.
  intros K F C. unfold l_apie_encode. rewrite (ct_encode_size _ _ K _ _ F). eapply same_bind; [apply s_resize, C|]. intros c c' Hc.
  eapply same_bind; [apply (ct_encode _ _ K); [exact F|apply RC_data, Hc]|]. intros [d n] [d' n'] [Hd Hn]. cbn [fst snd] in *. subst n'.
  eapply same_bind; [apply s_resize, RC_set; assumption|]. intros u u' Hu. apply same_ret. split; [exact Hu|reflexivity].
Qed.
Lemma s_apie_decode k kd from from' to to' e : lct k kd -> RKs kd from from' -> RC to to' ->
  same (RP (RP RC eq) eq) (l_apie_decode k from to e) (l_apie_decode k from' to' e).
Proof.
  intros K F C. unfold l_apie_decode. eapply same_bind; [apply (ct_size _ _ K), F|]. intros s s' ->.
  eapply same_bind; [apply s_resize, C|]. intros c c' Hc.
  eapply same_bind; [apply (ct_decode _ _ K); [exact F|apply RC_data, Hc]|]. intros [[d n] e1] [[d' n'] e2] [[Hd Hn] He]. cbn [fst snd] in *. subst n' e2.
  eapply same_bind; [apply s_resize, RC_set; assumption|]. intros u u' Hu. apply same_ret. repeat split. exact Hu.
Qed.
Lemma s_apie_decode_throw k kd from from' to to' : lct k kd -> RKs kd from from' -> RC to to' ->
  same (RP eq RC) (l_apie_decode_throw k from to) (l_apie_decode_throw k from' to').
Proof.
  intros K F C. unfold l_apie_decode_throw. eapply same_bind; [apply (ct_size _ _ K), F|]. intros s s' ->.
  eapply same_bind; [apply s_resize, C|]. intros c c' Hc.
  eapply same_bind; [apply (ct_decode _ _ K); [exact F|apply RC_data, Hc]|]. intros [[d n] e1] [[d' n'] e2] [[Hd Hn] He]. cbn [fst snd] in *. subst n' e2.
  cbv zeta. apply same_lif; [reflexivity|apply same_ret; split; [reflexivity|apply RC_set; assumption]|].
  eapply same_bind; [apply s_resize, RC_set; assumption|]. intros u u' Hu. apply same_ret. split; [reflexivity|exact Hu].
Qed.
