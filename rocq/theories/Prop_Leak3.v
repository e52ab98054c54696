(** Property C72: the codecs leak sizes and the kinds of the characters of a text, nothing else.
    Instrumented code: [Model_Leak3].  Specification: [Spec_Leak] ([same_trace], [blank_c]), [Spec_Leak3] ([kind_16], [kind_64]), [Spec_Codec]. *)
From Verif Require Import Base BaseLemmas BytesLemmas Spec_Bytes Spec_Codec Model_Container Model_Codec Model_Leak Model_Leak3 Spec_Leak Spec_Leak3
  Proof_Leak Proof_Leak2 Proof_Leak7 Proof_Leak8 Proof_Leak9.
Local Open Scope N_scope.

(** The codecs the library ships, and what tells characters apart in each; [sg]: [char] is signed. *)
Definition shipped_codec (k : lcodec) (kd : N -> kind) : Prop :=
  exists sg, (k = l_base_16 sg /\ kd = kind_16) \/ (k = l_base_64 sg /\ kd = kind_64).
Lemma codec_ok k kd : shipped_codec k kd -> lok k /\ lct k kd.
Proof.
  intros [sg [[-> ->]|[-> ->]]]; [split; [apply lok_16|apply lct_16]|split; [apply lok_64|apply lct_64]].
Qed.

(** The instrumented code is the code: same results, undefined in the same cases. *)
Theorem C72_same_model : forall k kd, shipped_codec k kd ->
  (exists sg, lc_codec k = base_16 sg \/ lc_codec k = base_64 sg) /\
  (forall from to, erase (l_apie_encode k from to) = apie_encode (lc_codec k) from to) /\
  (forall from to e, erase (l_apie_decode k from to e) = apie_decode (lc_codec k) from to e) /\
  (forall from to, erase (l_apie_decode_throw k from to) = apie_decode_throw (lc_codec k) from to).
Proof.
  intros k kd H. split; [destruct H as [sg [[-> _]|[-> _]]]; exists sg; [left|right]; reflexivity|].
  destruct (codec_ok k kd H) as [K _]. split; [intros; apply e_apie_encode, K|]. split; [intros; apply e_apie_decode, K|intros; apply e_apie_decode_throw, K].
Qed.
Print Assumptions C72_same_model.

(** Encoding two secrets of the same size. *)
Theorem C72_encode : forall sg x1 x2 old1 old2,
  bytes x1 -> bytes x2 -> length x1 = length x2 -> length old1 = length old2 -> N.of_nat (length x1) < 2 ^ 62 ->
  (exists t1 t2,
    l_apie_encode (l_base_16 sg) x1 (Dynamic old1) = Some (t1, (Dynamic (spec_hex x1), length (spec_hex x1))) /\
    l_apie_encode (l_base_16 sg) x2 (Dynamic old2) = Some (t2, (Dynamic (spec_hex x2), length (spec_hex x2))) /\ same_trace t1 t2) /\
  (exists t1 t2,
    l_apie_encode (l_base_64 sg) x1 (Dynamic old1) = Some (t1, (Dynamic (spec_b64 x1), length (spec_b64 x1))) /\
    l_apie_encode (l_base_64 sg) x2 (Dynamic old2) = Some (t2, (Dynamic (spec_b64 x2), length (spec_b64 x2))) /\ same_trace t1 t2).
Proof. intros. split; [apply enc_16; assumption|apply enc_64; assumption]. Qed.
Print Assumptions C72_encode.
(** Decoding the encodings of two secrets of the same size. *)
Theorem C72_decode_secret : forall sg x1 x2 old1 old2 e,
  bytes x1 -> bytes x2 -> length x1 = length x2 -> length old1 = length old2 -> N.of_nat (length x1) < 2 ^ 60 ->
  (exists t1 t2,
    l_apie_decode (l_base_16 sg) (spec_hex x1) (Dynamic old1) e = Some (t1, (Dynamic x1, length x1, err_none)) /\
    l_apie_decode (l_base_16 sg) (spec_hex x2) (Dynamic old2) e = Some (t2, (Dynamic x2, length x2, err_none)) /\ same_trace t1 t2) /\
  (exists t1 t2,
    l_apie_decode (l_base_64 sg) (spec_b64 x1) (Dynamic old1) e = Some (t1, (Dynamic x1, length x1, err_none)) /\
    l_apie_decode (l_base_64 sg) (spec_b64 x2) (Dynamic old2) e = Some (t2, (Dynamic x2, length x2, err_none)) /\ same_trace t1 t2).
Proof. intros. split; [apply secret_16; assumption|apply secret_64; assumption]. Qed.
Print Assumptions C72_decode_secret.
(** Decoding any two texts, well formed or not, with the same kinds of characters in the same places: the form that sets an error and the one that throws. *)
Theorem C72_decode_text_16 : forall sg x1 x2 old1 old2 e,
  bytes x1 -> bytes x2 -> map kind_16 x1 = map kind_16 x2 -> length old1 = length old2 ->
  (exists t1 r1 t2 r2,
    l_apie_decode (l_base_16 sg) x1 (Dynamic old1) e = Some (t1, r1) /\
    l_apie_decode (l_base_16 sg) x2 (Dynamic old2) e = Some (t2, r2) /\ same_trace t1 t2) /\
  (exists t1 r1 t2 r2,
    l_apie_decode_throw (l_base_16 sg) x1 (Dynamic old1) = Some (t1, r1) /\
    l_apie_decode_throw (l_base_16 sg) x2 (Dynamic old2) = Some (t2, r2) /\ same_trace t1 t2).
Proof. exact dec_16. Qed.
Print Assumptions C72_decode_text_16.
Theorem C72_decode_text_64 : forall sg x1 x2 old1 old2 e,
  bytes x1 -> bytes x2 -> map kind_64 x1 = map kind_64 x2 -> length old1 = length old2 -> (Z.of_nat (length x1) * 3 < 2 ^ 64)%Z ->
  (exists t1 r1 t2 r2,
    l_apie_decode (l_base_64 sg) x1 (Dynamic old1) e = Some (t1, r1) /\
    l_apie_decode (l_base_64 sg) x2 (Dynamic old2) e = Some (t2, r2) /\ same_trace t1 t2) /\
  (exists t1 r1 t2 r2,
    l_apie_decode_throw (l_base_64 sg) x1 (Dynamic old1) = Some (t1, r1) /\
    l_apie_decode_throw (l_base_64 sg) x2 (Dynamic old2) = Some (t2, r2) /\ same_trace t1 t2).
Proof. exact dec_64. Qed.
Print Assumptions C72_decode_text_64.
(** Containers of either kind, whenever the calls are defined. *)
Theorem C72_any : forall k kd from1 from2 to1 to2 e t1 t2, shipped_codec k kd -> blank_c to1 = blank_c to2 ->
  (forall r1 r2, length from1 = length from2 ->
    l_apie_encode k from1 to1 = Some (t1, r1) -> l_apie_encode k from2 to2 = Some (t2, r2) -> same_trace t1 t2) /\
  (bytes from1 -> bytes from2 -> map kd from1 = map kd from2 ->
    (forall r1 r2, l_apie_decode k from1 to1 e = Some (t1, r1) -> l_apie_decode k from2 to2 e = Some (t2, r2) -> same_trace t1 t2) /\
    (forall r1 r2, l_apie_decode_throw k from1 to1 = Some (t1, r1) -> l_apie_decode_throw k from2 to2 = Some (t2, r2) -> same_trace t1 t2)).
Proof.
  intros k kd from1 from2 to1 to2 e t1 t2 H C. destruct (codec_ok k kd H) as [_ K]. split.
  - intros r1 r2 F E1 E2. exact (proj1 (s_apie_encode k kd _ _ _ _ K F C _ _ _ _ E1 E2)).
  - intros B1 B2 F. assert (X : RKs kd from1 from2) by (repeat split; assumption). split; intros r1 r2 E1 E2.
    + exact (proj1 (s_apie_decode k kd _ _ _ _ e K X C _ _ _ _ E1 E2)).
    + exact (proj1 (s_apie_decode_throw k kd _ _ _ _ K X C _ _ _ _ E1 E2)).
Qed.
Print Assumptions C72_any.

(** What is not hidden: where the first wrong character is ("zz00" and "00zz"), and how much padding there is ("AA==" and "AAA="). *)
Theorem C72_position_needed :
  ~ (forall sg x1 x2 t1 r1 t2 r2, bytes x1 -> bytes x2 -> length x1 = length x2 ->
      l_apie_decode (l_base_16 sg) x1 (Dynamic []) err_none = Some (t1, r1) ->
      l_apie_decode (l_base_16 sg) x2 (Dynamic []) err_none = Some (t2, r2) -> same_trace t1 t2) /\
  ~ (forall sg x1 x2 t1 r1 t2 r2, bytes x1 -> bytes x2 -> length x1 = length x2 ->
      l_apie_decode (l_base_64 sg) x1 (Dynamic []) err_none = Some (t1, r1) ->
      l_apie_decode (l_base_64 sg) x2 (Dynamic []) err_none = Some (t2, r2) -> same_trace t1 t2).
Proof.
  assert (B : forall l, forallb (fun b => b <? 256) l = true -> bytes l).
  { intros l H. apply Forall_forall. intros b Hb. apply N.ltb_lt. apply (proj1 (forallb_forall _ _) H b Hb). }
  split; intros H.
  - specialize (H true [122; 122; 48; 48] [48; 48; 122; 122] _ _ _ _ (B [122; 122; 48; 48] eq_refl) (B [48; 48; 122; 122] eq_refl) eq_refl eq_refl eq_refl). vm_compute in H. discriminate H.
  - specialize (H true [65; 65; 61; 61] [65; 65; 65; 61] _ _ _ _ (B [65; 65; 61; 61] eq_refl) (B [65; 65; 65; 61] eq_refl) eq_refl eq_refl eq_refl). vm_compute in H. discriminate H.
Qed.
Print Assumptions C72_position_needed.

(** "c0ffee" and "123456"; the trace of encoding one byte: a resize, the loop taken once, a read, two writes, the loop left, a resize. *)
Example C72_case :
  map kind_16 [99; 48; 102; 102; 101; 101] = map kind_16 [49; 50; 51; 52; 53; 54] /\ map kind_64 [90; 103; 61; 61] = [Digit; Digit; Padding; Padding] /\
  l_apie_encode (l_base_16 true) [171] (Dynamic [])
  = Some ([WrN (Arg 1) 0 2; Br true; Rd (Arg 0) 0; Wr (Arg 1) 0; Wr (Arg 1) 1; Br false; WrN (Arg 1) 0 2], (Dynamic [97; 98], 2%nat)) /\
  l_apie_decode (l_base_16 true) [97; 98] (Dynamic []) err_none
  = Some ([WrN (Arg 1) 0 1; Br false; Br true; Rd (Arg 0) 0; Rd (Arg 0) 1; Br false; Br false; Wr (Arg 1) 0; Br false; WrN (Arg 1) 0 1], (Dynamic [171], 1%nat, err_none)).
Proof. repeat split; vm_compute; reflexivity. Qed.
