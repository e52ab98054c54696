(** C65: encoding and decoding within one memory. *)
From Verif Require Import Base BaseLemmas Spec_Codec Spec_Range Model_Container Model_Codec Model_CodecMem Spec_CodecMem
  Proof_Codec16 Proof_Codec64 Proof_CodecApi Proof_CodecMem.
Local Open Scope N_scope.

(** *** Pointers: decoding over the text itself, below it, or beyond it is decoding into separate memory, for every text ... *)
Theorem C65_base16_decode : forall sg m s n d e,
  (s + n <= length m)%nat -> decode_place s n d ->
  let size := b16_decode_size (slice m s n) in (d + size <= length m)%nat ->
  exists l z e', b16_decode sg (slice m s n) (slice m d size) e = Some (l, z, e') /\ length l = size /\
    b16_decode_at sg m s n d e = Some (put m d l, z, e').
Proof. exact decode16_one. Qed.
Print Assumptions C65_base16_decode.
Theorem C65_base64_decode : forall sg m s n d e size,
  (s + n <= length m)%nat -> decode_place s n d -> (Z.of_nat n * 3 < 2 ^ 64)%Z ->
  b64_decode_size (slice m s n) = Some size -> (d + size <= length m)%nat ->
  exists l z e', b64_decode sg (slice m s n) (slice m d size) e = Some (l, z, e') /\ length l = size /\
    b64_decode_at sg m s n d e = Some (put m d l, z, e').
Proof. exact decode64_one. Qed.
Print Assumptions C65_base64_decode.
(** ... and a good text leaves its bytes there. *)
Theorem C65_base16_text : forall sg m s n d e x,
  (s + n <= length m)%nat -> decode_place s n d -> (d + length x <= length m)%nat ->
  spec_unhex (slice m s n) = Some x -> b16_decode_at sg m s n d e = Some (put m d x, length x, err_none).
Proof. exact decode16_text. Qed.
Print Assumptions C65_base16_text.
Theorem C65_base64_text : forall sg m s n d e x,
  (s + n <= length m)%nat -> decode_place s n d -> (d + length x <= length m)%nat -> (Z.of_nat n * 3 < 2 ^ 64)%Z ->
  spec_unb64 (slice m s n) = Some x -> b64_decode_at sg m s n d e = Some (put m d x, length x, err_none).
Proof. exact decode64_text. Qed.
Print Assumptions C65_base64_text.
(** Encoding is right if the source lies far enough behind, for example at the end of the destination. *)
Theorem C65_base16_encode : forall m s n d,
  (s + n <= length m)%nat -> encode16_place s n d -> (d + 2 * n <= length m)%nat -> bytes (slice m s n) ->
  b16_encode_at m s n d = Some (put m d (spec_hex (slice m s n)), (2 * n)%nat).
Proof. exact encode16_text. Qed.
Print Assumptions C65_base16_encode.
Theorem C65_base64_encode : forall m s n d,
  (s + n <= length m)%nat -> encode64_place s n d -> (d + 4 * ((n + 2) / 3) <= length m)%nat -> bytes (slice m s n) ->
  b64_encode_at m s n d = Some (put m d (spec_b64 (slice m s n)), (4 * ((n + 2) / 3))%nat).
Proof. exact encode64_text. Qed.
Print Assumptions C65_base64_encode.
Theorem C65_source_at_the_end : forall s n d,
  ((s + n = d + 2 * n)%nat -> encode16_place s n d) /\ ((s + n = d + 4 * ((n + 2) / 3))%nat -> encode64_place s n d).
Proof.
  intros s n d. unfold encode16_place, encode64_place. split; [lia|]. intros H. left.
  pose proof (Nat.div_mod (n + 2) 3). pose proof (Nat.mod_upper_bound (n + 2) 3). lia.
Qed.
Print Assumptions C65_source_at_the_end.
(** Refuted: encoding over the source itself.  The second byte (the fourth, for base 64) is lost before it is read: what it was makes no
    difference to the result, which can be right for one value at most. *)
Theorem C65_base16_in_place_refuted : forall a b b' r n m z m' z',
  is_byte a -> is_byte b -> is_byte b' -> b <> b' -> (2 <= n <= 2 + length r)%nat -> bytes r ->
  b16_encode_at (a :: b :: r) 0 n 0 = Some (m, z) -> b16_encode_at (a :: b' :: r) 0 n 0 = Some (m', z') ->
  m = m' /\ ~ (firstn (2 * n) m = spec_hex (firstn n (a :: b :: r)) /\ firstn (2 * n) m' = spec_hex (firstn n (a :: b' :: r))).
Proof.
  intros a b b' r n m z m' z' Ha Hb Hb' D H Hr E E'. rewrite (in_place16 a b b' r n) in E by lia. rewrite E in E'. injection E' as -> ->.
  split; [reflexivity|]. intros [F F']. rewrite F in F'.
  assert (B : forall x, is_byte x -> bytes (firstn n (a :: x :: r))).
  { intros x Hx. apply bytes_firstn. constructor; [exact Ha|]. constructor; [exact Hx|exact Hr]. }
  pose proof (spec_unhex_hex _ (B b Hb)) as U. pose proof (spec_unhex_hex _ (B b' Hb')) as U'. rewrite F', U' in U.
  destruct n as [|[|n]]; [lia|lia|]. cbn [firstn] in U. congruence.
Qed.
Print Assumptions C65_base16_in_place_refuted.
Theorem C65_base64_in_place_refuted : forall a0 a1 a2 b b' r n m z m' z',
  bytes [a0; a1; a2] -> is_byte b -> is_byte b' -> b <> b' -> (4 <= n <= 4 + length r)%nat -> bytes r ->
  b64_encode_at (a0 :: a1 :: a2 :: b :: r) 0 n 0 = Some (m, z) -> b64_encode_at (a0 :: a1 :: a2 :: b' :: r) 0 n 0 = Some (m', z') ->
  m = m' /\ z = z' /\
  ~ (firstn z m = spec_b64 (firstn n (a0 :: a1 :: a2 :: b :: r)) /\ firstn z m' = spec_b64 (firstn n (a0 :: a1 :: a2 :: b' :: r))).
Proof.
  intros a0 a1 a2 b b' r n m z m' z' Ha Hb Hb' D H Hr E E'. rewrite (in_place64 a0 a1 a2 b b' r n) in E by lia. rewrite E in E'. injection E' as -> ->.
  split; [reflexivity|]. split; [reflexivity|]. intros [F F']. rewrite F in F'.
  assert (B : forall x, is_byte x -> bytes (firstn n (a0 :: a1 :: a2 :: x :: r))).
  { intros x Hx. apply bytes_firstn. inversion Ha as [|? ? H0 H1]; subst. inversion H1 as [|? ? H2 H3]; subst. inversion H3; subst. repeat (constructor; [assumption|]). exact Hr. }
  pose proof (spec_unb64_b64 _ (B b Hb)) as U. pose proof (spec_unb64_b64 _ (B b' Hb')) as U'. rewrite F', U' in U.
  destruct n as [|[|[|[|n]]]]; try lia. cbn [firstn] in U. congruence.
Qed.
Print Assumptions C65_base64_in_place_refuted.

(** *** Containers: [encode(c, c)], [decode(c, c, e)] *)
(** Refuted: encoding a container into itself writes out of bounds, whatever it holds. *)
Theorem C65_encode_same_refuted : forall sg c, cdata c <> [] -> N.of_nat (length (cdata c)) < 2 ^ 62 ->
  apie_encode_same (base_16_at sg) c = None /\ apie_encode_same (base_64_at sg) c = None.
Proof. exact encode_same_none. Qed.
Print Assumptions C65_encode_same_refuted.
(** Refuted: decoding a resizable container into itself cuts the text before it is read, and reports success: half of the bytes are gone. *)
Theorem C65_base16_decode_same_refuted : forall sg x y e, bytes (x ++ y) -> length x = length y ->
  apie_decode_same (base_16_at sg) (Dynamic (spec_hex (x ++ y))) e = Some (Dynamic x, length x, err_none).
Proof. exact decode_same_half16. Qed.
Print Assumptions C65_base16_decode_same_refuted.
Theorem C65_base64_decode_same_refuted : forall sg x y j e,
  bytes (x ++ y) -> length x = (9 * j)%nat -> length y = (3 * j)%nat -> N.of_nat (length (x ++ y)) < 2 ^ 60 ->
  apie_decode_same (base_64_at sg) (Dynamic (spec_b64 (x ++ y))) e = Some (Dynamic x, length x, err_none).
Proof. exact decode_same_part64. Qed.
Print Assumptions C65_base64_decode_same_refuted.
(** A container of fixed size is decoded correctly. *)
Theorem C65_decode_same_static : forall sg t e x,
  (spec_unhex t = Some x -> apie_decode_same (base_16_at sg) (Static t) e = Some (Static (put t 0 x), length x, err_none)) /\
  (spec_unb64 t = Some x -> (Z.of_nat (length t) * 3 < 2 ^ 64)%Z ->
     apie_decode_same (base_64_at sg) (Static t) e = Some (Static (put t 0 x), length x, err_none)).
Proof. exact decode_same_static. Qed.
Print Assumptions C65_decode_same_static.

(** *** Cases *)
(** "0102" over itself, behind itself; bytes at the end of the room for their text; and in place. *)
Example C65_case :
  b16_decode_at true [48; 49; 48; 50; 7] 0 4 0 err_none = Some ([1; 2; 48; 50; 7], 2%nat, err_none) /\
  b16_decode_at true [7; 48; 49; 48; 50] 1 4 0 err_none = Some ([1; 2; 49; 48; 50], 2%nat, err_none) /\
  b64_decode_at true [90; 109; 57; 118] 0 4 0 err_none = Some ([102; 111; 111; 118], 3%nat, err_none) /\
  b16_encode_at [0; 0; 222; 173] 2 2 0 = Some ([100; 101; 97; 100], 4%nat) /\
  b64_encode_at [0; 102; 111; 111] 1 3 0 = Some ([90; 109; 57; 118], 4%nat) /\
  b16_encode_at [222; 173; 0; 0] 0 2 0 = Some ([100; 101; 54; 53], 4%nat) /\
  apie_decode_same (base_16_at true) (Dynamic [48; 49; 48; 50]) err_none = Some (Dynamic [1], 1%nat, err_none).
Proof. vm_compute. auto 10. Qed.
Example C65_places : decode_place 0 4 0 /\ ~ decode_place 0 4 1 /\ encode16_place 2 2 0 /\ ~ encode16_place 0 2 0 /\ encode64_place 1 3 0.
Proof. unfold decode_place, encode16_place, encode64_place. cbn. lia. Qed.
(** A destination that begins within the text: a good text is reported as malformed. *)
Example C65_decode_behind : spec_unhex [48; 49; 50; 51; 52; 53] = Some [1; 35; 69] /\ ~ decode_place 0 6 2 /\
  b16_decode_at true [48; 49; 50; 51; 52; 53] 0 6 2 err_none = Some ([48; 49; 1; 51; 52; 53], 2%nat, err_codec_base_16_decode).
Proof. split; [vm_compute; reflexivity|]. split; [unfold decode_place; lia|vm_compute; reflexivity]. Qed.
