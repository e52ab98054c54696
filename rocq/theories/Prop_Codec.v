(** Properties C01-C10 and the codec part of C45.  Specification: [Spec_Codec].
    [None] as a result of the model means undefined behaviour (out-of-bounds access); [sg] says
    whether plain [char] is signed on the platform. *)
From Verif Require Import Base BaseLemmas Model_Codec Spec_Codec Proof_Codec16 Proof_Codec64 Proof_CodecApi.
Local Open Scope N_scope.

(** *** C01: base 16 encoding.  The destination is [to] followed by arbitrary memory [tail]. *)
Theorem C01_base16_encode : forall from to tail,
  bytes from -> length to = (2 * length from)%nat ->
  b16_encode from (to ++ tail) = Some (spec_hex from ++ tail, (2 * length from)%nat).
Proof. exact b16_encode_frame. Qed.
Print Assumptions C01_base16_encode.

Theorem C01_base16_encode_container : forall sg from old,
  bytes from -> N.of_nat (length from) < 2 ^ 63 ->
  apie_encode (base_16 sg) from (Dynamic old)
  = Some (Dynamic (spec_hex from), length (spec_hex from)).
Proof. exact apie_encode16. Qed.
Print Assumptions C01_base16_encode_container.

(** The specification itself: length and digit positions, spelled out. *)
Theorem C01_spec_digits : forall l i b, bytes l -> nth_error l i = Some b ->
  nth_error (spec_hex l) (2 * i) = nth_error hex_lower (N.to_nat (b / 16)) /\
  nth_error (spec_hex l) (2 * i + 1) = nth_error hex_lower (N.to_nat (b mod 16)) /\
  length (spec_hex l) = (2 * length l)%nat.
Proof. exact spec_hex_digits. Qed.
Print Assumptions C01_spec_digits.

Theorem C01_base16_encode_size : forall from, N.of_nat (length from) < 2 ^ 63 ->
  b16_encode_size (N.of_nat (length from)) = N.of_nat (length (spec_hex from)).
Proof. exact b16_encode_size_correct. Qed.
Print Assumptions C01_base16_encode_size.

Example C01_case : b16_encode [222; 173] [0; 0; 0; 0; 9] = Some ([100; 101; 97; 100; 9], 4%nat).
Proof. vm_compute. reflexivity. Qed.

(** *** C02 *)
Theorem C02_base16_roundtrip : forall sg l t,
  bytes l -> N.of_nat (length l) < 2 ^ 63 ->
  Forall2 (fun c d => d = c \/ d = upper c) (spec_hex l) t ->
  apie_encode_new (base_16 sg) l = Some (spec_hex l) /\
  apie_decode_new (base_16 sg) t = Some (Returns l).
Proof. exact base16_roundtrip. Qed.
Print Assumptions C02_base16_roundtrip.

Example C02_case : Forall2 (fun c d => d = c \/ d = upper c) (spec_hex [171; 205]) [65; 98; 67; 100].
Proof. repeat constructor; vm_compute; tauto. Qed.

(** *** C03: with unsigned [char] decoding is exact; with signed [char] (x86) it is not. *)
Theorem C03_base16_decode_unsigned_partial : forall t,
  bytes t -> Nat.odd (length t) = false ->
  apie_decode_new (base_16 false) t =
  Some (match spec_unhex t with
        | Some l => Returns l
        | None => Throws err_codec_base_16_decode end).
Proof. exact base16_decode_unsigned. Qed.
Print Assumptions C03_base16_decode_unsigned_partial.

Theorem C03_base16_decode_ascii_partial : forall sg t,
  Forall (fun c => c < 128) t -> Nat.odd (length t) = false ->
  apie_decode_new (base_16 sg) t =
  Some (match spec_unhex t with
        | Some l => Returns l
        | None => Throws err_codec_base_16_decode end).
Proof. exact base16_decode_ascii. Qed.
Print Assumptions C03_base16_decode_ascii_partial.

Theorem C03_base16_decode_signed_refuted : ~ (forall t,
  bytes t -> Nat.odd (length t) = false ->
  apie_decode_new (base_16 true) t =
  Some (match spec_unhex t with
        | Some l => Returns l
        | None => Throws err_codec_base_16_decode end)).
Proof. exact base16_decode_signed_refuted. Qed.
Print Assumptions C03_base16_decode_signed_refuted.

Theorem C03_base16_signed_accepts_high_refuted : forall c d,
  128 <= c -> c < 256 -> 128 <= d -> d < 256 ->
  spec_unhex [c; d] = None /\
  exists b, apie_decode_new (base_16 true) [c; d] = Some (Returns [b]).
Proof. exact base16_signed_accepts_high. Qed.
Print Assumptions C03_base16_signed_accepts_high_refuted.

Example C03_case : apie_decode_new (base_16 true) [48; 103] = Some (Throws err_codec_base_16_decode)
  /\ apie_decode_new (base_16 true) [52; 65] = Some (Returns [74]).
Proof. split; vm_compute; reflexivity. Qed.

(** *** C04: odd-length text. *)
Theorem C04_base16_odd_refuted : ~ (forall sg t, bytes t -> Nat.odd (length t) = true ->
  (exists e, apie_decode_new (base_16 sg) t = Some (Throws e)) \/
  (exists l, spec_unhex_any t = Some l /\ apie_decode_new (base_16 sg) t = Some (Returns l))).
Proof. exact base16_odd_refuted. Qed.
Print Assumptions C04_base16_odd_refuted.

(** What the code does: for every odd-length text of three or more characters the second output
    byte is never written. *)
Theorem C04_base16_odd_never_writes_byte_1 : forall sg t x y d e to size e',
  Nat.odd (length t) = true -> (3 <= length t)%nat ->
  b16_decode sg t (x :: y :: d) e = Some (to, size, e') ->
  exists x' d', to = x' :: y :: d'.
Proof. exact b16_decode_odd_untouched. Qed.
Print Assumptions C04_base16_odd_never_writes_byte_1.

Example C04_case : b16_decode true [97; 98; 99] [7; 7] err_none = Some ([10; 7], 2%nat, err_none).
Proof. vm_compute. reflexivity. Qed.

(** *** C05: size reported with an error. *)
Theorem C05_base16_error_size_refuted : ~ (forall sg t old size c, bytes t ->
  apie_decode (base_16 sg) t (Dynamic old) err_none = Some (c, size, err_codec_base_16_decode) ->
  (size <= b16_decode_size t)%nat).
Proof. exact base16_error_size_refuted. Qed.
Print Assumptions C05_base16_error_size_refuted.

(** The size reported is exactly twice the number of bytes decoded. *)
Theorem C05_base16_error_size_is_doubled : forall t to e,
  bytes t -> Nat.odd (length t) = false -> (Nat.div2 (length t) <= length to)%nat ->
  spec_unhex t = None ->
  exists g, b16_decode false t to e
    = Some (g ++ skipn (length g) to, (2 * length g)%nat, err_codec_base_16_decode)
    /\ spec_unhex (firstn (2 * length g) t) = Some g.
Proof. exact b16_error_doubled. Qed.
Print Assumptions C05_base16_error_size_is_doubled.

(** base 64 does it right (see also [C08]): on error the size is the number of bytes written. *)
Theorem C05_base64_error_size : forall sg t old e,
  bytes t -> sg = false \/ Forall (fun c => c < 128) t -> (Z.of_nat (length t) * 3 < 2 ^ 64)%Z ->
  spec_unb64 t = None ->
  exists g n, apie_decode (base_64 sg) t (Dynamic old) e
            = Some (Dynamic g, length g, err_codec_base_64_decode) /\
  co_decode_size (base_64 sg) t = Some n /\ (length g <= n)%nat.
Proof. exact base64_error_size. Qed.
Print Assumptions C05_base64_error_size.

Example C05_case : apie_decode (base_16 true) [48; 49; 48; 50; 103; 48] (Dynamic []) err_none
  = Some (Dynamic [1; 2; 0; 0], 4%nat, err_codec_base_16_decode).
Proof. vm_compute. reflexivity. Qed.

(** *** C06 *)
Theorem C06_base64_encode : forall from to tail,
  bytes from -> length to = length (spec_b64 from) ->
  b64_encode from (to ++ tail) = Some (spec_b64 from ++ tail, length (spec_b64 from)).
Proof. exact b64_encode_frame. Qed.
Print Assumptions C06_base64_encode.

Theorem C06_base64_encode_container : forall sg from old,
  bytes from -> N.of_nat (length from) < 2 ^ 62 ->
  apie_encode (base_64 sg) from (Dynamic old)
  = Some (Dynamic (spec_b64 from), length (spec_b64 from)).
Proof. exact apie_encode64. Qed.
Print Assumptions C06_base64_encode_container.

Theorem C06_base64_encode_size : forall n, n < 2 ^ 62 -> b64_encode_size n = 4 * ((n + 2) / 3).
Proof. exact b64_encode_size_correct. Qed.
Print Assumptions C06_base64_encode_size.

Theorem C06_spec_length : forall l, length (spec_b64 l) = (4 * ((length l + 2) / 3))%nat.
Proof. exact spec_b64_length. Qed.
Print Assumptions C06_spec_length.

Example C06_case : b64_encode [102; 111; 111; 98] (repeat 0 9)
  = Some ([90; 109; 57; 118; 89; 103; 61; 61; 0], 8%nat).
Proof. vm_compute. reflexivity. Qed.

(** *** C07 *)
Theorem C07_base64_roundtrip : forall sg l,
  bytes l -> N.of_nat (length l) < 2 ^ 60 ->
  apie_encode_new (base_64 sg) l = Some (spec_b64 l) /\
  co_decode_size (base_64 sg) (spec_b64 l) = Some (length l) /\
  apie_decode_new (base_64 sg) (spec_b64 l) = Some (Returns l).
Proof. exact base64_roundtrip. Qed.
Print Assumptions C07_base64_roundtrip.

Example C07_case : apie_decode_new (base_64 true) (spec_b64 [1; 2; 3; 255]) = Some (Returns [1; 2; 3; 255]).
Proof. vm_compute. reflexivity. Qed.

(** *** C08 *)
Theorem C08_base64_decode_unsigned_partial : forall t,
  bytes t -> (Z.of_nat (length t) * 3 < 2 ^ 64)%Z ->
  apie_decode_new (base_64 false) t =
  Some (match spec_unb64 t with
        | Some l => Returns l
        | None => Throws err_codec_base_64_decode end).
Proof. exact base64_decode_unsigned. Qed.
Print Assumptions C08_base64_decode_unsigned_partial.

Theorem C08_base64_decode_ascii_partial : forall sg t,
  Forall (fun c => c < 128) t -> (Z.of_nat (length t) * 3 < 2 ^ 64)%Z ->
  apie_decode_new (base_64 sg) t =
  Some (match spec_unb64 t with
        | Some l => Returns l
        | None => Throws err_codec_base_64_decode end).
Proof. exact base64_decode_ascii. Qed.
Print Assumptions C08_base64_decode_ascii_partial.

Theorem C08_base64_decode_signed_refuted : ~ (forall t,
  bytes t -> (Z.of_nat (length t) * 3 < 2 ^ 64)%Z ->
  apie_decode_new (base_64 true) t =
  Some (match spec_unb64 t with
        | Some l => Returns l
        | None => Throws err_codec_base_64_decode end)).
Proof. exact base64_decode_signed_refuted. Qed.
Print Assumptions C08_base64_decode_signed_refuted.

Example C08_case : apie_decode_new (base_64 true) [90; 103; 61; 61] = Some (Returns [102])
  /\ apie_decode_new (base_64 true) [90; 61; 61; 61] = Some (Throws err_codec_base_64_decode)
  /\ apie_decode_new (base_64 true) [61; 61; 61; 61; 90; 103; 61; 61] = Some (Throws err_codec_base_64_decode).
Proof. repeat split; vm_compute; reflexivity. Qed.

(** *** C09: for every text, only [decode_size] bytes of the destination are written. *)
Theorem C09_base16_decode_safe : forall sg t d tl e,
  length d = b16_decode_size t ->
  exists d' size e', b16_decode sg t (d ++ tl) e = Some (d' ++ tl, size, e') /\ length d' = length d.
Proof. exact b16_decode_safe. Qed.
Print Assumptions C09_base16_decode_safe.

Theorem C09_base64_decode_safe : forall sg t d tl e n,
  (Z.of_nat (length t) * 3 < 2 ^ 64)%Z ->
  b64_decode_size t = Some n -> length d = n ->
  exists d' size e', b64_decode sg t (d ++ tl) e = Some (d' ++ tl, size, e') /\ length d' = length d.
Proof. exact b64_decode_safe. Qed.
Print Assumptions C09_base64_decode_safe.

Theorem C09_base64_decode_size_no_wrap : forall t, (Z.of_nat (length t) * 3 < 2 ^ 64)%Z ->
  exists z, b64_decode_size_z t = Some z /\ (0 <= z <= Z.of_nat (length t) * 3 / 4)%Z.
Proof. exact b64_decode_size_no_wrap. Qed.
Print Assumptions C09_base64_decode_size_no_wrap.

Example C09_case : b64_decode_size [61; 61; 61; 61] = Some 1%nat /\
  b64_decode true [61; 61; 61; 61] [5; 6] err_none = Some ([5; 6], 0%nat, err_codec_base_64_decode).
Proof. split; vm_compute; reflexivity. Qed.

(** *** C10: error contract. *)
Theorem C10_error_independent : forall sg t to e1 e2,
  b16_decode sg t to e1 = b16_decode sg t to e2 /\ b64_decode sg t to e1 = b64_decode sg t to e2.
Proof. exact decode_err_independent. Qed.
Print Assumptions C10_error_independent.

Theorem C10_base16_codes : forall sg t to e d s e', b16_decode sg t to e = Some (d, s, e') ->
  e' = err_none \/ e' = err_codec_base_16_decode.
Proof. exact b16_decode_codes. Qed.
Print Assumptions C10_base16_codes.

Theorem C10_base64_codes : forall sg t to e d s e', b64_decode sg t to e = Some (d, s, e') ->
  e' = err_none \/ e' = err_codec_base_64_decode.
Proof. exact b64_decode_codes. Qed.
Print Assumptions C10_base64_codes.

Theorem C10_throw_iff_error : forall k sg t c e0, k = base_16 sg \/ k = base_64 sg ->
  forall c' s e, apie_decode k t c e0 = Some (c', s, e) ->
  exists c'', apie_decode_throw k t c = Some (if err_bool e then Throws e else Returns s, c'')
              /\ (err_bool e = false -> c'' = c').
Proof. exact apie_throw_agrees_both. Qed.
Print Assumptions C10_throw_iff_error.

Theorem C10_base16_container_exact : forall sg t l old e,
  spec_unhex t = Some l ->
  apie_decode (base_16 sg) t (Dynamic old) e = Some (Dynamic l, length l, err_none).
Proof. exact apie_decode16_valid. Qed.
Print Assumptions C10_base16_container_exact.

Theorem C10_base64_container_exact : forall sg t l old e,
  spec_unb64 t = Some l -> (Z.of_nat (length t) * 3 < 2 ^ 64)%Z ->
  apie_decode (base_64 sg) t (Dynamic old) e = Some (Dynamic l, length l, err_none).
Proof. exact apie_decode64_valid. Qed.
Print Assumptions C10_base64_container_exact.

Example C10_case : apie_decode (base_64 true) [90; 103; 61; 61] (Dynamic [1; 2; 3; 4; 5]) err_aead_verify
  = Some (Dynamic [102], 1%nat, err_none).
Proof. vm_compute. reflexivity. Qed.

(** *** C45, codec part: a fixed-size container must have room (doc/reference.md:137-139); one that is too small is written past its end. *)
Theorem C45_codec_room_needed : forall sg from l,
  (length l < 2 * length from)%nat -> apie_encode (base_16 sg) from (Static l) = None.
Proof. exact static_overrun16. Qed.
Print Assumptions C45_codec_room_needed.

Theorem C45_codec_static_room : forall sg from l tail, bytes from ->
  (length l = (2 * length from)%nat ->
   apie_encode (base_16 sg) from (Static (l ++ tail))
   = Some (Static (spec_hex from ++ tail), (2 * length from)%nat)) /\
  (length l = length (spec_b64 from) ->
   apie_encode (base_64 sg) from (Static (l ++ tail))
   = Some (Static (spec_b64 from ++ tail), length (spec_b64 from))).
Proof. exact static_room. Qed.
Print Assumptions C45_codec_static_room.

Example C45_codec_case : apie_encode (base_16 true) [1; 2] (Static [0; 0]) = None /\
  apie_encode (base_16 true) [1] (Static [9; 9; 9]) = Some (Static [48; 49; 9], 2%nat).
Proof. split; vm_compute; reflexivity. Qed.
