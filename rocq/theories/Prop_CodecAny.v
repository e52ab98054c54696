(** C03, C04, C05, C08 for every text and both signednesses of plain [char]: exactly what the decoders
    do.  Specification: [Spec_CodecAny] (which adds the library's deviations to RFC 4648). *)
From Coq Require Import String.
From Verif Require Import Base BaseLemmas Model_Codec Spec_Codec Proof_Codec16 Proof_Codec64 Proof_CodecApi
  Spec_CodecAny Proof_CodecAny.
Local Open Scope N_scope.

(** *** C03: even-length base 16 text on any platform. *)
Theorem C03_base16_decode_any_platform : forall sg t,
  bytes t -> Nat.odd (length t) = false ->
  apie_decode_new (base_16 sg) t =
  Some (let (l, ok) := hex_run sg t in if ok then Returns l else Throws err_codec_base_16_decode).
Proof. exact base16_even_new. Qed.
Print Assumptions C03_base16_decode_any_platform.

(** On hex text [hex_run] is the RFC value. *)
Theorem C03_any_platform_rfc : forall sg t l, spec_unhex t = Some l -> hex_run sg t = (l, true).
Proof. exact hex_run_rfc. Qed.
Print Assumptions C03_any_platform_rfc.

(** *** C04, C05: base 16 decoding of every text, odd or even, well formed or not: the new contents of
    the destination, the size returned and the error. *)
Theorem C04_base16_decode_exact : forall sg t to e,
  bytes t -> (b16_decode_size t <= length to)%nat ->
  b16_decode sg t to e =
  let '(d, n, ok) := hex_decoding sg t to in
  Some (d, n, if ok then err_none else err_codec_base_16_decode).
Proof. exact b16_decode_any. Qed.
Print Assumptions C04_base16_decode_exact.

(** One character: the implicit leading zero is honoured. *)
Theorem C04_base16_single : forall sg c, c < 128 ->
  apie_decode_new (base_16 sg) [c] =
  Some (match spec_unhex_any [c] with
        | Some l => Returns l
        | None => Throws err_codec_base_16_decode end).
Proof. exact base16_single. Qed.
Print Assumptions C04_base16_single.

(** Three or more: success depends on all characters but the last two, the second byte is the zero of
    the fresh container, and the last two characters are neither decoded nor checked. *)
Theorem C04_base16_odd_value : forall sg c u a b,
  bytes (c :: u ++ [a; b]) -> Nat.odd (length u) = false ->
  apie_decode_new (base_16 sg) (c :: u ++ [a; b]) =
  Some (match hex_value_on sg c, hex_run sg u with
        | Some v, (l, true) => Returns (v :: 0 :: l)
        | _, _ => Throws err_codec_base_16_decode end).
Proof. exact base16_odd_new. Qed.
Print Assumptions C04_base16_odd_value.

Theorem C04_base16_odd_ignores_last_two : forall sg t a b a' b' to e,
  bytes t -> a < 256 -> b < 256 -> a' < 256 -> b' < 256 -> Nat.odd (length t) = true ->
  (b16_decode_size (t ++ [a; b]) <= length to)%nat ->
  b16_decode sg (t ++ [a; b]) to e = b16_decode sg (t ++ [a'; b']) to e.
Proof. exact base16_odd_ignores. Qed.
Print Assumptions C04_base16_odd_ignores_last_two.

(** "abc" gives 0a 00, "a1234" gives 0a 00 12, "a12??" gives the same, "?" and "a?2b4" fail. *)
Example C04_any_case :
  apie_decode_new (base_16 true) (text "abc"%string) = Some (Returns [10; 0]) /\
  apie_decode_new (base_16 true) (text "a1234"%string) = Some (Returns [10; 0; 18]) /\
  apie_decode_new (base_16 true) (text "a12??"%string) = Some (Returns [10; 0; 18]) /\
  apie_decode_new (base_16 true) (text "a?2b4"%string) = Some (Throws err_codec_base_16_decode) /\
  hex_decoding true (text "0102?0"%string) [7; 7; 7] = ([1; 2; 7], 4%nat, false) /\
  hex_decoding true [255; 52] [7] = ([244], 1%nat, true) /\
  hex_decoding false [255; 52] [7] = ([7], 0%nat, false).
Proof. repeat split; vm_compute; reflexivity. Qed.

(** *** C08: base 64 decoding of every text on any platform, through both interfaces. *)
Theorem C08_base64_decode_any_platform : forall sg t old e,
  bytes t -> (Z.of_nat (length t) * 3 < 2 ^ 64)%Z ->
  let '(l, ok) := b64_decoding sg t in
  apie_decode (base_64 sg) t (Dynamic old) e
    = Some (Dynamic l, length l, if ok then err_none else err_codec_base_64_decode) /\
  apie_decode_new (base_64 sg) t
    = Some (if ok then Returns l else Throws err_codec_base_64_decode).
Proof. exact base64_any. Qed.
Print Assumptions C08_base64_decode_any_platform.

(** The same for the function working on memory, with exactly [decode_size] bytes of room. *)
Theorem C08_base64_decode_exact : forall sg t d e n,
  bytes t -> (Z.of_nat (length t) * 3 < 2 ^ 64)%Z -> b64_decode_size t = Some n -> length d = n ->
  let '(l, ok) := b64_decoding sg t in
  (length l <= n)%nat /\
  b64_decode sg t d e = Some (l ++ skipn (length l) d, length l,
                              if ok then err_none else err_codec_base_64_decode).
Proof. exact b64_decode_any. Qed.
Print Assumptions C08_base64_decode_exact.

Example C08_any_case :
  b64_decoding true (text "Zm9v"%string) = ([102; 111; 111], true) /\
  b64_decoding true (text "Zm9vZg=="%string) = ([102; 111; 111; 102], true) /\
  b64_decoding true (text "Zm9vZ=g="%string) = ([102; 111; 111], false) /\
  b64_decoding true (text "Zm9"%string) = ([], false) /\
  b64_decoding true [255; 255; 255; 255] = ([255; 255; 255], true) /\
  b64_decoding false [255; 255; 255; 255] = ([], false).
Proof. repeat split; vm_compute; reflexivity. Qed.
