(** Literals. *)
From Verif Require Import Base BaseLemmas Model_Container Model_Codec Spec_Codec Proof_Codec16 Proof_Codec64 Proof_CodecApi Model_Literal
  Spec_CodecAny Proof_CodecAny.
Local Open Scope N_scope.

(** *** C57: a literal stands for the bytes it spells out. *)
Theorem C57_plain : forall t, lit_b t = t /\ lit_bv t = t /\ lit_c t = t /\ lit_cv t = t.
Proof. intros t. unfold lit_b, lit_bv, lit_c, lit_cv. rewrite firstn_all. auto. Qed.
Print Assumptions C57_plain.
(** Hexadecimal literals in lower or upper case, or mixed *)
Theorem C57_base_16 : forall sg l t, bytes l -> N.of_nat (length l) < 2 ^ 63 -> Forall2 (fun c d => d = c \/ d = upper c) (spec_hex l) t ->
  lit_base_16 sg t = Some (Returns l).
Proof. intros sg l t B L F. unfold lit_base_16. rewrite firstn_all. exact (proj2 (base16_roundtrip sg l t B L F)). Qed.
Print Assumptions C57_base_16.
(** An ASCII literal of even length that is not hexadecimal is an error (at compile time in a constant expression). *)
Theorem C57_base_16_invalid_partial : forall sg t, Forall (fun c => c < 128) t -> Nat.odd (length t) = false -> spec_unhex t = None ->
  lit_base_16 sg t = Some (Throws err_codec_base_16_decode).
Proof. intros sg t A E U. unfold lit_base_16. rewrite firstn_all, (base16_decode_ascii sg t A E), U. reflexivity. Qed.
Print Assumptions C57_base_16_invalid_partial.
Theorem C57_base_64 : forall sg l, bytes l -> N.of_nat (length l) < 2 ^ 60 -> lit_base_64 sg (spec_b64 l) = Some (Returns l).
Proof. intros sg l B L. unfold lit_base_64. rewrite firstn_all. exact (proj2 (proj2 (base64_roundtrip sg l B L))). Qed.
Print Assumptions C57_base_64.
Theorem C57_base_64_ascii_partial : forall sg t, Forall (fun c => c < 128) t -> (Z.of_nat (length t) * 3 < 2 ^ 64)%Z ->
  lit_base_64 sg t = Some (match spec_unb64 t with Some l => Returns l | None => Throws err_codec_base_64_decode end).
Proof. intros sg t A L. unfold lit_base_64. rewrite firstn_all. exact (base64_decode_ascii sg t A L). Qed.
Print Assumptions C57_base_64_ascii_partial.
(** An odd number of hexadecimal digits is accepted. *)
Theorem C57_base_16_odd_refuted : exists sg t l, Forall (fun c => c < 128) t /\ spec_unhex t = None /\ lit_base_16 sg t = Some (Returns l).
Proof. exists true, [65], [10]. split; [repeat constructor|]. split; vm_compute; reflexivity. Qed.
Print Assumptions C57_base_16_odd_refuted.
(** Every literal on every platform: even and odd numbers of characters, base 64. *)
Theorem C57_base_16_any_platform : forall sg t, bytes t -> Nat.odd (length t) = false ->
  lit_base_16 sg t = Some (let (l, ok) := hex_run sg t in if ok then Returns l else Throws err_codec_base_16_decode).
Proof. intros sg t B E. unfold lit_base_16. rewrite firstn_all. exact (base16_even_new sg t B E). Qed.
Print Assumptions C57_base_16_any_platform.
Theorem C57_base_16_odd_any_platform : forall sg c u a b, bytes (c :: u ++ [a; b]) -> Nat.odd (length u) = false ->
  lit_base_16 sg (c :: u ++ [a; b]) =
  Some (match hex_value_on sg c, hex_run sg u with Some v, (l, true) => Returns (v :: 0 :: l) | _, _ => Throws err_codec_base_16_decode end).
Proof. intros sg c u a b B E. unfold lit_base_16. rewrite firstn_all. exact (base16_odd_new sg c u a b B E). Qed.
Print Assumptions C57_base_16_odd_any_platform.
Theorem C57_base_64_any_platform : forall sg t, bytes t -> (Z.of_nat (length t) * 3 < 2 ^ 64)%Z ->
  lit_base_64 sg t = Some (let (l, ok) := b64_decoding sg t in if ok then Returns l else Throws err_codec_base_64_decode).
Proof.
  intros sg t B L. unfold lit_base_64. rewrite firstn_all. pose proof (base64_any sg t [] err_none B L) as H.
  destruct (b64_decoding sg t) as [l ok]. exact (proj2 H).
Qed.
Print Assumptions C57_base_64_any_platform.
(** "abc"_base_16 is 0a 00; the characters b and c do not matter. *)
Example C57_odd_case : lit_base_16 true [97; 98; 99] = Some (Returns [10; 0]) /\ lit_base_16 true [97; 63; 63] = Some (Returns [10; 0]).
Proof. split; vm_compute; reflexivity. Qed.
Example C57_case : lit_base_16 true [97; 66; 48; 49] = Some (Returns [171; 1]) /\ lit_base_16 true [122; 122] = Some (Throws err_codec_base_16_decode)
  /\ lit_base_64 true [90; 103; 61; 61] = Some (Returns [102]).
Proof. repeat split; vm_compute; reflexivity. Qed.
