(** What a configuration of the test generator asks for. *)
From Coq Require Import String.
From Verif Require Import Base Spec_Codec Spec_Cpp Model_Codegen. (* Model_Codegen: types of configurations only *)
Local Open Scope N_scope.

(** Texts that stand for themselves between quotes: not empty, ASCII, no quote, backslash or control character.  (Other characters are written in the
    encoding of the file, as several bytes in UTF-8.) *)
Definition plain_text (t : list N) : Prop := t <> [] /\ Forall (fun c => 32 <= c < 127 /\ c <> 34 /\ c <> 92) t.
(** The value of a member. *)
Inductive denotes : member -> jval -> value -> Prop :=
| d_bytes t b : spec_unhex t = Some b -> denotes MBytes (JText t) (VBytes b)
| d_text t : plain_text t -> denotes MText (JText t) (VBytes t)
| d_number n : n < 2 ^ 32 -> denotes MNumber (JInt n) (VNumber n).
Definition vector_of (sc : scheme) (o : jobject) (v : vector) : Prop :=
  key (text "id") o = Some (JInt (vec_id v)) /\ vec_id v < 2 ^ 64 /\
  Forall2 (fun m x => exists j, key (fst m) o = Some j /\ denotes (snd m) j x) (sc_members sc) (vec_values v).
(** Names of C++ types: letters, digits, underscores, colons. *)
Definition name_char (c : N) : Prop := 48 <= c <= 58 \/ 65 <= c <= 90 \/ c = 95 \/ 97 <= c <= 122.
Definition name (n : list N) : Prop := n <> [] /\ Forall name_char n.
(** Headers: one line. *)
Definition header (h : list N) : Prop := Forall (fun c => 32 <= c) h.
Definition config_ok (c : config) : Prop := Forall name (cf_cpltime c) /\ Forall name (cf_runtime c) /\ Forall header (cf_include c).
(** Every pair of different positions, in order. *)
Fixpoint all_pairs {A} (l : list A) : list (A * A) :=
  match l with [] => [] | x :: l => flat_map (fun y => [(x, y)]) l ++ all_pairs l end.
(** What the program has to do: everything under "cpltime", everything under "runtime", all pairs of "runtime" if there is a differential test; it fails if
    there is nothing to test. *)
Definition statements_of (sc : scheme) (c : config) : list statement :=
  map Cpltime (cf_cpltime c) ++ map Runtime (cf_runtime c) ++
  match sc_differential sc with Some _ => map (fun '(a, b) => Differential a b) (all_pairs (cf_runtime c)) | None => [] end ++
  [Return (match cf_cpltime c, cf_runtime c with [], [] => 1 | _, _ => 0 end)].
Definition source_of (sc : scheme) : source :=
  {| so_members := map (fun m => (fst m, match snd m with MNumber => true | _ => false end)) (sc_members sc); so_header := sc_header sc; so_call := sc_call sc; so_differential := sc_differential sc |}.
(** The headers: the standard ones, those of the configuration, the one of the test functions. *)
Definition includes_of (sc : scheme) (c : config) : list (list N) :=
  [text "<iostream>"; text "<milo/internal.h>"; text "<milo/literal.h>"] ++ cf_include c ++ [so_header (source_of sc)].
Definition program_of (sc : scheme) (c : config) (vs : list vector) : program :=
  {| pr_includes := includes_of sc c; pr_vectors := vs; pr_main := statements_of sc c |}.
(** The ten modules of tool/codegen/src/cpp/test/primitive. *)
Definition shipped : list scheme :=
  [s_hash; s_mac; s_cipher_encrypt; s_cipher_decrypt; s_aead_encrypt; s_aead_decrypt; s_codec_encode; s_codec_decode; s_kdf_hkdf; s_kdf_pbkdf_2].
(** Implementation [i] passes all vectors. *)
Definition passes (check : list N -> list value -> option bool) (vs : list vector) (i : list N) : Prop := Forall (fun v => check i (vec_values v) = Some true) vs.
(** A configuration of a shipped module and its vectors. *)
Definition describes (sc : scheme) (c : config) (vs : list vector) : Prop :=
  In sc shipped /\ config_ok c /\ Forall2 (vector_of sc) (concat (cf_vectors c)) vs.
(** The fields of a vector in the configuration. *)
Definition field (o : jobject) (n : string) (b : list N) : Prop := exists t, key (text n) o = Some (JText t) /\ spec_unhex t = Some b.
Definition text_field (o : jobject) (n : string) (t : list N) : Prop := key (text n) o = Some (JText t).
Definition number_field (o : jobject) (n : string) (v : N) : Prop := key (text n) o = Some (JInt v).
(** A program is generated and, given that the differential tests pass if there are any, succeeds exactly when all vectors satisfy [P]. *)
Definition succeeds_iff (sc : scheme) (c : config) (check : list N -> list value -> option bool) (P : jobject -> Prop) : Prop :=
  exists t p, gen sc c = Some t /\ read_program (source_of sc) t = Some p /\ forall differential,
    (sc_differential sc <> None -> forall a b, In (a, b) (all_pairs (cf_runtime c)) -> differential a b = Some true) ->
    (run check differential p = Some (0, []) <-> Forall P (concat (cf_vectors c))).
Definition small (vs : list vector) : Prop := forall v l, In v vs -> In (VBytes l) (vec_values v) -> N.of_nat (length l) < 2 ^ 60.
(** The ten programs, written out: members of a vector in the order in which the function gets them, the function, the differential test. *)
Definition bytes_members (l : list string) : list (list N * bool) := map (fun n => (text n, false)) l.
Definition call (kind f : string) : list N := text "milo::primitive::" ++ text kind ++ text "::" ++ text f.
Definition test_header (kind : string) : list N := text "<milo/primitive/" ++ text kind ++ text "/test.h>".
Definition programs : list source :=
  [{| so_members := bytes_members ["message"; "digest"]%string; so_header := test_header "hash"; so_call := call "hash" "test::digest<t_impl>"; so_differential := Some (text "hash") |};
   {| so_members := bytes_members ["key"; "message"; "digest"]%string; so_header := test_header "mac"; so_call := call "mac" "test::digest<t_impl>"; so_differential := Some (text "mac") |};
   {| so_members := bytes_members ["key"; "iv"; "plaintext"; "ciphertext"]%string; so_header := test_header "cipher"; so_call := call "cipher" "test::encrypt<t_impl>"; so_differential := Some (text "cipher") |};
   {| so_members := bytes_members ["key"; "iv"; "ciphertext"; "plaintext"]%string; so_header := test_header "cipher"; so_call := call "cipher" "test::decrypt<t_impl>"; so_differential := Some (text "cipher") |};
   {| so_members := bytes_members ["key"; "iv"; "aad"; "plaintext"; "ciphertext"; "digest"]%string; so_header := test_header "aead"; so_call := call "aead" "test<t_impl>::encrypt"; so_differential := None |};
   {| so_members := bytes_members ["key"; "iv"; "aad"; "ciphertext"; "digest"; "plaintext"]%string; so_header := test_header "aead"; so_call := call "aead" "test<t_impl>::decrypt"; so_differential := None |};
   {| so_members := bytes_members ["from"; "to"]%string; so_header := test_header "codec"; so_call := call "codec" "test<t_impl>::encode"; so_differential := None |};
   {| so_members := bytes_members ["from"; "to"]%string; so_header := test_header "codec"; so_call := call "codec" "test<t_impl>::decode"; so_differential := None |};
   {| so_members := bytes_members ["ikm"; "salt"; "info"; "key"]%string; so_header := test_header "kdf"; so_call := call "kdf" "test::derive<t_impl>"; so_differential := Some (text "kdf") |};
   {| so_members := [(text "ikm", false); (text "salt", false); (text "iterations", true); (text "key", false)]; so_header := test_header "kdf"; so_call := call "kdf" "test::derive<t_impl>"; so_differential := Some (text "kdf") |}].
(** The names of the schemes, in the same order. *)
Definition scheme_names : list string :=
  ["test-primitive-hash"; "test-primitive-mac"; "test-primitive-cipher-encrypt"; "test-primitive-cipher-decrypt"; "test-primitive-aead-encrypt"; "test-primitive-aead-decrypt";
   "test-primitive-codec-encode"; "test-primitive-codec-decode"; "test-primitive-kdf-hkdf"; "test-primitive-kdf-pbkdf-2"]%string.
