(** The words of the benchmark tool: what is documented in doc/benchmarking.md:30-50 (names), 80-90 (metrics) and
    121-174 (commands, options, parameters), written down independently of the model. *)
From Coq Require Import String Ascii.
From Verif Require Import Base.
Local Open Scope string_scope.

Definition txt (s : string) : list N := map N_of_ascii (list_ascii_of_string s).

(** Commands, options and parameters *)
Definition w_benchmark := txt "benchmark".
Definition w_primitive := txt "primitive".
Definition w_version := txt "version".
Definition w_list := txt "list".
Definition w_verbose := txt "--verbose".
Definition w_advanced := txt "--advanced".
Definition w_cpu_clock := txt "cpu-clock".
Definition w_repeats_warm := txt "repeats-warm".
Definition w_repeats_time := txt "repeats-time".
(** Keys of the report *)
Definition w_input := txt "input".
Definition w_config := txt "config".
Definition w_metrics := txt "metrics".
Definition w_duration := txt "duration".
Definition w_nanoseconds_per_call := txt "nanoseconds_per_call".
Definition w_throughput := txt "throughput".
Definition w_gigabytes_per_second := txt "gigabytes_per_second".
Definition w_megabytes_per_second := txt "megabytes_per_second".
Definition w_cpu := txt "cpu".
Definition w_cycles_per_call := txt "cycles_per_call".
Definition w_cycles_per_byte := txt "cycles_per_byte".
Definition w_compiler := txt "compiler".
Definition w_project := txt "project".
Definition w_name := txt "name".
Definition w_command := txt "command".
Definition w_dump := txt "dump".
Definition w_args := txt "args".
Definition w_result := txt "result".

(** The patterns and parameters *)
Definition d_codec := txt "codec-*".
Definition d_hash := txt "hash-*".
Definition d_mac := txt "mac-*".
Definition d_kdf_hkdf := txt "kdf-hkdf-*".
Definition d_kdf_pbkdf_2 := txt "kdf-pbkdf-2-*".
Definition d_cipher := txt "cipher-*".
Definition d_aead := txt "aead-*".
Definition d_bytes_size := txt "bytes-size".
Definition d_message_size := txt "message-size".
Definition d_key_size := txt "key-size".
Definition d_ikm_size := txt "ikm-size".
Definition d_salt_size := txt "salt-size".
Definition d_info_size := txt "info-size".
Definition d_iterations := txt "iterations".
Definition d_aad_size := txt "aad-size".

(** The hash functions, and those with an implementation for the x86 sha extensions *)
Definition hashes : list (list N) :=
  map txt ["sha-1-160"; "sha-2-224"; "sha-2-256"; "sha-2-384"; "sha-2-512"; "sha-2-512-224"; "sha-2-512-256"].
Definition hashes_ni : list (list N) := map txt ["sha-1-160"; "sha-2-224"; "sha-2-256"].
(** [before word after] for each word *)
Definition around (before : string) (words : list (list N)) (after : string) : list (list N) := map (fun w => txt before ++ w ++ txt after)%list words.
Definition both (name : string) : list (list N) := [txt (name ++ "-encrypt"); txt (name ++ "-decrypt")].

(** One kind of benchmark: its pattern, its names, the names of its backends (with --advanced), the parameters that it
    needs, and those parameters whose values add up to the bytes that a call processes. *)
Record kind := { k_pattern : list N; k_names : list (list N); k_backends : list (list N); k_needs : list (list N); k_bytes : list (list N) }.
Definition k_codec : kind := {| k_pattern := d_codec; k_names := map txt ["codec-base-16-encode"; "codec-base-16-decode"; "codec-base-64-encode"; "codec-base-64-decode"]; k_backends := [];
  k_needs := [d_bytes_size]; k_bytes := [d_bytes_size] |}.
Definition k_hash : kind := {| k_pattern := d_hash; k_names := around "hash-" hashes "";
  k_backends := around "hash-" hashes "-sw" ++ around "hash-" hashes_ni "-hw-x86-64-ni";
  k_needs := [d_message_size]; k_bytes := [d_message_size] |}.
Definition k_mac : kind := {| k_pattern := d_mac; k_names := around "mac-hmac-" hashes "" ++ [txt "mac-poly-1305"];
  k_backends := around "mac-hmac-" hashes "-sw" ++ [txt "mac-poly-1305-sw"] ++ around "mac-hmac-" hashes_ni "-hw-x86-64-ni";
  k_needs := [d_key_size; d_message_size]; k_bytes := [d_message_size] |}.
Definition k_kdf_hkdf : kind := {| k_pattern := d_kdf_hkdf; k_names := around "kdf-hkdf-hmac-" hashes "";
  k_backends := around "kdf-hkdf-hmac-" hashes "-sw" ++ around "kdf-hkdf-hmac-" hashes_ni "-hw-x86-64-ni";
  k_needs := [d_ikm_size; d_salt_size; d_info_size; d_key_size]; k_bytes := [d_key_size] |}.
Definition k_kdf_pbkdf_2 : kind := {| k_pattern := d_kdf_pbkdf_2; k_names := around "kdf-pbkdf-2-hmac-" hashes "";
  k_backends := around "kdf-pbkdf-2-hmac-" hashes "-sw" ++ around "kdf-pbkdf-2-hmac-" hashes_ni "-hw-x86-64-ni";
  k_needs := [d_ikm_size; d_salt_size; d_iterations; d_key_size]; k_bytes := [d_key_size] |}.
Definition k_cipher : kind := {| k_pattern := d_cipher; k_names := both "cipher-chacha-20";
  k_backends := both "cipher-chacha-20-sw" ++ both "cipher-chacha-20-hw-x86-64-ssse-3" ++ both "cipher-chacha-20-hw-x86-64-avx-2";
  k_needs := [d_bytes_size]; k_bytes := [d_bytes_size] |}.
Definition k_aead : kind := {| k_pattern := d_aead; k_names := both "aead-chacha-20-poly-1305"; k_backends := both "aead-chacha-20-sw-poly-1305-sw";
  k_needs := [d_aad_size; d_bytes_size]; k_bytes := [d_aad_size; d_bytes_size] |}.
Definition kinds : list kind := [k_codec; k_hash; k_mac; k_kdf_hkdf; k_kdf_pbkdf_2; k_cipher; k_aead].
(** The names of a kind, and all names *)
Definition offered (advanced : bool) (k : kind) : list (list N) := k_names k ++ if advanced then k_backends k else [].
Definition all_offered (advanced : bool) : list (list N) := flat_map (offered advanced) kinds.
(** The bytes that a call of kind [k] processes *)
Definition total (size : list N -> N) (k : kind) : N := fold_right N.add 0%N (map size (k_bytes k)).
