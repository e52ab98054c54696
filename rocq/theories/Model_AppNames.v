(** The names of the benchmark tool. app/include/milo/app/command/benchmark.h:972-1222 (on x86_64). *)
From Coq Require Import String Ascii.
From Verif Require Import Base.
Local Open Scope string_scope.

(** A string literal as a list of character codes. *)
Definition str (s : string) : list N := map N_of_ascii (list_ascii_of_string s).

Record group := {
  gr_parameters : list (list N);   (* parameter::group, in the order in which they are read *)
  gr_basic : list (list N);        (* first list of declare: always there *)
  gr_advanced : list (list N);     (* second list: with --advanced *)
  gr_processed : list (list N);    (* the sizes that count as processed bytes: lines 293, 348, 395, 450, 513, 573, 661, 749, 857, 965 *)
  gr_first : list (list N)        (* the sizes of arrays whose first element is read: lines 484, 545 *)
}.

(** Line 984 *)
Definition g_codec : group := {|
  gr_parameters := map str ["bytes-size"];
  gr_basic := map str ["codec-base-16-encode"; "codec-base-16-decode"; "codec-base-64-encode"; "codec-base-64-decode"];
  gr_advanced := map str [];
  gr_processed := map str ["bytes-size"];
  gr_first := [] |}.
(** Line 1007 *)
Definition g_hash : group := {|
  gr_parameters := map str ["message-size"];
  gr_basic := map str ["hash-sha-1-160"; "hash-sha-2-224"; "hash-sha-2-256"; "hash-sha-2-384"; "hash-sha-2-512"; "hash-sha-2-512-224";
    "hash-sha-2-512-256"];
  gr_advanced := map str ["hash-sha-1-160-sw"; "hash-sha-2-224-sw"; "hash-sha-2-256-sw"; "hash-sha-2-384-sw"; "hash-sha-2-512-sw";
    "hash-sha-2-512-224-sw"; "hash-sha-2-512-256-sw"; "hash-sha-1-160-hw-x86-64-ni"; "hash-sha-2-224-hw-x86-64-ni"; "hash-sha-2-256-hw-x86-64-ni"];
  gr_processed := map str ["message-size"];
  gr_first := [] |}.
(** Line 1045 *)
Definition g_mac : group := {|
  gr_parameters := map str ["key-size"; "message-size"];
  gr_basic := map str ["mac-hmac-sha-1-160"; "mac-hmac-sha-2-224"; "mac-hmac-sha-2-256"; "mac-hmac-sha-2-384"; "mac-hmac-sha-2-512";
    "mac-hmac-sha-2-512-224"; "mac-hmac-sha-2-512-256"; "mac-poly-1305"];
  gr_advanced := map str ["mac-hmac-sha-1-160-sw"; "mac-hmac-sha-2-224-sw"; "mac-hmac-sha-2-256-sw"; "mac-hmac-sha-2-384-sw"; "mac-hmac-sha-2-512-sw";
    "mac-hmac-sha-2-512-224-sw"; "mac-hmac-sha-2-512-256-sw"; "mac-poly-1305-sw"; "mac-hmac-sha-1-160-hw-x86-64-ni"; "mac-hmac-sha-2-224-hw-x86-64-ni";
    "mac-hmac-sha-2-256-hw-x86-64-ni"];
  gr_processed := map str ["message-size"];
  gr_first := [] |}.
(** Line 1086 *)
Definition g_kdf_hkdf : group := {|
  gr_parameters := map str ["ikm-size"; "salt-size"; "info-size"; "key-size"];
  gr_basic := map str ["kdf-hkdf-hmac-sha-1-160"; "kdf-hkdf-hmac-sha-2-224"; "kdf-hkdf-hmac-sha-2-256"; "kdf-hkdf-hmac-sha-2-384";
    "kdf-hkdf-hmac-sha-2-512"; "kdf-hkdf-hmac-sha-2-512-224"; "kdf-hkdf-hmac-sha-2-512-256"];
  gr_advanced := map str ["kdf-hkdf-hmac-sha-1-160-sw"; "kdf-hkdf-hmac-sha-2-224-sw"; "kdf-hkdf-hmac-sha-2-256-sw"; "kdf-hkdf-hmac-sha-2-384-sw";
    "kdf-hkdf-hmac-sha-2-512-sw"; "kdf-hkdf-hmac-sha-2-512-224-sw"; "kdf-hkdf-hmac-sha-2-512-256-sw"; "kdf-hkdf-hmac-sha-1-160-hw-x86-64-ni";
    "kdf-hkdf-hmac-sha-2-224-hw-x86-64-ni"; "kdf-hkdf-hmac-sha-2-256-hw-x86-64-ni"];
  gr_processed := map str ["key-size"];
  gr_first := map str ["key-size"] |}.
(** Line 1127 *)
Definition g_kdf_pbkdf_2 : group := {|
  gr_parameters := map str ["ikm-size"; "salt-size"; "iterations"; "key-size"];
  gr_basic := map str ["kdf-pbkdf-2-hmac-sha-1-160"; "kdf-pbkdf-2-hmac-sha-2-224"; "kdf-pbkdf-2-hmac-sha-2-256"; "kdf-pbkdf-2-hmac-sha-2-384";
    "kdf-pbkdf-2-hmac-sha-2-512"; "kdf-pbkdf-2-hmac-sha-2-512-224"; "kdf-pbkdf-2-hmac-sha-2-512-256"];
  gr_advanced := map str ["kdf-pbkdf-2-hmac-sha-1-160-sw"; "kdf-pbkdf-2-hmac-sha-2-224-sw"; "kdf-pbkdf-2-hmac-sha-2-256-sw";
    "kdf-pbkdf-2-hmac-sha-2-384-sw"; "kdf-pbkdf-2-hmac-sha-2-512-sw"; "kdf-pbkdf-2-hmac-sha-2-512-224-sw"; "kdf-pbkdf-2-hmac-sha-2-512-256-sw";
    "kdf-pbkdf-2-hmac-sha-1-160-hw-x86-64-ni"; "kdf-pbkdf-2-hmac-sha-2-224-hw-x86-64-ni"; "kdf-pbkdf-2-hmac-sha-2-256-hw-x86-64-ni"];
  gr_processed := map str ["key-size"];
  gr_first := map str ["key-size"] |}.
(** Line 1168 *)
Definition g_cipher : group := {|
  gr_parameters := map str ["bytes-size"];
  gr_basic := map str ["cipher-chacha-20-encrypt"; "cipher-chacha-20-decrypt"];
  gr_advanced := map str ["cipher-chacha-20-sw-encrypt"; "cipher-chacha-20-sw-decrypt"; "cipher-chacha-20-hw-x86-64-ssse-3-encrypt";
    "cipher-chacha-20-hw-x86-64-ssse-3-decrypt"; "cipher-chacha-20-hw-x86-64-avx-2-encrypt"; "cipher-chacha-20-hw-x86-64-avx-2-decrypt"];
  gr_processed := map str ["bytes-size"];
  gr_first := [] |}.
(** Line 1197 *)
Definition g_aead : group := {|
  gr_parameters := map str ["aad-size"; "bytes-size"];
  gr_basic := map str ["aead-chacha-20-poly-1305-encrypt"; "aead-chacha-20-poly-1305-decrypt"];
  gr_advanced := map str ["aead-chacha-20-sw-poly-1305-sw-encrypt"; "aead-chacha-20-sw-poly-1305-sw-decrypt"];
  gr_processed := map str ["aad-size"; "bytes-size"];
  gr_first := [] |}.
(** Lines 972-1222 *)
Definition groups : list group := [g_codec; g_hash; g_mac; g_kdf_hkdf; g_kdf_pbkdf_2; g_cipher; g_aead].


(** Literals of app.h, run.h, benchmark.h, type.h. *)
Definition s_benchmark := str "benchmark".
Definition s_primitive := str "primitive".
Definition s_version := str "version".
Definition s_list := str "list".
Definition s_verbose := str "verbose".
Definition s_advanced := str "advanced".
Definition s_cpu_clock := str "cpu-clock".
Definition s_repeats_warm := str "repeats-warm".
Definition s_repeats_time := str "repeats-time".
Definition s_input := str "input".
Definition s_config := str "config".
Definition s_metrics := str "metrics".
Definition s_duration := str "duration".
Definition s_nanoseconds_per_call := str "nanoseconds_per_call".
Definition s_throughput := str "throughput".
Definition s_gigabytes_per_second := str "gigabytes_per_second".
Definition s_megabytes_per_second := str "megabytes_per_second".
Definition s_cpu := str "cpu".
Definition s_cycles_per_call := str "cycles_per_call".
Definition s_cycles_per_byte := str "cycles_per_byte".
Definition s_compiler := str "compiler".
Definition s_name := str "name".
Definition s_project := str "project".
Definition s_command := str "command".
Definition s_dump := str "dump".
Definition s_args := str "args".
Definition s_result := str "result".
Definition s_true := str "true".
Definition s_false := str "false".
Definition s__command := str " command".
Definition s__application := str " application".
Definition s_milo := str "milo".
