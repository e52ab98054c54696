{
 "claims": [
  {
   "property": "C01",
   "status": "proved",
   "theorems": [
    "C01_base16_encode",
    "C01_base16_encode_container",
    "C01_spec_digits",
    "C01_base16_encode_size"
   ],
   "note": "encode, encode_size and container overload, all inputs; size limits are the address-space ones"
  },
  {
   "property": "C02",
   "status": "proved",
   "theorems": [
    "C02_base16_roundtrip"
   ],
   "note": ""
  },
  {
   "property": "C03",
   "status": "partial",
   "theorems": [
    "C03_base16_decode_unsigned_partial",
    "C03_base16_decode_ascii_partial",
    "C03_base16_decode_signed_refuted",
    "C03_base16_signed_accepts_high_refuted",
    "C03_base16_decode_any_platform",
    "C03_any_platform_rfc"
   ],
   "note": "FINDING: false where plain char is signed (x86): bytes >= 0x80 are accepted and decoded to garbage (refuted). Proved exactly for unsigned char and, on every platform, for ASCII text. C03_base16_decode_any_platform states what every even-length text decodes to on either kind of platform."
  },
  {
   "property": "C04",
   "status": "partial",
   "theorems": [
    "C04_base16_odd_refuted",
    "C04_base16_odd_never_writes_byte_1",
    "C04_base16_decode_exact",
    "C04_base16_single",
    "C04_base16_odd_value",
    "C04_base16_odd_ignores_last_two"
   ],
   "note": "FINDING: refuted. Odd-length text of 3+ characters decodes with success, but output byte 1 is never written, later bytes are shifted (from_ptr offset) and the last two characters are neither decoded nor validated (C04_base16_odd_ignores_last_two). C04_base16_decode_exact gives destination, size and error for every text and platform; C04_base16_odd_value the value an odd text yields; C04_base16_single proves the one-character case correct."
  },
  {
   "property": "C05",
   "status": "partial",
   "theorems": [
    "C05_base16_error_size_refuted",
    "C05_base16_error_size_is_doubled",
    "C05_base64_error_size"
   ],
   "note": "FINDING: refuted for base 16 (the size reported on error is in characters, twice the decoded bytes; the exact size on every text is C04_base16_decode_exact); proved for base 64, on every platform and text by C08_base64_decode_any_platform."
  },
  {
   "property": "C06",
   "status": "proved",
   "theorems": [
    "C06_base64_encode",
    "C06_base64_encode_container",
    "C06_base64_encode_size",
    "C06_spec_length"
   ],
   "note": ""
  },
  {
   "property": "C07",
   "status": "proved",
   "theorems": [
    "C07_base64_roundtrip"
   ],
   "note": ""
  },
  {
   "property": "C08",
   "status": "partial",
   "theorems": [
    "C08_base64_decode_unsigned_partial",
    "C08_base64_decode_ascii_partial",
    "C08_base64_decode_signed_refuted",
    "C08_base64_decode_any_platform",
    "C08_base64_decode_exact"
   ],
   "note": "FINDING: false where plain char is signed (refuted); proved for unsigned char and for ASCII text on every platform. C08_base64_decode_any_platform and C08_base64_decode_exact state what every text decodes to on either kind of platform."
  },
  {
   "property": "C09",
   "status": "proved",
   "theorems": [
    "C09_base16_decode_safe",
    "C09_base64_decode_safe",
    "C09_base64_decode_size_no_wrap"
   ],
   "note": ""
  },
  {
   "property": "C10",
   "status": "proved",
   "theorems": [
    "C10_error_independent",
    "C10_base16_codes",
    "C10_base64_codes",
    "C10_throw_iff_error",
    "C10_base16_container_exact",
    "C10_base64_container_exact"
   ],
   "note": ""
  },
  {
   "property": "C11",
   "status": "proved",
   "theorems": [
    "C11_store_be",
    "C11_store_le",
    "C11_load_be",
    "C11_load_le",
    "C11_load_paths_agree",
    "C11_store_paths_agree",
    "C11_byte_arrays_host_independent",
    "C11_copy_words_be",
    "C11_copy_words_le",
    "C11_load_be_sized",
    "C11_load_le_sized",
    "C11_store_be_sized",
    "C11_store_le_sized"
   ],
   "note": "all word sizes over all element sizes, both hosts, both evaluation paths, frame and round trip"
  },
  {
   "property": "C12",
   "status": "proved",
   "theorems": [
    "C12_match_exact",
    "C12_match_containers",
    "C12_match_word_containers",
    "C12_equal_containers"
   ],
   "note": ""
  },
  {
   "property": "C13",
   "status": "proved",
   "theorems": [
    "C13_init_le",
    "C13_init_be",
    "C13_init_native",
    "C13_copy",
    "C13_copy_words",
    "C13_set",
    "C13_xor"
   ],
   "note": ""
  },
  {
   "property": "C14",
   "status": "proved",
   "theorems": [
    "C14_split_independent"
   ],
   "note": "all seven hashes, any chunks, both evaluation modes and byte orders (portable backend)"
  },
  {
   "property": "C15",
   "status": "proved",
   "theorems": [
    "C15_sha1",
    "C15_sha1_free"
   ],
   "note": "member and free overloads, pointer / resizable / fixed containers, any chunking"
  },
  {
   "property": "C16",
   "status": "proved",
   "theorems": [
    "C16_sha2_256",
    "C16_sha2_256_free"
   ],
   "note": "member and free overloads, any chunking"
  },
  {
   "property": "C17",
   "status": "proved",
   "theorems": [
    "C17_sha2_512",
    "C17_sha2_512_free",
    "C17_sizes"
   ],
   "note": "member and free overloads, any chunking; carry of the 128-bit counter included"
  },
  {
   "property": "C18",
   "status": "proved",
   "theorems": [
    "C18_hmac",
    "C18_poly",
    "C18_repeatable"
   ],
   "note": "hash, HMAC and Poly1305 objects, any history before the digest calls"
  },
  {
   "property": "C19",
   "status": "proved",
   "theorems": [
    "C19_aead",
    "C19_cipher",
    "C19_hmac",
    "C19_hkdf",
    "C19_pbkdf2",
    "C19_poly",
    "C19_hash"
   ],
   "note": "hash, MAC, cipher, AEAD and KDF objects"
  },
  {
   "property": "C20",
   "status": "proved",
   "theorems": [
    "C20_aead",
    "C20_cipher",
    "C20_hmac",
    "C20_kdf",
    "C20_poly",
    "C20_hash"
   ],
   "note": "hash, MAC, cipher, AEAD and KDF objects, any call history"
  },
  {
   "property": "C21",
   "status": "partial",
   "theorems": [
    "C21_hmac_option_refuted",
    "C21_poly_refuted",
    "C21_option_partial",
    "C21_option_refuted"
   ],
   "note": "FINDING: refuted for every digest_size larger than the state (out-of-bounds read, nothing rejects it), also for Poly1305; for HMAC the tail is filled with zeros and the returned size tells (C21_hmac_option_refuted); proved for every digest_size up to the state size"
  },
  {
   "property": "C22",
   "status": "proved",
   "theorems": [
    "C22_hmac",
    "C22_hmac_free",
    "C22_size"
   ],
   "note": "all hashes, all key lengths, any partition, every overload; digest_size option up to the hash digest size (above: see C45)"
  },
  {
   "property": "C23",
   "status": "partial",
   "theorems": [
    "C23_any_host",
    "C23_free_any_host",
    "C23_little_endian",
    "C23_poly1305_partial",
    "C23_poly1305_free_partial",
    "C23_key_sizes",
    "C23_size",
    "C23_big_endian_refuted"
   ],
   "note": "FINDING: the key is loaded in host byte order (memory_init, not memory_init_le), so tags are wrong on big-endian hosts (C23_big_endian_refuted). Proved: what every host computes exactly, for every overload, partition and key size (C23_any_host, C23_free_any_host: Poly1305 with each 4-byte group of the padded key reversed on big-endian hosts), hence RFC 8439 on little-endian ones."
  },
  {
   "property": "C24",
   "status": "proved",
   "theorems": [
    "C24_no_overflow"
   ],
   "note": "on every host, for any call history: the code with every overflow turned into an error behaves like the code with wrapping arithmetic"
  },
  {
   "property": "C25",
   "status": "proved",
   "theorems": [
    "C25_chacha20",
    "C25_portable_backend",
    "C25_chacha20_free"
   ],
   "note": "every backend meeting the RFC block contract, any pieces; the portable backend is proved to meet it"
  },
  {
   "property": "C26",
   "status": "proved",
   "theorems": [
    "C26_round_trip"
   ],
   "note": "whatever the pieces, backends and hosts of the two sides"
  },
  {
   "property": "C27",
   "status": "partial",
   "theorems": [
    "C27_backends_agree",
    "C27_history",
    "C27_compile_time_then_run_time_refuted"
   ],
   "note": "FINDING: refuted for an object first used at compile time (64-byte backend) and then at run time with a backend of ratio 4 or 8: it takes ungenerated buffer bytes for key stream and leaves text unencrypted. Otherwise proved: any two backends meeting the RFC contract give the same answers for every history."
  },
  {
   "property": "C28",
   "status": "proved",
   "theorems": [
    "C28_in_place"
   ],
   "note": ""
  },
  {
   "property": "C29",
   "status": "partial",
   "theorems": [
    "C29_aead_any_host",
    "C29_history_any_host",
    "C29_aead_free_any_host",
    "C29_aead",
    "C29_history",
    "C29_aead_free",
    "C29_big_endian_refuted"
   ],
   "note": "Proved for every little-endian host, every backend that computes ChaCha20 (all three proved), every partition of aad and text with at least one encrypt call, every overload, and every orderly history with re-initialization. FINDING: on big-endian hosts the tag is wrong because Poly1305 is (C23; C29_big_endian_refuted); the *_any_host theorems say exactly what is computed there (ciphertext right, tag with the one-time key byte-swapped in 4-byte groups)."
  },
  {
   "property": "C30",
   "status": "proved",
   "theorems": [
    "C30_round_trip",
    "C30_round_trip_free"
   ],
   "note": "Streaming in any pieces on both sides and all free-function overloads, on every host (both sides of one byte order; between hosts of different byte order see C49_aead_interop_refuted)."
  },
  {
   "property": "C31",
   "status": "proved",
   "theorems": [
    "C31_verify_exact"
   ],
   "note": "For every mac of every length after every streaming history with at least one text call; wrong-length macs are rejected because the tag has length digest_size."
  },
  {
   "property": "C32",
   "status": "partial",
   "theorems": [
    "C32_forged_throws_partial",
    "C32_forged_terminates_refuted",
    "C32_error_object"
   ],
   "note": "FINDING: apie.h:1160 and 1253 declare the pointer overload and the fixed-size-container overload noexcept when no error object is given, so every forged message terminates the program (C32_forged_terminates_refuted). The other two overloads throw (C32_forged_throws_partial), and with an error object all overloads report (C32_error_object)."
  },
  {
   "property": "C33",
   "status": "partial",
   "theorems": [
    "C33_forged_plaintext_released_refuted",
    "C33_new_container_partial"
   ],
   "note": "FINDING: every overload with a destination or an error object leaves the decryption of the forged ciphertext in the destination, for all inputs (C33_forged_plaintext_released_refuted). Only the throwing new-container overload releases nothing (C33_new_container_partial)."
  },
  {
   "property": "C34",
   "status": "partial",
   "theorems": [
    "C34_streaming_partial",
    "C34_without_text",
    "C34_without_text_refuted"
   ],
   "note": "FINDING: without any encrypt call the additional data is not padded; the tag is the Poly1305 of the unpadded data for all inputs (C34_without_text) and differs from the one-shot tag (C34_without_text_refuted). Equality proved when there is at least one encrypt call or the aad fills whole blocks (C34_streaming_partial)."
  },
  {
   "property": "C35",
   "status": "proved",
   "theorems": [
    "C35_hkdf"
   ],
   "note": "all hashes under HMAC, all ikm/salt/info lengths, any pieces of output up to 255 blocks in total, member and free overloads"
  },
  {
   "property": "C36",
   "status": "proved",
   "theorems": [
    "C36_hkdf",
    "C36_pbkdf2",
    "C36_hkdf_concat",
    "C36_pbkdf2_concat"
   ],
   "note": "HKDF up to 255*HashLen bytes in total (the RFC limit; beyond it see C37); PBKDF2 without limit (block counter mod 2^32 on both sides)"
  },
  {
   "property": "C37",
   "status": "partial",
   "theorems": [
    "C37_no_limit_refuted",
    "C37_repeats_refuted"
   ],
   "note": "FINDING: refuted. No expand call refuses output beyond 255 blocks (C37_no_limit_refuted); the counter octet wraps and the stream then repeats (C37_repeats_refuted)."
  },
  {
   "property": "C38",
   "status": "proved",
   "theorems": [
    "C38_pbkdf2",
    "C38_zero_iterations"
   ],
   "note": "iterations = 0 is not refused and computes the one-iteration result (C38_zero_iterations)"
  },
  {
   "property": "C39",
   "status": "partial",
   "theorems": [
    "C39_dispatch",
    "C39_any_order",
    "C39_algorithms",
    "C39_which",
    "C39_constant",
    "C39_runtime",
    "C39_options_apart",
    "C39_order_refuted",
    "C39_startup_refuted"
   ],
   "note": "FINDING: impl_runtime_reader::impl is a static data member of a class template, so its dynamic initialisation is unordered: (a) a library call made from another static initialiser may go through a null pointer (C39_startup_refuted), (b) the implementation may be chosen before the CPU features are known, so the portable backend is used although a better one is supported (C39_order_refuted). Proved: if the features are initialised first, the first supported implementation in preference order is chosen; under any permitted order, after start-up, a supported one is chosen."
  },
  {
   "property": "C40",
   "status": "partial",
   "theorems": [
    "C40_avx2_partial",
    "C40_ignores_os",
    "C40_refuted",
    "C40_sha_refuted"
   ],
   "note": "FINDING: the feature detection never reads OSXSAVE/XCR0, so AVX2 ChaCha and AVX SHA-256 are chosen even where the operating system has not enabled the AVX state (C40_refuted, C40_sha_refuted). Proved: the CPUID part (C40_avx2_partial)."
  },
  {
   "property": "C41",
   "status": "proved",
   "theorems": [
    "C41_first",
    "C41_default"
   ],
   "note": "For every list of template options: the value of the first option of the asked suite, else the default; independent of unrelated arguments."
  },
  {
   "property": "C42",
   "status": "partial",
   "theorems": [
    "C42_objects_partial",
    "C42_chacha_key_left_refuted",
    "C42_poly_key_left_refuted",
    "C42_pbkdf2_block_left_refuted",
    "C42_frames",
    "C42_asm_stack_refuted",
    "C42_hash_block_left_refuted",
    "C42_hmac_key_left_refuted",
    "C42_sha_frames"
   ],
   "note": "FINDING: temporaries are never erased: the ChaCha key stays in the local state_base of every stream call, the one-time Poly1305 key in init_mac_key of the AEAD initialize, the derived block in buffer_1 of PBKDF2 expand, the last message block in the schedule of every call of the portable SHA functions, hence after HMAC initialize the key XOR 0x36 (a key of at most a block can be read off), and the whole ChaCha state (constants, key, nonce) in the stack frame of the SSSE3 and AVX2 functions, below the stack pointer after their return (each proved for all inputs; the last on the machine of C50, both calling conventions). Proved: every destructor zeroes every array of hash, HMAC, Poly1305, ChaCha, AEAD, HKDF and PBKDF2 objects, whatever they hold."
  },
  {
   "property": "C43",
   "status": "proved",
   "theorems": [
    "C43_ssse_3_transform",
    "C43_avx_2_transform",
    "C43_ssse_3_generate",
    "C43_avx_2_generate",
    "C43_backends",
    "C43_same_as_portable",
    "C43_extensions",
    "C43_extensions_avx",
    "C43_dispatched"
   ],
   "note": "Both assembly routines (transform and generate) as instruction lists under a model of the x86 vector instructions; any state, any number of double rounds but 0 (the loop counter would wrap), any number of blocks, any register contents on entry; also each instruction exists and needs only declared extensions, and the implementation chosen by dispatch is correct. Prologue, epilogue, addresses and calling conventions: C50."
  },
  {
   "property": "C44",
   "status": "proved",
   "theorems": [
    "C44_sha_1",
    "C44_sha_2_256",
    "C44_same_as_portable",
    "C44_hash",
    "C44_hash_free",
    "C44_histories",
    "C44_hmac",
    "C44_extensions",
    "C44_dispatched"
   ],
   "note": "Both SHA-NI routines as instruction lists under a model of the x86 SSE/SHA instructions; any state, any number of blocks (also 0), any register contents on entry. Also: hash classes, every call history and HMAC give the same answers with them as with the portable code; every instruction needs only declared extensions; the implementation chosen by dispatch is correct. Prologue, epilogue, addresses and calling conventions: C50."
  },
  {
   "property": "C45",
   "status": "proved",
   "theorems": [
    "C45_aead_room_needed",
    "C45_cipher_room_needed",
    "C45_codec_room_needed",
    "C45_codec_static_room",
    "C45_hash",
    "C45_hmac",
    "C45_poly1305",
    "C45_cipher_room",
    "C45_aead_room",
    "C45_hkdf",
    "C45_pbkdf2",
    "C45_codec_room"
   ],
   "note": "For every history of calls of every primitive on every host: a resizable container gets exactly the size of the result, a fixed-size one min(that, its size) for digests and keys, and exactly the size of the text where it has the room that doc/reference.md:137-139 requires. The *_room_needed theorems show that without that room the code writes past the end. The HMAC digest_size option above the digest size is now under C21."
  },
  {
   "property": "C46",
   "status": "proved",
   "theorems": [
    "C46_aead",
    "C46_aead_needed",
    "C46_hmac",
    "C46_hmac_needed",
    "C46_poly",
    "C46_hash",
    "C46_hash_needed"
   ],
   "note": "Under the documented rule (re-initialize before reuse; doc/reference_hash.md:159, reference_mac.md:167, reference_aead.md:212) for every orderly history of hash, HMAC, Poly1305 (any host) and AEAD. The *_needed theorems show that the rule is needed: text fed after a digest is accepted and silently not (hash, MAC) or wrongly (AEAD) included."
  },
  {
   "property": "C47",
   "status": "partial",
   "theorems": [
    "C47_no_reuse_partial",
    "C47_wrap_refuted",
    "C47_pieces_partial",
    "C47_aead_partial",
    "C47_aead_refuted"
   ],
   "note": "FINDING: the 32-bit counter wraps silently; every text longer than 2^38 bytes reuses the key stream (C47_wrap_refuted), and an authenticated text longer than 2^38 - 64 bytes is encrypted with block 0, so its plaintext and ciphertext give away the Poly1305 key of the tag (C47_aead_refuted). Proved: up to these lengths no block is reused, in any pieces (C47_no_reuse_partial, C47_pieces_partial, C47_aead_partial)."
  },
  {
   "property": "C48",
   "status": "proved",
   "theorems": [
    "C48_hkdf",
    "C48_pbkdf2",
    "C48_hkdf_needed",
    "C48_pbkdf2_needed"
   ],
   "note": "HKDF: any change of memory that keeps info; PBKDF2: any that keeps ikm and salt; nothing has to stay in constant evaluation. C48_hkdf_needed and C48_pbkdf2_needed: the documented inputs really have to stay (a changed buffer gives exactly the key of the changed input, a freed one is read)."
  },
  {
   "property": "C49",
   "status": "partial",
   "theorems": [
    "C49_hash",
    "C49_hash_portable",
    "C49_hmac",
    "C49_poly1305_partial",
    "C49_poly1305_refuted",
    "C49_chacha20_partial",
    "C49_chacha20_whole_blocks",
    "C49_chacha20_refuted",
    "C49_aead_partial",
    "C49_aead_crossing_partial",
    "C49_aead_constexpr",
    "C49_aead_refuted",
    "C49_aead_interop_refuted",
    "C49_hkdf",
    "C49_pbkdf2"
   ],
   "note": "Proved for hashes and HMAC in all circumstances (each call in its own), Poly1305 on hosts of one byte order, ChaCha20 and AEAD objects that cross circumstances whenever the block ratio of the backend changes only where no key stream byte is left over (C49_chacha20_partial, C49_aead_crossing_partial), in particular an AEAD object built at compile time and used at run time on any backend (C49_aead_constexpr), and KDFs for objects that stay in one circumstance (KDF objects hold an allocation in constant evaluation, C59, so they cannot cross). FINDING: Poly1305 depends on the byte order (C49_poly1305_refuted), so that an AEAD message from a little-endian host is rejected by a big-endian one (C49_aead_interop_refuted); a ChaCha20 or AEAD object that crosses from compile time to an assembly backend in the middle of a block leaves text unencrypted (C49_chacha20_refuted, C49_aead_refuted)."
  },
  {
   "property": "C50",
   "status": "proved",
   "theorems": [
    "C50_chacha_ssse_3_transform",
    "C50_chacha_ssse_3_generate",
    "C50_chacha_avx_2_transform",
    "C50_chacha_avx_2_generate",
    "C50_sha_1_160",
    "C50_sha_2_256",
    "C50_cpuid",
    "C50_deterministic",
    "C50_chacha_constant_time",
    "C50_sha_constant_time"
   ],
   "note": "Whole functions on a machine with general and vector registers, byte-addressed memory with access rights, flags, labels and jumps; both ABIs; every call state that meets the documented preconditions (rounds not 0; source and destination equal or disjoint). Access below rsp, unaligned movdqa and access outside granted memory are faults. Executions carry a trace of branches and addresses, equal for equal stack pointer and arguments. Stack frames are not erased (key material stays below rsp): not claimed."
  },
  {
   "property": "C51",
   "status": "proved",
   "theorems": [
    "C51_same_model",
    "C51_same_match",
    "C51_memory_match",
    "C51_aead",
    "C51_aead_any"
   ],
   "note": "Source-level leakage model: every branch condition and every array index is recorded (Model_Leak, annotations trusted; operand-independent time of arithmetic assumed, the compiler's code is not modelled). C51_same_model: the instrumented functions compute exactly Model_Aead. C51_aead: two valid histories of the same shape are both defined and leave the same trace but for the verdict. For the assembly backends the functions' own accesses are C50_*constant_time. The other comparison, memory_equal, is shown to stop early (C51_memory_equal_differs); verify does not use it."
  },
  {
   "property": "C52",
   "status": "proved",
   "theorems": [
    "C52_same_model",
    "C52_same_model_cipher",
    "C52_hash",
    "C52_hash_any",
    "C52_hmac",
    "C52_poly_1305",
    "C52_cipher",
    "C52_hkdf",
    "C52_pbkdf_2"
   ],
   "note": "Source-level leakage model as in C51 (Model_Leak2; annotations trusted, operand-independent time of arithmetic assumed, the compiler's code is not modelled). C52_same_model*: the instrumented functions compute exactly the models of C12-C38. The theorems say that two valid histories of the same shape on new objects are both defined and leave the same trace; C52_hash_any also from any two objects. The SHA instruction routines' own accesses are C50_sha_constant_time."
  },
  {
   "property": "C53",
   "status": "partial",
   "theorems": [
    "C53_total",
    "C53_star_both_partial",
    "C53_star_end_partial",
    "C53_sound_partial",
    "C53_name_partial",
    "C53_start_refuted",
    "C53_end_refuted",
    "C53_list",
    "C53_run",
    "C53_documented_partial",
    "C53_names",
    "C53_mac_refuted"
   ],
   "note": "FINDING: the matcher does not anchor the start of a pattern (seg* matches any name that contains seg) and misses names where the last segment also occurs earlier (refuted for all segments). So the documented mac-* with its documented parameters always fails: it also selects kdf-*-hmac-*. Proved: exact for patterns that begin and end with a star; the other documented patterns and all full names select exactly what they should; a run reports exactly the names that match."
  },
  {
   "property": "C54",
   "status": "partial",
   "theorems": [
    "C54_value",
    "C54_not_number",
    "C54_no_value",
    "C54_missing",
    "C54_irrelevant",
    "C54_commands",
    "C54_no_command",
    "C54_echo",
    "C54_omitted",
    "C54_defined_partial",
    "C54_no_arguments_refuted",
    "C54_zero_key_refuted",
    "C54_trailing_refuted",
    "C54_empty_refuted",
    "C54_prefix_refuted"
   ],
   "note": "FINDING: refuted: no arguments, or a zero key size for the KDF benchmarks, is undefined behaviour (the only cases: C54_defined_partial); text after the number is ignored; an empty value is 0; an argument that merely begins with the name of a parameter is taken for it. Proved: values, errors, and that order, unknown, early and late arguments make no difference."
  },
  {
   "property": "C55",
   "status": "partial",
   "theorems": [
    "C55_valid_partial",
    "C55_run_partial",
    "C55_string_refuted",
    "C55_injection_refuted",
    "C55_verbose_refuted",
    "C55_infinite_refuted",
    "C55_run_double_partial",
    "C55_infinite_double_refuted"
   ],
   "note": "FINDING: strings are not escaped (refuted: for every string with a special character; --verbose prints the arguments) and a quotient by zero is printed as inf (refuted). Proved for values without such strings, and for every run without --verbose whose quotients have a divisor other than zero; the _double theorems assume nothing of the text of a quotient: conversion to binary64, division and std::to_string are modelled."
  },
  {
   "property": "C56",
   "status": "partial",
   "theorems": [
    "C56_duration",
    "C56_config",
    "C56_throughput_partial",
    "C56_cycles_partial",
    "C56_cycles_refuted",
    "C56_text_unique",
    "C56_text_exact",
    "C56_duration_text",
    "C56_throughput_text_partial",
    "C56_cycles_text_partial"
   ],
   "note": "FINDING: cycles are wrong whenever clock speed * nanoseconds reaches 2^64 (3.5 GHz: 5.3 s) (refuted). Proved exact below, as quotients of integers; the _text theorems show that the printed text differs from the quotient by no more than half a millionth and 2^-51 of it, and that whole quotients below 2^30 are printed exactly."
  },
  {
   "property": "C57",
   "status": "partial",
   "theorems": [
    "C57_plain",
    "C57_base_16",
    "C57_base_16_invalid_partial",
    "C57_base_64",
    "C57_base_64_ascii_partial",
    "C57_base_16_odd_refuted",
    "C57_base_16_any_platform",
    "C57_base_16_odd_any_platform",
    "C57_base_64_any_platform"
   ],
   "note": "As C03, C04, C08: base 16 literals of odd length are accepted, those of three or more digits with a byte that no digit spells (refuted). Exact for every literal on every platform: C57_*_any_platform."
  },
  {
   "property": "C58",
   "status": "partial",
   "theorems": [
    "C58_backend_partial",
    "C58_hooks_partial",
    "C58_options_apart",
    "C58_poly_hooks_refuted",
    "C58_digest_size",
    "C58_poly_refuted",
    "C58_aead_refuted"
   ],
   "note": "Hashes, HMAC, cipher: proved for the digest size and all five implementation options, given that the features are initialised before the choice (C39). FINDING: the implementation options of Poly1305 are not handed to impl_proxy and so are silently ignored (C58_poly_refuted, C58_poly_hooks_refuted); the options of ChaCha20-Poly1305 (digest_size, impl_*) are ignored too (C58_aead_refuted)."
  },
  {
   "property": "C59",
   "status": "proved",
   "theorems": [
    "C59_values",
    "C59_no_leak",
    "C59_run_time"
   ],
   "note": "ownership of memory_bytes_const_view, in constant evaluation and at run time"
  },
  {
   "property": "C60",
   "status": "proved",
   "theorems": [
    "C60_hash",
    "C60_hmac",
    "C60_poly1305",
    "C60_cipher",
    "C60_aead_encrypt",
    "C60_aead_decrypt",
    "C60_hkdf",
    "C60_pbkdf2",
    "C60_base_16_encode",
    "C60_base_64_encode",
    "C60_base_16_decode",
    "C60_base_64_decode"
   ],
   "note": "all test functions of primitive/*/test.h over the shipped algorithms (on big-endian targets the accepted Poly1305 and AEAD vectors are those of poly1305_on / aead_tag_on, C23)"
  },
  {
   "property": "C61",
   "status": "proved",
   "theorems": [
    "C61_hash",
    "C61_sha_passes",
    "C61_sha_asm_passes",
    "C61_mac",
    "C61_hmac_passes",
    "C61_poly1305_passes",
    "C61_cipher",
    "C61_chacha20_passes",
    "C61_hkdf",
    "C61_pbkdf2",
    "C61_kdf_passes"
   ],
   "note": "hash, MAC, cipher, HKDF and PBKDF2 differential tests, for any two implementations that compute some function through the interface"
  },
  {
   "property": "C62",
   "status": "proved",
   "theorems": [
    "C62_hkdf",
    "C62_pbkdf2",
    "C62_one_block",
    "C62_pbkdf2_needed",
    "C62_hkdf_needed"
   ],
   "note": "Any sequence of reads into any ranges that avoid the inputs documented to have to stay (info; ikm and salt of PBKDF2), always in constant evaluation, and keys of at most one block anywhere. C62_pbkdf2_needed and C62_hkdf_needed give, for every memory, the exact wrong second block otherwise (deriving a long key over the password it comes from)."
  },
  {
   "property": "C63",
   "status": "partial",
   "theorems": [
    "C63_sizes_differ",
    "C63_chacha20_refuted",
    "C63_aead_refuted",
    "C63_poly1305",
    "C63_right_sizes_partial"
   ],
   "note": "FINDING: nothing checks the sizes: a short key or nonce is padded with zeros and a long one cut, so different inputs share one key stream and tag (C63_chacha20_refuted, C63_aead_refuted, for all inputs; e.g. the nonces 01 and 01 00 collide). For Poly1305 this is documented (C63_poly1305). Proved: with the right sizes exactly the given key, counter and nonce are used and different ones give different block inputs (C63_right_sizes_partial)."
  },
  {
   "property": "C64",
   "status": "partial",
   "theorems": [
    "C64_hash",
    "C64_hmac",
    "C64_poly",
    "C64_kdf",
    "C64_cipher",
    "C64_aead",
    "C64_new_digest",
    "C64_new_key",
    "C64_new_text",
    "C64_hash_free",
    "C64_mac_free",
    "C64_kdf_free",
    "C64_cipher_free",
    "C64_encode",
    "C64_decode",
    "C64_decode_error_partial",
    "C64_base16_error_refuted",
    "C64_aead_free",
    "C64_aead_encrypt_partial",
    "C64_aead_in_place_partial",
    "C64_aead_in_place_refuted"
   ],
   "note": "FINDING: (1) base 16 decode with an error object: on malformed text the size is doubled (C05), the second resize grows and can throw bad_alloc after container and error object were changed (C64_base16_error_refuted). (2) aead encrypt in place: if the tag container cannot grow, the text is already encrypted; calling again reports success with the PLAINTEXT in the ciphertext container (C64_aead_in_place_refuted). (3) aead encrypt into two other containers may leave the ciphertext without a tag, but the call can be repeated (C64_aead_encrypt_partial). Proved for everything else: histories of hash, HMAC, Poly1305, HKDF, PBKDF2, cipher and AEAD objects, the members that return new containers (C64_new_*), all free functions, encode and the throwing decode."
  },
  {
   "property": "C65",
   "status": "partial",
   "theorems": [
    "C65_base16_decode",
    "C65_base64_decode",
    "C65_base16_text",
    "C65_base64_text",
    "C65_base16_encode",
    "C65_base64_encode",
    "C65_source_at_the_end",
    "C65_base16_in_place_refuted",
    "C65_base64_in_place_refuted",
    "C65_encode_same_refuted",
    "C65_base16_decode_same_refuted",
    "C65_base64_decode_same_refuted",
    "C65_decode_same_static"
   ],
   "note": "FINDING: encode(c, c) writes out of bounds for every non-empty container (C65_encode_same_refuted); decode(c, c) of a resizable container cuts the text before reading it and silently returns half (base 16) or three quarters (base 64) of the bytes (C65_base16_decode_same_refuted, C65_base64_decode_same_refuted); encoding in place by pointers loses bytes (C65_base16_in_place_refuted, C65_base64_in_place_refuted). Proved: decoding by pointers to the same or a lower address (or beyond the text) equals decoding into separate memory for every text, encoding is right if the source lies at the end of the destination, fixed-size containers decode over themselves correctly."
  },
  {
   "property": "C66",
   "status": "partial",
   "theorems": [
    "C66_base16_encode",
    "C66_base64_encode_partial",
    "C66_pointers",
    "C66_base16_decode",
    "C66_base64_decode_partial",
    "C66_roundtrip_partial",
    "C66_base64_encode_refuted",
    "C66_base64_encode_size_refuted",
    "C66_base16_encode_refuted",
    "C66_base64_decode_refuted"
   ],
   "note": "FINDING: with 32-bit size_t base64 encode_size and decode_size wrap: encoding 1 GiB or more, or decoding a valid text of 2^32/3 characters or more, writes past the destination (C66_base64_encode_refuted, C66_base64_decode_refuted); base16 encoding from 2 GiB on. Below these sizes, and for pointers at any size, the results are those of the 64-bit platform."
  },
  {
   "property": "C67",
   "status": "partial",
   "theorems": [
    "C67_hmac_initialize_first_partial",
    "C67_poly1305_initialize_first_partial",
    "C67_aead_initialize_first_partial",
    "C67_hmac_plain_refuted",
    "C67_poly1305_plain_refuted",
    "C67_aead_plain_refuted",
    "C67_poly1305_zero_refuted",
    "C67_aead_zero_refuted",
    "C67_aead_forged_refuted",
    "C67_cipher_clear_refuted",
    "C67_hkdf_refuted",
    "C67_pbkdf2_refuted"
   ],
   "note": "FINDING: the second half is false.  Positive: declared either way and initialized first = constructed with the key, all histories with copies (C67_*_initialize_first_partial).  Refuted: mac/apie.h:38, aead/apie.h:41-43 and chacha_20_poly_1305.h:50-52 have no initialisers, so with T o; exactly the histories using digest/copy/... before initialize are undefined (C67_*_plain_refuted); with T o{}; tags are all zero and verify accepts a forged text with a zero tag, the first 64 bytes of every text come out in the clear, HKDF and PBKDF2 answer publicly known keys (C67_*_zero/forged/clear_refuted, C67_hkdf_refuted, C67_pbkdf2_refuted)."
  },
  {
   "property": "C68",
   "status": "partial",
   "theorems": [
    "C68_portable",
    "C68_ssse_3_partial",
    "C68_avx_2_partial",
    "C68_ssse_3_refuted",
    "C68_avx_2_refuted",
    "C68_ssse_3_exact",
    "C68_avx_2_exact",
    "C68_aead_portable",
    "C68_aead_ssse_3_partial",
    "C68_aead_avx_2_partial",
    "C68_aead_ssse_3_refuted",
    "C68_aead_avx_2_refuted"
   ],
   "note": "FINDING: the portable code is right for every destination at or before the source (C68_portable, any history; C68_aead_portable), but the vector routines load a column of all blocks of a group and then store it, so a byte may be overwritten before it is read. The SSSE3 routine is right exactly for shifts 0, 64, 128 and from 192 on, the AVX2 routine for 0, 128, 256, 384 and from 448 on (_partial); for every other shift, such as 12 or 16, some byte of any long enough text comes out wrong (_refuted), so the same call gives different results on different CPUs, and the AEAD seals the wrong ciphertext under a valid tag and reports success after writing a wrong plaintext. C68_*_exact give the result for every shift."
  },
  {
   "property": "C69",
   "status": "partial",
   "theorems": [
    "C69_hash_partial",
    "C69_mac_partial",
    "C69_kdf_partial",
    "C69_codec_partial",
    "C69_cipher_partial",
    "C69_digest_refuted",
    "C69_encode_refuted",
    "C69_decrypt",
    "C69_returned"
   ],
   "note": "FINDING: a type with resize() but without reserve(size_t) (or whose const objects give pointers to non-const) satisfies 'bytes' but is not 'container_dynamic', so it is silently not resized: an empty object stays empty and the digest is lost (C69_digest_refuted), and encode writes past its end (C69_encode_refuted). Proved for every other type: hash, MAC, KDF, codec and cipher outputs (_partial: types with resize are assumed to have reserve), the arrays a digest can be returned as, and the verdict of the one-shot AEAD decrypt: an exception for resizable types and spans, std::terminate for arrays (so the way a forgery is reported depends on the type)."
  },
  {
   "property": "C70",
   "status": "partial",
   "theorems": [
    "C70_hash",
    "C70_mac",
    "C70_cipher",
    "C70_aead_encrypt",
    "C70_aead_encrypt_refuted",
    "C70_aead_decrypt",
    "C70_aead_decrypt_refuted"
   ],
   "note": "FINDING: authenticated decryption reads the tag after it has written the plaintext, so with one object for tag and plaintext genuine messages of any size but the tag's are rejected (C70_aead_decrypt_refuted); with one object for ciphertext and tag the ciphertext is lost (C70_aead_encrypt_refuted). Proved for all other ways to share objects, for hash, HMAC, Poly1305, ChaCha20 and AEAD. Key derivation is C48 and C62, codecs C65."
  },
  {
   "property": "C71",
   "status": "proved",
   "theorems": [
    "C71_isolation",
    "C71_schedule",
    "C71_synchronised",
    "C71_race_needed",
    "C71_kept_race_needed",
    "C71_hash_result",
    "C71_hmac_result",
    "C71_poly_result",
    "C71_cipher_result",
    "C71_aead_result",
    "C71_verify_result",
    "C71_hkdf_result",
    "C71_pbkdf2_result",
    "C71_hash_messages",
    "C71_hmac_messages",
    "C71_poly_messages",
    "C71_cipher_messages",
    "C71_aead_messages"
   ],
   "note": "Every object of the six kinds, any trace of calls: isolation and schedule independence of race-free programs, and C71_synchronised: any two schedules that order conflicting calls alike. C71_*_result: for each kind of object, the bytes it leaves in memory and the outcomes of its calls in any interleaving are those of the specification (hash and MAC with any number of updates, one encrypt or decrypt call, one derive call). C71_*_messages: the same for hash, MAC, cipher and AEAD objects initialised again for message after message, each message in any number of parts, AEAD messages ending in digest or verify. Conservative for key derivation: a derive call is taken to use every input its object is given anywhere in the program, and must not write over them. A call is one step of the model; the absence of mutable static state is a reading of the sources recorded in DESIGN.md. C71_race_needed and C71_kept_race_needed show the preconditions are needed."
  },
  {
   "property": "C72",
   "status": "proved",
   "theorems": [
    "C72_same_model",
    "C72_encode",
    "C72_decode_secret",
    "C72_decode_text_16",
    "C72_decode_text_64",
    "C72_any",
    "C72_position_needed"
   ],
   "note": "Instrumented codecs (Model_Leak3) erase to the models of C01-C10; total theorems for encoding, for decoding encodings and for decoding any texts with the same kinds of characters; C72_position_needed shows that the place of a wrong character and the padding do show. Comparisons used as operands of arithmetic are taken to be branch-free; what a compiler makes of them is outside the model."
  },
  {
   "property": "C73",
   "status": "partial",
   "theorems": [
    "C73_text",
    "C73_programs",
    "C73_schemes",
    "C73_bytes",
    "C73_pairs",
    "C73_exit",
    "C73_failure",
    "C73_compile",
    "C73_hash",
    "C73_hmac",
    "C73_poly1305",
    "C73_cipher_encrypt",
    "C73_cipher_decrypt",
    "C73_aead_encrypt",
    "C73_aead_decrypt",
    "C73_base_64_encode",
    "C73_base_16_encode",
    "C73_base_64_decode",
    "C73_base_16_decode",
    "C73_hkdf",
    "C73_pbkdf2",
    "C73_id_zero_refuted",
    "C73_empty_text_refuted",
    "C73_text_literal",
    "C73_escape_refuted",
    "C73_constexpr_off"
   ],
   "note": "FINDING: (1) a vector with id 0 hides its failure: test() returns the id of the failing vector and 0 for success (C73_id_zero_refuted); (2) an empty text, such as the first vector of RFC 4648, is written without a literal, and the program does not compile (C73_empty_text_refuted); (3) texts are not escaped: with a backslash the program tests another text, with a quote it is cut or does not compile (C73_escape_refuted). For all other configurations, with ids other than 0, the property is proved: C73_text, C73_exit, C73_failure, C73_compile, and composed with C60 for each kind of program. C73_constexpr_off: documented."
  }
 ]
}