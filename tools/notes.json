{
"C01": [
"proved",
"encode, encode_size and container overload, all inputs; size limits are the address-space ones"
],
"C02": [
"proved",
""
],
"C03": [
"partial",
"FINDING: false where plain char is signed (x86): bytes >= 0x80 are accepted and decoded to garbage (refuted). Proved exactly for unsigned char and, on every platform, for ASCII text. C03_base16_decode_any_platform states what every even-length text decodes to on either kind of platform."
],
"C04": [
"partial",
"FINDING: refuted. Odd-length text of 3+ characters decodes with success, but output byte 1 is never written, later bytes are shifted (from_ptr offset) and the last two characters are neither decoded nor validated (C04_base16_odd_ignores_last_two). C04_base16_decode_exact gives destination, size and error for every text and platform; C04_base16_odd_value the value an odd text yields; C04_base16_single proves the one-character case correct."
],
"C05": [
"partial",
"FINDING: refuted for base 16 (the size reported on error is in characters, twice the decoded bytes; the exact size on every text is C04_base16_decode_exact); proved for base 64, on every platform and text by C08_base64_decode_any_platform."
],
"C06": [
"proved",
""
],
"C07": [
"proved",
""
],
"C08": [
"partial",
"FINDING: false where plain char is signed (refuted); proved for unsigned char and for ASCII text on every platform. C08_base64_decode_any_platform and C08_base64_decode_exact state what every text decodes to on either kind of platform."
],
"C09": [
"proved",
""
],
"C10": [
"proved",
""
],
"C11": [
"proved",
"all word sizes over all element sizes, both hosts, both evaluation paths, frame and round trip"
],
"C12": [
"proved",
""
],
"C13": [
"proved",
""
],
"C14": [
"proved",
"all seven hashes, any chunks, both evaluation modes and byte orders (portable backend)"
],
"C15": [
"proved",
"member and free overloads, pointer / resizable / fixed containers, any chunking"
],
"C16": [
"proved",
"member and free overloads, any chunking"
],
"C17": [
"proved",
"member and free overloads, any chunking; carry of the 128-bit counter included"
],
"C18": [
"proved",
"hash, HMAC and Poly1305 objects, any history before the digest calls"
],
"C19": [
"proved",
"hash, MAC, cipher, AEAD and KDF objects"
],
"C20": [
"proved",
"hash, MAC, cipher, AEAD and KDF objects, any call history"
],
"C21": [
"partial",
"FINDING: refuted for every digest_size larger than the state (out-of-bounds read, nothing rejects it), also for Poly1305; for HMAC the tail is filled with zeros and the returned size tells (C21_hmac_option_refuted); proved for every digest_size up to the state size"
],
"C22": [
"proved",
"all hashes, all key lengths, any partition, every overload; digest_size option up to the hash digest size (above: see C45)"
],
"C23": [
"partial",
"FINDING: the key is loaded in host byte order (memory_init, not memory_init_le), so tags are wrong on big-endian hosts (C23_big_endian_refuted). Proved: what every host computes exactly, for every overload, partition and key size (C23_any_host, C23_free_any_host: Poly1305 with each 4-byte group of the padded key reversed on big-endian hosts), hence RFC 8439 on little-endian ones."
],
"C24": [
"proved",
"on every host, for any call history: the code with every overflow turned into an error behaves like the code with wrapping arithmetic"
],
"C25": [
"proved",
"every backend meeting the RFC block contract, any pieces; the portable backend is proved to meet it"
],
"C26": [
"proved",
"whatever the pieces, backends and hosts of the two sides"
],
"C27": [
"partial",
"FINDING: refuted for an object first used at compile time (64-byte backend) and then at run time with a backend of ratio 4 or 8: it takes ungenerated buffer bytes for key stream and leaves text unencrypted. Otherwise proved: any two backends meeting the RFC contract give the same answers for every history."
],
"C28": [
"proved",
""
],
"C29": [
"partial",
"Proved for every little-endian host, every backend that computes ChaCha20 (all three proved), every partition of aad and text with at least one encrypt call, every overload, and every orderly history with re-initialization. FINDING: on big-endian hosts the tag is wrong because Poly1305 is (C23; C29_big_endian_refuted); the *_any_host theorems say exactly what is computed there (ciphertext right, tag with the one-time key byte-swapped in 4-byte groups)."
],
"C30": [
"proved",
"Streaming in any pieces on both sides and all free-function overloads, on every host (both sides of one byte order; between hosts of different byte order see C49_aead_interop_refuted)."
],
"C31": [
"proved",
"For every mac of every length after every streaming history with at least one text call; wrong-length macs are rejected because the tag has length digest_size."
],
"C32": [
"partial",
"FINDING: apie.h:1160 and 1253 declare the pointer overload and the fixed-size-container overload noexcept when no error object is given, so every forged message terminates the program (C32_forged_terminates_refuted). The other two overloads throw (C32_forged_throws_partial), and with an error object all overloads report (C32_error_object)."
],
"C33": [
"partial",
"FINDING: every overload with a destination or an error object leaves the decryption of the forged ciphertext in the destination, for all inputs (C33_forged_plaintext_released_refuted). Only the throwing new-container overload releases nothing (C33_new_container_partial)."
],
"C34": [
"partial",
"FINDING: without any encrypt call the additional data is not padded; the tag is the Poly1305 of the unpadded data for all inputs (C34_without_text) and differs from the one-shot tag (C34_without_text_refuted). Equality proved when there is at least one encrypt call or the aad fills whole blocks (C34_streaming_partial)."
],
"C35": [
"proved",
"all hashes under HMAC, all ikm/salt/info lengths, any pieces of output up to 255 blocks in total, member and free overloads"
],
"C36": [
"proved",
"HKDF up to 255*HashLen bytes in total (the RFC limit; beyond it see C37); PBKDF2 without limit (block counter mod 2^32 on both sides)"
],
"C37": [
"partial",
"FINDING: refuted. No expand call refuses output beyond 255 blocks (C37_no_limit_refuted); the counter octet wraps and the stream then repeats (C37_repeats_refuted)."
],
"C38": [
"proved",
"iterations = 0 is not refused and computes the one-iteration result (C38_zero_iterations)"
],
"C39": [
"partial",
"FINDING: impl_runtime_reader::impl is a static data member of a class template, so its dynamic initialisation is unordered: (a) a library call made from another static initialiser may go through a null pointer (C39_startup_refuted), (b) the implementation may be chosen before the CPU features are known, so the portable backend is used although a better one is supported (C39_order_refuted). Proved: if the features are initialised first, the first supported implementation in preference order is chosen; under any permitted order, after start-up, a supported one is chosen."
],
"C40": [
"partial",
"FINDING: the feature detection never reads OSXSAVE/XCR0, so AVX2 ChaCha and AVX SHA-256 are chosen even where the operating system has not enabled the AVX state (C40_refuted, C40_sha_refuted). Proved: the CPUID part (C40_avx2_partial)."
],
"C41": [
"proved",
"For every list of template options: the value of the first option of the asked suite, else the default; independent of unrelated arguments."
],
"C42": [
"partial",
"FINDING: temporaries are never erased: the ChaCha key stays in the local state_base of every stream call, the one-time Poly1305 key in init_mac_key of the AEAD initialize, the derived block in buffer_1 of PBKDF2 expand, the last message block in the schedule of every call of the portable SHA functions, hence after HMAC initialize the key XOR 0x36 (a key of at most a block can be read off), and the whole ChaCha state (constants, key, nonce) in the stack frame of the SSSE3 and AVX2 functions, below the stack pointer after their return (each proved for all inputs; the last on the machine of C50, both calling conventions). Proved: every destructor zeroes every array of hash, HMAC, Poly1305, ChaCha, AEAD, HKDF and PBKDF2 objects, whatever they hold."
],
"C43": [
"proved",
"Both assembly routines (transform and generate) as instruction lists under a model of the x86 vector instructions; any state, any number of double rounds but 0 (the loop counter would wrap), any number of blocks, any register contents on entry; also each instruction exists and needs only declared extensions, and the implementation chosen by dispatch is correct. Prologue, epilogue, addresses and calling conventions: C50."
],
"C44": [
"proved",
"Both SHA-NI routines as instruction lists under a model of the x86 SSE/SHA instructions; any state, any number of blocks (also 0), any register contents on entry. Also: hash classes, every call history and HMAC give the same answers with them as with the portable code; every instruction needs only declared extensions; the implementation chosen by dispatch is correct. Prologue, epilogue, addresses and calling conventions: C50."
],
"C45": [
"proved",
"For every history of calls of every primitive on every host: a resizable container gets exactly the size of the result, a fixed-size one min(that, its size) for digests and keys, and exactly the size of the text where it has the room that doc/reference.md:137-139 requires. The *_room_needed theorems show that without that room the code writes past the end. The HMAC digest_size option above the digest size is now under C21."
],
"C46": [
"proved",
"Under the documented rule (re-initialize before reuse; doc/reference_hash.md:159, reference_mac.md:167, reference_aead.md:212) for every orderly history of hash, HMAC, Poly1305 (any host) and AEAD. The *_needed theorems show that the rule is needed: text fed after a digest is accepted and silently not (hash, MAC) or wrongly (AEAD) included."
],
"C47": [
"partial",
"FINDING: the 32-bit counter wraps silently; every text longer than 2^38 bytes reuses the key stream (C47_wrap_refuted), and an authenticated text longer than 2^38 - 64 bytes is encrypted with block 0, so its plaintext and ciphertext give away the Poly1305 key of the tag (C47_aead_refuted). Proved: up to these lengths no block is reused, in any pieces (C47_no_reuse_partial, C47_pieces_partial, C47_aead_partial)."
],
"C48": [
"proved",
"HKDF: any change of memory that keeps info; PBKDF2: any that keeps ikm and salt; nothing has to stay in constant evaluation. C48_hkdf_needed and C48_pbkdf2_needed: the documented inputs really have to stay (a changed buffer gives exactly the key of the changed input, a freed one is read)."
],
"C49": [
"partial",
"Proved for hashes and HMAC in all circumstances (each call in its own), Poly1305 on hosts of one byte order, ChaCha20 and AEAD objects that cross circumstances whenever the block ratio of the backend changes only where no key stream byte is left over (C49_chacha20_partial, C49_aead_crossing_partial), in particular an AEAD object built at compile time and used at run time on any backend (C49_aead_constexpr), and KDFs for objects that stay in one circumstance (KDF objects hold an allocation in constant evaluation, C59, so they cannot cross). FINDING: Poly1305 depends on the byte order (C49_poly1305_refuted), so that an AEAD message from a little-endian host is rejected by a big-endian one (C49_aead_interop_refuted); a ChaCha20 or AEAD object that crosses from compile time to an assembly backend in the middle of a block leaves text unencrypted (C49_chacha20_refuted, C49_aead_refuted)."
],
"C50": [
"proved",
"Whole functions on a machine with general and vector registers, byte-addressed memory with access rights, flags, labels and jumps; both ABIs; every call state that meets the documented preconditions (rounds not 0; source and destination equal or disjoint). Access below rsp, unaligned movdqa and access outside granted memory are faults. Executions carry a trace of branches and addresses, equal for equal stack pointer and arguments. Stack frames are not erased (key material stays below rsp): not claimed."
],
"C51": [
"proved",
"Source-level leakage model: every branch condition and every array index is recorded (Model_Leak, annotations trusted; operand-independent time of arithmetic assumed, the compiler's code is not modelled). C51_same_model: the instrumented functions compute exactly Model_Aead. C51_aead: two valid histories of the same shape are both defined and leave the same trace but for the verdict. For the assembly backends the functions' own accesses are C50_*constant_time. The other comparison, memory_equal, is shown to stop early (C51_memory_equal_differs); verify does not use it."
],
"C52": [
"proved",
"Source-level leakage model as in C51 (Model_Leak2; annotations trusted, operand-independent time of arithmetic assumed, the compiler's code is not modelled). C52_same_model*: the instrumented functions compute exactly the models of C12-C38. The theorems say that two valid histories of the same shape on new objects are both defined and leave the same trace; C52_hash_any also from any two objects. The SHA instruction routines' own accesses are C50_sha_constant_time."
],
"C53": [
"partial",
"FINDING: the matcher does not anchor the start of a pattern (seg* matches any name that contains seg) and misses names where the last segment also occurs earlier (refuted for all segments). So the documented mac-* with its documented parameters always fails: it also selects kdf-*-hmac-*. Proved: exact for patterns that begin and end with a star; the other documented patterns and all full names select exactly what they should; a run reports exactly the names that match."
],
"C54": [
"partial",
"FINDING: refuted: no arguments, or a zero key size for the KDF benchmarks, is undefined behaviour (the only cases: C54_defined_partial); text after the number is ignored; an empty value is 0; an argument that merely begins with the name of a parameter is taken for it. Proved: values, errors, and that order, unknown, early and late arguments make no difference."
],
"C55": [
"partial",
"FINDING: strings are not escaped (refuted: for every string with a special character; --verbose prints the arguments) and a quotient by zero is printed as inf (refuted). Proved for values without such strings, and for every run without --verbose whose quotients have a divisor other than zero; the _double theorems assume nothing of the text of a quotient: conversion to binary64, division and std::to_string are modelled."
],
"C56": [
"partial",
"FINDING: cycles are wrong whenever clock speed * nanoseconds reaches 2^64 (3.5 GHz: 5.3 s) (refuted). Proved exact below, as quotients of integers; the _text theorems show that the printed text differs from the quotient by no more than half a millionth and 2^-51 of it, and that whole quotients below 2^30 are printed exactly."
],
"C57": [
"partial",
"As C03, C04, C08: base 16 literals of odd length are accepted, those of three or more digits with a byte that no digit spells (refuted). Exact for every literal on every platform: C57_*_any_platform."
],
"C58": [
"partial",
"Hashes, HMAC, cipher: proved for the digest size and all five implementation options, given that the features are initialised before the choice (C39). FINDING: the implementation options of Poly1305 are not handed to impl_proxy and so are silently ignored (C58_poly_refuted, C58_poly_hooks_refuted); the options of ChaCha20-Poly1305 (digest_size, impl_*) are ignored too (C58_aead_refuted)."
],
"C59": [
"proved",
"ownership of memory_bytes_const_view, in constant evaluation and at run time"
],
"C60": [
"proved",
"all test functions of primitive/*/test.h over the shipped algorithms (on big-endian targets the accepted Poly1305 and AEAD vectors are those of poly1305_on / aead_tag_on, C23)"
],
"C61": [
"proved",
"hash, MAC, cipher, HKDF and PBKDF2 differential tests, for any two implementations that compute some function through the interface"
],
"C62": [
"proved",
"Any sequence of reads into any ranges that avoid the inputs documented to have to stay (info; ikm and salt of PBKDF2), always in constant evaluation, and keys of at most one block anywhere. C62_pbkdf2_needed and C62_hkdf_needed give, for every memory, the exact wrong second block otherwise (deriving a long key over the password it comes from)."
],
"C63": [
"partial",
"FINDING: nothing checks the sizes: a short key or nonce is padded with zeros and a long one cut, so different inputs share one key stream and tag (C63_chacha20_refuted, C63_aead_refuted, for all inputs; e.g. the nonces 01 and 01 00 collide). For Poly1305 this is documented (C63_poly1305). Proved: with the right sizes exactly the given key, counter and nonce are used and different ones give different block inputs (C63_right_sizes_partial)."
],
"C64": [
"partial",
"FINDING: (1) base 16 decode with an error object: on malformed text the size is doubled (C05), the second resize grows and can throw bad_alloc after container and error object were changed (C64_base16_error_refuted). (2) aead encrypt in place: if the tag container cannot grow, the text is already encrypted; calling again reports success with the PLAINTEXT in the ciphertext container (C64_aead_in_place_refuted). (3) aead encrypt into two other containers may leave the ciphertext without a tag, but the call can be repeated (C64_aead_encrypt_partial). Proved for everything else: histories of hash, HMAC, Poly1305, HKDF, PBKDF2, cipher and AEAD objects, the members that return new containers (C64_new_*), all free functions, encode and the throwing decode."
],
"C65": [
"partial",
"FINDING: encode(c, c) writes out of bounds for every non-empty container (C65_encode_same_refuted); decode(c, c) of a resizable container cuts the text before reading it and silently returns half (base 16) or three quarters (base 64) of the bytes (C65_base16_decode_same_refuted, C65_base64_decode_same_refuted); encoding in place by pointers loses bytes (C65_base16_in_place_refuted, C65_base64_in_place_refuted). Proved: decoding by pointers to the same or a lower address (or beyond the text) equals decoding into separate memory for every text, encoding is right if the source lies at the end of the destination, fixed-size containers decode over themselves correctly."
],
"C66": [
"partial",
"FINDING: with 32-bit size_t base64 encode_size and decode_size wrap: encoding 1 GiB or more, or decoding a valid text of 2^32/3 characters or more, writes past the destination (C66_base64_encode_refuted, C66_base64_decode_refuted); base16 encoding from 2 GiB on. Below these sizes, and for pointers at any size, the results are those of the 64-bit platform."
],
"C67": [
"partial",
"FINDING: the second half is false.  Positive: declared either way and initialized first = constructed with the key, all histories with copies (C67_*_initialize_first_partial).  Refuted: mac/apie.h:38, aead/apie.h:41-43 and chacha_20_poly_1305.h:50-52 have no initialisers, so with T o; exactly the histories using digest/copy/... before initialize are undefined (C67_*_plain_refuted); with T o{}; tags are all zero and verify accepts a forged text with a zero tag, the first 64 bytes of every text come out in the clear, HKDF and PBKDF2 answer publicly known keys (C67_*_zero/forged/clear_refuted, C67_hkdf_refuted, C67_pbkdf2_refuted)."
],
"C68": [
"partial",
"FINDING: the portable code is right for every destination at or before the source (C68_portable, any history; C68_aead_portable), but the vector routines load a column of all blocks of a group and then store it, so a byte may be overwritten before it is read. The SSSE3 routine is right exactly for shifts 0, 64, 128 and from 192 on, the AVX2 routine for 0, 128, 256, 384 and from 448 on (_partial); for every other shift, such as 12 or 16, some byte of any long enough text comes out wrong (_refuted), so the same call gives different results on different CPUs, and the AEAD seals the wrong ciphertext under a valid tag and reports success after writing a wrong plaintext. C68_*_exact give the result for every shift."
],
"C69": [
"partial",
"FINDING: a type with resize() but without reserve(size_t) (or whose const objects give pointers to non-const) satisfies 'bytes' but is not 'container_dynamic', so it is silently not resized: an empty object stays empty and the digest is lost (C69_digest_refuted), and encode writes past its end (C69_encode_refuted). Proved for every other type: hash, MAC, KDF, codec and cipher outputs (_partial: types with resize are assumed to have reserve), the arrays a digest can be returned as, and the verdict of the one-shot AEAD decrypt: an exception for resizable types and spans, std::terminate for arrays (so the way a forgery is reported depends on the type)."
],
"C70": [
"partial",
"FINDING: authenticated decryption reads the tag after it has written the plaintext, so with one object for tag and plaintext genuine messages of any size but the tag's are rejected (C70_aead_decrypt_refuted); with one object for ciphertext and tag the ciphertext is lost (C70_aead_encrypt_refuted). Proved for all other ways to share objects, for hash, HMAC, Poly1305, ChaCha20 and AEAD. Key derivation is C48 and C62, codecs C65."
],
"C71": [
"proved",
"Every object of the six kinds, any trace of calls: isolation and schedule independence of race-free programs, and C71_synchronised: any two schedules that order conflicting calls alike. C71_*_result: for each kind of object, the bytes it leaves in memory and the outcomes of its calls in any interleaving are those of the specification (hash and MAC with any number of updates, one encrypt or decrypt call, one derive call). C71_*_messages: the same for hash, MAC, cipher and AEAD objects initialised again for message after message, each message in any number of parts, AEAD messages ending in digest or verify. Conservative for key derivation: a derive call is taken to use every input its object is given anywhere in the program, and must not write over them. A call is one step of the model; the absence of mutable static state is a reading of the sources recorded in DESIGN.md. C71_race_needed and C71_kept_race_needed show the preconditions are needed."
],
"C72": [
"proved",
"Instrumented codecs (Model_Leak3) erase to the models of C01-C10; total theorems for encoding, for decoding encodings and for decoding any texts with the same kinds of characters; C72_position_needed shows that the place of a wrong character and the padding do show. Comparisons used as operands of arithmetic are taken to be branch-free; what a compiler makes of them is outside the model."
],
"C73": [
"partial",
"FINDING: (1) a vector with id 0 hides its failure: test() returns the id of the failing vector and 0 for success (C73_id_zero_refuted); (2) an empty text, such as the first vector of RFC 4648, is written without a literal, and the program does not compile (C73_empty_text_refuted); (3) texts are not escaped: with a backslash the program tests another text, with a quote it is cut or does not compile (C73_escape_refuted). For all other configurations, with ids other than 0, the property is proved: C73_text, C73_exit, C73_failure, C73_compile, and composed with C60 for each kind of program. C73_constexpr_off: documented."
]
}