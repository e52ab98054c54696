{"id": "C01", "title": "Base16 encoding is RFC 4648 lower-case hex", "statement": "codec::encode with base_16 turns any byte string of n bytes into exactly 2n characters, character 2i and 2i+1 being the lower-case hex digits of the high and low nibble of byte i; encode_size predicts that length exactly, and nothing outside those 2n destination bytes is written.", "quantifier": "every byte string, every destination buffer of at least encode_size bytes", "why_tests_cant": "2^(8n) inputs for every n; tests list a few hundred vectors and never look at the bytes beyond the output", "anchors": ["src/milo/primitive/detail/codec/base_16.h: encode, encode_size", "src/milo/primitive/codec/apie.h: encode"]}
{"id": "C02", "title": "Base16 round trip, either letter case", "statement": "Decoding the encoding of any byte string, with any subset of its letters upper-cased, reports no error and returns exactly the original bytes.", "quantifier": "every byte string, every choice of letter case per digit", "why_tests_cant": "unbounded inputs times 2^n case patterns", "anchors": ["src/milo/primitive/detail/codec/base_16.h: encode, decode", "src/milo/primitive/codec/apie.h: encode, decode"]}
{"id": "C03", "title": "Base16 decoding accepts only hex digits", "statement": "Decoding an even-length string reports success if and only if every character is one of 0-9 a-f A-F, and on success the result is the value denoted by the digits.", "quantifier": "every even-length byte string used as text, both signednesses of plain char", "why_tests_cant": "the negative space (all strings with an illegal character anywhere) cannot be enumerated; depends on an implementation-defined char signedness that one test machine fixes", "anchors": ["src/milo/primitive/detail/codec/base_16.h: decode"]}
{"id": "C04", "title": "Base16 decoding of odd-length text", "statement": "Decoding an odd-length hex string either reports an error or returns the value of the string with an implicit leading zero digit (decode_size announces (n+1)/2 bytes); it never returns success with bytes it did not compute.", "quantifier": "every odd-length hex string", "why_tests_cant": "lengths and contents unbounded; the bundled vectors contain only the shortest odd case", "anchors": ["src/milo/primitive/detail/codec/base_16.h: decode, decode_size"]}
{"id": "C05", "title": "Base16 decode reports how many bytes it produced when it fails", "statement": "When decoding fails, the size returned (and the size the output container is given) counts only bytes that were decoded and written, so it never exceeds decode_size.", "quantifier": "every input with an illegal character at any position", "why_tests_cant": "position of the bad character is unbounded; unit tests only check that the error is set", "anchors": ["src/milo/primitive/detail/codec/base_16.h: decode", "src/milo/primitive/codec/apie.h: decode"]}
{"id": "C06", "title": "Base64 encoding is RFC 4648 with padding", "statement": "codec::encode with base_64 yields exactly the RFC 4648 section 4 encoding with '=' padding; its length is 4*ceil(n/3), which encode_size predicts exactly for every n below 2^62.", "quantifier": "every byte string; every size for encode_size", "why_tests_cant": "unbounded inputs and sizes; an arithmetic wrap at large n is out of reach of a test", "anchors": ["src/milo/primitive/detail/codec/base_64.h: encode, encode_size"]}
{"id": "C07", "title": "Base64 round trip", "statement": "Decoding the encoding of any byte string reports no error and returns exactly the original bytes, and decode_size of the encoded text is exactly the original length.", "quantifier": "every byte string", "why_tests_cant": "unbounded input space", "anchors": ["src/milo/primitive/detail/codec/base_64.h: encode, decode, decode_size", "src/milo/primitive/codec/apie.h: encode, decode"]}
{"id": "C08", "title": "Base64 decoding accepts only well-formed padded text", "statement": "Decoding reports success if and only if the text length is a multiple of 4, every character is in the alphabet, and '=' occurs only as one or two final padding characters; on success the result is the bytes RFC 4648 denotes.", "quantifier": "every byte string used as text, both signednesses of plain char", "why_tests_cant": "the set of malformed texts is infinite and depends on char signedness", "anchors": ["src/milo/primitive/detail/codec/base_64.h: decode"]}
{"id": "C09", "title": "Decoders stay inside the announced buffers", "statement": "For every text, valid or not, decode reads only the given text and writes only the first decode_size(text) bytes of the destination; base64's decode_size never wraps below zero.", "quantifier": "every text, every destination buffer of exactly decode_size bytes", "why_tests_cant": "attacker-controlled text of any length and content; out-of-bounds accesses in a test run are silent", "anchors": ["src/milo/primitive/detail/codec/base_16.h: decode, decode_size", "src/milo/primitive/detail/codec/base_64.h: decode, decode_size", "src/milo/primitive/codec/apie.h: decode"]}
{"id": "C10", "title": "Codec error contract and container result", "statement": "With an error object, decode clears it on success and sets the codec's own code on failure whatever it held before; the throwing overload throws exactly when the other reports an error; on success a resizable output container holds exactly the decoded bytes whatever it held before.", "quantifier": "every input text, every prior error state, every prior container content", "why_tests_cant": "cross product of inputs, prior states and overloads", "anchors": ["src/milo/primitive/codec/apie.h: encode, decode", "src/milo/error.h", "src/milo/internal/utility.h: resize"]}
{"id": "C11", "title": "Word load/store round trip in the named byte order", "statement": "Storing a 16/32/64-bit word big-endian (little-endian) writes its bytes most (least) significant first and touches no other byte; loading gives the same word back; both hold on little- and big-endian hosts, and the compile-time code path gives the same result as the run-time path.", "quantifier": "every word value, offset, buffer, partial size, host endianness, evaluation mode", "why_tests_cant": "2^64 values, and a test run sees one host endianness and tests compile-time evaluation on literals only", "anchors": ["src/milo/internal/memory.h: memory_load, memory_load_be, memory_load_le, memory_stor, memory_stor_be, memory_stor_le", "src/milo/internal/endian.h"]}
{"id": "C12", "title": "Constant-time comparison is exact", "statement": "memory_match answers true exactly when the two byte ranges are equal; for containers, exactly when they have equal size and equal bytes.", "quantifier": "every pair of byte ranges", "why_tests_cant": "a false accept needs specific differing bytes; 2^(16n) pairs", "anchors": ["src/milo/internal/memory.h: memory_match"]}
{"id": "C13", "title": "Sized initialisation truncates or zero-pads, never overruns", "statement": "memory_init of a fixed word array from caller bytes reads only min(source, destination) bytes, zero-fills the rest, and gives the same words at compile time and run time. memory_copy, memory_set and memory_xor of n bytes, between arrays of any integer widths, change exactly the first n bytes of the destination's memory image, to the documented values.", "quantifier": "every source length and content, every word width", "why_tests_cant": "all lengths incl. 0 and oversize, on both evaluation paths", "anchors": ["src/milo/internal/memory.h: memory_init, memory_init_be, memory_init_le, memory_copy, memory_set, memory_xor"]}
{"id": "C14", "title": "Hash result does not depend on how the input is split", "statement": "For every SHA algorithm, feeding a message through any sequence of update calls (including empty ones) gives the same digest as one update with the concatenation.", "quantifier": "every message and every partition into chunks, every block size", "why_tests_cant": "2^(n-1) partitions of each message; boundary interactions of buffered bytes", "anchors": ["src/milo/internal/update.h: update_block_soak", "src/milo/primitive/detail/hash/sha/*.h: update", "src/milo/primitive/hash/apie.h: update, digest"]}
{"id": "C15", "title": "SHA-1 is FIPS 180-4 SHA-1", "statement": "The 20-byte digest of any message shorter than 2^61 bytes equals the FIPS 180-4 SHA-1 value.", "quantifier": "every message below 2^61 bytes", "why_tests_cant": "tests compare vectors; equality for all messages is a theorem", "anchors": ["src/milo/primitive/detail/hash/sha/sha_1_160.h", "src/milo/primitive/detail/hash/sha/sha_1_160_impl_sw.h: blocks"]}
{"id": "C16", "title": "SHA-224 and SHA-256 are FIPS 180-4", "statement": "The digest of any message shorter than 2^61 bytes equals the FIPS 180-4 value, for both output sizes.", "quantifier": "every message below 2^61 bytes", "why_tests_cant": "as C15", "anchors": ["src/milo/primitive/detail/hash/sha/sha_2_256.h", "src/milo/primitive/detail/hash/sha/sha_2_256_impl_sw.h: blocks"]}
{"id": "C17", "title": "SHA-384, SHA-512, SHA-512/224 and SHA-512/256 are FIPS 180-4", "statement": "The digest of any message shorter than 2^125 bytes equals the FIPS 180-4 value; in particular the 128-bit length counter carries correctly.", "quantifier": "every message below 2^125 bytes, every partition", "why_tests_cant": "the carry out of the low 64-bit counter needs 2^64 bytes of input: no test can reach it", "anchors": ["src/milo/primitive/detail/hash/sha/sha_2_512.h", "src/milo/primitive/detail/hash/sha/sha_2_512_impl_sw.h: blocks"]}
{"id": "C18", "title": "digest is repeatable, and short requests return prefixes", "statement": "Calling digest again returns the same value; asking for k bytes returns the first min(k, digest size) bytes of the full digest and leaves the rest of the destination untouched.", "quantifier": "every object history, every k, every order of digest calls", "why_tests_cant": "all sizes times all histories", "anchors": ["src/milo/primitive/hash/apie.h: digest, do_finalize", "src/milo/primitive/mac/apie.h: digest", "src/milo/primitive/detail/hash/sha/sha_2_256.h: digest"]}
{"id": "C19", "title": "initialize forgets the past", "statement": "After any sequence of calls, initialize returns a hash, MAC, cipher, AEAD or KDF object to the state a freshly constructed object would have, as far as any later call can observe.", "quantifier": "every prior history, every later history", "why_tests_cant": "unbounded histories; leaks between messages show only for special residues", "anchors": ["src/milo/primitive/hash/apie.h: initialize", "src/milo/primitive/mac/apie.h: initialize", "src/milo/primitive/cipher/apie.h: initialize", "src/milo/primitive/aead/apie.h: initialize", "src/milo/primitive/kdf/apie.h: initialize"]}
{"id": "C20", "title": "No history overruns an internal buffer", "statement": "No sequence of initialize/update/digest (or encrypt/decrypt/aad/derive) calls with any sizes makes the library read or write outside its internal block buffers or the caller's ranges.", "quantifier": "every call history and every size", "why_tests_cant": "overruns by a byte are invisible without a sanitizer and need exact residues", "anchors": ["src/milo/internal/update.h", "src/milo/primitive/detail/hash/sha/*.h: finalize", "src/milo/primitive/detail/cipher/chacha/chacha.h", "src/milo/primitive/detail/mac/poly/poly_1305.h: finalize", "src/milo/primitive/detail/mac/hmac/hmac.h"]}
{"id": "C21", "title": "digest_size option never reads past the state", "statement": "For every digest_size a user may pass as option, digest returns that many bytes of hash or MAC output without reading outside the state.", "quantifier": "every value of the digest_size option", "why_tests_cant": "only the default instantiations are tested", "anchors": ["src/milo/primitive/detail/hash/sha/sha_2_256.h: digest", "src/milo/option.h", "src/milo/internal/option.h"]}
{"id": "C22", "title": "HMAC is RFC 2104 / FIPS 198", "statement": "The MAC equals H((K0 xor opad) || H((K0 xor ipad) || text)) for every key length (shorter, equal, longer than the block), every text and every partition of it.", "quantifier": "every key, text, partition, underlying hash", "why_tests_cant": "key lengths around the block size times partitions; unbounded", "anchors": ["src/milo/primitive/detail/mac/hmac/hmac.h", "src/milo/primitive/mac/apie.h"]}
{"id": "C23", "title": "Poly1305 is RFC 8439", "statement": "The 16-byte tag equals ((sum of clamped-r powers times 17-byte chunks) mod 2^130-5) + s mod 2^128 for every 32-byte key, message and partition.", "quantifier": "every key, message, partition", "why_tests_cant": "carry-propagation bugs occur with probability about 2^-32 per block: random tests miss them", "anchors": ["src/milo/primitive/detail/mac/poly/poly_1305.h", "src/milo/primitive/detail/mac/poly/poly_1305_impl_sw.h: process"]}
{"id": "C24", "title": "Poly1305 arithmetic never overflows its 64-bit accumulators", "statement": "In every reachable state no intermediate product or sum exceeds 64 bits and no limb store drops bits, so the 32-bit limb arithmetic is exact.", "quantifier": "every key and message, every reachable accumulator", "why_tests_cant": "worst-case limbs cannot be hit by sampling", "anchors": ["src/milo/primitive/detail/mac/poly/poly_1305_impl_sw.h: process", "src/milo/primitive/detail/mac/poly/poly_1305.h: finalize"]}
{"id": "C25", "title": "ChaCha20 is RFC 8439", "statement": "encrypt returns the plaintext xor the concatenated RFC 8439 blocks starting from the 32-bit counter in the first 4 IV bytes, for any text and partition.", "quantifier": "every key, 16-byte iv, text, partition, round count option", "why_tests_cant": "unbounded inputs and partitions", "anchors": ["src/milo/primitive/detail/cipher/chacha/chacha.h", "src/milo/primitive/detail/cipher/chacha/chacha_impl_sw.h: stream", "src/milo/internal/update.h: update_block_prod_xor"]}
{"id": "C26", "title": "decrypt inverts encrypt", "statement": "With the same key and iv, decrypting the ciphertext gives back the plaintext, however each side splits its calls.", "quantifier": "every key, iv, text, and every pair of partitions", "why_tests_cant": "pairs of partitions are quadratic in 2^n", "anchors": ["src/milo/primitive/detail/cipher/chacha/chacha.h: encrypt, decrypt", "src/milo/primitive/cipher/apie.h"]}
{"id": "C27", "title": "All cipher backends agree", "statement": "The output stream does not depend on how many blocks the selected backend produces per call (1, 4 or 8): same bytes and no keystream byte reused or skipped at a call boundary.", "quantifier": "every text, partition and backend width", "why_tests_cant": "a test machine runs one backend, with few chunkings", "anchors": ["src/milo/internal/update.h: update_block_prod_xor", "src/milo/primitive/detail/cipher/impl.h", "src/milo/primitive/detail/cipher/chacha/chacha.h"]}
{"id": "C28", "title": "In-place operation is safe", "statement": "encrypt/decrypt with destination equal to source gives the same bytes as with separate buffers, and bytes outside the range stay unchanged.", "quantifier": "every text, partition, memory content", "why_tests_cant": "in-place is not covered, and aliasing depends on lengths", "anchors": ["src/milo/internal/update.h: update_block_prod_xor", "src/milo/internal/memory.h: memory_xor", "src/milo/primitive/cipher/apie.h: encrypt, decrypt"]}
{"id": "C29", "title": "AEAD output is RFC 8439 ChaCha20-Poly1305", "statement": "For every key, 12-byte nonce, aad and plaintext, encrypt returns the RFC 8439 section 2.8 ciphertext and tag, however aad and plaintext are split over aad and encrypt calls.", "quantifier": "every key, nonce, aad, plaintext, partition with at least one encrypt call", "why_tests_cant": "padding residues times partitions, unbounded", "anchors": ["src/milo/primitive/detail/aead/chacha/chacha_20_poly_1305.h", "src/milo/primitive/aead/apie.h"]}
{"id": "C30", "title": "AEAD round trip", "statement": "decrypt of what encrypt returned, with the same key, nonce, aad and tag, succeeds and returns the plaintext.", "quantifier": "every key, nonce, aad, plaintext", "why_tests_cant": "unbounded inputs", "anchors": ["src/milo/primitive/aead/apie.h: encrypt, decrypt, verify"]}
{"id": "C31", "title": "AEAD verification is exact", "statement": "verify succeeds exactly when the supplied mac is the full-length tag of what was processed; any shorter, longer or different mac is rejected, with error aead_verify.", "quantifier": "every processed text, every candidate mac of every length", "why_tests_cant": "false accepts are rare events; 2^128 candidates", "anchors": ["src/milo/primitive/aead/apie.h: verify", "src/milo/internal/memory.h: memory_match"]}
{"id": "C32", "title": "One-shot AEAD decrypt reports a forged message to the caller", "statement": "Without an error object, free-function decrypt of a message whose mac does not verify throws milo::error to the caller, in every overload (pointers, fixed-size container, resizable container).", "quantifier": "every forged input, every overload", "why_tests_cant": "requires every overload times template configuration; abnormal termination is not catchable in a unit test", "anchors": ["src/milo/primitive/aead/apie.h: free decrypt overloads"]}
{"id": "C33", "title": "Forged ciphertext yields no plaintext", "statement": "When verification fails, the destination does not hold the decryption of the forged ciphertext.", "quantifier": "every key, nonce, aad, ciphertext, mac", "why_tests_cant": "holds or fails by data flow for all inputs", "anchors": ["src/milo/primitive/aead/apie.h: free decrypt overloads"]}
{"id": "C34", "title": "Streaming and one-shot AEAD give the same tag", "statement": "The tag after aad() and zero or more encrypt() calls equals the one-shot tag for the same aad and text, also when there is no text and encrypt is never called.", "quantifier": "every aad, text and call pattern", "why_tests_cant": "call patterns with zero encrypt calls are not in the vector-driven tests", "anchors": ["src/milo/primitive/aead/apie.h: do_finalize, do_finalize_aad, digest"]}
{"id": "C35", "title": "HKDF is RFC 5869", "statement": "derive of L <= 255*HashLen bytes returns the first L bytes of HKDF-Expand(HKDF-Extract(salt, ikm), info).", "quantifier": "every ikm, salt, info, L up to 255*HashLen, every underlying HMAC", "why_tests_cant": "unbounded inputs", "anchors": ["src/milo/primitive/detail/kdf/hkdf.h", "src/milo/primitive/kdf/apie.h"]}
{"id": "C36", "title": "KDF output does not depend on how it is read", "statement": "Successive derive calls return consecutive pieces of one key stream: the concatenation equals a single derive of the total length (HKDF and PBKDF2).", "quantifier": "every list of requested lengths", "why_tests_cant": "all length sequences, incl. block-aligned ones", "anchors": ["src/milo/primitive/detail/kdf/hkdf.h: derive", "src/milo/primitive/detail/kdf/pbkdf_2.h: derive"]}
{"id": "C37", "title": "HKDF never repeats output", "statement": "HKDF refuses to produce more than 255*HashLen bytes (RFC 5869 limit) instead of continuing with a wrapped counter.", "quantifier": "every requested length and every history of derive calls", "why_tests_cant": "long outputs", "anchors": ["src/milo/primitive/detail/kdf/hkdf.h: derive, expand"]}
{"id": "C38", "title": "PBKDF2 is RFC 8018", "statement": "derive of L bytes returns the first L bytes of T_1 || T_2 || ... with T_i the xor of c HMAC iterations, for every password, salt, iteration count c >= 1 and L <= (2^32-1)*hLen.", "quantifier": "every password, salt, c, L", "why_tests_cant": "unbounded, c large is too slow to test", "anchors": ["src/milo/primitive/detail/kdf/pbkdf_2.h", "src/milo/primitive/kdf/apie.h"]}
{"id": "C39", "title": "Backend dispatch is safe and total", "statement": "The automatically selected backend is always the first in preference order whose required CPU feature is reported, and there always is one, so no run executes an unsupported instruction set or finds no backend.", "quantifier": "every CPU feature vector, every preference list", "why_tests_cant": "a test machine has one feature vector", "anchors": ["src/milo/internal/impl.h", "src/milo/internal/arch/x86_64.h: check", "src/milo/primitive/detail/cipher/impl.h", "src/milo/primitive/detail/hash/impl.h"]}
{"id": "C40", "title": "AVX2 is used only when the operating system saves its registers", "statement": "The AVX2 backend is selected only if CPUID reports AVX2 and the OS has enabled YMM state (OSXSAVE and XCR0 bits).", "quantifier": "every CPU and OS configuration", "why_tests_cant": "needs machines with AVX disabled by the OS", "anchors": ["src/milo/internal/arch/x86_64.h: info, check", "src/milo/primitive/detail/cipher/chacha/chacha_impl_hw_x86_64.h"]}
{"id": "C41", "title": "Option lists: first match wins, otherwise the default", "statement": "Querying a template option list returns the value of the first option of the requested kind, or the default if there is none, regardless of other options and their order.", "quantifier": "every option list, every kind", "why_tests_cant": "combinatorial in list contents", "anchors": ["src/milo/internal/option.h"]}
{"id": "C42", "title": "Sensitive data is erased", "statement": "When a hash, MAC, cipher, AEAD or KDF object is destroyed, every internal buffer that held key material, state or keystream is zero, and no temporary holding secrets is left unerased.", "quantifier": "every history before destruction", "why_tests_cant": "dead memory is not observable from a test", "anchors": ["src/milo/primitive/detail/hash/sha/*.h: destructors", "src/milo/primitive/detail/mac/hmac/hmac.h", "src/milo/primitive/detail/cipher/chacha/chacha.h", "src/milo/primitive/detail/aead/chacha/chacha_20_poly_1305.h", "src/milo/primitive/detail/kdf/*.h"]}
{"id": "C43", "title": "Assembly ChaCha equals portable ChaCha", "statement": "The SSSE3 and AVX2 routines compute, for every 16-word state and number of double rounds, exactly the 4 (8) consecutive portable blocks with counters c, c+1, ... modulo 2^32.", "quantifier": "every state, every round count", "why_tests_cant": "2^512 states; lane mistakes can hide on special values", "anchors": ["src/milo/primitive/detail/cipher/chacha/chacha_impl_hw_x86_64.asm", "src/milo/primitive/detail/cipher/chacha/chacha_impl_sw.h"]}
{"id": "C44", "title": "Assembly SHA equals portable SHA", "statement": "The SHA-NI routines compute, for every state and block sequence, exactly the portable SHA-1 / SHA-256 compression.", "quantifier": "every state, every number of blocks", "why_tests_cant": "2^768 inputs per block, and hardware with SHA extensions needed", "anchors": ["src/milo/primitive/detail/hash/sha/sha_1_160_impl_hw_x86_64.asm", "src/milo/primitive/detail/hash/sha/sha_2_256_impl_hw_x86_64.asm"]}
{"id": "C45", "title": "Container outputs have the documented size", "statement": "A resizable container is resized to exactly the requested (or natural) output size. A fixed-size container given for a digest or a derived key is filled to min(its size, request) and never overrun; one given for a text (codec, cipher, AEAD) that has room for the result, as the documentation requires, is filled to exactly the size of the result. The returned size is the number of bytes written and the bytes beyond are left unchanged.", "quantifier": "every container kind and size, every request, every history of calls", "why_tests_cant": "cross product of kinds and sizes", "anchors": ["src/milo/internal/utility.h: resize", "src/milo/primitive/*/apie.h", "doc/reference.md:137-143"]}
{"id": "C46", "title": "A digest is always the hash of what was fed", "statement": "In every history of calls in which an object is re-initialized before it is fed again after a digest (the documented rule), each value returned by digest is the hash (MAC, tag) of exactly the bytes fed since the last initialize, however they were split and however often digest is called.", "quantifier": "every orderly history of initialize, update and digest calls of every length", "why_tests_cant": "call orders are unbounded", "anchors": ["src/milo/primitive/hash/apie.h: update, digest, do_finalize", "src/milo/primitive/mac/apie.h", "src/milo/primitive/aead/apie.h", "doc/reference_hash.md:159", "doc/reference_mac.md:167"]}
{"id": "C47", "title": "Keystream blocks are never reused within one initialization", "statement": "Within one initialize, no two text positions in different 64-byte blocks are encrypted with the same ChaCha block input (and, in authenticated encryption, none with the block that is the key of the tag), or the call fails.", "quantifier": "every total length, every partition", "why_tests_cant": "needs 256 GiB of text", "anchors": ["src/milo/primitive/detail/cipher/chacha/chacha.h", "src/milo/internal/update.h", "src/milo/primitive/aead/apie.h"]}
{"id": "C48", "title": "Only the documented KDF inputs must outlive initialization", "statement": "After initialize, derive depends on no memory of the caller except the ranges the documentation says must remain valid (info for HKDF; ikm and salt for PBKDF2): if those still hold the same bytes, later derive calls return the next bytes of the same key whatever else of the caller's memory was changed or freed. In constant evaluation no input needs to stay.", "quantifier": "every history of caller memory writes between calls", "why_tests_cant": "depends on memory histories; a use-after-free may go unnoticed", "anchors": ["src/milo/internal/memory.h: memory_bytes_const_view", "src/milo/primitive/detail/kdf/hkdf.h: initialize", "src/milo/primitive/detail/kdf/pbkdf_2.h: initialize", "doc/reference_kdf.md:45-56"]}
{"id": "C49", "title": "Same answers wherever the calls are evaluated", "statement": "Every primitive gives the same answers at compile time and at run time, on little-endian and big-endian hosts, and with the portable or an assembly backend; this includes an object that is built and used at compile time (constexpr) and goes on being used at run time.", "quantifier": "every history of calls, every assignment of circumstances (evaluation phase, byte order, backend) to the calls", "why_tests_cant": "the product of histories and circumstances is unbounded and tests run on one host", "anchors": ["src/milo/internal/memory.h: is_constant_evaluated / endian branches", "src/milo/internal/update.h: update_block_soak, update_block_prod_xor", "src/milo/primitive/detail/mac/poly/poly_1305.h", "src/milo/primitive/detail/cipher/chacha/chacha.h"]}
{"id": "C50", "title": "The assembly functions keep the calling convention, the caller's memory and their secrets' timing", "statement": "Called as C++ calls them, under the System V and the Microsoft x64 convention, the ChaCha, SHA and CPUID assembly functions return to the caller with stack pointer and callee-saved registers (including xmm6 to xmm15 on Windows) intact, access only memory they were given and their own stack frame, write nothing but the destination, store the specified result and return the specified count; the branches taken and addresses accessed depend on addresses and lengths only, not on keys or data.", "quantifier": "every machine state at the call, every address, alignment, length and number of rounds, both conventions, every answer of the processor to CPUID", "why_tests_cant": "register and stack corruption, red-zone use, over-reads and timing dependence need not change the output of a test; only one convention runs on a given host", "anchors": ["src/milo/primitive/detail/cipher/chacha/chacha_impl_hw_x86_64.asm", "src/milo/primitive/detail/hash/sha/sha_1_160_impl_hw_x86_64.asm", "src/milo/primitive/detail/hash/sha/sha_2_256_impl_hw_x86_64.asm", "src/milo/internal/arch/x86_64/cpuid.asm", "src/milo/internal/arch/x86_64/abi.asm"]}
{"id": "C51", "title": "Authenticated encryption and verification run in constant time", "statement": "Which branches are taken and which array elements are read and written, by encrypting, decrypting, computing the tag and verifying it, depends on the number of bytes passed and on the order of the calls only, never on key, nonce, text, tag, key stream or hash state; in particular the comparison of a received tag takes the same steps wherever the first wrong byte is. Only the verdict of verify itself is visible.", "quantifier": "every two histories of calls with the same shape, every two objects of the same shape, every backend, compile time and run time", "why_tests_cant": "a statement about pairs of executions for all secrets; a timing test samples a few inputs on one machine", "anchors": ["src/milo/internal/memory.h: memory_match", "src/milo/internal/update.h", "src/milo/primitive/detail/cipher/chacha", "src/milo/primitive/detail/mac/poly/poly_1305.h", "src/milo/primitive/detail/aead/chacha/chacha_20_poly_1305.h", "src/milo/primitive/aead/apie.h: verify", "doc/reference_aead.md:156"]}
{"id": "C52", "title": "Hashes, MACs, the cipher and the key derivation functions run in constant time", "statement": "Which branches are taken and which array elements are read and written, by hashing, authenticating, encrypting and deriving keys, depends on the number of bytes passed, on where the arguments lie, on the iteration count and on the order of the calls only; never on keys, passwords, salts, messages, nonces, texts, the chaining value, the key stream or the bytes left in a buffer.", "quantifier": "every two histories of calls with the same shape, every one of the seven hashes with portable code or SHA instructions, HMAC, HKDF and PBKDF2 over each of them, Poly1305, every ChaCha backend, compile time and run time", "why_tests_cant": "a statement about pairs of executions for all secrets; a timing test samples a few inputs on one machine", "anchors": ["src/milo/internal/update.h", "src/milo/internal/memory.h: memory_load_be, memory_stor_be, memory_copy, memory_xor, memory_set", "src/milo/primitive/detail/hash/sha", "src/milo/primitive/detail/mac/hmac/hmac.h", "src/milo/primitive/detail/mac/poly/poly_1305.h", "src/milo/primitive/detail/cipher/chacha", "src/milo/primitive/detail/kdf/hkdf.h", "src/milo/primitive/detail/kdf/pbkdf_2.h"]}
{"id": "C53", "title": "A pattern expression selects exactly the benchmarks it matches", "statement": "milo benchmark primitive <expression> runs and reports exactly the listed benchmarks whose name matches the expression, where * stands for any text and every other character for itself; list prints all names; the expressions of the documentation (codec-*, hash-*, mac-*, ...) select exactly their group, with the parameters documented for it.", "quantifier": "every pattern, every name, every list of options, with and without --advanced", "why_tests_cant": "the set of patterns is infinite, and the matcher is wrong only for some of them (patterns that occur later in a name)", "anchors": ["app/include/milo/app/pattern.h: pattern_match_star", "app/include/milo/app/command/benchmark.h: invoke, declare, primitive", "doc/benchmarking.md:121-175"]}
{"id": "C54", "title": "Command line arguments are read as documented", "statement": "Parameters are read as decimal integers that fit 64 bits, else an error; the order of the parameters of a command, unknown arguments, and arguments given to the wrong command make no difference; an omitted parameter without default is an error; no command line leads to undefined behaviour.", "quantifier": "every argument list, every parameter name and value", "why_tests_cant": "all argument lists; differences show only for particular combinations of names, values and positions", "anchors": ["app/include/milo/app/app.h: app_args::parameter, option, command, dump", "app/include/milo/app/parameter.h: parse", "app/include/milo/app/command/benchmark.h", "app/include/milo/app/run.h: run", "doc/benchmarking.md:121-190"]}
{"id": "C55", "title": "The output of the benchmark tool is valid JSON", "statement": "The text that a benchmark run prints is a JSON text (RFC 8259) for the reported value.", "quantifier": "every value, and every command line and measured time", "why_tests_cant": "depends on characters in arguments and on measured values that a test does not control", "anchors": ["app/include/milo/app/type.h: to_json", "app/include/milo/app/command/benchmark.h: run", "app/include/milo/app/run.h"]}
{"id": "C56", "title": "The metrics of the benchmark tool are what they say", "statement": "For each selected benchmark the report holds the repeats in use and: nanoseconds per call = measured time / repeats; gigabytes and megabytes per second = bytes processed / time; cycles per call and per byte = clock speed * time / calls or bytes.", "quantifier": "every measured time, clock speed, number of repeats and sizes", "why_tests_cant": "the arithmetic is done in 64 bits and wraps for long runs only", "anchors": ["app/include/milo/app/command/benchmark.h: invoke, run"]}
{"id": "C57", "title": "Literals stand for the bytes they spell out", "statement": "A _b, _bv, _c or _cv literal is the text itself, zero bytes included; a _base_16 or _base_64 literal is the decoded bytes, in lower, upper or mixed case for base 16, and text that does not decode is an error.", "quantifier": "every literal text", "why_tests_cant": "all texts; a few literals are tested", "anchors": ["src/milo/literal.h", "src/milo/primitive/codec/apie.h: decode"]}
{"id": "C58", "title": "Options take effect", "statement": "The options an algorithm is given decide: impl_enforce, impl_runtime (if the processor supports it) and impl_cpltime name the implementation that is used at run time and in constant evaluation; impl_chooser and impl_invoker name the classes that turn it into a hook and that call it; digest_size is the size of the digest. Without options the defaults hold.", "quantifier": "every algorithm, option list, processor and start-up order", "why_tests_cant": "option lists are unbounded and the effect of an ignored implementation option is invisible in the output", "anchors": ["src/milo/option.h", "src/milo/internal/impl.h: impl_proxy", "src/milo/internal/option.h", "src/milo/primitive/detail/mac/poly/poly_1305.h: impl_type", "src/milo/primitive/aead/chacha.h"]}
{"id": "C59", "title": "Key derivation objects can be copied, moved and destroyed in constant evaluation", "statement": "The bytes an HKDF or PBKDF2 object keeps (info, password, salt) stay what they were when the object was initialised, in every copy and whatever happens to the object they were copied from; making, copying, moving, assigning (also to itself) and destroying such objects never frees or reads freed or foreign memory, and nothing stays allocated when all are destroyed (otherwise the constant expression would not compile). At run time nothing is allocated.", "quantifier": "every program of constructions, copies, moves, assignments, initialisations, destructions and reads, of any length and over any number of objects", "why_tests_cant": "each test runs one history of one or two objects; double frees and leaks depend on the order of operations", "anchors": ["src/milo/internal/memory.h: memory_bytes_const_view", "src/milo/primitive/detail/kdf/hkdf.h: m_info", "src/milo/primitive/detail/kdf/pbkdf_2.h: m_ikm, m_salt"]}
{"id": "C60", "title": "The library's test functions accept exactly the correct vectors", "statement": "test_message_digest, test_key_message_digest, test_encrypt and test_decrypt (cipher and AEAD), the KDF test functions and test_encode/test_decode run to the end and return true exactly when the vector they are given is the one the standard prescribes: no wrong vector is accepted and no right one refused.", "quantifier": "every algorithm (Poly1305 and the AEAD on little-endian targets, see C23), key, iv, message, associated data, claimed result (also of a wrong length), in constant evaluation and at run time", "why_tests_cant": "these functions are themselves what the tests rest on; whether they would accept a wrong vector can be tried on a few wrong vectors only", "anchors": ["src/milo/primitive/hash/test.h", "src/milo/primitive/mac/test.h", "src/milo/primitive/cipher/test.h", "src/milo/primitive/aead/test.h", "src/milo/primitive/kdf/test.h", "src/milo/primitive/codec/test.h"]}
{"id": "C61", "title": "Differential tests pass exactly when the implementations agree on the tested inputs", "statement": "test_differential of two implementations terminates, stays inside its buffers, and returns true exactly when the two compute the same results on the inputs it names (the growing messages, keys, iv and output sizes); correct implementations, portable or assembly, pass.", "quantifier": "every pair of implementations of the interface, whatever functions they compute", "why_tests_cant": "it is a statement about all pairs of implementations, including the wrong ones nobody wrote", "anchors": ["src/milo/primitive/hash/test.h: test_differential", "src/milo/primitive/mac/test.h: test_differential", "src/milo/primitive/cipher/test.h: test_differential", "src/milo/primitive/kdf/test.h: test_differential"]}
{"id": "C62", "title": "A key can be derived into memory that holds inputs no longer needed", "statement": "derive (members and free functions, HKDF and PBKDF2) writes to the output range exactly the standard's key for the inputs the memory held at initialization and changes nothing else, also when the output range overlaps the inputs: for HKDF those of ikm and salt and earlier outputs; with any range of inputs if the key is at most one block long or in constant evaluation. (info for HKDF and ikm and salt for PBKDF2 are documented to have to stay.)", "quantifier": "every memory, every position of inputs and output in it, every sequence of reads from one object, every hash, in constant evaluation and at run time", "why_tests_cant": "the number of ways the ranges can overlap grows with the sizes, and every published vector uses separate buffers", "anchors": ["src/milo/primitive/detail/kdf/hkdf.h: expand, derive", "src/milo/primitive/detail/kdf/pbkdf_2.h: expand, derive", "src/milo/primitive/kdf/apie.h: derive", "doc/reference_kdf.md:45-56"]}
{"id": "C63", "title": "Keys and nonces of a wrong size are not silently accepted", "statement": "ChaCha20 and ChaCha20-Poly1305 either reject a key or iv whose size is not the algorithm's, or at least never let two different inputs (one of them of a wrong size) produce the same key stream or tag. Poly1305 cuts a longer key and pads a shorter one with zeros, as documented.", "quantifier": "every key, iv or nonce of any size, every text, backend, direction", "why_tests_cant": "vectors only have inputs of the right size; collisions are between pairs of inputs", "anchors": ["src/milo/primitive/detail/cipher/chacha/chacha.h: initialize", "src/milo/primitive/detail/mac/poly/poly_1305.h: initialize", "src/milo/primitive/detail/aead/chacha/chacha_20_poly_1305.h: initialize", "src/milo/primitive/cipher/apie.h", "src/milo/primitive/aead/apie.h"]}
{"id": "C64", "title": "A failed allocation is reported by an exception and loses nothing", "statement": "Whenever an allocation made for the container of a call fails, the caller gets exactly one exception for it; the containers (and the error object) are as they were before the call, and calls that need no growth never fail. An object whose calls failed goes on as if a failed digest had been taken into another container and a failed encryption, decryption or derivation had not been made, so that repeating the call gives the normal answer; no program is terminated.", "quantifier": "every class, every history of calls, every schedule of allocator answers, every content and size of the containers", "why_tests_cant": "failures can happen at any allocation of any history; the tests never let one fail", "anchors": ["src/milo/internal/utility.h: resize", "src/milo/primitive/hash/apie.h: digest", "src/milo/primitive/mac/apie.h: digest", "src/milo/primitive/kdf/apie.h: derive", "src/milo/primitive/codec/apie.h: encode, decode", "src/milo/primitive/cipher/apie.h: encrypt, decrypt", "src/milo/primitive/aead/apie.h: encrypt, decrypt, digest and the free functions"]}
{"id": "C65", "title": "Encoding and decoding within one memory", "statement": "Decoding a text over itself (or to a lower address), encoding bytes over themselves, and giving one container as source and destination of encode or decode produce what separate memory would, or are rejected.", "quantifier": "every memory content, every position and size of source and destination, both codecs, every container", "why_tests_cant": "the result depends on the order of reads and writes for all overlaps; the tests never overlap", "anchors": ["src/milo/primitive/detail/codec/base_16.h: encode, decode", "src/milo/primitive/detail/codec/base_64.h: encode, decode", "src/milo/primitive/codec/apie.h: encode, decode (container overloads)"]}
{"id": "C66", "title": "Codecs on 32-bit platforms", "statement": "On a platform whose size_t and uintptr_t have 32 bits, encode and decode of both codecs give the results they give on a 64-bit platform, and write only into the destination they sized, for every input that fits the address space.", "quantifier": "every byte string and text shorter than 2^32, both signednesses of char, every previous content of the destination", "why_tests_cant": "the masks and the sizes are computed in platform words; the tests run on one platform and on short inputs", "anchors": ["src/milo/primitive/detail/codec/base_16.h: encode, encode_size, decode, decode_size", "src/milo/primitive/detail/codec/base_64.h: encode, encode_size, decode, decode_size", "src/milo/primitive/codec/apie.h: encode, decode"]}
{"id": "C67", "title": "Objects before initialization", "statement": "An object may be declared without a key, as T o; or as T o{};, and given its key by initialize later: from then on it answers as an object constructed with that key.  Using, copying or moving it before that has no undefined behaviour and never passes off unkeyed output as ciphertext, tag or key.", "quantifier": "HMAC, Poly1305, ChaCha20, ChaCha20-Poly1305, HKDF and PBKDF2; both declarations; every history of calls and copies; every key and message", "why_tests_cant": "the tests construct objects with their keys; reading a member without a value gives some value in every test run, and the claim is about every history before the first initialize", "anchors": ["src/milo/primitive/mac/apie.h: apie, m_finalized, do_finalize", "src/milo/primitive/aead/apie.h: apie, m_finalized_aad, m_finalized, do_finalize_aad, do_finalize", "src/milo/primitive/detail/aead/chacha/chacha_20_poly_1305.h: m_aad_processed_size, m_edd_processed_size", "src/milo/primitive/cipher/apie.h: apie", "src/milo/primitive/kdf/apie.h: apie"]}
{"id": "C68", "title": "Moving text down while it is encrypted", "statement": "encrypt and decrypt (cipher and AEAD) work through the text from its beginning, so the destination may begin before the source and overlap it (as when a header is stripped): the result is the same as with separate buffers, on every machine.", "quantifier": "every memory, text length, destination at or before the source (every shift), every history of earlier calls, the portable code and both vector routines, encryption and decryption, cipher and AEAD", "why_tests_cant": "the result depends on the shift, the length, the text and on which CPU features the machine has; the tests use separate buffers or the same buffer", "anchors": ["src/milo/primitive/cipher/apie.h: encrypt, decrypt", "src/milo/primitive/aead/apie.h: encrypt, decrypt", "src/milo/internal/update.h: update_block_prod_xor", "src/milo/primitive/detail/cipher/chacha/chacha_impl_sw.h: transform", "src/milo/primitive/detail/cipher/chacha/chacha_impl_hw_x86_64.asm: milo_primitive_detail_cipher_chacha_impl_hw_x86_64_ssse_3_ietf_transform, milo_primitive_detail_cipher_chacha_impl_hw_x86_64_avx_2_ietf_transform"]}
{"id": "C69", "title": "Output objects of every type", "statement": "The functions that fill an object of the caller work with every type that has data() and size(): a type with resize() ends up with exactly the result, another one keeps its size, gets as much of the result as fits (or, for codecs and cipher text, needs room for all of it) and keeps its other bytes; a digest can be returned as any array of 1 up to digest_size bytes, and nothing else compiles; a forged message is reported by the one-shot AEAD decrypt in the same way whatever the type of the plaintext object.", "quantifier": "every type that satisfies the library's concept of bytes (with or without reserve, resize, const-correct data), every content of the object, message, key, text and requested size", "why_tests_cant": "the behaviour is chosen at compile time by concepts from members of the caller's type; the tests use one vector-like and one array-like type", "anchors": ["src/milo/meta.h: bytes, container, container_dynamic, container_static", "src/milo/internal/utility.h: resize", "src/milo/primitive/hash/apie.h: digest", "src/milo/primitive/mac/apie.h: digest", "src/milo/primitive/kdf/apie.h: derive", "src/milo/primitive/codec/apie.h: encode", "src/milo/primitive/cipher/apie.h: encrypt, decrypt", "src/milo/primitive/aead/apie.h: decrypt"]}
{"id": "C70", "title": "One object as input and output", "statement": "The functions that fill a container of the caller read their other arguments completely before they change it, so the same container may be passed as an input too: a message can be replaced by its digest, a key by the tag it makes, a text or even the key or nonce by the ciphertext, and in authenticated encryption the ciphertext, the tag and the plaintext may go into any of the containers that hold the inputs; the results are those obtained with separate containers and no other container changes.", "quantifier": "every collection of resizable and fixed-size containers, every choice of positions for the arguments including repeated ones, every content, hash, MAC, cipher and AEAD, every backend, encryption and decryption", "why_tests_cant": "the tests use separate objects; there are as many ways to share objects as partitions of the arguments, for each size and content", "anchors": ["src/milo/primitive/hash/apie.h: digest", "src/milo/primitive/mac/apie.h: digest", "src/milo/primitive/cipher/apie.h: encrypt, decrypt", "src/milo/primitive/aead/apie.h: encrypt, decrypt, digest, verify", "src/milo/internal/utility.h: resize"]}
{"id": "C71", "title": "Objects used from several threads do not interfere", "statement": "A program may use different hash, MAC, cipher, AEAD, HKDF and PBKDF2 objects from different threads without locks, provided no thread writes a byte that a call on another object reads or writes (for key derivation, including the inputs an object keeps): in every interleaving every call returns, every object gives exactly the outcomes and output bytes it gives when its calls are the only ones, that is the standard's digest, tag, ciphertext or key of the bytes in its ranges, all interleavings end with the same memory, and bytes no call writes keep their values. If threads do hand data to each other, it is enough that calls that conflict are made in the same order (because one waits for the other): then too all interleavings give the same outcomes and memory.", "quantifier": "every number of objects and calls, every memory, every assignment of ranges to calls that is free of races, every pair of interleavings, every backend, run time and compile time", "why_tests_cant": "the number of interleavings grows exponentially and a schedule cannot be chosen by a test; the claim is that none of them can be told from another", "anchors": ["src/milo/primitive/hash/apie.h: initialize, update, digest", "src/milo/primitive/mac/apie.h: initialize, update, digest", "src/milo/primitive/cipher/apie.h: initialize, encrypt, decrypt", "src/milo/primitive/aead/apie.h: initialize, aad, encrypt, decrypt, digest, verify", "src/milo/primitive/kdf/apie.h: initialize, derive", "src/milo/internal/arch/x86_64.h", "src/milo/internal/impl.h"]}
{"id": "C72", "title": "The codecs run in constant time", "statement": "Encoding a secret, or decoding the encoding of one, with base 16 or base 64 takes the same branches and reads and writes the same array elements whatever the secret is: only its size shows. For an arbitrary text to decode only its size and, for each place, whether there is a digit, a padding character, a character that is not ASCII or something else shows; the value of no digit does.", "quantifier": "every two secrets of the same size, every two texts with the same kinds of characters in the same places, both codecs, containers that can be resized and containers that cannot, the form that sets an error and the one that throws, char signed or not", "why_tests_cant": "a statement about pairs of executions for all secrets; a timing test samples a few inputs on one machine", "anchors": ["src/milo/primitive/detail/codec/base_16.h: encode, decode", "src/milo/primitive/detail/codec/base_64.h: encode, decode, decode_size", "src/milo/primitive/codec/apie.h: encode, decode"]}
{"id": "C73", "title": "A generated test program tests what its configuration says and reports every failure", "statement": "The test generator turns a configuration (implementations, headers, test vectors) into a C++ program that, read by a compiler, contains exactly the vectors of the configuration, byte for byte and in order, and whose main runs every implementation listed on all of them and every pair of implementations against each other. The program exits with 0 exactly when all of this succeeds, and otherwise with 1 and a message that names an implementation that really fails; for the functions the programs call, 0 means that every vector of the configuration is true of the standard. With constexpr testing on it compiles exactly when the implementations listed for it pass at compile time.", "quantifier": "every configuration of the ten kinds of test (hash, mac, cipher, aead, codec, kdf): any number of implementations and vectors, byte strings of any length and content, numbers, and any behaviour of the implementations", "why_tests_cant": "the generated programs are the tests; nothing tests that an unusual vector (an empty text, a quote, an id of 0) is not written wrongly or its failure lost", "anchors": ["tool/codegen/src/cpp/lang.py: gen_body, gen_str, gen_bytes_to_hex_str", "tool/codegen/src/cpp/milo.py", "tool/codegen/src/cpp/test/primitive/hash.py and the nine others: gen", "test/primitive/*.cpp"]}
