# Formal model of milosob/milo in Rocq (Coq 8.16.1)

## 1. Shape of the development

`rocq/theories` (logical prefix `Verif`):

| layer | files | content |
|---|---|---|
| base | `Base.v` | bytes/words as `N` with explicit `mod 2^w`, bounded buffers: every indexed read or write returns `option`, `None` = undefined behaviour (out of bounds) |
| spec | `Spec_*.v` | small independent specifications (RFC 4648, FIPS 180-4, RFC 2104, RFC 8439, RFC 5869, RFC 8018), no model helpers |
| model | `Model_*.v` | function-by-function Gallina model of the C++ (and NASM) sources, each definition citing file:lines; no proofs |
| proofs | `Proof_*.v` | lemmas |
| properties | `Prop_*.v` | only the property theorems, each closed by `exact lemma`, each followed by `Print Assumptions`, plus non-vacuity examples |

Conventions of the model

* A byte is an `N` below 256 (`bytes l := Forall (fun b => b < 256) l`); a `uint32_t`/`uint64_t` is an `N` below
  2^32 / 2^64; every C++ unsigned operation that can wrap carries its `mod`.
* A buffer is a `list N` whose length is the C++ array length. `rd buf i`, `rds buf off n`, `wr buf i v`,
  `wrs buf off l` return `None` when the access is out of bounds. All functions run in the option monad, so a
  theorem whose conclusion is `= Some _` contains the memory-safety statement for that run.
* Lengths and indices are `nat`; where `size_t` wrap-around is possible in reality it is modelled in `N` with `mod 2^64`.
* A caller range `(ptr,size)` is the list of bytes it holds. Where aliasing matters (C28, C48) an explicit flat
  memory is used.
* C++ `error` objects are an enumeration; exceptions are an outcome (`Returns`/`Throws`/`Terminates`), where an
  exception leaving a `noexcept(true)` function is `Terminates`.
* Template parameters and options become ordinary arguments.

## 2. Plan per property

| id | model | proof |
|---|---|---|
| C01,C02,C03,C04,C05 | base_16.h char-level functions with the 8/64-bit arithmetic, plain-`char` signedness as a boolean | finite sweep over 256 characters lifted with `forallb_forall`, induction on the text; `_refuted` witnesses for C03 (signed char), C04, C05; `Spec_CodecAny` states what every text, odd or malformed, decodes to on either kind of platform |
| C06,C07,C08 | base_64.h likewise | sweep on characters, arithmetic on 3-byte groups, induction on groups; every text on either kind of platform in `Spec_CodecAny` |
| C09 | option-monad writes into a destination of exactly `decode_size` bytes | conclusion `<> None` for every text |
| C10,C45 | every apie.h, utility.h `resize`, containers as `Dynamic`/`Static`; C45 in `Spec_Sizes` (`filled`, `written`) over whole call histories | case analysis; induction over the history with the invariants of C18-C20 |
| C11,C13 | memory.h load/store over arrays of words of any width, both host endiannesses, both evaluation paths | lemmas relating shift/or loops to base-256 digits |
| C12 | fold of or-of-xor | induction |
| C14,C20 | update_block_soak with real buffers | representation invariant: state = fold of compress over full blocks, buffer prefix = remainder |
| C15-C17 | sha_*_impl_sw.h blocks + init/update/finalize/digest | loop invariant relating the interleaved schedule array to FIPS W_t; constants checked against their FIPS derivation (roots of primes, SHA-512/t IV generation) |
| C18,C19,C46 | hash/apie.h, mac/apie.h with `m_finalized` | case analysis; C46 under the documented rule (re-initialize before reuse), witnesses that the rule is needed |
| C21 | digest with digest_size parameter | refuted by witness; safe exactly when option <= state bytes |
| C22 | hmac.h generic in the hash record | uses the hash correctness interface |
| C23,C24 | poly_1305*.h limb code with 64-bit wraps | bounds + `lia`/`ring` modulo 2^130-5; on any host (`poly1305_on big`: on a big-endian host the key is read with each 4-byte group reversed) |
| C25-C28,C47 | chacha.h, chacha_impl_sw.h, update_block_prod_xor with backend width parameter | invariant "position in keystream"; flat memory for in-place |
| C29-C34 | aead files | composition of C23/C25; witnesses for C32-C34 |
| C35-C38 | kdf files, generic in the MAC | invariant "position in T(1)T(2).."; witness for C37 |
| C39-C41 | impl.h, x86_64.h, option.h as list functions | induction over lists |
| C42 | the destructors as writes to the objects' arrays; local arrays at the end of their life (`Model_Erase`; the message schedule of the portable SHA: `Model_EraseSha`); the stack below `rsp` after the assembly functions (`Model_Asm`) | destructors: computation; refuted for temporaries, each for all inputs; assembly: the slots of the frame are never overwritten, by a syntactic check of the instruction lists lifted through the loops |
| C43,C44 | instruction-level model of the NASM vector code (`Model_X86`, `Model_ChaChaAsm`, `Model_ShaAsm`) | symbolic execution against the RFC / FIPS functions, induction on blocks and rounds |
| C48 | heap model of memory_bytes_const_view | only the documented ranges are re-read: everything else may change; witnesses that those have to stay |
| C49 | the models of the classes in a circumstance `ctx` (host byte order, compile time or run time) | equality of all runs with the specification; refuted where C23, C27 are |
| C50 | whole assembly functions: general registers, flags, stack, labels, jumps, byte memory with access rights, both ABIs (`Model_Asm`) | forward simulation from the entry state to `ret`, frame conditions, then constant time of the same code |
| C51,C52 | the C++ models again, each branch and each array access leaving an event (`Model_Leak`, `Model_Leak2`) | erasing the events gives the models of the other properties back; a relational invariant (equal lengths, equal public fields) over pairs of runs |
| C53 | `pattern_match_star` (`Model_App`), the lists of names | glob matching as an inductive relation (`Spec_App`); leftmost-match loop invariant; finite computation over the names; whole runs |
| C54 | argument reader and the whole `run` | the outcome depends on the first argument that begins with a name only; case analysis on `None` |
| C55 | `to_json`, `show_ratio` (`Model_Double`) | grammar of RFC 8259 as mutual inductive relations; structural induction; refutations by invariants of all JSON texts (characters, a scanner); text of a double: six digits, or inf |
| C56 | `invoke` with wrapped 64-bit arithmetic; `show_ratio` | arithmetic below and above the bound; three roundings of relative size 2^-53 (two conversions, one division) and one to six decimal places (`Spec_Double`) |
| C57 | `literal.h` over the codec model | from C02, C03, C07, C08 |
| C58 | the option lists and `impl_proxy` of every algorithm (`Model_Options`) | from C39, C41 |
| C59 | `memory_bytes_const_view` with allocation and freeing (`Model_View`) | each live block is owned by one variable: an invariant, by induction on the program |
| C60 | the test functions of `primitive/*/test.h` (`Model_Test`) over the modelled interfaces | from the free-function theorems (C22, C23, C25, C28–C33, C01–C06) and the exactness of the comparison functions |
| C61 | `test_differential` with its growing inputs and piecewise updates (`Model_Test`), for abstract implementations given by the function they compute (`Spec_Test`) | loop invariants: after each pass the objects are reset and the sample is the next one |
| C62 | the `derive` functions with inputs and output in one memory (`Model_KdfMem`) | simulation by the `derive` with a separate output (C35-C38) as long as no write touches a retained view; where one does, the second block is computed explicitly |
| C63 | the initialisation of the ciphers, Poly1305 and the AEAD with keys and nonces of any size (existing models) | from the exact results (C23, C25, C29): both inputs give the same zero-padded or cut one (refuted); injectivity of the block input for right sizes |
| C64 | `Model_Alloc`: every container call with an allocator (a list of answers, one for every growth; `noexcept` ends the program) | per call: normal answer or one exception and the container untouched; histories by induction, with the objects reached taken from C20; refuted for base 16 with an error object (C05) and for in-place AEAD encryption |
| C65 | the codec functions with source and destination in one memory (`Model_CodecMem`) | simulation by the functions with separate memory (C01, C03, C06, C08, C09) as long as writing stays behind reading; refuted for encoding in place and for one container twice |
| C66 | the codec functions with the word width as a parameter (`Model_Codec32`) | digit functions by a sweep over all bytes, loops by induction, equal to the 64-bit functions (C01-C10); sizes by arithmetic; refuted from 1 GiB on (the sizes wrap) |
| C67 | the objects with the members that have no initialiser as options (`Model_Default`); calls and copies | histories beginning with initialize by C21-C32; the undefined histories characterised exactly by induction; refuted: undefined when declared `T o;`, zero tags and clear text when declared `T o{};` |
| C68 | the existing models of the stream object, the portable code and the assembly routines, with overlapping ranges | the byte loops by induction; for the routines the symbolic execution is split into what each load sees (`Proof_Moves`): exactly which bytes are overwritten before they are read, for every shift; refuted for the other shifts |
| C69 | the concepts of `meta.h` that choose between resizing and not resizing and decide `noexcept`, over a record of the caller's type's members (`Model_Traits`), on top of the models of the API functions | case analysis on the type and the theorems about each API; refuted for types with `resize` but without `reserve` (not resized: the digest is lost, encoding writes past the end); the verdict of `decrypt` for every type |
| C70 | a store of containers and the container overloads with positions in it as arguments (`Model_Objects`), reading and writing in the order of the sources | the theorems about each API applied to the contents at the time of reading; refuted for one object as ciphertext and tag, and as tag and plaintext |
| C71 | any number of objects of all six kinds on one memory, a trace of calls that name an object and ranges (`Model_Threads`); races and kept inputs in `Spec_Threads` | simulation of the run of a trace by the run of the calls on one object: objects related by the indistinguishability relations of C21, C22, C25, C28, C31, memories equal on the bytes the object touches; commutation of schedules follows; counterexamples without race freedom; `Proof_ThreadsSpec`: the run of the calls on one object is computed from C13, C22, C23, C24, C26, C29, C62, so what each kind of object leaves in memory in any interleaving is the value of the specification; `Proof_ThreadsSeq`: the same for objects that are initialised again for message after message, by induction on the messages, each session starting from the object the last one left |
| C72 | the codecs again, each branch and each array access leaving an event (`Model_Leak3`); kinds of characters in `Spec_Leak3` | erasing the events gives the models of C01-C10 back; relational proof (equal lengths when encoding, equal kinds when decoding), the tests of the decoders as functions of the kind by a sweep over the 256 characters; encodings have kinds that depend on the size only |
| C73 | the Python generator as functions from configurations to text (`Model_Codegen`); a reader of the C++ text, independent of it, and the meaning of the programs (`Spec_Cpp`); what a configuration asks for (`Spec_Codegen`) | the generated text read back gives the configuration: lines, string literals by induction over the slices (hexadecimal escapes are maximal munch), decimal numbers, vectors, statements; then exit code and message by induction over main, and composed with C60 for each of the ten kinds. Refuted for a vector with id 0, for an empty text and for texts with a quote or backslash |

Every property but those marked `partial` in MANIFEST.json is proved in full. Most of the partial ones are findings:
the property is false of the code, a theorem ending in `_refuted` shows it, for all inputs of a class where possible, and
the other theorems say exactly where it does hold. Where the documentation of milo itself states a condition (room in a fixed-size
output, re-initialization before reuse, KDF inputs that must remain valid), the property carries that condition, and a theorem ending in
`_needed` shows that it cannot be dropped.

## 3. Trusted base

* Coq 8.16.1 kernel (`coqc`; `vm_compute` is used in some proofs, so its evaluator is included).
* `Print Assumptions` is printed under each property theorem: each one says "Closed under the global context". No axiom of
  the standard library is used. (The check of the whole build also lists the constants `Coq.ssr.ssrunder.Under_rel.*`:
  they come from a module of the standard distribution that is loaded with it; no theorem depends on them.)
* The specifications in `Spec_*.v`, by reading: RFC 4648, RFC 8259, FIPS 180-4 (constants derived, not copied, where the standard
  defines a derivation), RFC 2104, RFC 8439, RFC 5869, RFC 8018, and the small definitions of observations.
* The faithfulness of `Model_*.v` to /repo, by reading; nothing is executed. Each definition cites the lines it models.
* The semantics of the x86 instructions that occur in the sources (`Model_X86`, `Model_ShaAsm`, `Model_Asm`), from the
  Intel manual; also which extension each instruction needs.
* For C51, C52 and C72 the events in `Model_Leak*.v`, that is, that all branches and array accesses of the sources are recorded
  (the theorems `C51_same_model`, `C52_same_model`, `C72_same_model` show that nothing else was changed), that arithmetic takes time
  independent of the operands, and that the compiler adds no branch.

### What is modelled

| code | model |
|---|---|
| `internal/memory.h`, `internal/endian.h`, `internal/bit.h` | `Model_Memory` |
| `internal/update.h` | `Model_Update` (soak), `Model_Cipher` (prod_xor) |
| `internal/utility.h` resize, `error.h`, `container.h` as far as used | `Model_Container` |
| `internal/impl.h`, `internal/option.h`, `option.h`, `internal/arch/x86_64.h` | `Model_Dispatch`, `Model_Options` |
| `internal/arch/x86_64/cpuid.asm`, `abi.asm` | `Model_Asm` |
| `primitive/detail/codec/*`, `primitive/codec/apie.h` | `Model_Codec` |
| `primitive/detail/hash/sha/*.h`, `primitive/hash/apie.h` | `Model_Sha`; `*_hw_x86_64.asm`: `Model_ShaAsm` (vector code), `Model_Asm` (whole functions) |
| `primitive/detail/mac/hmac/*`, `primitive/detail/mac/poly/*`, `primitive/mac/apie.h` | `Model_Hmac`, `Model_Poly`, `Model_Mac` |
| `primitive/detail/cipher/chacha/*`, `primitive/cipher/apie.h` | `Model_Cipher`; `*.asm`: `Model_ChaChaAsm`, `Model_Asm` |
| `primitive/detail/aead/*`, `primitive/aead/apie.h` | `Model_Aead` |
| `primitive/detail/kdf/*`, `primitive/kdf/apie.h` | `Model_Kdf` |
| destructors and erasing | `Model_Erase` |
| `app/include/milo/app/*` (benchmark tool, on x86_64) | `Model_AppNames` (names), `Model_App`; the measured times are an arbitrary function; `Model_Double` (conversion to double, division, std::to_string of a double: binary64 with rounding to nearest, by the standard library's `SpecFloat`; C locale) |
| `literal.h` | `Model_Literal` |
| `memory.h` `memory_bytes_const_view` (allocation, freeing) | `Model_View` |
| `detail/kdf/hkdf.h`, `detail/kdf/pbkdf_2.h` `derive` with overlapping inputs and output | `Model_KdfMem` |
| allocation failure in the container overloads (`internal/utility.h` resize, `noexcept` of `primitive/*/apie.h`) | `Model_Alloc` |
| `detail/codec/*.h`, `codec/apie.h` with overlapping source and destination | `Model_CodecMem` |
| `detail/codec/*.h` with 32-bit size_t | `Model_Codec32` |
| default constructors of `mac/apie.h`, `aead/apie.h`, `chacha_20_poly_1305.h` and the members they leave without a value; defaulted copies of such objects | `Model_Default` |
| `meta.h` 254-373 (`bytes`, `container`, `container_dynamic`, `container_static`) | `Model_Traits`: a type is a record of the members the concepts ask for |
| the container overloads of `hash/apie.h`, `mac/apie.h`, `cipher/apie.h`, `aead/apie.h` called with one object in several places | `Model_Objects` |
| threads | `Model_Threads`: a call is one step; that the library has no mutable state outside its objects (only constants of static storage duration) was checked by reading all of `src/milo` and is not a theorem |
| `primitive/*/test.h` | `Model_Test`; loops bounded by an argument the theorems show to be large enough; the inputs of the differential tests are compared with `memory_equal` on the modelled buffers |
| `tool/codegen` (without the reading of JSON files; JSON values are texts and non-negative integers), `test/primitive/*.cpp` | `Model_Codegen` |

Not modelled: overload resolution and concepts (`meta.h`), except where a property is about them; `arch/x86_32`; the
vectors in `test/`; the build system and the reading of JSON; strict aliasing and alignment of C++ objects
(alignment of the accesses in assembly is modelled); whether a compiler keeps the volatile stores of the erasing code.

### The model against the project's test vectors

Not a proof, and not part of the build: `tools/vectors.py` takes the 37 files of test vectors in `/repo/test/primitive/config` (the data the
project's own tests are generated from), writes for each vector a call of the model of the test drivers (`Model_Test`, C66) and lets Coq
evaluate it by `vm_compute`. All 2027 vectors are accepted, in 5686 runs (one to five per vector: at run time, in a constant evaluation, on a
big-endian host, and with the assembly implementations where there are any; Poly1305 and the AEAD are run on little-endian hosts only,
because of the finding of C23). The evaluation takes four hours, most of it PBKDF2.

`tools/codegen.py` does the same for the generator: for each of the 37 configurations it lets Coq evaluate `gen` (C73) and compares the text with
the file `/repo/test/primitive/NAME.cpp` in the repository; all 37 are equal, character by character.

### Further findings, outside the theorems

* The free functions `encrypt`/`decrypt` of `cipher/apie.h` that take pointers call a constructor with four arguments
  which the class does not have (they cannot be instantiated).
* The free functions `encrypt` of `aead/apie.h` that fill pointers (914-942) or containers (998-1022) cannot be instantiated either: they
  return `container::tuple{ciphertext_size, digest_size}`, and the deduction guide of container.h:121-127 makes a tuple of *references* of
  it, which does not convert to the declared `tuple<size_t, size_t>` (only the overload that returns new containers moves its parts).
  The theorems about `aead_free_encrypt` and `aead_free_encrypt_c` are about the bodies as written, with the pair of sizes as the result.
* At run time the loads and stores of memory.h (98-101, 204-207, 384-387, 487-490) convert a possibly misaligned byte pointer to
  `const val_type*` before `memcpy`, which the C++ standard leaves unspecified; the model takes the pointer as it is.
* `arch_x86_64_cpuid` and the literals `_b`, `_bv` are non-inline functions in headers: two translation units that
  include them do not link.
* `memory_copy_be`/`memory_copy_le` into elements wider than one byte may write more than `a_size` bytes (not used so).
* The SHA-256 routine uses AVX instructions although it is chosen by the SHA feature bits (C40).
