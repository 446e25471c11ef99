# A formal model of OpenSSE/crypto-tk in Rocq (Coq 8.16.1)

`/repo` is read as text only. Everything below is a Gallina model written function by function
from the sources, with the cited lines in the comment of each definition, and theorems about it.

## Layout

* `rocq/theories/Base.v` – bytes, machine integers, outcomes.
* `rocq/theories/XxxModel.v` – executable model of one part of the code, no proofs.
* `rocq/theories/XxxProofs.v` – lemmas.
* `rocq/theories/XxxSpec.v` – where needed, the small independent specification a property refers to.
* `rocq/theories/XxxProperties.v` – only the property theorems, each `exact lemma` followed by
  `Print Assumptions`, and the `Example`s showing that their hypotheses are met.

## Conventions

* A byte is a `Z` in `[0,256)`; byte strings are `list Z`. Machine arithmetic is written with explicit
  `mod 2^w` where wrap-around is possible.
* Every function that can fail returns an `outcome`: `Ok v`, `Throw e` (the C++ exception class),
  `UB` (undefined behaviour: out of bounds access, invalid shift, null dereference ...),
  `Abort` (failed `assert`, debug builds only) or `Diverge` (the loop never ends).
  Undefined behaviour is never assumed away: theorems state that the outcome is not `UB`, or exhibit inputs for which it is.
* Functions containing an `assert` take the build mode (`dbg : bool`) as an argument.
* External primitives (ChaCha20, BLAKE2b, the AEAD, the AES round, Ed25519 arithmetic, relic's pairing,
  the random generator) are section variables, i.e. universally quantified arguments of each theorem.
  The facts assumed about them (lengths; AEAD correctness; group and pairing laws) are explicit hypotheses of the theorems
  that use them, and each such set of hypotheses is shown to be satisfiable by a concrete instance.
* A property that the code violates gets a `..._refuted` theorem with a concrete witness, and a `..._partial`
  theorem for the part that does hold.

## Plan per property

| id | model | proof |
|----|-------|-------|
| C01–C03, C57 | heap of secure allocations with page protections, key objects (pointer, flag), one `step` per `Key` operation, both build settings (`KeyModel`) | invariant over operation lists: injective ownership, flag = protection, no access to protected/freed memory, destruction of all objects empties the heap; contents by refinement to plain values (`KeyVal`); C57 refuted; which failures leave an allocation: case analysis |
| C04, C05 | constructors of the same model, with caller buffer and random source | direct; C05 refuted without memory lock |
| C06–C08, C58 | `prg_derivation` on an explicit output buffer, ChaCha20 block function as parameter, `size_t` wrap | list reasoning on windows of the keystream |
| C09–C11 | `derive_key(s)`, static variants, key lock state | from C06; C10 refuted (null output), C11 refuted for one overload at length 0 and for 0 keys |
| C12–C16, C59, C60 | `hmac`, `prf`, `Hash::hash`; hash function parameter; buffers explicit | list reasoning against an RFC 2104 specification; C13, C15 refuted outside the safe range |
| C17–C19, C61, C62 | `Cipher`, AEAD and key derivation parameters | case analysis, hypotheses on the AEAD only |
| C20–C23, C65–C67 | full model of `aez.c` (setup, hash, core, tiny, unrolled loops) over 16-byte blocks, AES round as a parameter, `prp.cpp` | Feistel/XOR cancellation, loop unrolling lemmas; no hypothesis on the AES round except blocks to blocks; C23 refuted |
| C24–C33, C63 | `rcprf.hpp` with explicit uint64/uint8 arithmetic, shifts by invalid amounts are `UB`, PRG as parameter | induction on tree height against a specification tree; C25, C26, C32, C33, C63 refuted outside of the proved domain |
| C34–C37, C64 | `wrapper.hpp` over an abstract class description (type byte, public context, serialize, deserialize), instantiated with each class | list reasoning; C36 refuted for the RCPrf/ConstrainedRCPrf type byte; C64 refuted |
| C38–C39 | `set_hash.cpp` over an abstract abelian group with encodings | induction on histories |
| C40 | pointer loop of `strstrn_uint8` with bounds-checked reads | loop invariant |
| C41–C46, C69–C72 | RSA layer (`rsa.c`, `tdp_impl_mbedtls.cpp`): big numbers as `Z`, CRT, blinding state, RNG as parameter | Fermat's little theorem, CRT, invariant of the blinding pair over histories; exceptions and undefined behaviour for wrong sizes |
| C47–C52, C68 | base64, PEM, DER writer/parser, `pkparse.c`, `rsa_io.c`, `tdp.cpp` deserialize over byte buffers with bounds-checked reads | round trip by induction, safety by symbolic execution over all inputs |
| C53–C56, C73–C75 | GM puncturable encryption over an abstract bilinear group of prime order, tags hashed to scalars | telescoping sum by induction on punctures, Lagrange interpolation at 0 |
| C76–C83 | `bignum.c` at the level of 64-bit limbs, with aliasing flags (`LimbModel`) | schoolbook arithmetic by induction on limbs, Knuth's bound on the estimated quotient digit; refuted for the aliasings and sizes the code gets wrong |
| C84–C86 | Montgomery multiplication, sliding-window exponentiation, binary gcd and inverse on limbs (`LimbModel2`) | invariants of the loops (`LimbProofs9`–`14`): each Montgomery step divides by 2^64 mod N; exponent read so far and pending window; termination by bit length; refuted for negative multiples of N, unassigned objects, gcd (A, 0) |
| C87–C89 | trial division, Miller–Rabin, prime generation with the random generator as a function of the call number (`LimbModel2`) | exact characterisation of each outcome (`LimbProofs15`–`18`): table of small primes checked by computation, Fermat and square roots of 1 for primes, the call numbers of the bases as witnesses; refuted for objects of 129 limbs, strong pseudoprimes, nbits = 4 |
| C90–C96 | `rsa.c`, the parsers of `pkparse.c` and `tdp_impl_mbedtls.cpp` on contexts made of limbs, with the constants RN, RP, RQ and the blinding pair as state (`LimbRsaModel`, `LimbKeyModel`) | refinement of the model on numbers function by function (`LimbProofs19`–`33`), invariant "the context holds the key" over sequences of calls; refuted for the two assignment operators that the public classes do not use, and for a failing generator, after which the blinding pair is kept (`LimbProofs34`) |
| C97 | the same model of `aez.c` and `prp.cpp` against a separate specification of the AEZ v4.1 enciphering scheme (`AezSpec`), which works with numbers and polynomials instead of vector registers | doubling of GF(2^128) is linear, so the offsets of the unrolled loops are the multiples of the specification (`AezProofs8`, `9`); equality of the long and short cases (`AezProofs10`, `11`) and of the hash (`AezProofs12`) |
| C98–C104 | `tdp_impl_openssl.cpp` (`OsslModel`); a BIGNUM is its value; the functions of OpenSSL 1.0.2 are definitions after their manual pages and `rsa_eay.c` | the mathematics of C41–C46; pools by induction; agreement with the mbedTLS model; PKCS#8 texts through the model of `pkparse.c`; C100–C104 refuted in part |
| C105, C106 | `bn_mul.h`: the x86-64 assembly as instructions on registers, carry flag and memory, and the two C variants, inside `mpi_mul_hlp`; `mbedtls_int_div_int` without a 128-bit type (`BnMulModel`) | one step adds a product exactly, blocks by induction; two quotient digits after Knuth; C106 refuted for divisors with 64 bits |
| C107, C108 | `mpi_get_digit`, `mbedtls_mpi_read_string`, `mpi_write_hlp`, `mbedtls_mpi_write_string` on limbs and on a buffer where writing outside is undefined (`BnStrModel`) | a text is a number by an inductive definition (`BnStrSpec`); reading by induction over the text; every write stays below the size estimated from the number of bits; C108 refuted for the least size and for objects without limbs |
| C109–C114 | `relic_api.{h,cpp}`: scalars as integers, what is hashed, printing on a stream with its flags, functions on `int` with undefined overflow (`RelicModel`, and `PpkeModel` for + - * /) | divisibility; C110–C114 refuted in part |
| C115, C116 | `relicResourceHandle`, `init_crypto_lib`, `cleanup_crypto_lib` as transitions of the state of the process; answers of RELIC, malloc, libsodium are parameters (`RelicModel`) | invariants over all sequences of calls; refuted for handles destroyed out of order, repeated and failing initialisations |
| C117 | `LagrangeInterpInExponent` (`PpkeModel`) for any number of points | a polynomial with more roots than its degree vanishes, by synthetic division; division of scalars as for C109 |
| C118 | `aez.c` with an authenticator and with keys of any length (`AezAuthModel`), AEZ v4.1 authenticated encryption (`AezAuthSpec`) | the buffers with and without the last bytes are related to the proofs for C97 (`AezProofs13`–`16`); refuted for the empty message and for reading past the message |
| C119 | the functions of `aez.c` common to all processors with the processor's ones as parameters, the ARM ones (`AezArchModel`) | the byte-wise shifts and doubling of NEON are those of the vector registers on reversed bytes (`AezProofs17`); congruence through the common functions with blocks as invariant (`AezProofs18`) |
| C120 | `aez.c` and the pointer functions of `prp.cpp` with source and destination in one memory (`AezMemModel`) | simulation of the proofs for separate buffers: which bytes of the source are still in memory after each store of a group (`AezProofs19`–`21`); refuted for partly overlapping regions |
| C121 | the functions of `asn1parse.c` and `asn1write.c` that RSA keys do not need (`AsnModel2`) | against the encodings of X.690 (`AsnSpec2`): writing in front of a position, reading what was written, safety by cases on any data; refuted for integers above 255 and the empty sequence |
| C122, C123 | a heap of blocks where a call of `calloc` may fail and using what is not allocated is undefined; the functions of `bignum.c` that allocate and release (`HeapModel`) | invariant over all sequences of calls on any number of objects: blocks and objects correspond one to one (`owned`), released limbs are zero (`wiped`); the values follow the functions on limbs of `LimbModel`; C123 refuted for a failing copy |
| C124 | `mbedtls_pem_read_buffer`, `mbedtls_pem_free`, `mbedtls_pem_write_buffer` with their buffers on that heap (`PemHeapModel`) | simulation of the model without heap; refuted: nothing is wiped |
| C125 | lists of named data in `asn1parse.c` and `asn1write.c` on the heap of `HeapModel` (`NamedModel`) | invariant over all sequences of calls: the blocks are those of a chain of entries (`NamedProofs`), seen from outside as pairs of name and value (`NamedSpec`); refuted for shorter values |
| C126 | `random.cpp`, `random.hpp`: the source is a sequence of bytes, buffers are on the heap of `HeapModel` (`RandomModel`) | cases; induction over the requests; refuted for a throwing constructor of std::string and for wiping |
| C127 | constructors, destructors and assignments of `TdpImpl_mbedTLS` and `TdpInverseImpl_mbedTLS`, `mbedtls_rsa_copy`, `_free`, `_parse_key` on the heap of `HeapModel` (`TdpHeapModel`); parsing, generating and arithmetic are any calls on the objects they are given | invariant over all programs: dead variables hold nothing, live ones a key that passes the check or nothing; refuted for late failures of the private constructor |
| C128 | constructors, assignment and destructor of `TdpMultPoolImpl_mbedTLS` on the same objects (`PoolHeapModel`); elements of a new array are indeterminate until initialised | invariant over all programs, induction over the elements of keys_; refuted for constructors that throw and for assignments with failing allocations |
| C129 | `eval`, `sample_array`, `generate_array`, `eval_pool`, `invert_mult` and `insecure_mod_exp` on the heap of `HeapModel` (`LocalHeapModel`): the control flow, the local numbers and the ends of their lifetimes; a function of bignum.c is any sequence of calls on the numbers it is given and on temporaries that it releases, with any result | for each function the numbers it may change; induction over sequences of calls and over the bits of the exponent; refuted for functions that throw |
| C130 | `init_locks`, `kill_locks` and the callbacks given to OpenSSL (`LockModel`): mutexes with an owner, where POSIX leaves behaviour undefined it is `UB`; threads interleave event by event, and OpenSSL does nothing when no callback is set | invariant between the mutexes and who is inside according to the history; induction over interleavings; refuted for initialising again and cleaning up while a lock is held |
| C131 | what the functions of `tdp_impl_openssl.cpp` allocate and release (`OsslHeapModel`): resources with a type and a number of references; what OpenSSL reads, generates and writes is a parameter | every number of references is the number of times the resource is held by objects and running functions (a multiset), induction over programs; refuted for private keys of another algorithm, strings without memory and wiping |
| C132 | reading keys when allocations fail (`PkHeapModel`): `mbedtls_pk_setup`, `mbedtls_pk_free`, the parsers of `pkparse.c`, `mbedtls_rsa_parse_key`, `mbedtls_rsa_parse_public_key`, `mbedtls_rsa_copy` and the constructors up to their check, over blocks (PEM buffer, context, limbs) and an oracle for allocations | every block in use is held once by the running functions; each parser agrees with `RsaKeyModel` unless an allocation fails; no text is a key in both formats |
| C133 | the same functions below the constructors | as C132; refuted: `mbedtls_pk_parse_key` returns 0 for any text if its last `mbedtls_pk_setup` fails, `mbedtls_rsa_parse_key` returns 0 if copying the numbers fails |
| C134 | `ZR(const std::string&)` and `operator<<(std::ostream&, const ZR&)` (`ZrTextModel`) with RELIC's `bn_size_str`, `bn_write_str`, `bn_read_str` for radix 10 (trusted definitions) | the loops that write, reverse and read digits, by induction; refuted: the text printed ends with a zero character, and a text that is no number is accepted |
| C135 | `mbedtls_rsa_check_pub_priv` on limbs (`RsaPairModel`) | from C92; the exponents by Fermat's theorem and Chinese remainders |
| C136 | `mbedtls_asn1_write_mpi`, `pk_write_rsa_pubkey`, `mbedtls_rsa_write_pubkey_der`, `mbedtls_rsa_write_key_der`, `public_key()`, `private_key()` and the serialization of `tdp.cpp`, from the context of limbs (`LimbWriteModel`) | each writer computes the same as the writer of integers, whose texts are known (C47, C52); reading on limbs from C96 |
| C137 | `aez.c` with source and destination in one memory with the processor's functions as parameters, the ARM path, the pointer functions of `prp.cpp` (`AezArmMemModel`) | the instance for AES-NI is `AezMemModel` by computation; congruence as for C119 with the memory as invariant (`AezProofs22`), then C120 |
| C138 | the functions of `tdp_impl_openssl.cpp` with numbered calls of OpenSSL that may fail (`OsslFailModel`) | without failing calls the functions of `OsslModel`; case analysis on the tests the code makes; refuted for the allocations and computations whose results are not tested |
| C139 | the accesses of const functions to `is_locked_` and to the protection of the memory, in single steps of threads, with the mutexes a caller may use (`ThreadModel`) | invariant over all schedules: a held object matches what its holder has still to do; with mutexes a decreasing weight shows that all can finish; refuted for shared objects by schedules |
| C140 | `mbedtls_rsa_private` in steps on the shared blinding values Vi and Vf, threads, and the mutex a caller may use (`BlindThreadModel`) | invariant over all schedules: what the pair satisfies at each place of the holder, with the lemmas of C41-C43 on blinding and Chinese remainders; a decreasing weight shows that all calls can return; refuted without mutex by a symbolic execution, for every key; a call alone is proved equal to `rsa_private` of `TdpModel` (C140_alone) |
| C141 | the cache of `mbedtls_mpi_exp_mod` in steps, its memory, threads, the mutex a caller may use and the order in which memcpy copies (`CacheThreadModel`) | two invariants over all schedules (with mutex, and with copies in the order of the fields), a decreasing weight for the end of all calls; memory loss and a number without limbs refuted by schedules of two threads, for every modulus |
| C142 | objects of `ZR`, `G1`, `G2`, `GT` in memory: constructors, copies, moves, assignments, destructors, with RELIC's macros for AUTO and DYNAMIC (`RelicObjModel`) | simulation of a machine with variables; refuted: contents after destruction, assignment after a move, DYNAMIC |
| C143 | the local arrays, vectors and arrays made with new of `prg.cpp`, `cipher.cpp`, `hmac.hpp`, `prf.hpp`, with their contents after the functions, and failing protections (`TmpModel`) | symbolic execution of each function, with the results of `PrgModel`, `CipherModel`, `HmacModel`; induction on the counter of Prf; refuted for decrypt on strings, and for functions that throw |
| C144 | `Wrapper::wrap` and `unwrap` with a failing `sodium_malloc`, and sequences of `unwrap` with a bounded amount of secure memory (`WrapAllocModel`) | from C34 and C64; induction on the sequence; refuted for a null result of `sodium_malloc`, and for forged representations |
| C145 | programs with several `ConstrainedRCPrf` objects: constrain, move assignment, destruction, eval, eval_range (`RcObjModel`, over the functions of `RcprfModel`) | simulation by an abstract program where an object is a tree and a range, or nothing; refuted for moves to itself |
| C146 | the functions of `eval_range` with callbacks that throw, change variables of the caller or have a state of their own (`RcCallModel`) | induction on the height of the subtree and on the elements; refuted for callbacks with own state (the `std::function` is copied) |
| C147 | programs with several `Prf` objects (`PrfObjModel`, over `HmacModel`); the functions of the other classes on an emptied key | simulation by an abstract program where a variable is a key or nothing; refuted without memory locking (`Key::data` is null) |
| C148 | `operator<<` of `SetHash` and the formatting of `std::ostream` for unsigned values below 256 (`ShPrintModel`) | induction on the bytes; refuted for the fill character, `std::left` and `std::showbase` |

## What is modelled, and how

* `key.hpp` (threads in `ThreadModel`, with sequentially consistent memory): every constructor, move, lock/unlock, `serialize`, destructor; `sodium_malloc`, `sodium_free`, `mprotect` are
  transitions of the heap. Not modelled: the guard pages and canaries of libsodium.
* `prg.cpp`, `prf.hpp`, `hmac.hpp`, `hash.*`, `cipher.cpp`, `prp.cpp`, `aez.c`, `rcprf.hpp`, `wrapper.hpp`, `set_hash.cpp`, `utils.cpp`
  (`strstrn_uint8`): every function. `init_crypto_lib` and `cleanup_crypto_lib` are in `RelicModel`. `random.cpp` and `random.hpp` are in `RandomModel` (libsodium's generator is a sequence of bytes). The callbacks for OpenSSL are in `LockModel`. Not modelled: CPU feature detection (a boolean), `id_function` (a hash of the thread's id).
* The temporary buffers of `prg.cpp`, `cipher.cpp`, `hmac.hpp` and `prf.hpp` (stack arrays, `new[]` arrays, vectors) are in `TmpModel`, on a memory that keeps the bytes of released buffers.
* `aez.c`: the AES-NI path and the ARM path (`AezArchModel`), without extra authentication bytes (`AezModel`, the only use) and with them (`AezAuthModel`); source and destination separate, or in one memory without authentication bytes (`AezMemModel`, `AezArmMemModel`).
* `base64.c`, `pem.c` (no encryption), `asn1parse.c`, `asn1write.c`, `pkparse.c`, `rsa_io.c`, `pk.c`, `pk_wrap.c`: every function reachable from
  `tdp.cpp`. Allocations may fail (a parameter) (in `RsaKeyModel` except in `mbedtls_pk_setup` and
  `mbedtls_rsa_copy`; in `PkHeapModel` everywhere, with the temporaries of `mbedtls_rsa_check_privkey` as one allocation).
  `AsnModel2` has the other functions of `asn1parse.c` and `asn1write.c`, `NamedModel` the lists of named data on a heap; `PemHeapModel` has `pem.c` with its memory.
* `rsa.c`: `complete`, `check_pubkey`, `check_privkey`, `public`, `private` with blinding, `copy`, `gen_key`
  with big numbers as integers (`MpiModel`); the candidates of `gen_prime` are a list of pairs. `LimbRsaModel` has the same functions on limbs,
  with the cached Montgomery constants; there the generator of random bytes is a function of the number of calls. After an error in the
  middle of a function, the objects it was computing are not modelled, except for the blinding pair.
* `bignum.c`: `LimbModel` has the representation with sign and limbs, for 64-bit limbs with a 128-bit type for products; `BnMulModel` has the inner loop on memory with the x86-64 assembly that
  `config.h` selects, and with half limbs. The assembly for other processors is not modelled, nor the compiler's treatment of the `asm` statement.
  `BnStrModel` has the texts of numbers. In these, memory contents after an error are not modelled and allocations succeed up to 10000 limbs;
  `HeapModel` has the functions that allocate and release, on a heap where allocations may fail; `TdpHeapModel` has the constructors, destructors and assignments of the TDP objects on that heap (keys parsed, generated and used by any calls), `PoolHeapModel` those of the pools, `LocalHeapModel` the functions on messages with their local numbers.
* `tdp.cpp`, `tdp_impl_mbedtls.cpp`: every function. 
* `tdp_impl_openssl.cpp`: every function. OpenSSL itself is not in the repository: its functions are the definitions in the first section of `OsslModel.v`, and are trusted to be what OpenSSL 1.0.2 does. Reading PEM texts with OpenSSL is a parameter. Failing calls of OpenSSL are in `OsslFailModel`, where a null pointer given to a function on numbers is undefined behaviour. `OsslHeapModel` has what these functions allocate and release.
* `ppke/GMPpke.*`, `puncturable_enc.cpp`: every function. RELIC is a parameter: elements are powers of generators, with serialisation
  as in RELIC (one byte for the point at infinity). The PRF is a function; `bn_rand` results are arguments.
* `ppke/relic_wrapper/relic_api.*`: the arithmetic of `ZR`, its bytes, `&`, shifts, the hashes' inputs, printing of elements, functions on `int`, handles.
  Texts of scalars are in `ZrTextModel`, where RELIC's functions on texts are trusted definitions. Objects in memory are in `RelicObjModel`. Not modelled: membership in the groups, functions that only call one function of RELIC.

## Trusted base

* Coq's kernel (and `coqchk`).
* `Print Assumptions` below each theorem in the `*Properties*.v` files: every one answers `Closed under the global context`.
  No axiom is used. The only axioms `coqchk` sees in the loaded context are those of the standard library's
  `Coq.ssr.ssrunder` (`Under_rel.*`), on which no theorem depends.
* The reading of the C++ sources into the model. Simplifications are stated at the definitions.
* The hypotheses on external primitives, written in each theorem, and each satisfied by an instance.
