{"id": "C01", "title": "Key objects own their secret memory exactly once", "statement": "For every program that creates, moves, move-assigns (also to itself), erases, locks, unlocks, reads and destroys Key objects, every secure allocation is owned by exactly one Key object at any time, is never read while protected or after having been freed, is freed exactly once, and nothing stays allocated once all the Key objects are gone.", "quantifier": "all finite sequences of public and friend-only Key operations over any number of Key objects, in builds with and without memory locking (nothing-left-allocated: sequences in which no memory protection call fails, see C57)", "why_tests_cant": "Ownership bugs depend on the interleaving of moves, erasures and destructions; tests only exercise a handful of short histories.", "anchors": ["src/include/sse/crypto/key.hpp: Key, Key::operator=, Key::~Key, Key::erase, Key::lock, Key::unlock, Key::unlock_get"]}
{"id": "C02", "title": "A key's bytes never change and follow moves", "statement": "The bytes of a key are fixed at construction: whatever operations are applied afterwards to this or other keys, the object that currently holds the key (after any chain of moves) yields exactly the construction bytes, and every moved-from, erased or destroyed object is empty and throws instead of yielding bytes.", "quantifier": "all construction byte strings and all operation histories", "why_tests_cant": "Needs all histories; a test checks one chain of moves.", "anchors": ["src/include/sse/crypto/key.hpp: Key(Key&&), Key::operator=, Key::erase, Key::unlock_get, Key::serialize"]}
{"id": "C03", "title": "Lock state reported by a key is the protection of its memory", "statement": "With memory locking enabled, a non-empty Key reports itself locked exactly when its memory is inaccessible, and unlocked exactly when it is read-only; lock/unlock are idempotent, a freshly built key is locked, and reads that do not unlock throw exactly when the key is locked.", "quantifier": "all keys reachable by any operation history", "why_tests_cant": "The flag and the page protection are two separate states that must agree after every history.", "anchors": ["src/include/sse/crypto/key.hpp: lock, unlock, is_locked, data, serialize"]}
{"id": "C04", "title": "Building a key from a buffer moves the secret", "statement": "Constructing a Key from a caller buffer yields a key holding exactly the first N bytes of the buffer, sets these N bytes of the buffer to zero, leaves the rest of the buffer unchanged, and a null pointer raises invalid_argument without allocating.", "quantifier": "all N, all buffers of at least N bytes", "why_tests_cant": "All contents and sizes.", "anchors": ["src/include/sse/crypto/key.hpp: Key(uint8_t*)"]}
{"id": "C05", "title": "A default-constructed key is random whatever the build options", "statement": "Key() always fills the key with N fresh bytes of the random generator.", "quantifier": "all random generator outputs, both settings of ENABLE_MEMORY_LOCK", "why_tests_cant": "The CI builds one configuration; the claim is about every configuration.", "anchors": ["src/include/sse/crypto/key.hpp: Key()"]}
{"id": "C06", "title": "PRG output is a window of one keystream", "statement": "For a given key there is one infinite byte stream such that derive(offset, len) returns bytes offset .. offset+len-1 of this stream, whatever the alignment of the offset with the block size of the cipher, for the member and the static functions, and for the buffer and string overloads alike.", "quantifier": "all keys, all offsets and lengths whose sum fits in size_t", "why_tests_cant": "Tests compare a few offsets; alignment cases interact with length (same block, next block, exact end).", "anchors": ["src/prg.cpp: prg_derivation, Prg::derive", "src/include/sse/crypto/prg.hpp: Prg::derive"]}
{"id": "C07", "title": "PRG derivations compose", "statement": "derive(o, a+b) is the concatenation of derive(o, a) and derive(o+a, b); in particular overlapping windows agree byte by byte and a longer output extends a shorter one.", "quantifier": "all keys, offsets and lengths within size_t", "why_tests_cant": "Relational property over unbounded lengths.", "anchors": ["src/prg.cpp: prg_derivation, Prg::derive"]}
{"id": "C08", "title": "PRG never writes outside the requested output", "statement": "A derivation writes exactly the len bytes of the output buffer and reads or writes no other memory, for every offset and len.", "quantifier": "all size_t offsets and lengths", "why_tests_cant": "Offsets near the end of the size_t range are out of reach of tests.", "anchors": ["src/prg.cpp: prg_derivation"]}
{"id": "C09", "title": "Derived keys are the successive blocks of the PRG output", "statement": "derive_key<K>(i) holds bytes i*K .. (i+1)*K-1 of the keystream, derive_keys<K>(n, off) returns n keys whose i-th element equals derive_key<K>(off+i), the static variants return the same keys as the member ones, and requests whose byte offset overflows are rejected.", "quantifier": "all keys, K, n and offsets", "why_tests_cant": "Agreement of four functions for all parameters including the overflow boundary.", "anchors": ["src/include/sse/crypto/prg.hpp: derive_key, derive_keys"]}
{"id": "C10", "title": "PRG calls leave the master key locked", "statement": "After any call to a PRG member function, whether it returns or throws, the PRG key is locked again.", "quantifier": "all calls and arguments", "why_tests_cant": "Exception paths are rarely tested for residual protection state.", "anchors": ["src/prg.cpp: Prg::derive, Prg::duplicate, Prg::serialize"]}
{"id": "C11", "title": "One-shot PRG derivation consumes the key", "statement": "The static derive functions leave the caller's key empty whether they return or throw, reject an empty key with invalid_argument, and all the overloads accept the same lengths, including zero.", "quantifier": "all keys, offsets, lengths, overloads", "why_tests_cant": "Agreement of overloads at the boundary length 0.", "anchors": ["src/prg.cpp: Prg::derive(Key&&, ...)"]}
{"id": "C12", "title": "HMac computes RFC 2104 HMAC", "statement": "For every key of at most one hash block and every message, HMac::hmac with output length l is the first l bytes of H((K xor opad) || H((K xor ipad) || message)), and all overloads agree.", "quantifier": "all key sizes up to the block size, keys, messages, output lengths", "why_tests_cant": "Test vectors are finite.", "anchors": ["src/include/sse/crypto/hmac.hpp: HMac::hmac"]}
{"id": "C13", "title": "HMac handles every key size its template accepts", "statement": "Every instantiation HMac<H,N> that compiles computes RFC 2104 HMAC without reading or writing outside its buffers.", "quantifier": "all N accepted by the static assertion", "why_tests_cant": "Only some instantiations are ever compiled.", "anchors": ["src/include/sse/crypto/hmac.hpp: HMac::hmac, kHMACKeySize"]}
{"id": "C14", "title": "Prf output is HMAC in counter mode", "statement": "Prf<N>::prf(x) is the first N bytes of HMAC(x) for N at most the digest size, and the first N bytes of HMAC(x||0) || HMAC(x||1) || ... for larger N; null inputs throw, and the pointer, string and array overloads and derive_key agree.", "quantifier": "all N below 65473, keys and inputs", "why_tests_cant": "Unbounded output sizes; tests instantiate few N.", "anchors": ["src/include/sse/crypto/prf.hpp: Prf::prf, Prf::derive_key"]}
{"id": "C15", "title": "Prf output blocks never repeat a counter", "statement": "For every supported output length, the successive 64-byte blocks of a Prf output are HMACs of pairwise distinct inputs, and the computation terminates.", "quantifier": "all output lengths N that compile (uint16_t)", "why_tests_cant": "Large instantiations are never compiled by the tests.", "anchors": ["src/include/sse/crypto/prf.hpp: Prf::prf"]}
{"id": "C16", "title": "Truncated hashing is a prefix of hashing", "statement": "Hash::hash with output length l returns the first l bytes of the full digest for l at most the digest size, throws otherwise or on null pointers, and the string overloads return the same bytes.", "quantifier": "all messages and output lengths", "why_tests_cant": "All lengths and overloads.", "anchors": ["src/hash.cpp: Hash::hash"]}
{"id": "C17", "title": "Cipher decrypts what it encrypts", "statement": "Decrypting with the same key the output of encrypt yields the plaintext, for every plaintext (buffer overload: also empty) and every random nonce.", "quantifier": "all keys, plaintexts, nonces", "why_tests_cant": "All lengths and nonces; key derivation from the nonce must agree on both sides.", "anchors": ["src/cipher.cpp: Cipher::encrypt, Cipher::decrypt"]}
{"id": "C18", "title": "Cipher length arithmetic", "statement": "A ciphertext is exactly ciphertext_length(len) bytes, plaintext_length inverts ciphertext_length, decryption outputs exactly plaintext_length bytes, and too short ciphertexts and empty strings raise invalid_argument before any output is produced.", "quantifier": "all lengths in size_t without overflow", "why_tests_cant": "Boundary arithmetic for all lengths.", "anchors": ["src/include/sse/crypto/cipher.hpp: ciphertext_length, plaintext_length", "src/cipher.cpp"]}
{"id": "C19", "title": "Cipher authenticates every byte", "statement": "If decryption of a ciphertext succeeds, then the ciphertext is the one that encryption of the returned plaintext under the same key and the embedded nonce produces: any ciphertext not of this form raises runtime_error and the output buffer holds only zeros.", "quantifier": "all keys and ciphertexts (relative to the AEAD accepting only its own encryptions)", "why_tests_cant": "All possible modifications; tests flip a few bits.", "anchors": ["src/cipher.cpp: Cipher::decrypt"]}
{"id": "C20", "title": "PRP decryption inverts encryption for every length", "statement": "Prp::decrypt(Prp::encrypt(x)) = x and Prp::encrypt(Prp::decrypt(x)) = x for every byte string x of any length up to the unsigned range: the PRP is a permutation of the strings of each length.", "quantifier": "all keys/contexts, all lengths 0..2^32-1, all contents", "why_tests_cant": "The implementation has separate code paths for lengths <16, 16..31, odd lengths (nibble shuffling), 32.. with 0, <16, >=16 byte fragments and unrolled 16/8/4/2-block loops.", "anchors": ["src/aez/aez.c: aez_encrypt, aez_decrypt, cipher_aez_core, cipher_aez_tiny, pass_one, pass_two", "src/prp.cpp: Prp::encrypt, Prp::decrypt"]}
{"id": "C21", "title": "PRP preserves lengths and stays in bounds", "statement": "encrypt and decrypt read and write only the len bytes of their buffers and produce exactly len bytes.", "quantifier": "all lengths and contents", "why_tests_cant": "Block loads at fragment boundaries.", "anchors": ["src/aez/aez.c: load_partial, cipher_aez_core, cipher_aez_tiny"]}
{"id": "C22", "title": "PRP on integers", "statement": "The 32-bit and 64-bit overloads are mutually inverse permutations of the integers, consistent with the byte string version on their memory representation.", "quantifier": "all integers and keys", "why_tests_cant": "2^32 and 2^64 values.", "anchors": ["src/prp.cpp: Prp::encrypt(uint32_t), encrypt_64, decrypt(uint32_t), decrypt_64"]}
{"id": "C23", "title": "PRP calls leave the context locked", "statement": "After any PRP member call the key material of the PRP is locked again.", "quantifier": "all call sequences", "why_tests_cant": "State of page protection is not observed by tests.", "anchors": ["src/prp.cpp: Prp::encrypt, Prp::decrypt"]}
{"id": "C24", "title": "RCPrf evaluation is a function of the tree path", "statement": "For a RCPrf of height h in 2..63 and a leaf below 2^(h-1), eval returns the value obtained by walking down the binary tree from the root key, taking the left or right PRG output according to the bits of the leaf index from most to least significant; it raises no exception and does not depend on previous calls.", "quantifier": "all heights, leaves, keys, output sizes", "why_tests_cant": "2^62 leaves per tree.", "anchors": ["src/include/sse/crypto/rcprf.hpp: RCPrf::eval, RCPrfBase::derive_leaf, get_child"]}
{"id": "C25", "title": "RCPrf rejects leaves outside of the tree", "statement": "eval and eval_range raise out_of_range for every leaf above 2^(h-1)-1, the largest leaf index of a tree of height h.", "quantifier": "all heights 1..64 and all uint64 leaves", "why_tests_cant": "Boundary for every height.", "anchors": ["src/include/sse/crypto/rcprf.hpp: RCPrf::eval, RCPrf::eval_range, max_leaf_index"]}
{"id": "C26", "title": "RCPrf accepts every advertised height", "statement": "Every height accepted by the RCPrf constructor yields an object on which eval is defined for every leaf of the tree.", "quantifier": "heights 1..64", "why_tests_cant": "Extremal heights involve shifts by the width of the type, undefined in C++.", "anchors": ["src/include/sse/crypto/rcprf.hpp: RCPrf::RCPrf, RCPrf::eval, kMaxHeight"]}
{"id": "C27", "title": "Range evaluation equals pointwise evaluation in order", "statement": "eval_range(min, max, cb) on a RCPrf invokes the callback exactly once for each leaf of [min, max], in increasing order, with the value eval(leaf).", "quantifier": "all heights 2..63, all ranges inside the tree", "why_tests_cant": "All ranges, all subtree boundaries.", "anchors": ["src/include/sse/crypto/rcprf.hpp: RCPrf::eval_range, RCPrfBase::derive_leaf_range"]}
{"id": "C28", "title": "Constrained keys agree with the full key on their range", "statement": "For every proper sub-range [min,max] of the tree, constrain(min,max) yields an object whose eval equals the full key's eval on every leaf of [min,max], whose min_leaf/max_leaf are min and max, and whose eval_range lists the same values in order.", "quantifier": "all heights, ranges, leaves", "why_tests_cant": "Quadratically many ranges.", "anchors": ["src/include/sse/crypto/rcprf.hpp: RCPrf::constrain, generate_constrained_subkeys_from_node, ConstrainedRCPrf::eval, eval_range"]}
{"id": "C29", "title": "Constrained keys refuse everything outside of their range", "statement": "eval and eval_range of a constrained key raise out_of_range for every leaf outside of [min_leaf, max_leaf].", "quantifier": "all constrained keys obtained by constrain, all uint64 leaves", "why_tests_cant": "All leaves.", "anchors": ["src/include/sse/crypto/rcprf.hpp: ConstrainedRCPrf::eval, eval_range"]}
{"id": "C30", "title": "Constrained keys hold no key material above their range", "statement": "The elements held by constrain(min,max) are exactly roots of disjoint complete subtrees, consecutive and in increasing order, whose union is [min,max]: every element only depends on tree nodes all of whose leaves are in the range, and at most 2(h-1) elements are produced.", "quantifier": "all heights and ranges", "why_tests_cant": "A leak for one range out of 2^(2h) would break the scheme.", "anchors": ["src/include/sse/crypto/rcprf.hpp: generate_constrained_subkeys_from_node, generate_leaf_from_parent"]}
{"id": "C31", "title": "Constraining again is constraining directly", "statement": "Constraining a constrained key to a sub-range gives a key that evaluates as the full key on the sub-range and refuses the rest, for any chain of nested constrain operations.", "quantifier": "all chains of nested ranges", "why_tests_cant": "Histories of arbitrary depth.", "anchors": ["src/include/sse/crypto/rcprf.hpp: ConstrainedRCPrf::constrain, generate_constrained_subkeys"]}
{"id": "C32", "title": "Invalid constraints are rejected", "statement": "constrain with min > max raises invalid_argument, and with a range not included in the key's range raises out_of_range, on full and on constrained keys.", "quantifier": "all pairs of uint64", "why_tests_cant": "All reversed pairs, including those straddling subtree boundaries.", "anchors": ["src/include/sse/crypto/rcprf.hpp: RCPrf::generate_constrained_subkeys, ConstrainedRCPrf::generate_constrained_subkeys"]}
{"id": "C33", "title": "Constrained keys survive serialization", "statement": "Deserializing the serialization of a RCPrf or ConstrainedRCPrf returns an object with the same height, range and values on every leaf, and consumes exactly the bytes written; the number of bytes is the one announced by serialized_size.", "quantifier": "all heights, keys, ranges", "why_tests_cant": "All element counts and mixtures of leaves and inner nodes.", "anchors": ["src/include/sse/crypto/rcprf.hpp: serialize, deserialize, serialized_size"]}
{"id": "C34", "title": "Unwrapping inverts wrapping", "statement": "For every wrappable object (Cipher, Prf, Prg, Prp, RCPrf, ConstrainedRCPrf, TdpInverse), unwrap of the same type with the same wrapping key returns an object with the same serialization, and a wrapped object is 28 bytes longer than its serialization.", "quantifier": "all wrapping keys, objects, IVs", "why_tests_cant": "All object contents and sizes.", "anchors": ["src/include/sse/crypto/wrapper.hpp: Wrapper::wrap, Wrapper::unwrap"]}
{"id": "C35", "title": "Unwrapping authenticates type, parameters and content", "statement": "If unwrap as type T succeeds then the bytes are exactly what wrap of a T with this IV and serialization would produce (same type byte, same public context, same content): any other representation is rejected and left unchanged (invalid_argument up to 28 bytes, runtime_error above).", "quantifier": "all byte strings and target types", "why_tests_cant": "All modifications and cross-type uses.", "anchors": ["src/include/sse/crypto/wrapper.hpp: Wrapper::unwrap, WrapperHeader / type bytes, public_context"]}
{"id": "C36", "title": "A wrapped object cannot be unwrapped as another type", "statement": "The authenticated header (type byte and public context) of two different classes or template parameters always differs, so the representation of one is never the representation of another.", "quantifier": "all pairs of wrappable types and parameters", "why_tests_cant": "All pairs of instantiations, including those never compiled by the tests.", "anchors": ["src/include/sse/crypto/wrapper.hpp: get_type_byte", "src/include/sse/crypto/rcprf.hpp: public_context"]}
{"id": "C37", "title": "Unwrapping erases the representation only on success", "statement": "A successful unwrap zeroes the representation, a failing one leaves it unchanged.", "quantifier": "all representations", "why_tests_cant": "All failure points.", "anchors": ["src/include/sse/crypto/wrapper.hpp: Wrapper::unwrap"]}
{"id": "C38", "title": "SetHash depends only on the multiset of elements", "statement": "Any sequence of add_element, remove_element, add_set and remove_set starting from the empty hash yields a value determined by the net multiplicity of each element: insertion order and add/remove pairs do not matter.", "quantifier": "all operation histories and elements", "why_tests_cant": "All orders and interleavings.", "anchors": ["src/set_hash.cpp: SetHash::add_element, remove_element, add_set, remove_set"]}
{"id": "C39", "title": "SetHash constructors agree with incremental updates", "statement": "Building a SetHash from a vector of elements gives the same value as adding the elements one by one, adding sets hashes the concatenation, and serializing to bytes and back is the identity; invalid byte strings are rejected.", "quantifier": "all vectors and byte strings", "why_tests_cant": "All vectors.", "anchors": ["src/set_hash.cpp: SetHash constructors, data, operator=="]}
{"id": "C40", "title": "Substring search finds the first occurrence", "statement": "strstrn_uint8 returns the position of the first occurrence of the needle in the haystack or null when there is none, terminates, and reads only inside the two buffers.", "quantifier": "all pairs of buffers", "why_tests_cant": "Backtracking search must be right for every overlap of partial matches.", "anchors": ["src/utils.cpp: strstrn_uint8"]}
{"id": "C41", "title": "TDP inversion and evaluation are inverse", "statement": "For every valid 2048-bit RSA key, invert(eval(x)) = x and eval(invert(x)) = x for every message x below the modulus, whatever the random blinding and whatever calls were made before on the same object.", "quantifier": "all valid keys, messages, random generator outputs and call histories", "why_tests_cant": "2^2048 messages; the blinding state evolves along the history.", "anchors": ["src/tdp_impl/tdp_impl_mbedtls.cpp: eval, invert", "src/mbedtls/rsa.c: mbedtls_rsa_private, rsa_prepare_blinding"]}
{"id": "C42", "title": "invert_mult is iterated inversion", "statement": "invert_mult(x, n) equals applying invert n times, for every message below the modulus and every order, order 0 being the identity.", "quantifier": "all orders in uint32, messages, keys", "why_tests_cant": "2^32 orders.", "anchors": ["src/tdp_impl/tdp_impl_mbedtls.cpp: insecure_mod_exp, invert_mult"]}
{"id": "C43", "title": "TDP pool evaluation is iterated evaluation", "statement": "TdpMultPool::eval(x, n) equals applying eval n times, for every order 1..maximum_order(), and other orders raise invalid_argument.", "quantifier": "all public keys, messages, pool sizes, orders in uint8", "why_tests_cant": "All keys (any public exponent) and orders including 0.", "anchors": ["src/tdp_impl/tdp_impl_mbedtls.cpp: TdpMultPoolImpl_mbedTLS, eval_pool, maximum_order"]}
{"id": "C44", "title": "TDP pools can be built for every positive size", "statement": "Constructing a pool of size s succeeds for every s in 1..255 and yields maximum_order() = s.", "quantifier": "all uint8 sizes, all 2048-bit keys with exponent 65537", "why_tests_cant": "Sizes at both ends are not tested.", "anchors": ["src/tdp_impl/tdp_impl_mbedtls.cpp: TdpMultPoolImpl_mbedTLS::TdpMultPoolImpl_mbedTLS"]}
{"id": "C45", "title": "TDP messages have a canonical encoding", "statement": "With a 2048-bit key, sample, generate, eval, invert and invert_mult return the 256-byte big-endian encoding of an integer below the modulus, and generate is deterministic in key and seed and equals the PRF output reduced modulo N.", "quantifier": "all 2048-bit keys, seeds and random outputs", "why_tests_cant": "All values.", "anchors": ["src/tdp_impl/tdp_impl_mbedtls.cpp: sample_array, generate_array, eval"]}
{"id": "C46", "title": "TDP functions validate the size of their input", "statement": "String inputs that are not exactly 256 bytes, and keys whose modulus is not 2048 bits, are rejected with an exception and never cause an out of bounds access.", "quantifier": "all string lengths and all RSA keys accepted by the constructors", "why_tests_cant": "Sanitizers only see the sizes tests use.", "anchors": ["src/tdp_impl/tdp_impl_mbedtls.cpp: eval(string), invert(string), invert_mult(string), constructors"]}
{"id": "C47", "title": "RSA keys survive PEM serialization", "statement": "Building a Tdp/TdpInverse from the string returned by public_key()/private_key() yields the same key, for every valid RSA key.", "quantifier": "all valid RSA keys with a modulus of at most 2048 bits", "why_tests_cant": "All integer sizes (leading zero bytes, length-of-length cases), all base64 paddings and line breaks.", "anchors": ["src/mbedtls/rsa_io.c", "src/mbedtls/pkparse.c", "src/mbedtls/asn1write.c", "src/mbedtls/asn1parse.c", "src/mbedtls/pem.c", "src/mbedtls/base64.c"]}
{"id": "C48", "title": "Key parsing never leaves the input", "statement": "Parsing an arbitrary string as a public or private key reads only the bytes of the string and of the decoded buffer and terminates, returning a key that passed the validity checks or an error.", "quantifier": "all byte strings", "why_tests_cant": "Hostile inputs are unbounded; fuzzing samples them.", "anchors": ["src/mbedtls/asn1parse.c", "src/mbedtls/pkparse.c", "src/mbedtls/pem.c: mbedtls_pem_read_buffer"]}
{"id": "C49", "title": "Base64 decoding inverts encoding", "statement": "mbedtls_base64_decode(mbedtls_base64_encode(x)) = x for every byte string, also when line feeds are inserted between characters, and the encoded length is the one computed when called with a null buffer.", "quantifier": "all byte strings and line-wrapped encodings", "why_tests_cant": "All lengths modulo 3 and all contents.", "anchors": ["src/mbedtls/base64.c"]}
{"id": "C50", "title": "Base64 decoding respects its output bound", "statement": "For every input, decoding writes at most the number of bytes returned by the length query, and reads only inside its tables and input.", "quantifier": "all byte strings, including malformed ones", "why_tests_cant": "Malformed paddings and whitespace are unbounded.", "anchors": ["src/mbedtls/base64.c: mbedtls_base64_decode"]}
{"id": "C51", "title": "PEM writing respects its output bound", "statement": "mbedtls_pem_write_buffer never writes beyond the size it checked, for any data length and buffer size.", "quantifier": "all DER lengths and buffer sizes", "why_tests_cant": "Off-by-one on newline counts appear only at specific lengths.", "anchors": ["src/mbedtls/pem.c: mbedtls_pem_write_buffer"]}
{"id": "C52", "title": "Serialized TDP keys are found in a larger buffer", "statement": "TdpInverse::deserialize on a buffer starting with the serialization of a key, whatever follows, rebuilds the same key and reports exactly the serialized length.", "quantifier": "all keys and trailing data", "why_tests_cant": "All trailing data, including data starting with a newline or containing another key.", "anchors": ["src/tdp.cpp: TdpInverse::serialize, TdpInverse::deserialize"]}
{"id": "C53", "title": "Puncturable decryption is correct until punctured", "statement": "After any sequence of punctures, a ciphertext encrypted under a tag that has not been punctured decrypts to the original message with the key made of the initial share for the current count and all the puncture shares.", "quantifier": "all master keys, puncture sequences, tags, messages and encryption randomness (tags whose hashes to the scalar field do not collide)", "why_tests_cant": "Unbounded number of punctures; algebraic identity over a 254-bit field.", "anchors": ["src/puncturable_enc.cpp", "src/ppke/GMPpke.cpp: sk0Gen, skShareGen, blind, recoverBlind", "src/ppke/GMPpke.hpp: encrypt, decrypt"]}
{"id": "C54", "title": "Punctured tags cannot be decrypted", "statement": "decrypt returns false for every ciphertext whose tag has been punctured, and for no other tag.", "quantifier": "all puncture sequences and tags other than the reserved one, which every key carries", "why_tests_cant": "All sequences.", "anchors": ["src/ppke/GMPpke.cpp: isPuncturedOnTag", "src/puncturable_enc.cpp: PuncturableDecryption"]}
{"id": "C55", "title": "The reserved tag is rejected", "statement": "Encrypting under, or puncturing on, the reserved NULL tag or with a zero count raises invalid_argument in every build type.", "quantifier": "all inputs, debug and release builds", "why_tests_cant": "Asserts disappear in release builds.", "anchors": ["src/ppke/GMPpke.cpp: skShareGen, blind", "src/puncturable_enc.cpp: inc_puncture"]}
{"id": "C56", "title": "Tags can be read back from keys and ciphertexts", "statement": "extract_tag applied to a serialized key share or ciphertext returns the tag it was produced for, and parsing a serialized key share or ciphertext returns the same components.", "quantifier": "all tags and group elements", "why_tests_cant": "All byte contents.", "anchors": ["src/include/sse/crypto/puncturable_enc.hpp: extract_tag", "src/puncturable_enc.cpp"]}
{"id": "C57", "title": "A failing Key constructor leaks nothing", "statement": "When a Key constructor throws because the memory cannot be protected or the filling callback throws, the secure allocation it made is released.", "quantifier": "all constructors and failures of mprotect or of the callback", "why_tests_cant": "The failure branches are excluded from coverage (LCOV_EXCL) and cannot be provoked by tests.", "anchors": ["src/include/sse/crypto/key.hpp: Key(), Key(uint8_t*), Key(callback)"]}
{"id": "C58", "title": "PRG objects survive serialization and duplication", "statement": "Serializing a PRG and deserializing the bytes, whatever follows them in the buffer, gives a PRG with the same key, consumes and zeroes exactly kKeySize bytes; duplicate() yields a PRG with the same key.", "quantifier": "all keys and trailing data", "why_tests_cant": "All keys.", "anchors": ["src/prg.cpp: Prg::serialize, Prg::deserialize, Prg::duplicate"]}
{"id": "C59", "title": "HMAC and PRF calls leave the key protected", "statement": "Whatever the arguments, a call of HMac::hmac or Prf::prf that does not access memory out of bounds leaves the key bytes unchanged and the key locked when memory locking is enabled, whether it returns, throws or loops.", "quantifier": "all keys, arguments and lengths", "why_tests_cant": "Every path of the function, including argument errors.", "anchors": ["src/include/sse/crypto/hmac.hpp: HMac::hmac", "src/include/sse/crypto/prf.hpp: Prf::prf"]}
{"id": "C60", "title": "Prf objects survive serialization; public contexts identify the output length", "statement": "Serializing a Prf and deserializing the bytes, whatever follows them, gives a Prf with the same key and consumes and zeroes exactly 32 bytes; shorter inputs raise invalid_argument; two output lengths have different public contexts.", "quantifier": "all keys, trailing data and output lengths", "why_tests_cant": "All keys and output lengths.", "anchors": ["src/include/sse/crypto/prf.hpp: Prf::serialize, Prf::deserialize, Prf::public_context"]}
{"id": "C61", "title": "Cipher calls leave the key locked", "statement": "After encrypt and decrypt, whether they return or throw, the cipher's key is unchanged and protected as before.", "quantifier": "all keys (also emptied ones), arguments and outcomes", "why_tests_cant": "Every path including failures.", "anchors": ["src/cipher.cpp: Cipher::encrypt, Cipher::decrypt"]}
{"id": "C62", "title": "Cipher objects survive serialization", "statement": "Serializing a Cipher and deserializing the bytes, whatever follows them, gives a Cipher with the same key, erases these 32 bytes and adds 32 to the number of bytes read.", "quantifier": "all keys and trailing data", "why_tests_cant": "All keys.", "anchors": ["src/cipher.cpp: Cipher::serialize, Cipher::deserialize"]}
{"id": "C63", "title": "Evaluation and range evaluation of a constrained key element agree", "statement": "For every ConstrainedRCPrfInnerElement accepted by its constructor, eval_range over any sub-range of the element calls the callback with eval(leaf) for each leaf in order.", "quantifier": "all elements accepted by the constructor, all sub-ranges", "why_tests_cant": "An element carries two 64-bit bounds and two heights; the disagreement only shows on misaligned bounds.", "anchors": ["src/include/sse/crypto/rcprf.hpp:522-555", "src/include/sse/crypto/rcprf.hpp:823-877"]}
{"id": "C64", "title": "The working buffer of the wrapper is always released", "statement": "wrap and unwrap free (and thereby erase) the secure buffer holding the serialized secret before they return, whether they succeed or throw.", "quantifier": "all objects, representations and failure points", "why_tests_cant": "Leaks of guarded allocations are not observed by the tests, and only appear on rejected inputs.", "anchors": ["src/include/sse/crypto/wrapper.hpp: Wrapper::wrap, Wrapper::unwrap"]}
{"id": "C65", "title": "Prp objects survive serialization", "statement": "Serializing a Prp and deserializing the bytes, whatever follows them, gives a Prp with the same context (hence the same permutation), erases the 112 bytes and reports 112 bytes read; a buffer announced shorter than 112 bytes is refused with invalid_argument.", "quantifier": "all contexts, trailing data and sizes", "why_tests_cant": "All contexts and sizes.", "anchors": ["src/prp.cpp: Prp::serialize, Prp::deserialize"]}
{"id": "C66", "title": "Construction of a Prp consumes the key, and nothing works without hardware support", "statement": "Building a Prp from a 48-byte key empties the caller's key and gives a locked 112-byte context; when the AES instructions are not available, or the key is empty, every member throws runtime_error and changes nothing.", "quantifier": "all keys, all members", "why_tests_cant": "Availability is a property of the machine running the tests.", "anchors": ["src/prp.cpp: Prp::init_aez_ctx, Prp::is_available"]}
{"id": "C67", "title": "AEZ key expansion doubles in GF(2^128)", "statement": "aez_setup on a 48-byte key I||J||L stores I, 2I, 4I, J, 2J, 4J and L, where the multiplications are those of GF(2^128) modulo x^128+x^7+x^2+x+1 on big-endian blocks.", "quantifier": "all 48-byte keys", "why_tests_cant": "2^384 keys; carries between the 32-bit lanes.", "anchors": ["src/aez/aez.c: aez_setup, double_block"]}
{"id": "C68", "title": "The base64 decoder accepts exactly line-wrapped encodings", "statement": "mbedtls_base64_decode succeeds exactly on the line-wrapped base64 encodings of byte strings and reports INVALID_CHARACTER on everything else.", "quantifier": "all byte strings", "why_tests_cant": "Acceptance of all malformed inputs cannot be enumerated; the existing self test decodes one valid vector.", "anchors": ["src/mbedtls/base64.c: mbedtls_base64_decode"]}
{"id": "C69", "title": "TDP key generation yields a usable 2048-bit key", "statement": "Generating a key (TdpInverse's default constructor) from primes returned by the prime generator ends as soon as it is given two distinct primes whose product has 2048 bits and with 65537 prime to (p-1)(q-1); the key then has a 2048-bit modulus, exponent 65537, and numbers D, DP, DQ, QP that fit together (so that inversion is correct).", "quantifier": "all sequences of primes", "why_tests_cant": "Each test run sees a few random keys.", "anchors": ["src/mbedtls/rsa.c: mbedtls_rsa_gen_key", "src/tdp_impl/tdp_impl_mbedtls.cpp: TdpInverseImpl_mbedTLS::TdpInverseImpl_mbedTLS"]}
{"id": "C70", "title": "Every private key the library accepts inverts its permutation", "statement": "For every 2048-bit private key that passes the checks of the constructors, invert(eval(x)) = x.", "quantifier": "all private keys accepted, all messages", "why_tests_cant": "Keys whose factors are not prime are not tested.", "anchors": ["src/mbedtls/rsa.c: mbedtls_rsa_check_privkey, mbedtls_rsa_private"]}
{"id": "C71", "title": "Copies of TDP pools are equal to the original", "statement": "Copying a TdpMultPool succeeds and gives a pool with the same key, the same exponents and the same maximum order.", "quantifier": "all keys and pool sizes", "why_tests_cant": "All keys and sizes.", "anchors": ["src/tdp_impl/tdp_impl_mbedtls.cpp: TdpMultPoolImpl_mbedTLS copy constructor", "src/tdp.cpp: TdpMultPool::operator="]}
{"id": "C72", "title": "TDP messages that are not below the modulus are handled consistently", "statement": "For a 256-byte input that encodes a number >= N, invert raises invalid_argument and changes nothing, whereas eval and invert_mult (order >= 1) act as on the number reduced modulo N.", "quantifier": "all keys, inputs, orders and call histories", "why_tests_cant": "Such inputs are never generated by the library.", "anchors": ["src/tdp_impl/tdp_impl_mbedtls.cpp: eval, invert, invert_mult", "src/mbedtls/rsa.c: mbedtls_rsa_private"]}
{"id": "C73", "title": "Public-key puncturable encryption is correct", "statement": "For keys from either keygen and any sequence of calls of puncture with tags other than the reserved one, every puncture succeeds; a message encrypted with the public key or with the secret parameters under a tag that was not punctured decrypts to itself; under a punctured tag, decrypt returns false and its throwing variant raises invalid_argument.", "quantifier": "all key generation randomness, puncture sequences and their randomness, messages, tags (no two with the same hash in the scalar field)", "why_tests_cant": "Unbounded number of punctures; algebraic identity over a 254-bit field.", "anchors": ["src/ppke/GMPpke.cpp: keygen, puncture, blind, recoverBlind", "src/ppke/GMPpke.hpp: encrypt, decrypt"]}
{"id": "C74", "title": "Encrypting with the public key and with the secret parameters agree", "statement": "With the same randomness, encrypt(pk, m, tag) and encrypt(sp, m, tag) produce the same ciphertext.", "quantifier": "all keys, messages, tags and randomness", "why_tests_cant": "Identity of group elements for all exponents.", "anchors": ["src/ppke/GMPpke.hpp: encrypt", "src/ppke/GMPpke.cpp: blind"]}
{"id": "C75", "title": "Derived puncturable-encryption scalars never share a seed", "statement": "The strings given to the PRF for alpha, beta, r_y, r, rho_d, l_d and r1_d are pairwise distinct, for all puncture counts.", "quantifier": "all counts d below 2^64", "why_tests_cant": "2^64 counts, all pairs.", "anchors": ["src/ppke/GMPpke.cpp: paramgen, keygen, sk0Gen, skShareGen"]}
{"id": "C76", "title": "Big-number addition and subtraction are exact", "statement": "mbedtls_mpi_add_mpi, sub_mpi, add_abs, sub_abs, add_int and sub_int store exactly the sum or difference of the operands, whatever their signs, their leading zero limbs, the sign of zero, the previous content of the result and the aliasing of the arguments; sub_abs answers NEGATIVE_VALUE exactly when |A| < |B|; no access leaves the limb arrays.", "quantifier": "all operands of fewer than 10000 limbs, all aliasings", "why_tests_cant": "Carry propagation over unbounded numbers of limbs; rare carries (2^-64).", "anchors": ["src/mbedtls/bignum.c:864-1110"]}
{"id": "C77", "title": "Big-number comparison depends on the number only", "statement": "mbedtls_mpi_cmp_mpi, cmp_abs and cmp_int answer the sign of the difference of the numbers, for every representation (leading zero limbs, negative zero, no limbs); mbedtls_mpi_lset and copy store the number given; grow and shrink keep it, and shrink leaves no limb that is neither asked for nor needed.", "quantifier": "all representations", "why_tests_cant": "Representations such as negative zero are never produced by tests.", "anchors": ["src/mbedtls/bignum.c:182-211, 296-309, 745-832"]}
{"id": "C78", "title": "Big-number multiplication is exact", "statement": "mbedtls_mpi_mul_mpi and mul_int store the product of the operands, for all signs and aliasings, without leaving the limb arrays.", "quantifier": "all operands of up to 10000 limbs together, all aliasings", "why_tests_cant": "Unbounded sizes, rare carries.", "anchors": ["src/mbedtls/bignum.c:1016-1161", "src/mbedtls/bn_mul.h"]}
{"id": "C79", "title": "Big-number shifts are exact", "statement": "mbedtls_mpi_shift_l multiplies by 2^count, or fails; mbedtls_mpi_shift_r divides by 2^count rounding towards zero.", "quantifier": "all numbers and all counts below 2^64", "why_tests_cant": "All counts, including those near the limits of size_t.", "anchors": ["src/mbedtls/bignum.c:652-740"]}
{"id": "C80", "title": "Big-number division is truncated division", "statement": "mbedtls_mpi_div_mpi stores the quotient rounded towards zero and the remainder with the sign of the dividend, with either output missing and either output being one of the operands; it answers DIVISION_BY_ZERO exactly for a divisor of value zero.", "quantifier": "all dividends and divisors, all aliasings", "why_tests_cant": "Digit estimation errors of Knuth's algorithm occur with probability about 2^-63.", "anchors": ["src/mbedtls/bignum.c:1167-1395"]}
{"id": "C81", "title": "Big-number reduction returns the least non-negative residue", "statement": "mbedtls_mpi_mod_mpi stores A mod B in [0, B) for B > 0 and fails for B <= 0; mbedtls_mpi_mod_int returns A mod b for every positive limb b.", "quantifier": "all numbers, signs and moduli", "why_tests_cant": "All moduli including those of more than 32 bits.", "anchors": ["src/mbedtls/bignum.c:1396-1468"]}
{"id": "C82", "title": "Binary import and export of big numbers are exact", "statement": "mbedtls_mpi_read_binary stores the big-endian number of the buffer, or fails with ALLOC_FAILED exactly when it needs more than 10000 limbs; mbedtls_mpi_write_binary fills the buffer with the big-endian encoding, zeros in front, or answers BUFFER_TOO_SMALL exactly when the number does not fit; both stay inside of the buffers.", "quantifier": "all buffers and all numbers", "why_tests_cant": "All lengths, including leading zeros.", "anchors": ["src/mbedtls/bignum.c:607-647"]}
{"id": "C83", "title": "Bit-level access to big numbers is exact", "statement": "mbedtls_mpi_bitlen, size, lsb and get_bit answer about the absolute value of the number; set_bit changes that bit and no other; safe_cond_assign and safe_cond_swap act on the numbers according to the condition, whatever non-zero byte it is.", "quantifier": "all representations, all bit positions, all condition bytes", "why_tests_cant": "All positions.", "anchors": ["src/mbedtls/bignum.c:232-408"]}
{"id": "C84", "title": "Modular exponentiation of big numbers is exact", "statement": "mbedtls_mpi_exp_mod stores A^E mod N in [0, N) for every base A, every exponent E >= 0 and every odd N > 0, with or without the kept constant R^2 mod N, which it leaves right for the next call; it answers BAD_INPUT_DATA for other E and N; it stays inside of the limb arrays.", "quantifier": "all bases, exponents and moduli, all aliasings of the result with the base", "why_tests_cant": "Sliding windows, Montgomery reduction and final subtractions over all operands.", "anchors": ["src/mbedtls/bignum.c:1472-1750"]}
{"id": "C85", "title": "The greatest common divisor of big numbers is exact", "statement": "mbedtls_mpi_gcd terminates and stores the greatest common divisor of the absolute values of its operands.", "quantifier": "all pairs of numbers, including zero and negative ones", "why_tests_cant": "Unbounded operands.", "anchors": ["src/mbedtls/bignum.c:1754-1801"]}
{"id": "C86", "title": "The modular inverse of big numbers is exact", "statement": "mbedtls_mpi_inv_mod terminates; it answers BAD_INPUT_DATA exactly for N <= 1, NOT_ACCEPTABLE exactly when A and N are not coprime, and otherwise stores the inverse in [0, N).", "quantifier": "all numbers and all moduli, even ones included", "why_tests_cant": "Unbounded operands.", "anchors": ["src/mbedtls/bignum.c:1830-1920"]}
{"id": "C87", "title": "The primality test accepts every prime", "statement": "mbedtls_mpi_is_prime answers 0 for every number whose absolute value is prime, if the random generator works; it answers NOT_ACCEPTABLE only for composite numbers or when the generator gives nothing useful 31 times in a row, and otherwise passes the error of the generator on; it always terminates within the limb arrays.", "quantifier": "all numbers, all random generators", "why_tests_cant": "All primes; all behaviours of the generator.", "anchors": ["src/mbedtls/bignum.c:1924-2116"]}
{"id": "C88", "title": "The primality test accepts only probable primes", "statement": "A number mbedtls_mpi_is_prime accepts is a prime, or has no prime factor up to 997 and is a strong probable prime for as many random bases, drawn by different calls of the generator, as the table of the Handbook of Applied Cryptography prescribes for its size.", "quantifier": "all numbers, all random generators", "why_tests_cant": "Composite numbers that pass are too rare to be met by tests.", "anchors": ["src/mbedtls/bignum.c:1958-2116"]}
{"id": "C89", "title": "Generated primes have the size asked for", "statement": "mbedtls_mpi_gen_prime (dh_flag 0) stores an odd number of exactly nbits bits that the primality test accepted, the first such number from a random starting point on; it answers BAD_INPUT_DATA exactly for nbits outside of 3..8192, and the error of the generator otherwise.", "quantifier": "all sizes, all random generators, all previous contents of the result", "why_tests_cant": "All starting points.", "anchors": ["src/mbedtls/bignum.c:2121-2213"]}
{"id": "C90", "title": "The public RSA operation computes x^E mod N limb by limb", "statement": "eval, sample and generate on a key object made of limbs return the values of the trapdoor permutation (x^E mod N; a random number mod N; the PRF output mod N as 256 bytes), the same on the first call, which computes the constant R^2 mod N, and on all later ones, which reuse it; they stay inside of the limb arrays.", "quantifier": "all keys, all inputs, all numbers of previous calls", "why_tests_cant": "2048-bit operands; the reused constant makes the result depend on the history.", "anchors": ["src/tdp_impl/tdp_impl_mbedtls.cpp:170-330", "src/mbedtls/bignum.c:1527-1750"]}
{"id": "C91", "title": "The private RSA operation is exact limb by limb, with blinding", "statement": "mbedtls_rsa_private and invert on a key object made of limbs return the result or error of the computation on numbers, and keep a blinding pair that belongs to the key; after any sequence of calls of eval, invert, invert_mult, sample and generate on an object made of a text, invert undoes eval.", "quantifier": "all accepted keys, all messages, all sequences of calls, all answers of the random generator", "why_tests_cant": "Histories and random answers are unbounded.", "anchors": ["src/mbedtls/rsa.c:318-560", "src/tdp_impl/tdp_impl_mbedtls.cpp:498-513"]}
{"id": "C92", "title": "The checks of keys on limbs accept exactly consistent keys", "statement": "mbedtls_rsa_check_pubkey and mbedtls_rsa_check_privkey on a key object made of limbs answer 0 exactly for the keys whose numbers fit together; they always return.", "quantifier": "all key objects with non-negative numbers", "why_tests_cant": "Unbounded space of keys.", "anchors": ["src/mbedtls/rsa.c:165-250"]}
{"id": "C93", "title": "A generated key object holds a consistent 2048-bit key", "statement": "The constructor of TdpInverse either throws std::runtime_error or makes an object with a modulus of exactly 2048 bits, exponent 65537 and two factors that the primality test accepted, whose numbers fit together; mbedtls_rsa_gen_key fails only for bad parameters, a failing generator, or candidates without inverses.", "quantifier": "all random generators, all sizes up to 8192 bits and all exponents", "why_tests_cant": "All behaviours of the generator; key generation is a random search.", "anchors": ["src/mbedtls/rsa.c:87-160", "src/tdp_impl/tdp_impl_mbedtls.cpp:357-393"]}
{"id": "C94", "title": "The multiple inversion is exact limb by limb", "statement": "invert_mult on a key object made of limbs returns what the computation on numbers returns, for every order, and leaves an object that holds the key.", "quantifier": "all accepted keys, inputs and orders", "why_tests_cant": "2^32 orders.", "anchors": ["src/tdp_impl/tdp_impl_mbedtls.cpp:518-697"]}
{"id": "C95", "title": "Copies, assignments and pools of key objects hold the key", "statement": "A copied, assigned or pooled key object evaluates the same permutation as its source, whatever calls were made on both before.", "quantifier": "all keys, all pool sizes and orders, all histories", "why_tests_cant": "The wrong cases depend on the sizes and the histories of both objects.", "anchors": ["src/mbedtls/rsa.c:562-597", "src/tdp_impl/tdp_impl_mbedtls.cpp:95-126", "src/tdp_impl/tdp_impl_mbedtls.cpp:701-911"]}
{"id": "C96", "title": "Key objects read from texts hold the numbers of the text", "statement": "A key object constructed from a text consists of limbs with exactly the numbers that the text encodes, and the constructor throws exactly when the text is malformed or the key is not consistent.", "quantifier": "all strings up to 7999 bytes", "why_tests_cant": "All malformed texts.", "anchors": ["src/mbedtls/pkparse.c:550-1218", "src/mbedtls/asn1parse.c:50-170", "src/tdp_impl/tdp_impl_mbedtls.cpp:52-94"]}
{"id": "C97", "title": "Prp is the AEZ-v4.1 enciphering scheme", "statement": "The permutation computed by Prp for a 48-byte key is the enciphering of AEZ v4.1 (AEZ-hash of the zero tweak, zero nonce and empty data, AEZ-tiny below 32 bytes, AEZ-core from 32 bytes on) with the doubling of GF(2^128) and the AES round; the functions of aez.c are that scheme for every nonce up to 16 bytes. So the bytes are those of any other implementation.", "quantifier": "all keys, nonces and messages below 2^32 bytes, any AES round", "why_tests_cant": "Test vectors cover a few lengths; the offsets grow with the position, the unrolled loops and the three kinds of ends have separate code.", "anchors": ["src/aez/aez.c:58-870", "src/prp.cpp:61-292"]}
{"id": "C98", "title": "With OpenSSL, invert and eval are inverse to each other", "statement": "With the OpenSSL implementation, TdpInverse::invert(eval(x)) = x and eval(invert(x)) = x for every message x below the modulus, for the array and the string overloads, whatever key the constructors generated or read, provided it is a proper RSA key.", "quantifier": "all keys, all messages below the modulus", "why_tests_cant": "2^2048 messages per key.", "anchors": ["src/tdp_impl/tdp_impl_openssl.cpp:183-238", "src/tdp_impl/tdp_impl_openssl.cpp:340-534"]}
{"id": "C99", "title": "With OpenSSL, invert_mult is iterated inversion", "statement": "With the OpenSSL implementation, invert_mult(x, n) returns what n calls of invert return, for every 32-bit order n, including 0; the string overload returns the same.", "quantifier": "all keys, messages below the modulus and orders", "why_tests_cant": "2^32 orders.", "anchors": ["src/tdp_impl/tdp_impl_openssl.cpp:536-611"]}
{"id": "C100", "title": "With OpenSSL, a pool evaluates iterated powers", "statement": "With the OpenSSL implementation, TdpMultPool of size s exists for every s from 1 to 255, and eval(x, n) returns what n calls of Tdp::eval return for every order n from 1 to s, and throws for other orders.", "quantifier": "all keys, messages, sizes and orders", "why_tests_cant": "All sizes and orders; failures of OpenSSL inside the call are not visible.", "anchors": ["src/tdp_impl/tdp_impl_openssl.cpp:613-731"]}
{"id": "C101", "title": "The two implementations of the trapdoor permutation agree", "statement": "On the same key, the implementations with OpenSSL and with mbedTLS return the same values for eval, invert, invert_mult, generate and pools, and refuse the same inputs.", "quantifier": "all keys, messages, seeds, orders", "why_tests_cant": "A comparison of two programs on all inputs.", "anchors": ["src/tdp_impl/tdp_impl_openssl.cpp:183-731", "src/tdp_impl/tdp_impl_mbedtls.cpp:128-911", "src/tdp.cpp:33-76"]}
{"id": "C102", "title": "Keys written with OpenSSL can be read back", "statement": "The texts of keys written by the OpenSSL implementation are read by the mbedTLS implementation as the same key, and TdpInverse::deserialize reads back what TdpInverse::serialize wrote.", "quantifier": "all keys", "why_tests_cant": "All key sizes; the format differs from that of the other implementation.", "anchors": ["src/tdp_impl/tdp_impl_openssl.cpp:143-181", "src/tdp_impl/tdp_impl_openssl.cpp:440-491", "src/tdp.cpp:278-329"]}
{"id": "C103", "title": "With OpenSSL, invalid inputs are refused", "statement": "With the OpenSSL implementation, strings that are not 256 bytes, messages not below the modulus and keys with another size of modulus make the calls throw; sample returns a message below the modulus or throws.", "quantifier": "all keys, strings, arrays", "why_tests_cant": "All sizes of strings and moduli.", "anchors": ["src/tdp_impl/tdp_impl_openssl.cpp:183-313", "src/tdp_impl/tdp_impl_openssl.cpp:494-611"]}
{"id": "C104", "title": "With OpenSSL, copies and assignments give the source", "statement": "With the OpenSSL implementation, a copied or assigned object evaluates the same permutation and powers as its source.", "quantifier": "all keys and pools", "why_tests_cant": "All pairs of objects.", "anchors": ["src/tdp_impl/tdp_impl_openssl.cpp:100-112", "src/tdp_impl/tdp_impl_openssl.cpp:634-665"]}
{"id": "C105", "title": "The inner loop of the multiplication is right in every variant", "statement": "mpi_mul_hlp(i, s, d, b), compiled with the x86-64 assembly, with 128-bit products or with half limbs, adds b times the i limbs at s to the number at d, carries included, and writes nothing outside of d. It needs one limb more at d than at s.", "quantifier": "all lengths, limbs, factors, addresses, contents of the registers", "why_tests_cant": "Only one variant is compiled on a given machine; carries through the unrolled blocks and flags of the processor depend on all of the 64-bit inputs.", "anchors": ["src/mbedtls/bn_mul.h:161-185", "src/mbedtls/bn_mul.h:838-883", "src/mbedtls/bignum.c:1038-1108", "src/mbedtls/config.h:56"]}
{"id": "C106", "title": "Dividing two limbs by one works without 128-bit numbers", "statement": "Without a 128-bit type, mbedtls_int_div_int(u1, u0, d) returns the quotient of u1 2^64 + u0 by d for all u1 < d, as the variant with the 128-bit type does.", "quantifier": "all triples of limbs", "why_tests_cant": "2^192 inputs, and this variant is not compiled on common machines.", "anchors": ["src/mbedtls/bignum.c:1167-1257", "src/mbedtls/bignum.c:1292-1318"]}
{"id": "C107", "title": "A text is read as the number it stands for", "statement": "mbedtls_mpi_read_string accepts exactly the texts of digits of the radix, perhaps after a minus sign, and stores the integer they stand for; it answers any other character with MBEDTLS_ERR_MPI_INVALID_CHARACTER and a radix outside 2 to 16 with MBEDTLS_ERR_MPI_BAD_INPUT_DATA.", "quantifier": "all objects, radices, and texts of up to 100000 characters (160000 in radix 16)", "why_tests_cant": "Lengths cross many limbs; fifteen radices, two code paths.", "anchors": ["src/mbedtls/bignum.c:410-497"]}
{"id": "C108", "title": "A number is written as a text that stands for it", "statement": "mbedtls_mpi_write_string writes the sign, the digits and a zero byte, touches nothing else, and sets *olen to their number; into a shorter buffer than it asks for it writes nothing, and a buffer of the size then reported suffices. Reading the text gives the number again. The size reported is the least that works, and *olen is always set (bignum.h:362-367).", "quantifier": "all numbers, radices, buffers", "why_tests_cant": "The size is estimated from the number of bits; an estimate too small by one is an overflow for some numbers only.", "anchors": ["src/mbedtls/bignum.c:499-602", "src/mbedtls/bignum.h:353-371"]}
{"id": "C109", "title": "Reduced scalars are a field under the operators of ZR", "statement": "For scalars between 0 and the order, +, -, *, unary -, power and << return the reduced form of the result of the operation on integers, >> the quotient, / the scalar whose product with the divisor is the dividend (throwing for zero), inverse the inverse; ismember tells the reduced scalars from the others, and == compares residues.", "quantifier": "all odd prime orders, all reduced scalars, all shifts and exponents", "why_tests_cant": "2^254 scalars; the reduction is done by hand, differently in each operator.", "anchors": ["src/ppke/relic_wrapper/relic_api.cpp:28-160", "src/ppke/relic_wrapper/relic_api.cpp:189-230"]}
{"id": "C110", "title": "Scalars however made give reduced results", "statement": "Every constructor of ZR, hashToZR and & give well-formed scalars; the operators return reduced scalars, whatever scalars they are given, and division by zero modulo the order throws.", "quantifier": "all orders, all integers, byte strings, hash functions", "why_tests_cant": "The failing operands are negative numbers, multiples of the order, and a digest equal to the order.", "anchors": ["src/ppke/relic_wrapper/relic_api.cpp:42-183", "src/ppke/relic_wrapper/relic_api.cpp:232-247"]}
{"id": "C111", "title": "Scalars survive being written and read", "statement": "getBytes and writeBytes write exactly RELIC_BN_BYTES bytes from which ZR(bytes, len) reads the same scalar, and bytes read and written again are unchanged.", "quantifier": "all sizes, scalars and byte strings", "why_tests_cant": "2^256 scalars.", "anchors": ["src/ppke/relic_wrapper/relic_api.cpp:68-82", "src/ppke/relic_wrapper/relic_api.cpp:194-199"]}
{"id": "C112", "title": "The hashes to scalars and to points are separated", "statement": "hashToZR, hashToG1 and hashToG2 hash inputs that are different from each other and for different messages, each with its own prefix (relic_api.h:84-87).", "quantifier": "all pairs of messages", "why_tests_cant": "All pairs of byte strings; equal inputs give results in different groups, which no test compares.", "anchors": ["src/ppke/relic_wrapper/relic_api.h:84-87", "src/ppke/relic_wrapper/relic_api.cpp:162-183", "src/ppke/relic_wrapper/relic_api.cpp:324-338", "src/ppke/relic_wrapper/relic_api.cpp:440-455"]}
{"id": "C113", "title": "Printing an element writes its bytes", "statement": "operator<< of G1, G2 and GT writes 0x, the bytes of the element in hexadecimal, and a newline; it leaves the format of the stream as it was and reads nothing but the bytes.", "quantifier": "all elements, all formats of the stream", "why_tests_cant": "Reading outside of a vector is not noticed by a test that does not look at the text.", "anchors": ["src/ppke/relic_wrapper/relic_api.cpp:373-389", "src/ppke/relic_wrapper/relic_api.cpp:492-508", "src/ppke/relic_wrapper/relic_api.cpp:635-651"]}
{"id": "C114", "title": "The functions of PairingGroup on int are exact", "statement": "add, sub, mul and div of two int return the result when it is an int, div by zero throws RelicDividByZero, exp with an int exponent is the power; nothing else happens.", "quantifier": "all pairs of int, all elements", "why_tests_cant": "2^64 pairs.", "anchors": ["src/ppke/relic_wrapper/relic_api.cpp:548-562", "src/ppke/relic_wrapper/relic_api.cpp:846-869", "src/ppke/relic_wrapper/relic_api.cpp:909-950", "src/ppke/relic_wrapper/relic_api.cpp:42-55"]}
{"id": "C115", "title": "RELIC is initialised while a handle is alive", "statement": "As long as a relicResourceHandle is alive RELIC is initialised with its curve, and once none is alive it is not; a constructor that throws changes nothing.", "quantifier": "all sequences of constructions and destructions, all answers of RELIC", "why_tests_cant": "All interleavings of lifetimes; failures of RELIC cannot be provoked.", "anchors": ["src/ppke/relic_wrapper/relic_api.cpp:16-26", "src/ppke/relic_wrapper/relic_api.cpp:653-682"]}
{"id": "C116", "title": "What init_crypto_lib acquires, cleanup_crypto_lib releases", "statement": "After init_crypto_lib RELIC, the locks of OpenSSL and the misuse handler are in place; cleanup_crypto_lib releases everything, whatever calls came before; an init that throws keeps nothing; the locking callback never runs without its mutexes.", "quantifier": "all sequences of calls, all answers of malloc, RELIC, libsodium, with and without OpenSSL", "why_tests_cant": "All sequences of calls; failures of the libraries cannot be provoked.", "anchors": ["src/utils.cpp:50-60", "src/utils.cpp:148-234"]}
{"id": "C117", "title": "Interpolation in the exponent works for any number of points", "statement": "LagrangeInterpInExponent, given distinct points and the powers of a generator by the values of a polynomial with at most as many coefficients, returns the power by the value at the point asked for; with two equal points it throws.", "quantifier": "all prime orders, numbers of points, points, polynomials, groups", "why_tests_cant": "Sums and products modulo a 254-bit prime; the library itself only uses two points.", "anchors": ["src/ppke/util.hpp:12-63"]}
{"id": "C118", "title": "aez.c with authentication bytes is the authenticated encryption of AEZ v4.1", "statement": "For a nonce of at most 16 bytes and an authenticator of at most 16 bytes, aez_encrypt gives the ciphertext of the scheme for every message; aez_decrypt accepts exactly the ciphertexts of messages and gives the message back; both stay inside of the buffers of the caller.", "quantifier": "all AES rounds, keys, nonces, lengths of the authenticator, messages and ciphertexts up to 2^32-1 bytes", "why_tests_cant": "prp.cpp uses no authenticator, so no test reaches this code; forgeries are found by analysis only.", "anchors": ["src/aez/aez.c:300-333", "src/aez/aez.c:610-698", "src/aez/aez.c:702-870"]}
{"id": "C119", "title": "The ARM path of aez.c computes the same as the AES-NI path", "statement": "Compiled for ARM (NEON and the AES instructions), aez_setup, aez_encrypt and aez_decrypt give the same context, the same ciphertext and the same verdict as compiled for AES-NI, so that data can be exchanged between machines; without authenticator both are AEZ v4.1.", "quantifier": "all AES rounds that read a register, keys of any length, nonces, authenticators, messages", "why_tests_cant": "No machine has both paths; test vectors cover a few lengths and keys only.", "anchors": ["src/aez/aez.c:132-219", "src/aez/aez.c:226-872"]}
{"id": "C120", "title": "Prp works in place", "statement": "Prp::encrypt and Prp::decrypt called with pointers write to the destination the encryption (decryption) of what the source held before the call and change no other byte, also if the destination is the source; encrypting and then decrypting in place restores the memory.", "quantifier": "all keys, memories, lengths up to 2^32-1, positions of source and destination", "why_tests_cant": "The tests use separate buffers; with unrolled loops that store even blocks first, whether a load comes too late depends on the position of the block in its group.", "anchors": ["src/prp.cpp:168-199", "src/prp.cpp:229-263", "src/aez/aez.c:337-457", "src/aez/aez.c:461-606", "src/aez/aez.c:610-819"]}
{"id": "C121", "title": "ASN.1 values are written and read as in DER", "statement": "mbedtls_asn1_write_bool, _int, _printable_string, _ia5_string, _octet_string, _bitstring and _algorithm_identifier write the encoding of X.690 in front of the given position, or report that the buffer is too small; the readers give back the value that was written, a sequence gives its values in order or reports that an allocation failed, and on any data they return an error or a result within the data.", "quantifier": "all values, buffers, positions, data to be parsed, all patterns of failing allocations", "why_tests_cant": "The project's tests only go through RSA keys, which need none of these functions.", "anchors": ["src/mbedtls/asn1parse.c:127-144", "src/mbedtls/asn1parse.c:189-353", "src/mbedtls/asn1write.c:196-322"]}
{"id": "C122", "title": "Big numbers own their memory", "statement": "After any calls of mbedtls_mpi_grow, _shrink, _copy, _swap, _lset, _free and assignments of limbs, on any number of objects and whichever allocations fail, nothing undefined has happened, every block belongs to exactly one object, every released block had been wiped, and after freeing all objects no block is left.", "quantifier": "all sequences of calls, numbers of objects, patterns of failing allocations", "why_tests_cant": "Leaks, double frees and left-over secrets appear only for particular sequences with failing allocations; the contents of freed memory cannot be read by a test.", "anchors": ["src/mbedtls/bignum.c:63-65", "src/mbedtls/bignum.c:83-275"]}
{"id": "C123", "title": "Big-number values survive memory management", "statement": "After any such calls, one more call has the effect on the values that its documentation says, and leaves all other objects' values unchanged; if an allocation fails, no value changes.", "quantifier": "all sequences of calls, numbers of objects, patterns of failing allocations", "why_tests_cant": "As above; the combination of a failing allocation with particular values is not reached by tests.", "anchors": ["src/mbedtls/bignum.c:115-275"]}
{"id": "C124", "title": "The buffers of PEM texts are released, and wiped", "statement": "Reading a PEM text and freeing the context, or writing a PEM text, leaves no block behind, whatever the text is and whichever allocation fails; what the released blocks held (the decoded private key, its base64 text) has been wiped before.", "quantifier": "all texts, headers, keys, buffers, heaps, patterns of failing allocations", "why_tests_cant": "The contents of freed memory cannot be read by a test.", "anchors": ["src/mbedtls/pem.c:48-183", "src/mbedtls/pkparse.c:360-420"]}
{"id": "C125", "title": "Lists of named ASN.1 data", "statement": "After any calls of mbedtls_asn1_store_named_data, whichever allocations fail: a call returns NULL exactly if an allocation failed, and then leaves the list unchanged; else the name has the stored value and every other name keeps its own; mbedtls_asn1_find_named_data finds exactly the names stored; there are no other blocks than those of the list, and mbedtls_asn1_free_named_data_list releases all of them.", "quantifier": "all sequences of calls, names, values, patterns of failing allocations", "why_tests_cant": "No test of the project calls these functions; failing allocations in the middle of a call are not reached by tests.", "anchors": ["src/mbedtls/asn1parse.c:353-391", "src/mbedtls/asn1write.c:339-397"]}
{"id": "C126", "title": "Random bytes, arrays and strings", "statement": "random_bytes, random_string and mbedTLS_rng_wrap fill exactly the requested range, every element of an array, or a string of the requested length with the next bytes of the system's source; over any sequence of requests no byte of the source is given out twice or left out; no memory is left behind, also when an allocation fails, and temporary copies are wiped.", "quantifier": "all sources, buffers, positions, lengths, element sizes, sequences of requests, patterns of failing allocations", "why_tests_cant": "Output is random: a test sees neither which bytes came from the source nor what the released temporary buffer holds.", "anchors": ["src/random.cpp:29-32", "src/include/sse/crypto/random.hpp:44-110"]}
{"id": "C127", "title": "Trapdoor permutation objects release and wipe their memory", "statement": "Whatever trapdoor permutation objects are constructed (from keys, generated, as copies), assigned, used and destroyed, and whichever allocations fail: nothing is read or released that is not allocated, every limb array belongs to one object, only zeros are released, an object that does not exist or whose constructor has thrown holds no memory, and nothing is allocated once all objects are destroyed.", "quantifier": "all programs over any number of objects, all keys, all patterns of failing allocations", "why_tests_cant": "Leaks in constructors that throw need allocations failing at a particular moment; released memory cannot be read by a test.", "anchors": ["src/tdp_impl/tdp_impl_mbedtls.cpp:48-126", "src/tdp_impl/tdp_impl_mbedtls.cpp:354-448", "src/mbedtls/rsa.c:562-610", "src/mbedtls/rsa_io.c:37-91"]}
{"id": "C128", "title": "Pools of trapdoor permutations release and wipe their memory", "statement": "Whatever pools are constructed, copied, assigned, used and destroyed, and whichever allocations fail: nothing is read or released that is not allocated and initialised, every block belongs to one object, only zeros are released, and nothing is allocated once all pools are destroyed.", "quantifier": "all programs over any number of pools of any sizes, all keys, all patterns of failing allocations", "why_tests_cant": "The failing paths need keys for which a power of the exponent exceeds the modulus, or allocations failing at a particular moment in an assignment.", "anchors": ["src/tdp_impl/tdp_impl_mbedtls.cpp:715-808"]}
{"id": "C129", "title": "Functions on messages release and wipe their temporary numbers", "statement": "Whatever sequence of eval, sample, generate, eval_pool and invert_mult is called on a key, and whatever the big number functions do and whichever of them fail: nothing is read or released that is not allocated, only zeros are released, the numbers of the key are unchanged except for the cached ones, and afterwards all memory belongs to the key.", "quantifier": "all keys, all sequences of calls, all exponents, all patterns of failing allocations and failing functions", "why_tests_cant": "Released memory cannot be read by a test, and no test makes an allocation fail inside these functions.", "anchors": ["src/tdp_impl/tdp_impl_mbedtls.cpp:170-323", "src/tdp_impl/tdp_impl_mbedtls.cpp:518-697", "src/tdp_impl/tdp_impl_mbedtls.cpp:810-878"]}
{"id": "C130", "title": "The locks given to OpenSSL", "statement": "Between init_crypto_lib and cleanup_crypto_lib, however the threads of a program take turns, the callbacks given to OpenSSL keep any two threads from being between locking and unlocking the same (static or dynamic) lock, a thread waits only for a lock that some thread has locked, no mutex is used that is not initialised, and after cleaning up no mutex and no memory remains.", "quantifier": "all numbers of locks and threads, all interleavings, all sequences of initialisations, dynamic locks and cleanups", "why_tests_cant": "The project's tests are single-threaded (the code says so); races depend on the interleaving.", "anchors": ["src/utils.cpp:40-203"]}
{"id": "C131", "title": "Objects and functions of the OpenSSL implementation release what they allocate", "statement": "Whatever public, private and pool objects are made from texts or generated, copied, assigned, used and destroyed with RSA_IMPL_OPENSSL, and whichever readings, generations and writings fail: nothing is used or released twice, an operation throws exactly when something it checks fails, the structures, numbers, contexts, buffers and arrays in use are exactly those of the living objects, none is shared between objects, and secrets are wiped before memory is released.", "quantifier": "all programs over any number of objects, all patterns of failures of reading, generating and writing, all pool sizes", "why_tests_cant": "A leak or a double release shows only under a memory checker, on paths (a key of another algorithm, a failing writer, a string without memory) that the tests do not reach; released memory cannot be read by a test.", "anchors": ["src/tdp_impl/tdp_impl_openssl.cpp:67-740"]}
{"id": "C132", "title": "Reading a key is safe whichever allocations fail", "statement": "For every text and whichever allocations fail, the constructors from a public and a private text (up to their check of the key) hold exactly the numbers of the key that the text stands for, or throw; they throw only if the text is not a key or an allocation fails; nothing is released twice; what was allocated before stays allocated, and afterwards nothing else is allocated but the numbers of the object, and nothing at all after an exception.", "quantifier": "all texts of less than 2^62 bytes, all patterns of failing allocations, all states of the heap", "why_tests_cant": "A test cannot make each allocation of each path fail in turn for every kind of malformed text.", "anchors": ["src/tdp_impl/tdp_impl_mbedtls.cpp:71-90", "src/tdp_impl/tdp_impl_mbedtls.cpp:395-423", "src/mbedtls/pkparse.c:55-509", "src/mbedtls/pk.c:56-102", "src/mbedtls/rsa_io.c:36-90", "src/mbedtls/rsa.c:562-610"]}
{"id": "C133", "title": "A parser that returns 0 has read a key", "statement": "Whichever allocations fail: if mbedtls_pk_parse_key, mbedtls_rsa_parse_key or mbedtls_rsa_parse_public_key returns 0, the text is a key and the context holds its numbers; otherwise the context holds no memory.", "quantifier": "all texts of less than 2^63 bytes, all patterns of failing allocations", "why_tests_cant": "The wrong return codes occur only when one particular allocation fails.", "anchors": ["src/mbedtls/pkparse.c:357-509", "src/mbedtls/rsa_io.c:36-90"]}
{"id": "C134", "title": "Scalars are printed as decimal numerals and read back", "statement": "A scalar put on a stream is written as its decimal numeral: a minus sign if it is negative and its digits without leading zeros. Constructing a scalar from a text gives the number that the text stands for; what was printed is read back as the same scalar; texts that are no numerals are not accepted.", "quantifier": "all scalars, all texts of less than 2^31 characters", "why_tests_cant": "Tests print a few scalars and compare what is seen on a terminal, where a zero character is invisible.", "anchors": ["src/ppke/relic_wrapper/relic_api.cpp:57-66", "src/ppke/relic_wrapper/relic_api.cpp:201-211"]}
{"id": "C135", "title": "Public and private keys are accepted as a pair exactly if they belong together", "statement": "mbedtls_rsa_check_pub_priv returns 0 exactly if the public key is acceptable, the numbers of the private key fit together, and both have the same modulus and exponent; otherwise it returns MBEDTLS_ERR_RSA_KEY_CHECK_FAILED and nothing else. Raising to the exponents of an accepted pair, one after the other, gives back every message.", "quantifier": "all pairs of contexts that hold keys, all messages below the modulus", "why_tests_cant": "Tests use a matching pair and perhaps one that does not match.", "anchors": ["src/mbedtls/rsa.c:255-271", "src/mbedtls/pk_wrap.c:53-62"]}
{"id": "C136", "title": "Keys are written from the limbs and read back", "statement": "For an object whose numbers are stored as limbs, public_key() and private_key() return the PEM text of its key, whatever the buffers contained before, and an object constructed from the text holds the same key; serialize writes serialized_size() bytes, and deserialize, given them and anything behind them, makes an object with the same key and says how many bytes it has read.", "quantifier": "all keys with a modulus below 2^2048, all representations of their numbers by limbs, all contents of the buffers, all trailing bytes", "why_tests_cant": "A test writes a few keys; a leading zero limb, a number with its top bit set or a buffer with old contents may never occur.", "anchors": ["src/mbedtls/asn1write.c:132-166", "src/mbedtls/rsa_io.c:100-253", "src/tdp_impl/tdp_impl_mbedtls.cpp:127-147", "src/tdp_impl/tdp_impl_mbedtls.cpp:450-467", "src/tdp.cpp:288-329"]}
{"id": "C137", "title": "Prp works in place on ARM, and both processors exchange data in place", "statement": "With a key of 48 bytes, Prp on ARM writes the AEZ v4.1 cipher text of what the source region contained before the call to the destination region and changes no other byte, if the regions are the same or have no common byte; decrypt undoes this. What is encrypted in place on one of ARM and AES-NI is decrypted in place on both, and for all other regions, overlapping ones included, both do the same.", "quantifier": "all keys of 48 bytes, memories, positions and lengths up to UINT_MAX, all earlier contents of the context, any AES round", "why_tests_cant": "Tests run on one processor, with separate buffers.", "anchors": ["src/aez/aez.c:132-219", "src/aez/aez.c:337-870", "src/prp.cpp:84-105", "src/prp.cpp:168-263"]}
{"id": "C138", "title": "Errors of OpenSSL are reported", "statement": "If a call of OpenSSL fails in a function of the OpenSSL implementation of the trapdoor permutation, the function throws an exception; it never returns a wrong result. If no call fails, the result is the right one. An assignment that throws leaves the object as it was.", "quantifier": "all choices of failing calls, all numbers that failing calls leave behind, all keys, messages, orders and pool sizes", "why_tests_cant": "Calls of OpenSSL do not fail in tests, and the branches for errors are excluded from coverage.", "anchors": ["src/tdp_impl/tdp_impl_openssl.cpp:100-130", "src/tdp_impl/tdp_impl_openssl.cpp:143-313", "src/tdp_impl/tdp_impl_openssl.cpp:340-598", "src/tdp_impl/tdp_impl_openssl.cpp:614-707"]}
{"id": "C139", "title": "Const functions of one object may be called from several threads", "statement": "When several threads call const functions of the same Prg, Prf, HMac, Cipher, Prp or Wrapper objects (eval, derive, encrypt, decrypt, wrap, serialize and so on), no call reads memory that is protected, none throws because another thread has locked the key, no two threads access the flag of a key at the same time with one of them storing, and when all calls have returned the flag of every key says how its memory is protected.", "quantifier": "any number of threads, objects and calls, all schedules, with and without memory locking", "why_tests_cant": "Schedules are chosen by the operating system; tests of the library use one thread.", "anchors": ["src/include/sse/crypto/key.hpp:284-321", "src/include/sse/crypto/key.hpp:354-400", "src/cipher.cpp:72-85", "src/prg.cpp:137-138", "src/prp.cpp:192-199", "src/include/sse/crypto/hmac.hpp:205-248"]}
{"id": "C140", "title": "Calls of invert from several threads return the right numbers (mbedTLS)", "statement": "When several threads call invert, which is const, on the same TdpInverse object of the mbedTLS implementation, every call returns the number whose power is its input, or reports an input that is not below the modulus.", "quantifier": "all keys, any number of threads and calls, all inputs and schedules, all generators that find an invertible number", "why_tests_cant": "A wrong result needs another thread between two of a few steps of a call that takes milliseconds; tests use one thread.", "anchors": ["src/mbedtls/rsa.c:322-354", "src/mbedtls/rsa.c:380-557", "src/tdp_impl/tdp_impl_mbedtls.cpp:470-513", "src/mbedtls/rsa.h:85-97"]}
{"id": "C141", "title": "Calls of eval from several threads use the right constant and lose no memory (mbedTLS)", "statement": "When several threads call eval, which is const, on the same new object of the mbedTLS implementation, every call computes with the complete number R^2 modulo N, no memory is used after its release, and once the calls have returned the destructor releases everything they allocated.", "quantifier": "all moduli, any number of threads and calls, all schedules", "why_tests_cant": "The cache is filled once in the life of an object; another thread must come between its test and its filling.", "anchors": ["src/mbedtls/bignum.c:1547-1750", "src/tdp_impl/tdp_impl_mbedtls.cpp:170-229", "src/mbedtls/rsa.c:593-603"]}
{"id": "C142", "title": "Scalars and group elements behave as variables", "statement": "Whatever objects of ZR, G1, G2 and GT are constructed, copied, moved, assigned (also to themselves) and destroyed, every object holds the value last given to it; constructors throw when RELIC is not initialised and then change nothing; a moved or destroyed object leaves no secret in memory; this holds for every way to allocate that RELIC offers.", "quantifier": "all classes, values and sequences of operations, all ways to allocate", "why_tests_cant": "Values left in the memory of destroyed objects cannot be observed by portable code; tests use one configuration of RELIC.", "anchors": ["src/ppke/relic_wrapper/relic_api.h:102-196", "src/ppke/relic_wrapper/relic_api.h:320-605", "src/ppke/relic_wrapper/common.h:72-101"]}
{"id": "C143", "title": "Temporary buffers are wiped and released", "statement": "When a function of Prg, Cipher, HMac or Prf returns or throws, the arrays and vectors it used while computing have been given back, and hold zeros: neither keys, nor plaintexts, nor outputs are left in memory that other code may get.", "quantifier": "all keys, inputs, sizes, contents of uninitialised memory, and failures of memory protections", "why_tests_cant": "Memory that has been given back cannot be inspected by a test without undefined behaviour, and failing protections cannot be provoked.", "anchors": ["src/prg.cpp:44-199", "src/cipher.cpp:61-191", "src/include/sse/crypto/hmac.hpp:178-249", "src/include/sse/crypto/prf.hpp:260-305"]}
{"id": "C144", "title": "Wrapping and unwrapping throw when secure memory is exhausted", "statement": "When the secure buffer that wrap and unwrap need cannot be allocated, they throw an exception and leave the object and the representation unchanged. However many representations a program unwraps, genuine or forged, a genuine one is unwrapped as long as there is memory for one buffer.", "quantifier": "all classes, objects, keys, sequences of representations, amounts of secure memory", "why_tests_cant": "Exhausting secure memory takes more forged representations than a test sends, and then ends the test program.", "anchors": ["src/include/sse/crypto/wrapper.hpp:190-327"]}
{"id": "C145", "title": "Constrained keys behave as variables that are moved", "statement": "Whatever constrained keys of whatever trees a program makes, constrains further, moves, assigns (also to itself), destroys and evaluates: every object evaluates exactly the range it was last given, and only keys of subtrees of this range are in its memory; an object whose value was moved away holds no keys and refuses every leaf with out_of_range.", "quantifier": "all programs, trees of all heights, ranges and leaves", "why_tests_cant": "Tests move each object at most once, and never look at the memory of moved objects.", "anchors": ["src/include/sse/crypto/rcprf.hpp:1109-1246", "src/include/sse/crypto/rcprf.hpp:1378-1472"]}
{"id": "C146", "title": "Callbacks of range evaluations are called in turn", "statement": "eval_range, of a full or a constrained key, calls one callback with every leaf of the range and its value, in increasing order; every call finds what the calls before have left, in the callback and in the variables of the caller; when a call throws, no other call is made, the exception reaches the caller, and the key is unchanged and protected again.", "quantifier": "all callbacks, trees, ranges and constrained keys", "why_tests_cant": "The callbacks of the tests never throw and keep their state outside of the function object.", "anchors": ["src/include/sse/crypto/rcprf.hpp:399-479", "src/include/sse/crypto/rcprf.hpp:848-877", "src/include/sse/crypto/rcprf.hpp:1045-1065", "src/include/sse/crypto/rcprf.hpp:1397-1431", "src/include/sse/crypto/rcprf.hpp:1949-1965"]}
{"id": "C147", "title": "Objects with keys behave as variables that are moved", "statement": "Whatever Prf objects a program makes from keys, moves, assigns (also to themselves), evaluates, derives new objects from, serializes and destroys: every evaluation returns the HMAC-based value for the key that the object was last given, and the memory of an object holds this key, protected, or nothing. A Prg, HMac, Prf, Cipher, RCPrf or Wrapper object whose key was moved away throws, and gives no output.", "quantifier": "all programs, keys, messages, output lengths up to 65472 and builds", "why_tests_cant": "Tests move each object once and never use an object after its value was moved; the builds without memory locking run the same tests.", "anchors": ["src/include/sse/crypto/prf.hpp:100-117", "src/include/sse/crypto/hmac.hpp:105-116", "src/include/sse/crypto/hmac.hpp:178-249", "src/include/sse/crypto/key.hpp:168-222", "src/include/sse/crypto/key.hpp:357-382", "src/cipher.cpp:61-172", "src/prg.cpp:107-139"]}
{"id": "C148", "title": "Printing a SetHash writes its value", "statement": "operator<< of SetHash writes the 32 bytes as 64 hexadecimal digits, so that different values have different texts, whatever the format of the stream; the format of the stream (flags and fill character) is as before.", "quantifier": "all values, all formats of the stream", "why_tests_cant": "The function is excluded from the coverage and never tested; streams with other formats are not imagined.", "anchors": ["src/set_hash.cpp:78-93"]}
