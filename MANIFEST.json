{
 "claims": [
  {
   "property": "C01",
   "status": "proved",
   "theorems": [
    "C01_key_ownership"
   ],
   "note": "Both build settings, any number of objects; the no-leak part assumes that mprotect does not fail and callbacks do not throw (see C57)."
  },
  {
   "property": "C02",
   "status": "proved",
   "theorems": [
    "C02_key_values",
    "C02_key_bytes_fixed",
    "C02_key_reads_owned_bytes",
    "C02_key_emptied"
   ],
   "note": "Refinement of the heap machine by plain values, for all programs; without memory locking data() on an emptied key returns a null pointer instead of throwing (visible in C02_key_emptied)."
  },
  {
   "property": "C03",
   "status": "proved",
   "theorems": [
    "C03_lock_flag_is_protection",
    "C03_lock_unlock",
    "C03_reads"
   ],
   "note": ""
  },
  {
   "property": "C04",
   "status": "proved",
   "theorems": [
    "C04_key_from_buffer",
    "C04_key_from_null"
   ],
   "note": ""
  },
  {
   "property": "C05",
   "status": "partial",
   "theorems": [
    "C05_key_default_random_partial",
    "C05_key_default_random_refuted"
   ],
   "note": "Holds with ENABLE_MEMORY_LOCK; without it the random fill is compiled out (refuted theorem with witness)."
  },
  {
   "property": "C06",
   "status": "proved",
   "theorems": [
    "C06_prg_keystream",
    "C06_prg_stream_is_chacha20"
   ],
   "note": "ChaCha20 block function is a parameter; all size_t offsets, lengths up to 2^63 (maximal object size)."
  },
  {
   "property": "C07",
   "status": "proved",
   "theorems": [
    "C07_prg_compose"
   ],
   "note": ""
  },
  {
   "property": "C08",
   "status": "proved",
   "theorems": [
    "C08_prg_in_bounds"
   ],
   "note": "All size_t offsets including offset+len wrap-around; lengths up to 2^63 (maximal object size)."
  },
  {
   "property": "C09",
   "status": "proved",
   "theorems": [
    "C09_derive_key",
    "C09_static_derive_key",
    "C09_derive_keys",
    "C09_static_derive_keys",
    "C09_no_overflow"
   ],
   "note": ""
  },
  {
   "property": "C10",
   "status": "partial",
   "theorems": [
    "C10_prg_key_locked_partial",
    "C10_prg_key_locked_refuted"
   ],
   "note": "Holds on every path except a null output pointer: the exception then leaves the key unlocked (refuted theorem)."
  },
  {
   "property": "C11",
   "status": "partial",
   "theorems": [
    "C11_static_derive_consumes",
    "C11_overloads_agree_partial",
    "C11_overloads_agree_refuted",
    "C11_static_derive_keys_consumes_refuted"
   ],
   "note": "Consumption and rejection of empty keys proved; the vector-based overload rejects length 0 although the others accept it, and derive_keys with 0 keys does not consume the key (refuted theorems)."
  },
  {
   "property": "C12",
   "status": "proved",
   "theorems": [
    "C12_hmac_is_rfc2104",
    "C12_hmac_overloads",
    "C12_hmac_bad_arguments"
   ],
   "note": "Any hash function with fixed digest size; keys of at most one block."
  },
  {
   "property": "C13",
   "status": "partial",
   "theorems": [
    "C13_hmac_key_sizes_partial",
    "C13_hmac_long_keys_are_cut",
    "C13_hmac_very_long_keys_overflow",
    "C13_hmac_every_key_size_refuted"
   ],
   "note": "Proved for keys up to one block. Longer keys compile but are cut to one block or overflow the buffers (refuted theorem, plus theorems for all long keys)."
  },
  {
   "property": "C14",
   "status": "proved",
   "theorems": [
    "C14_prf_counter_mode",
    "C14_prf_overloads",
    "C14_prf_null"
   ],
   "note": "Output lengths up to 65472 (larger ones never terminate, see C15)."
  },
  {
   "property": "C15",
   "status": "partial",
   "theorems": [
    "C15_prf_blocks_distinct_partial",
    "C15_prf_blocks_repeat",
    "C15_prf_diverges",
    "C15_prf_terminates_refuted"
   ],
   "note": "Proved up to 16384 bytes; false beyond: the counter byte wraps, and above 65472 bytes the loop does not end (refuted theorem)."
  },
  {
   "property": "C16",
   "status": "proved",
   "theorems": [
    "C16_hash_prefix",
    "C16_hash_full",
    "C16_hash_rejects"
   ],
   "note": "BLAKE2b is a parameter."
  },
  {
   "property": "C17",
   "status": "proved",
   "theorems": [
    "C17_cipher_roundtrip_strings",
    "C17_cipher_encrypt_strings",
    "C17_cipher_encrypt_buffers",
    "C17_cipher_roundtrip_buffers",
    "C17_cipher_longer_messages",
    "C17_aead_laws_satisfiable"
   ],
   "note": "BLAKE2b key derivation and AEAD are parameters; the AEAD laws are proved for every stream-cipher-then-MAC construction. Messages up to the libsodium limit (above it libsodium aborts)."
  },
  {
   "property": "C18",
   "status": "proved",
   "theorems": [
    "C18_length_functions",
    "C18_encrypt_length",
    "C18_decrypt_length",
    "C18_short_inputs"
   ],
   "note": ""
  },
  {
   "property": "C19",
   "status": "proved",
   "theorems": [
    "C19_cipher_authenticates",
    "C19_cipher_authenticates_strings"
   ],
   "note": "That failing decryption leaves zeros is the documented behaviour of libsodium, part of the model."
  },
  {
   "property": "C20",
   "status": "proved",
   "theorems": [
    "C20_decrypt_inverts_encrypt",
    "C20_encrypt_inverts_decrypt",
    "C20_strings_decrypt_inverts_encrypt",
    "C20_strings_encrypt_inverts_decrypt",
    "C20_too_long",
    "C20_aes_round"
   ],
   "note": "For any round function from blocks to blocks; the AES round of FIPS 197 is an instance."
  },
  {
   "property": "C21",
   "status": "proved",
   "theorems": [
    "C21_lengths_and_bounds",
    "C21_output_is_a_function",
    "C21_strings"
   ],
   "note": ""
  },
  {
   "property": "C22",
   "status": "proved",
   "theorems": [
    "C22_encrypt_32_64",
    "C22_decrypt_32_64",
    "C22_functions"
   ],
   "note": ""
  },
  {
   "property": "C23",
   "status": "partial",
   "theorems": [
    "C23_context_locked_refuted",
    "C23_context_locked_partial"
   ],
   "note": "Refuted: encrypt leaves the context unlocked. The other members leave it protected."
  },
  {
   "property": "C24",
   "status": "proved",
   "theorems": [
    "C24_eval_follows_the_path"
   ],
   "note": "Heights 2..63; output sizes 1..65535."
  },
  {
   "property": "C25",
   "status": "partial",
   "theorems": [
    "C25_rejects_outside_leaves_partial",
    "C25_rejects_outside_ranges_partial",
    "C25_outside_leaves_alias",
    "C25_rejects_outside_leaves_refuted",
    "C25_rejects_outside_ranges_refuted"
   ],
   "note": "False as stated: leaves of [2^(h-1), 2^h-1] are accepted and alias (refuted). Rejection proved from 2^h on."
  },
  {
   "property": "C26",
   "status": "partial",
   "theorems": [
    "C26_heights_partial",
    "C26_height_64_refuted",
    "C26_height_1_refuted",
    "C26_height_1_range_diverges"
   ],
   "note": "False for heights 1 and 64 (refuted: undefined behaviour, assertion failure or infinite recursion). Proved for 2..63."
  },
  {
   "property": "C27",
   "status": "proved",
   "theorems": [
    "C27_range_is_pointwise",
    "C27_reversed_range"
   ],
   "note": ""
  },
  {
   "property": "C28",
   "status": "proved",
   "theorems": [
    "C28_constrained_agrees"
   ],
   "note": ""
  },
  {
   "property": "C29",
   "status": "proved",
   "theorems": [
    "C29_refuses_outside"
   ],
   "note": ""
  },
  {
   "property": "C30",
   "status": "proved",
   "theorems": [
    "C30_elements_are_subtrees",
    "C30_elements_inside"
   ],
   "note": ""
  },
  {
   "property": "C31",
   "status": "proved",
   "theorems": [
    "C31_chains"
   ],
   "note": "The result of a chain is the very object obtained by constraining directly."
  },
  {
   "property": "C32",
   "status": "partial",
   "theorems": [
    "C32_full_key_invalid_constraints",
    "C32_constrained_key_outside_partial",
    "C32_reversed_range_refuted",
    "C32_reversed_range_element_refuted"
   ],
   "note": "Full keys: proved. Constrained keys accept some reversed ranges (refuted); ranges outside of the key are rejected."
  },
  {
   "property": "C33",
   "status": "partial",
   "theorems": [
    "C33_rcprf_roundtrip",
    "C33_constrained_roundtrip_partial",
    "C33_constrained_roundtrip_refuted"
   ],
   "note": "RCPrf and every constrained key of a non-empty range: proved. An empty constrained key is serialized but not deserialized (refuted)."
  },
  {
   "property": "C34",
   "status": "proved",
   "theorems": [
    "C34_unwrap_inverts_wrap",
    "C34_cipher",
    "C34_prf",
    "C34_prg",
    "C34_rcprf",
    "C34_constrained_rcprf",
    "C34_wrapper_keys",
    "C34_prp",
    "C34_tdp_inverse"
   ],
   "note": "For Cipher, Prf, Prg, Prp, RCPrf, ConstrainedRCPrf and TdpInverse (keys of at most 2048 bits, private exponent below the modulus)."
  },
  {
   "property": "C35",
   "status": "proved",
   "theorems": [
    "C35_unwrap_authenticates",
    "C35_other_representations_rejected"
   ],
   "note": ""
  },
  {
   "property": "C36",
   "status": "partial",
   "theorems": [
    "C36_header_prf_rcprf_injective",
    "C36_two_classes_collide_partial",
    "C36_leaf_unwraps_as_rcprf",
    "C36_no_cross_type_unwrap_refuted",
    "C36_type_bytes_distinct_partial",
    "C36_type_bytes_distinct_tdp_partial"
   ],
   "note": "Refuted: ConstrainedRCPrf and RCPrf share their type byte, and a constrained key of one 11-byte leaf is unwrapped as an RCPrf. For different headers, success for two classes is a collision of tags."
  },
  {
   "property": "C37",
   "status": "proved",
   "theorems": [
    "C37_erased_iff_success"
   ],
   "note": ""
  },
  {
   "property": "C38",
   "status": "proved",
   "theorems": [
    "C38_sethash_multiset"
   ],
   "note": "Ed25519 arithmetic is a parameter with explicit group/encoding laws (satisfied by a toy instance); equal multiplicities imply equal hashes. The converse is collision resistance, not claimed."
  },
  {
   "property": "C39",
   "status": "proved",
   "theorems": [
    "C39_sethash_from_bytes",
    "C39_sethash_data_roundtrip"
   ],
   "note": "Vector constructor and set union are covered by the program semantics of C38."
  },
  {
   "property": "C40",
   "status": "proved",
   "theorems": [
    "C40_strstr_first_occurrence",
    "C40_strstr_confined"
   ],
   "note": "Strings of at most 2^62 bytes."
  },
  {
   "property": "C41",
   "status": "partial",
   "theorems": [
    "C41_invert_eval_partial",
    "C41_eval_invert_partial",
    "C41_string_overloads",
    "C41_failed_blinding_is_kept",
    "C41_any_randomness_refuted"
   ],
   "note": "Proved for every key with prime (or Carmichael) factors, every message and every history of calls in which the random generator yields an invertible number within its 11 attempts. Refuted for a failing random generator: the failed call leaves a blinding pair that makes the next call return 0."
  },
  {
   "property": "C42",
   "status": "proved",
   "theorems": [
    "C42_invert_mult"
   ],
   "note": "For keys with prime (or Carmichael) factors; each inversion with a random generator yielding an invertible number within 11 attempts."
  },
  {
   "property": "C43",
   "status": "partial",
   "theorems": [
    "C43_pool_eval_partial",
    "C43_pool_eval_value",
    "C43_pool_eval_string",
    "C43_large_orders",
    "C43_order_0_refuted",
    "C43_any_exponent_refuted"
   ],
   "note": "Proved for exponent 65537 and orders from 1; refuted for order 0 (out of bounds read) and for other exponents (the pool multiplies by 65537)."
  },
  {
   "property": "C44",
   "status": "partial",
   "theorems": [
    "C44_pool_sizes_partial",
    "C44_large_sizes_refuted",
    "C44_size_1_refuted",
    "C44_size_0",
    "C44_pool_characterised"
   ],
   "note": "Proved for sizes 2..127; refuted for size 1 (write out of bounds) and sizes 128..255 (exception)."
  },
  {
   "property": "C45",
   "status": "proved",
   "theorems": [
    "C45_ranges",
    "C45_sample",
    "C45_generate"
   ],
   "note": ""
  },
  {
   "property": "C46",
   "status": "partial",
   "theorems": [
    "C46_wrong_sizes_partial",
    "C46_other_moduli_partial",
    "C46_invert_mult_short_refuted",
    "C46_invert_mult_long_refuted",
    "C46_eval_short_modulus_refuted",
    "C46_invert_long_modulus_refuted",
    "C46_invert_short_modulus_refuted",
    "C46_sample_long_modulus_refuted"
   ],
   "note": "Proved for strings with 2048-bit moduli (eval, invert, pools) and other moduli with arrays (eval, invert_mult, pools); refuted for invert_mult on strings, eval on strings with a shorter modulus, invert and sample with other moduli."
  },
  {
   "property": "C47",
   "status": "proved",
   "theorems": [
    "C47_public_key",
    "C47_private_key"
   ],
   "note": "For all keys passing the checks with a modulus below 2^2048 and a private exponent below the modulus; allocations succeed."
  },
  {
   "property": "C48",
   "status": "proved",
   "theorems": [
    "C48_parse_private",
    "C48_parse_public",
    "C48_tdp",
    "C48_tdp_inverse",
    "C48_deserialize"
   ],
   "note": "For all byte strings (below 2^62 bytes) and all allocation failures."
  },
  {
   "property": "C49",
   "status": "proved",
   "theorems": [
    "C49_encode_is_base64",
    "C49_encode_length_query",
    "C49_decode_inverts_encode",
    "C49_decode_length_query",
    "C49_round_trip"
   ],
   "note": "mbedtls_base64_encode/decode against an arithmetic RFC 4648 specification; line breaks LF or CR LF with spaces before them"
  },
  {
   "property": "C50",
   "status": "proved",
   "theorems": [
    "C50_decode_in_bounds",
    "C50_decoded_bytes"
   ],
   "note": "No undefined behaviour for any input; size and content of the output exactly characterised"
  },
  {
   "property": "C51",
   "status": "proved",
   "theorems": [
    "C51_pem_write_in_bounds"
   ],
   "note": ""
  },
  {
   "property": "C52",
   "status": "proved",
   "theorems": [
    "C52_deserialize_prefix"
   ],
   "note": ""
  },
  {
   "property": "C53",
   "status": "partial",
   "theorems": [
    "C53_unpunctured_tags_decrypt_partial",
    "C53_encryption_succeeds",
    "C53_null_exponent_refuted"
   ],
   "note": "Proved whenever no point at infinity occurs (the debug assertions hold; for encryption: exactly when the random exponent and beta + h(tag) r_y are not null), with fewer than 2^32 - 1 punctures and tags whose hashes do not collide. Refuted for a null random exponent (probability 2^-254) in release builds."
  },
  {
   "property": "C54",
   "status": "proved",
   "theorems": [
    "C54_false_iff_a_share_carries_the_tag",
    "C54_false_iff_punctured"
   ],
   "note": "Ciphertexts and keys must be readable; also characterises the logic_error on colliding tag hashes."
  },
  {
   "property": "C55",
   "status": "partial",
   "theorems": [
    "C55_reserved_tag_refused_partial",
    "C55_other_tags_accepted",
    "C55_inc_puncture_only_asserts",
    "C55_inc_puncture_refuted"
   ],
   "note": "Proved for encryption and for puncturing key objects; refuted for inc_puncture, which only asserts."
  },
  {
   "property": "C56",
   "status": "partial",
   "theorems": [
    "C56_tags_are_read_back",
    "C56_key_shares_are_read_back_partial",
    "C56_ciphertexts_are_read_back_partial",
    "C56_points_at_infinity_leave_bytes",
    "C56_points_at_infinity_refuted"
   ],
   "note": "Tags: proved in every build. Components: proved when no point is the point at infinity; refuted otherwise in release builds (one byte written, 32 uninitialised bytes left)."
  },
  {
   "property": "C57",
   "status": "partial",
   "theorems": [
    "C57_key_ctor_failure_leak_refuted",
    "C57_failures_partial"
   ],
   "note": "False of the code: a constructor that fails to protect its memory leaks the allocation (refuted theorem). Proved: a failing constructor publishes no object, and which failures leave an allocation behind."
  },
  {
   "property": "C58",
   "status": "proved",
   "theorems": [
    "C58_prg_serialization"
   ],
   "note": ""
  },
  {
   "property": "C59",
   "status": "proved",
   "theorems": [
    "C59_hmac_key_locked",
    "C59_prf_key_locked"
   ],
   "note": ""
  },
  {
   "property": "C60",
   "status": "proved",
   "theorems": [
    "C60_prf_roundtrip",
    "C60_prf_deserialize_short",
    "C60_public_context_injective"
   ],
   "note": ""
  },
  {
   "property": "C61",
   "status": "proved",
   "theorems": [
    "C61_cipher_key_locked",
    "C61_cipher_key_locked_decrypt"
   ],
   "note": ""
  },
  {
   "property": "C62",
   "status": "proved",
   "theorems": [
    "C62_cipher_serialization"
   ],
   "note": ""
  },
  {
   "property": "C63",
   "status": "partial",
   "theorems": [
    "C63_element_range_agrees_partial",
    "C63_element_range_agrees_refuted"
   ],
   "note": "Proved for aligned elements; the constructor accepts unaligned ones, where eval and eval_range differ (refuted)."
  },
  {
   "property": "C64",
   "status": "partial",
   "theorems": [
    "C64_buffer_freed_on_success_only_partial",
    "C64_buffer_freed_refuted"
   ],
   "note": "Freed on success; every failing unwrap leaks it (refuted)."
  },
  {
   "property": "C65",
   "status": "proved",
   "theorems": [
    "C65_roundtrip",
    "C65_short_input"
   ],
   "note": ""
  },
  {
   "property": "C66",
   "status": "proved",
   "theorems": [
    "C66_construction",
    "C66_unavailable",
    "C66_emptied"
   ],
   "note": ""
  },
  {
   "property": "C67",
   "status": "proved",
   "theorems": [
    "C67_key_expansion"
   ],
   "note": ""
  },
  {
   "property": "C68",
   "status": "partial",
   "theorems": [
    "C68_decoder_accepts_only_encodings_refuted",
    "C68_decoder_accepts_partial"
   ],
   "note": "Refuted: incomplete groups are accepted and dropped silently (witness QQQ). Proved: up to 2^32 input bytes exactly the wrapped sequences of digits with at most two padding characters are accepted (2^32 spaces in a line would wrap the counter)"
  },
  {
   "property": "C69",
   "status": "proved",
   "theorems": [
    "C69_generated_keys",
    "C69_generated_keys_consistent"
   ],
   "note": "The prime generator is a list of pairs; primality testing itself is not modelled."
  },
  {
   "property": "C70",
   "status": "partial",
   "theorems": [
    "C70_composite_factors_refuted",
    "C70_accepted_keys_partial"
   ],
   "note": "Proved for prime (or Carmichael) factors; refuted for composite ones, which pass the checks."
  },
  {
   "property": "C71",
   "status": "proved",
   "theorems": [
    "C71_pool_copy"
   ],
   "note": ""
  },
  {
   "property": "C72",
   "status": "proved",
   "theorems": [
    "C72_out_of_range"
   ],
   "note": ""
  },
  {
   "property": "C73",
   "status": "proved",
   "theorems": [
    "C73_punctured_key_objects_decrypt"
   ],
   "note": ""
  },
  {
   "property": "C74",
   "status": "proved",
   "theorems": [
    "C74_both_encryptions_agree"
   ],
   "note": ""
  },
  {
   "property": "C75",
   "status": "proved",
   "theorems": [
    "C75_seeds_are_distinct"
   ],
   "note": ""
  },
  {
   "property": "C76",
   "status": "proved",
   "theorems": [
    "C76_add",
    "C76_sub",
    "C76_add_abs",
    "C76_sub_abs",
    "C76_add_int",
    "C76_sub_int"
   ],
   "note": "Model of bignum.c at the level of 64-bit limbs; the integer operand of add_int/sub_int above -2^63."
  },
  {
   "property": "C77",
   "status": "partial",
   "theorems": [
    "C77_cmp",
    "C77_cmp_abs",
    "C77_cmp_int",
    "C77_lset",
    "C77_copy",
    "C77_lset_smallest_refuted",
    "C77_grow",
    "C77_grow_too_long",
    "C77_shrink"
   ],
   "note": "Proved for all representations and all integers above -2^63; for -2^63 the negation overflows (refuted)."
  },
  {
   "property": "C78",
   "status": "proved",
   "theorems": [
    "C78_mul",
    "C78_mul_int"
   ],
   "note": ""
  },
  {
   "property": "C79",
   "status": "partial",
   "theorems": [
    "C79_shift_l_partial",
    "C79_shift_r",
    "C79_shift_l_refuted"
   ],
   "note": "Right shifts proved. Left shifts proved when the result fits; refuted for counts near 2^64, where the size wraps and the result is zero."
  },
  {
   "property": "C80",
   "status": "partial",
   "theorems": [
    "C80_div_partial",
    "C80_quotient_in_place_refuted",
    "C80_small_dividend_in_place_refuted"
   ],
   "note": "Proved unless the quotient is stored into the dividend (dividends up to 9990 limbs); refuted in that case: wrong signs, and a small dividend is lost."
  },
  {
   "property": "C81",
   "status": "partial",
   "theorems": [
    "C81_mod",
    "C81_mod_int_partial",
    "C81_mod_int_refuted",
    "C81_mod_two_refuted"
   ],
   "note": "mod_mpi proved; mod_int proved for divisors up to 2^32 and refuted above, and for a number without limbs modulo 2 (null pointer)."
  },
  {
   "property": "C82",
   "status": "proved",
   "theorems": [
    "C82_read_binary",
    "C82_write_binary"
   ],
   "note": ""
  },
  {
   "property": "C83",
   "status": "proved",
   "theorems": [
    "C83_bitlen",
    "C83_lsb",
    "C83_get_bit",
    "C83_set_bit",
    "C83_cond_assign",
    "C83_cond_swap"
   ],
   "note": "Bit positions below 640000."
  },
  {
   "property": "C84",
   "status": "partial",
   "theorems": [
    "C84_exp_mod_partial",
    "C84_bad_input",
    "C84_negative_multiple",
    "C84_reduced_refuted",
    "C84_unassigned_refuted"
   ],
   "note": "Proved for moduli up to 4990 limbs. Refuted for a base marked negative with an odd exponent when N divides the power (the answer is N, not 0), and for objects never assigned (null pointer)."
  },
  {
   "property": "C85",
   "status": "partial",
   "theorems": [
    "C85_gcd_partial",
    "C85_second_zero",
    "C85_gcd_refuted"
   ],
   "note": "Proved for a non-zero second operand; refuted for gcd (A, 0), which is 0."
  },
  {
   "property": "C86",
   "status": "proved",
   "theorems": [
    "C86_inv_mod"
   ],
   "note": "Operands up to 9990 limbs."
  },
  {
   "property": "C87",
   "status": "partial",
   "theorems": [
    "C87_primes_accepted_partial",
    "C87_rejections",
    "C87_always_answers",
    "C87_long_refuted"
   ],
   "note": "Proved up to 128 allocated limbs for generators that are not stuck; refuted for a small prime in an object of 129 limbs (BAD_INPUT_DATA)."
  },
  {
   "property": "C88",
   "status": "partial",
   "theorems": [
    "C88_accepted",
    "C88_small_partial",
    "C88_composite_refuted"
   ],
   "note": "The characterisation of accepted numbers is proved; accepted numbers below 998^2 are primes; refuted for a larger composite with a generator that always answers 2."
  },
  {
   "property": "C89",
   "status": "partial",
   "theorems": [
    "C89_gen_prime_partial",
    "C89_search_ends",
    "C89_errors",
    "C89_bad_bits",
    "C89_bits_refuted"
   ],
   "note": "Proved except for the upper bound on the number of bits, which holds if there is a prime between the starting point and 2^nbits; refuted for nbits = 4 (17 is generated)."
  },
  {
   "property": "C90",
   "status": "proved",
   "theorems": [
    "C90_eval",
    "C90_eval_value",
    "C90_sample",
    "C90_generate"
   ],
   "note": "Inputs up to 8000 bytes (eval takes 256)."
  },
  {
   "property": "C91",
   "status": "partial",
   "theorems": [
    "C91_private",
    "C91_sequences",
    "C91_inverse_partial",
    "C91_failed_blinding_is_kept",
    "C91_inverse_refuted"
   ],
   "note": "The computation on limbs is that on numbers for all sequences of calls; invert undoes eval if the generator finds invertible numbers and the factors are prime or Carmichael. Refuted for a failing generator: the failed inversion leaves numbers for blinding with which the next one answers zero."
  },
  {
   "property": "C92",
   "status": "proved",
   "theorems": [
    "C92_check_pubkey",
    "C92_check_privkey"
   ],
   "note": "Numbers up to 1000 limbs."
  },
  {
   "property": "C93",
   "status": "proved",
   "theorems": [
    "C93_new_keys",
    "C93_gen_key"
   ],
   "note": "Termination of the search is not claimed: fuel bounds the search, and the theorem covers every fuel."
  },
  {
   "property": "C94",
   "status": "proved",
   "theorems": [
    "C94_invert_mult"
   ],
   "note": "C42 and C46 say what the computation on numbers returns."
  },
  {
   "property": "C95",
   "status": "partial",
   "theorems": [
    "C95_copy",
    "C95_eval_keeps_copyable",
    "C95_pool",
    "C95_pool_copy",
    "C95_pool_eval",
    "C95_assignment_partial",
    "C95_assignment_refuted",
    "C95_pool_assignment_refuted"
   ],
   "note": "Copies and pools proved. Refuted for the assignment operator of TdpImpl_mbedTLS over a longer modulus (the kept constant R^2 mod N is for the shorter one) and for that of pools (order 1 keeps the old key); Tdp and TdpMultPool do not call these operators. Assignment proved for sources not used before or moduli that are not shorter."
  },
  {
   "property": "C96",
   "status": "proved",
   "theorems": [
    "C96_public_text",
    "C96_private_text"
   ],
   "note": "Texts up to 7999 bytes."
  },
  {
   "property": "C97",
   "status": "proved",
   "theorems": [
    "C97_prp_is_aez",
    "C97_any_nonce",
    "C97_scheme_is_a_permutation"
   ],
   "note": "The specification of AEZ v4.1 is AezSpec.v."
  },
  {
   "property": "C98",
   "status": "proved",
   "theorems": [
    "C98_invert_eval",
    "C98_eval_invert",
    "C98_eval_string",
    "C98_generated"
   ],
   "note": "OpenSSL itself is replaced by definitions after its manual pages and rsa_eay.c."
  },
  {
   "property": "C99",
   "status": "proved",
   "theorems": [
    "C99_invert_mult"
   ],
   "note": ""
  },
  {
   "property": "C100",
   "status": "partial",
   "theorems": [
    "C100_pool_eval_partial",
    "C100_pool_sizes",
    "C100_large_orders",
    "C100_orders_from_128_refuted",
    "C100_large_inputs_refuted",
    "C100_order_0_refuted",
    "C100_size_1_refuted",
    "C100_any_exponent_refuted",
    "C100_strings"
   ],
   "note": "Proved for the exponent 65537, orders up to 127 and messages below the modulus. Refuted otherwise: from order 128 on, and for messages not below the modulus, eval returns uninitialised memory; order 0 and size 1 access memory out of bounds; with another exponent the powers are not those of the key."
  },
  {
   "property": "C101",
   "status": "partial",
   "theorems": [
    "C101_same_inverse",
    "C101_same_eval",
    "C101_same_generate",
    "C101_same_pool_partial",
    "C101_same_refusals_refuted",
    "C101_same_pools_refuted"
   ],
   "note": "Equal values proved for eval, generate, invert_mult, and for invert and pools on messages below the modulus. Refuted for the refusals: messages not below the modulus, pools of 128 powers and more."
  },
  {
   "property": "C102",
   "status": "partial",
   "theorems": [
    "C102_public_key",
    "C102_private_key",
    "C102_serialize_refuted",
    "C102_deserialize_partial",
    "C102_constructors",
    "C102_long_texts"
   ],
   "note": "Texts proved. Refuted for deserialize, which searches the last line of a PKCS#1 text while OpenSSL writes PKCS#8: it always throws on what serialize wrote; it does find the texts written with mbedTLS."
  },
  {
   "property": "C103",
   "status": "partial",
   "theorems": [
    "C103_wrong_sizes_partial",
    "C103_other_moduli_partial",
    "C103_out_of_range_partial",
    "C103_array_out_of_range_refuted",
    "C103_sample",
    "C103_long_modulus_refuted",
    "C103_short_modulus_refuted",
    "C103_invert_mult_short_refuted",
    "C103_invert_mult_long_refuted"
   ],
   "note": "Refuted: arrays not below the modulus return uninitialised memory; moduli of other sizes are out of bounds in sample, invert and eval (string); invert_mult does not look at the size of its string."
  },
  {
   "property": "C104",
   "status": "partial",
   "theorems": [
    "C104_copies",
    "C104_pool_assignment_refuted"
   ],
   "note": "Refuted for the assignment operator of pools, which keeps the key of order 1."
  },
  {
   "property": "C105",
   "status": "proved",
   "theorems": [
    "C105_assembly",
    "C105_double_limbs",
    "C105_half_limbs",
    "C105_assembly_is_the_model",
    "C105_needs_a_limb_more"
   ],
   "note": "Three variants, on memory. That the compiler keeps memory up to date around the inline assembly (which has no memory clobber) is trusted."
  },
  {
   "property": "C106",
   "status": "partial",
   "theorems": [
    "C106_int_div_partial",
    "C106_same_as_double_partial",
    "C106_divisor_of_caller",
    "C106_all_large_divisors_undefined",
    "C106_int_div_refuted"
   ],
   "note": "Proved for divisors below 2^63. From 2^63 on the code shifts by 64 bits, which is undefined (refuted); the only caller has divisors of 63 bits (proved)."
  },
  {
   "property": "C107",
   "status": "proved",
   "theorems": [
    "C107_read",
    "C107_other_texts",
    "C107_other_radices",
    "C107_long_hexadecimal"
   ],
   "note": "Texts without any digit are read as zero."
  },
  {
   "property": "C108",
   "status": "partial",
   "theorems": [
    "C108_write_partial",
    "C108_write_then_read_partial",
    "C108_least_size_refuted",
    "C108_length_always_set_refuted",
    "C108_unassigned_refuted"
   ],
   "note": "Proved but for the last sentence, for objects with at least one limb. Refuted: the size reported is not the least one; *olen is not set for a bad radix; an object never assigned to is undefined in radix 2."
  },
  {
   "property": "C109",
   "status": "proved",
   "theorems": [
    "C109_ring",
    "C109_division",
    "C109_power",
    "C109_shift",
    "C109_comparison"
   ],
   "note": "RELIC (bn_mod, bn_gcd_ext, bn_mxp) is assumed correct. Negative shifts and exponents are not covered."
  },
  {
   "property": "C110",
   "status": "partial",
   "theorems": [
    "C110_residue_partial",
    "C110_int_partial",
    "C110_hash_partial",
    "C110_and_partial",
    "C110_product_refuted",
    "C110_least_int_refuted",
    "C110_division_refuted",
    "C110_inverse_refuted",
    "C110_hash_refuted",
    "C110_and_refuted"
   ],
   "note": "Proved: the residues are right for all integers, and when the result is reduced. Refuted: product of a negative scalar is not reduced, ZR(INT_MIN) overflows, division by a multiple of the order and inverse of zero do not throw, a digest equal to the order stays, & leaves leading zeros."
  },
  {
   "property": "C111",
   "status": "partial",
   "theorems": [
    "C111_bytes_partial",
    "C111_unique_partial",
    "C111_sign_refuted"
   ],
   "note": "Proved for scalars that are not negative. Refuted for negative ones: the sign is lost."
  },
  {
   "property": "C112",
   "status": "partial",
   "theorems": [
    "C112_separated_partial",
    "C112_groups_refuted"
   ],
   "note": "Proved between scalars and points, and for different messages. Refuted: hashToG2 uses the prefix of hashToG1."
  },
  {
   "property": "C113",
   "status": "partial",
   "theorems": [
    "C113_defined_partial",
    "C113_text_partial",
    "C113_undefined_refuted",
    "C113_text_refuted"
   ],
   "note": "Proved: the format is restored, when the output is defined and what it is. Refuted: the bytes are used as indices, which reads outside of the vector for nearly every element; where defined the text does not determine the element."
  },
  {
   "property": "C114",
   "status": "partial",
   "theorems": [
    "C114_int_partial",
    "C114_power_partial",
    "C114_overflow_refuted",
    "C114_power_refuted"
   ],
   "note": "Proved when nothing overflows, and for exponents from -1 on. Refuted: overflows are undefined behaviour, also in exp with the least int."
  },
  {
   "property": "C115",
   "status": "partial",
   "theorems": [
    "C115_scoped_partial",
    "C115_order_refuted",
    "C115_failure_refuted"
   ],
   "note": "Proved for handles destroyed in reverse order of construction. Refuted for other orders, and for a constructor that throws because the curve cannot be set."
  },
  {
   "property": "C116",
   "status": "partial",
   "theorems": [
    "C116_ready_partial",
    "C116_pairs_partial",
    "C116_locks_partial",
    "C116_relic_partial",
    "C116_cleanup_partial",
    "C116_twice_refuted",
    "C116_failure_refuted",
    "C116_locks_refuted"
   ],
   "note": "Proved for alternating calls; the state after any sequence of calls is characterised. Refuted: after two inits cleanup leaves RELIC and mutexes, a failing init keeps what it acquired, a failing malloc is ignored."
  },
  {
   "property": "C117",
   "status": "proved",
   "theorems": [
    "C117_interpolates",
    "C117_equal_points",
    "C117_too_many_values"
   ],
   "note": "Points reduced, coefficients not negative."
  },
  {
   "property": "C118",
   "status": "partial",
   "theorems": [
    "C118_encrypt_partial",
    "C118_decrypt_partial",
    "C118_empty_message_partial",
    "C118_empty_message_refuted",
    "C118_overread_refuted",
    "C118_overread_always",
    "C118_without_authenticator",
    "C118_key_lengths"
   ],
   "note": "Proved: decryption of everything longer than an authenticator, encryption when enough bytes after the message are readable, and the relation to the functions without authenticator. Refuted: for the empty message any authenticator whose bits are among those of the right one is accepted, e.g. zero bytes; encryption reads past the message."
  },
  {
   "property": "C119",
   "status": "proved",
   "theorems": [
    "C119_same",
    "C119_arm_is_aez",
    "C119_aes_round"
   ],
   "note": "Also for arguments outside of the contract: undefined and rejected calls agree."
  },
  {
   "property": "C120",
   "status": "partial",
   "theorems": [
    "C120_prp_partial",
    "C120_aez_partial",
    "C120_round_trip",
    "C120_refused",
    "C120_overlap_refuted"
   ],
   "note": "Proved for the same region and for regions without common byte. Refuted for partly overlapping regions."
  },
  {
   "property": "C121",
   "status": "partial",
   "theorems": [
    "C121_write",
    "C121_write_parameters",
    "C121_write_int_partial",
    "C121_write_int_refuted",
    "C121_read",
    "C121_sequence_partial",
    "C121_empty_sequence_refuted",
    "C121_alg_null",
    "C121_alg_other",
    "C121_safe"
   ],
   "note": "Proved: all writers except for integers above 255, all readers on what the writers write, safety on any data, sequences that are not empty. Refuted: the integer 256 is written as 0; the empty sequence gives one entry with the previous content of the caller's structure."
  },
  {
   "property": "C122",
   "status": "proved",
   "theorems": [
    "C122_memory",
    "C122_no_leak"
   ],
   "note": "For the functions of bignum.c that allocate and release (grow, shrink, copy, swap, lset, free)."
  },
  {
   "property": "C123",
   "status": "partial",
   "theorems": [
    "C123_values_partial",
    "C123_failed_copy_refuted"
   ],
   "note": "Proved with the exception of the sign of the target of a failing copy, which the refutation shows: 1 becomes -1."
  },
  {
   "property": "C124",
   "status": "partial",
   "theorems": [
    "C124_read_no_leak",
    "C124_write_no_leak",
    "C124_key_remains",
    "C124_wiped_refuted"
   ],
   "note": "Proved: no leak, no double free, right contents, for reading and writing. Refuted: nothing is wiped; the decoded private key stands in the released block for every key."
  },
  {
   "property": "C125",
   "status": "partial",
   "theorems": [
    "C125_memory",
    "C125_store",
    "C125_value_partial",
    "C125_find",
    "C125_free",
    "C125_shorter_refuted"
   ],
   "note": "Everything proved except that a shorter value replaces a longer one: refuted, the entry keeps the length and the last bytes of the old value."
  },
  {
   "property": "C126",
   "status": "partial",
   "theorems": [
    "C126_bytes",
    "C126_array",
    "C126_string",
    "C126_requests",
    "C126_all_bytes_once",
    "C126_no_memory_partial",
    "C126_leak_refuted",
    "C126_wiped_refuted"
   ],
   "note": "Proved when allocations succeed, and when the first one fails. Refuted: random_string loses its buffer if the constructor of the string throws, and releases it without wiping."
  },
  {
   "property": "C127",
   "status": "partial",
   "theorems": [
    "C127_memory_partial",
    "C127_dead_partial",
    "C127_no_leak_partial",
    "C127_no_leak_refuted"
   ],
   "note": "Proved for all programs in which no constructor of TdpInverseImpl_mbedTLS fails after it has begun to compute p_1_. Refuted for those: p - 1 stays in memory that nothing can release."
  },
  {
   "property": "C128",
   "status": "partial",
   "theorems": [
    "C128_memory_partial",
    "C128_no_leak_partial",
    "C128_constructor_refuted",
    "C128_assignment_refuted"
   ],
   "note": "Proved up to the first exception thrown while keys_ is being filled. Refuted: such a constructor leaks the array and its limbs; an assignment between pools of different sizes in which an allocation fails leaves a pool whose destructor is undefined."
  },
  {
   "property": "C129",
   "status": "partial",
   "theorems": [
    "C129_memory_partial",
    "C129_key",
    "C129_throw",
    "C129_modexp",
    "C129_leak_refuted"
   ],
   "note": "Proved for all sequences of calls as long as no function throws; when one throws, it is proved which temporaries may remain. Refuted for functions that throw: their temporary numbers, e.g. the message, stay in memory that nothing can release."
  },
  {
   "property": "C130",
   "status": "partial",
   "theorems": [
    "C130_waits_partial",
    "C130_exclusion_partial",
    "C130_memory_partial",
    "C130_destroyed_free",
    "C130_twice_refuted",
    "C130_cleanup_refuted",
    "C130_dynamic_refuted"
   ],
   "note": "Proved for all interleavings of threads that use OpenSSL between one initialisation and the following cleanup. Refuted outside of that: initialising again or cleaning up while a lock is held is undefined, and a dynamic lock destroyed after the cleanup stays allocated."
  },
  {
   "property": "C131",
   "status": "partial",
   "theorems": [
    "C131_memory_partial",
    "C131_other_algorithm_refuted",
    "C131_string_refuted",
    "C131_size_1_refuted",
    "C131_wiped_refuted",
    "C131_exponents_refuted"
   ],
   "note": "Proved for all programs without private texts of another algorithm, pools of size 1 and strings without memory. Refuted: a private key of another algorithm leaks a BIO and an EVP_PKEY; a string without memory leaks as well; a pool of size 1 is undefined; p - 1, q - 1 and the exponents of invert_mult remain in released memory."
  },
  {
   "property": "C132",
   "status": "proved",
   "theorems": [
    "C132_public",
    "C132_private"
   ],
   "note": "For all texts and all patterns of failing allocations."
  },
  {
   "property": "C133",
   "status": "partial",
   "theorems": [
    "C133_private_partial",
    "C133_public_partial",
    "C133_copy_refuted",
    "C133_setup_refuted"
   ],
   "note": "Proved for the functions of rsa_io.c: if they return 0, the text is a key and the context holds its numbers or none. Refuted: mbedtls_rsa_parse_key ignores a failing copy and returns 0 with an empty key; mbedtls_pk_parse_key returns 0 for a text that is no key when mbedtls_pk_setup fails."
  },
  {
   "property": "C134",
   "status": "partial",
   "theorems": [
    "C134_print_partial",
    "C134_print_refuted",
    "C134_read_partial",
    "C134_read_decimal",
    "C134_read_back",
    "C134_read_refuted"
   ],
   "note": "Proved: the numeral and one zero character are written, numerals are read as their numbers, what is printed is read back, and any text is read as the digits at its beginning. Refuted: the printed text ends with a zero character; 12x is read as 12."
  },
  {
   "property": "C135",
   "status": "proved",
   "theorems": [
    "C135_check",
    "C135_inverse"
   ],
   "note": "The inverse needs factors P for which exponents count modulo P - 1, in particular primes; the check does not test primality."
  },
  {
   "property": "C136",
   "status": "proved",
   "theorems": [
    "C136_public_key",
    "C136_private_key",
    "C136_serialize"
   ],
   "note": "Allocations succeed; the modulus is below 2^2048 and 0 <= D < N."
  },
  {
   "property": "C137",
   "status": "proved",
   "theorems": [
    "C137_same",
    "C137_refused",
    "C137_prp",
    "C137_round_trip"
   ],
   "note": "For regions that overlap partly both paths give the same wrong result (C120)."
  },
  {
   "property": "C138",
   "status": "partial",
   "theorems": [
    "C138_no_error",
    "C138_reported_partial",
    "C138_thrown_partial",
    "C138_malloc_refuted",
    "C138_assignment",
    "C138_null_pointers_refuted",
    "C138_wrong_results_refuted",
    "C138_silent_refuted"
   ],
   "note": "Proved: without failing calls the results are right; invert of strings, copies and assignments report every failure, sample, public_key and private_key all but one allocation. Refuted: null pointers of BN_new and others are used; a failing BN_mod_exp, BN_add or BN_div makes eval, invert_mult and generate return zeros, a failing RSA_private_decrypt or RSA_public_encrypt makes invert of arrays and eval_pool return uninitialised memory, and a failing BN_mul_word makes a pool that computes other orders."
  },
  {
   "property": "C139",
   "status": "partial",
   "theorems": [
    "C139_mutex_partial",
    "C139_mutex_finishes_partial",
    "C139_own_objects_partial",
    "C139_without_memory_lock_partial",
    "C139_fault_refuted",
    "C139_exception_refuted",
    "C139_race_refuted",
    "C139_left_readable_refuted"
   ],
   "note": "Proved: with a mutex of the caller around the calls of each object, when every object belongs to one thread, and without memory locking. Refuted for shared objects with memory locking: a thread reads memory that another has just protected (the process ends), data() throws, the flag has a data race, and a key may be left readable though it is marked as locked."
  },
  {
   "property": "C140",
   "status": "partial",
   "theorems": [
    "C140_mutex_partial",
    "C140_mutex_finishes_partial",
    "C140_shared_refuted",
    "C140_alone"
   ],
   "note": "Proved for callers that hold a mutex during each call (right results, and all calls can return). Refuted without: for every key there is a schedule of two threads, one of which squares Vi between the squarings of the other, with a wrong result."
  },
  {
   "property": "C141",
   "status": "partial",
   "theorems": [
    "C141_mutex_partial",
    "C141_mutex_memory_partial",
    "C141_fields_partial",
    "C141_leak_refuted",
    "C141_order_refuted"
   ],
   "note": "Proved for callers that hold a mutex during each call. Without one, if memcpy copies the fields of a number in their order, every call uses the right constant and nothing is released twice, but the memory of the constant of one of two threads is lost (refuted for every modulus); if memcpy copies the pointer first, a call can use a number without limbs (refuted)."
  },
  {
   "property": "C142",
   "status": "partial",
   "theorems": [
    "C142_variables_partial",
    "C142_moved_partial",
    "C142_scalar_moved_partial",
    "C142_destroyed_refuted",
    "C142_assigned_refuted",
    "C142_dynamic_refuted"
   ],
   "note": "Proved for RELIC's default way to allocate (AUTO): values, exceptions, and that moves wipe their source. Refuted: destructors leave the contents in memory; an object whose value was moved away cannot be assigned to; with ALLOC equal to DYNAMIC every constructor uses an uninitialised pointer, because bn_inits takes it by value."
  },
  {
   "property": "C143",
   "status": "partial",
   "theorems": [
    "C143_prg_partial",
    "C143_encrypt_partial",
    "C143_refused_partial",
    "C143_hmac_partial",
    "C143_prf_partial",
    "C143_decrypt_refuted",
    "C143_derived_key_refuted",
    "C143_lost_refuted"
   ],
   "note": "Proved for every call of Prg, HMac, Prf and of encryption that returns, whatever fails before, and for refused ciphertexts. Refuted: decrypt on strings leaves the plaintext in the memory of its vector; encrypt leaves the derived key when the key cannot be locked again; functions that throw lose an array made with new."
  },
  {
   "property": "C144",
   "status": "partial",
   "theorems": [
    "C144_enough_memory_partial",
    "C144_short_partial",
    "C144_good_partial",
    "C144_null_pointer_refuted",
    "C144_exhausted_refuted"
   ],
   "note": "Proved when the buffer can be allocated, for representations that are too short, and for any sequence of genuine representations. Refuted: the result of sodium_malloc is not tested, so that a failing allocation is undefined behaviour; and since refused representations keep their buffers (C64), for every amount of memory there is a number of forged representations after which unwrapping a genuine one is undefined."
  },
  {
   "property": "C145",
   "status": "partial",
   "theorems": [
    "C145_programs_partial",
    "C145_self_move_refuted"
   ],
   "note": "Proved for every program without moves of an object to itself and without reversed ranges (C32). Refuted: the move assignment of an object to itself loses its keys (with libstdc++; the standard leaves it unspecified)."
  },
  {
   "property": "C146",
   "status": "partial",
   "theorems": [
    "C146_full_key_partial",
    "C146_constrained_key_partial",
    "C146_own_state_refuted"
   ],
   "note": "Proved for callbacks that do not change the state inside of them (they may change variables of the caller, and throw). Refuted for callbacks with their own state, such as mutable lambdas: the std::function is copied by every recursive call, and what a copy has changed is forgotten."
  },
  {
   "property": "C147",
   "status": "partial",
   "theorems": [
    "C147_prf_programs_partial",
    "C147_moved_prg",
    "C147_moved_rcprf",
    "C147_moved_rcprf_range",
    "C147_moved_rcprf_constrain",
    "C147_moved_wrapper_partial",
    "C147_moved_hmac_partial",
    "C147_moved_cipher_partial",
    "C147_without_locking_refuted"
   ],
   "note": "Proved for Prg and RCPrf in every build, and for programs with Prf objects and for HMac, Cipher and Wrapper with memory locking (ENABLE_MEMORY_LOCK), or if no moved object is evaluated. Refuted without memory locking: Key::data returns a null pointer, from which HMac and Prf copy, and on which the key derivation of Cipher ends the process."
  },
  {
   "property": "C148",
   "status": "partial",
   "theorems": [
    "C148_text_partial",
    "C148_determines_partial",
    "C148_flags",
    "C148_fill_refuted",
    "C148_format_refuted"
   ],
   "note": "Proved for streams without std::showbase and std::left; the flags are restored for every stream. Refuted: the fill character of the stream stays 0; with std::left two different values have the same text; with std::showbase the digits have prefixes and lose their leading zeros."
  }
 ]
}