{
 "claims": [
  {
   "property": "C01",
   "status": "proved",
   "theorems": [
    "C01_base64_round_trip"
   ],
   "note": "All byte strings and all 12 option combinations."
  },
  {
   "property": "C02",
   "status": "proved",
   "theorems": [
    "C02_base64_is_rfc4648",
    "C02_newlines_only_wrap",
    "C02_trailing_blank_line_refuted"
   ],
   "note": "Proved as stated. Finding beside it: non-empty data of a length divisible by 57 gets an extra empty line (C02_trailing_blank_line_refuted)."
  },
  {
   "property": "C03",
   "status": "proved",
   "theorems": [
    "C03_decoder_ignores_foreign_characters",
    "C03_decoder_length"
   ],
   "note": "Characters are codes 0..255; the table index is the character as uint8_t."
  },
  {
   "property": "C04",
   "status": "partial",
   "theorems": [
    "C04_concat_refuted",
    "C04_concat_partial"
   ],
   "note": "REFUTED in general by a computed witness; holds when the first part is a multiple of 3 bytes (C04_concat_partial)."
  },
  {
   "property": "C05",
   "status": "proved",
   "theorems": [
    "C05_crc32_is_ieee"
   ],
   "note": "Against the bit-serial definition."
  },
  {
   "property": "C06",
   "status": "proved",
   "theorems": [
    "C06_crc32_detects_bursts"
   ],
   "note": "Window of up to 32 consecutive bits in transmission order (LSB first)."
  },
  {
   "property": "C07",
   "status": "proved",
   "theorems": [
    "C07_streaming"
   ],
   "note": "All ten classes. Any split of any message below 2^64 bytes; the six Merkle-Damgaard classes at any total length by C09_no_fault_and_no_garbage's lemma md_history."
  },
  {
   "property": "C08",
   "status": "proved",
   "theorems": [
    "C08_reads_do_not_disturb",
    "C08_read_is_pure"
   ],
   "note": "Every history of add() and reads whose total is at most MaxLength() = 2^61 - 1 bytes; each read equals the standard's hash of the bytes added so far."
  },
  {
   "property": "C09",
   "status": "proved",
   "theorems": [
    "C09_no_fault_and_no_garbage",
    "C09_sha3_no_fault"
   ],
   "note": "Array accesses of the model are checked; out of range is UB, which the theorems exclude."
  },
  {
   "property": "C10",
   "status": "proved",
   "theorems": [
    "C10_md5_is_rfc1321"
   ],
   "note": ""
  },
  {
   "property": "C11",
   "status": "proved",
   "theorems": [
    "C11_sha1_is_fips180"
   ],
   "note": ""
  },
  {
   "property": "C12",
   "status": "proved",
   "theorems": [
    "C12_sha256_sha224_are_fips180"
   ],
   "note": ""
  },
  {
   "property": "C13",
   "status": "proved",
   "theorems": [
    "C13_sha512_sha384_are_fips180"
   ],
   "note": ""
  },
  {
   "property": "C14",
   "status": "proved",
   "theorems": [
    "C14_sha3_is_fips202"
   ],
   "note": "Against the bit-level definition of FIPS 202; messages below 2^64 bytes (size_t)."
  },
  {
   "property": "C15",
   "status": "proved",
   "theorems": [
    "C15_primes",
    "C15_sha256_K",
    "C15_sha512_K",
    "C15_sha2_iv",
    "C15_keccak_RC",
    "C15_keccak_rho_pi",
    "C15_md5_sines"
   ],
   "note": "C15_md5_sines (additional) uses the real-number axioms of the standard library."
  },
  {
   "property": "C16",
   "status": "partial",
   "theorems": [
    "C16_names_refuted",
    "C16_names_partial",
    "C16_unknown_selects_sha3_512"
   ],
   "note": "REFUTED: \"sha3-256\" gives the SHA3-512 digest and no name is ever rejected (hash.cpp:25, 29). Holds for the other 14 names."
  },
  {
   "property": "C17",
   "status": "partial",
   "theorems": [
    "C17_hex_refuted",
    "C17_hex_partial"
   ],
   "note": "REFUTED for SHA2<224> and SHA2<384> (sha2.h:67, 130: the base class's text of the untruncated digest). Proved for the other eight classes."
  },
  {
   "property": "C18",
   "status": "partial",
   "theorems": [
    "C18_prefix_refuted",
    "C18_prefix_partial"
   ],
   "note": "REFUTED for SHA3<224>, SHA3<384>, SHA3<512> (lengths of the 256-bit variant). Proved for the other seven classes, including the registered OIDs."
  },
  {
   "property": "C19",
   "status": "partial",
   "theorems": [
    "C19_hmac_refuted",
    "C19_hmac_partial",
    "C19_hmac_as_coded",
    "C19_long_keys_collide"
   ],
   "note": "REFUTED: SHA-1 and SHA-384 for ordinary keys (block size taken as twice the digest size), SHA-256 for keys over one block (cut, not hashed). Holds for SHA-256/SHA-512 with keys up to one block; C19_hmac_as_coded says what every class computes."
  },
  {
   "property": "C20",
   "status": "proved",
   "theorems": [
    "C20_expand_length",
    "C20_expand_prefix",
    "C20_expand_is_rfc5869_over_its_mac",
    "C20_expand_is_rfc5869"
   ],
   "note": "RFC 5869 relative to the MAC of C19 for every class, and outright for SHA-256/SHA-512 with PRKs up to one block."
  },
  {
   "property": "C21",
   "status": "partial",
   "theorems": [
    "C21_overlong_refuted",
    "C21_counter_wraps"
   ],
   "note": "REFUTED: requests over 255 blocks are answered, with an 8-bit counter that wraps."
  },
  {
   "property": "C22",
   "status": "proved",
   "theorems": [
    "C22_label_encoding",
    "C22_label_injective",
    "C22_beyond_limits_refuted"
   ],
   "note": "Proved within the field limits of RFC 8446 section 7.1; C22_beyond_limits_refuted shows the limits are not enforced."
  },
  {
   "property": "C23",
   "status": "partial",
   "theorems": [
    "C23_schedule_partial",
    "C23_sha384_refuted"
   ],
   "note": "REFUTED for SHA-384 (inherits the HMAC block size error); the whole schedule is proved for SHA-256."
  },
  {
   "property": "C24",
   "status": "proved",
   "theorems": [
    "C24_aes128",
    "C24_aes256",
    "C24_key_expansion128",
    "C24_key_expansion256",
    "C24_field_inverse",
    "C24_short_key256",
    "C24_long_key128"
   ],
   "note": "The S-box of the specification is computed from the field inverse and affine map of FIPS-197; the model uses the 256-byte table of the AESENC instruction definition. Wrong key sizes are out-of-bounds accesses (C24_short_key256, C24_long_key128)."
  },
  {
   "property": "C25",
   "status": "proved",
   "theorems": [
    "C25_permutation128",
    "C25_permutation256"
   ],
   "note": "Injective and surjective on 16-byte blocks, through an explicit inverse cipher."
  },
  {
   "property": "C26",
   "status": "proved",
   "theorems": [
    "C26_multiply"
   ],
   "note": "The PCLMULQDQ code (Karatsuba, lane shifts, mirrored bits) equals the bit-by-bit algorithm of SP 800-38D 6.3 on every pair of blocks."
  },
  {
   "property": "C27",
   "status": "proved",
   "theorems": [
    "C27_ghash"
   ],
   "note": "Inputs below 2^61 bytes (the bit length is computed in 64 bits)."
  },
  {
   "property": "C28",
   "status": "proved",
   "theorems": [
    "C28_first_message",
    "C28_aes_gcm"
   ],
   "note": "For every block cipher, and for AES-128/256 against FIPS-197. Inputs below 2^61 bytes; the standard formula is matched even beyond its own length limit."
  },
  {
   "property": "C29",
   "status": "proved",
   "theorems": [
    "C29_lockstep"
   ],
   "note": "Any number of messages (the counter wraps on both sides). IV sizes 8 and >= 12; the others encrypt nothing, see C33."
  },
  {
   "property": "C30",
   "status": "proved",
   "theorems": [
    "C30_exact_tag",
    "C30_other_tags"
   ],
   "note": "After any sequence of Encrypt and Decrypt calls. Every Decrypt call, valid or not, advances the message number."
  },
  {
   "property": "C31",
   "status": "partial",
   "theorems": [
    "C31_plaintext_refuted",
    "C31_released"
   ],
   "note": "REFUTED: with a wrong tag Decrypt returns the full plaintext next to valid=false; C31_released shows this for every message."
  },
  {
   "property": "C32",
   "status": "proved",
   "theorems": [
    "C32_counter_blocks_unique"
   ],
   "note": "For every supported IV (not only 12 bytes); with a 12-byte IV the hash key block 0^128 is not used either."
  },
  {
   "property": "C33",
   "status": "partial",
   "theorems": [
    "C33_iv_refuted",
    "C33_unsupported_iv",
    "C33_long_refuted",
    "C33_long_message"
   ],
   "note": "REFUTED: unsupported IV sizes return an empty ciphertext and a zero tag without an error; messages over the limit are encrypted with a repeating keystream."
  },
  {
   "property": "C34",
   "status": "partial",
   "theorems": [
    "C34_ctr_refuted",
    "C34_identity",
    "C34_round_trip_partial",
    "C34_sizes"
   ],
   "note": "REFUTED: the keystream vector is only reserved, then resized, so it is all zeros and CTR returns the plaintext (C34_identity, every input)."
  },
  {
   "property": "C35",
   "status": "partial",
   "theorems": [
    "C35_ecb",
    "C35_cbc_encrypt",
    "C35_cbc_decrypt",
    "C35_cbc_refuted",
    "C35_cbc_zero_iv"
   ],
   "note": "REFUTED for CBC: Decrypt does not xor the previous block; whatever the cipher, no message of one block or more comes back unless the IV is zero (C35_cbc_zero_iv). ECB round trip and CBC encryption are proved."
  },
  {
   "property": "C36",
   "status": "proved",
   "theorems": [
    "C36_chacha20_is_rfc8439",
    "C36_wrong_sizes_throw"
   ],
   "note": "Initial counter 1; up to 2^32-1 blocks, the limit of the RFC."
  },
  {
   "property": "C37",
   "status": "proved",
   "theorems": [
    "C37_streaming",
    "C37_round_trip"
   ],
   "note": "No length limit."
  },
  {
   "property": "C38",
   "status": "partial",
   "theorems": [
    "C38_no_reuse_refuted",
    "C38_keystream_repeats",
    "C38_distinct_inputs_partial"
   ],
   "note": "REFUTED: the block counter wraps silently, the keystream of every object has period 2^38 bytes. Below that all block inputs differ."
  },
  {
   "property": "C39",
   "status": "proved",
   "theorems": [
    "C39_add",
    "C39_sub",
    "C39_mul",
    "C39_mul_word",
    "C39_mul_odd_width_refuted"
   ],
   "note": "Widths that are multiples of 32. C39_mul_odd_width_refuted: at other widths the product writes out of bounds."
  },
  {
   "property": "C40",
   "status": "proved",
   "theorems": [
    "C40_order"
   ],
   "note": ""
  },
  {
   "property": "C41",
   "status": "proved",
   "theorems": [
    "C41_bytes",
    "C41_any_length",
    "C41_as_bytes",
    "C41_word_lists",
    "C41_too_many_words_refuted"
   ],
   "note": "C41_too_many_words_refuted: an initializer list longer than the width is written out of bounds."
  },
  {
   "property": "C42",
   "status": "proved",
   "theorems": [
    "C42_shifts",
    "C42_bits",
    "C42_complement",
    "C42_slice"
   ],
   "note": ""
  },
  {
   "property": "C43",
   "status": "partial",
   "theorems": [
    "C43_widths_refuted",
    "C43_widths_partial",
    "C43_unequal_partial"
   ],
   "note": "REFUTED between widths of which the smaller is not a multiple of 32 (the partial top word is dropped); proved when the smaller width is a multiple of 32."
  },
  {
   "property": "C44",
   "status": "partial",
   "theorems": [
    "C44_reduce_refuted",
    "C44_reduce_partial",
    "C44_reduce_clear_top_partial",
    "C44_zero_diverges",
    "C44_exactly",
    "C44_right",
    "C44_wrong"
   ],
   "note": "REFUTED: wrong remainders for large quotients, and no termination for modulus 0; C44_exactly gives the result for every number and nonzero modulus: the quotient is cut off at 2^(32s+1)-1."
  },
  {
   "property": "C45",
   "status": "proved",
   "theorems": [
    "C45_swap"
   ],
   "note": ""
  },
  {
   "property": "C46",
   "status": "proved",
   "theorems": [
    "C46_parameters"
   ],
   "note": ""
  },
  {
   "property": "C47",
   "status": "proved",
   "theorems": [
    "C47_exponentiation",
    "C47_exact",
    "C47_multiplication",
    "C47_even_modulus_refuted"
   ],
   "note": "Odd moduli; C47_even_modulus_refuted shows that even moduli are accepted and give wrong answers."
  },
  {
   "property": "C48",
   "status": "partial",
   "theorems": [
    "C48_reduced_refuted",
    "C48_power_refuted",
    "C48_reduced_partial"
   ],
   "note": "REFUTED: nonzero multiples of N read back as N. Proved: every other value is reduced, and x < N round trips."
  },
  {
   "property": "C49",
   "status": "partial",
   "theorems": [
    "C49_addition_refuted",
    "C49_addition_partial"
   ],
   "note": "REFUTED: the carry out of the sum is dropped. Proved when there is no carry."
  },
  {
   "property": "C50",
   "status": "partial",
   "theorems": [
    "C50_exp32_refuted",
    "C50_exp32_partial"
   ],
   "note": "REFUTED: the exponent argument is ignored; proved that the result is always the 65537th power."
  },
  {
   "property": "C51",
   "status": "proved",
   "theorems": [
    "C51_fill",
    "C51_independent"
   ],
   "note": "All four element widths, every size, any queued test values."
  },
  {
   "property": "C52",
   "status": "partial",
   "theorems": [
    "C52_unpredictable_refuted",
    "C52_backwards_refuted",
    "C52_prime_refuted"
   ],
   "note": "REFUTED: the generator is a linear congruential generator with a fixed seed; the first 16-byte key and the first 32-bit prime of every process are constants, and the state can be run backwards. The RDSEED branch is not compiled and not modelled."
  },
  {
   "property": "C53",
   "status": "proved",
   "theorems": [
    "C53_period",
    "C53_values"
   ],
   "note": "The state has period exactly 2^64; the values have period exactly 2^63 because each call makes two steps."
  },
  {
   "property": "C54",
   "status": "proved",
   "theorems": [
    "C54_meaning",
    "C54_primes_accepted"
   ],
   "note": "Widths are multiples of 32 bits below 2^64."
  },
  {
   "property": "C55",
   "status": "proved",
   "theorems": [
    "C55_small_factor",
    "C55_exact"
   ],
   "note": ""
  },
  {
   "property": "C56",
   "status": "proved",
   "theorems": [
    "C56_result",
    "C56_no_small_factor",
    "C56_strict_product"
   ],
   "note": "The loop is unbounded in the code; the theorem is about every result it returns."
  },
  {
   "property": "C57",
   "status": "proved",
   "theorems": [
    "C57_inverse",
    "C57_inverse_any",
    "C57_power"
   ],
   "note": "Any key with distinct odd primes p, q (or any odd modulus whose exponents cancel), every message representative below n, both directions."
  },
  {
   "property": "C58",
   "status": "proved",
   "theorems": [
    "C58_mgf1",
    "C58_too_long"
   ],
   "note": "All hash types, all seeds, all lengths."
  },
  {
   "property": "C59",
   "status": "proved",
   "theorems": [
    "C59_pss_round_trip",
    "C59_other_sizes_refuted"
   ],
   "note": "Proved for every modulus size that is a multiple of 8 bits. For other sizes it is false: C59_other_sizes_refuted gives a 277-bit key whose own public part rejects."
  },
  {
   "property": "C60",
   "status": "partial",
   "theorems": [
    "C60_pss_exactly",
    "C60_short_refuted",
    "C60_tiny_refuted"
   ],
   "note": "REFUTED: for signatures shorter than the modulus only the low bytes of s^e mod n are compared (C60_short_refuted), and below the digest size the code reads out of bounds (C60_tiny_refuted). C60_pss_exactly proves the equivalence for signatures as long as the modulus."
  },
  {
   "property": "C61",
   "status": "partial",
   "theorems": [
    "C61_encoding",
    "C61_validate",
    "C61_sign",
    "C61_round_trip_partial",
    "C61_round_trip_refuted",
    "C61_digest_refuted"
   ],
   "note": "REFUTED: signing writes the signature big-endian, verification reads it little-endian (C61_round_trip_refuted), and the digest is of the data wrapped in a DER SEQUENCE instead of the data (C61_digest_refuted). Proved: what is encoded, what signing returns, exactly what verification accepts, and that the reversed signature is accepted when it has floor(bits/8) bytes."
  },
  {
   "property": "C62",
   "status": "partial",
   "theorems": [
    "C62_representation_refuted",
    "C62_plus_modulus"
   ],
   "note": "REFUTED: s + n is accepted whenever s is and it fits."
  },
  {
   "property": "C63",
   "status": "partial",
   "theorems": [
    "C63_sha256",
    "C63_pkcs1_partial",
    "C63_other_identifiers",
    "C63_sha384_refuted"
   ],
   "note": "REFUTED: the 384 and 512 PSS identifiers hash the message with SHA-256; the result is accepted only on a collision (C63_other_identifiers), witness C63_sha384_refuted. The SHA-256 PSS identifiers are proved for every message. The PKCS#1 v1.5 identifiers use the named hash on both sides, but the signature has to be reversed as in C61 (C63_pkcs1_partial)."
  },
  {
   "property": "C64",
   "status": "proved",
   "theorems": [
    "C64_field"
   ],
   "note": "Primality of 2^255-19 is proved by Pocklington certificates (P_Prime25519), so inversion is a true inverse."
  },
  {
   "property": "C65",
   "status": "partial",
   "theorems": [
    "C65_x25519_refuted",
    "C65_x25519_partial",
    "C65_total"
   ],
   "note": "REFUTED: the top bit of u is not masked (witness: u = 2^256-38). With that bit clear the result equals RFC 7748 for every scalar and u, non-canonical u included."
  },
  {
   "property": "C66",
   "status": "proved",
   "theorems": [
    "C66_agreement",
    "C66_agreement_words"
   ],
   "note": "For every common u coordinate, 9 included. The ladder is shown to compute multiples on one of two Edwards curves; the group law and its associativity are proved from scratch."
  },
  {
   "property": "C67",
   "status": "partial",
   "theorems": [
    "C67_complement_refuted",
    "C67_complement_partial"
   ],
   "note": "REFUTED: != compares the raw words, == compares modulo p (witness 0 and p). Complementary on reduced values."
  },
  {
   "property": "C68",
   "status": "proved",
   "theorems": [
    "C68_element",
    "C68_elements"
   ],
   "note": "Every definite length form below 2^64, anywhere in the data; and whole lists of DER elements."
  },
  {
   "property": "C69",
   "status": "partial",
   "theorems": [
    "C69_reader_refuted",
    "C69_empty_refuted",
    "C69_nesting_refuted",
    "C69_length_refuted",
    "C69_reader_partial",
    "C69_read_outcome"
   ],
   "note": "REFUTED: empty, truncated or inconsistent input is read out of bounds; an element may extend beyond its parent; 9-byte lengths wrap. Proved: what a returning read took, for every byte string."
  },
  {
   "property": "C70",
   "status": "partial",
   "theorems": [
    "C70_times_partial",
    "C70_order_partial",
    "C70_2100_refuted",
    "C70_past_refuted"
   ],
   "note": "REFUTED from 1 March 2100 (a day late) and before 1970 (far future). Proved for every valid date of 1970-2099, in both time formats, with order in both directions."
  },
  {
   "property": "C71",
   "status": "partial",
   "theorems": [
    "C71_single",
    "C71_bundle",
    "C71_bundle_refuted",
    "C71_store_refuted"
   ],
   "note": "REFUTED: of two or more blocks the last is dropped and the first appears again at the end (C71_bundle, every bundle), so the system trust store lacks its last root. One block is proved."
  },
  {
   "property": "C72",
   "status": "partial",
   "theorems": [
    "C72_separator_refuted",
    "C72_unknown_refuted",
    "C72_repeated_refuted",
    "C72_names_partial"
   ],
   "note": "REFUTED: separators in values, an attribute type outside the table (empties the name), repeated attributes. Proved: without \"=\" in values the text determines the last value of every known type."
  },
  {
   "property": "C73",
   "status": "proved",
   "theorems": [
    "C73_sound",
    "C73_exact",
    "C73_ends"
   ],
   "note": "C73_sound: every byte string as certificate, issuer key with odd modulus. C73_exact: equivalence for DER certificates with a signature of modulus length. The signed bytes are the tbs contents with the header re-encoded in DER. Certificates below 2^24 bytes (bound inherited from the hash theorems)."
  },
  {
   "property": "C74",
   "status": "partial",
   "theorems": [
    "C74_ca_refuted",
    "C74_fields"
   ],
   "note": "REFUTED: real certificates, a chain through a certificate with cA = FALSE is accepted; C74_fields: only validity and key of the issuer are looked at."
  },
  {
   "property": "C75",
   "status": "proved",
   "theorems": [
    "C75_sound"
   ],
   "note": "Every store and list, every certificate of the path valid at the given time."
  },
  {
   "property": "C76",
   "status": "proved",
   "theorems": [
    "C76_ends",
    "C76_list",
    "C76_empty"
   ],
   "note": "Keys are those the parser makes. The list is changed: rejected entries become empty certificates (C76_list). An empty list is undefined behaviour (C76_empty). The store is not written by the code."
  },
  {
   "property": "C77",
   "status": "partial",
   "theorems": [
    "C77_complete_partial",
    "C77_order_refuted",
    "C77_stored_refuted"
   ],
   "note": "REFUTED: with two intermediates of the same name the order decides (C77_order_refuted, real certificates); a certificate that is itself in the store is never trusted (C77_stored_refuted). Proved for distinct subjects not in the store, every permutation."
  },
  {
   "property": "C78",
   "status": "proved",
   "theorems": [
    "C78_lookup",
    "C78_last",
    "C78_none"
   ],
   "note": ""
  },
  {
   "property": "C79",
   "status": "proved",
   "theorems": [
    "C79_text"
   ],
   "note": ""
  },
  {
   "property": "C80",
   "status": "proved",
   "theorems": [
    "C80_keys"
   ],
   "note": ""
  },
  {
   "property": "C81",
   "status": "proved",
   "theorems": [
    "C81_fields"
   ],
   "note": "Version 3 RSA certificates with dates 1970-2099, attribute types of the table, modulus odd, exponent at least 17."
  },
  {
   "property": "C82",
   "status": "proved",
   "theorems": [
    "C82_private_key",
    "C82_pem"
   ],
   "note": "PKCS#1 DER and PEM."
  },
  {
   "property": "C83",
   "status": "partial",
   "theorems": [
    "C83_parse_refuted",
    "C83_zero_modulus",
    "C83_parse_partial"
   ],
   "note": "REFUTED: a certificate of 117 bytes with modulus 0 makes the parser loop for ever. C83_parse_partial: nothing else does, on every byte string."
  },
  {
   "property": "C84",
   "status": "proved",
   "theorems": [
    "C84_small_order"
   ],
   "note": ""
  },
  {
   "property": "C85",
   "status": "proved",
   "theorems": [
    "C85_nonzero"
   ],
   "note": "Uses the order of the base point, with a primality certificate."
  },
  {
   "property": "C86",
   "status": "proved",
   "theorems": [
    "C86_public_keys"
   ],
   "note": ""
  },
  {
   "property": "C87",
   "status": "proved",
   "theorems": [
    "C87_secrets_differ"
   ],
   "note": ""
  },
  {
   "property": "C88",
   "status": "proved",
   "theorems": [
    "C88_forgery_bound"
   ],
   "note": "Counts hash subkeys; the values of the block cipher on other blocks are arbitrary."
  },
  {
   "property": "C89",
   "status": "proved",
   "theorems": [
    "C89_two_bits"
   ],
   "note": ""
  },
  {
   "property": "C90",
   "status": "proved",
   "theorems": [
    "C90_distance",
    "C90_sharp"
   ],
   "note": "The absence of sums of two powers of x within the span is evaluated by the kernel; the reduction to it is proved."
  },
  {
   "property": "C91",
   "status": "proved",
   "theorems": [
    "C91_residue"
   ],
   "note": ""
  },
  {
   "property": "C92",
   "status": "proved",
   "theorems": [
    "C92_inverse",
    "C92_secret_identifies_peer_refuted"
   ],
   "note": "C92_secret_identifies_peer_refuted shows that C87 does not extend to peer keys that are not honestly generated."
  },
  {
   "property": "C93",
   "status": "proved",
   "theorems": [
    "C93_md5",
    "C93_sha1",
    "C93_sha256",
    "C93_sha512",
    "C93_sha224",
    "C93_sha384"
   ],
   "note": "The colliding inputs are named: they occur in the two computations."
  },
  {
   "property": "C94",
   "status": "proved",
   "theorems": [
    "C94_md5",
    "C94_sha1",
    "C94_sha256",
    "C94_sha512"
   ],
   "note": ""
  },
  {
   "property": "C95",
   "status": "partial",
   "theorems": [
    "C95_null_key_refuted",
    "C95_short_signature_refuted",
    "C95_null_key",
    "C95_short_signature",
    "C95_answers_partial"
   ],
   "note": "REFUTED: an issuer whose key is not RSA has a null key which verify dereferences (C95_null_key for all such issuers, witness with a P-256 root), and a signature shorter than the DigestInfo makes the padding loop run away (C95_short_signature, witness). C95_answers_partial: with keys present and signatures long enough there always is an answer."
  },
  {
   "property": "C96",
   "status": "partial",
   "theorems": [
    "C96_more_trust_refuted",
    "C96_store_partial",
    "C96_list_partial"
   ],
   "note": "REFUTED: adding a certificate with the name of an intermediate, or the leaf itself, to the store makes an accepted list refused. Proved when the name of the new certificate is new to store and list and no two certificates in the list share a name."
  },
  {
   "property": "C97",
   "status": "partial",
   "theorems": [
    "C97_critical_refuted",
    "C97_ignored"
   ],
   "note": "REFUTED: a leaf with an unknown critical extension is trusted. C97_ignored: extensions and unique identifiers never influence the parsed fields."
  },
  {
   "property": "C98",
   "status": "proved",
   "theorems": [
    "C98_one_place",
    "C98_replay",
    "C98_aes_replay"
   ],
   "note": ""
  },
  {
   "property": "C99",
   "status": "partial",
   "theorems": [
    "C99_recovery_refuted",
    "C99_never_recovers",
    "C99_out_of_step"
   ],
   "note": "REFUTED: the message counter of the receiver advances on refused messages too, so one forged message makes it refuse every later genuine one (C99_never_recovers: for all ciphers, nonces, forged messages and traffic; witness with AES-128)."
  },
  {
   "property": "C100",
   "status": "proved",
   "theorems": [
    "C100_pkcs1",
    "C100_pss"
   ],
   "note": ""
  },
  {
   "property": "C101",
   "status": "partial",
   "theorems": [
    "C101_bytes_refuted",
    "C101_content",
    "C101_uncovered"
   ],
   "note": "REFUTED for the certificate as a whole: algorithm parameters, the unused-bits byte and trailing bytes can be changed (C101_uncovered for all certificates, witness on a signed one). Proved for the to-be-signed content (C101_content)."
  },
  {
   "property": "C102",
   "status": "partial",
   "theorems": [
    "C102_side_channel_refuted",
    "C102_same_result",
    "C102_field",
    "C102_loops_partial"
   ],
   "note": "REFUTED for the conditional operators: the ?: of bignum subtraction (bignum.h:164) and of EcValue subtraction are taken differently for two private keys, already in the third ladder step. Proved: loops and array indices never depend on the key or the coordinate (C102_loops_partial), and addition, multiplication, inversion, exchange and clamping show nothing at all (C102_field). Not claimed: what a compiler makes of ?: (it may emit no branch)."
  },
  {
   "property": "C103",
   "status": "partial",
   "theorems": [
    "C103_side_channel_refuted",
    "C103_exponent",
    "C103_same_result",
    "C103_loops_partial"
   ],
   "note": "REFUTED: the choice of the factor in mont.h:94 spells the private exponent bit by bit, for every key and message (C103_exponent). Proved: loops and array indices are independent of key and message."
  },
  {
   "property": "C104",
   "status": "proved",
   "theorems": [
    "C104_any_checksum",
    "C104_affine"
   ],
   "note": ""
  },
  {
   "property": "C105",
   "status": "partial",
   "theorems": [
    "C105_same_value_refuted",
    "C105_race_refuted",
    "C105_pop_refuted",
    "C105_accesses",
    "C105_in_turn_partial",
    "C105_alone"
   ],
   "note": "REFUTED: the generator is one unsynchronised static; two calls in step return the same value in every state (C105_same_value_refuted), and a data race is reachable (C105_race_refuted). Proved for calls that do not overlap. Interleavings of single accesses are the model; C++ promises less."
  },
  {
   "property": "C106",
   "status": "proved",
   "theorems": [
    "C106_permutation",
    "C106_collision",
    "C106_last_block",
    "C106_exists"
   ],
   "note": "Collisions exist by counting (C106_exists), so the hypotheses of C106_collision are met although no pair is known."
  },
  {
   "property": "C107",
   "status": "proved",
   "theorems": [
    "C107_sealed",
    "C107_opened"
   ],
   "note": ""
  },
  {
   "property": "C108",
   "status": "proved",
   "theorems": [
    "C108_channel"
   ],
   "note": "SHA-256 and SHA-512; for SHA-384 the key schedule is not that of RFC 8446, see C23."
  },
  {
   "property": "C109",
   "status": "proved",
   "theorems": [
    "C109_chain_trusted"
   ],
   "note": "Distinct subject names are needed: see C77_order_refuted."
  },
  {
   "property": "C110",
   "status": "partial",
   "theorems": [
    "C110_roots_partial",
    "C110_last_refuted"
   ],
   "note": "REFUTED: of two or more root certificates the last one of the file is missing from the store, for every file (C110_last_refuted). Proved: chains to all others are trusted."
  },
  {
   "property": "C111",
   "status": "proved",
   "theorems": [
    "C111_server",
    "C111_issue",
    "C111_two_primes"
   ],
   "note": "For the SHA-256 schemes; the other PSS schemes do not work, see C63."
  },
  {
   "property": "C112",
   "status": "partial",
   "theorems": [
    "C112_prime_refuted",
    "C112_prime",
    "C112_told_apart",
    "C112_same_result"
   ],
   "note": "REFUTED: for every size and state of the generator, whoever sees the choices of mont.h:94 while a prime is searched knows the prime (C112_prime)."
  },
  {
   "property": "C113",
   "status": "partial",
   "theorems": [
    "C113_key_refuted",
    "C113_encode_refuted",
    "C113_decode",
    "C113_encode",
    "C113_cache_lines",
    "C113_same_result"
   ],
   "note": "REFUTED: the table indices are the text (decoding) and the six bit groups of the data (encoding), for every text; loading a PEM private key shows the key. What an observer of cache lines sees is characterised exactly (C113_cache_lines)."
  },
  {
   "property": "C114",
   "status": "proved",
   "theorems": [
    "C114_chacha20",
    "C114_aes_gcm",
    "C114_same_result"
   ],
   "note": "The key schedule is straight-line code and not recorded. The instructions of AES-NI and carry-less multiplication, and the vector operations, are taken to show nothing."
  },
  {
   "property": "C115",
   "status": "partial",
   "theorems": [
    "C115_counter_refuted",
    "C115_tag_refuted"
   ],
   "note": "REFUTED: for every key and every IV of another size the last byte of the first counter block (a keyed hash of the IV) shows in any message of 4081 bytes or more; for every IV the comparison of tags shows the number of right leading bytes, if std::array::operator== stops at the first difference, as the standard allows."
  },
  {
   "property": "C116",
   "status": "partial",
   "theorems": [
    "C116_commitment_refuted",
    "C116_aes_refuted"
   ],
   "note": "REFUTED: for every two block ciphers with different hash subkeys, all IVs and histories, every beginning of the ciphertext can be completed to a message both accept."
  },
  {
   "property": "C117",
   "status": "partial",
   "theorems": [
    "C117_reuse_refuted"
   ],
   "note": "REFUTED: one function turns any two such messages into valid tags for all other messages, for every key, IV and history."
  },
  {
   "property": "C118",
   "status": "proved",
   "theorems": [
    "C118_hash",
    "C118_hmac",
    "C118_expand",
    "C118_traffic_keys",
    "C118_finished_key",
    "C118_handshake_secret",
    "C118_master_secret"
   ],
   "note": "Each theorem also says that the recorded run gives the result of the model without records."
  },
  {
   "property": "C119",
   "status": "partial",
   "theorems": [
    "C119_text_refuted",
    "C119_text_shows_hash"
   ],
   "note": "REFUTED: the two halves of each byte of the hash are looked up in a table; the record is the same exactly when the hash is the same (proved for SHA-256 and SHA-512)."
  },
  {
   "property": "C120",
   "status": "partial",
   "theorems": [
    "C120_names_refuted",
    "C120_listed_refuted",
    "C120_unlisted_refuted",
    "C120_case_refuted",
    "C120_wildcard_refuted",
    "C120_nameless"
   ],
   "note": "REFUTED: extensions are skipped; a certificate applies to its last common name, byte for byte, and to nothing else (also C81)."
  },
  {
   "property": "C121",
   "status": "proved",
   "theorems": [
    "C121_hmac",
    "C121_expand",
    "C121_traffic",
    "C121_transcript",
    "C121_keys",
    "C121_finished",
    "C121_handshake",
    "C121_master"
   ],
   "note": "Reduction to an explicit pair of messages among those hashed; by C93 a full collision in turn gives a collision of the block function (MD5, SHA-1, SHA-2)."
  },
  {
   "property": "C122",
   "status": "partial",
   "theorems": [
    "C122_refuted",
    "C122_imposter"
   ],
   "note": "REFUTED: the holder of any trusted end entity certificate is accepted as any host (C122_imposter for all of them; C122_refuted with one marked cA = FALSE)."
  },
  {
   "property": "C123",
   "status": "proved",
   "theorems": [
    "C123_keystream",
    "C123_blocks",
    "C123_messages",
    "C123_aes"
   ],
   "note": "Blocks of fewer than 16 bytes are not covered: there ciphertexts may coincide."
  },
  {
   "property": "C124",
   "status": "partial",
   "theorems": [
    "C124_refuted",
    "C124_alter",
    "C124_replace",
    "C124_truncate",
    "C124_reuse"
   ],
   "note": "REFUTED: there is no authentication (USAGE.md lists poly1305 as to do); C124_alter, C124_replace and C124_truncate hold for every key, nonce and message."
  },
  {
   "property": "C125",
   "status": "partial",
   "theorems": [
    "C125_unreadable",
    "C125_trusted",
    "C125_short_refuted",
    "C125_counted_on",
    "C125_impossible_refuted"
   ],
   "note": "REFUTED: dates that do not exist are accepted (C125_impossible_refuted, trusted chain; C125_counted_on for all of them from 1970 to 2099), short times are undefined behaviour (C125_short_refuted, for all certificates). C125_unreadable: unreadable times are never trusted when the roots start after 1970."
  },
  {
   "property": "C126",
   "status": "proved",
   "theorems": [
    "C126_within",
    "C126_outside",
    "C126_no_gaps"
   ],
   "note": "For all stores and lists."
  },
  {
   "property": "C127",
   "status": "proved",
   "theorems": [
    "C127_checks",
    "C127_none"
   ],
   "note": "The number of checks is observed by letting the check depend on how many were made before; C127_case shows that the bound is reached."
  },
  {
   "property": "C128",
   "status": "partial",
   "theorems": [
    "C128_key",
    "C128_remainder",
    "C128_refuted"
   ],
   "note": "REFUTED: C128_refuted, a certificate that is invalid under the 4097-bit key of the root is trusted. C128_key: the key read is the stated one modulo 2^4096, so the claim holds below 4096 bits; C128_remainder: any key for the remainder issues certificates."
  },
  {
   "property": "C129",
   "status": "partial",
   "theorems": [
    "C129_ignored",
    "C129_refuted"
   ],
   "note": "REFUTED: C129_refuted, a certificate that states MD5 inside and SHA-256 outside is trusted; C129_ignored: the inner statement changes nothing, for all certificates."
  },
  {
   "property": "C130",
   "status": "partial",
   "theorems": [
    "C130_floor",
    "C130_chain",
    "C130_refuted"
   ],
   "note": "REFUTED for a minimum of 2048 bits: C130_refuted, a trusted chain of 496-bit keys. C130_floor and C130_chain: lower bounds that do hold, for all certificates."
  },
  {
   "property": "C131",
   "status": "partial",
   "theorems": [
    "C131_one",
    "C131_determined",
    "C131_bytes",
    "C131_predict_refuted"
   ],
   "note": "REFUTED: C131_predict_refuted, a function from sixteen bytes of output to the state after them, right for every state. C131_one: one value leaves at most two candidates for the state."
  },
  {
   "property": "C132",
   "status": "partial",
   "theorems": [
    "C132_same_result",
    "C132_message_refuted",
    "C132_lines"
   ],
   "note": "REFUTED: C132_message_refuted, a function from the accesses to the data, right for all data. C132_lines: at the grain of cache lines the upper half of a byte after known data still shows."
  },
  {
   "property": "C133",
   "status": "partial",
   "theorems": [
    "C133_singles",
    "C133_names",
    "C133_replaced_refuted",
    "C133_never_trusted_refuted",
    "C133_refuted"
   ],
   "note": "REFUTED: C133_refuted, a properly issued certificate with a domain component in its names. C133_names says what becomes of every name; C133_replaced_refuted and C133_never_trusted_refuted are universal."
  },
  {
   "property": "C134",
   "status": "proved",
   "theorems": [
    "C134_hash",
    "C134_hmac"
   ],
   "note": "Each theorem also says that the recorded run, with the assignments of SHA-3 in place, gives the result of the model without records. With C118 all ten classes are covered."
  },
  {
   "property": "C135",
   "status": "partial",
   "theorems": [
    "C135_text_refuted",
    "C135_text_shows_hash"
   ],
   "note": "REFUTED: the record is the same exactly when the hash is the same, for all six classes; two messages with different hashes are given for MD5, SHA-1 and SHA3-256."
  },
  {
   "property": "C136",
   "status": "partial",
   "theorems": [
    "C136_every_string_refuted",
    "C136_rest",
    "C136_bytes",
    "C136_primes",
    "C136_moduli",
    "C136_private_keys"
   ],
   "note": "REFUTED: the state is one value of 64 bits; every list of different results, over all seeds, has at most 2^64 entries. Not counted: prepared test values, and the branch for PLATFORM_HAS_RDSEED, which no build file defines."
  },
  {
   "property": "C137",
   "status": "partial",
   "theorems": [
    "C137_whole_key_refuted",
    "C137_mac",
    "C137_extract",
    "C137_expand"
   ],
   "note": "REFUTED: for all hashes, keys, continuations and texts. C121_hmac has the other direction: equal MACs mean equal beginnings of the keys or a collision of the hash."
  },
  {
   "property": "C138",
   "status": "partial",
   "theorems": [
    "C138_next_refuted",
    "C138_secret_refuted",
    "C138_state",
    "C138_salt"
   ],
   "note": "REFUTED: for all keys, messages and seeds. The function that finds the state is given by a search over the 2^64 states; C131 shows that two values leave one state. Not covered: prepared test values and the branch for PLATFORM_HAS_RDSEED, which no build file defines."
  },
  {
   "property": "C139",
   "status": "partial",
   "theorems": [
    "C139_shows_refuted",
    "C139_cbc",
    "C139_ecb"
   ],
   "note": "REFUTED, and the equivalences say exactly what shows. The cipher is any injective function on blocks; C25 shows that AES is one."
  },
  {
   "property": "C140",
   "status": "proved",
   "theorems": [
    "C140_numbers",
    "C140_private_keys",
    "C140_different",
    "C140_coprime"
   ],
   "note": "For the generator without PLATFORM_HAS_RDSEED, which no build file defines, used by one thread (C105 has two). Between runs nothing differs (C52). C140_case computes two numbers; that a call returns a prime is computed only for 32 bits (C52_prime_refuted)."
  },
  {
   "property": "C141",
   "status": "proved",
   "theorems": [
    "C141_strings",
    "C141_signatures"
   ],
   "note": "For the generator without PLATFORM_HAS_RDSEED, which no build file defines, used by one thread (C105 has two). Between runs nothing differs (C52). PKCS 1.5 signatures have no salt and are not included. C141_case has the key and computes two salts, not the two signatures."
  }
 ]
}
