{"id": "C01", "title": "base64 round trip", "statement": "Decoding the output of base64() with base64d() returns exactly the original bytes, whichever alphabet, newline and '=' options were used for encoding.", "quantifier": "every byte string, every alphabet (3), every combination of withNewlines/omitEqs", "why_tests_cant": "there are infinitely many byte strings and every line-wrap / padding phase must work; the tests use three fixed strings with default options", "anchors": ["src/base64.cpp: base64, base64d, valueOf, getLookupFor", "include/caligo/base64.h: Base64CharSet"]}
{"id": "C02", "title": "base64 output is the RFC 4648 encoding, wrapped at 76 columns", "statement": "With newlines stripped, the output of base64() is the RFC 4648 encoding of the data under the selected alphabet (with or without '=' padding); with newlines enabled no line is longer than 76 characters and the output is otherwise unchanged; without newlines no newline occurs.", "quantifier": "every byte string, alphabet and option combination", "why_tests_cant": "needs all residues modulo 3 and 57 of every length with every content", "anchors": ["src/base64.cpp: base64"]}
{"id": "C03", "title": "base64 decoder ignores everything outside the alphabet", "statement": "base64d() gives the same bytes when characters outside the decoding alphabet are inserted or removed anywhere in the text, never reads outside its input or tables, and returns floor(6k/8) bytes when k alphabet characters are present.", "quantifier": "every character string", "why_tests_cant": "arbitrary strings over 256 characters", "anchors": ["src/base64.cpp: base64d, valueOf"]}
{"id": "C04", "title": "base64 texts can be concatenated", "statement": "Decoding the concatenation of two encoded texts gives the concatenation of the two data strings (as line-oriented consumers such as PEM readers assume).", "quantifier": "every pair of byte strings", "why_tests_cant": "the failure depends on padding phases; no test decodes a concatenation", "anchors": ["src/base64.cpp: base64d"]}
{"id": "C05", "title": "CRC-32 equals the reflected polynomial definition", "statement": "For every message the CRC32 object reports the IEEE 802.3 CRC-32 (reflected polynomial 0xEDB88320, initial value and final xor all ones, big-endian byte array), independently of how the message was split over add() calls.", "quantifier": "every byte string and every split into add() calls", "why_tests_cant": "table of 256 entries and unbounded messages; tests check a few strings", "anchors": ["src/crc.cpp: crcTable, CRC32::add, operator std::array", "src/crc.cpp: CRC32", "include/caligo/crc.h"]}
{"id": "C06", "title": "CRC-32 detects every short burst", "statement": "Two messages of equal length that differ, and whose differences all lie within 32 consecutive bits, never have the same CRC-32.", "quantifier": "every pair of equal-length messages differing only inside a window of 32 bits", "why_tests_cant": "infinitely many message pairs; detection guarantee is universal", "anchors": ["src/crc.cpp: CRC32::add"]}
{"id": "C07", "title": "Hash objects: splitting the input does not matter", "statement": "For MD5, SHA1, SHA2<224/256/384/512> and SHA3<224/256/384/512>, the digest after any sequence of add() calls depends only on the concatenation of the added data.", "quantifier": "every list of byte strings", "why_tests_cant": "all splits of all messages across chunk boundaries (block sizes 64, 128 and the sponge rates)", "anchors": ["src/md5.cpp", "src/sha1.cpp", "src/sha2.cpp", "src/sha3.cpp: add, processChunk"]}
{"id": "C08", "title": "Hash objects: reading a digest does not disturb the object", "statement": "Converting a hash object to its digest (any number of times, at any points between add() calls) never changes any later digest, as USAGE.md promises.", "quantifier": "every interleaving of add() and digest reads on one object", "why_tests_cant": "all histories of two operations; padding code works on a copy and must not leak back", "anchors": ["USAGE.md", "src/md5.cpp", "src/sha1.cpp", "src/sha2.cpp", "src/sha3.cpp: operator std::array"]}
{"id": "C09", "title": "Hash objects: result independent of uninitialised buffer contents, no out-of-bounds access", "statement": "The internal chunk buffer starts uninitialised; no digest depends on its initial content, and no add()/digest sequence reads or writes outside the object's arrays.", "quantifier": "every initial buffer content, every sequence of add() calls", "why_tests_cant": "tests see one particular memory content per run", "anchors": ["src/md5.cpp", "src/sha1.cpp", "src/sha2.cpp", "src/sha3.cpp"]}
{"id": "C10", "title": "MD5 equals RFC 1321", "statement": "For every message shorter than 2^61 bytes the MD5 object's digest is the RFC 1321 digest.", "quantifier": "every byte string shorter than 2^61", "why_tests_cant": "unbounded message lengths and contents", "anchors": ["src/md5.cpp: MD5::processChunk, MD5::add, operator std::array"]}
{"id": "C11", "title": "SHA-1 equals FIPS 180-4", "statement": "For every message shorter than 2^61 bytes the SHA1 object's digest is the FIPS 180-4 SHA-1 digest.", "quantifier": "every byte string shorter than 2^61", "why_tests_cant": "unbounded message lengths and contents", "anchors": ["src/sha1.cpp: SHA1::processChunk, SHA1::add, operator std::array"]}
{"id": "C12", "title": "SHA-224/SHA-256 equal FIPS 180-4", "statement": "For every message shorter than 2^61 bytes SHA2<256> and SHA2<224> report the FIPS 180-4 digests.", "quantifier": "every byte string shorter than 2^61", "why_tests_cant": "unbounded message lengths and contents; SHA2<224> has few tests", "anchors": ["src/sha2.cpp: SHA2<256>::processChunk, SHA2<256>::add, SHA2<224>"]}
{"id": "C13", "title": "SHA-384/SHA-512 equal FIPS 180-4", "statement": "For every message shorter than 2^61 bytes SHA2<512> and SHA2<384> report the FIPS 180-4 digests.", "quantifier": "every byte string shorter than 2^61", "why_tests_cant": "unbounded message lengths and contents", "anchors": ["src/sha2.cpp: SHA2<512>::processChunk, SHA2<512>::add, SHA2<384>"]}
{"id": "C14", "title": "SHA-3 equals FIPS 202", "statement": "For every message SHA3<224/256/384/512> report the FIPS 202 digests (Keccak-f[1600] sponge with the 01 suffix and pad10*1).", "quantifier": "every byte string", "why_tests_cant": "unbounded message lengths; every residue modulo the rate", "anchors": ["src/sha3.cpp: SHA3::processChunk, add, operator std::array"]}
{"id": "C15", "title": "The SHA-2 and Keccak constants are the standard's derived constants", "statement": "The round constants and initial values of SHA-2 used by the digests are the leading fractional bits of square/cube roots of primes, and the Keccak round constants and rotation offsets those produced by the FIPS 202 LFSR and rho walk.", "quantifier": "every constant in every table", "why_tests_cant": "a wrong table entry is only exercised by particular data in a test; the definition is a mathematical characterisation", "anchors": ["src/sha2.cpp: k tables, initial h", "src/sha3.cpp: round constants"]}
{"id": "C16", "title": "A hash name selects the algorithm it names", "statement": "Constructing Hash with the name of a supported algorithm yields that algorithm's digest, and an unknown name is rejected.", "quantifier": "every string", "why_tests_cant": "all strings; the dispatch has a fall-through that no test hits", "anchors": ["src/hash.cpp: Hash::Hash"]}
{"id": "C17", "title": "Hex string and byte digest agree", "statement": "For every hash class the std::string conversion is the lower-case hexadecimal form of the bytes returned by data().", "quantifier": "every message, every hash class", "why_tests_cant": "SHA2<224>/SHA2<384> inherit the conversion of a wider hash", "anchors": ["src/sha2.cpp", "include/caligo/sha2.h", "src/md5.cpp", "src/sha1.cpp", "src/sha3.cpp: operator std::string"]}
{"id": "C18", "title": "DigestInfo prefixes are consistent", "statement": "The DER DigestInfo prefix reported by a hash class has outer and inner lengths consistent with the digest size, so prefix ++ digest is a well-formed DER SEQUENCE.", "quantifier": "every hash class and digest", "why_tests_cant": "tests never parse the prefix", "anchors": ["include/caligo/sha3.h: getAsn1Id", "include/caligo/sha2.h: getAsn1Id", "include/caligo/sha1.h", "include/caligo/md5.h"]}
{"id": "C19", "title": "HMAC equals RFC 2104", "statement": "HMAC<Hash> equals RFC 2104 HMAC for every hash and every key and message.", "quantifier": "every key, message and hash class", "why_tests_cant": "the block size is derived as 2*hashsize and long keys are never hashed; the tests only use SHA-256 with short keys", "anchors": ["include/caligo/hkdf.h: HMAC"]}
{"id": "C20", "title": "HKDF-Expand equals RFC 5869 and is prefix-consistent", "statement": "HKDF_Expand returns exactly the requested number of bytes, equals RFC 5869 for lengths up to 255*hashLen, and shorter outputs are prefixes of longer ones.", "quantifier": "every PRK, info and length", "why_tests_cant": "all lengths and their phase against the hash size", "anchors": ["include/caligo/hkdf.h: HKDF_Expand, HKDF_Extract"]}
{"id": "C21", "title": "HKDF-Expand rejects over-long requests", "statement": "Requests longer than 255*hashLen bytes are refused instead of returning key material with a wrapped block counter.", "quantifier": "every length", "why_tests_cant": "lengths beyond 8160 bytes are never requested in tests", "anchors": ["include/caligo/hkdf.h: HKDF_Expand"]}
{"id": "C22", "title": "HKDF-Expand-Label encodes its arguments injectively", "statement": "Two different (length, label, context) triples within the TLS 1.3 size limits never produce the same HkdfLabel info string, and the string is the RFC 8446 encoding.", "quantifier": "every pair of triples", "why_tests_cant": "injectivity is a statement about all pairs", "anchors": ["include/caligo/hkdf.h: HKDF_Expand_Label"]}
{"id": "C23", "title": "TLS 1.3 key schedule", "statement": "The handshake and master secret derivations equal the RFC 8446 section 7.1 schedule for every shared secret and transcript hash.", "quantifier": "every shared secret and transcript", "why_tests_cant": "all inputs; a swapped label or secret only shows against an independent definition", "anchors": ["include/caligo/hkdf.h: HKDF_HandshakeSecret, HKDF_MasterSecret", "include/caligo/key_iv_pair.h"]}
{"id": "C24", "title": "AES equals FIPS-197", "statement": "AesKeySchedule<128/256> followed by AesEncrypt equals the FIPS-197 cipher with the FIPS-197 key expansion.", "quantifier": "every 16- or 32-byte key and every block", "why_tests_cant": "2^128 blocks times 2^256 keys", "anchors": ["src/aes.cpp: AesKeySchedule", "include/caligo/aes.h: AesEncrypt"]}
{"id": "C25", "title": "AES encryption under one key is a permutation", "statement": "Under a fixed key two different blocks never encrypt to the same block, and every block is hit.", "quantifier": "every key, every pair of blocks", "why_tests_cant": "2^128 blocks", "anchors": ["include/caligo/aes.h: AesEncrypt"]}
{"id": "C26", "title": "GHASH multiplication equals SP 800-38D", "statement": "The carry-less multiply and reduction used by GHASH is multiplication in GF(2^128) with the GCM bit order.", "quantifier": "every pair of 128-bit blocks", "why_tests_cant": "2^256 operand pairs", "anchors": ["include/caligo/ghash.h: galoisMultiply, Ghash"]}
{"id": "C27", "title": "GHASH of a message equals SP 800-38D", "statement": "GCM<..>::ghash(ciphertext, aad) returns the SP 800-38D GHASH, under the hash subkey, of the zero-padded associated data, the zero-padded ciphertext and the two 64-bit bit lengths.", "quantifier": "every hash key, every pair of byte strings", "why_tests_cant": "unbounded inputs", "anchors": ["include/caligo/ghash.h: Ghash::add"]}
{"id": "C28", "title": "GCM encryption of the first message equals SP 800-38D", "statement": "For 12-byte and longer (or 8-byte) IVs the first Encrypt on a fresh GCM object returns the SP 800-38D ciphertext and tag.", "quantifier": "every key, IV, associated data and plaintext within the mode's limits", "why_tests_cant": "unbounded inputs", "anchors": ["include/caligo/gcm.h: GCM::Encrypt"]}
{"id": "C29", "title": "GCM peers in lockstep always agree", "statement": "Two GCM objects with the same key and IV used as sender and receiver recover every plaintext with valid=true, for every sequence of messages processed in order.", "quantifier": "every message history (within 2^64 messages)", "why_tests_cant": "histories of arbitrary length", "anchors": ["include/caligo/gcm.h: Encrypt, Decrypt, message_counter"]}
{"id": "C30", "title": "GCM accepts exactly the correct tag", "statement": "Decrypt reports valid iff the supplied tag is the tag GCM computes for that ciphertext, associated data and counter; in particular any tag different from the one produced by Encrypt is rejected for an otherwise unmodified message.", "quantifier": "every ciphertext, aad and tag", "why_tests_cant": "2^128 tags, unbounded data", "anchors": ["include/caligo/gcm.h: Decrypt"]}
{"id": "C31", "title": "GCM never releases plaintext of an invalid message", "statement": "When Decrypt reports valid=false no plaintext derived from the ciphertext is returned.", "quantifier": "every invalid message", "why_tests_cant": "the rejected path's output is never inspected by tests", "anchors": ["include/caligo/gcm.h: Decrypt"]}
{"id": "C32", "title": "GCM never reuses a counter block", "statement": "Over the lifetime of one GCM object (up to 2^64 messages of fewer than 2^32-1 blocks, 12-byte IV) no AES input block is used twice for keystream or tag mask.", "quantifier": "every history, every pair of (message, block) positions", "why_tests_cant": "needs all pairs across unbounded histories", "anchors": ["include/caligo/gcm.h: message_counter, ctr handling"]}
{"id": "C33", "title": "GCM rejects unusable parameters", "statement": "An IV length the mode does not support, or a message longer than the 2^32-2 block limit, is reported as an error rather than silently producing an unauthenticated or keystream-repeating result.", "quantifier": "every IV length and every message length", "why_tests_cant": "lengths beyond test coverage", "anchors": ["include/caligo/gcm.h: GCM constructor, Encrypt"]}
{"id": "C34", "title": "CTR mode hides the plaintext", "statement": "CTR Encrypt produces plaintext xor the cipher's keystream for consecutive counter values, and Decrypt inverts it.", "quantifier": "every key, counter and plaintext", "why_tests_cant": "no test exists for the class; property is over all inputs", "anchors": ["include/caligo/ctr.h: CTR::Encrypt"]}
{"id": "C35", "title": "ECB and CBC round trip", "statement": "For a cipher whose Decrypt inverts Encrypt, ECB and CBC decryption recover every padded plaintext.", "quantifier": "every cipher permutation, IV and plaintext", "why_tests_cant": "universal over permutations and data", "anchors": ["include/caligo/legacy/ecb.h", "include/caligo/legacy/cbc.h"]}
{"id": "C36", "title": "ChaCha20 equals RFC 8439", "statement": "The ChaCha20 object's keystream is the RFC 8439 keystream for the key and nonce with initial counter 1.", "quantifier": "every 32-byte key, 12-byte nonce and position below 2^38 bytes", "why_tests_cant": "2^352 key/nonce pairs", "anchors": ["include/caligo/chacha20.h: ChaCha20"]}
{"id": "C37", "title": "ChaCha20 streaming and round trip", "statement": "Encrypting data in arbitrary pieces gives the same bytes as encrypting it at once, and decryption by a second object with the same key and nonce recovers the data whatever the piece boundaries on either side.", "quantifier": "every key, nonce, data and both splits", "why_tests_cant": "all splits, including across the internal 64-byte buffer", "anchors": ["include/caligo/chacha20.h: ChaCha20::Encrypt, Decrypt"]}
{"id": "C38", "title": "ChaCha20 keystream does not repeat", "statement": "One object never uses the same keystream block twice: exhaustion of the 32-bit block counter is detected.", "quantifier": "every amount of data", "why_tests_cant": "256 GiB of data needed to observe", "anchors": ["include/caligo/chacha20.h"]}
{"id": "C39", "title": "bignum addition, subtraction and multiplication are exact", "statement": "bignum + and - compute the integer operation modulo 2^width and report the carry or borrow; * gives the full double-width product, also with a single 32-bit factor.", "quantifier": "every width that is a multiple of 32 and every pair of values", "why_tests_cant": "2^(2*width) pairs, every width", "anchors": ["include/caligo/bignum.h: operator+, operator-, operator*, +=, -="]}
{"id": "C40", "title": "bignum comparison is the integer order", "statement": "The comparison and equality operators agree with the integer order of the values.", "quantifier": "every pair of values, every width", "why_tests_cant": "all pairs", "anchors": ["include/caligo/bignum.h: operator<=>, operator=="]}
{"id": "C41", "title": "bignum byte conversion is a bijection", "statement": "Building a bignum from bytes and converting back yields the same bytes; the value is the little-endian value of the bytes. A list of words gives the number with the most significant word first.", "quantifier": "every byte string of the width", "why_tests_cant": "all byte strings", "anchors": ["include/caligo/bignum.h: bignum(std::span<const uint8_t>), as_bytes"]}
{"id": "C42", "title": "bignum shifts and bit tests", "statement": "Shifting and bit inspection correspond to division/multiplication by powers of two and the binary digits of the value.", "quantifier": "every value, every index", "why_tests_cant": "all values", "anchors": ["include/caligo/bignum.h: operator>>, operator<<, operator[], set, clear, slice, operator~"]}
{"id": "C43", "title": "bignum width conversion preserves the value", "statement": "Converting between widths keeps the value when it fits and otherwise reduces it modulo 2^width.", "quantifier": "every pair of widths, every value", "why_tests_cant": "all widths incl. those that are not multiples of 32", "anchors": ["include/caligo/bignum.h: template bignum(const bignum<K>&)"]}
{"id": "C44", "title": "naive_reduce returns the remainder", "statement": "naive_reduce(a, p) returns a mod p for every nonzero p and terminates.", "quantifier": "every a and p", "why_tests_cant": "holds for the operands the tests use but the loop subtracts at most once per shift", "anchors": ["include/caligo/bignum.h: naive_reduce"]}
{"id": "C45", "title": "Constant-time swap", "statement": "ctime_swap exchanges its operands exactly when the flag is set and otherwise leaves both unchanged.", "quantifier": "every pair of values and both flags", "why_tests_cant": "all values", "anchors": ["include/caligo/bignum.h: ctime_swap"]}
{"id": "C46", "title": "Montgomery parameters", "statement": "For every odd modulus N the computed constants satisfy N*Ninv = -1 mod 2^K, and R1, R2, R3 are 2^K, 2^(2K), 2^(3K) modulo N.", "quantifier": "every odd modulus", "why_tests_cant": "all odd moduli", "anchors": ["include/caligo/mont.h: MontgomeryState, RecursiveInverseModPower2"]}
{"id": "C47", "title": "Montgomery exponentiation equals modular exponentiation", "statement": "Converting to Montgomery form, multiplying or raising to any exponent and converting back yields a number congruent to the product or base^exp modulo N and not above N, hence base^exp mod N whenever that is not 0.", "quantifier": "every odd modulus, base and exponent", "why_tests_cant": "all triples", "anchors": ["include/caligo/mont.h: MontgomeryValue::exp, operator bignum"]}
{"id": "C48", "title": "Montgomery results are fully reduced", "statement": "The bignum obtained from a Montgomery value is always the canonical representative in [0, N).", "quantifier": "every value", "why_tests_cant": "boundary value (multiples of N) never tested", "anchors": ["include/caligo/mont.h: operator bignum"]}
{"id": "C49", "title": "Montgomery addition is modular addition", "statement": "Adding two Montgomery values yields the sum modulo N.", "quantifier": "every pair of values", "why_tests_cant": "carry out of the top word occurs only for large values", "anchors": ["include/caligo/mont.h: operator+"]}
{"id": "C50", "title": "Montgomery exponentiation with a machine word exponent", "statement": "exp(uint32_t e) raises to the power e.", "quantifier": "every e", "why_tests_cant": "only e = 65537 is used in tests", "anchors": ["include/caligo/mont.h: exp(uint32_t)"]}
{"id": "C51", "title": "Random fill covers every element", "statement": "Filling a container assigns every element from the generator and leaves nothing unset, for any size and element width.", "quantifier": "every container size", "why_tests_cant": "all sizes", "anchors": ["include/caligo/random.h"]}
{"id": "C52", "title": "Random values are unpredictable", "statement": "Values drawn by the generator cannot be predicted by an observer who knows only the library source.", "quantifier": "every process run", "why_tests_cant": "a single run cannot show that two runs coincide", "anchors": ["include/caligo/random.h", "src/random.cpp"]}
{"id": "C53", "title": "The generator does not cycle early", "statement": "Starting from any seed the generator's internal state takes all 2^64 values before repeating.", "quantifier": "every seed", "why_tests_cant": "2^64 steps", "anchors": ["include/caligo/random.h"]}
{"id": "C54", "title": "The primality test never rejects a prime", "statement": "miller_rabin_is_probably_prime answers true for every prime of every width; for numbers from 7920 on it answers true exactly for the odd numbers that pass the strong test to each of the first 1000 prime bases.", "quantifier": "every prime, every width", "why_tests_cant": "infinitely many primes", "anchors": ["include/caligo/random_prime.h: miller_rabin"]}
{"id": "C55", "title": "The primality test is exact for small numbers and rejects numbers with small factors", "statement": "For every number below 7927^2 = 62837329 the answer is exact; every composite of any size with a prime factor up to 7919 is rejected.", "quantifier": "every number, every width", "why_tests_cant": "infinitely many composites", "anchors": ["include/caligo/random_prime.h: primes table, miller_rabin"]}
{"id": "C56", "title": "Generated primes have full size and are odd", "statement": "random_prime returns a value with its top and bottom bits set (and the second highest in strict mode, so that two such primes multiply to a modulus of full width) that passed the primality test and has no factor below 7920.", "quantifier": "every random sequence", "why_tests_cant": "all generator sequences", "anchors": ["include/caligo/random_prime.h: random_prime"]}
{"id": "C57", "title": "RSA private and public operations invert each other", "statement": "For n = p*q with distinct odd primes and e*d = 1 mod lcm(p-1,q-1), (m^d)^e mod n = m for every m < n through the library's Montgomery code.", "quantifier": "every such key and every m", "why_tests_cant": "all keys and messages", "anchors": ["include/caligo/rsa.h: rsa_private_key, rsa_public_key", "include/caligo/mont.h"]}
{"id": "C58", "title": "MGF1 equals RFC 8017", "statement": "MGF1 returns exactly the requested number of bytes of the RFC 8017 mask, for every seed and supported length.", "quantifier": "every seed and length", "why_tests_cant": "all lengths", "anchors": ["include/caligo/pkcs1.h: MGF1"]}
{"id": "C59", "title": "PSS signatures made by a key verify with it", "statement": "signPss followed by validatePss with the matching public key accepts, for every message and every salt.", "quantifier": "every message, salt and key (modulus size a multiple of 8 bits)", "why_tests_cant": "all messages, salts, keys", "anchors": ["include/caligo/rsa.h: signPss, validatePss"]}
{"id": "C60", "title": "PSS accepts exactly the valid encodings", "statement": "validatePss accepts iff s^e mod n is an RFC 8017 EMSA-PSS encoding of the message's hash with the expected salt length.", "quantifier": "every message and signature", "why_tests_cant": "all signatures", "anchors": ["include/caligo/rsa.h: validatePss"]}
{"id": "C61", "title": "PKCS#1 v1.5 signatures verify", "statement": "A signature made with signPkcs1_5 is accepted by validatePkcs1_5 with the matching key, and is an RFC 8017 signature of the message.", "quantifier": "every message and key", "why_tests_cant": "all messages", "anchors": ["include/caligo/rsa.h: signPkcs1_5, validatePkcs1_5", "include/caligo/pkcs1.h"]}
{"id": "C62", "title": "A signature has one accepted representation", "statement": "For a given message, key and accepted signature integer, no other byte string (other length, s+n) is accepted.", "quantifier": "every signature", "why_tests_cant": "all alternative encodings", "anchors": ["include/caligo/rsa.h: validatePss, validatePkcs1_5"]}
{"id": "C63", "title": "The signing entry point uses the hash it names", "statement": "RsaPrivateKey::sign with a PSS/PKCS1 algorithm identifier produces a signature that the corresponding validate accepts.", "quantifier": "every algorithm identifier and message", "why_tests_cant": "only one identifier tested", "anchors": ["include/caligo/rsa.h", "src/X509Certificate.cpp: sign"]}
{"id": "C64", "title": "Curve25519 field arithmetic", "statement": "Addition, subtraction, multiplication, squaring, small multiplication and inversion agree with arithmetic modulo 2^255-19, and equality decides equality modulo p.", "quantifier": "every pair of field elements (any representation)", "why_tests_cant": "2^512 pairs", "anchors": ["include/caligo/x25519.h: ec_value"]}
{"id": "C65", "title": "X25519 equals RFC 7748", "statement": "X25519(secret, u) equals the RFC 7748 function for every scalar and every u coordinate, including the required masking.", "quantifier": "every 32-byte scalar and u coordinate", "why_tests_cant": "2^512 inputs", "anchors": ["include/caligo/x25519.h: X25519"]}
{"id": "C66", "title": "X25519 key agreement", "statement": "Both parties compute the same shared secret: X25519(a, X25519(b, 9)) = X25519(b, X25519(a, 9)).", "quantifier": "every pair of private keys", "why_tests_cant": "2^512 pairs", "anchors": ["include/caligo/x25519.h: X25519"]}
{"id": "C67", "title": "Field equality and inequality are complementary", "statement": "a != b is the negation of a == b.", "quantifier": "every pair of representations", "why_tests_cant": "only non-canonical representations differ", "anchors": ["include/caligo/x25519.h: operator==, operator!="]}
{"id": "C68", "title": "DER reader returns what was encoded", "statement": "On a well-formed DER element the reader returns its identifier and contents and leaves the reader just behind the element, for every length form.", "quantifier": "every contents and following data", "why_tests_cant": "all lengths, incl. long forms", "anchors": ["include/caligo/Asn1.h: asn1_view::read"]}
{"id": "C69", "title": "DER reader stays inside its input", "statement": "No sequence of reads on arbitrary bytes accesses memory outside the given buffer; malformed input is reported.", "quantifier": "every byte string", "why_tests_cant": "arbitrary malformed bytes", "anchors": ["include/caligo/Asn1.h: asn1_view"]}
{"id": "C70", "title": "Certificate times", "statement": "Certificate validity times are converted to the POSIX time of the stated Gregorian UTC date, preserving order.", "quantifier": "every valid date string", "why_tests_cant": "all dates; leap-year rule", "anchors": ["src/X509Certificate.cpp: date parsing"]}
{"id": "C71", "title": "PEM bundles", "statement": "Parsing a PEM bundle returns one certificate per PEM block, in order.", "quantifier": "every number of certificates", "why_tests_cant": "bundles with two or more certificates are not tested", "anchors": ["src/X509Certificate.cpp: parseCertificatesPem"]}
{"id": "C72", "title": "Distinguished names are compared faithfully", "statement": "Two different subject names never have the same string form used as trust store key.", "quantifier": "every pair of names", "why_tests_cant": "all pairs of names", "anchors": ["src/X509Certificate.cpp: to_string", "src/Truststore.cpp"]}
{"id": "C73", "title": "Certificate verification soundness", "statement": "verify() answers true only if the signature over the to-be-signed bytes is valid under the issuer's public key and the validity periods nest.", "quantifier": "every certificate pair", "why_tests_cant": "all certificates", "anchors": ["src/X509Certificate.cpp: verify"]}
{"id": "C74", "title": "Only certificates allowed to issue can issue", "statement": "A certificate is accepted as issuer only if it is a certification authority.", "quantifier": "every certificate chain", "why_tests_cant": "absence of a check", "anchors": ["src/X509Certificate.cpp: verify", "src/Truststore.cpp: trust"]}
{"id": "C75", "title": "Trust decision soundness", "statement": "trust() answers true only if the leaf chains by valid signatures to a certificate in the store, each link valid at the given time.", "quantifier": "every store and every list of untrusted certificates", "why_tests_cant": "all lists, orders and histories", "anchors": ["src/Truststore.cpp: Truststore::trust"]}
{"id": "C76", "title": "Trust decision terminates and leaves the store unchanged", "statement": "trust() terminates on every input list and does not add or remove trusted certificates.", "quantifier": "every store and list", "why_tests_cant": "loop over mutable list", "anchors": ["src/Truststore.cpp: Truststore::trust"]}
{"id": "C77", "title": "Trust decision completeness and order independence", "statement": "If the supplied certificates contain a chain from the leaf to a trusted certificate the answer is true whatever the order of the intermediates.", "quantifier": "every permutation of the intermediates", "why_tests_cant": "all permutations", "anchors": ["src/Truststore.cpp: Truststore::trust"]}
{"id": "C78", "title": "Trust store lookup", "statement": "get(name) returns the certificate most recently added under that subject name and nothing for other names.", "quantifier": "every history of addCertificate calls", "why_tests_cant": "all histories", "anchors": ["src/Truststore.cpp: get, addCertificate"]}
{"id": "C79", "title": "Text form of a big integer", "statement": "Apart from the blanks between words, to_string(bignum) is the upper-case hexadecimal numeral of the number with leading zeros to the full width, and the formatting buffer is never overrun.", "quantifier": "every width (multiple of 32) and every value", "why_tests_cant": "all values; buffer bound must hold for every width", "anchors": ["include/caligo/bignum.h: to_string"]}
{"id": "C80", "title": "X25519 private keys", "statement": "A generated X25519 private key always has the clamped form (multiple of 8, bit 254 set, bit 255 clear) and keeps every other drawn bit; bits fixed by clamping never influence the result of X25519.", "quantifier": "every drawn value and every pair of scalars", "why_tests_cant": "all scalars; key generation is random", "anchors": ["include/caligo/x25519.h: random_private_key, normalize, X25519"]}
{"id": "C81", "title": "Certificate parsing returns the encoded fields", "statement": "Parsing a well-formed version 3 RSA certificate returns its serial number (modulo 2^128), subject, issuer, host name, validity period and public key as encoded.", "quantifier": "every such certificate, whatever follows it", "why_tests_cant": "all certificates", "anchors": ["src/X509Certificate.cpp: parseCertificate"]}
{"id": "C82", "title": "Private key parsing returns the encoded key", "statement": "Parsing a PKCS#1 RSA private key, in DER or PEM, gives the key with the encoded modulus and private exponent.", "quantifier": "every odd modulus and exponent below 2^4096, every line layout of the PEM text", "why_tests_cant": "all keys and layouts", "anchors": ["src/X509Certificate.cpp: parsePrivateKey"]}
{"id": "C83", "title": "Certificate parsing terminates", "statement": "Parsing returns on every byte string, also from an untrusted peer.", "quantifier": "every byte string", "why_tests_cant": "arbitrary bytes; non-termination is not observable by a test", "anchors": ["src/X509Certificate.cpp: parseCertificate", "include/caligo/mont.h"]}
{"id": "C84", "title": "X25519 on points of small order", "statement": "For the five u coordinates of small order, in every 32-byte representation, X25519 returns the all-zero string for every private key without reporting an error.", "quantifier": "every private key and every representation of such a coordinate", "why_tests_cant": "2^256 keys", "anchors": ["include/caligo/x25519.h: X25519"]}
{"id": "C85", "title": "Honest X25519 exchanges are never degenerate", "statement": "Neither the public key X25519(b, 9) nor the shared secret X25519(a, X25519(b, 9)) is ever the all-zero string.", "quantifier": "every pair of private keys", "why_tests_cant": "2^512 pairs", "anchors": ["include/caligo/x25519.h: X25519"]}
{"id": "C86", "title": "X25519 public keys identify private keys", "statement": "Two private keys have the same public key exactly if their clamped values are equal or add up to eight times the order of the base point.", "quantifier": "every pair of private keys", "why_tests_cant": "2^512 pairs", "anchors": ["include/caligo/x25519.h: X25519, normalize"]}
{"id": "C87", "title": "X25519 secrets identify the peer", "statement": "With a fixed private key, the shared secrets with two peers are equal exactly if the peers' public keys are equal.", "quantifier": "every triple of private keys", "why_tests_cant": "2^768 triples", "anchors": ["include/caligo/x25519.h: X25519"]}
{"id": "C88", "title": "GCM forgeries succeed for few hash subkeys", "statement": "Fix a nonce, a history of processed messages and two different (ciphertext, associated data) pairs with tags. At most as many hash subkeys as the longer pair has 16-byte blocks, plus one, let the same object report both as valid at the same message number.", "quantifier": "every nonce of 12 bytes or any other supported length, every history, every two different pairs below 2^61 bytes, every two tags, every set of block ciphers", "why_tests_cant": "counts accepting keys among 2^128", "anchors": ["include/caligo/gcm.h: GCM::Decrypt", "include/caligo/ghash.h: GHash"]}
{"id": "C89", "title": "CRC-32 detects two wrong bits", "statement": "Two messages differing in exactly two bits have the same CRC-32 exactly if the distance of the two positions is a multiple of 2^32-1; in particular every two-bit error in a message below 512 MB is detected.", "quantifier": "every message and every two bit positions", "why_tests_cant": "all messages of all lengths; the first miss needs half a gigabyte", "anchors": ["src/crc.cpp: CRC32", "include/caligo/crc.h"]}
{"id": "C90", "title": "CRC-32 has distance four up to 11450 bytes", "statement": "Two different messages of the same length of at most 11450 bytes, each followed by its CRC-32, differ in at least four bits; with one byte more there is a pair differing in three.", "quantifier": "every pair of messages of equal length up to 11450 bytes", "why_tests_cant": "2^91600 messages", "anchors": ["src/crc.cpp: CRC32", "include/caligo/crc.h"]}
{"id": "C91", "title": "CRC-32 residue", "statement": "The CRC-32 of a message followed by four bytes is 0x2144DF1C exactly if these are the CRC-32 of the message, least significant byte first.", "quantifier": "every message and every four bytes", "why_tests_cant": "all messages", "anchors": ["src/crc.cpp: CRC32", "include/caligo/crc.h"]}
{"id": "C92", "title": "X25519 and inverse coordinates", "statement": "X25519 gives the same secret for a coordinate and for its inverse modulo 2^255-19, so two different public keys sent by a peer can give the same nonzero secret.", "quantifier": "every private key and every pair of coordinates whose product is 1 modulo 2^255-19, in every representation", "why_tests_cant": "2^256 keys times 2^255 coordinates", "anchors": ["include/caligo/x25519.h: X25519"]}
{"id": "C93", "title": "Digest collisions come from the compression function", "statement": "If two different messages have the same digest, then among the (chaining value, block) pairs compressed for the two messages there are two different ones with the same output (for SHA-224 and SHA-384: with the same leading digest bytes).", "quantifier": "every pair of messages below 2^61 bytes; MD5, SHA-1, SHA-224, SHA-256, SHA-384, SHA-512", "why_tests_cant": "collisions cannot be searched by tests; padding must be injective for every length", "anchors": ["include/caligo/md5.h", "include/caligo/sha1.h", "include/caligo/sha2.h", "src/md5.cpp", "src/sha1.cpp", "src/sha2.cpp"]}
{"id": "C94", "title": "Digests can be extended", "statement": "For MD5, SHA-1, SHA-256 and SHA-512, the digest of a message followed by its padding and further bytes is a function of the digest of the message, its length and the further bytes; so a digest over a secret followed by data is no authentication code.", "quantifier": "every message and every further bytes with total below 2^61 bytes", "why_tests_cant": "all messages", "anchors": ["src/md5.cpp", "src/sha1.cpp", "src/sha2.cpp"]}
{"id": "C95", "title": "Certificate checks always answer", "statement": "verify() and trust() return true or false for every list of certificates that were parsed: they neither fault nor throw.", "quantifier": "every store, every non-empty list of certificates and every time", "why_tests_cant": "the inputs come from the peer; tests use well-formed RSA chains", "anchors": ["src/X509Certificate.cpp: x509certificate::verify", "src/Truststore.cpp: trust", "include/caligo/pkcs1.h: PKCS1"]}
{"id": "C96", "title": "Adding certificates never removes trust", "statement": "A list accepted by trust() is still accepted after another certificate was added to the store, or to the list behind the leaf.", "quantifier": "every store, list, time and added certificate", "why_tests_cant": "all stores and lists; depends on names colliding", "anchors": ["src/Truststore.cpp: trust, addCertificate"]}
{"id": "C97", "title": "Critical extensions are honoured", "statement": "A certificate with an extension marked critical that the library does not process is not accepted; and nothing but the documented fields of a certificate influences the parse result.", "quantifier": "every certificate and every list of extensions", "why_tests_cant": "all extension contents", "anchors": ["src/X509Certificate.cpp: parseCertificate"]}
{"id": "C98", "title": "GCM replays are refused", "statement": "A message that a GCM object accepted is never accepted again by it: with the same ciphertext, associated data and tag, every later attempt is refused, as is every attempt at another position in the stream of an object with the same key and nonce.", "quantifier": "every block cipher that is one-to-one (AES-128 and AES-256 with every key), every nonce, every history, every calls in between fewer than 2^64-1", "why_tests_cant": "all histories and all messages; depends on the tag mask never repeating", "anchors": ["include/caligo/gcm.h: GCM::Decrypt", "include/caligo/ghash.h"]}
{"id": "C99", "title": "A refused message does not disturb later ones", "statement": "After refusing a forged message, a receiving GCM object still accepts the genuine messages of the sender.", "quantifier": "every key, nonce, forged message and later traffic", "why_tests_cant": "all histories", "anchors": ["include/caligo/gcm.h: GCM::Decrypt"]}
{"id": "C100", "title": "One signature, one message", "statement": "If a signature is accepted for two different messages, then the two messages give a collision of the digest function (for PSS: of the messages or of the two salted digests).", "quantifier": "every RSA key and size, every digest, every signature of every accepted length, every pair of messages", "why_tests_cant": "quantifies over pairs of messages nobody can exhibit for a good digest", "anchors": ["include/caligo/rsa.h: validatePkcs1_5, validatePss", "include/caligo/pkcs1.h: PKCS1"]}
{"id": "C101", "title": "A signature covers the certificate", "statement": "A certificate accepted under an issuer is, byte for byte, the one the signature was made for: two different accepted certificates with the same algorithm and signature give a digest collision.", "quantifier": "every issuer with an RSA key and every pair of certificates below 2^24 bytes", "why_tests_cant": "all pairs of certificates", "anchors": ["src/X509Certificate.cpp: x509certificate::verify", "include/caligo/Asn1.h"]}
{"id": "C102", "title": "X25519 is free of side channels", "statement": "The loops executed, the array elements touched and the conditional choices made while computing X25519 are the same for all private keys and coordinates.", "quantifier": "every pair of private keys and every pair of coordinates", "why_tests_cant": "compares the executions of all pairs of secrets", "anchors": ["README.md: Cryptographic note", "include/caligo/x25519.h: X25519", "include/caligo/bignum.h: bignum::operator-=, ctime_swap"]}
{"id": "C103", "title": "The RSA private operation is free of side channels", "statement": "The loops executed, the array elements touched and the conditional choices made while signing are the same for all private exponents.", "quantifier": "every key size, every odd modulus, every pair of private exponents and messages", "why_tests_cant": "compares the executions of all pairs of secrets", "anchors": ["README.md: Cryptographic note", "include/caligo/mont.h: MontgomeryValue::exp", "include/caligo/rsa.h: rsadp"]}
{"id": "C104", "title": "CRC-32 values can be steered", "statement": "Whatever bytes come before and after, for every checksum there is exactly one setting of four adjacent bytes that gives it; and the checksum of the exclusive or of three equally long messages is the exclusive or of their checksums.", "quantifier": "every prefix, suffix and checksum; every three messages of the same length", "why_tests_cant": "a statement about all 2^32 checksums and all messages", "anchors": ["src/crc.cpp: CRC32::add"]}
{"id": "C105", "title": "Threads do not influence each other", "statement": "Threads that draw random values at the same time (for keys, salts and primes) each get values of their own: no value is given twice and no access is undefined.", "quantifier": "every state of the generator, every number of threads, every interleaving of their accesses", "why_tests_cant": "quantifies over interleavings", "anchors": ["README.md: Multithreading", "include/caligo/random.h: generate_random_value", "src/random.cpp: testValues"]}
{"id": "C106", "title": "SHA-3 collisions need a collision inside the sponge", "statement": "The function SHA-3 applies between blocks is one-to-one and reaches every state. Two different messages with the same SHA-3 digest therefore give either two different final states that agree on the digest bits, or different blocks before the last after which the states agree on all the bits no block can change. Messages that differ in the last block only never lead to the same state.", "quantifier": "every state of 25 words; every pair of different messages below 2^64 bytes, each of the four digest sizes", "why_tests_cant": "no test can show the absence of two states with the same successor among 2^1600, and no pair of colliding messages is known to try", "anchors": ["src/sha3.cpp: processChunk", "include/caligo/sha3.h: SHA3"]}
{"id": "C107", "title": "GCM messages are TLS 1.3 records", "statement": "On an object with a 12 byte IV the n-th message (counting from 0, encryptions and decryptions alike) is the AEAD of RFC 8446 5.2: AES-GCM of SP 800-38D under the nonce of 5.3, the IV xored with the sequence number. Decryption calls a text valid exactly when it is that record.", "quantifier": "every AES-128/256 key, every 12 byte IV, every history of fewer than 2^64 calls, every text and associated data below 2^61 bytes", "why_tests_cant": "the sequence number enters the nonce at every position of a 64-bit counter", "anchors": ["include/caligo/gcm.h: Encrypt, Decrypt", "include/caligo/aes.h"]}
{"id": "C108", "title": "Two parties get a working TLS 1.3 channel", "statement": "Two parties that exchange X25519 public keys and derive the traffic key of one direction (handshake or application data) from the result get the same key: the messages one of them seals are the TLS 1.3 records for the RFC 7748 secret, and the other opens all of them, in order.", "quantifier": "every pair of private keys, every transcript hash, both directions and phases, SHA-256 and SHA-512, AES-128 and AES-256, every list of at most 2^64 messages, every content of uninitialised buffers", "why_tests_cant": "composes key agreement, key derivation and encryption over all keys and message lists", "anchors": ["include/caligo/x25519.h: X25519", "include/caligo/hkdf.h: HKDF_HandshakeSecret, HKDF_MasterSecret, secret", "include/caligo/key_iv_pair.h", "include/caligo/gcm.h: GCM"]}
{"id": "C109", "title": "A properly issued chain is trusted", "statement": "Take trusted roots and a list of certificates, the first of them valid now, such that a chain leads from the first over others of the list to a root: each names the next one's subject as issuer, lies within its period, and carries an RSA signature valid by RFC 8017 8.2.2 over what RFC 5280 says is signed. Written as DER, all of them are read, and the store made of the roots trusts the list, in whatever order the other certificates come.", "quantifier": "every set of roots and certificates with distinct subject names and the fields and sizes the reader supports, SHA-256, SHA-384 and SHA-512, keys of every size up to 4096 bits, every order, every time, every content of uninitialised buffers", "why_tests_cant": "chains of every length, order and key size; a test has the few certificates someone made", "anchors": ["src/Truststore.cpp: addCertificate, trust", "src/X509Certificate.cpp: parseCertificate, verify", "include/caligo/rsa.h: validatePkcs1_5Signature", "src/Asn1.cpp"]}
{"id": "C110", "title": "The system's root certificates are trusted", "statement": "The system store, loaded from a file of PEM certificates, holds every certificate of the file, and chains issued by any of them are trusted. (Refuted: of two or more the last one is never in the store, and what it issued is not trusted. Proved for the others.)", "quantifier": "every file of certificates with distinct subject names, with any texts between and any line breaks; every chain, order and time as in C109", "why_tests_cant": "files of every number of certificates; a test reads the few files it ships", "anchors": ["src/Truststore.cpp: Truststore, trust", "src/X509Certificate.cpp: parseCertificatesPem, parseCertificate, verify"]}
{"id": "C111", "title": "A server proves to be the one its certificate names", "statement": "A server holds a certificate that was issued (directly or over others) by a root the client trusts, and a PEM file with the private key that goes with it. Then the client trusts the certificate, it applies to exactly the server's common name, and what the server signs with the key of the file (RSA-PSS, SHA-256) the client accepts with the key of the certificate. Certificates an issuer signs with its private key as RFC 8017 8.2.1 says are issued in this sense.", "quantifier": "every set of roots, every chain and order of intermediates, every key pair of a whole number of bytes from 66 on, every message and salt, every line wrapping of the key file", "why_tests_cant": "composes parsing, trust, signing and validation over all keys, chains and messages", "anchors": ["src/X509Certificate.cpp: parseCertificate, parsePrivateKey, x509certificate::verify, appliesTo", "src/Truststore.cpp: truststore::trust", "include/caligo/rsa.h: rsa_private_key::sign, rsa_public_key::validateSignature"]}
{"id": "C112", "title": "Generating a prime is free of side channels", "statement": "The loops executed, the array elements touched and the conditional choices made while a random prime is searched are the same whatever prime is found. (Refuted: the choices spell the prime, for every size.)", "quantifier": "every size, every state of the random generator, both settings of strict", "why_tests_cant": "relates every generated prime to the execution that generated it", "anchors": ["README.md: Cryptographic note", "include/caligo/random_prime.h: random_prime, is_probably_prime, is_probably_prime_one_loop", "include/caligo/mont.h: MontgomeryValue::exp"]}
{"id": "C113", "title": "Base64 is free of side channels", "statement": "The loops executed, the array elements touched and the conditional choices made while encoding to or decoding from base64 (so while loading a private key from a PEM file) are the same for all data of the same length. (Refuted: the table indices spell the data; an observer of cache lines sees which characters of the text are letters, and nothing else.)", "quantifier": "every text, every data, every PEM file with a private key", "why_tests_cant": "compares the executions of all pairs of secrets", "anchors": ["README.md: Cryptographic note", "src/base64.cpp: base64, base64d, valueOf", "src/X509Certificate.cpp: parsePrivateKey"]}
{"id": "C114", "title": "AES-GCM and ChaCha20 are free of side channels", "statement": "The loops executed, the array elements touched and the conditional choices made while a ChaCha20 object, or a GCM object with AES-128/256 and a 12 byte IV, is made and used for any calls are the same for all keys, nonces and messages of the same lengths, as long as no forged message is received.", "quantifier": "every key, every 12 byte IV or nonce, every sequence of calls, all lengths", "why_tests_cant": "compares the executions of all pairs of secrets", "anchors": ["README.md: Cryptographic note", "include/caligo/gcm.h: GCM", "include/caligo/aes.h", "include/caligo/chacha20.h: ChaCha20"]}
{"id": "C115", "title": "AES-GCM with other IVs and forged tags is free of side channels", "statement": "The loops executed, the array elements touched and the conditional choices made do not depend on the key when the IV is not 12 bytes long, or when a forged message is refused. (Refuted: with other IVs a message of 4081 bytes or more shows a byte of the secret start of the counter; a refused tag shows how many of its leading bytes are right.)", "quantifier": "every key, every supported IV, every message and every tag", "why_tests_cant": "relates secrets to executions, for all keys", "anchors": ["README.md: Cryptographic note", "include/caligo/gcm.h: GCM, ctr_inc, Decrypt"]}
{"id": "C116", "title": "A GCM message is accepted under one key only", "statement": "A message (ciphertext, associated data and tag) that an object accepts is accepted by no object with another key. (Refuted: for every two keys with different hash subkeys and every chosen beginning of the ciphertext a last block and a tag exist that both accept.)", "quantifier": "every two keys, all IVs, all histories of the two objects, all associated data, every chosen beginning of whole blocks", "why_tests_cant": "quantifies over all pairs of keys", "anchors": ["include/caligo/gcm.h: GCM::Decrypt", "include/caligo/ghash.h"]}
{"id": "C117", "title": "Sealing twice under one key and IV leaves tags unforgeable", "statement": "When two objects with the same key and IV have each sealed a message, no one without the key can make another message that is accepted. (Refuted: two different texts of one block, sealed with the same associated data, give away the tag of every text.)", "quantifier": "every key, IV and history, every two texts of the same length up to 16 bytes, every other message", "why_tests_cant": "quantifies over keys and messages", "anchors": ["include/caligo/gcm.h: GCM::Encrypt, GCM::Decrypt", "include/caligo/ghash.h"]}
{"id": "C118", "title": "Hashing with SHA-2, HMAC and the TLS key schedule show an observer only lengths", "statement": "Someone who observes the outcome of every condition and the index of every array access while a SHA-2 hash, an HMAC, HKDF-Expand, the handshake and master secrets, the traffic keys or the Finished key are computed learns the lengths of the inputs and nothing else about keys, secrets, transcripts or messages.", "quantifier": "for all four SHA-2 classes, all contents of the uninitialised buffers, all pairs of messages (split in any way), keys, secrets, labels and contexts of equal lengths, and all output lengths", "why_tests_cant": "a test compares results, not the sequence of branches and indices, and cannot range over pairs of secrets", "anchors": ["include/caligo/hkdf.h: HMAC, HKDF_Extract, HKDF_Expand, HKDF_Expand_Label, secret, HKDF_HandshakeSecret, HKDF_MasterSecret", "src/sha2.cpp: add, processChunk, operator std::array", "README.md: side-channel free"]}
{"id": "C119", "title": "Converting a hash to text shows an observer only the length of the message", "statement": "Someone who observes branches and array indices while a hash is converted to its text form learns nothing about the hashed message beyond its length. (Refuted: the table indices spell the hash.)", "quantifier": "for all messages of equal length", "why_tests_cant": "tests compare the text, not the table lookups that produce it", "anchors": ["src/sha2.cpp: operator std::string", "README.md: side-channel free"]}
{"id": "C120", "title": "A certificate applies to the host names it was issued for", "statement": "The names a certificate applies to are the DNS names of its subject alternative name extension, compared without regard to case and with a star standing for one label (RFC 5280 4.2.1.6, RFC 6125 6.4); without such names, the common name. (Refuted: listed names are refused, the common name is accepted although names are listed and it is not among them, another case is refused, a star only stands for itself, and a certificate without common name applies to the empty name.)", "quantifier": "every certificate the reader supports, every list of names, every host name", "why_tests_cant": "all certificates and host names", "anchors": ["include/caligo/X509Certificate.h: appliesTo", "src/X509Certificate.cpp: parseCertificate"]}
{"id": "C121", "title": "Keys for different purposes, transcripts and secrets differ", "statement": "HMAC tags of different texts or keys, HKDF outputs for different infos or keys, and the TLS secrets, traffic keys and Finished keys for different sides, stages, transcripts or input secrets differ, unless computing the two hashed two different, named messages with the same digest (for keys shorter than a digest: the same first bytes). Keys count as different when they differ after being cut or zero-filled to twice the digest size.", "quantifier": "every hash, all keys, texts, labels, transcripts and shared secrets within the length limits, all contents of fresh hash buffers", "why_tests_cant": "a coincidence of two derived keys cannot be searched for by tests", "anchors": ["include/caligo/hkdf.h: HMAC, HKDF_Expand, HKDF_Expand_Label, get_traffic_secret, get_key_iv, get_finished_key, HKDF_HandshakeSecret, HKDF_MasterSecret"]}
{"id": "C122", "title": "Only an authority vouches for a host name", "statement": "If a client accepts a server as a host (the chain is trusted, the first certificate applies to the host name, the signature over the handshake verifies with its key), then a certificate naming that host was issued by a root or by a certificate that is marked as authority. (Refuted, and universally so: for every trusted certificate, whatever its extensions say, and every host name no certificate at hand has, the holder of that one key makes a certificate and a signature the client accepts for that host.)", "quantifier": "every set of roots, every trusted certificate of the supported form, every host name, every signed text", "why_tests_cant": "the attack is a combination of chain walk, name check and signature check for all names and certificates", "anchors": ["include/caligo/X509Certificate.h: verify, appliesTo", "src/X509Certificate.cpp: trust, verify", "src/rsa.cpp: sign, validateSignature"]}
{"id": "C123", "title": "Equal plaintexts do not show", "statement": "Among all messages one GCM object seals, equal 16 byte blocks of plaintext at two different places (in one message or in two) always give different blocks of ciphertext; in particular the same message of 16 bytes or more sent again never gives the same ciphertext.", "quantifier": "every injective block function (AES-128 and AES-256 with every key in particular), every usable IV, every sequence of up to 2^64 messages within the length limit of SP 800-38D, every two places", "why_tests_cant": "2^64 messages of up to 64 GB each; a repetition may be anywhere", "anchors": ["include/caligo/gcm.h: GCM::Encrypt", "src/aes.cpp"]}
{"id": "C124", "title": "ChaCha20 messages cannot be altered unnoticed", "statement": "Whoever receives a message encrypted with the ChaCha20 object notices when it is not what was sent. (Refuted, universally: for every key, nonce and message, flipping bits of what is sent flips the same bits of what is received, cutting it cuts the message, and two messages under one key and nonce show their difference; nothing is reported.)", "quantifier": "every key, nonce, message, mask and cut", "why_tests_cant": "the absence of any check is a statement about all altered messages", "anchors": ["include/caligo/chacha20.h: ChaCha20::Encrypt, ChaCha20::Decrypt"]}
{"id": "C125", "title": "Only certificates that state real dates are accepted", "statement": "A certificate whose start or end is not written as a date that exists is refused by the parser or never trusted, and reading it does no harm. (Proved for times that cannot be read at all: other characters than digits, time zones, fractions, no such month, other types; they are never trusted if the roots start after 1970. Refuted for the rest: days, hours, minutes and seconds that do not exist are counted on, so a certificate from 31 February until 99 February is trusted; times with too few digits, or empty ones, are read beyond their end.)", "quantifier": "every certificate apart from the times, every type and text of the two times, every store, pool and point in time", "why_tests_cant": "all texts of all lengths in place of a time", "anchors": ["src/X509Certificate.cpp: parseDer<x509date>, parseDer<x509certificate>", "src/Truststore.cpp: Truststore::trust"]}
{"id": "C126", "title": "Trust lasts without gaps", "statement": "For a fixed store and list of certificates, the clock decides only through the validity of the first certificate of the list: at all moments within it the answer and the resulting list are the same, at all others the answer is no and the list is untouched. What is trusted at two moments is trusted at every moment between them.", "quantifier": "all stores, lists of certificates, contents of uninitialised buffers, and moments", "why_tests_cant": "tests pick single moments; a gap or a flip inside the validity could lie anywhere among 2^64 seconds", "anchors": ["src/Truststore.cpp:Truststore::trust"]}
{"id": "C127", "title": "A trust decision checks each certificate at most once", "statement": "Deciding about a list of n certificates makes at most n signature checks, whatever the store holds and whatever the checks answer; none if the first certificate is not valid now or if nobody in the store issued any of them. So a peer cannot make the decision arbitrarily expensive by its choice of certificates.", "quantifier": "all stores, lists, moments, and all possible outcomes of the checks", "why_tests_cant": "a test measures some lists; the bound is about all lists, including those made by an adversary to force repeated rounds", "anchors": ["src/Truststore.cpp:Truststore::trust"]}
{"id": "C128", "title": "The key that counts is the key a certificate states", "statement": "Signatures on certificates are checked with the RSA key written in the issuer's certificate. (Refuted: keys are cut to their lowest 4096 bits without notice, so for larger keys a different key counts, and whoever knows a private key for the remainder issues certificates in the issuer's name. Proved: the key used is the one stated modulo 2^4096, for all certificates.)", "quantifier": "all certificates with odd moduli and exponents that leave a remainder of at least 17", "why_tests_cant": "tests use keys of common sizes; the claim is about keys of every size", "anchors": ["src/X509Certificate.cpp:parseDer<RsaPubkey>", "include/caligo/bignum.h:bignum"]}
{"id": "C129", "title": "A certificate states one signature algorithm", "statement": "A certificate whose signed part names another signature algorithm than the one outside it, which is used for the check, is not trusted (RFC 5280, 4.1.1.2). (Refuted: the statement inside the signed part is skipped; it has no influence on what is read from any certificate, and a certificate that states MD5 inside and SHA-256 outside is trusted.)", "quantifier": "all certificates; chains with a certificate whose two statements differ", "why_tests_cant": "real certificates state it consistently, so sample files cannot show that nobody compares", "anchors": ["src/X509Certificate.cpp:parseCertificate", "src/X509Certificate.cpp:x509certificate::verify"]}
{"id": "C130", "title": "Short RSA keys cannot vouch for certificates", "statement": "A certificate is never accepted because of a signature by an RSA key too short for it. (Proved: no check succeeds against a key of 416 bits or less, 544 for SHA-384, 672 for SHA-512, on any byte string, so all keys along a trusted chain are longer. Refuted for the sizes required today: a chain of 496-bit keys is trusted, no minimum of 2048 bits is enforced.)", "quantifier": "all byte strings as certificates, all issuers with odd moduli, all stores and lists", "why_tests_cant": "tests try some short keys; that none of the infinitely many certificates passes for any short key needs an argument about the encoding", "anchors": ["src/X509Certificate.cpp:x509certificate::verify", "include/caligo/rsa.h:rsa_public_key::validatePkcs1_5Signature", "src/Truststore.cpp:Truststore::trust"]}
{"id": "C131", "title": "Random values do not betray later ones", "statement": "Who sees some random bytes but does not know the state of the generator cannot tell the bytes that follow. (Refuted for every state, so also for any secret seed: sixteen bytes determine the state. Eight bytes leave at most two candidates.)", "quantifier": "all states of the generator, all later uses", "why_tests_cant": "statistical tests of the output look fine; that two different states never agree in sixteen bytes is a statement about 2^128 pairs", "anchors": ["include/caligo/random.h:generate_random_value", "include/caligo/random.h:generate_random"]}
{"id": "C132", "title": "Computing a checksum does not show the data", "statement": "Which table entries are read while a CRC-32 is computed does not depend on the data. (Refuted: from the entries read one recovers every byte and the cut into pieces, for all data; who tells only cache lines of 64 bytes apart still sees the upper half of a byte after known data.)", "quantifier": "all data, cut into pieces in all ways", "why_tests_cant": "what a run shows beside its result is no output; that the accesses determine the data concerns all pairs of messages", "anchors": ["src/crc.cpp:CRC32::add", "include/caligo/crc.h:CRC32"]}
{"id": "C133", "title": "A certificate's names count whatever attributes they have", "statement": "Certificates are filed, found, trusted and matched against host names by the subject and issuer they state, whatever types of attributes these consist of and in which string types they are written. (Refuted: with one attribute of a type outside the thirteen known ones, such as a domain component, nothing of the name remains: all such roots replace each other in a store, no such certificate is trusted once the store has such a root although it was properly issued, and it applies to no host but the empty name. Of several attributes in one set only the first counts, and strings other than UTF8String and PrintableString, such as the IA5String prescribed for addresses, count as empty.)", "quantifier": "all certificates with RSA keys: all lists of sets of attributes of all types and string types as names; all stores, all contents of uninitialised buffers", "why_tests_cant": "samples contain the usual attributes; what becomes of all others, and of the store that meets them, is a statement about all names", "anchors": ["src/X509Certificate.cpp:parseDer<x509name>", "src/X509Certificate.cpp:readOIDAndString", "src/X509Certificate.cpp:parseDer<std::string>", "src/Truststore.cpp:addCertificate", "src/Truststore.cpp:trust"]}
{"id": "C134", "title": "Hashing with MD5, SHA-1 and SHA-3 shows only lengths", "statement": "While data is hashed with MD5, SHA-1 or SHA-3 of any size, or authenticated with HMAC over one of them, the branches taken and the addresses accessed depend on the lengths of the data, its pieces and the key, and not on their contents.", "quantifier": "all six classes, all pairs of messages cut into pieces of the same lengths, all pairs of keys of the same length, all contents of uninitialised buffers", "why_tests_cant": "what a run shows beside its result is no output; that two runs look alike concerns all pairs of secrets", "anchors": ["src/md5.cpp:MD5::processChunk", "src/sha1.cpp:SHA1::processChunk", "src/sha3.cpp:SHA3::processChunk", "src/sha3.cpp:SHA3::add", "include/caligo/hkdf.h:HMAC"]}
{"id": "C135", "title": "The text form of an MD5, SHA-1 or SHA-3 hash does not show the hash", "statement": "Converting such a hash to text accesses the same addresses whatever the hash is. (Refuted: every half of every byte is looked up in a table; two messages of the same length show the same exactly if their hashes are the same.)", "quantifier": "all six classes, all pairs of messages of the same length", "why_tests_cant": "what a run shows beside its result is no output; that the accesses determine the hash concerns all pairs of messages", "anchors": ["src/md5.cpp:MD5::operator std::string", "src/sha1.cpp:SHA1::operator std::string", "src/sha3.cpp:SHA3::operator std::string"]}
{"id": "C136", "title": "Random keys and primes come from a space as large as their size", "statement": "Every string of bytes, in particular every key, can come out of the random generator for some seed, and the number of different RSA moduli, primes and X25519 private keys that can be generated grows with their size. (Refuted: whatever the size there are at most 2^64 of each, counting all seeds; the first sixteen bytes of a string determine the rest, and a string of 17 bytes is given that never comes out.)", "quantifier": "all seeds, all sizes of primes, strict or not, all lengths of strings, all lists of different results", "why_tests_cant": "a test sees a few results; how many there are concerns all seeds, of which there are 2^64", "anchors": ["include/caligo/random.h:generate_random", "include/caligo/random_prime.h:random_prime", "include/caligo/bignum.h:random", "include/caligo/x25519.h:random_private_key"]}
{"id": "C137", "title": "A MAC depends on all of its key", "statement": "Two different keys longer than a block give different MACs for some text, as with RFC 2104, where a long key is hashed; so do the salts and secrets of HKDF. (Refuted: what a key, salt or secret has beyond twice the size of the hash has no influence on any MAC or derived key; with MD5 this starts at byte 33.)", "quantifier": "all ten hash functions, all keys of at least twice the size of the hash, all continuations, all texts, all contents of uninitialised buffers", "why_tests_cant": "that a part of the input has no influence concerns all its values and all texts; the keys of the usual test vectors are compared with one expected MAC each", "anchors": ["include/caligo/hkdf.h:HMAC", "include/caligo/hkdf.h:HKDF_Extract", "include/caligo/hkdf.h:HKDF_Expand"]}
{"id": "C138", "title": "A signature does not betray the signer's random values", "statement": "Who sees a signature of a server and its public key learns nothing about the random values, keys and primes the server draws afterwards. (Refuted: the salt of a PSS signature can be read with the public key and determines the state of the generator, so the next X25519 private key and the next prime are functions of one signature and the public key.)", "quantifier": "all six PSS identifiers, all RSA keys of a multiple of 8 bits with room for the salt, all messages, all seeds, all contents of uninitialised buffers", "why_tests_cant": "a test can compare signatures with expected ones; that a later key is a function of what is public concerns all seeds, keys and messages", "anchors": ["src/X509Certificate.cpp:RsaPrivateKey::sign", "include/caligo/rsa.h:signPssSignature", "include/caligo/rsa.h:getSalt", "include/caligo/random.h:generate_random", "include/caligo/x25519.h:random_private_key"]}
{"id": "C139", "title": "Messages encrypted with ECB or CBC do not show what they have in common", "statement": "Who sees two messages encrypted by one CBC object, or one encrypted with ECB, does not learn which parts of the plaintext are equal. (Refuted, for every cipher: the first k blocks of two CBC messages are equal exactly if the first k blocks of the plaintexts are, because the object keeps its IV; two ECB blocks are equal exactly if the plaintext blocks are.)", "quantifier": "every invertible block cipher and block size, every IV, every two messages, every number of blocks, every two places", "why_tests_cant": "an equivalence over all pairs of messages and all ciphers; a test compares single ciphertexts", "anchors": ["include/caligo/legacy/cbc.h: CBC::Encrypt", "include/caligo/legacy/ecb.h: ECB::Encrypt"]}
{"id": "C140", "title": "Keys and primes made by one program are different", "statement": "Two random numbers of 192 bits or more, two X25519 private keys, and two primes of 224 bits or more that one program draws are different, whatever it draws between them; so the two factors of an RSA key are different and no two RSA keys of the program share a factor.", "quantifier": "all seeds, all sizes from 192 or 224 bits, strict or not, any number of candidates tried and of other values drawn between, up to 2^63 values together", "why_tests_cant": "a repetition may be 2^63 values away, and every seed has its own sequence", "anchors": ["include/caligo/random.h:generate_random_value", "include/caligo/bignum.h:random", "include/caligo/random_prime.h:random_prime", "include/caligo/x25519.h:random_private_key"]}
{"id": "C141", "title": "No two PSS signatures of one program are the same", "statement": "A program that signs twice with PSS, with one RSA key and one signature type, gets two different signatures, even of the same message and whatever random values it draws between; and two random strings of sixteen bytes or more of one length that it draws differ in their first sixteen bytes.", "quantifier": "all seeds, all keys of whole bytes long enough for the type, all PSS types, all messages up to 2^61 bytes, any number of values drawn between, up to 2^63 together", "why_tests_cant": "a repeated salt may be 2^63 values away, and every seed and key has its own sequence", "anchors": ["include/caligo/random.h:generate_random", "src/X509Certificate.cpp:RsaPrivateKey::sign", "include/caligo/rsa.h:signPssSignature"]}
