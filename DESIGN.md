# Formal model of Caligo in Rocq

The code is read as text from the pinned checkout in `/repo`; it is never built or
run here.  Everything proved below is proved about the Gallina model; the tie to
the C++ is the reading of the source, cited file and line on every model definition.

## Conventions

* All machine integers are `Z` with the wrap written out (`mod 2^32`, `mod 2^64`).
  Bytes are `Z` in `[0,256)` (predicate `bytes`), byte strings are `list Z`.
* Undefined behaviour is a distinct outcome: `res A := Ok a | Throw | UB | Diverge`.
  Array/vector/span accesses whose bounds the code does not check itself are modelled
  by checked accesses that return `UB`.
* `bignum<K>` is a little-endian list of `K/32` words with the value function `val`.
* C++ templates over a hash class become Gallina functions over a record that bundles
  the hash's functions; results are instantiated at the concrete hash models.
* x86 intrinsics are modelled from the Intel SDM pseudo code (part of the trusted base).
* File layout: `Base*.v` (words, bytes, lists), `M_*.v` model (no proofs), `S_*.v`
  specification (independent of the model; RFC/FIPS/NIST text), `P_*.v` proofs,
  `Prop_*.v` property theorems only, closed by `exact lemma.` with `Print Assumptions`
  beneath, and an `Example` showing the hypotheses are met.
* A property that the faithful model violates is recorded by a theorem
  `…_refuted` whose witness is computed; the guarded version that does hold is proved
  beside it.

## Trusted base

* Coq 8.16.1 kernel (`coqc`, re-checked by `coqchk`).
* Standard library axioms listed by `Print Assumptions` per theorem (target: none,
  i.e. "Closed under the global context"; exceptions are listed in the table at the end).
* My reading of the C++ (semantics of the C++ abstract machine for the constructs used,
  `std::vector`/`std::span`/`std::map` contracts) and of the Intel SDM for AES-NI/PCLMUL.
* My transcription of FIPS 180-4, 197, 202, SP 800-38D, RFC 1321, 2104, 4648, 5869,
  7748, 8017, 8439, 8446 in the `S_*.v` files.

## Not modelled

* `RDSEED`/`__rdrand` path in random.h (not the compiled path), thread safety other than
  of the random values (C105), timing other than loops, indices and choices of X25519 and
  RSA decryption (C102, C103), of prime generation (C112), base64 (C113), AES-GCM and ChaCha20 (C114, C115),
  hashing and key derivation (C118, C119, C134, C135), memory wiping, `std::ostream` printers, file system
  access of `Truststore` (the constructor is modelled from the parsed certificates on),
  allocation failure.
* Member functions that cannot be instantiated (do not compile): `HKDF_UpdateSecret`
  and the exporter/resumption secrets in hkdf.h; `legacy/ecb.h` and `legacy/cbc.h` are
  modelled for a generic block cipher only, since `AES` offers no `Decrypt`.

## Plan per property

| id | what is modelled | how it is proved |
|----|------------------|------------------|
| C01–C04 | base64.cpp loops as folds over bytes with the `value/count/blocksOnLine` accumulators | block-wise induction (3 bytes / 4 characters); finite sweep for the two tables; C04 refuted by a witness, guarded form for lengths divisible by 3 |
| C05–C06 | crc.cpp with the literal table | table = 8 bitwise steps of the reflected polynomial by sweep; step linear over xor and bijective; burst detection by injectivity of 32 bit steps |
| C07–C09 | every hash's `add`, `operator array`, `processChunk` on (chunk, h, msglength), arbitrary initial chunk content | invariant: state = fold of compression over full blocks, chunk prefix = remaining bytes |
| C10–C14 | same models against independent FIPS/RFC functions (pad, parse, compress) | round-by-round equivalence with the textbook round functions, then the streaming invariant |
| C15 | constants | integer square/cube root characterisation, LFSR, computed |
| C16 | hash.cpp name dispatch | case analysis; refuted for sha3-256 and unknown names |
| C17–C18 | string conversions, getAsn1Id | refuted for SHA2<224>/<384> and SHA3-{224,384,512}; proved for the others |
| C19–C23 | hkdf.h over an abstract hash record | list reasoning; refuted for long keys and non SHA-256/512 block sizes, counter wrap |
| C24–C25 | aes.cpp/aes.h with intrinsics | byte permutation lemmas; key expansion word by word; inverse cipher built |
| C26–C27 | ghash.h with PCLMUL | polynomials over GF(2) as Z, carry-less product bilinear; reduction identity by linearity on basis |
| C28–C33 | gcm.h | functional equivalence; invariant on message_counter; refutations by witness |
| C34 | ctr.h incl. vector reserve/resize semantics | refuted: keystream is zero |
| C35 | ecb.h, cbc.h generic | ECB proved, CBC refuted |
| C36–C38 | chacha20.h | quarter-round equality, stream invariant; wrap refuted |
| C39–C45 | bignum.h word loops | value function homomorphisms, naive_reduce invariant; refuted in general |
| C46–C50 | mont.h | Z modular arithmetic, REDC invariant; refutations by witness |
| C51–C53 | random.h | list reasoning; LCG full period (Hull–Dobell instance) |
| C54–C56 | random_prime.h | Fermat + square roots of 1 mod p; sweep for the table |
| C57–C63 | rsa.h, pkcs1.h over bignum/mont/hash models | RSA theorem from Fermat; PSS encode/verify equivalences; refutations |
| C64–C67, C84–C87, C92 | x25519.h | congruences mod p; ladder invariant; primality certificates; for C66, C84–C87 and C92 every u coordinate is lifted to a point of one of two complete Edwards curves, whose group law is proved, and the ladder is shown to multiply there; the order of the base point by an evaluated ladder |
| C68–C69 | Asn1.h | TLV reader on encoded elements; refuted bounds |
| C70–C74 | X509Certificate.cpp | calendar arithmetic; PEM slicing refuted; name strings refuted; verify decision |
| C95–C97 | Truststore.cpp, X509Certificate.cpp | outcome of verify for issuers without a key and for short signatures, both refutations on parsed certificates; totality under the complementary conditions; monotonicity of trust from soundness and completeness (C75, C77), refuted when names collide; parse result independent of the extensions |
| C98–C99 | gcm.h: Decrypt | tag of C30 at two positions: for a one-to-one cipher the masks of two positions differ and the GHASH is equal, so one tag fits one position only; C99 refuted for every cipher and history by the same fact, because the counter also advances on refusal |
| C100–C101 | rsa.h, pkcs1.h, X509Certificate.cpp: verify | injectivity of the two encodings in the digest; uniqueness of the layout of C73 (so the parts of a certificate are determined by its bytes); the uncovered bytes by evaluation of `verify` on a general shape, refutation on a signed certificate |
| C102–C103 | README.md:24; x25519.h, mont.h, rsa.h: rsadp, bignum.h | the functions again, recording loop conditions, array indices and the conditions of ?: and && (M_Leak); results proved equal to the other models; a relation between two runs carried through every function; the choices by a witness (X25519) and by reading the exponent off the record (RSA) |
| C104 | crc.cpp | injectivity from C06, an injective map of a finite set is onto; linearity of the register |
| C105 | README.md:17; random.h, random.cpp | every access to the shared variables is a step, schedules interleave the steps (M_Threads); schedules as witnesses; calls in turn by induction |
| C106 | sha3.cpp: processChunk | every step of FIPS 202 is injective on bit states (theta by its column parities, chi row by row), C14 carries this to the words; an injective map of a finite set is onto; padding and blocks lose nothing, so equal final states lead back to the blocks before the last |
| C107–C108 | gcm.h with aes.h; x25519.h, hkdf.h, key_iv_pair.h together | the pre-counter block of message n is that of the nonce of RFC 8446; C66, C65, C23, C24, C28 and C29 composed |
| C109 | x509, truststore, rsa, hashes together | documents, RFC 8017 validity and chains specified apart from the model; C81 (reading), C73 (checking one signature), C77 and C78 (search in the store) composed |
| C110 | Truststore.cpp: constructor, from the contents of the file on | C71 (what the bundle parser returns) and the proof of C109, which is over any store that holds the roots; refuted for every file of two or more |
| C111 | the functions of C81, C82, C109 and C63 | composition: the key C81 reads from the certificate and the one C82 reads from the file are the pair C63 needs; C111_issue shows that signing with the issuer's private exponent gives the `issued` of C109 |
| C112 | random_prime.h; mont.h: MontgomeryState, exp; bignum.h: naive_reduce | the functions again with the record of M_Leak (M_LeakPrime); results proved equal; every part but exp is shown to record no choice of mont.h:94, each base of the test records the digits of the odd part of p - 1, from which p follows as its size is known |
| C113 | base64.cpp; X509Certificate.cpp: parsePrivateKey | the functions again with the record of M_Leak (M_LeakText); results proved equal; the indices are read off the record; for cache lines a relation between two runs |
| C114 | gcm.h, aes.h, chacha20.h | the functions again with the record of M_Leak (M_LeakCipher); results proved equal; the record computed in closed form from the lengths |
| C115 | gcm.h: ctr_inc, Decrypt | the same model; the closed form holds for every IV and contains the choices of the counter, from which its first value is read off; the comparison of tags is modelled as stopping at the first difference |
| C116 | gcm.h, ghash.h (as in C28, C88) | GHASH is affine in the last block; the two conditions are one linear equation over GF(2^128), solved with an inverse built from squarings |
| C117 | the same | the tags differ by the difference of the blocks times the square of the subkey; division and square root in GF(2^128) give the subkey |
| C118 | sha2.cpp, hkdf.h | the functions again with the record of M_Leak (M_LeakHash); two runs are followed side by side with the two results of the models without records (P_LeakHash) |
| C119 | operator std::string of the hashes | the record of the conversion determines the digest; two messages with different digests |
| C120 | X509Certificate.h, X509Certificate.cpp | RFC 6125 matching as specification; from the fields theorem of C81, for all certificates |
| C121 | hkdf.h | the messages hashed for a MAC written out from RFC 2104; equality of outputs traced back through padding, hash inputs and label encoding |
| C122 | X509Certificate.h, X509Certificate.cpp, rsa.cpp | forged certificate written out from the holder's own certificate; from C111 (issuing and server proof) for all chains and names |
| C123 | gcm.h, aes.cpp | the counter blocks of any two places differ (as in C32), so does what an injective block function makes of them |
| C124 | chacha20.h | the received message written out as an exclusive or; witness by replacing a known message |
| C125 | X509Certificate.cpp, Truststore.cpp | parsing of the certificate around arbitrary times (P_Cert parse_der_times); unreadable times give 0, then C75; witness by C109, whose certificates need not state existing dates |
| C126 | Truststore.cpp | the clock is compared before the loop only |
| C127 | Truststore.cpp | the number of certificates whose subject is not known yet and differs from the issuer falls with each check; two verifiers that agree on the first n calls give the same decision |
| C128 | X509Certificate.cpp, bignum.h, Truststore.cpp | parsing of the certificate around any odd modulus (P_Cert parse_der_frame), then C73; witness with modulus 2^4096 + N, N a 784-bit key |
| C129 | X509Certificate.cpp, Truststore.cpp | C81 for two certificates that differ in the inner algorithm; witness by C109 |
| C130 | X509Certificate.cpp, rsa.h, pkcs1.h, Truststore.cpp | the byte before the zero of the encoding is odd, so the encoding modulo 2^4096 is at least 256^(digest information + 1), and the result of the exponentiation is at most the modulus; refuted by the chain of C109 |
| C131 | random.h | the hidden lower halves of two successive states differ by a vector of a two-dimensional lattice; a reduced basis leaves one pair of short enough vectors, which the third state excludes |
| C132 | crc.cpp | M_LeakCrc, the accesses to the table recorded; the data are read back from the record by running the checksum alongside |
| C133 | X509Certificate.cpp: names; Truststore.cpp | P_Attr: what the name loop makes of any list of sets of attributes, inside a whole certificate; the store by the laws of insert and lookup; the trust loop keeps what is known |
| C134 | md5.cpp, sha1.cpp, sha3.cpp, hkdf.h: HMAC | the functions again with the record of M_Leak (M_LeakHash2); each processChunk has one record whatever the chunk; the permutation of SHA-3 is run on 25 unknown lanes (P_LeakHash2) |
| C135 | operator std::string of these hashes | as C119 |
| C136 | random.h, random_prime.h, bignum.h: random, x25519.h: random_private_key | every result is a function of the 64 bits of the state, whatever the fuel of the prime search; counting distinct results (Prop_Space); the determination of the state by sixteen bytes is C131 |
| C137 | hkdf.h: HMAC, HKDF_Extract, HKDF_Expand | resize cuts the key before it is used; induction over the expansion (Prop_Whole) |
| C138 | X509Certificate.cpp: RsaPrivateKey::sign; rsa.h: signPssSignature, getSalt; random.h | the salt is recovered as in validatePssSignature (the encoding of C59), the state from its first sixteen bytes (C136) (Prop_Salt) |
| C139 | legacy/cbc.h, legacy/ecb.h | induction over the blocks, on the equations of C35 (Prop_Common); there also C35_cbc_zero_iv |
| C140 | random.h, bignum.h: random, random_prime.h, x25519.h: random_private_key | the bits of a number are those of the values drawn, but for the ones that are set; equal values twice in a row mean equal states (C131), and a state comes back after 2^63 draws (C53) (Prop_Distinct) |
| C141 | random.h: generate_random, rsa.h: sign with PSS | the salt can be read off a signature (C138), so equal signatures have equal salts; equal salts mean equal states (C136), and a state comes back after 2^63 draws (C53) (Prop_Resign) |
| C75–C78 | Truststore.cpp | loop invariant and measure |
| C79–C80 | bignum.h printing, x25519.h private keys | digit induction; clamping arithmetic |
| C81–C83 | X509Certificate.cpp parseCertificate, parsePrivateKey | field-by-field over the DER encoder of S_X509; progress measure of the reader; zero modulus refutes termination |
| C88 | gcm.h, ghash.h | GHASH as a polynomial over GF(2^128), built from scratch (P_GF2): the order of x is computed from the factors of 2^128−1, so every nonzero element is a power of x and products of nonzero elements are nonzero; a polynomial has at most degree many roots |
| C89–C91 | crc.cpp | the CRC register is multiplication by x in GF(2^32); order of x; the set of powers of x within 91639 steps is evaluated to exclude sums of two powers |
| C93–C94 | the iterated hash classes | induction over the blocks of the standards' functions, which C10–C13 equate with the classes; the padding is injective and its last block shows the length |

## What is modelled, by source file

| source | model | left out |
|--------|-------|----------|
| src/base64.cpp | M_Base64 | – |
| src/crc.cpp | M_CRC | – |
| sha1, sha2, sha3, md5, hash.cpp | M_Hash and its parts | memory wiping |
| hkdf.h | M_HKDF | members that do not compile |
| chacha20.h | M_ChaCha | – |
| bignum.h | M_Bignum | `std::ostream` |
| mont.h | M_Mont | – |
| rsa.h, pkcs1.h, signature entry points of X509Certificate.cpp | M_RSA | the salt comes from an arbitrary supply |
| aes.h, aes.cpp | M_AES | intrinsics are taken from the Intel SDM |
| ghash.h, gcm.h, ctr.h, ecb.h, cbc.h | M_GCM | – |
| x25519.h | M_X25519 | – |
| x25519.h, mont.h: REDC, exp, rsa.h: rsadp, bignum.h, once more with a record of what is observable | M_Leak | whole-object copies, constant offsets and the time of single instructions are not recorded; ?: is recorded as a choice whatever the compiler emits for it |
| random_prime.h with mont.h: MontgomeryState and bignum.h: naive_reduce, base64.cpp and crc.cpp: add, once more with that record | M_LeakPrime, M_LeakText, M_LeakCrc | the random generator, push_back and the search for PEM markers record nothing |
| gcm.h, aes.h and chacha20.h, once more with that record | M_LeakCipher | vector instructions (AES, carry-less multiplication, loads and stores of blocks) record only where they read and write; comparing tags stops at the first difference |
| sha2.cpp and hkdf.h, md5.cpp, sha1.cpp and sha3.cpp, once more with that record | M_LeakHash, M_LeakHash2 | a memcpy records its offsets and length, an insertion into a vector the number of bytes; constant indices (w[0..7], h[0..4]) are not recorded |
| random.h, random.cpp, bignum::random | M_Random | the RDSEED branch |
| random.h: generate_random_value, called by several threads | M_Threads | accesses are atomic and sequentially consistent, which is more than C++ promises |
| random_prime.h | M_Prime | the unbounded search loop carries fuel |
| Asn1.h, X509Certificate.h/.cpp | M_X509 | spans carry the rest of their allocation, so that reads beyond a sub-span are seen; a pointer past the allocation is `UB` |
| Truststore.cpp | M_Trust | reading the file; `std::map` is an association list with one entry per key |

Indeterminate memory (uninitialised hash buffers, salts) is an explicit argument
(`supply`); theorems quantify over it.

## Assumptions

`Print Assumptions` answers "Closed under the global context" for every theorem in
MANIFEST.json except `C15_md5_sines` (the MD5 constants as floor(2^32 |sin i|)), which uses the
standard library's reals: `ClassicalDedekindReals.sig_not_dec`,
`ClassicalDedekindReals.sig_forall_dec`, `FunctionalExtensionality.functional_extensionality_dep`
and `Classical_Prop.classic`.

## Size bounds in the statements

Some theorems bound an input's length (2^61 bytes for hashes and GCM, where the code's bit
counter wraps; 2^24 bytes for data that pkcs1.h wraps in a DER header, which has at most three length bytes; 2^63 for texts).  No bound
is a bound of the proof method: each one marks a wrap of the code's own counters or is chosen
well below one to keep the statement short.
