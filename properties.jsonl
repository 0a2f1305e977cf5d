{"id": "C01", "title": "Big integers survive byte encoding", "statement": "Writing a normalised big integer with tobytes and reading it back with frombytes yields the same integer, reading any MODBYTES-long big-endian string yields exactly its value, and writing that value gives the string back; no arithmetic overflow or out-of-bounds access occurs.", "quantifier": "every curve configuration (32/64-bit word, limb size, byte length), every value below 2^(8*MODBYTES), every byte string", "why_tests_cant": "2^256..2^512 values and ~60 ROM configurations", "anchors": ["src/big.rs: Big::tobytes, Big::tobytearray, Big::frombytes, Big::frombytearray, Big::fshl, Big::fshr"]}
{"id": "C02", "title": "Normalisation preserves the number", "statement": "norm leaves the represented integer unchanged, makes every limb but the top one canonical, and its return value is exactly the excess above 8*MODBYTES bits.", "quantifier": "every limb vector in the headroom of the word", "why_tests_cant": "limb vectors with arbitrary signed carries cannot be enumerated", "anchors": ["src/big.rs: Big::norm", "src/dbig.rs: DBig::norm"]}
{"id": "C03", "title": "Comparison is integer order", "statement": "comp (and Eq/Ord built on it) returns -1/0/1 exactly as the represented integers compare, for normalised operands.", "quantifier": "all pairs of normalised numbers, all configurations", "why_tests_cant": "pairs of 256+ bit numbers", "anchors": ["src/big.rs: Big::comp, PartialEq, Ord", "src/dbig.rs: DBig::comp"]}
{"id": "C04", "title": "Limb-wise addition, subtraction and small multiples are exact", "statement": "add/sub/rsub/plus/minus/dbl/imul/inc/dec/pmul/pxmul compute the exact integer result without overflow as long as the limbs stay within the stated headroom.", "quantifier": "all operands in the headroom", "why_tests_cant": "overflow shows only at extreme limbs", "anchors": ["src/big.rs: Big::add, sub, rsub, plus, minus, dbl, imul, inc, dec, pmul, pxmul, muladd"]}
{"id": "C05", "title": "Shifts are exact", "statement": "fshl/shl multiply by 2^k and fshr/shr floor-divide by 2^k; fshr returns the bits shifted out; mod2m keeps the value mod 2^m; bit and lastbits read the binary expansion.", "quantifier": "all normalised values, all legal shift amounts", "why_tests_cant": "value x shift amount space", "anchors": ["src/big.rs: fshr, shr, fshl, shl, mod2m, lastbits, bit, parity, nbits", "src/dbig.rs: shl, shr, mod2m, nbits"]}
{"id": "C06", "title": "Multiplication and squaring are exact", "statement": "mul and sqr return the exact double-length product of the operands, with no overflow of the double-width accumulator, for every pair of operands within the excess bound.", "quantifier": "all operand pairs, all configurations", "why_tests_cant": "carry chains depend on all limbs at once", "anchors": ["src/big.rs: Big::mul, Big::sqr, Big::smul"]}
{"id": "C07", "title": "Division and reduction are exact and terminate", "statement": "rmod/dmod return x mod m in [0,m) and div returns floor(x/m), for every x and every m>0, in a bounded number of steps and without overflow.", "quantifier": "all x, all positive m that fit", "why_tests_cant": "shift-subtract loop runs a data-dependent number of times", "anchors": ["src/big.rs: rmod, div", "src/dbig.rs: dmod, div"]}
{"id": "C08", "title": "Modular multiplication, squaring, negation and powering", "statement": "modmul, modsqr, powmod return the canonical residue of the mathematical result; modneg returns a representative of the negation.", "quantifier": "all operands, all moduli", "why_tests_cant": "exponent length unbounded by tests", "anchors": ["src/big.rs: modmul, modsqr, modneg, powmod"]}
{"id": "C09", "title": "Modular inverse", "statement": "invmodp terminates and returns x^-1 mod p, in [0,p), for every x coprime to odd p.", "quantifier": "all odd moduli p and all x with gcd(x,p)=1", "why_tests_cant": "binary gcd trajectory is data dependent", "anchors": ["src/big.rs: invmodp"]}
{"id": "C10", "title": "Jacobi symbol", "statement": "jacobi returns the Jacobi symbol (x/p): in particular it returns 0 exactly when x and p share a factor.", "quantifier": "all x and all odd p>1", "why_tests_cant": "data-dependent loop", "anchors": ["src/big.rs: jacobi"]}
{"id": "C11", "title": "Inversion modulo powers of two", "statement": "invmod256 returns the inverse modulo 256 of every odd number and invmod2m, for every limb layout and every odd input, an inverse modulo 2^BIGBITS (which may be one period too large).", "quantifier": "all odd inputs", "why_tests_cant": "domain of invmod2m is 2^255+", "anchors": ["src/big.rs: invmod256, invmod2m"]}
{"id": "C12", "title": "Montgomery reduction", "statement": "Reducing a double-length number d with the ROM constants returns a number congruent to d*R^-1 modulo the field prime and smaller than twice the prime, without overflow of any accumulator.", "quantifier": "every d below p*R, every NotSpecial ROM", "why_tests_cant": "carry and excess behaviour at extremes", "anchors": ["src/big.rs: Big::monty", "src/fp.rs: FP::modulo", "src/roms/*"]}
{"id": "C13", "title": "Field element arithmetic is arithmetic mod p for every operation history", "statement": "Any sequence of new/add/sub/neg/mul/sqr/dbl/imul/div2/reduce/norm on field elements denotes the same expression in Z/pZ, the lazy-reduction excess never exceeds the bound, and no word overflows.", "quantifier": "every finite sequence of field operations on every inputs", "why_tests_cant": "lazy reduction makes correctness depend on operation history", "anchors": ["src/fp.rs: FP::add, sub, neg, rsub, mul, sqr, dbl, imul, div2, reduce, nres, redc"]}
{"id": "C14", "title": "Field equality, zero test and sign depend only on the field element", "statement": "Two field elements that compare equal have the same zero test, the same redc()/tostring() and the same sgn0().", "quantifier": "all reachable representations of a field element", "why_tests_cant": "non-canonical representations arise only from particular operation histories", "anchors": ["src/fp.rs: equals, iszilch, redc, tostring, sgn0"]}
{"id": "C15", "title": "Field exponentiation and inversion", "statement": "pow returns x^e mod p and inverse returns the multiplicative inverse for every non-zero x (p prime).", "quantifier": "all x, all exponents", "why_tests_cant": "exponents of field size", "anchors": ["src/fp.rs: pow, inverse, fpow"]}
{"id": "C16", "title": "Field square root", "statement": "sqrt returns a square root of every quadratic residue.", "quantifier": "all quadratic residues", "why_tests_cant": "field size", "anchors": ["src/fp.rs: sqrt"]}
{"id": "C17", "title": "Hex strings round trip", "statement": "fromstring(tostring(x)) = x for every non-negative big integer that fits; tostring always prints at least 2*MODBYTES upper-case hex digits.", "quantifier": "all values", "why_tests_cant": "value space", "anchors": ["src/big.rs: tostring, fromstring", "src/dbig.rs: to_string"]}
{"id": "C18", "title": "Bit length", "statement": "nbits returns the binary length of the represented integer (0 for 0).", "quantifier": "all values", "why_tests_cant": "value space", "anchors": ["src/big.rs: nbits", "src/dbig.rs: nbits"]}
{"id": "C19", "title": "Quadratic extension arithmetic", "statement": "FP2 add/sub/neg/conj/mul/sqr/inverse/div_ip/mul_ip are the operations of Fp[i]/(i^2+1).", "quantifier": "all elements, any field of odd characteristic", "why_tests_cant": "algebraic identity over whole field", "anchors": ["src/fp2.rs"]}
{"id": "C20", "title": "Tower arithmetic", "statement": "FP4 and FP12 multiplication, squaring, conjugation and inversion are the ring operations of the tower, and the sparse multiplications agree with the dense one.", "quantifier": "all elements", "why_tests_cant": "algebraic identity over whole field; sparsity case analysis", "anchors": ["src/fp4.rs", "src/fp12.rs"]}
{"id": "C21", "title": "Elliptic curve addition and doubling are complete", "statement": "ECP add and dbl map points of the curve to points of the curve and implement the chord-and-tangent law, including infinity, doubling and inverse cases.", "quantifier": "all pairs of curve points", "why_tests_cant": "exceptional cases are measure-zero for random tests", "anchors": ["src/ecp.rs: add, dbl, neg, sub, affine, equals"]}
{"id": "C22", "title": "Point encodings", "statement": "frombytes(tobytes(P)) = P for every affine curve point, and frombytes never returns a point off the curve, whatever the bytes.", "quantifier": "all byte strings, all points", "why_tests_cant": "byte-string space", "anchors": ["src/ecp.rs: tobytes, frombytes, new_bigs, new_bigint"]}
{"id": "C23", "title": "Scalar multiplication", "statement": "mul(e) returns e times the point and mul2(e,Q,f) returns e*P+f*Q for every scalar.", "quantifier": "all scalars, all points", "why_tests_cant": "scalar space; signed-window recoding depends on every digit", "anchors": ["src/ecp.rs: mul, mul2, pinmul, selector"]}
{"id": "C24", "title": "AES block cipher is FIPS-197", "statement": "For every key of 16, 24 or 32 bytes, ecb_encrypt equals the AES cipher as defined by SubBytes/ShiftRows/MixColumns/AddRoundKey and the FIPS-197 key expansion; init rejects any other key length class and leaves the key untouched.", "quantifier": "all keys, all blocks", "why_tests_cant": "2^256 x 2^128", "anchors": ["src/aes.rs: AES::init, ecb_encrypt"]}
{"id": "C25", "title": "AES decryption inverts encryption", "statement": "ecb_decrypt(ecb_encrypt(b)) = b and conversely for every key and block.", "quantifier": "all keys, all blocks", "why_tests_cant": "2^256 x 2^128", "anchors": ["src/aes.rs: ecb_decrypt"]}
{"id": "C26", "title": "Cipher modes round trip", "statement": "Two AES objects initialised with the same mode, key and IV: decrypting the sequence of encrypted blocks returns the original (the processed prefix of each block) for ECB, CBC, CFB, OFB, CTR and any number of blocks; untouched bytes stay untouched.", "quantifier": "all modes, keys, IVs and block sequences of any length", "why_tests_cant": "unbounded sequences", "anchors": ["src/aes.rs: encrypt, decrypt, reset, increment"]}
{"id": "C27", "title": "GCM follows SP 800-38D", "statement": "After init/add_header/add_plain/finish(true) the ciphertext and tag equal GCM-AE of SP 800-38D for the same key, IV, header and plaintext (any IV length).", "quantifier": "all keys, IVs, headers, plaintexts", "why_tests_cant": "unbounded lengths", "anchors": ["src/gcm.rs"]}
{"id": "C28", "title": "GCM decryption inverts encryption and reproduces the tag", "statement": "Feeding the ciphertext to add_cipher returns the plaintext and finish(true) yields the same tag.", "quantifier": "all keys, IVs, headers, plaintexts", "why_tests_cant": "unbounded lengths", "anchors": ["src/gcm.rs: add_plain, add_cipher, finish"]}
{"id": "C29", "title": "GCM calls must come in order and chunk freely at block boundaries", "statement": "add_header is refused after any data or partial header block; data is refused after a partial block or finish; a refused call changes nothing; splitting header or data over several calls at multiples of 16 bytes gives the same ciphertext and tag.", "quantifier": "all call sequences", "why_tests_cant": "call histories", "anchors": ["src/gcm.rs: add_header, add_plain, add_cipher, finish, ghash"]}
{"id": "C30", "title": "SHA-2 objects compute FIPS 180-4 hashes of everything fed since the last reset", "statement": "process/process_array/process_num in any chunking followed by hash gives SHA-256/384/512 of the concatenated bytes, and hash leaves the object ready for a new message.", "quantifier": "all messages below the length limit, all chunkings", "why_tests_cant": "unbounded messages and histories", "anchors": ["src/hash256.rs", "src/hash384.rs", "src/hash512.rs"]}
{"id": "C31", "title": "HMAC and HKDF follow RFC 2104 and RFC 5869", "statement": "HASH256::hmac, HASH512::hmac, hkdf_extract and hkdf_extend equal the RFC definitions for all keys, texts and output lengths.", "quantifier": "all keys, texts, lengths 0..255", "why_tests_cant": "unbounded", "anchors": ["src/hash256.rs: hmac, hkdf_extract, hkdf_extend", "src/hash512.rs"]}
{"id": "C32", "title": "SHA-3 and SHAKE follow FIPS 202", "statement": "Streaming process followed by hash/shake equals the Keccak sponge with the FIPS 202 padding for every message and output length.", "quantifier": "all messages, output lengths, rates", "why_tests_cant": "unbounded", "anchors": ["src/sha3.rs"]}
{"id": "C33", "title": "The random generator is a total deterministic function of its seed", "statement": "After seed, the byte stream is determined by the seed bytes alone (whatever the object's earlier history), never indexes outside its pool and consists of successive 32-byte SHA-256 blocks.", "quantifier": "all seeds, all histories of getbyte, all lengths", "why_tests_cant": "histories", "anchors": ["src/rand.rs"]}
{"id": "C34", "title": "KDF and HMAC of the ECDH module", "statement": "kdf2 returns the first olen bytes of Hash(z||1||p)||Hash(z||2||p)||...; hmac returns the RFC 2104 tag truncated/padded to olen; ecdh hmac refuses tags shorter than 4 bytes.", "quantifier": "all inputs, all lengths", "why_tests_cant": "unbounded", "anchors": ["src/ecdh.rs: hashit, kdf1, kdf2, hmac"]}
{"id": "C35", "title": "PBKDF2 follows RFC 8018", "statement": "pbkdf2 returns the RFC 8018 derived key.", "quantifier": "all passwords, salts, iteration counts, lengths", "why_tests_cant": "iteration count and length", "anchors": ["src/ecdh.rs: pbkdf2"]}
{"id": "C36", "title": "AES-CBC with padding round trips and rejects malformed input", "statement": "cbc_iv0_decrypt(cbc_iv0_encrypt(m)) = Some(m) for every message; ciphertexts whose length is not a positive multiple of 16 or whose padding is malformed give None.", "quantifier": "all keys, messages, ciphertexts", "why_tests_cant": "unbounded", "anchors": ["src/ecdh.rs: cbc_iv0_encrypt, cbc_iv0_decrypt"]}
{"id": "C37", "title": "ECIES decrypts what it encrypted and rejects altered tags", "statement": "ecies_decrypt with the matching private key and parameters returns the plaintext; any change of the tag is rejected; the caller's ciphertext vector is left unchanged.", "quantifier": "all messages, parameters, keys", "why_tests_cant": "unbounded", "anchors": ["src/ecdh.rs: ecies_encrypt, ecies_decrypt, ncomp"]}
{"id": "C38", "title": "ECDSA signatures verify; out of range signatures are rejected", "statement": "A signature made by ecpsp_dsa verifies under the matching public key; ecpvp_dsa rejects components that are zero or at least the group order.", "quantifier": "all keys, messages, nonces", "why_tests_cant": "group-size space", "anchors": ["src/ecdh.rs: ecpsp_dsa, ecpvp_dsa"]}
{"id": "C39", "title": "OAEP decoding inverts encoding and rejects other label, tampering or over-long messages", "statement": "oaep_decode(oaep_encode(m)) returns m and its length; messages longer than the capacity are refused; a wrong leading byte, label hash or separator gives 0.", "quantifier": "all messages, labels, seeds", "why_tests_cant": "unbounded", "anchors": ["src/rsa.rs: oaep_encode, oaep_decode, mgf1"]}
{"id": "C40", "title": "PKCS#1 v1.5 signature encoding", "statement": "pkcs15 writes 00 01 FF..FF 00 DigestInfo Hash of exactly the modulus length and fails only if that does not fit.", "quantifier": "all messages, all hash types and lengths", "why_tests_cant": "unbounded", "anchors": ["src/rsa.rs: pkcs15, mgf1, hashit"]}
{"id": "C41", "title": "RSA encryption and decryption are exact and invert each other", "statement": "encrypt writes m^e mod N for every odd modulus, exponent 1 <= e < 2^CHUNK and input; decrypt writes exactly the CRT value; for every well-formed two-prime key decrypt(encrypt(m)) = m and encrypt(decrypt(m)) = m for every m < N, on the RSA-2048 layouts of both limb sizes and RSA-3072/4096 with 64-bit limbs.", "quantifier": "all messages, all well-formed keys, all buffers", "why_tests_cant": "2^2048 keys and messages; the Karatsuba, Montgomery and lazy-reduction bounds are only stressed by extreme values", "anchors": ["src/rsa.rs: encrypt, decrypt", "src/ff.rs"]}
{"id": "C42", "title": "NewHope codecs", "statement": "nhs_unpack(nhs_pack(p)) = p for 14-bit coefficients; decode(encode(k)+noise) = k whenever the summed noise is below q/4 per coefficient group; Montgomery reduction is exact.", "quantifier": "all polynomials, keys, noise", "why_tests_cant": "2^14336", "anchors": ["src/nhs.rs: nhs_pack, nhs_unpack, encode, decode, redc, nres, modmul, compress, decompress"]}
{"id": "C43", "title": "NewHope NTT", "statement": "intt(pointwise(ntt a, ntt b)) is the product in Z_q[x]/(x^1024+1); intt inverts ntt; no i32 overflow.", "quantifier": "all polynomials", "why_tests_cant": "q^1024", "anchors": ["src/nhs.rs: ntt, intt, poly_mul"]}
{"id": "C44", "title": "BLS secret keys are parsed strictly", "statement": "secret_key_from_bytes accepts exactly 32-byte strings denoting 1..r-1 (or 0..r-1 as coded) and secret_key_to_bytes inverts it.", "quantifier": "all byte strings", "why_tests_cant": "2^256", "anchors": ["src/bls381/core.rs: secret_key_from_bytes, secret_key_to_bytes"]}
{"id": "C45", "title": "BLS point serialisation, G1", "statement": "deserialize(serialize(P)) = P for compressed and uncompressed G1 points incl. infinity; deserialize rejects wrong lengths, wrong flags, out-of-field coordinates and off-curve points with the documented error.", "quantifier": "all points, all byte strings", "why_tests_cant": "byte-string space", "anchors": ["src/bls381/core.rs: serialize_g1, serialize_uncompressed_g1, deserialize_g1"]}
{"id": "C46", "title": "BLS sign/verify/aggregate are consistent", "statement": "Signatures made with a key verify with its public key, aggregates of valid signatures pass aggregate verification, empty aggregates and mismatched lists are refused, given two groups with correct operations and point codecs and a bilinear non-degenerate pairing.", "quantifier": "all keys, messages, list lengths", "why_tests_cant": "lists of any length", "anchors": ["src/bls381/core.rs", "src/bls381/basic.rs", "src/bls381/proof_of_possession.rs", "src/bls381/message_augmentation.rs", "src/bls.rs"]}
{"id": "C47", "title": "expand_message_xmd and hash_to_field follow the hash-to-curve draft", "statement": "expand_message_xmd returns exactly the requested number of bytes as specified, fails exactly for over-long requests, and hash_to_field reduces the right slices mod p.", "quantifier": "all messages, tags, lengths", "why_tests_cant": "unbounded", "anchors": ["src/hash_to_curve.rs"]}
{"id": "C48", "title": "The simplified SWU map over the prime field", "statement": "simplified_swu_fp returns the RFC 9380 point: it satisfies the equation of the isogenous curve and has the sign of the input, for every field element.", "quantifier": "all field elements", "why_tests_cant": "exceptional inputs", "anchors": ["src/hash_to_curve.rs: simplified_swu_fp"]}
{"id": "C49", "title": "Conditional moves and swaps", "statement": "cmove/cswap with d=1 replace/exchange exactly and with d=0 change nothing, at the Big, FP and ECP level.", "quantifier": "all values", "why_tests_cant": "bit-level masks over all words", "anchors": ["src/big.rs: cswap, cmove", "src/fp.rs: cswap, cmove"]}
{"id": "C50", "title": "M-PIN factor extraction is invertible and exact", "statement": "extract_factor turns the token of T into the token of T - (f mod 2^bits) H(id); restore_factor adds the same multiple, so the right factor restores the token byte for byte and a different factor gives a different token; extract_pin reads the PIN modulo 10000; recombine_g1 adds shares; strings that encode no point are refused with INVALID_POINT and left unchanged.", "quantifier": "all tokens, identities, factors, bit counts up to 32, hash types", "why_tests_cant": "token and identity spaces; the difference of two points is never checked against the group law by a test", "anchors": ["src/mpin.rs: hashit, extract_factor, restore_factor, extract_pin, recombine_g1", "src/ecp.rs: pinmul"]}
{"id": "C51", "title": "ROM constants are consistent", "statement": "For each curve configuration the stored modulus, Montgomery constants, generator and order satisfy the relations the arithmetic relies on (limbs in range, R2MODP = R^2 mod p, MCONST, generator on curve).", "quantifier": "every configuration shipped", "why_tests_cant": "each build enables only some curves; tests never compare ROM against definitions", "anchors": ["src/roms/*"]}
{"id": "C52", "title": "ECDH key pairs, public-key validation and key agreement", "statement": "key_pair_generate writes a scalar s below the group order and the uncompressed encoding of s times the generator; public_key_validate accepts a point exactly when it and its cofactor multiple are not infinity; ecpsvdp_dh writes the x coordinate of s times the peer's point or reports an error, and both parties obtain the same bytes.", "quantifier": "all random states, given scalars, peer points", "why_tests_cant": "group-size space", "anchors": ["src/ecdh.rs: key_pair_generate, public_key_validate, ecpsvdp_dh"]}
{"id": "C53", "title": "Random integers are uniform bits reduced below the modulus", "statement": "Big::random and Big::randomnum turn a fixed number of generator bytes into an integer (least significant bit of each byte first); randomnum reduces twice the modulus length and always returns a value below the modulus; neither panics.", "quantifier": "all generator states, all moduli", "why_tests_cant": "state space of the generator", "anchors": ["src/big.rs: random, randomnum"]}
{"id": "C54", "title": "NewHope key exchange agrees", "statement": "server_1, client and server_2 never panic on buffers of the documented lengths, whatever bytes the peer sends; server_1 sends the seed and the packed values of a*s+e; server_2 computes client's key whenever the noise combination e*sd - ed*s + ed2 stays within the decoding radius left by compression.", "quantifier": "all generator states, all peer messages, all noise polynomials", "why_tests_cant": "2^(8*8224) runs", "anchors": ["src/nhs.rs: server_1, client, server_2, error, parse"]}
{"id": "C55", "title": "hash_to_curve_g1 returns the RFC 9380 point", "statement": "iso11_to_ecp sends every point of the isogenous curve outside the kernel to the RFC's image on BLS12-381; map_to_curve_g1 maps every field element to a curve point; hash_to_curve_g1 returns h_eff * (map(u0) + map(u1)) for the two field elements of hash_to_field, for every message and tag.", "quantifier": "all points, field elements, messages, tags", "why_tests_cant": "exceptional points of the isogeny are never hit by test vectors", "anchors": ["src/bls381/iso.rs: iso11_to_ecp", "src/bls381/core.rs: map_to_curve_g1, hash_to_curve_g1"]}
{"id": "C56", "title": "mapit returns the cofactor multiple of the first usable point", "statement": "ECP::mapit reads the digest modulo p and returns the cofactor multiple of the even-ordinate point at the first abscissa from there on whose multiple is not infinity; it returns nothing else; the image is unique.", "quantifier": "all digests, all Weierstrass ROMs with an odd group order and headroom", "why_tests_cant": "which abscissas are skipped depends on quadratic residuosity of every candidate", "anchors": ["src/ecp.rs: mapit, cfp, new_bigint"]}
{"id": "C57", "title": "RSA-3072/4096 round trip on 32-bit limbs", "statement": "With 32-bit limbs and RSA-3072 or RSA-4096 keys decrypt(encrypt(m)) = m and encrypt(decrypt(m)) = m for every m < N.", "quantifier": "all messages, all well-formed keys", "why_tests_cant": "only seven (nine) spare bits per Big: the lazily reduced values of the private-key ladder must never outgrow them", "anchors": ["src/rsa.rs: encrypt, decrypt", "src/ff.rs: skpow, modmul, modsqr", "src/roms/rom_rsa3072_32.rs", "src/roms/rom_rsa4096_32.rs"]}
{"id": "C58", "title": "Square roots in the quadratic extension", "statement": "FP2::sqrt never panics; when it answers true the object left behind squares to the input; it answers true exactly for the squares that are not real non-residues, and leaves zero behind otherwise.", "quantifier": "all elements of F_p(i) for bls381 and bn254, both limb sizes", "why_tests_cant": "the set of squares", "anchors": ["src/fp2.rs: sqrt"]}
{"id": "C59", "title": "The simplified SWU map over the quadratic extension", "statement": "simplified_swu_fp2 returns the RFC 9380 point of E2': the RFC's x, a y with y^2 = g(x) and the sign of the input; it panics exactly when the value whose root is taken is a real non-residue.", "quantifier": "all elements of F_p(i)", "why_tests_cant": "the panicking inputs form a set of density about 1/p", "anchors": ["src/hash_to_curve.rs: simplified_swu_fp2"]}
{"id": "C60", "title": "BLS point serialisation, G2", "statement": "serialize_g2 and serialize_uncompressed_g2 write the ZCash encoding of the point; deserialize_g2 of an encoding returns the point; every other byte string is refused with the error its length and flags call for. False, with witnesses, for compressed points whose y has a zero component: a purely imaginary y is written but refused on reading, and with a real y a point and its opposite are written as the same bytes.", "quantifier": "all points of the twist, all byte strings", "why_tests_cant": "byte-string space; the failing points have density about 1/p", "anchors": ["src/bls381/core.rs: serialize_g2, serialize_uncompressed_g2, deserialize_g2, zcash_cmp_fp2", "src/ecp2.rs: new_fp2s, new_fp2, affine, neg, getx, gety"]}
{"id": "C61", "title": "G2 point arithmetic computes the group law of the twist", "statement": "ECP2 add, dbl, sub, neg, equals, is_infinity, affine and the two-coordinate constructor compute the chord-and-tangent law of y^2 = x^3 + b' over F_p(i), for every pair of points (equal, opposite, infinity included) and every projective representation within the excess bounds; no word overflows; the law is a commutative group.", "quantifier": "all points and representations, BLS12-381 (M twist) and BN254 (D twist), both limb sizes", "why_tests_cant": "exceptional pairs and excess counters; associativity is not testable", "anchors": ["src/ecp2.rs: add, dbl, sub, neg, equals, is_infinity, affine, new_fp2s"]}
{"id": "C62", "title": "G2 scalar multiplication is exact for every scalar", "statement": "ECP2::mul(e) returns e times the point in affine form for every scalar up to the Big range less four bits, never a panic; e(fP) = f(eP) and (e+f)P = eP + fP.", "quantifier": "all points, all scalars", "why_tests_cant": "2^400 scalars; the recoding correction and the odd/even cases", "anchors": ["src/ecp2.rs: mul, selector, cmove, teq, dbl, add, sub"]}
{"id": "C63", "title": "G1 multiplication with the endomorphism agrees with plain multiplication on the subgroup, and the G1 subgroup check is sound and complete for it", "statement": "pair::g1mul(P, e) on BLS12-381 returns e P in affine form for every P in the subgroup generated by the standard generator and every e below (n+1) x^2, never a panic. subgroup_check_g1 accepts every such P, and every curve point it accepts satisfies n P = infinity. Outside the subgroup g1mul need not be e P.", "quantifier": "all points of the subgroup and all scalars; all curve points for the check", "why_tests_cant": "the decomposition depends on 255-bit quotients and on the endomorphism eigenvalue; soundness is about every curve point outside the subgroup", "anchors": ["src/pair.rs: glv, g1mul", "src/ecp.rs: mulx, mul2", "src/bls381/core.rs: subgroup_check_g1"]}
{"id": "C68", "title": "The G1 subgroup check decides membership in G1", "statement": "On BLS12-381, for every point of the curve in any projective representation, subgroup_check_g1 returns (never panics) true exactly when the point is a multiple of the standard generator; G1 has exactly n points; and on every point that passed the check g1mul is scalar multiplication.", "quantifier": "every curve point, both limb sizes, every scalar below (n+1) x^4", "why_tests_cant": "that no point outside the group of order n passes is a statement about all 2^381 points of the curve; tests try a handful of points", "anchors": ["src/bls381/core.rs:subgroup_check_g1", "src/pair.rs:g1mul", "src/ecp.rs:mulx"]}
{"id": "C69", "title": "The implemented G1 satisfies the laws the BLS schemes need; G1-side operations to the byte", "statement": "On BLS12-381 the implemented G1 (generator, g1mul with scalars below n, add, neg, serialize_g1, deserialize_g1, subgroup_check_g1) satisfies every group law assumed by C46. Hence a public key in G1 is the compressed encoding of sk times the generator, a signature in G1 is the compressed encoding of sk times the message hash, aggregation of encodings gives the compressed encoding of the sum, and a G1 signature verifies exactly when it encodes l times the hash for the exponent l of the public key.", "quantifier": "all secret keys, messages, byte strings and lists, both limb sizes, any hash function into G1, any second group and pairing with the laws", "why_tests_cant": "exactness of verification needs that no byte string outside the group is accepted, and the byte-level claims range over all keys and all point lists", "anchors": ["src/bls381/core.rs:core_sign_g1,core_verify_g1,aggregate_g1,secret_key_to_public_key_g2", "src/ecp.rs:generator", "src/pair.rs:g1mul"]}
{"id": "C70", "title": "BLS key pairs from a random generator", "statement": "From any random generator in a usable state, generating a BLS key pair never panics: it draws 32 bytes from the generator, the secret key is the big-endian encoding of the draft's KeyGen of exactly those bytes with empty key info, and the public key encodes that multiple of the generator of its group; for public keys in G1 it is the 48-byte compressed encoding.", "quantifier": "all generator states reachable by seeding and drawing, both limb sizes, both build modes, either public key group", "why_tests_cant": "an expect() on an error sits on the path of every random draw, and the relation of the two halves must hold for every draw", "anchors": ["src/bls381/core.rs:key_pair_generate_g1,key_pair_generate_g2,key_generate", "src/rand.rs:getbyte"]}
