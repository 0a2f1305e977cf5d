#!/usr/bin/env python3
"""Regenerates /verif/properties.jsonl (one JSON object per line)."""
import json,os
P=[]
def p(i,title,statement,quant,why,anchors):
    P.append(dict(id=i,title=title,statement=statement,quantifier=quant,why_tests_cant=why,anchors=anchors))
p("C01","Big integers survive byte encoding","Writing a normalised big integer with tobytes and reading it back with frombytes yields the same integer, reading any MODBYTES-long big-endian string yields exactly its value, and writing that value gives the string back; no arithmetic overflow or out-of-bounds access occurs.","every curve configuration (32/64-bit word, limb size, byte length), every value below 2^(8*MODBYTES), every byte string","2^256..2^512 values and ~60 ROM configurations",["src/big.rs: Big::tobytes, Big::tobytearray, Big::frombytes, Big::frombytearray, Big::fshl, Big::fshr"])
p("C02","Normalisation preserves the number","norm leaves the represented integer unchanged, makes every limb but the top one canonical, and its return value is exactly the excess above 8*MODBYTES bits.","every limb vector in the headroom of the word","limb vectors with arbitrary signed carries cannot be enumerated",["src/big.rs: Big::norm","src/dbig.rs: DBig::norm"])
p("C03","Comparison is integer order","comp (and Eq/Ord built on it) returns -1/0/1 exactly as the represented integers compare, for normalised operands.","all pairs of normalised numbers, all configurations","pairs of 256+ bit numbers",["src/big.rs: Big::comp, PartialEq, Ord","src/dbig.rs: DBig::comp"])
p("C04","Limb-wise addition, subtraction and small multiples are exact","add/sub/rsub/plus/minus/dbl/imul/inc/dec/pmul/pxmul compute the exact integer result without overflow as long as the limbs stay within the stated headroom.","all operands in the headroom","overflow shows only at extreme limbs",["src/big.rs: Big::add, sub, rsub, plus, minus, dbl, imul, inc, dec, pmul, pxmul, muladd"])
p("C05","Shifts are exact","fshl/shl multiply by 2^k and fshr/shr floor-divide by 2^k; fshr returns the bits shifted out; mod2m keeps the value mod 2^m; bit and lastbits read the binary expansion.","all normalised values, all legal shift amounts","value x shift amount space",["src/big.rs: fshr, shr, fshl, shl, mod2m, lastbits, bit, parity, nbits","src/dbig.rs: shl, shr, mod2m, nbits"])
p("C06","Multiplication and squaring are exact","mul and sqr return the exact double-length product of the operands, with no overflow of the double-width accumulator, for every pair of operands within the excess bound.","all operand pairs, all configurations","carry chains depend on all limbs at once",["src/big.rs: Big::mul, Big::sqr, Big::smul"])
p("C07","Division and reduction are exact and terminate","rmod/dmod return x mod m in [0,m) and div returns floor(x/m), for every x and every m>0, in a bounded number of steps and without overflow.","all x, all positive m that fit","shift-subtract loop runs a data-dependent number of times",["src/big.rs: rmod, div","src/dbig.rs: dmod, div"])
p("C08","Modular multiplication, squaring, negation and powering","modmul, modsqr, powmod return the canonical residue of the mathematical result; modneg returns a representative of the negation.","all operands, all moduli","exponent length unbounded by tests",["src/big.rs: modmul, modsqr, modneg, powmod"])
p("C09","Modular inverse","invmodp terminates and returns x^-1 mod p, in [0,p), for every x coprime to odd p.","all odd moduli p and all x with gcd(x,p)=1","binary gcd trajectory is data dependent",["src/big.rs: invmodp"])
p("C10","Jacobi symbol","jacobi returns the Jacobi symbol (x/p): in particular it returns 0 exactly when x and p share a factor.","all x and all odd p>1","data-dependent loop",["src/big.rs: jacobi"])
p("C11","Inversion modulo powers of two","invmod256 returns the inverse modulo 256 of every odd number and invmod2m, for every limb layout and every odd input, an inverse modulo 2^BIGBITS (which may be one period too large).","all odd inputs","domain of invmod2m is 2^255+",["src/big.rs: invmod256, invmod2m"])
p("C12","Montgomery reduction","Reducing a double-length number d with the ROM constants returns a number congruent to d*R^-1 modulo the field prime and smaller than twice the prime, without overflow of any accumulator.","every d below p*R, every NotSpecial ROM","carry and excess behaviour at extremes",["src/big.rs: Big::monty","src/fp.rs: FP::modulo","src/roms/*"])
p("C13","Field element arithmetic is arithmetic mod p for every operation history","Any sequence of new/add/sub/neg/mul/sqr/dbl/imul/div2/reduce/norm on field elements denotes the same expression in Z/pZ, the lazy-reduction excess never exceeds the bound, and no word overflows.","every finite sequence of field operations on every inputs","lazy reduction makes correctness depend on operation history",["src/fp.rs: FP::add, sub, neg, rsub, mul, sqr, dbl, imul, div2, reduce, nres, redc"])
p("C14","Field equality, zero test and sign depend only on the field element","Two field elements that compare equal have the same zero test, the same redc()/tostring() and the same sgn0().","all reachable representations of a field element","non-canonical representations arise only from particular operation histories",["src/fp.rs: equals, iszilch, redc, tostring, sgn0"])
p("C15","Field exponentiation and inversion","pow returns x^e mod p and inverse returns the multiplicative inverse for every non-zero x (p prime).","all x, all exponents","exponents of field size",["src/fp.rs: pow, inverse, fpow"])
p("C16","Field square root","sqrt returns a square root of every quadratic residue.","all quadratic residues","field size",["src/fp.rs: sqrt"])
p("C17","Hex strings round trip","fromstring(tostring(x)) = x for every non-negative big integer that fits; tostring always prints at least 2*MODBYTES upper-case hex digits.","all values","value space",["src/big.rs: tostring, fromstring","src/dbig.rs: to_string"])
p("C18","Bit length","nbits returns the binary length of the represented integer (0 for 0).","all values","value space",["src/big.rs: nbits","src/dbig.rs: nbits"])
p("C19","Quadratic extension arithmetic","FP2 add/sub/neg/conj/mul/sqr/inverse/div_ip/mul_ip are the operations of Fp[i]/(i^2+1).","all elements, any field of odd characteristic","algebraic identity over whole field",["src/fp2.rs"])
p("C20","Tower arithmetic","FP4 and FP12 multiplication, squaring, conjugation and inversion are the ring operations of the tower, and the sparse multiplications agree with the dense one.","all elements","algebraic identity over whole field; sparsity case analysis",["src/fp4.rs","src/fp12.rs"])
p("C21","Elliptic curve addition and doubling are complete","ECP add and dbl map points of the curve to points of the curve and implement the chord-and-tangent law, including infinity, doubling and inverse cases.","all pairs of curve points","exceptional cases are measure-zero for random tests",["src/ecp.rs: add, dbl, neg, sub, affine, equals"])
p("C22","Point encodings","frombytes(tobytes(P)) = P for every affine curve point, and frombytes never returns a point off the curve, whatever the bytes.","all byte strings, all points","byte-string space",["src/ecp.rs: tobytes, frombytes, new_bigs, new_bigint"])
p("C23","Scalar multiplication","mul(e) returns e times the point and mul2(e,Q,f) returns e*P+f*Q for every scalar.","all scalars, all points","scalar space; signed-window recoding depends on every digit",["src/ecp.rs: mul, mul2, pinmul, selector"])
p("C24","AES block cipher is FIPS-197","For every key of 16, 24 or 32 bytes, ecb_encrypt equals the AES cipher as defined by SubBytes/ShiftRows/MixColumns/AddRoundKey and the FIPS-197 key expansion; init rejects any other key length class and leaves the key untouched.","all keys, all blocks","2^256 x 2^128",["src/aes.rs: AES::init, ecb_encrypt"])
p("C25","AES decryption inverts encryption","ecb_decrypt(ecb_encrypt(b)) = b and conversely for every key and block.","all keys, all blocks","2^256 x 2^128",["src/aes.rs: ecb_decrypt"])
p("C26","Cipher modes round trip","Two AES objects initialised with the same mode, key and IV: decrypting the sequence of encrypted blocks returns the original (the processed prefix of each block) for ECB, CBC, CFB, OFB, CTR and any number of blocks; untouched bytes stay untouched.","all modes, keys, IVs and block sequences of any length","unbounded sequences",["src/aes.rs: encrypt, decrypt, reset, increment"])
p("C27","GCM follows SP 800-38D","After init/add_header/add_plain/finish(true) the ciphertext and tag equal GCM-AE of SP 800-38D for the same key, IV, header and plaintext (any IV length).","all keys, IVs, headers, plaintexts","unbounded lengths",["src/gcm.rs"])
p("C28","GCM decryption inverts encryption and reproduces the tag","Feeding the ciphertext to add_cipher returns the plaintext and finish(true) yields the same tag.","all keys, IVs, headers, plaintexts","unbounded lengths",["src/gcm.rs: add_plain, add_cipher, finish"])
p("C29","GCM calls must come in order and chunk freely at block boundaries","add_header is refused after any data or partial header block; data is refused after a partial block or finish; a refused call changes nothing; splitting header or data over several calls at multiples of 16 bytes gives the same ciphertext and tag.","all call sequences","call histories",["src/gcm.rs: add_header, add_plain, add_cipher, finish, ghash"])
p("C30","SHA-2 objects compute FIPS 180-4 hashes of everything fed since the last reset","process/process_array/process_num in any chunking followed by hash gives SHA-256/384/512 of the concatenated bytes, and hash leaves the object ready for a new message.","all messages below the length limit, all chunkings","unbounded messages and histories",["src/hash256.rs","src/hash384.rs","src/hash512.rs"])
p("C31","HMAC and HKDF follow RFC 2104 and RFC 5869","HASH256::hmac, HASH512::hmac, hkdf_extract and hkdf_extend equal the RFC definitions for all keys, texts and output lengths.","all keys, texts, lengths 0..255","unbounded",["src/hash256.rs: hmac, hkdf_extract, hkdf_extend","src/hash512.rs"])
p("C32","SHA-3 and SHAKE follow FIPS 202","Streaming process followed by hash/shake equals the Keccak sponge with the FIPS 202 padding for every message and output length.","all messages, output lengths, rates","unbounded",["src/sha3.rs"])
p("C33","The random generator is a total deterministic function of its seed","After seed, the byte stream is determined by the seed bytes alone (whatever the object's earlier history), never indexes outside its pool and consists of successive 32-byte SHA-256 blocks.","all seeds, all histories of getbyte, all lengths","histories",["src/rand.rs"])
p("C34","KDF and HMAC of the ECDH module","kdf2 returns the first olen bytes of Hash(z||1||p)||Hash(z||2||p)||...; hmac returns the RFC 2104 tag truncated/padded to olen; ecdh hmac refuses tags shorter than 4 bytes.","all inputs, all lengths","unbounded",["src/ecdh.rs: hashit, kdf1, kdf2, hmac"])
p("C35","PBKDF2 follows RFC 8018","pbkdf2 returns the RFC 8018 derived key.","all passwords, salts, iteration counts, lengths","iteration count and length",["src/ecdh.rs: pbkdf2"])
p("C36","AES-CBC with padding round trips and rejects malformed input","cbc_iv0_decrypt(cbc_iv0_encrypt(m)) = Some(m) for every message; ciphertexts whose length is not a positive multiple of 16 or whose padding is malformed give None.","all keys, messages, ciphertexts","unbounded",["src/ecdh.rs: cbc_iv0_encrypt, cbc_iv0_decrypt"])
p("C37","ECIES decrypts what it encrypted and rejects altered tags","ecies_decrypt with the matching private key and parameters returns the plaintext; any change of the tag is rejected; the caller's ciphertext vector is left unchanged.","all messages, parameters, keys","unbounded",["src/ecdh.rs: ecies_encrypt, ecies_decrypt, ncomp"])
p("C38","ECDSA signatures verify; out of range signatures are rejected","A signature made by ecpsp_dsa verifies under the matching public key; ecpvp_dsa rejects components that are zero or at least the group order.","all keys, messages, nonces","group-size space",["src/ecdh.rs: ecpsp_dsa, ecpvp_dsa"])
p("C39","OAEP decoding inverts encoding and rejects other label, tampering or over-long messages","oaep_decode(oaep_encode(m)) returns m and its length; messages longer than the capacity are refused; a wrong leading byte, label hash or separator gives 0.","all messages, labels, seeds","unbounded",["src/rsa.rs: oaep_encode, oaep_decode, mgf1"])
p("C40","PKCS#1 v1.5 signature encoding","pkcs15 writes 00 01 FF..FF 00 DigestInfo Hash of exactly the modulus length and fails only if that does not fit.","all messages, all hash types and lengths","unbounded",["src/rsa.rs: pkcs15, mgf1, hashit"])
p("C41","RSA encryption and decryption are exact and invert each other","encrypt writes m^e mod N for every odd modulus, exponent 1 <= e < 2^CHUNK and input; decrypt writes exactly the CRT value; for every well-formed two-prime key decrypt(encrypt(m)) = m and encrypt(decrypt(m)) = m for every m < N, on the RSA-2048 layouts of both limb sizes and RSA-3072/4096 with 64-bit limbs.","all messages, all well-formed keys, all buffers","2^2048 keys and messages; the Karatsuba, Montgomery and lazy-reduction bounds are only stressed by extreme values",["src/rsa.rs: encrypt, decrypt","src/ff.rs"])
p("C42","NewHope codecs","nhs_unpack(nhs_pack(p)) = p for 14-bit coefficients; decode(encode(k)+noise) = k whenever the summed noise is below q/4 per coefficient group; Montgomery reduction is exact.","all polynomials, keys, noise","2^14336",["src/nhs.rs: nhs_pack, nhs_unpack, encode, decode, redc, nres, modmul, compress, decompress"])
p("C43","NewHope NTT","intt(pointwise(ntt a, ntt b)) is the product in Z_q[x]/(x^1024+1); intt inverts ntt; no i32 overflow.","all polynomials","q^1024",["src/nhs.rs: ntt, intt, poly_mul"])
p("C44","BLS secret keys are parsed strictly","secret_key_from_bytes accepts exactly 32-byte strings denoting 1..r-1 (or 0..r-1 as coded) and secret_key_to_bytes inverts it.","all byte strings","2^256",["src/bls381/core.rs: secret_key_from_bytes, secret_key_to_bytes"])
p("C45","BLS point serialisation, G1","deserialize(serialize(P)) = P for compressed and uncompressed G1 points incl. infinity; deserialize rejects wrong lengths, wrong flags, out-of-field coordinates and off-curve points with the documented error.","all points, all byte strings","byte-string space",["src/bls381/core.rs: serialize_g1, serialize_uncompressed_g1, deserialize_g1"])
p("C46","BLS sign/verify/aggregate are consistent","Signatures made with a key verify with its public key, aggregates of valid signatures pass aggregate verification, empty aggregates and mismatched lists are refused, given two groups with correct operations and point codecs and a bilinear non-degenerate pairing.","all keys, messages, list lengths","lists of any length",["src/bls381/core.rs","src/bls381/basic.rs","src/bls381/proof_of_possession.rs","src/bls381/message_augmentation.rs","src/bls.rs"])
p("C47","expand_message_xmd and hash_to_field follow the hash-to-curve draft","expand_message_xmd returns exactly the requested number of bytes as specified, fails exactly for over-long requests, and hash_to_field reduces the right slices mod p.","all messages, tags, lengths","unbounded",["src/hash_to_curve.rs"])
p("C48","The simplified SWU map over the prime field","simplified_swu_fp returns the RFC 9380 point: it satisfies the equation of the isogenous curve and has the sign of the input, for every field element.","all field elements","exceptional inputs",["src/hash_to_curve.rs: simplified_swu_fp"])
p("C49","Conditional moves and swaps","cmove/cswap with d=1 replace/exchange exactly and with d=0 change nothing, at the Big, FP and ECP level.","all values","bit-level masks over all words",["src/big.rs: cswap, cmove","src/fp.rs: cswap, cmove"])
p("C50","M-PIN factor extraction is invertible and exact","extract_factor turns the token of T into the token of T - (f mod 2^bits) H(id); restore_factor adds the same multiple, so the right factor restores the token byte for byte and a different factor gives a different token; extract_pin reads the PIN modulo 10000; recombine_g1 adds shares; strings that encode no point are refused with INVALID_POINT and left unchanged.","all tokens, identities, factors, bit counts up to 32, hash types","token and identity spaces; the difference of two points is never checked against the group law by a test",["src/mpin.rs: hashit, extract_factor, restore_factor, extract_pin, recombine_g1","src/ecp.rs: pinmul"])
p("C51","ROM constants are consistent","For each curve configuration the stored modulus, Montgomery constants, generator and order satisfy the relations the arithmetic relies on (limbs in range, R2MODP = R^2 mod p, MCONST, generator on curve).","every configuration shipped","each build enables only some curves; tests never compare ROM against definitions",["src/roms/*"])
p("C52","ECDH key pairs, public-key validation and key agreement","key_pair_generate writes a scalar s below the group order and the uncompressed encoding of s times the generator; public_key_validate accepts a point exactly when it and its cofactor multiple are not infinity; ecpsvdp_dh writes the x coordinate of s times the peer's point or reports an error, and both parties obtain the same bytes.","all random states, given scalars, peer points","group-size space",["src/ecdh.rs: key_pair_generate, public_key_validate, ecpsvdp_dh"])
p("C53","Random integers are uniform bits reduced below the modulus","Big::random and Big::randomnum turn a fixed number of generator bytes into an integer (least significant bit of each byte first); randomnum reduces twice the modulus length and always returns a value below the modulus; neither panics.","all generator states, all moduli","state space of the generator",["src/big.rs: random, randomnum"])
p("C54","NewHope key exchange agrees","server_1, client and server_2 never panic on buffers of the documented lengths, whatever bytes the peer sends; server_1 sends the seed and the packed values of a*s+e; server_2 computes client's key whenever the noise combination e*sd - ed*s + ed2 stays within the decoding radius left by compression.","all generator states, all peer messages, all noise polynomials","2^(8*8224) runs",["src/nhs.rs: server_1, client, server_2, error, parse"])
p("C55","hash_to_curve_g1 returns the RFC 9380 point","iso11_to_ecp sends every point of the isogenous curve outside the kernel to the RFC's image on BLS12-381; map_to_curve_g1 maps every field element to a curve point; hash_to_curve_g1 returns h_eff * (map(u0) + map(u1)) for the two field elements of hash_to_field, for every message and tag.","all points, field elements, messages, tags","exceptional points of the isogeny are never hit by test vectors",["src/bls381/iso.rs: iso11_to_ecp","src/bls381/core.rs: map_to_curve_g1, hash_to_curve_g1"])
p("C56","mapit returns the cofactor multiple of the first usable point","ECP::mapit reads the digest modulo p and returns the cofactor multiple of the even-ordinate point at the first abscissa from there on whose multiple is not infinity; it returns nothing else; the image is unique.","all digests, all Weierstrass ROMs with an odd group order and headroom","which abscissas are skipped depends on quadratic residuosity of every candidate",["src/ecp.rs: mapit, cfp, new_bigint"])
p("C57","RSA-3072/4096 round trip on 32-bit limbs","With 32-bit limbs and RSA-3072 or RSA-4096 keys decrypt(encrypt(m)) = m and encrypt(decrypt(m)) = m for every m < N.","all messages, all well-formed keys","only seven (nine) spare bits per Big: the lazily reduced values of the private-key ladder must never outgrow them",["src/rsa.rs: encrypt, decrypt","src/ff.rs: skpow, modmul, modsqr","src/roms/rom_rsa3072_32.rs","src/roms/rom_rsa4096_32.rs"])
p("C58","Square roots in the quadratic extension","FP2::sqrt never panics; when it answers true the object left behind squares to the input; it answers true exactly for the squares that are not real non-residues, and leaves zero behind otherwise.","all elements of F_p(i) for bls381 and bn254, both limb sizes","the set of squares",["src/fp2.rs: sqrt"])
p("C59","The simplified SWU map over the quadratic extension","simplified_swu_fp2 returns the RFC 9380 point of E2': the RFC's x, a y with y^2 = g(x) and the sign of the input; it panics exactly when the value whose root is taken is a real non-residue.","all elements of F_p(i)","the panicking inputs form a set of density about 1/p",["src/hash_to_curve.rs: simplified_swu_fp2"])
p("C60","BLS point serialisation, G2","serialize_g2 and serialize_uncompressed_g2 write the ZCash encoding of the point; deserialize_g2 of an encoding returns the point; every other byte string is refused with the error its length and flags call for. False, with witnesses, for compressed points whose y has a zero component: a purely imaginary y is written but refused on reading, and with a real y a point and its opposite are written as the same bytes.","all points of the twist, all byte strings","byte-string space; the failing points have density about 1/p",["src/bls381/core.rs: serialize_g2, serialize_uncompressed_g2, deserialize_g2, zcash_cmp_fp2","src/ecp2.rs: new_fp2s, new_fp2, affine, neg, getx, gety"])
p("C61","G2 point arithmetic computes the group law of the twist","ECP2 add, dbl, sub, neg, equals, is_infinity, affine and the two-coordinate constructor compute the chord-and-tangent law of y^2 = x^3 + b' over F_p(i), for every pair of points (equal, opposite, infinity included) and every projective representation within the excess bounds; no word overflows; the law is a commutative group.","all points and representations, BLS12-381 (M twist) and BN254 (D twist), both limb sizes","exceptional pairs and excess counters; associativity is not testable",["src/ecp2.rs: add, dbl, sub, neg, equals, is_infinity, affine, new_fp2s"])
p("C62","G2 scalar multiplication is exact for every scalar","ECP2::mul(e) returns e times the point in affine form for every scalar up to the Big range less four bits, never a panic; e(fP) = f(eP) and (e+f)P = eP + fP.","all points, all scalars","2^400 scalars; the recoding correction and the odd/even cases",["src/ecp2.rs: mul, selector, cmove, teq, dbl, add, sub"])
p("C63","G1 multiplication with the endomorphism agrees with plain multiplication on the subgroup, and the G1 subgroup check is sound and complete for it","pair::g1mul(P, e) on BLS12-381 returns e P in affine form for every P in the subgroup generated by the standard generator and every e below (n+1) x^2, never a panic. subgroup_check_g1 accepts every such P, and every curve point it accepts satisfies n P = infinity. Outside the subgroup g1mul need not be e P.","all points of the subgroup and all scalars; all curve points for the check","the decomposition depends on 255-bit quotients and on the endomorphism eigenvalue; soundness is about every curve point outside the subgroup",["src/pair.rs: glv, g1mul","src/ecp.rs: mulx, mul2","src/bls381/core.rs: subgroup_check_g1"])
p("C68","The G1 subgroup check decides membership in G1","On BLS12-381, for every point of the curve in any projective representation, subgroup_check_g1 returns (never panics) true exactly when the point is a multiple of the standard generator; G1 has exactly n points; and on every point that passed the check g1mul is scalar multiplication.","every curve point, both limb sizes, every scalar below (n+1) x^4","that no point outside the group of order n passes is a statement about all 2^381 points of the curve; tests try a handful of points",["src/bls381/core.rs:subgroup_check_g1","src/pair.rs:g1mul","src/ecp.rs:mulx"])
p("C69","The implemented G1 satisfies the laws the BLS schemes need; G1-side operations to the byte","On BLS12-381 the implemented G1 (generator, g1mul with scalars below n, add, neg, serialize_g1, deserialize_g1, subgroup_check_g1) satisfies every group law assumed by C46. Hence a public key in G1 is the compressed encoding of sk times the generator, a signature in G1 is the compressed encoding of sk times the message hash, aggregation of encodings gives the compressed encoding of the sum, and a G1 signature verifies exactly when it encodes l times the hash for the exponent l of the public key.","all secret keys, messages, byte strings and lists, both limb sizes, any hash function into G1, any second group and pairing with the laws","exactness of verification needs that no byte string outside the group is accepted, and the byte-level claims range over all keys and all point lists",["src/bls381/core.rs:core_sign_g1,core_verify_g1,aggregate_g1,secret_key_to_public_key_g2","src/ecp.rs:generator","src/pair.rs:g1mul"])
p("C70","BLS key pairs from a random generator","From any random generator in a usable state, generating a BLS key pair never panics: it draws 32 bytes from the generator, the secret key is the big-endian encoding of the draft's KeyGen of exactly those bytes with empty key info, and the public key encodes that multiple of the generator of its group; for public keys in G1 it is the 48-byte compressed encoding.","all generator states reachable by seeding and drawing, both limb sizes, both build modes, either public key group","an expect() on an error sits on the path of every random draw, and the relation of the two halves must hold for every draw",["src/bls381/core.rs:key_pair_generate_g1,key_pair_generate_g2,key_generate","src/rand.rs:getbyte"])
out=os.path.join(os.path.dirname(os.path.abspath(__file__)),"..","properties.jsonl")
if __name__=="__main__":
    with open(out,"w") as f:
        for q in P: f.write(json.dumps(q)+"\n")
    print(len(P))
