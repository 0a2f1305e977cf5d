{
"C01": ["proved", ""],
"C02": ["proved", ""],
"C03": ["proved", ""],
"C04": ["proved", "exact under the stated limb headroom"],
"C05": ["proved", ""],
"C06": ["proved", ""],
"C07": ["proved", ""],
"C08": ["proved", "powmod for modulus > 1; modulus 1 is refuted (x^0 mod 1 returns 1)"],
"C09": ["proved", "also: does not terminate on multiples of p"],
"C10": ["proved", "full Jacobi symbol through a proof of quadratic reciprocity; even moduli and moduli <= 1 answered 0"],
"C11": ["proved", "every configuration; the result can be inverse + 2^(8 MODBYTES), see C11_invmod2m_reduced_refuted"],
"C12": ["proved", "Big::monty and the field reductions (NotSpecial, pseudo-Mersenne, generalised Mersenne); MontgomeryFriendly is unused by any ROM"],
"C13": ["proved", "for every shipped ROM but fp512bn/32 (inconsistent), nums384/32 (refuted: overflow) and goldilocks (refuted for large excess, proved op by op under the smaller bound); multiplication by the integer 0 and un-normalised sums refuted"],
"C14": ["proved", "sign and bytes after reduce(); without it refuted"],
"C15": ["proved", "primality of p is a hypothesis of the inverse theorem"],
"C16": ["proved", "primality of p is a hypothesis"],
"C17": ["proved", "strings modelled as lists of hex digit values"],
"C18": ["proved", ""],
"C21": ["proved", "Weierstrass curves without 2-torsion of the named kind and Edwards curves with a square and d non-square; the Montgomery curve is separate"],
"C22": ["proved", "round trips for writable objects (z not 1, or limbs reduced, or nonzero coordinates on non-special fields); refuted for -(-G) on special moduli and for compressed points of nums256w; the Montgomery curve is not covered"],
"C23": ["proved", "scalars within the stated range"],
"C24": ["proved", "other key lengths: the nominal length is rounded down to whole words (shown); tables are FIPS-197 (derived from GF(2^8))"],
"C25": ["proved", ""],
"C26": ["proved", "CTR counter is little-endian from byte 0; debug builds panic when its byte 0 is 255 (refuted); unsupported mode numbers leave data in clear (refuted)"],
"C27": ["proved", "release builds; debug builds panic on overflow (refuted); unsupported key lengths are silently accepted (refuted)"],
"C28": ["proved", "release builds"],
"C29": ["proved", "also hex2bytes"],
"C30": ["proved", "SHA-256/384/512; debug builds below 2^W message bits only (beyond: refuted for HASH256)"],
"C31": ["proved", "for all three hash files"],
"C32": ["proved", "every digest length 1..99, any output length; zero-length output and repeated digests without init refuted"],
"C33": ["proved", "non-empty seeds; for an empty seed (rawlen = 0) history independence is refuted"],
"C34": ["proved", "kdf1 is shown to compute something other than ISO 18033-2 KDF1 (refuted)"],
"C35": ["partial", "RFC 8018 for one iteration or SHA-512 and fitting sizes; exact result of the code in all other cases; RFC 8018 refuted for SHA-256 with 2 iterations, salts over 32 bytes, outputs over 64 bytes, small fields"],
"C36": ["proved", "keys of unusable length are silently accepted (refuted)"],
"C39": ["proved", "OAEP encode/decode: exact image, iff characterisation of decoding, round trip, capacity, label check. A decoded empty message is indistinguishable from a failure (length 0). With SHA-256 the mask is not the RFC 8017 one: refuted."],
"C40": ["proved", "EMSA-PKCS1-v1_5 encoding for SHA-256/384/512, too-short refusal, binding to the digest."],
"C19": ["proved", "non-special moduli (all pairing curves); mul needs 4*excess of the second operand <= FEXCESS, without it refuted; primality of p is a hypothesis of inverse"],
"C20": ["proved", "pairing curves with the stated room (bls381, bls383, bls48, bn254, bn254cx, fp256bn, fp512bn/64); pow on 64-bit ROMs, pow4 and the trace-based compow not covered"],
"C37": ["proved", "any curve satisfying ec_group (instances: secp256k1, both limb sizes); encryption, decryption and round trip; tags shorter than 4 bytes are never checked and tags longer than 32 panic (refuted)"],
"C38": ["proved", "any curve satisfying ec_group (instances: secp256k1); signing produces a signature in the sense of the standard, verification is exactly the ECDSA equation; a zero mask makes signing loop forever (refuted)"],
"C52": ["proved", "any curve satisfying ec_group (instances: secp256k1); the zero scalar is not excluded by key_pair_generate and yields the bytes of (0,1)"],
"C53": ["proved", ""],
"C42": ["proved", "the decoding bound 12287 per group is shown tight"],
"C43": ["proved", "intt needs reduced input (as the code always gives it)"],
"C54": ["proved", "agreement under an explicit bound on the noise (the scheme has a non-zero failure probability; probabilities are not modelled)"],
"C44": ["proved", "as coded: 0..n-1 accepted; key_generate is the draft KeyGen"],
"C45": ["proved", "G1, both formats, every byte string; G2 is C60"],
"C60": ["proved", "both ROMs, every byte string; compressed points whose y has a zero component are the refuted part (C60_imaginary_y_refuted, C60_real_y_refuted)"],
"C46": ["proved", "for every pair of groups and pairing with the stated laws (grp_ok, pairs_ok): ECP2, the pairing and hash_to_curve enter as hypotheses; the G1 codec and the secret-key functions are the modelled ones; src/bls.rs not covered"],
"C47": ["proved", "expand_message_xmd for SHA-256/384/512; hash_to_field for bls381; usize taken as 64 bits"],
"C48": ["proved", "both ROMs, every input; the quadratic extension is C59"],
"C58": ["proved", "completeness for real non-residues is refuted (C58_sqrt_refuted)"],
"C59": ["partial", "64-bit limbs only; totality refuted (C59_sswu_fp2_refuted)"],
"C55": ["proved", "64-bit limbs; inputs mapped to the kernel of the isogeny are refuted (C55_map_to_curve_g1_refuted)"],
"C49": ["proved", "Big, FP and ECP levels"],
"C51": ["partial", "limb ranges, reduction constants, generator on curve for all; primality of the modulus for 10 and of the order for 4 configurations, exact order of the generator for secp256k1 and bls381; fp512bn/32 and MOD8 refuted"],
"C50": ["proved", "G1 part of M-Pin on Montgomery-representation curves without 2-torsion (instances bls381 and bn254, both limb sizes); abscissa 0 and infinity excluded because tobytes writes them in non-decodable form"],
"C56": ["proved", "the unbounded trial loop is modelled with a fuel argument larger than the number of skipped candidates"],
"C41": ["proved", "key generation is not modelled (its postcondition is rsa_keypair); e = 0 refuted"],
"C57": ["partial", "proved unless a factor lies in the top 1/129 (3072) or 1/513 (4096) of its range"],
"C61": ["proved", "for every ROM meeting g2_curve; shown for bls381 and bn254, both limb sizes"],
"C62": ["proved", "mul only; mul4 is not covered by this claim"],
"C63": ["proved", "soundness concludes n P = infinity here; C68 strengthens it to membership in the subgroup"],
"C68": ["proved", "both bls381 limb sizes; no assumption on the number of points of the curve"],
"C69": ["proved", "the hash to G1 is a parameter (any function whose result is in G1); the other group and the pairing enter through the laws of Spec/BlsSchemeSpec.v"],
"C70": ["proved", "the group of the public key enters through the laws of Spec/BlsSchemeSpec.v; for G1 they are proved (C69) and the bytes are given"]
}
